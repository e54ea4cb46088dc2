(** When nothing that counts as constant changes, and when two problems are the same. *)
From Verif Require Import Base Paths Sorting Routes_model LP_model Sys_model RouteLP_model EdgeLP_model FixedOnce_model.
From Coq Require Import Permutation.
Open Scope Q_scope.

(** The problem that belongs to a moment and scenario, whatever was solved before. *)
Definition wanted (s : which) (triv : bool) (S : sys) (ws : world * nat) : result lp :=
  match s with ByRoutes => posed triv S (data_of (fst ws) (snd ws)) | ByEdges => eposed triv S (data_of (fst ws) (snd ws)) end.

(** The same columns and costs, and the same rows in some order. *)
Definition same_problem (P Q : lp) : Prop :=
  lp_ncols P = lp_ncols Q /\ Permutation (lp_rows P) (lp_rows Q) /\ forall c, (c < lp_ncols P)%nat -> lp_obj P c == lp_obj Q c.

(** In the timestep and scenario [ws] of a pass that began in [w1], after a set-up in [w0], what the options take for constant is
    so: the costs given as numbers are those of the set-up, the flows and factors those of the start of the pass. *)
Definition held (o : options) (S : sys) (w0 w1 : world) (ws : world * nat) : Prop :=
  (o_costs o = true -> forall n c, w_cost w0 n = Literal c -> get (w_cost (fst ws) n) (snd ws) = c) /\
  (o_flows o = true -> forall n, has_constant_flows w0 n = true ->
     constant (w_min w1 n) = Some (get (w_min (fst ws) n) (snd ws)) /\ constant (w_max w1 n) = Some (get (w_max (fst ws) n) (snd ws))) /\
  (o_factors o = true -> forall a, has_constant_factors w0 a = true ->
     map constant (w_factors w1 a) = map (fun p => Some (get p (snd ws))) (w_factors (fst ws) a)).

(** Of a history: the first pass sets the model up ([w0] is the world of the last set-up), every pass solves something. *)
Fixpoint steady (o : options) (S : sys) (w0 : option world) (l : list pass) : Prop :=
  match l with
  | [] => True
  | h :: l =>
      exists w, match h_setup h, w0 with Some _, _ => w = h_start h | None, Some w' => w = w' | None, None => False end /\
      h_solves h <> [] /\ (forall ws, In ws (h_solves h) -> held o S w (h_start h) ws) /\ steady o S (Some w) l
  end.
Definition all_solves (l : list pass) : list (world * nat) := flat_map h_solves l.

(** A parameter that says it is constant has that value in every scenario. *)
Definition honest {A} (a : attr A) : Prop := forall c, constant a = Some c -> forall si, get a si = c.
(** [w] has the numbers and constant parameters of [b]. *)
Record same_constants (b w : world) : Prop := {
  sc_cost : forall n c, w_cost b n = Literal c <-> w_cost w n = Literal c;
  sc_min : forall n, constant (w_min w n) = constant (w_min b n);
  sc_max : forall n, constant (w_max w n) = constant (w_max b n);
  sc_factors : forall a, map constant (w_factors w a) = map constant (w_factors b a);
  sc_min_honest : forall n, honest (w_min w n);
  sc_max_honest : forall n, honest (w_max w n);
  sc_factors_honest : forall a p, In p (w_factors w a) -> honest p
}.
(** The first pass sets up and every pass solves something. *)
Definition proper (l : list pass) : Prop :=
  match l with [] => True | h :: _ => h_setup h <> None end /\ forall h, In h l -> h_solves h <> [].
Definition worlds (l : list pass) : list world := flat_map (fun h => h_start h :: map fst (h_solves h)) l.
