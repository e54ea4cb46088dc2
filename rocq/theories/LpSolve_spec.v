(** Vocabulary for the comparison of the lpsolve solver with the GLPK solver. *)
From Verif Require Import Base LP_model Sys_model RouteLP_model LpSolve_model.
Open Scope Q_scope.

Definition lsolved (triv : bool) (S : sys) (c : setup_data) (d : data) (z : nat -> Q) : Prop :=
  exists L, lposed triv S c d = Ok L /\ feasible L z.
Definition lsolved_optimally (triv : bool) (S : sys) (c : setup_data) (d : data) (z : nat -> Q) : Prop :=
  exists L, lposed triv S c d = Ok L /\ optimal L z.

(** The aggregated nodes are still as they were at setup, and given by numbers. *)
Definition unchanged (S : sys) (c : setup_data) (d : data) : Prop :=
  forall a, In a (s_nodes S) -> s_kind S a = KAggregated ->
    q_min c a = Some (d_min d a) /\ q_max c a = Some (d_max d a) /\
    (s_has_factors S a = true -> q_fixed c a = true /\ q_factors c a = d_factors d a /\
       length (d_factors d a) = length (s_members S a)).

(** No number between 0 and 1e-8 in absolute value. *)
Definition no_trace (v : Q) : Prop := v == 0 \/ 1 # 100000000 <= v \/ v <= - (1 # 100000000).
Definition settled_end (e : ext) : Prop := match e with Fin v => no_trace v | _ => True end.
(** Limits that the GLPK solver does not adjust: neither they nor their distance is such a number. *)
Definition settled (mn mx : ext) : Prop :=
  settled_end mn /\ settled_end mx /\ match mn, mx with Fin a, Fin b => no_trace (b - a) | _, _ => True end.

(** Volume between its bounds and the possible changes per day settled. *)
Definition settled_store (d : data) (st : nat) : Prop :=
  d_minvol d st <= d_vol d st /\
  match d_maxvol d st with
  | Fin m => d_vol d st <= m /\
      settled (Fin (- (d_vol d st - d_minvol d st) / d_days d)) (Fin ((m - d_vol d st) / d_days d))
  | PInf => settled_end (Fin (- (d_vol d st - d_minvol d st) / d_days d))
  | NInf => False
  end.

Record settled_data (S : sys) (d : data) : Prop := {
  sd_days : 0 < d_days d;
  sd_flow : forall n, In n (s_nodes S) -> is_flow_node (s_kind S n) || is_aggregated (s_kind S n) = true ->
    settled (d_min d n) (d_max d n);
  sd_store : forall st, In st (s_nodes S) -> s_kind S st = KStorage -> settled_store d st;
  sd_virtual : forall v, In v (s_nodes S) -> s_kind S v = KVirtual ->
    if d_active d v then settled_store d v
    else match d_maxvol d v with Fin m => ~ m == d_minvol d v | _ => True end
}.
