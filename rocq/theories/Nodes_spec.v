(** What the theorems about the life cycle of nodes say. *)
From Verif Require Import Base LP_model Storage_model Periodic_model Nodes_model.
Local Open Scope nat_scope.
Local Open Scope list_scope.
Local Open Scope Q_scope.

Definition is_class (g : list node) (n : nat) (c : class) : Prop := exists d, nth_error g n = Some d /\ n_class d = c.

(** The flow of node [n] that the solver's answer means: what it commits to it, and for a storage what leaves it through its inputs
    and enters it through its outputs. *)
Definition part (g : list node) (n : nat) (e : nat * Q) : Q :=
  (if Nat.eqb (fst e) n then snd e else 0)
  + match nth_error g (fst e) with
    | Some {| n_class := StoreIn p |} => if Nat.eqb p n then - snd e else 0
    | Some {| n_class := StoreOut p |} => if Nat.eqb p n then snd e else 0
    | _ => 0
    end.
Definition solved (g : list node) (n : nat) (commits : list (nat * Q)) : Q := qsum (map (part g n) commits).

(** Nodes whose flow is just what is committed. *)
Definition simple (c : class) : Prop := match c with Plain | StoreIn _ | StoreOut _ | Storage _ => True | _ => False end.
(** Nodes that remember the flow they reported. *)
Definition remembers (c : class) : Prop :=
  match c with
  | Plain | StoreIn _ | StoreOut _ | Storage _ | Piecewise _ => True
  | Virtual _ _ (Seasonal _) => False
  | Virtual _ _ _ => True
  | _ => False
  end.
(** A member [m] of the compound node [n] whose flow is final when [n] adds up. *)
Definition settled (g : list node) (n m : nat) : Prop := (m < n)%nat \/ exists c, is_class g m c /\ simple c.

(** A model: every node number that occurs exists, children do not hold water, and storages know their first volume. *)
Definition starts (i : initial) : Prop := exists v p, get_initial_volume i = Some v /\ get_initial_pc i = Some p.
Definition node_ok (g : list node) (d : node) : Prop :=
  match n_class d with
  | StoreIn p | StoreOut p => (p < length g)%nat
  | Storage i => n_child d = false /\ starts i
  | AggStorage ms => n_child d = false /\ Forall (fun m => exists i, (is_class g m (Storage i) \/ exists l v, is_class g m (Virtual i l v)) /\ starts i) ms
  | Virtual i _ _ => n_child d = false /\ starts i
  | _ => True
  end.
Definition graph_ok (g : list node) : Prop := Forall (node_ok g) g.

(** ** Running a model twice
    Components (parameters, recorders, ...) have a memory [M] and values [V].  [values] are calculated anew in every timestep and left as
    they are by a reset.  The solver is a function of what it is given. *)
Record program (M V : Type) := Program {
  p_reset : M -> M;
  p_before : tstep -> state -> M -> M;
  p_values : tstep -> state -> M -> V;
  p_bounds : V -> bounds;
  p_solve : tstep -> state -> M -> V -> list (nat * Q);
  p_after : tstep -> state -> M -> V -> M }.
Arguments p_reset {M V}. Arguments p_before {M V}. Arguments p_values {M V}. Arguments p_bounds {M V}. Arguments p_solve {M V}. Arguments p_after {M V}.

Record whole (M V : Type) := Whole { w_nodes : state; w_memory : M; w_values : V }.
Arguments Whole {M V}. Arguments w_nodes {M V}. Arguments w_memory {M V}. Arguments w_values {M V}.

(** [Model._step], _model.pyx 617-622, 825-860. *)
Definition whole_step {M V} (g : list node) (P : program M V) (t : tstep) (w : whole M V) : whole M V :=
  let st := before_all g (p_bounds P (w_values w)) t (w_nodes w) in
  let m := p_before P t st (w_memory w) in
  let v := p_values P t st m in
  let st := fold_left (commit g) (p_solve P t st m v) st in
  let st := after_all g (p_bounds P v) (ts_days t) st in
  Whole st (p_after P t st m v) v.
(** [Model.reset], 748-823: nodes first. *)
Definition whole_reset {M V} (g : list node) (P : program M V) (w : whole M V) : whole M V :=
  Whole (reset_all g (p_bounds P (w_values w)) (w_nodes w)) (p_reset P (w_memory w)) (w_values w).
(** [Model.run]: the state after every timestep. *)
Fixpoint whole_steps {M V} (g : list node) (P : program M V) (ts : list tstep) (w : whole M V) : list (whole M V) :=
  match ts with
  | [] => []
  | t :: r => let w' := whole_step g P t w in w' :: whole_steps g P r w'
  end.
Definition run {M V} (g : list node) (P : program M V) (ts : list tstep) (w : whole M V) : list (whole M V) := whole_steps g P ts (whole_reset g P w).

(** What a model can have been through: set up (leaving the components with [m], [v]), then any number of resets and steps. *)
Inductive reached {M V} (g : list node) (P : program M V) (m : M) (v : V) : whole M V -> Prop :=
| reached_new : reached g P m v (Whole (new_model g) m v)
| reached_reset w : reached g P m v w -> reached g P m v (whole_reset g P w)
| reached_step w t : reached g P m v w -> reached g P m v (whole_step g P t w).

(** Two states that differ at most in the prev_flow of nodes with a parent and of aggregated storages. *)
Definition hidden (d : node) : bool := n_child d || match n_class d with AggStorage _ => true | _ => false end.
Definition alike (g : list node) (a b : state) : Prop :=
  length a = length g /\ length b = length g /\
  forall n d, nth_error g n = Some d ->
    if hidden d then with_prev (get a n) 0 = with_prev (get b n) 0 else get a n = get b n.

(** The conditions under which a run cannot tell that it is not the first.  In the first timestep the other nodes have not flowed; then
    no component's [before] depends on what it remembered before the reset, and none looks at the hidden prev_flows. *)
Definition rested (g : list node) (a : state) : Prop :=
  forall n d, nth_error g n = Some d -> hidden d = false -> flow (get a n) = 0 /\ prev (get a n) = 0.
Definition fresh {M V} (g : list node) (P : program M V) (m : M) (v : V) : Prop :=
  forall t a b w w', p_index (ts_p t) = 0%nat -> alike g a b -> rested g a -> rested g b -> reached g P m v w -> reached g P m v w' ->
    p_before P t a (p_reset P (w_memory w)) = p_before P t b (p_reset P (w_memory w')).
Definition blind {M V} (g : list node) (P : program M V) : Prop :=
  forall t a b m, p_index (ts_p t) = 0%nat -> alike g a b -> p_values P t a m = p_values P t b m /\ forall v, p_solve P t a m v = p_solve P t b m v.
Definition is_number (x : maxsetting) : bool := match x with MaxNumber _ => true | _ => false end.
Definition same_again {M V} (g : list node) (P : program M V) : Prop :=
  forall n d, nth_error g n = Some d ->
    match n_class d with
    | AggStorage ms => forall v v' m, In m ms -> b_max (p_bounds P v) m = b_max (p_bounds P v') m
    | Virtual i _ (Annual c) => c_max_is_parameter c = negb (is_number (i_max i))
    | Virtual _ _ (Seasonal _) => False
    | Virtual i _ (Monthly months initial_months to_initial) => to_initial = true \/ is_number (i_max i) = true \/ initial_months <> months
    | _ => True
    end.
