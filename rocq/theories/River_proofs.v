(** Proofs about the nodes of rivers. *)
From Verif Require Import Base Paths Sorting Routes_model LP_model Sys_model RouteLP_model RouteLP_spec RouteLP_proofs RouteLP_flow
  EdgeLP_model EdgeLP_spec EdgeLP_proofs EdgeLP_limits ControlCurves_model Connect_model Piecewise_model Piecewise_spec River_model River_spec.
Local Open Scope nat_scope.
Local Open Scope list_scope.
Local Open Scope Q_scope.

Lemma fixed_bounds q v : (let '(t, lb, ub) := flow_bounds (Fin q) (Fin q) in bounds_ok t lb ub v) -> taken_as q v.
Proof.
  unfold flow_bounds, constraint_type. cbn [eround8 near].
  assert (qltb (qabs (round8 q - round8 q)) eps8 = true) as ->.
  { destruct (qltbP (qabs (round8 q - round8 q)) eps8) as [H|H]; [reflexivity|]. elim H. unfold qabs. qifs; unfold eps8; lra. }
  cbn [bounds_ok]. unfold round8, taken_as. destruct (qltbP (qabs q) eps8); auto.
Qed.

Lemma upper_bound m v : eps8 <= m -> (let '(t, lb, ub) := flow_bounds (Fin 0) (Fin m) in bounds_ok t lb ub v) -> v <= m.
Proof.
  intros Hm. unfold flow_bounds, constraint_type. cbn [eround8 near].
  assert (round8 m = m) as ->.
  { unfold round8. destruct (qltbP (qabs m) eps8) as [H|H]; [|reflexivity]. unfold qabs in H. qif_in H; unfold eps8 in *; lra. }
  change (round8 0) with 0.
  destruct (qltbP (qabs (0 - m)) eps8) as [H|H].
  - unfold qabs in H. qif_in H; unfold eps8 in *; lra.
  - cbn [bounds_ok q_le_ext]. tauto.
Qed.

Lemma edge_flow_row triv S d y n : regular S -> inner_only S y -> edge_solved triv S d y -> In n (s_nodes S) -> is_flow_node (s_kind S n) = true ->
  let '(t, lb, ub) := flow_bounds (d_min d n) (d_max d n) in bounds_ok t lb ub (ecommitted S y n).
Proof.
  intros R I H Hn Hk. pose proof (edge_bal triv S d y H) as B. destruct H as [E [HE [_ HF]]]. apply eposed_inv in HE.
  destruct (ef_flow _ _ _ _ HE n Hn Hk) as [l [Hl Hin]].
  destruct (proj1 (edge_flow_rows triv S d y R I B n l Hn Hk Hl) (fun r Hr => HF r (Hin r Hr))) as [K _]. exact K.
Qed.

Lemma catchment_flow mn mx flow prog v par q : flow_given flow prog v -> value_now par v q ->
  get_min par (catchment mn mx flow prog) = q /\ get_max par (catchment mn mx flow prog) = q.
Proof.
  assert (forall f, value_now par v q -> get_min par (assign f (AFlow v)) = q /\ get_max par (assign f (AFlow v)) = q) as K.
  { intros f. destruct v; cbn; intuition. }
  unfold catchment. intros [[before ->]|[-> F]] V.
  - rewrite fold_left_app. now apply K.
  - cbn [fold_left]. destruct F as [->|[-> ->]]; now apply K.
Qed.

Lemma gauge_attrs mrf mrf_cost cost prog : exists a b, gauge mrf mrf_cost cost prog = [a; b] /\
  sl_max a = last_of pick_mrf (or_else (VNum (Fin 0)) mrf) prog /\ sl_max b = VNone /\
  sl_cost a = last_of pick_mrf_cost (or_else (VNum 0) mrf_cost) prog /\ sl_cost b = last_of pick_cost (or_else (VNum 0) cost) prog.
Proof.
  unfold gauge. cbn [repeat gauge_assign update set_costs set_max_flows combine map fst snd sl_max sl_cost].
  generalize (or_else (VNum (Fin 0)) mrf), (or_else (VNum 0) mrf_cost), (or_else (VNum 0) cost).
  induction prog as [|op prog IH]; intros m mc c; [now exists (Sublink m mc), (Sublink VNone c)|].
  destruct op; cbn [fold_left gauge_assign update last_of pick_mrf pick_mrf_cost pick_cost sl_max sl_cost]; apply IH.
Qed.
