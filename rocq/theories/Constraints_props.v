(** Property theorems about recorder constraints (C58). *)
From Verif Require Import Base LP_model Constraints_model Constraints_spec Constraints_proofs.

(** C58: for finite bounds, after creation and any sequence of assignments the bounds are the last ones that were set in
    order (an assignment that would put the lower bound above the upper one is refused and changes nothing); the recorder
    is a constraint if and only if a bound is set, and it is violated if and only if the value is not within the bounds. *)
Theorem C58_violated : forall l u b ops value, create (option_map Fin l) (option_map Fin u) = Some b ->
  let b' := assign_all ops b in
  let s := expected ops (l, u) in
  in_order s /\ get_lower b' = option_map Fin (fst s) /\ get_upper b' = option_map Fin (snd s) /\
  (is_constraint b' = true <-> s <> (None, None)) /\
  (forall violated, is_violated b' value = Some violated <-> s <> (None, None) /\ (violated = true <-> ~ inside s value)).
Proof.
  intros l u b ops value C. cbv zeta.
  assert (in_order (l, u) /\ b = of_setting (l, u)) as [O ->].
  { unfold create in C. change (Bounds NInf PInf) with (of_setting (None, None)) in C.
    destruct (assign_spec (None, None) (Lower l)) as [A _]. cbn [assign assigned fst snd] in A. rewrite A in C by (destruct l; exact Logic.I).
    destruct (assign_spec (l, None) (Upper u)) as [A1 B1]. cbn [assign assigned fst snd] in A1, B1.
    destruct (in_orderP (l, u)) as [P|P]; [rewrite (A1 P) in C; injection C as <-; auto|].
    rewrite B1 in C; [discriminate|destruct l; exact Logic.I|exact P]. }
  destruct (assign_all_spec ops (l, u) O) as [E O']. rewrite E. set (s := expected ops (l, u)) in *. clearbody s.
  split; [exact O'|]. split; [apply get_lower_of|]. split; [apply get_upper_of|].
  pose proof (violated_spec s value O') as V. pose proof (violated_constraint (of_setting s) value) as W.
  destruct (is_violated (of_setting s) value) as [v|].
  - destruct V as [V1 V2]. split; [split; [auto|intros _; apply W; discriminate]|]. intros v'. split.
    + intros H. injection H as <-. auto.
    + intros [_ H]. f_equal. apply eq_true_iff_eq. tauto.
  - split.
    + split; [intros H; apply W in H; congruence|]. intros H. congruence.
    + intros v'. split; [discriminate|]. intros [H _]. congruence.
Qed.
Print Assumptions C58_violated.

(** C58: a recorder is created if and only if the given bounds are in order. *)
Theorem C58_created : forall l u, create (option_map Fin l) (option_map Fin u) <> None <-> in_order (l, u).
Proof.
  intros l u. unfold create. change (Bounds NInf PInf) with (of_setting (None, None)).
  destruct (assign_spec (None, None) (Lower l)) as [A _]. cbn [assign assigned fst snd] in A. rewrite A by (destruct l; exact Logic.I).
  destruct (assign_spec (l, None) (Upper u)) as [A1 B1]. cbn [assign assigned fst snd] in A1, B1.
  destruct (in_orderP (l, u)) as [P|P].
  - rewrite (A1 P). split; [auto|discriminate].
  - rewrite B1; [split; [congruence|contradiction]|destruct l; exact Logic.I|exact P].
Qed.
Print Assumptions C58_created.

(** C58: a constraint is exactly one of equality, double bounded, lower bounded and upper bounded. *)
Theorem C58_classification : forall b,
  (is_constraint b = true -> countb (fun x => x) [is_equality b; is_double_bounded b; is_lower_bounded b; is_upper_bounded b] = 1%nat) /\
  (is_constraint b = false -> is_equality b = false /\ is_double_bounded b = false /\ is_lower_bounded b = false /\ is_upper_bounded b = false).
Proof. intros b. destruct (classification b). auto. Qed.
Print Assumptions C58_classification.

(** C58: a model is feasible if and only if no constraint is violated, and the question never fails. *)
Theorem C58_model_feasible : forall rs, exists f, is_feasible rs = Some f /\
  (f = true <-> forall b v, In (b, v) rs -> is_constraint b = true -> is_violated b v = Some false).
Proof. exact feasible_spec. Qed.
Print Assumptions C58_model_feasible.

(** C58: the platypus problem has as many constraints as are made and as many values as constraints; all of them hold exactly
    when the model is feasible. *)
Theorem C58_platypus : forall rs, exists l,
  make_constraints (map fst (constraints rs)) = Some l /\
  count_constraints (map fst (constraints rs)) = Some (length l) /\
  length (evaluate_constraints (constraints rs)) = length l /\
  (Forall2 holds l (evaluate_constraints (constraints rs)) <-> is_feasible rs = Some true).
Proof.
  intros rs. destruct (platypus_spec (constraints rs)) as (l & A & B & C & D).
  { apply Forall_forall. intros x Hx. apply filter_In in Hx. tauto. }
  exists l. split; [exact A|]. split; [exact B|]. split; [exact C|]. rewrite D.
  destruct (feasible_spec rs) as (f & F & G). rewrite F. split.
  - intros H. f_equal. apply G. intros b v Hi Hc. apply H. apply filter_In. auto.
  - intros H. injection H as ->. intros b v Hi. apply filter_In in Hi as [Hi Hc]. apply G; auto.
Qed.
Print Assumptions C58_platypus.

(** C58: platypus minimises; it is handed the value of a recorder to be minimised, and of one to be maximised a number that is smaller the larger
    the value is, by as much. *)
Theorem C58_platypus_objective : forall v w,
  objective true v == v /\ objective false w - objective false v == v - w /\ objective false v + v == 0.
Proof. intros v w. unfold objective. split; [ring|]. split; ring. Qed.
Print Assumptions C58_platypus_objective.

(** Bounds 0 and 10 moved to 5 (equality), a refused assignment, and the platypus problem. *)
Example C58_example :
  create (Some (Fin 0)) (Some (Fin 10)) = Some (Bounds (Fin 0) (Fin 10)) /\
  expected [Lower (Some 5); Upper (Some 3); Upper (Some 5)] (Some 0, Some 10) = (Some 5, Some 5) /\
  is_equality (assign_all [Lower (Some 5); Upper (Some 3); Upper (Some 5)] (Bounds (Fin 0) (Fin 10))) = true /\
  is_violated (Bounds (Fin 0) (Fin 10)) (Some (Fin 11)) = Some true /\
  is_violated (Bounds (Fin 0) (Fin 10)) (Some (Fin 10)) = Some false /\
  is_violated (Bounds (Fin 0) (Fin 10)) None = Some true /\
  make_constraints [Bounds (Fin 0) (Fin 10); Bounds NInf (Fin 3)] = Some [(GE, Some (Fin 0)); (LE, Some (Fin 10)); (LE, Some (Fin 3))] /\
  evaluate_constraints [(Bounds (Fin 0) (Fin 10), Some (Fin 4)); (Bounds NInf (Fin 3), Some (Fin 2))] = [Some (Fin 4); Some (Fin 4); Some (Fin 2)].
Proof. repeat split. Qed.

(** C58 (refuted part): an upper bound of minus infinity is accepted but forgotten: the recorder is no constraint, and a
    lower bound above it is accepted afterwards. *)
Theorem C58_minus_infinity_refuted : exists b b',
  create None (Some NInf) = Some b /\ is_constraint b = false /\ is_violated b (Some (Fin 0)) = None /\
  set_lower (Some (Fin 1)) b = Some b' /\ ext_leb (c_lower b') (c_upper b') = false.
Proof. exists (Bounds NInf NInf), (Bounds (Fin 1) NInf). repeat split. Qed.
Print Assumptions C58_minus_infinity_refuted.
