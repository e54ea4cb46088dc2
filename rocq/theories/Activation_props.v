From Coq Require Import Reals Qreals Lra.
From Verif Require Import Base Activation_model.
Local Open Scope Q_scope.
Local Open Scope list_scope.

(** C93: the variable that is set is the one that is read and evaluated; there is one bound of each kind, the one
    given at construction, and it stays. *)
Theorem C93_variable : forall a values a', set_variables a values = Some a' ->
  get_variables a' = firstn 1 values /\ lower_bounds a' = [a_lower a] /\ upper_bounds a' = [a_upper a].
Proof. intros a [|v r] a' H; [discriminate|]. injection H as <-. repeat split. Qed.
Print Assumptions C93_variable.

(** A step is its output exactly for a positive variable. *)
Theorem C93_step : forall output a,
  (0 < a_value a -> step_value output a = output) /\ (a_value a <= 0 -> step_value output a = 0).
Proof. intros. unfold step_value. split; intros; destruct (qlebP (a_value a) 0); auto; exfalso; lra. Qed.
Print Assumptions C93_step.

Lemma rectifier_pos lo hi a : 0 < a_value a -> 0 < a_upper a -> 
  rectifier_value lo hi a = Some (lo + (hi - lo) * a_value a / a_upper a).
Proof. intros H U. unfold rectifier_value. destruct (qlebP (a_value a) 0); [exfalso; lra|]. destruct (qeqbP (a_upper a) 0); [exfalso; lra|]. reflexivity. Qed.

(** A ramp: zero for a variable that is not positive, the maximum at the upper bound, and in between the share of the way from the minimum to the
    maximum that the variable has gone on its way to the upper bound. *)
Theorem C93_rectifier : forall lo hi a, 0 < a_upper a ->
  (a_value a <= 0 -> rectifier_value lo hi a = Some 0) /\
  (0 < a_value a -> exists v, rectifier_value lo hi a = Some v /\ (v - lo) * a_upper a == (hi - lo) * a_value a /\
     (a_value a == a_upper a -> v == hi) /\ (a_value a <= a_upper a -> lo <= hi -> lo <= v <= hi)).
Proof.
  intros lo hi a U. split.
  - intros H. unfold rectifier_value. destruct (qlebP (a_value a) 0); [reflexivity|exfalso; lra].
  - intros H. rewrite rectifier_pos by auto. eexists. split; [reflexivity|].
    assert (E : (lo + (hi - lo) * a_value a / a_upper a - lo) * a_upper a == (hi - lo) * a_value a) by (field; lra).
    split; [exact E|]. set (v := lo + (hi - lo) * a_value a / a_upper a) in *. split.
    + intros V. rewrite V in E. assert ((v - hi) * a_upper a == 0) by lra. apply Qmult_integral in H0. destruct H0; lra.
    + intros V L. split.
      * apply Qnot_lt_le. intros N. assert (0 <= (hi - lo) * a_value a) by (apply Qmult_le_0_compat; lra).
        assert (0 < (lo - v) * a_upper a) by (apply Qmult_lt_0_compat; lra). lra.
      * apply Qnot_lt_le. intros N. assert (0 < (v - hi) * a_upper a) by (apply Qmult_lt_0_compat; lra).
        assert (0 <= (hi - lo) * (a_upper a - a_value a)) by (apply Qmult_le_0_compat; lra). lra.
Qed.
Print Assumptions C93_rectifier.

(** Among positive variables a higher one never gives less. *)
Theorem C93_rectifier_rises : forall lo hi a b v w, lo <= hi -> 0 < a_upper a -> a_upper a == a_upper b -> 0 < a_value a -> a_value a <= a_value b ->
  rectifier_value lo hi a = Some v -> rectifier_value lo hi b = Some w -> v <= w.
Proof.
  intros lo hi a b v w L U E P M. rewrite !rectifier_pos by lra. intros [= <-] [= <-].
  assert ((hi - lo) * a_value a / a_upper a <= (hi - lo) * a_value b / a_upper b); [|lra].
  rewrite <- E. unfold Qdiv. apply Qmult_le_compat_r; [|apply Qlt_le_weak, Qinv_lt_0_compat; lra].
  assert (0 <= (hi - lo) * (a_value b - a_value a)) by (apply Qmult_le_0_compat; lra). lra.
Qed.
Print Assumptions C93_rectifier_rises.

(** Documented: "The value to return when the internal variable is at 0.0" is [min_output]; it is 0, which may even be above all other values. *)
Theorem C93_rectifier_zero_refuted : exists lo hi upper, 0 < upper /\
  rectifier_value lo hi (Internal 0 (- (1)) upper) <> Some lo /\
  exists v w, rectifier_value lo hi (Internal 0 (- (1)) upper) = Some v /\ rectifier_value lo hi (Internal 1 (- (1)) upper) = Some w /\
    lo <= hi /\ w < v.
Proof. exists (- (3)), (- (2)), 2. split; [reflexivity|]. split; [discriminate|]. do 2 eexists. split; [reflexivity|]. split; [reflexivity|]. split; reflexivity || discriminate. Qed.
Print Assumptions C93_rectifier_zero_refuted.

(** The logistic function: strictly between 0 and the maximum, half of it at 0, symmetric about that point, and strictly increasing. *)
Theorem C93_logistic : forall hi k a b, 0 < hi -> 0 < k ->
  (0 < logistic_value hi k a < Q2R hi)%R /\
  (a_value a == 0 -> (logistic_value hi k a = Q2R hi / 2)%R) /\
  (a_value b == - a_value a -> (logistic_value hi k a + logistic_value hi k b = Q2R hi)%R) /\
  (a_value a < a_value b -> (logistic_value hi k a < logistic_value hi k b)%R).
Proof.
  intros hi k a b Hh Hk. unfold logistic_value.
  assert (RH : (0 < Q2R hi)%R) by (apply Qreals.Qlt_Rlt in Hh; now rewrite RMicromega.Q2R_0 in Hh).
  assert (RK : (0 < Q2R k)%R) by (apply Qreals.Qlt_Rlt in Hk; now rewrite RMicromega.Q2R_0 in Hk).
  pose proof (exp_pos (- Q2R k * Q2R (a_value a))) as EA.
  pose proof (exp_pos (- Q2R k * Q2R (a_value b))) as EB.
  split; [split|split; [|split]].
  - apply Rdiv_lt_0_compat; Lra.lra.
  - apply (Rmult_lt_reg_r (1 + exp (- Q2R k * Q2R (a_value a)))); [Lra.lra|].
    unfold Rdiv. rewrite Rmult_assoc, Rinv_l by Lra.lra. 
    assert (0 < Q2R hi * exp (- Q2R k * Q2R (a_value a)))%R by (apply Rmult_lt_0_compat; Lra.lra). Lra.lra.
  - intros E. apply Qreals.Qeq_eqR in E. rewrite RMicromega.Q2R_0 in E. rewrite E, Rmult_0_r, exp_0. reflexivity.
  - intros E. apply Qreals.Qeq_eqR in E. rewrite Qreals.Q2R_opp in E. rewrite E.
    replace (- Q2R k * - Q2R (a_value a))%R with (- (- Q2R k * Q2R (a_value a)))%R by ring. rewrite exp_Ropp.
    set (e := exp (- Q2R k * Q2R (a_value a))) in *. field. repeat split; apply Rgt_not_eq; Lra.lra.
  - intros L. apply Qreals.Qlt_Rlt in L.
    assert (exp (- Q2R k * Q2R (a_value b)) < exp (- Q2R k * Q2R (a_value a)))%R.
    { apply exp_increasing. assert (0 < Q2R k * (Q2R (a_value b) - Q2R (a_value a)))%R by (apply Rmult_lt_0_compat; Lra.lra). Lra.lra. }
    unfold Rdiv. apply Rmult_lt_compat_l; [Lra.lra|]. apply Rinv_lt_contravar; [|Lra.lra]. apply Rmult_lt_0_compat; Lra.lra.
Qed.
Print Assumptions C93_logistic.

Example C93_example : option_map Qred (rectifier_value 2 10 (Internal (1 # 2) (- (1)) 2)) = Some 4 /\ step_value 7 (Internal (1 # 2) (- (1)) 1) = 7.
Proof. split; reflexivity. Qed.
