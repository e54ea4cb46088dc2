From Verif Require Import Base LP_model Physics_model.
Local Open Scope Q_scope.

Definition positive_turbine (t : turbine) : Prop :=
  0 < t_efficiency t /\ 0 < t_density t /\ 0 < t_flow_conv t /\ 0 < t_energy_conv t.

Definition divisor (t : turbine) (head : Q) : Q :=
  t_energy_conv t * t_density t * gravity * head * t_efficiency t * t_flow_conv t.

Lemma divisor_pos t head : positive_turbine t -> 0 < head -> 0 < divisor t head.
Proof.
  intros [A [B [C D]]] H. unfold divisor, gravity.
  repeat (apply Qmult_lt_0_compat; try assumption). reflexivity.
Qed.

Lemma hydropower_divisor t flow w e : hydropower t flow w e == flow * divisor t (if qltb (w - e) 0 then 0 else w - e).
Proof. unfold hydropower, divisor. cbv zeta. ring. Qed.

Lemma working_head_pos w e head : working_head w e = Some head -> 0 <= head.
Proof. destruct w, e; cbn; intros H; try discriminate; injection H as <-; apply qmax_r. Qed.

Lemma head_zero head : 0 <= head -> (if qltb (head - 0) 0 then 0 else head - 0) == head.
Proof. intros H. destruct (qltbP (head - 0) 0); lra. Qed.

Lemma divisor_Proper t a b : a == b -> divisor t a == divisor t b.
Proof. intros H. unfold divisor. now rewrite H. Qed.

Lemma inverse_value t power head : positive_turbine t -> 0 < head -> inverse_hydropower t power head 0 = Fin (power / divisor t (head - 0)).
Proof.
  intros T H. unfold inverse_hydropower. cbv zeta. fold (divisor t (if qltb (head - 0) 0 then 0 else head - 0)).
  destruct (qltbP (head - 0) 0) as [G|G]; [lra|]. pose proof (divisor_pos t (head - 0) T ltac:(lra)) as D.
  destruct (qeqbP (divisor t (head - 0)) 0) as [E|E]; [lra|reflexivity].
Qed.

(** ** Keating *)
Lemma keating_loop_acc C level : forall levels T acc, keating_loop C level acc levels T == acc + keating_loop C level 0 levels T.
Proof.
  induction levels as [|l r IH]; intros [|T Tr] acc; cbn [keating_loop]; try ring.
  rewrite (IH Tr (if qltb l level then acc + _ else acc)), (IH Tr (if qltb l level then 0 + _ else 0)). destruct (qltb l level); ring.
Qed.

Lemma keating_cons C l r T Tr level : keating C (l :: r) (T :: Tr) level == 2 * T * C * qmax 0 (level - l) + keating C r Tr level.
Proof.
  unfold keating. cbn [keating_loop]. rewrite keating_loop_acc. apply Qplus_inj_r.
  destruct (qltbP l level) as [H|H]; unfold qmax; destruct (qlebP 0 (level - l)) as [G|G]; try lra.
  assert (level - l == 0) as -> by lra. ring.
Qed.

Lemma keating_mono C : 0 <= C -> forall levels Ts a b, (forall T, In T Ts -> 0 <= T) -> a <= b ->
  0 <= keating C levels Ts b - keating C levels Ts a <= 2 * C * qsum (firstn (length levels) Ts) * (b - a).
Proof.
  intros HC. induction levels as [|l r IH]; intros [|T Tr] a b P H.
  - unfold keating; cbn. split; lra.
  - unfold keating; cbn. split; lra.
  - unfold keating; cbn. split; lra.
  - cbn [length firstn qsum]. rewrite !keating_cons.
    specialize (IH Tr a b (fun T I => P T (or_intror I)) H). destruct IH as [I1 I2].
    assert (0 <= T) as HT by (apply P; left; reflexivity).
    assert (0 <= qmax 0 (b - l) - qmax 0 (a - l) <= b - a) as [M1 M2] by (clear -H; split; qmm).
    assert (0 <= 2 * T * C) as K by (repeat apply Qmult_le_0_compat; lra || discriminate).
    set (m := qmax 0 (b - l) - qmax 0 (a - l)) in *.
    assert (0 <= 2 * T * C * m) as L by (apply Qmult_le_0_compat; lra).
    assert (2 * T * C * m <= 2 * T * C * (b - a)) as U
      by (rewrite (Qmult_comm _ m), (Qmult_comm _ (b - a)); apply Qmult_le_compat_r; lra).
    assert (2 * T * C * qmax 0 (b - l) + keating C r Tr b - (2 * T * C * qmax 0 (a - l) + keating C r Tr a) ==
            2 * T * C * m + (keating C r Tr b - keating C r Tr a)) as E by (subst m; ring).
    rewrite E. split; [lra|].
    assert (2 * C * (T + qsum (firstn (length r) Tr)) * (b - a) ==
            2 * T * C * (b - a) + 2 * C * qsum (firstn (length r) Tr) * (b - a)) as -> by ring. lra.
Qed.

Lemma keating_zero C : forall levels Ts level, (forall l, In l levels -> level <= l) -> keating C levels Ts level == 0.
Proof.
  induction levels as [|l r IH]; intros [|T Tr] level H; try reflexivity.
  rewrite keating_cons, IH by (intros; apply H; right; assumption).
  specialize (H l (or_introl eq_refl)). assert (qmax 0 (level - l) == 0) as -> by (clear -H; qmm). ring.
Qed.
