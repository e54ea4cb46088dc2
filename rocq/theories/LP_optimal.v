(** A check that an answer is optimal, from a multiplier for every row (weak duality); used by examples. *)
From Verif Require Import Base LP_model Sys_model RouteLP_model RouteLP_spec EdgeLP_model LP_check.
Local Open Scope Q_scope.

Definition unit (c : nat) : nat -> Q := fun k => bq (Nat.eqb k c).
Definition val (coef : list (nat * Q)) (x : nat -> Q) : Q := qsum (map (fun c => snd c * x (fst c)) coef).

Lemma val_app c1 c2 x : val (c1 ++ c2) x == val c1 x + val c2 x.
Proof. unfold val. now rewrite map_app, qsum_app. Qed.
Lemma qsum_unit {A} (eqb : A -> A -> bool) (f : A -> Q) (a : A) (l : list A) : (forall x y, eqb x y = true <-> x = y) -> NoDup l -> In a l ->
  qsum (map (fun x => f x * bq (eqb x a)) l) == f a.
Proof.
  intros E. induction l as [|b l IH]; intros N H; [contradiction|]. inversion N as [|? ? Hb N']; subst. cbn [map qsum].
  destruct H as [->|H].
  - rewrite (qsum_map_zero (fun x => f x * bq (eqb x a))).
    + destruct (eqb a a) eqn:Ea; [unfold bq; ring|]. assert (a = a) as Z by reflexivity. apply E in Z. congruence.
    + intros x Hx. destruct (eqb x a) eqn:Ex; [apply E in Ex; subst; contradiction|]. unfold bq. ring.
  - rewrite IH by assumption. destruct (eqb b a) eqn:Eb; [apply E in Eb; subst; contradiction|]. unfold bq. ring.
Qed.

Lemma val_columns n coef z : (forall c, In c coef -> (fst c < n)%nat) ->
  val coef z == qsum (map (fun c => val coef (unit c) * z c) (seq 0 n)).
Proof.
  induction coef as [|[k q] coef IH]; intros H.
  - unfold val. cbn [map qsum]. symmetry. apply qsum_map_zero. intros. ring.
  - change (val ((k, q) :: coef) z) with (q * z k + val coef z). rewrite IH by (intros c Hc; apply H; now right).
    rewrite (qsum_map_ext (fun c => val ((k, q) :: coef) (unit c) * z c) (fun c => (q * z c) * bq (Nat.eqb c k) + val coef (unit c) * z c)).
    + rewrite qsum_map_plus. rewrite (qsum_unit Nat.eqb (fun c => q * z c)); [reflexivity|apply Nat.eqb_eq|apply seq_NoDup|].
      apply in_seq. specialize (H (k, q) (or_introl eq_refl)). cbn in H. lia.
    + intros c _. change (val ((k, q) :: coef) (unit c)) with (q * unit c k + val coef (unit c)). unfold unit at 1. rewrite (Nat.eqb_sym k c). ring.
Qed.

Definition row_low (r : row) : ext := match r_type r with LO | DB | FX => r_lb r | _ => NInf end.
Definition row_up (r : row) : ext := match r_type r with UP | DB => r_ub r | FX => r_lb r | _ => PInf end.
Lemma row_between x r : row_ok x r -> ext_le_q (row_low r) (row_value x r) /\ q_le_ext (row_value x r) (row_up r).
Proof.
  unfold row_ok, row_low, row_up. destruct (r_type r); cbn [bounds_ok]; try (cbn; tauto).
  destruct (r_lb r); cbn; try tauto. intros ->. lra.
Qed.
(** The least that [y] times the row can be. *)
Definition dual_bound (y : Q) (r : row) : option Q :=
  if qeqb y 0 then Some 0
  else if qltb 0 y then match row_low r with Fin q => Some (y * q) | _ => None end
  else match row_up r with Fin q => Some (y * q) | _ => None end.
Lemma dual_bound_ok y r x b : row_ok x r -> dual_bound y r = Some b -> b <= y * row_value x r.
Proof.
  intros H. apply row_between in H as [A B]. unfold dual_bound. destruct (qeqbP y 0) as [E|E]; [intros Z; injection Z as <-; rewrite E; lra|].
  destruct (qltbP 0 y) as [L|L].
  - destruct (row_low r); try discriminate. intros Z; injection Z as <-. cbn in A. rewrite !(Qmult_comm y). apply Qmult_le_compat_r; lra.
  - destruct (row_up r); try discriminate. intros Z; injection Z as <-. cbn in B.
    assert (row_value x r * - y <= q * - y) by (apply Qmult_le_compat_r; lra). lra.
Qed.
Fixpoint dual_value (l : list (Q * row)) : option Q :=
  match l with
  | [] => Some 0
  | (y, r) :: l => match dual_bound y r, dual_value l with Some a, Some b => Some (a + b) | _, _ => None end
  end.
Definition weight (l : list (Q * row)) (c : nat) : Q := qsum (map (fun yr => fst yr * val (r_coef (snd yr)) (unit c)) l).
Definition optimal_check (P : lp) (x : nat -> Q) (ys : list Q) : bool :=
  let l := combine ys (lp_rows P) in
  feasible_check P x && forallb (fun yr => forallb (fun c => Nat.ltb (fst c) (lp_ncols P)) (r_coef (snd yr))) l &&
  forallb (fun c => qleb (weight l c) (lp_obj P c)) (seq 0 (lp_ncols P)) &&
  match dual_value l with Some b => qleb (objective P x) b | None => false end.

Lemma dual_value_ok l z b : (forall yr, In yr l -> row_ok z (snd yr)) -> dual_value l = Some b ->
  b <= qsum (map (fun yr => fst yr * row_value z (snd yr)) l).
Proof.
  revert b. induction l as [|[y r] l IH]; intros b H E; cbn [dual_value map qsum fst snd] in *.
  - injection E as <-. lra.
  - destruct (dual_bound y r) as [p|] eqn:E1; [|discriminate]. destruct (dual_value l) as [q|]; [|discriminate]. injection E as <-.
    specialize (IH q (fun yr Hy => H yr (or_intror Hy)) eq_refl). pose proof (dual_bound_ok y r z p (H (y, r) (or_introl eq_refl)) E1). lra.
Qed.

Lemma optimal_check_sound P x ys : optimal_check P x ys = true -> optimal P x.
Proof.
  unfold optimal_check. set (l := combine ys (lp_rows P)). intros H. apply andb_true_iff in H as [H H4]. apply andb_true_iff in H as [H H3].
  apply andb_true_iff in H as [H1 H2]. split; [now apply feasible_check_sound|]. intros z [Hz HF].
  destruct (dual_value l) as [b|] eqn:E; [|discriminate]. destruct (qlebP (objective P x) b) as [L|]; [|discriminate].
  apply Qle_trans with b; [exact L|].
  assert (forall yr, In yr l -> row_ok z (snd yr)) as R.
  { intros [y r] Hy. apply HF. unfold l in Hy. now apply in_combine_r in Hy. }
  pose proof (dual_value_ok l z b R E) as D. apply (Qle_trans _ _ _ D).
  rewrite (qsum_map_ext _ (fun yr => qsum (map (fun c => fst yr * val (r_coef (snd yr)) (unit c) * z c) (seq 0 (lp_ncols P))))).
  - rewrite (qsum_swap (fun yr c => fst yr * val (r_coef (snd yr)) (unit c) * z c)). unfold objective. apply qsum_map_le. intros c Hc.
    rewrite qsum_map_scale_r. fold (weight l c). rewrite forallb_forall in H3. specialize (H3 c Hc).
    destruct (qlebP (weight l c) (lp_obj P c)); [|discriminate]. apply in_seq in Hc. apply Qmult_le_compat_r; [assumption|]. apply Hz. lia.
  - intros [y r] Hy. cbn [fst snd]. unfold row_value. fold (val (r_coef r) z). rewrite (val_columns (lp_ncols P)).
    + rewrite <- qsum_map_scale. apply qsum_map_ext. intros. ring.
    + rewrite forallb_forall in H2. specialize (H2 _ Hy). cbn [snd] in H2. rewrite forallb_forall in H2. intros c Hc. specialize (H2 c Hc). now apply Nat.ltb_lt.
Qed.

Definition solved_optimally_check (triv : bool) (S : sys) (d : data) (x : nat -> Q) (ys : list Q) : bool :=
  match posed triv S d with Ok P => optimal_check P x ys | Err _ => false end.
Lemma solved_optimally_check_sound triv S d x ys : solved_optimally_check triv S d x ys = true -> solved_optimally triv S d x.
Proof.
  unfold solved_optimally_check, solved_optimally. destruct (posed triv S d) as [P|]; [|discriminate]. intros H. exists P. split; [reflexivity|].
  now apply optimal_check_sound in H.
Qed.
