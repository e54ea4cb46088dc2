(** Property C107: kernel density estimates of storage. *)
From Coq Require Import Reals.
From Verif Require Import Base Kde_model.
Local Open Scope R_scope.
Local Open Scope list_scope.
Ltac rlra := Lra.lra.

(** What a symmetric distribution such as the normal one has. *)
Record symmetric (F : R -> R) : Prop := {
  sym_half : forall z, F (- z) = 1 - F z;
  sym_increasing : forall a b, a <= b -> F a <= F b;
  sym_bounds : forall z, 0 <= F z <= 1 }.

(** * Sums *)
Lemma rsum_le {A} (f g : A -> R) : forall l, (forall x, In x l -> f x <= g x) -> rsum (map f l) <= rsum (map g l).
Proof.
  induction l as [|a l IH]; intros H; cbn [map rsum fold_right]; [rlra|]. fold (rsum (map f l)) (rsum (map g l)).
  pose proof (H a (or_introl eq_refl)). specialize (IH (fun x Hx => H x (or_intror Hx))). rlra.
Qed.
Lemma rsum_ext {A} (f g : A -> R) : forall l, (forall x, In x l -> f x = g x) -> rsum (map f l) = rsum (map g l).
Proof. intros l H. f_equal. now apply map_ext_in. Qed.
Lemma rsum_plus {A} (f g : A -> R) : forall l, rsum (map (fun x => f x + g x) l) = rsum (map f l) + rsum (map g l).
Proof. induction l as [|a l IH]; cbn [map rsum fold_right]; [rlra|]. fold (rsum (map f l)) (rsum (map g l)) (rsum (map (fun x => f x + g x) l)). rlra. Qed.
Lemma rsum_opp {A} (f : A -> R) : forall l, rsum (map (fun x => - f x) l) = - rsum (map f l).
Proof. induction l as [|a l IH]; cbn [map rsum fold_right]; [rlra|]. fold (rsum (map f l)) (rsum (map (fun x => - f x) l)). rlra. Qed.
Lemma rsum_const {A} (c : R) : forall l : list A, rsum (map (fun _ => c) l) = INR (length l) * c.
Proof.
  induction l as [|a l IH]; [cbn; rlra|]. cbn [map]. change (rsum (c :: map (fun _ : A => c) l)) with (c + rsum (map (fun _ => c) l)).
  rewrite IH. change (length (a :: l)) with (S (length l)). rewrite S_INR. rlra.
Qed.

Lemma INR_pos n : (1 <= n)%nat -> 0 < INR n.
Proof. intros H. apply lt_0_INR. lia. Qed.

(** * Reflection keeps the width *)
Lemma rmean_reflected c l : (1 <= length l)%nat -> rmean (reflected c l) = c - rmean l.
Proof.
  intros H. unfold rmean, reflected. rewrite map_length. apply INR_pos in H.
  replace (rsum (map (fun v => c - v) l)) with (INR (length l) * c - rsum l).
  - field. rlra.
  - rewrite <- (rsum_const c l). rewrite <- (map_id l) at 2. unfold Rminus. rewrite <- (rsum_opp (fun v => v)), <- rsum_plus. reflexivity.
Qed.
Lemma variance_reflected c l : (1 <= length l)%nat -> variance (reflected c l) = variance l.
Proof.
  intros H. unfold variance. rewrite (rmean_reflected c l H). unfold reflected. rewrite map_map, map_length. f_equal.
  apply rsum_ext. intros x _. ring.
Qed.
Lemma width_reflected c l : (1 <= length l)%nat -> width (reflected c l) = width l.
Proof. intros H. unfold width. rewrite (variance_reflected c l H). unfold reflected. now rewrite map_length. Qed.

Lemma variance_nonneg l : (2 <= length l)%nat -> 0 <= variance l.
Proof.
  intros H. unfold variance. apply Rmult_le_pos.
  - replace 0 with (rsum (map (fun _ : R => 0) l)) by (rewrite rsum_const; ring).
    apply rsum_le. intros x _. apply Rle_0_sqr.
  - left. apply Rinv_0_lt_compat. assert (2 <= INR (length l)) by (replace 2 with (INR 2) by (cbn; ring); now apply le_INR). rlra.
Qed.
Lemma fitted_width l : fitted l = true -> (2 <= length l)%nat /\ 0 < width l.
Proof.
  intros E. unfold fitted in E. apply andb_true_iff in E as [E1 E2]. apply Nat.leb_le in E1. split; [exact E1|].
  destruct (Req_EM_T (variance l) 0) as [|N]; [discriminate|]. unfold width. apply sqrt_lt_R0.
  pose proof (variance_nonneg l E1). assert (0 < scott (length l)) by apply exp_pos.
  apply Rmult_lt_0_compat; [rlra|]. now apply Rmult_lt_0_compat.
Qed.

(** Scott's rule: the kernels' width is the standard deviation (of a sample) times the fifth root of one over the number of values. *)
Theorem C107_width : forall l, fitted l = true ->
  exists s, 0 < s /\ s * s * s * s * s * INR (length l) = 1 /\ width l = s * sqrt (variance l) /\ 0 < variance l.
Proof.
  intros l E. destruct (fitted_width l E) as [L W]. assert (P : 0 < INR (length l)) by (apply INR_pos; lia).
  assert (S0 : 0 < scott (length l)) by apply exp_pos. exists (scott (length l)). split; [exact S0|]. split.
  - unfold scott. rewrite <- !Rpower_plus. rewrite <- (Rpower_1 (INR (length l))) at 2 by exact P. rewrite <- Rpower_plus.
    match goal with |- Rpower _ ?e = 1 => replace e with 0 by field end. apply Rpower_O. exact P.
  - assert (V : 0 < variance l).
    { unfold width in W. destruct (Rlt_le_dec 0 (variance l)) as [H|H]; [exact H|exfalso].
      rewrite sqrt_neg_0 in W; [rlra|]. assert (0 <= scott (length l) * scott (length l)) by (apply Rle_0_sqr). Lra.nra. }
    split; [|exact V]. unfold width. rewrite sqrt_mult; [|rlra|apply Rle_0_sqr]. rewrite sqrt_square by rlra. ring.
Qed.
Print Assumptions C107_width.

Section Kde.
Variables (F f : R -> R).
Hypothesis SF : symmetric F.

(** The distribution that the kernel estimate of the values has. *)
Definition cumulated (l : list R) (z : R) : R := rmean (map (fun v => F ((z - v) / width l)) l).

Lemma cumulated_le l a b : fitted l = true -> a <= b -> cumulated l a <= cumulated l b.
Proof.
  intros E H. destruct (fitted_width l E) as [L W]. unfold cumulated, rmean. rewrite !map_length.
  apply Rmult_le_compat_r; [left; apply Rinv_0_lt_compat, INR_pos; lia|]. apply rsum_le. intros v _.
  apply (sym_increasing F SF). unfold Rdiv. apply Rmult_le_compat_r; [left; now apply Rinv_0_lt_compat|rlra].
Qed.
Lemma cumulated_bounds l z : fitted l = true -> 0 <= cumulated l z <= 1.
Proof.
  intros E. destruct (fitted_width l E) as [L W]. assert (P : 0 < INR (length l)) by (apply INR_pos; lia). unfold cumulated, rmean. rewrite map_length.
  split.
  - apply Rmult_le_pos; [|left; now apply Rinv_0_lt_compat]. replace 0 with (rsum (map (fun _ : R => 0) l)) by (rewrite rsum_const; ring).
    apply rsum_le. intros v _. apply (sym_bounds F SF).
  - apply Rmult_le_reg_r with (INR (length l)); [exact P|]. unfold Rdiv. rewrite Rmult_assoc, Rinv_l, Rmult_1_r, Rmult_1_l by rlra.
    replace (INR (length l)) with (rsum (map (fun _ : R => 1) l)) by (rewrite rsum_const; ring).
    apply rsum_le. intros v _. apply (sym_bounds F SF).
Qed.

Lemma integrate_cumulated l a b : fitted l = true -> integrate F l a b = cumulated l b - cumulated l a.
Proof.
  intros E. destruct (fitted_width l E) as [L W]. assert (P : 0 < INR (length l)) by (apply INR_pos; lia).
  unfold integrate, cumulated, rmean. rewrite !map_length. unfold Rminus at 1. rewrite rsum_plus, rsum_opp. field. rlra.
Qed.
Lemma integrate_reflected c l a b : fitted l = true -> integrate F (reflected c l) a b = cumulated l (c - a) - cumulated l (c - b).
Proof.
  intros E. destruct (fitted_width l E) as [L W]. assert (P : 0 < INR (length l)) by (apply INR_pos; lia).
  unfold integrate. rewrite width_reflected by lia. unfold reflected. rewrite map_map. unfold cumulated, rmean. rewrite !map_length.
  rewrite (rsum_ext _ (fun v => F ((c - a - v) / width l) + - F ((c - b - v) / width l))).
  - rewrite rsum_plus, rsum_opp. field. rlra.
  - intros v _. replace ((b - (c - v)) / width l) with (- ((c - b - v) / width l)) by (field; rlra).
    replace ((a - (c - v)) / width l) with (- ((c - a - v) / width l)) by (field; rlra).
    rewrite !(sym_half F SF). ring.
Qed.

(** The probability that is reported is that of the kernel estimate for the volumes up to the target, together with what it gives, behind
    the bounds 0 and 1, to the mirror images of these volumes. *)
Theorem C107_reflection : forall n t l p pdf, kde_storage F f true n t l = Some (p, pdf) ->
  p = (cumulated l t - cumulated l 0) + (cumulated l 0 - cumulated l (- t)) + (cumulated l 2 - cumulated l (2 - t)).
Proof.
  intros n t l p pdf E. unfold kde_storage, estimate in E. destruct (fitted l) eqn:Fi; [|discriminate].
  cbn [option_map fst snd map rsum fold_right] in E. assert (X := f_equal (fun o => match o with Some q => fst q | None => 0 end) E). cbn [fst] in X.
  rewrite (integrate_cumulated l 0 t Fi), (integrate_reflected 0 l 0 t Fi), (integrate_reflected 2 l 0 t Fi) in X.
  rewrite <- X. rewrite !Rminus_0_r, Rminus_0_l. ring.
Qed.

(** It is a probability, none for the target 0 and not falling with the target. *)
Theorem C107_probability : forall r n t l p pdf, kde_storage F f r n t l = Some (p, pdf) -> 0 <= t <= 1 -> 0 <= p <= 1.
Proof.
  intros r n t l p pdf E T. destruct r.
  - rewrite (C107_reflection n t l p pdf E). unfold kde_storage, estimate in E. destruct (fitted l) eqn:Fi; [|discriminate].
    pose proof (cumulated_le l (- t) t Fi ltac:(rlra)). pose proof (cumulated_le l t (2 - t) Fi ltac:(rlra)).
    pose proof (cumulated_le l (2 - t) 2 Fi ltac:(rlra)). pose proof (cumulated_bounds l 2 Fi). pose proof (cumulated_bounds l (- t) Fi). rlra.
  - unfold kde_storage, estimate in E. destruct (fitted l) eqn:Fi; [|discriminate]. cbn [option_map fst map rsum fold_right] in E.
    assert (X := f_equal (fun o => match o with Some q => fst q | None => 0 end) E). cbn [fst] in X. rewrite <- X, (integrate_cumulated l 0 t Fi).
    pose proof (cumulated_le l 0 t Fi ltac:(rlra)). pose proof (cumulated_bounds l t Fi). pose proof (cumulated_bounds l 0 Fi). rlra.
Qed.

Theorem C107_monotone : forall r n t t' l p p' pdf pdf', kde_storage F f r n t l = Some (p, pdf) -> kde_storage F f r n t' l = Some (p', pdf') ->
  (t <= t' -> p <= p') /\ (t = 0 -> p = 0).
Proof.
  intros r n t t' l p p' pdf pdf' E E'. destruct r.
  - rewrite (C107_reflection n t l p pdf E), (C107_reflection n t' l p' pdf' E').
    unfold kde_storage, estimate in E. destruct (fitted l) eqn:Fi; [|discriminate]. split.
    + intros T. pose proof (cumulated_le l t t' Fi T). pose proof (cumulated_le l (- t') (- t) Fi ltac:(rlra)).
      pose proof (cumulated_le l (2 - t') (2 - t) Fi ltac:(rlra)). rlra.
    + intros ->. rewrite Ropp_0, Rminus_0_r. ring.
  - unfold kde_storage, estimate in E, E'. destruct (fitted l) eqn:Fi; [|discriminate]. cbn [option_map fst map rsum fold_right] in E, E'.
    assert (X := f_equal (fun o => match o with Some q => fst q | None => 0 end) E). cbn [fst] in X. rewrite <- X, (integrate_cumulated l 0 t Fi).
    assert (X' := f_equal (fun o => match o with Some q => fst q | None => 0 end) E'). cbn [fst] in X'. rewrite <- X', (integrate_cumulated l 0 t' Fi).
    split; [intros T; pose proof (cumulated_le l t t' Fi T); rlra|intros ->; ring].
Qed.

(** The normalised recorder: of being at or below zero, reflected at the bounds -1 and 1. *)
Theorem C107_normalised : forall n l p pdf, kde_normalised F f true n l = Some (p, pdf) ->
  p = (cumulated l 0 - cumulated l (-1)) + (cumulated l (-1) - cumulated l (-2)) + (cumulated l 3 - cumulated l 2) /\ 0 <= p <= 1.
Proof.
  intros n l p pdf E. unfold kde_normalised, estimate in E. destruct (fitted l) eqn:Fi; [|discriminate].
  cbn [option_map fst snd map rsum fold_right] in E. assert (X := f_equal (fun o => match o with Some q => fst q | None => 0 end) E). cbn [fst] in X.
  rewrite (integrate_cumulated l (-1) 0 Fi), (integrate_reflected (-2) l (-1) 0 Fi), (integrate_reflected 2 l (-1) 0 Fi) in X.
  replace (-2 - -1) with (-1) in X by rlra. replace (-2 - 0) with (-2) in X by rlra. replace (2 - -1) with 3 in X by rlra. rewrite Rminus_0_r in X.
  assert (Y : p = (cumulated l 0 - cumulated l (-1)) + (cumulated l (-1) - cumulated l (-2)) + (cumulated l 3 - cumulated l 2)) by (rewrite <- X; ring).
  split; [exact Y|]. rewrite Y.
  pose proof (cumulated_le l (-2) 0 Fi ltac:(rlra)). pose proof (cumulated_le l 0 2 Fi ltac:(rlra)). pose proof (cumulated_le l 2 3 Fi ltac:(rlra)).
  pose proof (cumulated_bounds l 3 Fi). pose proof (cumulated_bounds l (-2) Fi). rlra.
Qed.

(** The probability of being at most full is not 1: what the estimate gives to volumes beyond the mirror images is lost. *)
Theorem C107_full : (forall a b, a < b -> F a < F b) ->
  forall n l p pdf, kde_storage F f true n 1 l = Some (p, pdf) -> p < 1.
Proof.
  intros SI n l p pdf E. rewrite (C107_reflection n 1 l p pdf E). unfold kde_storage, estimate in E. destruct (fitted l) eqn:Fi; [|discriminate].
  replace (2 - 1) with 1 by rlra. replace (Ropp 1) with (-1) by rlra. pose proof (cumulated_bounds l (-1) Fi). pose proof (cumulated_bounds l (-2) Fi) as B.
  assert (cumulated l (-2) < cumulated l (-1)); [|pose proof (cumulated_bounds l 2 Fi); rlra].
  destruct (fitted_width l Fi) as [L W]. assert (P : 0 < INR (length l)) by (apply INR_pos; lia). unfold cumulated, rmean. rewrite !map_length.
  apply Rmult_lt_compat_r; [now apply Rinv_0_lt_compat|]. clear - SI L W.
  assert (X : forall v, F ((-2 - v) / width l) < F ((-1 - v) / width l)).
  { intros v. apply SI. unfold Rdiv. apply Rmult_lt_compat_r; [now apply Rinv_0_lt_compat|rlra]. }
  revert X. generalize (width l). intros w X. destruct l as [|a l]; [cbn in L; lia|]. cbn [map rsum fold_right].
  pose proof (X a). pose proof (rsum_le (fun v => F ((-2 - v) / w)) (fun v => F ((-1 - v) / w)) l (fun v _ => Rlt_le _ _ (X v))) as Y.
  unfold rsum in Y. rlra.
Qed.

(** The PDF: as many points as asked for, from 0 to 1, and at each the sum of the kernel estimate at the point and its mirror images. *)
Hypothesis EF : forall z, f (- z) = f z.
Lemma density_reflected c l x : fitted l = true -> density f (reflected c l) x = density f l (c - x).
Proof.
  intros E. destruct (fitted_width l E) as [L W]. unfold density. rewrite width_reflected by lia. unfold reflected. rewrite map_map. f_equal.
  apply map_ext. intros v. replace ((x - (c - v)) / width l) with (- ((c - x - v) / width l)) by (field; rlra). now rewrite EF.
Qed.
Lemma combine_self {A B} (g : A -> B) : forall l, combine l (map g l) = map (fun x => (x, g x)) l.
Proof. induction l as [|a l IH]; cbn; [reflexivity|now rewrite IH]. Qed.
Theorem C107_pdf : forall n t l p pdf, kde_storage F f true n t l = Some (p, pdf) ->
  length pdf = n /\ forall i x y, nth_error pdf i = Some (x, y) ->
    x = INR i / INR (n - 1) /\ y = density f l x + density f l (- x) + density f l (2 - x).
Proof.
  intros n t l p pdf E. unfold kde_storage, estimate in E. destruct (fitted l) eqn:Fi; [|discriminate]. cbn [option_map fst snd] in E.
  assert (X := f_equal (fun o => match o with Some q => snd q | None => [] end) E). cbn [snd] in X. rewrite combine_self in X. rewrite <- X. clear X E.
  unfold linspace01. rewrite map_map. split; [now rewrite map_length, seq_length|]. intros i x y H.
  assert (Lt : (i < n)%nat). { assert (L := proj1 (nth_error_Some _ i) ltac:(rewrite H; discriminate)). now rewrite map_length, seq_length in L. }
  rewrite nth_error_seq_map in H by exact Lt. assert (X : x = INR i / INR (n - 1)) by congruence. split; [exact X|].
  assert (Y : y = rsum (map (fun k => density f k (INR i / INR (n - 1))) (l :: map (fun c => reflected c l) [0; 2]))) by congruence.
  rewrite Y, <- X. cbn [map rsum fold_right]. rewrite !density_reflected by exact Fi. rewrite Rminus_0_l. ring.
Qed.

(** The PDF of normalised volumes, which are between -1 and 1, does not reach below 0. *)
Theorem C107_range : forall n l p pdf, kde_normalised F f true n l = Some (p, pdf) -> forall x y, In (x, y) pdf -> ~ (-1 <= x < 0).
Proof.
  clear EF SF. intros n l p pdf E x y H [_ X]. unfold kde_normalised, estimate in E. destruct (fitted l) eqn:Fi; [|discriminate]. cbn [option_map fst snd] in E.
  assert (Y := f_equal (fun o => match o with Some q => snd q | None => [] end) E). cbn [snd] in Y. rewrite combine_self in Y. rewrite <- Y in H.
  apply in_map_iff in H as (x' & Hx & H). assert (x' = x) by congruence. subst x'. unfold linspace01 in H. apply in_map_iff in H as (i & Ei & Hi).
  apply in_seq in Hi. assert (0 <= x); [|rlra]. rewrite <- Ei. pose proof (pos_INR i).
  destruct (Nat.eq_dec (n - 1) 0) as [Z|Z].
  - rewrite Z. replace i with 0%nat by lia. cbn. unfold Rdiv. rlra.
  - apply Rmult_le_pos; [exact H|left; apply Rinv_0_lt_compat, INR_pos; lia].
Qed.
End Kde.
Print Assumptions C107_reflection.
Print Assumptions C107_probability.
Print Assumptions C107_monotone.
Print Assumptions C107_normalised.
Print Assumptions C107_full.
Print Assumptions C107_pdf.
Print Assumptions C107_range.

(** Two volumes and the kernel with distribution 1/2 + z / (2 + 2 |z|), which is strictly increasing. *)
Definition F0 (z : R) : R := 1 / 2 + z / (2 * (1 + Rabs z)).
Example C107_example_F0 : symmetric F0 /\ forall a b, a < b -> F0 a < F0 b.
Proof.
  assert (D : forall z, 0 < 2 * (1 + Rabs z)) by (intros z; pose proof (Rabs_pos z); rlra).
  assert (I : forall a b, a < b -> F0 a < F0 b).
  { intros a b H. unfold F0. apply Rplus_lt_compat_l. pose proof (D a). pose proof (D b).
    apply Rmult_lt_reg_r with (2 * (1 + Rabs a)); [assumption|]. unfold Rdiv. rewrite Rmult_assoc, Rinv_l, Rmult_1_r by rlra.
    apply Rmult_lt_reg_r with (2 * (1 + Rabs b)); [assumption|].
    replace (b * / (2 * (1 + Rabs b)) * (2 * (1 + Rabs a)) * (2 * (1 + Rabs b))) with (b * (2 * (1 + Rabs a))) by (field; pose proof (Rabs_pos b); rlra).
    unfold Rabs. destruct (Rcase_abs a), (Rcase_abs b); Lra.nra. }
  split; [|exact I]. split.
  - intros z. unfold F0. rewrite Rabs_Ropp. field. pose proof (Rabs_pos z). rlra.
  - intros a b [H| ->]; [left; now apply I|rlra].
  - intros z. unfold F0. pose proof (D z). pose proof (Rle_abs z). pose proof (Rle_abs (- z)). rewrite Rabs_Ropp in *.
    assert (X : -1 / 2 <= z / (2 * (1 + Rabs z)) <= 1 / 2); [|rlra].
    split; apply Rmult_le_reg_r with (2 * (1 + Rabs z)); try assumption; unfold Rdiv; rewrite ?Rmult_assoc, ?Rinv_l; rlra.
Qed.
Example C107_example : exists p pdf, kde_storage F0 (fun _ => 0) true 3 (1 / 2) [1 / 4; 3 / 4] = Some (p, pdf).
Proof.
  unfold kde_storage, estimate. replace (fitted [1 / 4; 3 / 4]) with true; [cbn [option_map]; eauto|].
  unfold fitted. cbn [length Nat.leb andb]. destruct (Req_EM_T (variance [1 / 4; 3 / 4]) 0) as [E|]; [|reflexivity]. exfalso.
  unfold variance, rmean in E. cbn [map rsum fold_right length INR] in E. rlra.
Qed.

(** So the probability of being at most full need not be 1, and the PDF need not have a point where there are values. *)
Theorem C107_full_refuted : exists F f n l p pdf, symmetric F /\ kde_storage F f true n 1 l = Some (p, pdf) /\ p <> 1.
Proof.
  destruct C107_example_F0 as [S0 I0]. destruct C107_example as (p0 & pdf0 & E0).
  assert (X : exists p pdf, kde_storage F0 (fun _ => 0) true 3 1 [1 / 4; 3 / 4] = Some (p, pdf)).
  { unfold kde_storage, estimate in *. destruct (fitted [1 / 4; 3 / 4]); [|discriminate]. cbn [option_map]. eauto. }
  destruct X as (p & pdf & E). exists F0, (fun _ => 0), 3%nat, [1 / 4; 3 / 4], p, pdf. split; [exact S0|]. split; [exact E|].
  pose proof (C107_full F0 (fun _ => 0) S0 I0 3 _ p pdf E). rlra.
Qed.
Print Assumptions C107_full_refuted.
Theorem C107_range_refuted : exists F f l p pdf, symmetric F /\ (forall v, In v l -> -1 <= v < 0) /\
  kde_normalised F f true 101 l = Some (p, pdf) /\ forall x y, In (x, y) pdf -> ~ (-1 <= x < 0).
Proof.
  destruct C107_example_F0 as [S0 I0].
  assert (X : exists p pdf, kde_normalised F0 (fun _ => 0) true 101 [- 1 / 4; - 3 / 4] = Some (p, pdf)).
  { unfold kde_normalised, estimate. replace (fitted [- 1 / 4; - 3 / 4]) with true; [cbn [option_map]; eauto|].
    unfold fitted. cbn [length Nat.leb andb]. destruct (Req_EM_T (variance [- 1 / 4; - 3 / 4]) 0) as [E|]; [|reflexivity]. exfalso.
    unfold variance, rmean in E. cbn [map rsum fold_right length INR] in E. rlra. }
  destruct X as (p & pdf & E). exists F0, (fun _ => 0), [- 1 / 4; - 3 / 4], p, pdf. split; [exact S0|].
  split; [intros v [<-|[<-|[]]]; rlra|]. split; [exact E|]. exact (C107_range F0 (fun _ => 0) 101 _ p pdf E).
Qed.
Print Assumptions C107_range_refuted.
