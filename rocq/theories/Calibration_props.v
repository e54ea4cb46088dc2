(** C90: recorders that compare simulated with observed flows. *)
From Coq Require Import Reals Qreals.
From Coq Require Import Lqa Lra.
From Verif Require Import Base LP_model Aggregate_proofs Aggregator_model Calibration_model Calibration_proofs.
Local Open Scope Q_scope.
Local Open Scope list_scope.

(** The flows agree in every timestep. *)
Definition agrees (l : pairs) : Prop := forall p, In p l -> fst p == snd p.

(** C90: the error measures are never negative and zero exactly for a perfect fit. *)
Theorem C90_errors : forall l, l <> [] ->
  (0 <= mse l /\ (mse l == 0 <-> agrees l)) /\ (0 <= mae l /\ (mae l == 0 <-> agrees l)).
Proof.
  intros l N. assert (0 <= mse l /\ (mse l == 0 <-> agrees l)) as M.
  { unfold mse, agrees. rewrite <- errors_zero.
    assert (forall x, In x (map sq (errors l)) -> 0 <= x) as P by (intros x Hx; apply in_map_iff in Hx as [y [<- _]]; apply sq_nonneg).
    assert (map sq (errors l) <> []) as Ne by now apply map_ne, errors_ne. split; [now apply mean_nonneg|]. rewrite (mean_zero _ Ne P). split.
    - intros H x Hx. apply sq_zero, H, in_map, Hx.
    - intros H x Hx. apply in_map_iff in Hx as [y [<- Hy]]. apply sq_zero, H, Hy. }
  split; [exact M|].
  - unfold mae, agrees. rewrite <- errors_zero.
    assert (forall x, In x (map qabs (errors l)) -> 0 <= x) as P by (intros x Hx; apply in_map_iff in Hx as [y [<- _]]; apply qabs_nonneg).
    assert (map qabs (errors l) <> []) as Ne by now apply map_ne, errors_ne. split; [now apply mean_nonneg|]. rewrite (mean_zero _ Ne P). split.
    + intros H x Hx. pose proof (H (qabs x) (in_map qabs _ _ Hx)) as E. apply sq_zero. rewrite <- qabs_sq. now apply sq_zero.
    + intros H x Hx. apply in_map_iff in Hx as [y [<- Hy]]. apply sq_zero. rewrite qabs_sq. apply sq_zero, H, Hy.
Qed.
Print Assumptions C90_errors.

(** C90: the root mean squared error is the number not below zero whose square is the mean squared error, and never below the mean absolute error. *)
Theorem C90_rmse : forall l, l <> [] -> (0 <= rmse l)%R /\ (rmse l * rmse l = Q2R (mse l))%R /\
  (rmse l = 0%R <-> agrees l) /\ (Q2R (mae l) <= rmse l)%R /\ mse l * number_of l == qsum (map sq (errors l)) /\
  mae l * number_of l == qsum (map qabs (errors l)).
Proof.
  intros l N. destruct (C90_errors l N) as [[M M2] [A _]]. split; [apply sqrt_pos|]. split; [apply sqrt_sqrt; now apply Q2R_nonneg|]. split.
  { rewrite <- M2. unfold rmse. split.
    + intros H. apply sqrt_eq_0 in H; [|now apply Q2R_nonneg]. apply eqR_Qeq. rewrite H. unfold Q2R. cbn. ring.
    + intros H. apply Qeq_eqR in H. rewrite H. replace (Q2R 0) with 0%R by (unfold Q2R; cbn; ring). apply sqrt_0. }
  pose proof (number_pos l N) as P.
  assert (sq (mae l) <= mse l) as J.
  { unfold mae, mse. assert (map qabs (errors l) <> []) as Ne by now apply map_ne, errors_ne. eapply Qle_trans; [apply (jensen _ Ne)|].
    unfold mean. rewrite map_map, !number_map. apply Qle_lteq. right. apply Qdiv_comp; [|reflexivity]. apply qsum_map_ext. intros x _. apply qabs_sq. }
  split; [|split].
  - unfold rmse. rewrite <- (sqrt_square (Q2R (mae l))) by now apply Q2R_nonneg. apply sqrt_le_1_alt. rewrite <- Q2R_mult. apply Qle_Rle. exact J.
  - now apply mse_sum.
  - now apply mae_sum.
Qed.
Print Assumptions C90_rmse.

(** C90: the measures in terms of the flows alone; [count] is the number of timesteps and [m] the mean of the observed flows. *)
Theorem C90_formulas : forall (l : list (Q * Q)), l <> [] -> let count := inject_Z (Z.of_nat (length l)) in
  let squares := qsum (map (fun p => (snd p - fst p) * (snd p - fst p)) l) in
  mse l * count == squares /\ mae l * count == qsum (map (fun p => qabs (snd p - fst p)) l) /\
  forall e m, nse l = Some e -> m * count == qsum (map fst l) -> (1 - e) * qsum (map (fun p => (fst p - m) * (fst p - m)) l) == squares.
Proof.
  intros l N count squares. pose proof (number_pos l N) as P. unfold number_of in P; fold count in P.
  assert (SQ : qsum (map sq (errors l)) == squares).
  { unfold errors, squares. rewrite map_map. apply qsum_map_ext. intros p _. unfold sq. ring. }
  split; [|split].
  - rewrite <- SQ. exact (mse_sum l N).
  - transitivity (qsum (map qabs (errors l))); [exact (proj2 (proj2 (proj2 (proj2 (proj2 (C90_rmse l N))))))|]. unfold errors. rewrite map_map. apply qsum_map_ext. intros p _. unfold qabs. repeat qif; lra.
  - intros e m E M. unfold nse in E. cbv zeta in E.
    match type of E with context [qeqb ?b 0] => destruct (qeqbP b 0) as [Z0|Z0]; [discriminate|]; assert (B : b == qsum (map (fun p => (fst p - m) * (fst p - m)) l)) end.
    { unfold observed_of. rewrite map_map. apply qsum_map_ext. intros p _. unfold sq.
      assert (MM : mean (map fst l) == m). { unfold mean, number_of. rewrite map_length. fold count. rewrite <- M. field. intros X; rewrite X in P; lra. } rewrite MM. ring. }
    match type of E with Some ?x = Some e => assert (X : x = e) by congruence end. rewrite <- X, <- B, SQ. field. exact Z0.
Qed.
Print Assumptions C90_formulas.

(** C90: the percent bias is 100 times the lacking share of the observed total: zero if the totals agree, positive if the model gives too little. *)
Theorem C90_bias : forall l, 0 < qsum (observed_of l) -> exists b, pbias l = Some b /\
  (b == 0 <-> qsum (map snd l) == qsum (map fst l)) /\ (0 < b <-> qsum (map snd l) < qsum (map fst l)) /\
  qsum (map snd l) == qsum (map fst l) * (1 - b / 100).
Proof.
  intros l P. unfold pbias. destruct (qeqbP (qsum (observed_of l)) 0) as [E|E]; [lra|]. eexists. split; [reflexivity|]. unfold observed_of in *.
  assert (qsum (errors l) == qsum (map fst l) - qsum (map snd l)) as -> by (unfold errors; apply qsum_map_minus).
  set (o := qsum (map fst l)) in *. set (m := qsum (map snd l)). split; [|split].
  - split; intros H; [|rewrite H; field; lra]. assert ((o - m) * 100 == (o - m) * 100 / o * o) as K by (field; lra). rewrite H in K. lra.
  - split; intros H.
    + assert ((o - m) * 100 == (o - m) * 100 / o * o) as K by (field; lra). assert (0 < (o - m) * 100 / o * o) by (apply Qmult_lt_0_compat; lra). lra.
    + apply Qlt_shift_div_l; lra.
  - field. lra.
Qed.
Print Assumptions C90_bias.

(** The observed flows are not all the same. *)
Definition varies (l : pairs) : Prop := ~ forall p, In p l -> fst p == mean (map fst l).

Lemma below_pos l : varies l -> 0 < qsum (map (fun x => sq (x - mean (observed_of l))) (observed_of l)).
Proof.
  intros V. assert (forall x, In x (map (fun x => sq (x - mean (observed_of l))) (observed_of l)) -> 0 <= x) as P by (intros x Hx; apply in_map_iff in Hx as [y [<- _]]; apply sq_nonneg).
  pose proof (qsum_nonneg_all _ P) as G. apply Qle_lt_or_eq in G as [G|G]; [exact G|]. exfalso. apply V. intros p Hp. symmetry in G. rewrite (qsum_zero_all _ P) in G.
  assert (sq (fst p - mean (observed_of l)) == 0) as Z by (apply G, (in_map (fun x => sq (x - mean (observed_of l)))), (in_map fst), Hp). apply (proj1 (sq_zero _)) in Z. unfold observed_of in Z. lra.
Qed.

(** C90: the Nash-Sutcliffe efficiency is at most one, one exactly for a perfect fit, zero for a model that always gives the observed mean, and positive
    exactly if the model does better (in squared error) than the observed mean. *)
Theorem C90_efficiency : forall l, l <> [] -> varies l -> exists e, nse l = Some e /\
  e <= 1 /\ (e == 1 <-> agrees l) /\
  ((forall p, In p l -> snd p == mean (map fst l)) -> e == 0) /\
  (0 < e <-> mse l < mse (map (fun p => (fst p, mean (map fst l))) l)).
Proof.
  intros l N V. pose proof (below_pos l V) as B. unfold nse. cbv zeta. destruct (qeqbP (qsum (map (fun x => sq (x - mean (observed_of l))) (observed_of l))) 0) as [E|E]; [lra|].
  eexists. split; [reflexivity|]. destruct (C90_errors l N) as [[M1 M2] _]. pose proof (number_pos l N) as P.
  assert (qsum (map sq (errors l)) == mse l * number_of l) as Q1 by (symmetry; now apply mse_sum).
  assert (qsum (map (fun x => sq (x - mean (observed_of l))) (observed_of l)) == mse (map (fun p => (fst p, mean (map fst l))) l) * number_of l) as Q2.
  { rewrite <- (number_map (fun p => (fst p, mean (map fst l))) l), mse_sum by now apply map_ne. unfold errors, observed_of. rewrite !map_map. reflexivity. }
  assert (0 <= mse l * number_of l) as P1 by (apply Qmult_le_0_compat; lra). rewrite Q1. set (s := qsum (map (fun x => sq (x - mean (observed_of l))) (observed_of l))) in *.
  set (r := mse l * number_of l) in *. assert (0 <= r / s) as P2 by (apply Qle_shift_div_l; lra). split; [lra|]. split; [|split].
  - rewrite <- M2. split; intros H.
    + assert (r == r / s * s) as K by (field; lra). assert (r / s == 0) as Z by lra. rewrite Z in K. unfold r in K.
      assert (mse l * number_of l == 0) as K2 by lra. apply Qmult_integral in K2 as [K2|K2]; [exact K2|lra].
    + unfold r. rewrite H. field. lra.
  - intros H. assert (r == s) as ->; [|field; lra]. rewrite <- Q1. unfold s, errors, observed_of. rewrite !map_map. apply qsum_map_ext. intros p Hp. unfold sq. rewrite (H p Hp). reflexivity.
  - set (q := mse (map (fun p => (fst p, mean (map fst l))) l)) in *. unfold r. rewrite Q2 in *.
    assert (mse l * number_of l / (q * number_of l) == mse l / q) as -> by (field; split; [|lra]; intros Z; rewrite Z in B; lra).
    assert (0 < q) as Pq by (destruct (Qlt_le_dec 0 q) as [G|G]; [exact G|]; exfalso; assert (q * number_of l <= 0) by nra; lra).
    split; intros H.
    + assert (mse l == mse l / q * q) as K by (field; lra). assert (mse l / q * q < 1 * q) by (apply Qmult_lt_compat_r; lra). lra.
    + assert (mse l / q < 1) by (apply Qlt_shift_div_r; lra). lra.
Qed.
Print Assumptions C90_efficiency.

(** C90: the efficiency is one less the square of the RMSE-standard deviation ratio. *)
Theorem C90_ratio : forall l, l <> [] -> varies l -> exists e r, nse l = Some e /\ rsr l = Some r /\ (0 <= r)%R /\ (Q2R e = 1 - r * r)%R.
Proof.
  intros l N V. pose proof (below_pos l V) as B. destruct (C90_errors l N) as [[M1 _] _]. pose proof (number_pos l N) as P.
  assert (observed_of l <> []) as No by now apply map_ne. pose proof (variance_sum _ No) as VS. unfold observed_of in VS at 4. rewrite number_map in VS.
  assert (0 < variance (observed_of l)) as PV.
  { destruct (Qlt_le_dec 0 (variance (observed_of l))) as [G|G]; [exact G|]. exfalso. rewrite VS in B. assert (variance (observed_of l) * number_of l <= 0) by nra. lra. }
  unfold nse, rsr. cbv zeta. destruct (qeqbP (qsum (map (fun x => sq (x - mean (observed_of l))) (observed_of l))) 0) as [E|E]; [lra|].
  destruct (qeqbP (variance (observed_of l)) 0) as [F|F]; [lra|]. eexists. eexists. split; [reflexivity|]. split; [reflexivity|].
  pose proof (sqrt_lt_R0 _ (Q2R_pos _ PV)) as SP. split.
  - apply Rmult_le_pos; [apply sqrt_pos|]. left. now apply Rinv_0_lt_compat.
  - assert (1 - qsum (map sq (errors l)) / qsum (map (fun x => sq (x - mean (observed_of l))) (observed_of l)) == 1 - mse l / variance (observed_of l)) as K.
    { rewrite VS, <- (mse_sum l N). field. lra. }
    apply Qeq_eqR in K. rewrite K. unfold Qminus, Qdiv. rewrite Q2R_plus, Q2R_opp, Q2R_mult, Q2R_inv by (intros Z; lra). rewrite Q2R_one.
    replace (rmse l / sqrt (Q2R (variance (observed_of l))) * (rmse l / sqrt (Q2R (variance (observed_of l)))))%R
      with ((rmse l * rmse l) / (sqrt (Q2R (variance (observed_of l))) * sqrt (Q2R (variance (observed_of l)))))%R by (field; apply Rgt_not_eq; exact SP).
    unfold rmse. rewrite !sqrt_sqrt by (apply Q2R_nonneg; lra). unfold Rdiv. ring.
Qed.
Print Assumptions C90_ratio.

(** C90: with one observed column per scenario combination, each combination is compared with its own column. *)
Theorem C90_columns : forall A (f : pairs -> A) observed modelled n i d, (i < n)%nat ->
  exists l, metric f observed modelled n n = Some (Series l) /\ length l = n /\ nth i l d = f (combine (col i observed) (col i modelled)).
Proof.
  intros A f observed modelled n i d Hi. unfold metric, subtract_columns. rewrite Nat.eqb_refl. eexists. split; [reflexivity|].
  rewrite map_map. split; [now rewrite map_length, seq_length|]. rewrite (nth_indep _ d (f (combine (col 0 observed) (col 0 modelled)))) by now rewrite map_length, seq_length.
  rewrite (map_nth (fun i => f (combine (col i observed) (col i modelled)))), seq_nth by exact Hi. reflexivity.
Qed.
Print Assumptions C90_columns.

(** C90: in a model without scenarios, each of several observed series is compared with the one series of the model; with other numbers of
    columns there is no answer. *)
Theorem C90_one_modelled : forall A (f : pairs -> A) observed modelled c i d, (i < c)%nat ->
  exists l, metric f observed modelled c 1 = Some (Series l) /\ length l = c /\ nth i l d = f (combine (col i observed) (col 0 modelled)).
Proof.
  intros A f observed modelled c i d Hi. unfold metric, subtract_columns. destruct (Nat.eqb_spec c 1) as [->|N].
  - assert (i = 0%nat) by lia. subst i. eexists. split; [reflexivity|]. split; reflexivity.
  - cbn [Nat.eqb]. eexists. split; [reflexivity|].
    rewrite map_map. split; [now rewrite map_length, seq_length|]. rewrite (nth_indep _ d (f (combine (col 0 observed) (col 0 modelled)))) by now rewrite map_length, seq_length.
    rewrite (map_nth (fun i => f (combine (col i observed) (col 0 modelled)))), seq_nth by exact Hi. reflexivity.
Qed.
Print Assumptions C90_one_modelled.
Theorem C90_other_columns : forall A (f : pairs -> A) observed modelled c n, c <> n -> n <> 1%nat -> metric f observed modelled c n = None.
Proof.
  intros A f observed modelled c n N1 N2. unfold metric, subtract_columns. destruct (Nat.eqb_spec c n); [contradiction|]. destruct (Nat.eqb_spec n 1); [contradiction|]. reflexivity.
Qed.
Print Assumptions C90_other_columns.

(** C90 (refuted part): one observed series cannot be compared with several scenario combinations. *)
Theorem C90_scenarios_refuted : exists observed modelled n, (1 < n)%nat /\ length observed = length modelled /\
  (forall row, In row observed -> length row = 1%nat) /\ (forall row, In row modelled -> length row = n) /\
  forall A (f : pairs -> A), metric f observed modelled 1 n = None.
Proof.
  exists [[1]; [2]], [[1; 1]; [2; 3]], 2%nat. split; [lia|]. split; [reflexivity|]. split; [intros row [<-|[<-|[]]]; reflexivity|]. split; [intros row [<-|[<-|[]]]; reflexivity|]. reflexivity.
Qed.
Print Assumptions C90_scenarios_refuted.

(** C90 (refuted part): the value over all scenarios, needed for an objective or a constraint, cannot be had, whatever the flows. *)
Theorem C90_aggregated_refuted : exists observed modelled, observed <> [] /\ length observed = length modelled /\
  forall f g c n, aggregated_metric f g observed modelled c n = None.
Proof.
  exists [[1]; [2]], [[1]; [3]]. split; [discriminate|]. split; [reflexivity|]. intros f g c n. unfold aggregated_metric, metric.
  destruct (subtract_columns [[1]; [2]] [[1]; [3]] c n); reflexivity.
Qed.
Print Assumptions C90_aggregated_refuted.

Example C90_example : let l := [(1, 2); (3, 2); (5, 5)] in
  Qred (mse l) = 2 # 3 /\ Qred (mae l) = 2 # 3 /\ option_map Qred (pbias l) = Some 0 /\ option_map Qred (nse l) = Some (3 # 4) /\ varies l.
Proof.
  cbv zeta. split; [reflexivity|]. split; [reflexivity|]. split; [reflexivity|]. split; [reflexivity|]. intros H. specialize (H (1, 2) (or_introl eq_refl)). vm_compute in H. discriminate.
Qed.
