(** C88: time series recorders and duration curves. *)
From Coq Require Import Sorting.Permutation Sorting.Sorted Qround.
From Verif Require Import Base Ring LP_model Sorting Aggregate_spec Aggregate_proofs Scenario_model ScenarioParams_model Recorders_model.
From Verif Require Import Series_model Series_spec Series_proofs.
Local Open Scope Q_scope.
Local Open Scope list_scope.

Lemma entry_shows k s v : entry k s = Some v -> shows k s v.
Proof.
  destruct k; cbn [entry shows]; intros H; try (injection H as <-; try ring; reflexivity).
  - destruct (n_max s) as [|q|]; try discriminate. injection H as <-. ring.
  - injection H as <-. unfold supplied_ratio, double_div. destruct (n_max s) as [|q|]; try reflexivity.
    destruct (qeqbP q 0) as [E|E]; (split; intros K; [try contradiction; try reflexivity|try contradiction; try (field; exact K)]).
  - injection H as <-. unfold curtailment_ratio, double_div. destruct (n_max s) as [|q|]; try reflexivity.
    destruct (qeqbP q 0) as [E|E]; (split; intros K; [try contradiction; try reflexivity|try contradiction; try (field; exact K)]).
  - unfold normalised_storage, double_div in H. destruct (qltbP (s_pc s) (p_value s)) as [L|L].
    + destruct (qeqbP (p_value s) 0) as [E|E]; [discriminate|]. cbn [option_map] in H. injection H as <-. split; intros K; [field; exact E|lra].
    + destruct (qeqbP (1 - p_value s) 0) as [E|E]; [discriminate|]. injection H as <-. split; intros K; [lra|field; exact E].
Qed.

(** C88: after a run, the entry of every timestep and scenario shows what was seen then; entries of timesteps that were not run are zero. *)
Theorem C88_series : forall k nts ncomb run m t now i d, recorded k (zeros nts ncomb) run = Some m ->
  NoDup (map fst run) -> (forall t now, In (t, now) run -> (t < nts)%nat /\ length now = ncomb) -> (i < ncomb)%nat ->
  (In (t, now) run -> shows k (nth i now d) (nth i (nth t m []) 0)) /\
  (~ In t (map fst run) -> nth i (nth t m []) 0 == 0) /\ length m = nts.
Proof.
  intros k nts ncomb run m t now i d H ND B Hi.
  assert (forall t now, In (t, now) run -> (t < length (zeros nts ncomb))%nat) as B' by (intros t' now' H'; unfold zeros; rewrite repeat_length; exact (proj1 (B t' now' H'))).
  assert (length m = nts) as L.
  { destruct nts as [|n].
    - destruct run as [|[t0 now0] run]; [now injection H as <-|]. destruct (B t0 now0 (or_introl eq_refl)). lia.
    - destruct (recorded_spec k run (zeros (S n) ncomb) m 0%nat H ltac:(cbn; lia) B') as [L _]. unfold zeros in L. now rewrite repeat_length in L. }
  split; [|split; [|exact L]].
  - intros I. destruct (B t now I) as [Ht Hn]. destruct (recorded_spec k run (zeros nts ncomb) m t H ltac:(unfold zeros; now rewrite repeat_length) B') as [_ K].
    assert (last_for t run = Some now) as E.
    { clear - ND I. induction run as [|[t' x] run IH]; [contradiction|]. cbn [last_for map fst] in *. inversion ND as [|? ? N ND']; subst.
      destruct I as [I|I].
      - injection I as -> ->. assert (last_for t run = None) as ->; [|now rewrite Nat.eqb_refl].
        clear - N. induction run as [|[t' x] run IH]; [reflexivity|]. cbn [last_for map fst In] in *. rewrite IH by tauto.
        destruct (Nat.eqb_spec t' t); [exfalso; auto|reflexivity].
      - now rewrite (IH ND' I). }
    rewrite E in K. apply entry_shows.
    rewrite <- (sequence_nth _ _ i (entry k d) 0 K) by (rewrite map_length; lia). now rewrite map_nth.
  - intros N. destruct (Nat.lt_ge_cases t nts) as [Ht|Ht].
    + destruct (recorded_spec k run (zeros nts ncomb) m t H ltac:(unfold zeros; now rewrite repeat_length) B') as [_ K].
      assert (last_for t run = None) as E.
      { clear - N. induction run as [|[t' x] run IH]; [reflexivity|]. cbn [last_for map fst In] in *. rewrite IH by tauto.
        destruct (Nat.eqb_spec t' t); [exfalso; auto|reflexivity]. }
      rewrite E in K. rewrite K. unfold zeros. rewrite nth_repeat_lt by exact Ht. rewrite nth_repeat. reflexivity.
    + rewrite (nth_overflow m) by lia. destruct i; reflexivity.
Qed.
Print Assumptions C88_series.

(** C88: the profile recorder keeps for each day of the year the value last seen on that day. *)
Theorem C88_daily_profile : forall ncomb run m day i d, recorded ParameterValue (zeros 366 ncomb) run = Some m ->
  (forall t now, In (t, now) run -> (t < 366)%nat /\ length now = ncomb) -> (i < ncomb)%nat -> (day < 366)%nat ->
  match last_for day run with
  | Some now => nth i (nth day m []) 0 == p_value (nth i now d)
  | None => nth i (nth day m []) 0 == 0
  end.
Proof.
  intros ncomb run m day i d H B Hi Hd.
  destruct (recorded_spec ParameterValue run (zeros 366 ncomb) m day H ltac:(unfold zeros; now rewrite repeat_length)) as [_ K].
  { intros t now I. unfold zeros. rewrite repeat_length. exact (proj1 (B t now I)). }
  destruct (last_for day run) as [now|] eqn:E.
  - assert (length now = ncomb) as L.
    { assert (exists t, In (t, now) run) as [t I]; [|exact (proj2 (B t now I))].
      clear - E. induction run as [|[t x] run IH]; [discriminate|]. cbn [last_for] in E. destruct (last_for day run) as [y|].
      - destruct (IH E) as [t' I]. exists t'. now right.
      - destruct (Nat.eqb t day); [|discriminate]. injection E as <-. exists t. now left. }
    apply (entry_shows ParameterValue). rewrite <- (sequence_nth _ _ i (entry ParameterValue d) 0 K) by (rewrite map_length; lia). now rewrite map_nth.
  - rewrite K. unfold zeros. rewrite nth_repeat_lt by exact Hd. rewrite nth_repeat. reflexivity.
Qed.
Print Assumptions C88_daily_profile.

(** ** Percentiles *)

(** C88: percentiles from 0 to 100 are given for every series that is not empty, whatever the order of the timesteps. *)
Theorem C88_percentile : forall l p, l <> [] -> 0 <= p <= 100 -> exists v, np_percentile l p = Some v /\ is_percentile l p v /\
  forall m w, Permutation l m -> np_percentile m p = Some w -> w == v.
Proof.
  intros l p N P. destruct (np_percentile_total l p N P) as [v H]. exists v. split; [exact H|]. split; [now apply np_percentile_spec|].
  intros m w Pm Hw. apply (percentile_unique m l p); [now symmetry| |]; now apply np_percentile_spec.
Qed.
Print Assumptions C88_percentile.

(** C88: the 0th percentile is the smallest value, the 100th the largest, and higher percentiles are not smaller. *)
Theorem C88_percentile_ends : forall l, l <> [] ->
  (forall v, np_percentile l 0 = Some v -> (exists x, In x l /\ x == v) /\ forall x, In x l -> v <= x) /\
  (forall v, np_percentile l 100 = Some v -> (exists x, In x l /\ x == v) /\ forall x, In x l -> x <= v) /\
  (forall p q v w, p <= q -> np_percentile l p = Some v -> np_percentile l q = Some w -> v <= w).
Proof.
  intros l N. assert (0 < length l)%nat as Pos by (destruct l; [contradiction|cbn; lia]). split; [|split].
  - intros v H. apply np_percentile_spec in H as (k & a & b & H1 & H2 & Ra & Rb & E).
    assert (inject_Z (Z.of_nat (length l - 1)) * 0 / 100 == 0) as Z by field. rewrite Z in *.
    assert (k = 0%nat) as -> by (assert (inject_Z (Z.of_nat k) <= inject_Z 0) as T by exact H1; rewrite <- Zle_Qle in T; lia).
    assert (a == v) as E' by (rewrite E; change (inject_Z (Z.of_nat 0)) with 0; ring). destruct Ra as (I & C & _). split; [eauto|].
    intros x Ix. rewrite <- E'. destruct (Qlt_le_dec x a) as [L|L]; [|exact L]. exfalso.
    assert (0 < countb (fun y => qltb y a) l)%nat; [|lia]. unfold countb.
    assert (In x (filter (fun y => qltb y a) l)) as F by (apply filter_In; split; [exact Ix|destruct (qltbP x a); [reflexivity|contradiction]]).
    destruct (filter (fun y => qltb y a) l); [contradiction|cbn; lia].
  - intros v H. apply np_percentile_spec in H as (k & a & b & H1 & H2 & Ra & Rb & E).
    set (n1 := inject_Z (Z.of_nat (length l - 1))) in *. assert (n1 * 100 / 100 == n1) as Z by field. rewrite Z in *.
    assert (k = length l - 1)%nat as Ek.
    { apply (same_floor n1); [exact H1|exact H2|apply Qle_refl|]. unfold n1. lra. }
    assert (a == v) as E' by (rewrite E, Ek; fold n1; ring). rewrite Ek in Ra. pose proof Ra as (I & _ & D). split; [eauto|].
    intros x Ix. rewrite <- E'. destruct (qleb x a) eqn:Lx; [destruct (qlebP x a); [assumption|discriminate]|]. exfalso.
    assert (countb (fun y => qleb y a) l < length l)%nat as Lt; [|lia].
    clear - Ix Lx. unfold countb. induction l as [|y l IH]; [contradiction|]. cbn [filter length]. destruct Ix as [->|Ix].
    + rewrite Lx. pose proof (countb_bound (fun y => qleb y a) l) as T. unfold countb in T. lia.
    + specialize (IH Ix). destruct (qleb y a); cbn [length]; lia.
  - intros p q v w Hpq Hv Hw. apply (percentile_monotone l p q v w Hpq); now apply np_percentile_spec.
Qed.
Print Assumptions C88_percentile_ends.

(** C88: p per cent of the other timesteps (rounded down) and one more are not above the p-th percentile, and the same number for the rest
    is not below it. *)
Theorem C88_percentile_share : forall l p v, np_percentile l p = Some v ->
  p / 100 * inject_Z (Z.of_nat (length l - 1)) < inject_Z (Z.of_nat (countb (fun x => qleb x v) l)) /\
  (100 - p) / 100 * inject_Z (Z.of_nat (length l - 1)) < inject_Z (Z.of_nat (countb (fun x => qleb v x) l)).
Proof.
  intros l p v H. destruct (np_percentile_some l p v H) as [N P]. apply np_percentile_spec in H. destruct (percentile_between l p v H) as (k & a & b & H1 & H2 & Ra & Rb & La & Lb).
  destruct H as (k' & a' & b' & H1' & H2' & Ra' & Rb' & Ev). pose proof (same_floor _ _ _ H1 H2 H1' H2') as <-.
  assert (a == a') as Ea by (eapply has_rank_unique; eassumption). pose proof (count_split l v) as Sp. pose proof (rank_bound _ _ _ Ra) as KL.
  assert (inject_Z (Z.of_nat (length l)) == inject_Z (Z.of_nat (length l - 1)) + 1) as EL.
  { change 1 with (inject_Z (Z.of_nat 1)). rewrite <- inject_nat_plus. now replace (length l - 1 + 1)%nat with (length l) by lia. }
  set (n1 := inject_Z (Z.of_nat (length l - 1))) in *.
  assert (p / 100 * n1 == n1 * p / 100) as E1 by field. assert ((100 - p) / 100 * n1 == n1 - n1 * p / 100) as E2 by field. rewrite E1, E2.
  set (h := n1 * p / 100) in *. clearbody h. split.
  - assert (k < countb (fun x => qleb x v) l)%nat as C.
    { destruct Ra as (_ & _ & D). eapply Nat.lt_le_trans; [exact D|]. apply countb_le. intros x _ Hx. destruct (qlebP x a); [|discriminate]. destruct (qlebP x v); [reflexivity|lra]. }
    pose proof (inject_nat_le (k + 1) (countb (fun x => qleb x v) l) ltac:(lia)) as T. rewrite inject_nat_plus in T. change (inject_Z (Z.of_nat 1)) with 1 in T. lra.
  - assert (inject_Z (Z.of_nat (countb (fun x => qltb x v) l)) + inject_Z (Z.of_nat (countb (fun x => qleb v x) l)) == n1 + 1) as Sp'
      by (rewrite <- inject_nat_plus, Sp; exact EL).
    destruct (Qlt_le_dec (inject_Z (Z.of_nat k)) h) as [G|G].
    + assert (countb (fun x => qltb x v) l <= k + 1)%nat as C1.
      { destruct Rb as (_ & C & _). eapply Nat.le_trans; [|eapply Nat.le_trans; [exact C|apply Nat.le_min_l]].
        apply countb_le. intros x _ Hx. destruct (qltbP x v); [|discriminate]. destruct (qltbP x b); [reflexivity|lra]. }
      pose proof (inject_nat_le _ _ C1) as T. rewrite inject_nat_plus in T. change (inject_Z (Z.of_nat 1)) with 1 in T. lra.
    + assert (v == a) as Eva.
      { rewrite Ev, Ea. assert (h - inject_Z (Z.of_nat k) == 0) as -> by lra. ring. }
      assert (countb (fun x => qltb x v) l <= k)%nat as C1.
      { destruct Ra as (_ & C & _). eapply Nat.le_trans; [|exact C]. apply countb_le. intros x _ Hx. destruct (qltbP x v); [|discriminate]. destruct (qltbP x a); [reflexivity|lra]. }
      pose proof (inject_nat_le _ _ C1) as T. lra.
Qed.
Print Assumptions C88_percentile_share.

(** ** Duration curves *)

(** C88: row k of the curve holds for each scenario the k-th percentile of the values of that scenario over all timesteps of the run. *)
Theorem C88_duration_curve : forall factor nts ncomb nows m percentiles c j i d,
  recorded (NodeFlow factor) (zeros nts ncomb) (combine (seq 0 nts) nows) = Some m -> length nows = nts ->
  (forall now, In now nows -> length now = ncomb) -> duration_curve ncomb m percentiles = Some c ->
  (j < length percentiles)%nat -> (i < ncomb)%nat ->
  exists flows, length flows = nts /\ (forall t, (t < nts)%nat -> nth t flows 0 == factor * n_flow (nth i (nth t nows []) d)) /\
    is_percentile flows (nth j percentiles 0) (nth i (nth j c []) 0).
Proof.
  intros factor nts ncomb nows m percentiles c j i d H L B Hc Hj Hi. exists (column m i).
  assert (map fst (combine (seq 0 nts) nows) = seq 0 nts) as EF.
  { clear - L. revert L. generalize 0%nat. revert nts. induction nows as [|x nows IH]; intros nts s L; cbn in L; subst nts; [reflexivity|].
    cbn [seq combine map fst]. f_equal. now apply IH. }
  assert (forall t now, In (t, now) (combine (seq 0 nts) nows) -> (t < nts)%nat /\ length now = ncomb) as B'.
  { intros t now I. split; [apply in_combine_l, in_seq in I; lia|apply in_combine_r in I; now apply B]. }
  assert (NoDup (map fst (combine (seq 0 nts) nows))) as ND by (rewrite EF; apply seq_NoDup).
  destruct (C88_series (NodeFlow factor) nts ncomb _ m 0%nat [] i d H ND B' Hi) as (_ & _ & Lm).
  split; [|split].
  - unfold column. now rewrite map_length.
  - intros t Ht. assert (In (t, nth t nows []) (combine (seq 0 nts) nows)) as I.
    { replace (t, nth t nows []) with (nth t (combine (seq 0 nts) nows) (0%nat, [])).
      - apply nth_In. rewrite combine_length, seq_length. lia.
      - rewrite combine_nth by (rewrite seq_length; lia). now rewrite seq_nth. }
    destruct (C88_series (NodeFlow factor) nts ncomb _ m t (nth t nows []) i d H ND B' Hi) as (Sh & _ & _). specialize (Sh I). cbn [shows] in Sh.
    rewrite <- Sh. unfold column. rewrite (nth_indep _ 0 (nth i [] 0)) by (rewrite map_length; lia). rewrite (map_nth (fun row => nth i row 0)). reflexivity.
  - apply np_percentile_spec. unfold duration_curve in Hc.
    pose proof (sequence_nth _ _ j (sequence (map (fun i => np_percentile (column m i) 0) (seq 0 ncomb))) [] Hc ltac:(rewrite map_length; exact Hj)) as R.
    rewrite (map_nth (fun p => sequence (map (fun i => np_percentile (column m i) p) (seq 0 ncomb)))) in R.
    pose proof (sequence_nth _ _ i (np_percentile (column m 0) (nth j percentiles 0)) 0 R ltac:(rewrite map_length, seq_length; exact Hi)) as V.
    rewrite (map_nth (fun i => np_percentile (column m i) (nth j percentiles 0))), seq_nth in V by exact Hi. exact V.
Qed.
Print Assumptions C88_duration_curve.

(** C88: a curve is made for every run and percentiles between 0 and 100, and only for these. *)
Theorem C88_duration_curve_made : forall ncomb m percentiles, m <> [] -> (0 < ncomb)%nat ->
  ((exists c, duration_curve ncomb m percentiles = Some c) <-> forall p, In p percentiles -> 0 <= p <= 100).
Proof.
  intros ncomb m percentiles N Hn. unfold duration_curve. split.
  - intros [c H] p Hp. apply (In_nth _ _ 0) in Hp as [j [Hj Ep]].
    pose proof (sequence_nth _ _ j (sequence (map (fun i => np_percentile (column m i) 0) (seq 0 ncomb))) [] H ltac:(rewrite map_length; exact Hj)) as R.
    rewrite (map_nth (fun p => sequence (map (fun i => np_percentile (column m i) p) (seq 0 ncomb)))), Ep in R.
    pose proof (sequence_nth _ _ 0%nat None 0 R ltac:(rewrite map_length, seq_length; exact Hn)) as V. destruct ncomb; [lia|]. cbn [seq map nth] in V.
    exact (proj2 (np_percentile_some _ _ _ V)).
  - intros P. apply sequence_all. intros j Hj. rewrite map_length in Hj.
    assert (exists r, sequence (map (fun i => np_percentile (column m i) (nth j percentiles 0)) (seq 0 ncomb)) = Some r) as [r R].
    { apply sequence_all. intros i Hi. rewrite map_length, seq_length in Hi.
      destruct (np_percentile_total (column m i) (nth j percentiles 0)) as [v V]; [destruct m; [contradiction|discriminate]|apply P, nth_In, Hj|]. exists v.
      rewrite (nth_indep _ None (np_percentile (column m 0) (nth j percentiles 0))) by (rewrite map_length, seq_length; lia).
      rewrite (map_nth (fun i => np_percentile (column m i) (nth j percentiles 0))), seq_nth by exact Hi. exact V. }
    exists r. rewrite (nth_indep _ None (sequence (map (fun i => np_percentile (column m i) 0) (seq 0 ncomb)))) by (rewrite map_length; lia).
    now rewrite (map_nth (fun p => sequence (map (fun i => np_percentile (column m i) p) (seq 0 ncomb)))).
Qed.
Print Assumptions C88_duration_curve_made.

(** C88: the seasonal curve is the curve of the timesteps whose month is one of those given. *)
Theorem C88_seasonal : forall ncomb month months m percentiles,
  let rows := filter (fun t => existsb (Z.eqb (month t)) months) (seq 0 (length m)) in
  seasonal_duration_curve ncomb month months m percentiles = duration_curve ncomb (map (fun t => nth t m []) rows) percentiles /\
  (rows = [] -> percentiles <> [] -> (0 < ncomb)%nat -> seasonal_duration_curve ncomb month months m percentiles = None).
Proof.
  intros ncomb month months m percentiles. cbv zeta. unfold seasonal_duration_curve.
  assert (seasonal_rows month months m = map (fun t => nth t m []) (filter (fun t => existsb (Z.eqb (month t)) months) (seq 0 (length m)))) as E.
  { unfold seasonal_rows. assert (forall s l, (forall i, (i < length l)%nat -> nth (s + i) m [] = nth i l []) ->
      map snd (filter (fun r => existsb (Z.eqb (month (fst r))) months) (combine (seq s (length l)) l)) =
      map (fun t => nth t m []) (filter (fun t => existsb (Z.eqb (month t)) months) (seq s (length l)))) as K.
    { intros s l. revert s. induction l as [|x l IH]; intros s H; [reflexivity|]. cbn [length seq combine filter fst].
      rewrite IH || (assert (forall i, (i < length l)%nat -> nth (S s + i) m [] = nth i l []) as H' by
        (intros i Hi; replace (S s + i)%nat with (s + S i)%nat by lia; apply (H (S i)); cbn; lia); specialize (IH (S s) H')).
      destruct (existsb (Z.eqb (month s)) months); cbn [map snd]; [|exact IH]. rewrite IH. f_equal. specialize (H 0%nat ltac:(cbn; lia)). rewrite Nat.add_0_r in H. now rewrite H. }
    apply K. reflexivity. }
  rewrite E. split; [reflexivity|]. intros R NP Hn. rewrite R. unfold duration_curve. destruct percentiles as [|p ps]; [contradiction|]. destruct ncomb; [lia|].
  cbn [map seq column sequence]. unfold np_percentile at 1. destruct (qltb p 0 || qltb 100 p); reflexivity.
Qed.
Print Assumptions C88_seasonal.

(** ** Deviations *)

(** C88: with positive targets, the deviation is how far the curve is outside of the targets as a share of the target; it is zero exactly
    between them. *)
Theorem C88_deviation : forall actual lower upper, 0 < lower -> lower <= upper ->
  exists v, deviation actual (Some lower) (Some upper) = Some v /\ v == relative_excess actual lower upper /\ 0 <= v /\
    (v == 0 <-> lower <= actual <= upper).
Proof.
  intros actual lower upper L U. unfold deviation, double_div. destruct (qeqbP upper 0) as [E|_]; [lra|]. destruct (qeqbP lower 0) as [E|_]; [lra|].
  cbn [bindo]. eexists. split; [reflexivity|].
  assert (forall a c, 0 < c -> (a / c <= 0 <-> a <= 0)) as D1.
  { intros a c Hc. split; intros H; [assert (a == a / c * c) as -> by (field; lra); nra|]. apply Qle_shift_div_r; lra. }
  assert (forall a c, 0 < c -> (0 < a / c <-> 0 < a)) as D2.
  { intros a c Hc. split; intros H; [assert (a == a / c * c) as -> by (field; lra); nra|]. apply Qlt_shift_div_l; lra. }
  pose proof (D1 (actual - upper) upper ltac:(lra)). pose proof (D2 (actual - upper) upper ltac:(lra)).
  pose proof (D1 (lower - actual) lower L). pose proof (D2 (lower - actual) lower L).
  unfold relative_excess.
  destruct (Qlt_le_dec upper actual) as [A|A].
  - assert (0 < (actual - upper) / upper) as P by (apply H0; lra). assert ((lower - actual) / lower <= 0) as Q1 by (apply H1; lra).
    assert (qmax (qmax ((actual - upper) / upper) ((lower - actual) / lower)) 0 == (actual - upper) / upper) as ->.
    { unfold qmax. destruct (qlebP ((actual - upper) / upper) ((lower - actual) / lower)) as [X|X]; [lra|]. destruct (qlebP ((actual - upper) / upper) 0); [lra|reflexivity]. }
    destruct (qltbP upper actual) as [_|]; [|contradiction]. split; [reflexivity|]. split; [lra|]. split; intros; lra.
  - destruct (Qlt_le_dec actual lower) as [B|B].
    + assert (0 < (lower - actual) / lower) as P by (apply H2; lra). assert ((actual - upper) / upper <= 0) as Q1 by (apply H; lra).
      assert (qmax (qmax ((actual - upper) / upper) ((lower - actual) / lower)) 0 == (lower - actual) / lower) as ->.
      { unfold qmax. destruct (qlebP ((actual - upper) / upper) ((lower - actual) / lower)) as [X|X]; [|lra]. destruct (qlebP ((lower - actual) / lower) 0); [lra|reflexivity]. }
      destruct (qltbP upper actual) as [|_]; [lra|]. destruct (qltbP actual lower) as [_|]; [|contradiction]. split; [reflexivity|]. split; [lra|]. split; intros; lra.
    + assert ((lower - actual) / lower <= 0) as P by (apply H1; lra). assert ((actual - upper) / upper <= 0) as Q1 by (apply H; lra).
      assert (qmax (qmax ((actual - upper) / upper) ((lower - actual) / lower)) 0 == 0) as ->.
      { unfold qmax. destruct (qlebP ((actual - upper) / upper) ((lower - actual) / lower)) as [X|X];
          [destruct (qlebP ((lower - actual) / lower) 0)|destruct (qlebP ((actual - upper) / upper) 0)]; lra. }
      destruct (qltbP upper actual) as [|_]; [lra|]. destruct (qltbP actual lower) as [|_]; [lra|]. split; [reflexivity|]. split; [lra|]. split; intros; lra.
Qed.
Print Assumptions C88_deviation.

(** C88: with one target only, the deviation is that from this target. *)
Theorem C88_deviation_one_sided : forall actual target, 0 < target ->
  (exists v, deviation actual None (Some target) = Some v /\ v == qmax ((actual - target) / target) 0) /\
  (exists v, deviation actual (Some target) None = Some v /\ v == qmax ((target - actual) / target) 0).
Proof.
  intros actual target T. unfold deviation, double_div. destruct (qeqbP target 0) as [E|_]; [lra|]. cbn [bindo]. split; eexists; (split; [reflexivity|]);
    [generalize ((actual - target) / target)|generalize ((target - actual) / target)]; intros x; unfold qmax;
    destruct (qlebP 0 x), (qlebP x 0), (qlebP 0 0); try lra; destruct (qlebP x 0); lra.
Qed.
Print Assumptions C88_deviation_one_sided.

(** C88 (refuted part): where a target is zero the deviation is NaN, even for a curve that lies between the targets. *)
Theorem C88_zero_target_refuted : exists actual lower upper, 0 <= lower /\ lower <= actual <= upper /\ deviation actual (Some lower) (Some upper) = None.
Proof. exists 0, 0, 1. split; [lra|]. split; [lra|reflexivity]. Qed.
Print Assumptions C88_zero_target_refuted.

(** C88: a recorder is made exactly if there is a target and every target curve has one number for every percentile. *)
Theorem C88_targets : forall percentiles lower upper scenario,
  (exists r, make_deviation percentiles lower upper scenario = Some r) <->
  (lower <> None \/ upper <> None) /\
  (forall cols col, lower = Some cols \/ upper = Some cols -> In col cols -> length col = length percentiles).
Proof.
  intros percentiles lower upper scenario.
  assert (F : forall t, fits percentiles t = true <-> forall cols col, t = Some cols -> In col cols -> length col = length percentiles).
  { intros [cols|]; unfold fits; split.
    - intros H c col E I. rewrite forallb_forall in H. apply Nat.eqb_eq, H. congruence.
    - intros H. apply forallb_forall. intros c I. apply Nat.eqb_eq. exact (H cols c eq_refl I).
    - discriminate.
    - reflexivity. }
  assert (M : (exists r, make_deviation percentiles lower upper scenario = Some r) <-> (lower <> None \/ upper <> None) /\ fits percentiles lower = true /\ fits percentiles upper = true).
  { unfold make_deviation. destruct lower as [l|], upper as [u|];
      try (destruct (fits percentiles _ && fits percentiles _) eqn:B; [apply andb_true_iff in B|apply andb_false_iff in B];
           (split; [intros [r E]; try discriminate E|intros [_ [H1 H2]]]); [|eexists; reflexivity|destruct B; congruence];
           split; [(left; discriminate) || (right; discriminate)|exact B]).
    split; [intros [r E]; discriminate|]. intros [[H|H] _]; contradiction. }
  rewrite M, !F. split; intros [H1 H2]; (split; [exact H1|]).
  - intros cols col [E|E] I; [exact (proj1 H2 cols col E I)|exact (proj2 H2 cols col E I)].
  - split; intros cols col E I; apply (H2 cols col); auto.
Qed.
Print Assumptions C88_targets.

(** C88: a recorder made with a scenario compares each combination with the target of its member of that scenario. *)
Theorem C88_deviation_target : forall percentiles cols position size r fdc combinations devs i si j col k,
  make_deviation percentiles (Some cols) None (Some (position, size)) = Some r -> setup_ok r (length combinations) = true ->
  deviations r fdc combinations = Some devs -> nth_error combinations i = Some si ->
  nth_error (indices si) position = Some j -> (0 <= j < size)%Z -> nth_error cols (Z.to_nat j) = Some col -> (k < length percentiles)%nat ->
  nth k (nth i devs []) None = deviation (nth i (nth k fdc []) 0) (Some (nth k col 0)) None.
Proof.
  intros percentiles cols position size r fdc combinations devs i si j col k Hm Hs Hd Hi Hj Bj Hc Hk.
  unfold make_deviation in Hm. destruct (fits percentiles (Some cols) && fits percentiles None); [|discriminate]. injection Hm as <-.
  unfold setup_ok, columns_match in Hs. cbn [r_lower r_upper r_scenario] in Hs. rewrite andb_true_r in Hs. apply Z.eqb_eq in Hs.
  assert (i < length combinations)%nat as Li by (apply nth_error_Some; congruence).
  unfold deviations in Hd.
  pose proof (sequence_nth _ _ i (deviations_of (Deviation percentiles (Some cols) None (Some (position, size))) fdc (fst (0%nat, si)) (snd (0%nat, si))) [] Hd
    ltac:(rewrite map_length, combine_length, seq_length; lia)) as R.
  rewrite (map_nth (fun p => deviations_of (Deviation percentiles (Some cols) None (Some (position, size))) fdc (fst p) (snd p))) in R.
  rewrite combine_nth, seq_nth in R by (rewrite ?seq_length; auto). cbn [fst snd] in R. rewrite (nth_error_nth _ _ _ Hi) in R. cbn [Nat.add] in R.
  unfold deviations_of in R. cbn [r_lower r_upper r_percentiles] in R.
  assert (target_column (Deviation percentiles (Some cols) None (Some (position, size))) si cols = Some col) as T.
  { unfold target_column. cbn [r_scenario]. destruct (Nat.eqb_spec (length cols) 1) as [E|E].
    - assert (j = 0)%Z as -> by lia. exact Hc.
    - rewrite Hj. cbn [bindo]. unfold at_z, wrap. destruct (Z.ltb_spec j 0); [lia|]. destruct (Z.leb_spec 0 j); [|lia].
      destruct (Z.ltb_spec j (Z.of_nat (length cols))); [|lia]. exact Hc. }
  rewrite T in R. cbn [option_map bindo] in R. apply (f_equal (fun o => match o with Some x => x | None => [] end)) in R. cbv beta iota in R. rewrite <- R.
  rewrite (nth_indep _ None (deviation (nth i (nth 0 fdc []) 0) (target_value (Some col) 0) (target_value None 0))) by (rewrite map_length, seq_length; exact Hk).
  rewrite (map_nth (fun k => deviation (nth i (nth k fdc []) 0) (target_value (Some col) k) (target_value None k))), seq_nth by exact Hk. reflexivity.
Qed.
Print Assumptions C88_deviation_target.

(** C88 (refuted part): a recorder loaded from a document forgets its scenario: the same definition given to the constructor compares with the
    target of the member, the loaded one with another target; with several scenarios it is refused by setup. *)
Definition ex_scenarios : collection := Coll [Scenario 2 None] (Some [[1]; [0]]%Z).
Theorem C88_loaded_scenario_refuted : exists c position size percentiles cols fdc r r' combinations,
  get_combinations c = Some combinations /\
  make_deviation percentiles (Some cols) None (Some (position, size)) = Some r /\ setup_ok r (length combinations) = true /\
  load_deviation percentiles (Some cols) None (Some (position, size)) = Some r' /\ setup_ok r' (length combinations) = true /\
  option_map (map (map (option_map Qred))) (deviations r fdc combinations) = Some [[Some 0]; [Some 0]] /\
  option_map (map (map (option_map Qred))) (deviations r' fdc combinations) = Some [[Some (1 # 2)]; [Some 0]].
Proof.
  exists ex_scenarios, 0%nat, 2%Z, [50], [[10]; [5]], [[5; 10]]. do 3 eexists.
  split; [reflexivity|]. split; [reflexivity|]. split; [reflexivity|]. split; [reflexivity|]. split; [reflexivity|]. split; reflexivity.
Qed.
Print Assumptions C88_loaded_scenario_refuted.

Theorem C88_loaded_scenarios_refuted : exists c position size percentiles cols r r' combinations,
  get_combinations c = Some combinations /\
  make_deviation percentiles (Some cols) None (Some (position, size)) = Some r /\ setup_ok r (length combinations) = true /\
  load_deviation percentiles (Some cols) None (Some (position, size)) = Some r' /\ setup_ok r' (length combinations) = false.
Proof.
  exists (Coll [Scenario 2 None; Scenario 3 None] None), 0%nat, 2%Z, [50], [[10]; [5]]. do 3 eexists.
  split; [reflexivity|]. split; [reflexivity|]. split; [reflexivity|]. split; reflexivity.
Qed.
Print Assumptions C88_loaded_scenarios_refuted.

(** Three timesteps, two scenarios. *)
Definition ex_seen (f : Q) : seen := Seen f (Fin 8) 2 f (f / 8) f f (1 # 2).
Definition ex_run : list (list seen) := [[ex_seen 4; ex_seen 1]; [ex_seen 2; ex_seen 1]; [ex_seen 8; ex_seen 3]].
Example C88_example : exists m c, recorded (NodeFlow 2) (zeros 3 2) (combine (seq 0 3) ex_run) = Some m /\ duration_curve 2 m [0; 50; 75; 100] = Some c /\
  map (map Qred) m = [[8; 2]; [4; 2]; [16; 6]] /\ map (map Qred) c = [[4; 2]; [8; 2]; [12; 4]; [16; 6]].
Proof. do 2 eexists. split; [reflexivity|]. split; [reflexivity|]. split; reflexivity. Qed.
(** Deficits: what is missing to the maximum flow. *)
Example C88_example_deficit : option_map (map (map Qred)) (recorded NodeDeficit (zeros 2 1) [(0%nat, [Seen 3 (Fin 5) 0 0 0 0 0 0]); (1%nat, [Seen 5 (Fin 5) 0 0 0 0 0 0])]) = Some [[2]; [0]].
Proof. reflexivity. Qed.

Example C88_example_seasonal : option_map (map (map Qred)) (seasonal_duration_curve 2 (fun t => Z.of_nat t + 1)%Z [1; 3]%Z [[8; 2]; [4; 2]; [16; 6]] [50]) = Some [[12; 4]].
Proof. reflexivity. Qed.
Example C88_example_profile : exists m, recorded ParameterValue (zeros 366 1) [(0%nat, [ex_seen 1]); (59%nat, [ex_seen 2]); (0%nat, [Seen 0 PInf 0 0 0 0 0 7])] = Some m /\
  nth 0 (nth 0 m []) 0 == 7 /\ nth 0 (nth 59 m []) 0 == 1 # 2 /\ nth 0 (nth 60 m []) 0 == 0.
Proof. eexists. split; [reflexivity|]. split; [reflexivity|]. split; reflexivity. Qed.
