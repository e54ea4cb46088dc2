(** C121: data and timesteps of calendar periods. *)
From Verif Require Import Base Resample_model Resample_spec Resample_proofs Months_model Months_spec.
Local Open Scope Z_scope.
Local Open Scope list_scope.

Lemma start_lt c k k' : proper c -> k < k' -> start c k < start c k'.
Proof.
  intros [P _] H. replace k' with (k + Z.of_nat (S (Z.to_nat (k' - k - 1)))) by lia. generalize (Z.to_nat (k' - k - 1)). intros n.
  induction n as [|n IH]; [apply P|]. replace (k + Z.of_nat (S (S n))) with (k + Z.of_nat (S n) + 1) by lia. specialize (P (k + Z.of_nat (S n))). lia.
Qed.
Lemma of_le c d d' : proper c -> d <= d' -> of c d <= of c d'.
Proof.
  intros P H. destruct P as [P1 P]. pose proof (proj1 (P d (of c d)) eq_refl). pose proof (proj1 (P d' (of c d')) eq_refl).
  destruct (Z.le_gt_cases (of c d) (of c d')) as [L|L]; [exact L|]. destruct (Z.eq_dec (of c d' + 1) (of c d)) as [E|E]; [rewrite E in *; lia|].
  pose proof (start_lt c (of c d' + 1) (of c d) (conj P1 P) ltac:(lia)). lia.
Qed.

Lemma conclude_inv lo hi t0 n cnt rows vs : conclude lo hi (target t0 n cnt) rows = Aligned vs ->
  map fst (slice lo hi rows) = target t0 n cnt /\ length vs = cnt /\
  forall i v, nth_error vs i = Some v -> nth_error (slice lo hi rows) i = Some (t0 + n * Z.of_nat i, Some v).
Proof.
  unfold conclude. cbv zeta. generalize (slice lo hi rows) as rs. intros rs H.
  destruct (labels_eqb (map fst rs) (target t0 n cnt)) eqn:E; cbn [negb] in H; [|discriminate]. apply labels_eqb_eq in E.
  match type of H with context [existsb ?f rs] => destruct (existsb f rs) eqn:X end; [discriminate|]. apply (f_equal (fun a => match a with Aligned v => v | _ => [] end)) in H. cbn in H. subst vs.
  apply known_rows in X as [L N]. split; [exact E|].
  assert (LR : length rs = cnt) by (pose proof (f_equal (@length Z) E) as LE; unfold target in LE; rewrite !map_length, seq_length in LE; exact LE).
  split; [congruence|]. intros i v V. destruct (N i v V) as [l R].
  assert (I : (i < cnt)%nat) by (rewrite <- LR; apply nth_error_Some; congruence).
  pose proof (map_nth_error fst _ _ R) as F. cbn in F. rewrite E in F. unfold target in F.
  rewrite nth_error_map, (nth_error_nth' _ 0%nat) in F by (rewrite seq_length; exact I). rewrite seq_nth in F by exact I. cbn in F.
  rewrite R. injection F as <-. reflexivity.
Qed.
Lemma conclude_intro lo hi labels rows : map fst (slice lo hi rows) = labels -> (forall r, In r (slice lo hi rows) -> snd r <> None) ->
  exists vs, conclude lo hi labels rows = Aligned vs.
Proof.
  intros E N. unfold conclude. cbv zeta. rewrite (proj2 (labels_eqb_eq _ _) E). cbn [negb].
  match goal with |- context [existsb ?f ?l] => destruct (existsb f l) eqn:X end; [|eexists; reflexivity]. apply existsb_exists in X as [r [I F]]. specialize (N r I). destruct (snd r); [discriminate F|contradiction].
Qed.

Definition days_of (c : calendar) (k : Z) : Z := start c (k + 1) - start c k.
Lemma period_data c d0 values p : proper c -> known (filter (fun r => of c (fst r) =? p) (frame d0 1 values)) = data_of d0 1 values (start c p) (days_of c p).
Proof.
  intros [_ P]. rewrite <- frame_filter. f_equal. apply filter_ext_In. intros r _. unfold days_of. replace (start c p + (start c (p + 1) - start c p)) with (start c (p + 1)) by lia.
  destruct (Z.eqb_spec (of c (fst r)) p) as [E|E].
  - apply P in E. symmetry. apply andb_true_iff. split; [apply Z.leb_le|apply Z.ltb_lt]; lia.
  - symmetry. apply andb_false_iff. destruct (Z.leb_spec (start c p) (fst r)); [right|now left]. apply Z.ltb_ge.
    destruct (Z.lt_ge_cases (fst r) (start c (p + 1))); [|assumption]. exfalso. apply E. apply P. lia.
Qed.
Lemma by_period_frame c d0 values : (0 < length values)%nat ->
  by_period c (frame d0 1 values) =
  map (fun i => (of c d0 + Z.of_nat i, mean (filter (fun r => of c (fst r) =? of c d0 + Z.of_nat i) (frame d0 1 values))))
    (seq 0 (Z.to_nat (of c (d0 + Z.of_nat (length values - 1)) - of c d0 + 1))).
Proof.
  intros H. destruct (frame_ends d0 1 values H) as [o [rest [E L]]]. unfold by_period. rewrite E at 1. rewrite L.
  replace (d0 + 1 * Z.of_nat (length values - 1)) with (d0 + Z.of_nat (length values - 1)) by lia. reflexivity.
Qed.
Lemma slice_slice lo hi rows : slice lo hi (slice lo hi rows) = slice lo hi rows.
Proof. unfold slice. rewrite filter_filter. apply filter_ext_In. intros r _. destruct (lo <=? fst r), (fst r <=? hi); reflexivity. Qed.

(** C121: daily data and timesteps of calendar periods: every timestep gets the mean of the known values of its own days; this succeeds
    exactly if some day of every timestep is known. *)
Theorem C121_daily_data (c : calendar) (d0 : Z) (values : list (option Q)) (k0 : Z) (cnt : nat) : proper c -> (0 < cnt)%nat ->
  let data i := data_of d0 1 values (start c (k0 + Z.of_nat i)) (start c (k0 + Z.of_nat i + 1) - start c (k0 + Z.of_nat i)) in
  (forall vs, align_periods c d0 values k0 cnt = Aligned vs ->
     length vs = cnt /\ forall i v, nth_error vs i = Some v -> data i <> [] /\ v = average (data i)) /\
  ((exists vs, align_periods c d0 values k0 cnt = Aligned vs) <-> forall i, (i < cnt)%nat -> data i <> []).
Proof.
  intros P C data.
  assert (V : forall vs, align_periods c d0 values k0 cnt = Aligned vs ->
     length vs = cnt /\ forall i v, nth_error vs i = Some v -> data i <> [] /\ v = average (data i)).
  { intros vs H. unfold align_periods in H. cbv zeta in H. apply conclude_inv in H as [E [L N]]. split; [exact L|]. intros i v I.
    specialize (N i v I). apply nth_error_In in N. rewrite slice_slice in N. apply slice_In in N as [N _]. rewrite Z.mul_1_l in N.
    destruct (Nat.eq_dec (length values) 0) as [Z0|Z0]; [destruct values; [destruct N|discriminate]|].
    rewrite by_period_frame in N by lia. apply in_map_iff in N as [j [N _]].
    assert (E1 : of c d0 + Z.of_nat j = k0 + Z.of_nat i) by congruence. rewrite E1 in N.
    assert (E2 : mean (filter (fun r => of c (fst r) =? k0 + Z.of_nat i) (frame d0 1 values)) = Some v) by congruence.
    apply mean_average in E2. rewrite (period_data c d0 values _ P) in E2. exact E2. }
  split; [exact V|]. split.
  - intros [vs H] i Hi. destruct (V vs H) as [L N]. destruct (nth_error vs i) as [v|] eqn:I; [|apply nth_error_None in I; lia]. now apply (N i v).
  - intros D.
    assert (IN : forall i, (i < cnt)%nat -> exists r, In r (frame d0 1 values) /\ of c (fst r) = k0 + Z.of_nat i).
    { intros i Hi. destruct (data_label _ _ _ _ _ (D i Hi)) as [r [R1 R2]]. exists r. split; [exact R1|]. apply (proj2 P). lia. }
    assert (B : forall r, In r (frame d0 1 values) -> d0 <= fst r <= d0 + Z.of_nat (length values - 1)).
    { intros r I. unfold frame in I. apply in_map_iff in I as [j [<- J]]. apply in_seq in J. cbn [fst]. lia. }
    destruct (IN 0%nat C) as [r0 [I0 E0]]. destruct (IN (cnt - 1)%nat ltac:(lia)) as [r1 [I1 E1]].
    assert (NE : (0 < length values)%nat) by (destruct values; [destruct I0|cbn; lia]).
    pose proof (of_le c d0 (fst r0) P ltac:(apply B in I0; lia)) as L0. pose proof (of_le c (fst r1) _ P (proj2 (B _ I1))) as L1.
    unfold align_periods. cbv zeta.
    assert (X : slice k0 (k0 + Z.of_nat (cnt - 1)) (by_period c (frame d0 1 values)) =
      map (fun i => (of c d0 + Z.of_nat i, mean (filter (fun r => of c (fst r) =? of c d0 + Z.of_nat i) (frame d0 1 values)))) (seq (Z.to_nat (k0 - of c d0)) cnt)).
    { rewrite by_period_frame by exact NE. unfold slice. rewrite filter_map. cbn [fst]. f_equal.
      rewrite <- (slice_progression nat (fun k => k) (of c d0) 1 (Z.to_nat (k0 - of c d0)) cnt (Z.to_nat (of c (d0 + Z.of_nat (length values - 1)) - of c d0 + 1)) k0) by lia.
      apply filter_ext_In. intros i _. rewrite !Z.mul_1_l. reflexivity. }
    apply conclude_intro; rewrite slice_slice, X.
    + rewrite map_map. cbn [fst]. unfold target. rewrite map_seq_shift. apply map_ext. intros i. lia.
    + intros r I. apply in_map_iff in I as [j [<- J]]. apply in_seq in J. cbn [snd].
      assert (EJ : of c d0 + Z.of_nat j = k0 + Z.of_nat (j - Z.to_nat (k0 - of c d0))) by lia. rewrite EJ. unfold mean. rewrite (period_data c d0 values _ P).
      specialize (D (j - Z.to_nat (k0 - of c d0))%nat ltac:(lia)). unfold data in D. fold (days_of c (k0 + Z.of_nat (j - Z.to_nat (k0 - of c d0)))) in D.
      destruct (data_of d0 1 values _ _); [now destruct D|discriminate].
Qed.
Print Assumptions C121_daily_data.

Lemma spread_length c k values : proper c -> Z.of_nat (length (spread c k values)) = start c (k + Z.of_nat (length values)) - start c k.
Proof.
  intros P. revert k. induction values as [|v l IH]; intros k; cbn [spread length]; [rewrite Z.add_0_r; lia|].
  rewrite app_length, repeat_length, Nat2Z.inj_add, IH. pose proof (proj1 P k). replace (k + Z.of_nat (S (length l))) with (k + 1 + Z.of_nat (length l)) by lia. lia.
Qed.
Lemma spread_nth c k values i d : proper c -> (i < length values)%nat -> start c (k + Z.of_nat i) <= d < start c (k + Z.of_nat i + 1) ->
  nth (Z.to_nat (d - start c k)) (spread c k values) None = nth i values None.
Proof.
  intros P. revert k i. induction values as [|v l IH]; intros k i H D; cbn [length] in H; [lia|]. cbn [spread]. pose proof (proj1 P k) as PK. destruct i as [|i].
  - rewrite Z.add_0_r in D. rewrite app_nth1 by (rewrite repeat_length; lia). cbn [nth].
    apply (nth_error_nth (repeat v _)). rewrite nth_error_repeat; [reflexivity|lia].
  - replace (k + Z.of_nat (S i)) with (k + 1 + Z.of_nat i) in D by lia. assert (start c (k + 1) <= d).
    { destruct i; [rewrite Z.add_0_r in D; lia|]. pose proof (start_lt c (k + 1) (k + 1 + Z.of_nat (S i)) P ltac:(lia)). lia. }
    rewrite app_nth2 by (rewrite repeat_length; lia). rewrite repeat_length. cbn [nth]. rewrite <- (IH (k + 1) i ltac:(lia) D). f_equal. lia.
Qed.

(** Resampling to days with ffill repeats each value on the days of its period. *)
Lemma by_day_frame c k0 values : proper c -> by_day c (frame k0 1 values) = frame (start c k0) 1 (spread c k0 values).
Proof.
  intros P. destruct (Nat.eq_dec (length values) 0) as [Z0|Z0]; [destruct values; [reflexivity|discriminate]|].
  destruct (frame_ends k0 1 values ltac:(lia)) as [o [rest [E L]]]. unfold by_day. rewrite E at 1. rewrite L. unfold frame at 2.
  assert (LS := spread_length c k0 values P).
  replace (k0 + 1 * Z.of_nat (length values - 1) + 1) with (k0 + Z.of_nat (length values)) by lia.
  replace (Z.to_nat (start c (k0 + Z.of_nat (length values)) - start c k0)) with (length (spread c k0 values)) by lia.
  apply map_ext_in. intros j J. apply in_seq in J. cbv zeta. rewrite Z.mul_1_l. f_equal. unfold frame. rewrite filter_map. cbn [fst].
  destruct (filter_upto (fun i => start c (k0 + 1 * Z.of_nat i)) (start c k0 + Z.of_nat j)) with (N := length values) as [n [K1 [K2 [K3 K4]]]].
  { intros a b AB. apply start_lt; [exact P|lia]. }
  rewrite K2. destruct n as [|n]; [specialize (K4 ltac:(lia)); rewrite Z.mul_0_r, Z.add_0_r in K4; lia|].
  rewrite last_map_seq by lia. cbn [snd]. replace (S n - 1)%nat with n by lia.
  rewrite <- (spread_nth c k0 values n (start c k0 + Z.of_nat j) P ltac:(lia)).
  - f_equal. lia.
  - specialize (K3 n ltac:(lia)). rewrite Z.mul_1_l in K3. split; [exact K3|].
    destruct (Nat.eq_dec (S n) (length values)) as [E1|E1].
    + replace (k0 + Z.of_nat n + 1) with (k0 + Z.of_nat (length values)) by lia. lia.
    + specialize (K4 ltac:(lia)). replace (k0 + Z.of_nat n + 1) with (k0 + 1 * Z.of_nat (S n)) by lia. exact K4.
Qed.

(** C121: data of calendar periods and timesteps of several days: the same as daily data that have each value on every day of its period
    (for which see C99_down and C99_daily). *)
Theorem C121_period_data (c : calendar) (k0 : Z) (values : list (option Q)) (extra : nat) (t0 n : Z) (cnt : nat) : proper c -> 1 < n ->
  align_days c k0 values t0 n cnt = align (start c k0) 1 (spread c k0 values) extra t0 n cnt.
Proof.
  intros P N. unfold align_days, align. cbv zeta. rewrite by_day_frame by exact P. rewrite (proj2 (Z.leb_le 1 n)) by lia.
  replace (n >? 1) with true by (symmetry; apply Z.gtb_lt; lia). reflexivity.
Qed.
Print Assumptions C121_period_data.

(** C121: data of calendar periods and daily timesteps: every day gets the value of its period; this succeeds exactly if the period of every
    day is among the data and known. *)
Theorem C121_period_data_daily (c : calendar) (k0 : Z) (values : list (option Q)) (t0 : Z) (cnt : nat) : proper c -> (0 < cnt)%nat ->
  let known i v := exists j, nth_error values j = Some (Some v) /\ start c (k0 + Z.of_nat j) <= t0 + Z.of_nat i < start c (k0 + Z.of_nat j + 1) in
  (forall vs, align_days c k0 values t0 1 cnt = Aligned vs -> length vs = cnt /\ forall i v, nth_error vs i = Some v -> known i v) /\
  ((exists vs, align_days c k0 values t0 1 cnt = Aligned vs) <-> forall i, (i < cnt)%nat -> exists v, known i v).
Proof.
  intros P C known.
  assert (EA : align_days c k0 values t0 1 cnt = conclude t0 (t0 + Z.of_nat (cnt - 1)) (target t0 1 cnt) (slice t0 (t0 + Z.of_nat (cnt - 1)) (frame (start c k0) 1 (spread c k0 values)))).
  { unfold align_days. cbv zeta. rewrite by_day_frame by exact P. cbn [Z.gtb]. replace (1 >? 1) with false by reflexivity.
    replace (t0 + 1 * Z.of_nat (cnt - 1)) with (t0 + Z.of_nat (cnt - 1)) by lia. replace (t0 + Z.of_nat (cnt - 1) + 1 - 1) with (t0 + Z.of_nat (cnt - 1)) by lia. reflexivity. }
  rewrite EA.
  assert (DAY : forall d, start c k0 <= d < start c (k0 + Z.of_nat (length values)) -> exists j, (j < length values)%nat /\ start c (k0 + Z.of_nat j) <= d < start c (k0 + Z.of_nat j + 1)).
  { intros d D. pose proof (proj1 (proj2 P d (of c d)) eq_refl) as O. exists (Z.to_nat (of c d - k0)).
    assert (k0 <= of c d).
    { destruct (Z.le_gt_cases k0 (of c d)); [assumption|]. destruct (Z.eq_dec (of c d + 1) k0) as [E|E]; [rewrite E in O; lia|]. pose proof (start_lt c (of c d + 1) k0 P ltac:(lia)). lia. }
    assert (of c d < k0 + Z.of_nat (length values)).
    { destruct (Z.lt_ge_cases (of c d) (k0 + Z.of_nat (length values))); [assumption|]. destruct (Z.eq_dec (of c d) (k0 + Z.of_nat (length values))) as [E|E]; [rewrite E in O; lia|].
      pose proof (start_lt c (k0 + Z.of_nat (length values)) (of c d) P ltac:(lia)). lia. }
    split; [lia|]. replace (k0 + Z.of_nat (Z.to_nat (of c d - k0))) with (of c d) by lia. exact O. }
  assert (V : forall vs, conclude t0 (t0 + Z.of_nat (cnt - 1)) (target t0 1 cnt) (slice t0 (t0 + Z.of_nat (cnt - 1)) (frame (start c k0) 1 (spread c k0 values))) = Aligned vs ->
     length vs = cnt /\ forall i v, nth_error vs i = Some v -> known i v).
  { intros vs H. apply conclude_inv in H as [E [L N]]. split; [exact L|]. intros i v I. specialize (N i v I). apply nth_error_In in N. rewrite slice_slice in N. apply slice_In in N as [N _].
    unfold frame in N. apply in_map_iff in N as [j [N J]]. apply in_seq in J. rewrite !Z.mul_1_l in N.
    assert (E1 : start c k0 + Z.of_nat j = t0 + Z.of_nat i) by congruence. assert (E2 : nth j (spread c k0 values) None = Some v) by congruence.
    pose proof (spread_length c k0 values P) as LS. destruct (DAY (t0 + Z.of_nat i) ltac:(lia)) as [q [Q1 Q2]].
    exists q. split; [|exact Q2]. rewrite <- E2. rewrite (nth_error_nth' _ None) by exact Q1. f_equal. rewrite <- (spread_nth c k0 values q _ P Q1 Q2). f_equal. lia. }
  split; [exact V|]. split.
  - intros [vs H] i Hi. destruct (V vs H) as [L N]. destruct (nth_error vs i) as [v|] eqn:I; [|apply nth_error_None in I; lia]. exists v. now apply N.
  - intros K. pose proof (spread_length c k0 values P) as LS.
    assert (R : forall i, (i < cnt)%nat -> start c k0 <= t0 + Z.of_nat i < start c (k0 + Z.of_nat (length values))).
    { intros i Hi. destruct (K i Hi) as [v [j [J1 J2]]]. assert (J : (j < length values)%nat) by (apply nth_error_Some; congruence). split.
      - destruct j; [rewrite Z.add_0_r in J2; lia|]. pose proof (start_lt c k0 (k0 + Z.of_nat (S j)) P ltac:(lia)). lia.
      - destruct (Z.eq_dec (k0 + Z.of_nat j + 1) (k0 + Z.of_nat (length values))) as [E|E]; [rewrite E in J2; lia|].
        pose proof (start_lt c (k0 + Z.of_nat j + 1) (k0 + Z.of_nat (length values)) P ltac:(lia)). lia. }
    pose proof (R 0%nat C) as R0. pose proof (R (cnt - 1)%nat ltac:(lia)) as R1.
    assert (X : slice t0 (t0 + Z.of_nat (cnt - 1)) (frame (start c k0) 1 (spread c k0 values)) =
      map (fun j => (start c k0 + 1 * Z.of_nat j, nth j (spread c k0 values) None)) (seq (Z.to_nat (t0 - start c k0)) cnt)).
    { unfold slice, frame. rewrite filter_map. cbn [fst]. f_equal.
      rewrite <- (slice_progression nat (fun k => k) (start c k0) 1 (Z.to_nat (t0 - start c k0)) cnt (length (spread c k0 values)) t0) by lia.
      apply filter_ext_In. intros i _. rewrite !Z.mul_1_l. reflexivity. }
    apply conclude_intro; rewrite slice_slice, X.
    + rewrite map_map. cbn [fst]. unfold target. rewrite map_seq_shift. apply map_ext. intros i. lia.
    + intros r I. apply in_map_iff in I as [j [<- J]]. apply in_seq in J. cbn [snd].
      destruct (K (j - Z.to_nat (t0 - start c k0))%nat ltac:(lia)) as [v [q [Q1 Q2]]]. assert (QL : (q < length values)%nat) by (apply nth_error_Some; congruence).
      pose proof (spread_nth c k0 values q _ P QL Q2) as SN. rewrite (nth_error_nth _ _ _ Q1) in SN.
      replace (Z.to_nat (t0 + Z.of_nat (j - Z.to_nat (t0 - start c k0)) - start c k0)) with j in SN by lia. rewrite SN. discriminate.
Qed.
Print Assumptions C121_period_data_daily.

(** Two periods, of two and of three days, over and over. *)
Definition short_long : calendar :=
  Calendar (fun k => 5 * (k / 2) + 2 * (k mod 2)) (fun d => 2 * (d / 5) + (if d mod 5 <? 2 then 0 else 1)).
Lemma short_long_proper : proper short_long.
Proof.
  assert (A : forall k, start short_long k < start short_long (k + 1)).
  { intros k. cbn [start short_long]. pose proof (Z.div_mod k 2 ltac:(lia)). pose proof (Z.mod_pos_bound k 2 ltac:(lia)).
    pose proof (Z.div_mod (k + 1) 2 ltac:(lia)). pose proof (Z.mod_pos_bound (k + 1) 2 ltac:(lia)). nia. }
  split; [exact A|]. intros d k. cbn [start of short_long].
  pose proof (Z.div_mod k 2 ltac:(lia)). pose proof (Z.mod_pos_bound k 2 ltac:(lia)). pose proof (Z.div_mod (k + 1) 2 ltac:(lia)). pose proof (Z.mod_pos_bound (k + 1) 2 ltac:(lia)).
  pose proof (Z.div_mod d 5 ltac:(lia)). pose proof (Z.mod_pos_bound d 5 ltac:(lia)). destruct (Z.ltb_spec (d mod 5) 2); split; intros; nia.
Qed.
Example months_example :
  match align_periods short_long 0 (map (fun v => Some (inject_Z v)) [1; 3; 5; 7; 9; 11; 11]) 0 3 with Aligned vs => map Qred vs | _ => [] end = [2; 7; 11]%Q /\
  align_days short_long 0 [Some 2; Some 8]%Q 1 1 3 = Aligned [2; 8; 8]%Q /\
  match align_days short_long 0 [Some 2; Some 8]%Q 1 2 2 with Aligned vs => map Qred vs | _ => [] end = [5; 8]%Q /\
  align_days short_long 0 [Some 2; Some 8]%Q 3 1 3 = ResamplingError /\ align_days short_long 0 [Some 2; None]%Q 1 1 2 = MissingValues.
Proof. vm_compute. repeat split. Qed.

(** C121, refuted: data that begin within the first timestep, end within the last, or lack a day are accepted: the timestep's value is the
    mean of fewer days (timesteps of whole days refuse data that begin late, C99_start). *)
Theorem C121_whole_periods_refuted : exists (c : calendar) (d0 : Z) (values : list (option Q)) (k0 : Z) (vs : list Q), proper c /\
  align_periods c d0 values k0 1 = Aligned vs /\ start c k0 < d0 /\ d0 + Z.of_nat (length values) < start c (k0 + 1).
Proof.
  exists short_long, 3, [Some 4]%Q, 1. eexists. split; [exact short_long_proper|]. vm_compute. repeat split; reflexivity.
Qed.
Print Assumptions C121_whole_periods_refuted.

(** The same with periods instead of days: data of calendar periods for timesteps that are longer calendar periods (106-110 does what 114-118
    does), e.g. monthly data and yearly timesteps; [g] then divides the months. *)
Definition pairs : calendar := Calendar (fun k => 2 * k) (fun d => d / 2).
Lemma pairs_proper : proper pairs.
Proof.
  split; cbn [start of pairs]; [lia|]. intros d k. pose proof (Z.div_mod d 2 ltac:(lia)). pose proof (Z.mod_pos_bound d 2 ltac:(lia)). split; intros; nia.
Qed.
Definition daily_average (c : calendar) (k0 : Z) (values : list (option Q)) : Q := average (data_of (start c k0) 1 (spread c k0 values) (start c k0) (Z.of_nat (length (spread c k0 values)))).

(** C121, refuted: every month has the same weight in the year's mean, however many days it has: it is not the mean over the days. *)
Theorem C121_weighed_refuted : exists (c g : calendar) (values : list (option Q)) (v : Q), proper c /\ proper g /\
  align_periods g 0 values 0 1 = Aligned [v] /\ start g 1 = Z.of_nat (length values) /\ ~ v == daily_average c 0 values.
Proof.
  exists short_long, pairs, [Some 1; Some 0]%Q. eexists. split; [exact short_long_proper|]. split; [exact pairs_proper|].
  split; [vm_compute; reflexivity|]. split; [reflexivity|]. vm_compute. discriminate.
Qed.
Print Assumptions C121_weighed_refuted.
