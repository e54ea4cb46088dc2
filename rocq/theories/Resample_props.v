(** C99: data aligned with the timesteps of a model. *)
From Verif Require Import Base Resample_model Resample_spec Resample_proofs.
Local Open Scope Z_scope.
Local Open Scope list_scope.

(** C99: data at least as frequent as the timesteps: every timestep gets the mean of the known data of its days (at least one
    is known); the alignment succeeds exactly if some data period starts with the first timestep and no timestep is without
    known data. *)
Theorem C99_down : forall d0 m values extra t0 n cnt, 0 < m <= n -> (0 < cnt)%nat ->
  (forall vs, align d0 m values extra t0 n cnt = Aligned vs ->
     length vs = cnt /\
     forall i v, nth_error vs i = Some v ->
       data_of d0 m values (t0 + n * Z.of_nat i) n <> [] /\ v = average (data_of d0 m values (t0 + n * Z.of_nat i) n)) /\
  ((exists vs, align d0 m values extra t0 n cnt = Aligned vs) <->
   (exists j, (j < length values)%nat /\ d0 + m * Z.of_nat j = t0) /\
   forall i, (i < cnt)%nat -> data_of d0 m values (t0 + n * Z.of_nat i) n <> []).
Proof.
  intros d0 m values extra t0 n cnt M C.
  assert (V : forall vs, align d0 m values extra t0 n cnt = Aligned vs ->
     length vs = cnt /\ forall i v, nth_error vs i = Some v ->
       data_of d0 m values (t0 + n * Z.of_nat i) n <> [] /\ v = average (data_of d0 m values (t0 + n * Z.of_nat i) n)).
  { intros vs H. apply align_inv in H as [rows [ER [EL [L N]]]]. split; [exact L|]. intros i v I.
    assert (Hi : (i < cnt)%nat) by (rewrite <- L; apply nth_error_Some; congruence).
    specialize (N i v I). apply nth_error_In in N. rewrite ER, (proj2 (Z.leb_le m n)) in N by lia.
    apply slice_In in N as [N _]. apply mean_row in N. rewrite bin_slice in N by nia. symmetry in N. apply mean_average in N.
    rewrite frame_filter in N. exact N. }
  split; [exact V|]. split.
  - intros [vs H]. split.
    + apply align_inv in H as [rows [ER [EL [L N]]]].
      assert (I : In t0 (map fst rows)) by (rewrite EL; unfold target; apply in_map_iff; exists 0%nat; split; [cbn; lia|apply in_seq; lia]).
      apply in_map_iff in I as [[l o] [E I]]. cbn in E. subst l. rewrite ER, (proj2 (Z.leb_le m n)) in I by lia. apply slice_In in I as [I _].
      unfold resample_mean in I.
      assert (B : forall r, In r (slice t0 (t0 + n * Z.of_nat (cnt - 1) + n - 1) (frame d0 m values)) -> In r (frame d0 m values) /\ t0 <= fst r)
        by (intros r J; apply slice_In in J as [J1 J2]; split; [exact J1|lia]).
      destruct (slice t0 _ (frame d0 m values)) as [|[f w] rest]; [destruct I|].
      apply in_map_iff in I as [k [E _]]. apply (f_equal fst) in E. cbn [fst] in E.
      destruct (B (f, w) (or_introl eq_refl)) as [B1 B2]. cbn [fst] in B2. assert (f = t0) by nia. subst f.
      unfold frame in B1. apply in_map_iff in B1 as [j [B1 J]]. apply (f_equal fst) in B1. cbn [fst] in B1. apply in_seq in J. exists j. split; [lia|exact B1].
    + intros i Hi. destruct (V vs H) as [L N]. destruct (nth_error vs i) as [v|] eqn:I; [|apply nth_error_None in I; lia]. now apply (N i v).
  - intros [J D]. now apply down_complete.
Qed.
Print Assumptions C99_down.

(** C99: daily data known on every day of all timesteps: the value is the mean over the days of the timestep. *)
Theorem C99_daily : forall d0 (data : Z -> Q) len extra t0 n cnt, 0 < n -> (0 < cnt)%nat ->
  d0 <= t0 -> t0 + n * Z.of_nat cnt <= d0 + Z.of_nat len ->
  exists vs, align d0 1 (map (fun i => Some (data (d0 + Z.of_nat i))) (seq 0 len)) extra t0 n cnt = Aligned vs /\ length vs = cnt /\
    forall i v, nth_error vs i = Some v ->
      v = average (map (fun k => data (t0 + n * Z.of_nat i + Z.of_nat k)) (seq 0 (Z.to_nat n))).
Proof.
  intros d0 data len extra t0 n cnt Hn C L E. set (values := map _ (seq 0 len)).
  assert (LV : length values = len) by (unfold values; now rewrite map_length, seq_length).
  assert (D : forall i, (i < cnt)%nat -> data_of d0 1 values (t0 + n * Z.of_nat i) n = map (fun k => data (t0 + n * Z.of_nat i + Z.of_nat k)) (seq 0 (Z.to_nat n))).
  { intros i Hi. unfold data_of. rewrite LV.
    pose proof (slice_progression nat (fun k => k) d0 1 (Z.to_nat (t0 + n * Z.of_nat i - d0)) (Z.to_nat n) len (t0 + n * Z.of_nat i) ltac:(lia) ltac:(nia) ltac:(lia) ltac:(nia)) as S.
    rewrite (filter_ext_In _ _ (fun k => (t0 + n * Z.of_nat i <=? d0 + 1 * Z.of_nat k) && (d0 + 1 * Z.of_nat k <=? t0 + n * Z.of_nat i + 1 * Z.of_nat (Z.to_nat n - 1)))).
    2: { intros k _. f_equal. destruct (Z.ltb_spec (d0 + 1 * Z.of_nat k) (t0 + n * Z.of_nat i + n)), (Z.leb_spec (d0 + 1 * Z.of_nat k) (t0 + n * Z.of_nat i + 1 * Z.of_nat (Z.to_nat n - 1))); try reflexivity; lia. }
    rewrite S. rewrite <- (map_id (seq (Z.to_nat (t0 + n * Z.of_nat i - d0)) (Z.to_nat n))), map_seq_shift.
    assert (B : (Z.to_nat (t0 + n * Z.of_nat i - d0) + Z.to_nat n <= len)%nat) by nia.
    revert B. generalize (Z.to_nat n) as c. intros c B.
    assert (K : forall l, (forall k, In k l -> (k < c)%nat) ->
      flat_map (fun i => match nth i values None with Some v => [v] | None => [] end) (map (fun k => (Z.to_nat (t0 + n * Z.of_nat i - d0) + k)%nat) l)
      = map (fun k => data (t0 + n * Z.of_nat i + Z.of_nat k)) l).
    { induction l as [|k l IH]; intros H; [reflexivity|]. cbn [map flat_map]. rewrite IH by (intros; apply H; now right).
      assert (k < c)%nat by (apply H; now left).
      assert (NV : nth (Z.to_nat (t0 + n * Z.of_nat i - d0) + k) values None = Some (data (t0 + n * Z.of_nat i + Z.of_nat k))).
      { apply nth_error_nth. unfold values. rewrite nth_error_map, (nth_error_nth' _ 0%nat) by (rewrite seq_length; lia). rewrite seq_nth by lia.
        cbn [option_map Nat.add]. do 2 f_equal. f_equal. nia. }
      rewrite NV. reflexivity. }
    apply K. intros k I. apply in_seq in I. lia. }
  destruct (C99_down d0 1 values extra t0 n cnt ltac:(lia) C) as [V S].
  assert (X : exists vs, align d0 1 values extra t0 n cnt = Aligned vs).
  { apply S. split; [exists (Z.to_nat (t0 - d0)); split; [rewrite LV; nia|lia]|]. intros i Hi. rewrite (D i Hi).
    destruct (Z.to_nat n) eqn:N; [lia|discriminate]. }
  destruct X as [vs X]. exists vs. split; [exact X|]. destruct (V vs X) as [LL W]. split; [exact LL|]. intros i v I. destruct (W i v I) as [_ ->].
  now rewrite (D i) by (rewrite <- LL; apply nth_error_Some; congruence).
Qed.
Print Assumptions C99_daily.

(** C99: data less frequent than the timesteps: every timestep gets the value of the last data period that has started. *)
Theorem C99_up : forall d0 m values extra t0 n cnt vs, 0 < n < m -> align d0 m values extra t0 n cnt = Aligned vs ->
  length vs = cnt /\
  forall i v, nth_error vs i = Some v ->
    exists j, nth_error values j = Some (Some v) /\ d0 + m * Z.of_nat j <= t0 + n * Z.of_nat i /\
      forall k, (j < k < length values)%nat -> t0 + n * Z.of_nat i < d0 + m * Z.of_nat k.
Proof.
  intros d0 m values extra t0 n cnt vs M H. apply align_inv in H as [rows [ER [EL [L N]]]]. split; [exact L|]. intros i v I.
  specialize (N i v I). apply nth_error_In in N. rewrite ER, (proj2 (Z.leb_gt m n)) in N by lia. apply slice_In in N as [N _].
  unfold resample_ffill in N. destruct (frame d0 m values) as [|[f w] rest] eqn:EF; [destruct N|].
  apply in_map_iff in N as [k [E _]]. pose proof (f_equal fst E) as E1. pose proof (f_equal snd E) as E2. cbn [fst snd] in E1, E2.
  rewrite E1, <- EF in E2. apply ffill_value in E2; [exact E2|lia].
Qed.
Print Assumptions C99_up.

(** C99: this succeeds if the data start on a day from which the timesteps count on, reach the last timestep and are all known. *)
Theorem C99_up_succeeds : forall d0 m values extra t0 n cnt, 0 < n < m -> (0 < cnt)%nat -> (0 < length values)%nat ->
  d0 <= t0 -> (n | t0 - d0) -> t0 + n * Z.of_nat (cnt - 1) <= d0 + m * Z.of_nat (length values - 1) ->
  (forall j, (j < length values)%nat -> nth j values None <> None) ->
  exists vs, align d0 m values extra t0 n cnt = Aligned vs.
Proof. exact up_complete. Qed.
Print Assumptions C99_up_succeeds.

(** C99: in either case a first timestep before the first data, or with no data period and no multiple of the timestep to
    start from, is refused. *)
Theorem C99_start : forall d0 m values extra t0 n cnt vs, 0 < n -> 0 < m -> (0 < cnt)%nat ->
  align d0 m values extra t0 n cnt = Aligned vs -> d0 <= t0 /\ (Z.min m n | t0 - d0).
Proof.
  intros d0 m values extra t0 n cnt vs Hn Hm C H. destruct (Z.leb_spec m n) as [G|G].
  - destruct (C99_down d0 m values extra t0 n cnt ltac:(lia) C) as [_ [S _]]. destruct (S (ex_intro _ vs H)) as [[j [J E]] _].
    split; [nia|]. rewrite Z.min_l by lia. exists (Z.of_nat j). lia.
  - apply align_inv in H as [rows [ER [EL [L N]]]].
    assert (I : In t0 (map fst rows)) by (rewrite EL; unfold target; apply in_map_iff; exists 0%nat; split; [cbn; lia|apply in_seq; lia]).
    apply in_map_iff in I as [[l o] [E I]]. cbn in E. subst l. rewrite ER, (proj2 (Z.leb_gt m n)) in I by lia. apply slice_In in I as [I _].
    unfold resample_ffill in I. destruct values as [|v0 values]; [destruct I|]. destruct (frame_ends d0 m (v0 :: values) ltac:(cbn; lia)) as [w [rest [F _]]].
    rewrite F in I. apply in_map_iff in I as [k [E _]]. apply (f_equal fst) in E. cbn [fst] in E. split; [nia|]. rewrite Z.min_r by lia. exists (Z.of_nat k). lia.
Qed.
Print Assumptions C99_start.

(** C99, refuted: "Missing values detected" does not detect a missing day inside a timestep, and days after the end of the data
    are left out of the last timestep's mean without notice. *)
Theorem C99_all_days_count_refuted :
  (exists values vs, nth_error values 1 = Some None /\ align 0 1 values 0 0 2 1 = Aligned vs /\ length vs = 1%nat) /\
  (exists values vs, length values = 3%nat /\ align 0 1 values 0 0 2 2 = Aligned vs /\ option_map Qred (nth_error vs 1) = Some 7%Q).
Proof.
  split.
  - exists [Some 4%Q; None]. destruct (align 0 1 [Some 4%Q; None] 0 0 2 1) as [vs| |] eqn:E; [|vm_compute in E; discriminate..].
    exists vs. split; [reflexivity|]. split; [reflexivity|]. vm_compute in E. now injection E as <-.
  - exists [Some 4%Q; Some 6%Q; Some 7%Q]. destruct (align 0 1 [Some 4%Q; Some 6%Q; Some 7%Q] 0 0 2 2) as [vs| |] eqn:E; [|vm_compute in E; discriminate..].
    exists vs. split; [reflexivity|]. split; [reflexivity|]. vm_compute in E. now injection E as <-.
Qed.
Print Assumptions C99_all_days_count_refuted.

(** C99: the look-up with an offset: the value of the timestep so much later or earlier, the first or last one outside. *)
Theorem C99_offset : forall values index offset, values <> [] ->
  exists v, lookup values index offset = Some v /\
    (0 <= index + offset < Z.of_nat (length values) -> nth_error values (Z.to_nat (index + offset)) = Some v) /\
    (index + offset < 0 -> nth_error values 0 = Some v) /\
    (Z.of_nat (length values) <= index + offset -> nth_error values (length values - 1) = Some v).
Proof.
  intros values index offset N. assert (0 < length values)%nat by (destruct values; [now destruct N|cbn; lia]). unfold lookup.
  destruct (nth_error values _) as [v|] eqn:E; [|apply nth_error_None in E; lia].
  exists v. split; [reflexivity|]. split; [|split]; intros H1; rewrite <- E; f_equal; lia.
Qed.
Print Assumptions C99_offset.

Example C99_example :
  (match align 3 1 (map (fun i => Some (inject_Z (Z.of_nat i))) (seq 0 20)) 0 5 7 2 with Aligned vs => map Qred vs = [5; 12]%Q | _ => False end) /\
  align 3 7 [Some 1%Q; Some 2%Q; Some 3%Q] 0 9 1 3 = Aligned [1; 2; 2]%Q /\
  align 3 1 [Some 1%Q; None; None; Some 2%Q] 0 3 2 2 = Aligned [1 / 1; 2 / 1]%Q /\
  align 3 1 [Some 1%Q; Some 3%Q; None; None] 0 3 2 2 = MissingValues /\
  align 3 1 [Some 1%Q; Some 3%Q; None; None] 0 2 2 2 = ResamplingError.
Proof. repeat split; vm_compute; reflexivity. Qed.
