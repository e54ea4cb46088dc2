(** Lemmas on resampling. *)
From Verif Require Import Base Resample_model Resample_spec.
Local Open Scope Z_scope.
Local Open Scope list_scope.

Lemma labels_eqb_eq a b : labels_eqb a b = true <-> a = b.
Proof.
  revert b. induction a as [|x a IH]; intros [|y b]; cbn; try (split; congruence).
  rewrite andb_true_iff, Z.eqb_eq, IH. split; [intros [-> ->]; reflexivity|intros H; injection H; auto].
Qed.

Lemma filter_all A (f : A -> bool) l : (forall x, In x l -> f x = true) -> filter f l = l.
Proof. induction l as [|x l IH]; intros H; [reflexivity|]. cbn. rewrite (H x (or_introl eq_refl)), IH; [reflexivity|]. intros y I. apply H. now right. Qed.
Lemma filter_none A (f : A -> bool) l : (forall x, In x l -> f x = false) -> filter f l = [].
Proof. induction l as [|x l IH]; intros H; [reflexivity|]. cbn. rewrite (H x (or_introl eq_refl)), IH; [reflexivity|]. intros y I. apply H. now right. Qed.
Lemma filter_ext_In A (f g : A -> bool) l : (forall x, In x l -> f x = g x) -> filter f l = filter g l.
Proof.
  induction l as [|x l IH]; intros H; [reflexivity|]. cbn. rewrite (H x (or_introl eq_refl)), IH; [reflexivity|].
  intros y I. apply H. now right.
Qed.
Lemma filter_filter A (f g : A -> bool) l : filter f (filter g l) = filter (fun x => f x && g x) l.
Proof.
  induction l as [|x l IH]; [reflexivity|]. cbn. destruct (g x); cbn; [destruct (f x); cbn; now rewrite IH|rewrite IH; now destruct (f x)].
Qed.
Lemma filter_map A B (f : B -> bool) (g : A -> B) l : filter f (map g l) = map g (filter (fun x => f (g x)) l).
Proof. induction l as [|x l IH]; [reflexivity|]. cbn. destruct (f (g x)); cbn; now rewrite IH. Qed.

(** The part of an arithmetic progression between two of its members. *)
Lemma slice_progression A (g : nat -> A) first n a cnt N t0 :
  0 < n -> t0 = first + n * Z.of_nat a -> (0 < cnt)%nat -> (a + cnt <= N)%nat ->
  filter (fun k => (t0 <=? first + n * Z.of_nat k) && (first + n * Z.of_nat k <=? t0 + n * Z.of_nat (cnt - 1))) (seq 0 N) = seq a cnt.
Proof.
  intros Hn -> Hc L. replace N with (a + (cnt + (N - a - cnt)))%nat by lia. rewrite !seq_app, !filter_app. cbn [Nat.add].
  rewrite (filter_none _ _ (seq 0 a)), (filter_all _ _ (seq a cnt)), (filter_none _ _ (seq (a + cnt) _)).
  - now rewrite app_nil_r.
  - intros k I. apply in_seq in I. apply andb_false_iff. right. apply Z.leb_gt. nia.
  - intros k I. apply in_seq in I. apply andb_true_iff. split; apply Z.leb_le; nia.
  - intros k I. apply in_seq in I. apply andb_false_iff. left. apply Z.leb_gt. nia.
Qed.

(** The members up to a limit. *)
Lemma filter_upto (f : nat -> Z) l : (forall i j, (i < j)%nat -> f i < f j) -> forall N,
  exists k, (k <= N)%nat /\ filter (fun i => f i <=? l) (seq 0 N) = seq 0 k /\ (forall i, (i < k)%nat -> f i <= l) /\ ((k < N)%nat -> l < f k).
Proof.
  intros M. induction N as [|N [k [K1 [K2 [K3 K4]]]]].
  - exists 0%nat. repeat split; intros; lia.
  - rewrite seq_S, filter_app, K2. cbn [filter Nat.add]. destruct (Z.leb_spec (f N) l) as [C|C].
    + assert (k = N) by (destruct (Nat.eq_dec k N); [assumption|]; specialize (K4 ltac:(lia)); pose proof (M k N ltac:(lia)); lia). subst k.
      exists (S N). split; [lia|]. split; [now rewrite seq_S|]. split; [|lia]. intros i I.
      destruct (Nat.eq_dec i N) as [->|]; [exact C|apply K3; lia].
    + exists k. split; [lia|]. split; [apply app_nil_r|]. split; [exact K3|]. intros _. destruct (Nat.eq_dec k N) as [->|]; [exact C|apply K4; lia].
Qed.

Lemma map_seq_shift A (f : nat -> A) a cnt : map f (seq a cnt) = map (fun i => f (a + i)%nat) (seq 0 cnt).
Proof.
  revert a. induction cnt as [|c IH]; intros a; [reflexivity|]. cbn [seq map]. rewrite Nat.add_0_r. f_equal.
  rewrite IH. rewrite <- seq_shift, map_map. apply map_ext. intros i. f_equal. lia.
Qed.

Lemma known_rows rows : existsb (fun r : row => match snd r with None => true | Some _ => false end) rows = false ->
  length (known rows) = length rows /\
  forall i v, nth_error (known rows) i = Some v -> exists l, nth_error rows i = Some (l, Some v).
Proof.
  induction rows as [|[l [v|]] rows IH]; cbn [existsb snd].
  - intros _. split; [reflexivity|]. intros [|i] v H; discriminate H.
  - intros H. cbn [orb] in H. destruct (IH H) as [L N]. unfold known in *. cbn [flat_map snd app length].
    split; [now rewrite L|]. intros [|i] w W; cbn in W; [injection W as <-; now exists l|]. destruct (N i w W) as [l' E]. now exists l'.
  - discriminate.
Qed.

Lemma align_inv d0 m values extra t0 n cnt vs : align d0 m values extra t0 n cnt = Aligned vs ->
  exists rows, rows = slice t0 (t0 + n * Z.of_nat (cnt - 1))
      (if m <=? n then resample_mean n (slice t0 (t0 + n * Z.of_nat (cnt - 1) + n - 1) (frame d0 m values)) else resample_ffill n extra (frame d0 m values)) /\
    map fst rows = target t0 n cnt /\ length vs = cnt /\
    forall i v, nth_error vs i = Some v -> nth_error rows i = Some (t0 + n * Z.of_nat i, Some v).
Proof.
  unfold align. cbv zeta. set (rows := slice t0 _ (if m <=? n then _ else _)). intros H. exists rows. split; [reflexivity|]. clearbody rows.
  destruct (labels_eqb (map fst rows) (target t0 n cnt)) eqn:E; cbn [negb] in H; [|discriminate]. apply labels_eqb_eq in E.
  match type of H with context [existsb ?f rows] => destruct (existsb f rows) eqn:X end; [discriminate|]. apply (f_equal (fun a => match a with Aligned v => v | _ => [] end)) in H. cbn in H. subst vs.
  apply known_rows in X as [L N]. split; [exact E|].
  assert (LR : length rows = cnt) by (pose proof (f_equal (@length Z) E) as LE; unfold target in LE; rewrite !map_length, seq_length in LE; exact LE).
  split; [congruence|]. intros i v V. destruct (N i v V) as [l R].
  assert (I : (i < cnt)%nat) by (rewrite <- LR; apply nth_error_Some; congruence).
  pose proof (map_nth_error fst _ _ R) as F. cbn in F. rewrite E in F. unfold target in F.
  rewrite nth_error_map, (nth_error_nth' _ 0%nat) in F by (rewrite seq_length; exact I). rewrite seq_nth in F by exact I. cbn in F.
  rewrite R. injection F as <-. reflexivity.
Qed.

Lemma align_intro d0 m values extra t0 n cnt rows : rows = slice t0 (t0 + n * Z.of_nat (cnt - 1))
      (if m <=? n then resample_mean n (slice t0 (t0 + n * Z.of_nat (cnt - 1) + n - 1) (frame d0 m values)) else resample_ffill n extra (frame d0 m values)) ->
  map fst rows = target t0 n cnt -> (forall r, In r rows -> snd r <> None) ->
  exists vs, align d0 m values extra t0 n cnt = Aligned vs.
Proof.
  intros -> E N. unfold align. cbv zeta. rewrite (proj2 (labels_eqb_eq _ _) E). cbn [negb].
  match goal with |- context [existsb ?f ?l] => destruct (existsb f l) eqn:X end; [|eexists; reflexivity]. apply existsb_exists in X as [r [I F]]. specialize (N r I). destruct (snd r); [discriminate F|contradiction].
Qed.

(** ** Fewer, longer periods *)
Lemma frame_filter d0 m values t n :
  known (filter (fun r => (t <=? fst r) && (fst r <? t + n)) (frame d0 m values)) = data_of d0 m values t n.
Proof.
  unfold known, data_of, frame. rewrite filter_map. cbn [fst]. 
  induction (filter _ (seq 0 (length values))) as [|i l IH]; [reflexivity|]. cbn [map flat_map snd]. now rewrite IH.
Qed.

Lemma bin_slice t n lo hi rows : lo <= t -> t + n - 1 <= hi ->
  filter (fun r : row => (t <=? fst r) && (fst r <? t + n)) (slice lo hi rows) = filter (fun r => (t <=? fst r) && (fst r <? t + n)) rows.
Proof.
  intros A B. unfold slice. rewrite filter_filter. apply filter_ext_In. intros r _.
  destruct (Z.leb_spec t (fst r)), (Z.ltb_spec (fst r) (t + n)), (Z.leb_spec lo (fst r)), (Z.leb_spec (fst r) hi); cbn; try reflexivity; lia.
Qed.

Lemma mean_row l v n rows : In (l, v) (resample_mean n rows) -> v = mean (filter (fun r => (l <=? fst r) && (fst r <? l + n)) rows).
Proof.
  unfold resample_mean. destruct rows as [|[first o] rest]; [intros []|]. intros I. apply in_map_iff in I as [k [E _]]. now injection E as <- <-.
Qed.

Lemma mean_average rows v : mean rows = Some v -> known rows <> [] /\ v = average (known rows).
Proof. unfold mean, average. destruct (known rows) as [|x l]; [discriminate|]. intros H. injection H as <-. split; [discriminate|reflexivity]. Qed.

Lemma slice_In lo hi rows r : In r (slice lo hi rows) <-> In r rows /\ lo <= fst r <= hi.
Proof. unfold slice. rewrite filter_In, andb_true_iff, !Z.leb_le. tauto. Qed.

(** Rows in the order of their labels. *)
Definition increasing (rows : list row) : Prop :=
  forall i j a b, (i < j)%nat -> nth_error rows i = Some a -> nth_error rows j = Some b -> fst a < fst b.

Lemma increasing_tail r rows : increasing (r :: rows) -> increasing rows.
Proof. intros H i j a b L A B. exact (H (S i) (S j) a b ltac:(lia) A B). Qed.
Lemma increasing_head r rows x : increasing (r :: rows) -> In x rows -> fst r < fst x.
Proof. intros H I. apply In_nth_error in I as [j I]. exact (H 0%nat (S j) r x ltac:(lia) eq_refl I). Qed.

Lemma increasing_cons r rows : (forall x, In x rows -> fst r < fst x) -> increasing rows -> increasing (r :: rows).
Proof.
  intros H K i j a b L A B. destruct j as [|j]; [lia|]. cbn in B. destruct i as [|i]; cbn in A.
  - injection A as <-. apply H. now apply nth_error_In in B.
  - exact (K i j a b ltac:(lia) A B).
Qed.

Lemma increasing_filter f rows : increasing rows -> increasing (filter f rows).
Proof.
  induction rows as [|r rows IH]; intros H; [exact H|]. cbn. pose proof (IH (increasing_tail _ _ H)) as K.
  destruct (f r); [|exact K]. apply increasing_cons; [|exact K]. intros x I. apply filter_In in I as [I _]. exact (increasing_head _ _ _ H I).
Qed.

Lemma increasing_frame d0 m values : 0 < m -> increasing (frame d0 m values).
Proof.
  intros M i j a b L A B. unfold frame in *. rewrite nth_error_map in A, B.
  destruct (nth_error (seq 0 (length values)) i) as [i'|] eqn:I; [|discriminate A].
  destruct (nth_error (seq 0 (length values)) j) as [j'|] eqn:J; [|discriminate B].
  assert (I2 : (i < length values)%nat) by (rewrite <- (seq_length (length values) 0); apply nth_error_Some; congruence).
  assert (J2 : (j < length values)%nat) by (rewrite <- (seq_length (length values) 0); apply nth_error_Some; congruence).
  rewrite (nth_error_nth' _ 0%nat), seq_nth in I by (try rewrite seq_length; assumption). rewrite (nth_error_nth' _ 0%nat), seq_nth in J by (try rewrite seq_length; assumption). cbn in I, J.
  injection I as <-. injection J as <-. cbn in A, B. injection A as <-. injection B as <-. cbn [fst]. nia.
Qed.

Lemma last_max rows x d : increasing rows -> In x rows -> In (last rows d) rows /\ fst x <= fst (last rows d).
Proof.
  intros H I. assert (N : rows <> []) by (intros ->; destruct I). destruct (exists_last N) as [t [y ->]]. rewrite last_last.
  split; [apply in_app_iff; right; now left|]. apply in_app_iff in I as [I|[<-|[]]]; [|lia].
  apply In_nth_error in I as [i I]. assert (L : (i < length t)%nat) by (apply nth_error_Some; congruence).
  pose proof (H i (length t) x y L) as K. rewrite nth_error_app1 in K by exact L. rewrite nth_error_app2, Nat.sub_diag in K by lia.
  specialize (K I eq_refl). lia.
Qed.

(** The label of a row is reached. *)
Lemma data_label d0 m values t n : data_of d0 m values t n <> [] -> exists r, In r (frame d0 m values) /\ t <= fst r < t + n.
Proof.
  unfold data_of. intros H. destruct (filter _ (seq 0 (length values))) as [|i l] eqn:E in H; [now destruct H|].
  assert (I : In i (filter (fun i => (t <=? d0 + m * Z.of_nat i) && (d0 + m * Z.of_nat i <? t + n)) (seq 0 (length values)))) by (rewrite E; now left).
  apply filter_In in I as [I C]. apply andb_true_iff in C as [C1 C2]. apply Z.leb_le in C1. apply Z.ltb_lt in C2.
  exists (d0 + m * Z.of_nat i, nth i values None). split; [|cbn [fst]; lia]. unfold frame.
  apply (in_map (fun i => (d0 + m * Z.of_nat i, nth i values None))). exact I.
Qed.

Lemma kept_first d0 m values t0 hi j : 0 < m -> (j < length values)%nat -> d0 + m * Z.of_nat j = t0 -> t0 <= hi ->
  exists o rest, slice t0 hi (frame d0 m values) = (t0, o) :: rest.
Proof.
  intros M J T H. assert (IK : increasing (slice t0 hi (frame d0 m values))) by (apply increasing_filter, increasing_frame; lia).
  assert (I0 : In (t0, nth j values None) (slice t0 hi (frame d0 m values))).
  { apply slice_In. split; [|cbn [fst]; lia]. unfold frame. rewrite <- T.
    apply (in_map (fun i => (d0 + m * Z.of_nat i, nth i values None))). apply in_seq. lia. }
  assert (B : forall r, In r (slice t0 hi (frame d0 m values)) -> t0 <= fst r) by (intros r I; apply slice_In in I; lia).
  destruct (slice t0 hi (frame d0 m values)) as [|[f o] rest]; [destruct I0|]. exists o, rest. do 2 f_equal.
  destruct I0 as [I0|I0]; [injection I0; auto|]. pose proof (increasing_head _ _ _ IK I0) as K.
  specialize (B (f, o) (or_introl eq_refl)). cbn [fst] in *. lia.
Qed.

Lemma down_complete d0 m values extra t0 n cnt : 0 < m <= n -> (0 < cnt)%nat ->
  (exists j, (j < length values)%nat /\ d0 + m * Z.of_nat j = t0) ->
  (forall i, (i < cnt)%nat -> data_of d0 m values (t0 + n * Z.of_nat i) n <> []) ->
  exists vs, align d0 m values extra t0 n cnt = Aligned vs.
Proof.
  intros M C [j [J T]] D. set (hi := t0 + n * Z.of_nat (cnt - 1) + n - 1).
  destruct (kept_first d0 m values t0 hi j ltac:(lia) J T ltac:(unfold hi; nia)) as [o [rest K]].
  eapply align_intro; [reflexivity| |]; rewrite (proj2 (Z.leb_le m n)) by lia; fold hi.
  - assert (IK : increasing (slice t0 hi (frame d0 m values))) by (apply increasing_filter, increasing_frame; lia).
    destruct (data_label _ _ _ _ _ (D (cnt - 1)%nat ltac:(lia))) as [r [R1 R2]].
    assert (IL : In r (slice t0 hi (frame d0 m values))) by (apply slice_In; split; [exact R1|unfold hi; nia]).
    destruct (last_max _ r (t0, None) IK IL) as [L1 L2]. apply slice_In in L1 as [_ L1].
    unfold resample_mean. rewrite K in *. set (z := fst (last ((t0, o) :: rest) (t0, None))) in *. unfold hi in L1.
    assert (Z1 : t0 + n * Z.of_nat (cnt - 1) <= z <= t0 + n * Z.of_nat (cnt - 1) + n - 1) by (split; [etransitivity; [apply R2|exact L2]|exact (proj2 L1)]). clearbody z.
    replace ((z - t0) / n + 1) with (Z.of_nat cnt).
    2: { assert (E : (z - t0) / n = Z.of_nat (cnt - 1)); [|lia].
         symmetry. apply (Z.div_unique _ _ _ (z - t0 - n * Z.of_nat (cnt - 1))); lia. }
    rewrite Nat2Z.id. unfold slice. rewrite filter_map. cbn [fst].
    rewrite (slice_progression nat (fun k => k) t0 n 0 cnt cnt t0) by lia. rewrite map_map. reflexivity.
  - intros [l v] I. apply slice_In in I as [I B]. cbn [fst] in B. pose proof (mean_row _ _ _ _ I) as E. cbn [snd]. subst v.
    assert (L : exists i, (i < cnt)%nat /\ l = t0 + n * Z.of_nat i).
    { unfold resample_mean in I. rewrite K in I. apply in_map_iff in I as [k [E _]]. injection E as <- _. exists k. split; [nia|reflexivity]. }
    destruct L as [i [Hi ->]]. rewrite bin_slice by (unfold hi; nia).
    unfold mean. rewrite frame_filter. specialize (D i Hi). destruct (data_of _ _ _ _ _); [now destruct D|discriminate].
Qed.

(** ** More, shorter periods *)
Lemma last_map_seq (g : nat -> row) k d : (0 < k)%nat -> last (map g (seq 0 k)) d = g (k - 1)%nat.
Proof.
  intros K. replace k with (S (k - 1)) at 1 by lia. rewrite seq_S, map_app. cbn [map Nat.add]. apply last_last.
Qed.

Lemma ffill_value d0 m values l : 0 < m -> forall v, snd (last (filter (fun r => fst r <=? l) (frame d0 m values)) (l, None)) = Some v ->
  exists j, nth_error values j = Some (Some v) /\ d0 + m * Z.of_nat j <= l /\
    forall k, (j < k < length values)%nat -> l < d0 + m * Z.of_nat k.
Proof.
  intros M v. unfold frame. rewrite filter_map. cbn [fst].
  destruct (filter_upto (fun i => d0 + m * Z.of_nat i) l ltac:(cbv beta; intros; nia) (length values)) as [k [K1 [K2 [K3 K4]]]]. rewrite K2.
  destruct k as [|k]; [discriminate|]. rewrite last_map_seq by lia. cbn [snd]. rewrite Nat.sub_succ, Nat.sub_0_r. intros V. exists k.
  split; [|split; [apply K3; lia|]].
  - rewrite <- V. apply nth_error_nth'. lia.
  - intros i [I1 I2]. specialize (K4 ltac:(lia)). nia.
Qed.

Lemma ffill_known d0 m values l : 0 < m -> (0 < length values)%nat -> d0 <= l -> (forall j, (j < length values)%nat -> nth j values None <> None) ->
  snd (last (filter (fun r => fst r <=? l) (frame d0 m values)) (l, None)) <> None.
Proof.
  intros M P L N. unfold frame. rewrite filter_map. cbn [fst].
  destruct (filter_upto (fun i => d0 + m * Z.of_nat i) l ltac:(cbv beta; intros; nia) (length values)) as [k [K1 [K2 [K3 K4]]]]. rewrite K2.
  destruct k as [|k]; [specialize (K4 P); lia|]. rewrite last_map_seq by lia. cbn [snd]. apply N. lia.
Qed.

Lemma frame_ends d0 m values : (0 < length values)%nat -> exists o rest, frame d0 m values = (d0, o) :: rest /\
  forall d, fst (last (frame d0 m values) d) = d0 + m * Z.of_nat (length values - 1).
Proof.
  intros P. unfold frame. destruct values as [|v values]; [cbn in P; lia|]. eexists. eexists. split.
  - cbn [length seq map Z.of_nat]. rewrite Z.mul_0_r, Z.add_0_r. reflexivity.
  - intros d. rewrite (last_map_seq (fun i => (d0 + m * Z.of_nat i, nth i (v :: values) None))) by exact P. reflexivity.
Qed.

Lemma up_complete d0 m values extra t0 n cnt : 0 < n < m -> (0 < cnt)%nat -> (0 < length values)%nat ->
  d0 <= t0 -> (n | t0 - d0) -> t0 + n * Z.of_nat (cnt - 1) <= d0 + m * Z.of_nat (length values - 1) ->
  (forall j, (j < length values)%nat -> nth j values None <> None) ->
  exists vs, align d0 m values extra t0 n cnt = Aligned vs.
Proof.
  intros M C P L [a A] E N. eapply align_intro; [reflexivity| |]; rewrite (proj2 (Z.leb_gt m n)) by lia;
    destruct (frame_ends d0 m values P) as [o [rest [F1 F2]]]; unfold resample_ffill.
  - pose proof (F2 (d0, None)) as FL. destruct (frame d0 m values) as [|r0 rs] eqn:EF; [discriminate F1|]. injection F1 as -> ->. rewrite FL.
    unfold slice. rewrite filter_map. cbn [fst].
    set (last_label := d0 + m * Z.of_nat (length values - 1)) in *.
    assert (A0 : 0 <= a) by nia.
    assert (S : Z.of_nat cnt + a <= (last_label - d0) / n + 1).
    { enough (Z.of_nat (cnt - 1) + a <= (last_label - d0) / n) by lia. apply Z.div_le_lower_bound; [lia|]. nia. }
    rewrite (slice_progression nat (fun k => k) d0 n (Z.to_nat a) cnt (Z.to_nat ((last_label - d0) / n + 1) + extra) t0) by lia.
    rewrite map_map. unfold target. cbn [fst]. rewrite map_seq_shift. apply map_ext. intros i. lia.
  - intros r I. apply slice_In in I as [I B]. rewrite F1 in I at 1. destruct (frame d0 m values) as [|r0 rs] eqn:EF; [discriminate F1|].
    apply in_map_iff in I as [k [<- _]]. cbn [snd fst] in *. rewrite <- EF. apply ffill_known; try assumption; lia.
Qed.
