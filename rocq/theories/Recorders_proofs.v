(** Proofs about the recorders. *)
From Verif Require Import Base Ring LP_model Calendar_spec Calendar_model Calendar_proofs Timestepper_model Timestepper_props
  Recorders_model Recorders_spec.
Local Open Scope Q_scope.

(** ** Accumulated values *)

Lemma add_each_length v : forall x, length (add_each v x) = length v.
Proof. induction v as [|a v IH]; intros [|b x]; cbn; auto. Qed.

Lemma add_each_nth v : forall x i, length x = length v -> nth i (add_each v x) 0 == nth i v 0 + nth i x 0.
Proof.
  induction v as [|a v IH]; intros [|b x] i H; cbn in *; try discriminate; destruct i; try (cbn; ring).
  apply IH. lia.
Qed.

Lemma accumulate_gen {A} (inc : Q -> A -> Q) d n run : complete n run -> forall v, length v = n ->
  let r := fold_left (fun values o => add_each values (map (inc (o_days o)) (o_reads o))) run v in
  length r = n /\ forall i, (i < n)%nat -> nth i r 0 == nth i v 0 + over_run d i inc run.
Proof.
  induction 1 as [|o run L F IH]; intros v Lv r; unfold r; cbn [fold_left].
  - split; [exact Lv|]. intros. unfold over_run; cbn. ring.
  - destruct (IH (add_each v (map (inc (o_days o)) (o_reads o)))) as [A1 A2]. { rewrite add_each_length. exact Lv. }
    split; [exact A1|]. intros i Hi. rewrite (A2 i Hi).
    rewrite (add_each_nth v (map (inc (o_days o)) (o_reads o)) i) by (rewrite map_length; lia).
    unfold over_run. cbn [map]. rewrite qsum_cons.
    rewrite (nth_indep (map (inc (o_days o)) (o_reads o)) 0 (inc (o_days o) d)) by (rewrite map_length; lia). rewrite map_nth. ring.
Qed.

Lemma accumulate_length {A} (inc : Q -> A -> Q) n run : complete n run -> length (accumulate inc n run) = n.
Proof.
  intros C. destruct n as [|n].
  - unfold accumulate. cbn [repeat].
    assert (forall l : list (observed A), fold_left (fun values o => add_each values (map (inc (o_days o)) (o_reads o))) l [] = []) as K
      by (induction l as [|o l IH]; cbn; auto).
    rewrite K. reflexivity.
  - destruct run as [|o run]; [apply repeat_length|]. inversion C as [|? ? L F]; subst.
    destruct (o_reads o) as [|d rs] eqn:E; [cbn in L; discriminate|].
    unfold accumulate. rewrite <- E in L.
    destruct (accumulate_gen inc d (S n) (o :: run)) with (v := repeat 0 (S n)) as [A1 _]; auto using repeat_length.
Qed.

Lemma accumulate_spec {A} (inc : Q -> A -> Q) d n run i : complete n run -> (i < n)%nat ->
  nth i (accumulate inc n run) 0 == over_run d i inc run.
Proof.
  intros C Hi. destruct (accumulate_gen inc d n run C (repeat 0 n) (repeat_length _ _)) as [_ H].
  unfold accumulate. rewrite (H i Hi), nth_repeat. ring.
Qed.

Lemma divide_spec t values m : divide_by_steps (Some t) values = Some m -> values <> [] ->
  (0 < ts_index (st_ts t))%nat /\ length m = length values /\
  forall i, (i < length values)%nat -> nth i m 0 == nth i values 0 / inject_Z (Z.of_nat (ts_index (st_ts t))).
Proof.
  unfold divide_by_steps. destruct (Nat.eqb_spec (ts_index (st_ts t)) 0) as [E|E].
  - destruct values; intros; [congruence|discriminate].
  - intros H _. injection H as <-. split; [lia|]. split; [apply map_length|]. intros i Hi.
    rewrite (nth_indep _ 0 (0 / inject_Z (Z.of_nat (ts_index (st_ts t))))) by (rewrite map_length; exact Hi).
    rewrite (map_nth (fun v => v / _)). reflexivity.
Qed.

(** ** A run to the end of the timestepper *)

Lemma run_divides {A} (inc : Q -> A -> Q) d n run start stop delta st st' os i :
  setup start stop delta = Some st -> nexts (S (ts_len st)) st = Some (st', os) ->
  length run = ts_len st -> (0 < length run)%nat -> complete n run -> (i < n)%nat ->
  exists m, divide_by_steps (tp_current st') (accumulate inc n run) = Some m /\
    nth i m 0 == over_run d i inc run / steps_of run.
Proof.
  intros Hs Hn L P C Hi.
  destruct (C03_exhausted_current_index _ _ _ _ _ _ _ Hs (Nat.lt_succ_diag_r _) Hn) as (t & E & Et).
  rewrite E. unfold divide_by_steps. destruct (Nat.eqb_spec (ts_index (st_ts t)) 0) as [Z0|Z0]; [lia|].
  eexists; split; [reflexivity|].
  set (k := inject_Z (Z.of_nat (ts_index (st_ts t)))).
  pose proof (accumulate_length inc n run C) as AL.
  rewrite (nth_indep _ 0 (0 / k)) by (rewrite map_length; lia). rewrite (map_nth (fun v => v / k)).
  rewrite (accumulate_spec inc d n run i C Hi). unfold steps_of. rewrite L, <- Et. reflexivity.
Qed.

(** ** Extremes and counts *)

Lemma minimum_volume_gen l : forall b, exists m, fold_left minimum_volume_after l (Some b) = Some m /\
  m <= b /\ (forall v, In v l -> m <= v) /\ (m == b \/ exists v, In v l /\ m == v).
Proof.
  induction l as [|v l IH]; intros b; cbn [fold_left].
  - exists b. split; [reflexivity|]. split; [lra|]. split; [intros v []|left; lra].
  - cbn [minimum_volume_after]. destruct (IH (qmin v b)) as (m & E & A & B & C).
    exists m. split; [exact E|]. pose proof (qmin_l v b). pose proof (qmin_r v b). split; [lra|]. split.
    + intros w [<-|Hw]; [lra|]. apply B, Hw.
    + destruct C as [C|(w & Hw & C)].
      * destruct (qmin_cases v b) as [[_ K]|[_ K]]; [right; exists v|left]; [split; [now left|lra]|lra].
      * right. exists w. split; [now right|exact C].
Qed.

Lemma minimum_volume_spec l : l <> [] -> exists m, minimum_volume l = Some m /\
  (forall v, In v l -> m <= v) /\ (exists v, In v l /\ m == v).
Proof.
  destruct l as [|v l]; [easy|]. intros _. unfold minimum_volume. cbn [fold_left minimum_volume_after].
  destruct (minimum_volume_gen l v) as (m & E & A & B & C). exists m. split; [exact E|]. split.
  - intros w [<-|Hw]; [lra|]. apply B, Hw.
  - destruct C as [C|(w & Hw & C)]; [exists v|exists w]; split; auto; [now left|now right].
Qed.

Lemma minimum_threshold_spec thr l :
  (exists v, In v l /\ v <= thr) /\ minimum_threshold_volume thr l = 1 \/
  (forall v, In v l -> thr < v) /\ minimum_threshold_volume thr l = 0.
Proof.
  unfold minimum_threshold_volume.
  assert (forall l a, (exists v, In v l /\ v <= thr) /\ fold_left (fun v volume => if qleb volume thr then 1 else v) l a = 1 \/
    (forall v, In v l -> thr < v) /\ fold_left (fun v volume => if qleb volume thr then 1 else v) l a = a) as K.
  { clear l. induction l as [|v l IH]; intros a; cbn [fold_left].
    - right. split; [easy|reflexivity].
    - destruct (qlebP v thr) as [H|H].
      + left. split; [exists v; split; [now left|exact H]|].
        destruct (IH 1) as [[_ E]|[_ E]]; exact E.
      + destruct (IH a) as [[(w & Hw & Hl) E]|[A E]].
        * left. split; [exists w; split; [now right|exact Hl]|exact E].
        * right. split; [|exact E]. intros w [<-|Hw]; [lra|]. apply A, Hw. }
  apply K.
Qed.

Lemma timestep_count_spec thr l : timestep_count thr l = Z.of_nat (countb (fun v => (thr <=? v)%Z) l).
Proof.
  unfold timestep_count, countb.
  assert (forall l n, fold_left (fun n value => if (thr <=? value)%Z then (n + 1)%Z else n) l n
    = (n + Z.of_nat (length (filter (fun v => (thr <=? v)%Z) l)))%Z) as K.
  { clear l. induction l as [|v l IH]; intros n; cbn [fold_left filter]; [cbn; lia|].
    rewrite IH. destruct (thr <=? v)%Z; cbn [length]; lia. }
  rewrite K. lia.
Qed.

(** ** Conversion to double *)

Lemma pow2_pos e : (0 <= e -> 0 < 2 ^ e)%Z.
Proof. intros. apply Z.pow_pos_nonneg; lia. Qed.

Lemma pow2_divide a b : (0 <= a <= b -> (2 ^ a | 2 ^ b))%Z.
Proof. intros H. exists (2 ^ (b - a))%Z. rewrite <- Z.pow_add_r by lia. f_equal; lia. Qed.

Lemma to_double_exact z : ((2 ^ 11 | z) -> Z.abs z < 2 ^ 63 -> to_double z = z)%Z.
Proof.
  intros D B. unfold to_double. destruct (Z.leb_spec (Z.log2 (Z.abs z) - 52) 0) as [E|E]; [reflexivity|].
  set (e := (Z.log2 (Z.abs z) - 52)%Z) in *.
  assert (e <= 10)%Z as He.
  { assert (0 < Z.abs z)%Z by (destruct (Z.eq_dec z 0) as [->|]; [cbn in e; lia|lia]).
    pose proof (Z.log2_lt_pow2 (Z.abs z) 63). lia. }
  assert (2 ^ e | z)%Z as De by (eapply Z.divide_trans; [apply (pow2_divide e 11); lia|exact D]).
  pose proof (pow2_pos e ltac:(lia)) as Pe.
  apply Z.mod_divide in De; [|lia]. rewrite De.
  pose proof (Z.div_mod z (2 ^ e)) as DM. rewrite De in DM.
  destruct (Z.ltb_spec (2 * 0) (2 ^ e)); lia.
Qed.

Lemma to_double_pred z : ((2 ^ 11 | z) -> Z.abs z < 2 ^ 62 -> 2 ^ 54 < Z.abs z -> to_double (z - 1) = z)%Z.
Proof.
  intros D B1 B2. unfold to_double.
  assert (2 ^ 54 <= Z.abs (z - 1) < 2 ^ 63)%Z as R by lia.
  assert (54 <= Z.log2 (Z.abs (z - 1)))%Z by (apply Z.log2_le_pow2; lia).
  assert (Z.log2 (Z.abs (z - 1)) < 63)%Z by (apply Z.log2_lt_pow2; lia).
  destruct (Z.leb_spec (Z.log2 (Z.abs (z - 1)) - 52) 0) as [E|E]; [lia|].
  set (e := (Z.log2 (Z.abs (z - 1)) - 52)%Z) in *. assert (2 <= e <= 10)%Z as He by lia. clearbody e.
  assert (2 ^ e | z)%Z as De by (eapply Z.divide_trans; [apply (pow2_divide e 11); lia|exact D]).
  assert (4 <= 2 ^ e)%Z as Pe by (change 4%Z with (2 ^ 2)%Z; apply Z.pow_le_mono_r; lia).
  destruct De as [q Eq]. set (u := (2 ^ e)%Z) in *. clearbody u.
  assert ((z - 1) / u = q - 1)%Z as Q1. { symmetry. apply Z.div_unique with (r := (u - 1)%Z); lia. }
  assert ((z - 1) mod u = u - 1)%Z as Q2. { symmetry. apply Z.mod_unique with (q := (q - 1)%Z); lia. }
  rewrite Q1, Q2. destruct (Z.ltb_spec (2 * (u - 1)) u); [lia|]. destruct (Z.ltb_spec u (2 * (u - 1))); lia.
Qed.

(** ** Splitting a timestep at the year end *)

Lemma minute_divide z : (z mod MINUTE = 0 -> (2 ^ 11 | z - EPOCH))%Z.
Proof.
  intros H. apply Z.mod_divide in H; [|unfold MINUTE, SECOND; lia].
  apply Z.divide_sub_r.
  - eapply Z.divide_trans; [|exact H]. exists 29296875%Z. reflexivity.
  - exists (719162 * 42187500000)%Z. reflexivity.
Qed.

Lemma jan1_divide y : (2 ^ 11 | jan1 y * DAY - EPOCH)%Z.
Proof. exists ((jan1 y - 719162) * 42187500000)%Z. unfold EPOCH, DAY, SECOND. lia. Qed.

Lemma day_in z y : (jan1 y * DAY <= z < jan1 (y + 1) * DAY <-> year_of (z / DAY) = y)%Z.
Proof.
  unfold DAY, SECOND. split.
  - intros H. apply year_of_unique. generalize dependent (jan1 y). generalize dependent (jan1 (y + 1)). intros. lia.
  - intros <-. pose proof (year_of_spec (z / (86400 * 1000000000))) as H.
    generalize dependent (jan1 (year_of (z / (86400 * 1000000000)))).
    generalize dependent (jan1 (year_of (z / (86400 * 1000000000)) + 1)). intros. lia.
Qed.

Lemma p_year_starts p : starts_in_year (p_year p) p.
Proof. unfold starts_in_year. apply day_in. reflexivity. Qed.

Lemma starts_unique y p : starts_in_year y p -> p_year p = y.
Proof. intros H. apply day_in, H. Qed.

Lemma jan1_lt y z : (jan1 y < jan1 z -> y < z)%Z.
Proof. intros H. destruct (Z.lt_ge_cases y z) as [L|L]; [exact L|]. pose proof (jan1_mono z y L). lia. Qed.

(** The end year is the start year or the next one. *)
Lemma end_year_cases p : (p_start p < p_stop p)%Z -> one_year_end p ->
  (p_end_year p = p_year p /\ p_stop p <= jan1 (p_year p + 1) * DAY)%Z \/
  (p_end_year p = p_year p + 1 /\ jan1 (p_year p + 1) * DAY < p_stop p <= jan1 (p_year p + 2) * DAY)%Z.
Proof.
  intros L (y & Hy & Hs). rewrite (starts_unique y p Hy).
  destruct (Z.le_gt_cases (p_stop p) (jan1 (y + 1) * DAY)) as [C|C]; [left|right].
  - split; [|exact C]. apply day_in. destruct Hy. lia.
  - split; [|lia]. apply day_in. replace (y + 1 + 1)%Z with (y + 2)%Z by lia. lia.
Qed.

Lemma DAYpos : ~ inject_Z DAY == 0.
Proof. intros H. unfold inject_Z, DAY, SECOND, Qeq in H. cbn in H. lia. Qed.

Lemma delta_days_plain p : plain_period p -> delta_days p == length_in_days p.
Proof.
  intros (L & A & B & _). unfold delta_days, length_in_days.
  assert (exists m, p_stop p - p_start p = SECOND * m)%Z as [m Hm].
  { apply Z.mod_divide in A; [|unfold MINUTE, SECOND; lia]. apply Z.mod_divide in B; [|unfold MINUTE, SECOND; lia].
    destruct A as [a A], B as [b B]. exists (60 * (b - a))%Z. unfold MINUTE in *. lia. }
  rewrite Hm. replace (p_stop p - 1 - p_start p + SECOND / 2)%Z with (SECOND * m - 1 + SECOND / 2)%Z by lia.
  assert ((SECOND * m - 1 + SECOND / 2) / SECOND = m)%Z as -> by (unfold SECOND; lia).
  unfold DAY. rewrite !inject_Z_mult. field. unfold SECOND, inject_Z, Qeq; cbn; lia.
Qed.

Lemma idiv_sub a b : inject_Z (a - b) == inject_Z a - inject_Z b.
Proof. unfold Z.sub. rewrite inject_Z_plus, inject_Z_opp. ring. Qed.

Lemma year_end_range p y : (Z.abs (p_start p - EPOCH) < 2 ^ 62 -> Z.abs (p_stop p - EPOCH) < 2 ^ 62 ->
  p_start p <= jan1 y * DAY <= p_stop p -> Z.abs (jan1 y * DAY - EPOCH) < 2 ^ 62)%Z.
Proof. lia. Qed.

Lemma split_days p : plain_period p -> one_year_end p -> away_from_epoch p ->
  (p_end_year p = p_year p /\ days_in_current_year p == length_in_days p /\ p_stop p <= jan1 (p_year p + 1) * DAY)%Z \/
  (p_end_year p = p_year p + 1)%Z /\ ~ (days_in_current_year p == delta_days p) /\
    (jan1 (p_year p + 1) * DAY < p_stop p <= jan1 (p_year p + 2) * DAY)%Z /\
    days_in_current_year p == inject_Z (jan1 (p_year p + 1) * DAY - p_start p) / inject_Z DAY /\
    days_in_next_year p == inject_Z (p_stop p - jan1 (p_year p + 1) * DAY) / inject_Z DAY.
Proof.
  intros P O W. pose proof P as (L & A & B & R1 & R2).
  destruct (end_year_cases p L O) as [[E C]|[E C]]; [left|right].
  - split; [exact E|]. split; [|exact C]. unfold days_in_current_year. rewrite E, Z.eqb_refl. cbn [negb].
    apply delta_days_plain, P.
  - pose proof (p_year_starts p) as S. destruct S as [S1 S2].
    assert (2 ^ 54 < Z.abs (p_stop p - EPOCH))%Z as W'.
    { destruct W as [W|(y & W1 & W2)]; [exact W|exfalso].
      assert (jan1 y < jan1 (p_year p + 1))%Z by (unfold DAY, SECOND in *; lia).
      assert (jan1 (p_year p + 1) < jan1 (y + 1))%Z by (unfold DAY, SECOND in *; lia).
      pose proof (jan1_lt _ _ H). pose proof (jan1_lt _ _ H0). lia. }
    split; [exact E|].
    assert (days_in_current_year p == inject_Z (jan1 (p_year p + 1) * DAY - p_start p) / inject_Z DAY) as D1.
    { unfold days_in_current_year. rewrite E. destruct (Z.eqb_spec (p_year p) (p_year p + 1)); [lia|]. cbn [negb].
      unfold timestamp_value. rewrite (to_double_exact (jan1 _ * DAY - EPOCH)), (to_double_exact (p_start p - EPOCH));
        [|apply minute_divide, A|lia|apply jan1_divide|lia].
      replace (jan1 (p_year p + 1) * DAY - EPOCH - (p_start p - EPOCH))%Z with (jan1 (p_year p + 1) * DAY - p_start p)%Z by lia.
      reflexivity. }
    split; [|split; [exact C|split; [exact D1|]]].
    + rewrite D1, (delta_days_plain p P). unfold length_in_days. intros H.
      assert (inject_Z (jan1 (p_year p + 1) * DAY - p_start p) == inject_Z (p_stop p - p_start p)) as K.
      { set (x := inject_Z (jan1 _ * DAY - p_start p)) in *. set (z := inject_Z (p_stop p - p_start p)) in *.
        setoid_replace x with (x / inject_Z DAY * inject_Z DAY) by (field; apply DAYpos). rewrite H. field. apply DAYpos. }
      unfold inject_Z, Qeq in K. cbn [Qnum Qden] in K. lia.
    + unfold days_in_next_year. rewrite E. destruct (Z.eqb_spec (p_year p) (p_year p + 1)); [lia|]. cbn [negb].
      unfold timestamp_value. rewrite (to_double_exact (jan1 _ * DAY - EPOCH)) by (apply jan1_divide || lia).
      replace (p_stop p - 1 - EPOCH)%Z with (p_stop p - EPOCH - 1)%Z by lia.
      rewrite (to_double_pred (p_stop p - EPOCH)) by (apply minute_divide, B || lia).
      replace (p_stop p - EPOCH - (jan1 (p_year p + 1) * DAY - EPOCH))%Z with (p_stop p - jan1 (p_year p + 1) * DAY)%Z by lia.
      reflexivity.
Qed.

(** ** The loop over the nodes *)

Lemma add_at_length i x d : length (add_at i x d) = length d.
Proof. apply upd_length. Qed.

Lemma add_at_nth i x d k : (0 <= i < Z.of_nat (length d))%Z ->
  nth k (add_at i x d) 0 == nth k d 0 + (if (Z.of_nat k =? i)%Z then x else 0).
Proof.
  intros H. unfold add_at. rewrite nth_upd by lia. destruct (Nat.eqb_spec k (Z.to_nat i)) as [->|N].
  - rewrite Z2Nat.id, Z.eqb_refl by lia. ring.
  - destruct (Z.eqb_spec (Z.of_nat k) i); [lia|ring].
Qed.

Lemma after_length sy fs d s : length (annual_flow_after sy fs d s) = length d.
Proof.
  unfold annual_flow_after. set (n := length d). assert (length d = n) as E by reflexivity. clearbody n.
  revert d E. induction (combine (snd s) fs) as [|fw l IH]; intros d E; cbn [fold_left]; [exact E|].
  apply IH. destruct (_ && _); rewrite ?add_at_length; exact E.
Qed.

Lemma after_nth sy fs d s k : (0 <= p_year (fst s) - sy < Z.of_nat (length d))%Z -> (k < length d)%nat ->
  nth k (annual_flow_after sy fs d s) 0 == nth k d 0 +
    weighted_flow fs (snd s) * ((if (Z.of_nat k =? p_year (fst s) - sy)%Z then days_in_current_year (fst s) else 0) +
      (if negb (qeqb (days_in_current_year (fst s)) (delta_days (fst s))) && (Z.of_nat k =? p_year (fst s) - sy + 1)%Z
       then days_in_next_year (fst s) else 0)).
Proof.
  intros H Hk. unfold annual_flow_after, weighted_flow. set (p := fst s) in *. set (idx := (p_year p - sy)%Z) in *.
  set (c := days_in_current_year p). set (nx := days_in_next_year p). set (b := negb (qeqb c (delta_days p))). clearbody c nx b.
  set (n := length d) in *. assert (length d = n) as E by reflexivity. clearbody n. revert d E.
  induction (combine (snd s) fs) as [|fw l IH]; intros d E; cbn [fold_left map].
  - cbn [qsum]. ring.
  - rewrite qsum_cons. destruct (b && (idx + 1 <? Z.of_nat n)%Z) eqn:B.
    + apply andb_prop in B as [B1 B2]. apply Z.ltb_lt in B2. rewrite IH by (rewrite !add_at_length; exact E).
      rewrite !add_at_nth by (rewrite ?add_at_length; lia). rewrite B1. cbn [andb].
      destruct (Z.of_nat k =? idx)%Z, (Z.of_nat k =? idx + 1)%Z; ring.
    + rewrite IH by (rewrite add_at_length; exact E). rewrite add_at_nth by lia.
      destruct b; cbn [andb] in *.
      * apply Z.ltb_ge in B. destruct (Z.eqb_spec (Z.of_nat k) (idx + 1)); [lia|].
        destruct (Z.of_nat k =? idx)%Z; ring.
      * destruct (Z.of_nat k =? idx)%Z; ring.
Qed.

Lemma days_in_year_split p y : plain_period p -> one_year_end p -> away_from_epoch p ->
  days_in_year y p == (if (y =? p_year p)%Z then days_in_current_year p else 0) +
    (if negb (qeqb (days_in_current_year p) (delta_days p)) && (y =? p_year p + 1)%Z then days_in_next_year p else 0).
Proof.
  intros P O W. pose proof P as (L & _). pose proof (p_year_starts p) as [S1 S2].
  unfold days_in_year, days_between.
  assert (forall a b, (a <= b -> jan1 a <= jan1 b)%Z) as M by (intros a b H; pose proof (jan1_mono a b H); lia).
  assert (forall a b, (a <= b -> jan1 a * DAY <= jan1 b * DAY)%Z) as MD by (intros a b H; specialize (M a b H); unfold DAY, SECOND; lia).
  destruct (split_days p P O W) as [(E & D & C)|(E & N & C & D1 & D2)].
  - destruct (qeqbP (days_in_current_year p) (delta_days p)) as [Q|Q].
    2:{ exfalso. apply Q. rewrite D. symmetry. apply delta_days_plain, P. }
    cbn [negb andb]. destruct (Z.eqb_spec y (p_year p)) as [->|Ny].
    + rewrite D. unfold length_in_days. rewrite Z.max_r by lia. rewrite Z.min_l, Z.max_l by lia. ring.
    + rewrite Z.max_l; [change (inject_Z 0) with 0; field; apply DAYpos|].
      destruct (Z.lt_ge_cases y (p_year p)); [pose proof (MD (y + 1)%Z (p_year p)); lia|pose proof (MD (p_year p + 1)%Z y); lia].
  - destruct (qeqbP (days_in_current_year p) (delta_days p)) as [Q|Q]; [contradiction|]. cbn [negb andb].
    destruct (Z.eqb_spec y (p_year p)) as [->|Ny].
    + destruct (Z.eqb_spec (p_year p) (p_year p + 1)); [lia|]. rewrite D1.
      rewrite Z.max_r by lia. rewrite Z.min_r, Z.max_l by lia. ring.
    + destruct (Z.eqb_spec y (p_year p + 1)) as [->|Ny1].
      * rewrite D2. replace (p_year p + 1 + 1)%Z with (p_year p + 2)%Z by lia.
        rewrite Z.max_r by lia. rewrite Z.min_l, Z.max_r by lia. ring.
      * rewrite Z.max_l; [change (inject_Z 0) with 0; field; apply DAYpos|].
        destruct (Z.lt_ge_cases y (p_year p)); [pose proof (MD (y + 1)%Z (p_year p)); lia|pose proof (MD (p_year p + 2)%Z y); lia].
Qed.

Definition good_step (sy : Z) (n : nat) (s : period * list Q) : Prop :=
  plain_period (fst s) /\ one_year_end (fst s) /\ away_from_epoch (fst s) /\
  (jan1 sy * DAY <= p_start (fst s) < jan1 (sy + Z.of_nat n) * DAY)%Z.

Lemma good_step_year sy n s : good_step sy n s -> (0 <= p_year (fst s) - sy < Z.of_nat n)%Z.
Proof.
  intros (_ & _ & _ & A & B). pose proof (p_year_starts (fst s)) as [S1 S2].
  assert (jan1 sy < jan1 (p_year (fst s) + 1))%Z as H1 by (unfold DAY, SECOND in *; lia).
  assert (jan1 (p_year (fst s)) < jan1 (sy + Z.of_nat n))%Z as H2 by (unfold DAY, SECOND in *; lia).
  apply jan1_lt in H1. apply jan1_lt in H2. lia.
Qed.

Lemma annual_flow_gen sy fs run : forall d, Forall (good_step sy (length d)) run -> forall k, (k < length d)%nat ->
  nth k (fold_left (annual_flow_after sy fs) run d) 0 ==
  nth k d 0 + qsum (map (fun s => weighted_flow fs (snd s) * days_in_year (sy + Z.of_nat k) (fst s)) run).
Proof.
  induction run as [|s run IH]; intros d F k Hk; cbn [fold_left map].
  - cbn [qsum]. ring.
  - inversion F as [|? ? G F']; subst. rewrite IH by (rewrite ?after_length; auto). rewrite qsum_cons.
    rewrite after_nth by (auto using good_step_year). destruct G as (G1 & G2 & G3 & G4).
    rewrite (days_in_year_split (fst s) (sy + Z.of_nat k)) by auto.
    assert ((sy + Z.of_nat k =? p_year (fst s)) = (Z.of_nat k =? p_year (fst s) - sy))%Z as -> by lia.
    assert ((sy + Z.of_nat k =? p_year (fst s) + 1) = (Z.of_nat k =? p_year (fst s) - sy + 1))%Z as -> by lia.
    ring.
Qed.

Lemma annual_flow_length sy n fs run : length (annual_flow sy n fs run) = n.
Proof.
  unfold annual_flow. rewrite <- (repeat_length 0 n) at 2. generalize (repeat 0 n).
  induction run as [|s run IH]; intros d; cbn [fold_left]; [reflexivity|]. rewrite IH. apply after_length.
Qed.

Lemma annual_flow_year sy n fs run k : Forall (good_step sy n) run -> (k < n)%nat ->
  nth k (annual_flow sy n fs run) 0 ==
  qsum (map (fun s => weighted_flow fs (snd s) * days_in_year (sy + Z.of_nat k) (fst s)) run).
Proof.
  intros F Hk. unfold annual_flow. rewrite annual_flow_gen by (rewrite ?repeat_length; auto).
  rewrite nth_repeat. ring.
Qed.

(** Days of the years of the recorder add up. *)
Lemma years_add_up p sy n : (p_start p < p_stop p)%Z ->
  qsum (map (fun k => days_in_year (sy + Z.of_nat k) p) (seq 0 n)) ==
  days_between (jan1 sy * DAY) (jan1 (sy + Z.of_nat n) * DAY) p.
Proof.
  intros L. induction n as [|n IH].
  - cbn [seq map qsum]. rewrite Z.add_0_r. unfold days_between. rewrite Z.max_l by lia.
    change (inject_Z 0) with 0. field. apply DAYpos.
  - rewrite seq_S, map_app, qsum_app, IH. cbn [map plus]. rewrite qsum_cons. cbn [qsum].
    unfold days_in_year, days_between. replace (sy + Z.of_nat (S n))%Z with (sy + Z.of_nat n + 1)%Z by lia.
    pose proof (jan1_mono sy (sy + Z.of_nat n) ltac:(lia)) as M.
    pose proof (jan1_mono (sy + Z.of_nat n) (sy + Z.of_nat n + 1) ltac:(lia)) as M2.
    assert (jan1 sy * DAY <= jan1 (sy + Z.of_nat n) * DAY)%Z as MD by (unfold DAY, SECOND; lia).
    assert (jan1 (sy + Z.of_nat n) * DAY <= jan1 (sy + Z.of_nat n + 1) * DAY)%Z as MD2 by (unfold DAY, SECOND; lia).
    set (a := (jan1 sy * DAY)%Z) in *. set (b := (jan1 (sy + Z.of_nat n) * DAY)%Z) in *. set (c := (jan1 (sy + Z.of_nat n + 1) * DAY)%Z) in *.
    assert (Z.max 0 (Z.min (p_stop p) c - Z.max (p_start p) a) =
      Z.max 0 (Z.min (p_stop p) b - Z.max (p_start p) a) + Z.max 0 (Z.min (p_stop p) c - Z.max (p_start p) b))%Z as -> by lia.
    rewrite inject_Z_plus. field. apply DAYpos.
Qed.

Lemma qsum_nth l : qsum l == qsum (map (fun k => nth k l 0) (seq 0 (length l))).
Proof.
  induction l as [|x l IH]; [reflexivity|]. cbn [length seq map]. rewrite !qsum_cons. cbn [nth].
  rewrite <- seq_shift, map_map. rewrite IH. reflexivity.
Qed.

Lemma annual_flow_total sy n fs run : Forall (good_step sy n) run ->
  qsum (annual_flow sy n fs run) ==
  qsum (map (fun s => weighted_flow fs (snd s) * days_between (jan1 sy * DAY) (jan1 (sy + Z.of_nat n) * DAY) (fst s)) run).
Proof.
  intros F. rewrite qsum_nth, annual_flow_length.
  rewrite (qsum_map_ext _ (fun k => qsum (map (fun s => weighted_flow fs (snd s) * days_in_year (sy + Z.of_nat k) (fst s)) run))).
  2:{ intros k Hk. apply in_seq in Hk. apply annual_flow_year; [exact F|lia]. }
  rewrite (qsum_swap (fun k s => weighted_flow fs (snd s) * days_in_year (sy + Z.of_nat k) (fst s))).
  apply qsum_map_ext. intros s Hs. rewrite qsum_map_scale. rewrite years_add_up; [reflexivity|].
  rewrite Forall_forall in F. apply (F s Hs).
Qed.

(** ** Years in which the index reached the threshold *)
Local Open Scope Z_scope.

Lemma years_in_order_tail a l : years_in_order (a :: l) -> years_in_order l /\ Forall (fun b => a <= b) l.
Proof.
  revert a. induction l as [|b l IH]; intros a H; [split; [exact Logic.I|constructor]|].
  cbn [years_in_order] in H. destruct H as [H1 H2]. split; [exact H2|]. constructor; [exact H1|].
  destruct (IH b H2) as [_ F]. rewrite Forall_forall in *. intros c Hc. specialize (F c Hc). lia.
Qed.

Fixpoint reached_list (thr : Z) (Y : Z) (acc : bool) (r : list (Z * Z)) : list Z :=
  match r with
  | [] => if acc then [Y] else []
  | (y, v) :: r' =>
      if y =? Y then reached_list thr Y (acc || (thr <=? v)) r'
      else (if acc then [Y] else []) ++ reached_list thr y (thr <=? v) r'
  end.

Lemma reached_list_In thr r : forall Y acc z,
  In z (reached_list thr Y acc r) <-> (z = Y /\ acc = true) \/ exists v, In (z, v) r /\ thr <= v.
Proof.
  induction r as [|[y v] r IH]; intros Y acc z; cbn [reached_list].
  - split.
    + destruct acc; intros H; [destruct H as [<-|[]]; left; auto|destruct H].
    + intros [[-> ->]|(v & [] & _)]. now left.
  - destruct (Z.eqb_spec y Y) as [->|N].
    + rewrite IH, orb_true_iff, Z.leb_le. split.
      * intros [[-> [H|H]]|(w & H & L)]; [left; auto|right; exists v; split; [now left|exact H]|right; exists w; split; [now right|exact L]].
      * intros [[-> H]|(w & [H|H] & L)]; [left; auto| |right; exists w; auto].
        injection H as <- <-. left; auto.
    + rewrite in_app_iff, IH, Z.leb_le. split.
      * intros [H|[[-> H]|(w & H & L)]].
        -- destruct acc; [|destruct H]. destruct H as [<-|[]]. left; auto.
        -- right. exists v. split; [now left|exact H].
        -- right. exists w. split; [now right|exact L].
      * intros [[-> H]|(w & [H|H] & L)].
        -- left. rewrite H. now left.
        -- injection H as <- <-. right. left. auto.
        -- right. right. exists w; auto.
Qed.

Lemma reached_list_NoDup thr r : forall Y acc, years_in_order (Y :: map fst r) ->
  NoDup (reached_list thr Y acc r) /\ Forall (fun z => Y <= z) (reached_list thr Y acc r).
Proof.
  induction r as [|[y v] r IH]; intros Y acc H; cbn [reached_list].
  - destruct acc; split; repeat constructor; auto; lia.
  - cbn [map fst] in H. destruct (Z.eqb_spec y Y) as [->|N].
    + apply IH. destruct (years_in_order_tail _ _ H) as [H1 _]. exact H1.
    + destruct (years_in_order_tail _ _ H) as [H1 F]. destruct (IH y (thr <=? v) H1) as [I1 I2].
      assert (Y < y) by (inversion F; subst; lia).
      assert (Forall (fun z => Y < z) (reached_list thr y (thr <=? v) r)) as I3.
      { rewrite Forall_forall in *. intros z Hz. specialize (I2 z Hz). cbn beta in I2. lia. }
      destruct acc; cbn [app]; split; auto.
      * constructor; [|exact I1]. intros C. rewrite Forall_forall in I3. specialize (I3 Y C). lia.
      * constructor; [lia|]. rewrite Forall_forall in *. intros z Hz. specialize (I3 z Hz). lia.
      * rewrite Forall_forall in *. intros z Hz. specialize (I3 z Hz). lia.
Qed.

Lemma same_elements_length (l m : list Z) : NoDup l -> NoDup m -> (forall z, In z l <-> In z m) -> length l = length m.
Proof.
  intros A B E. apply Nat.le_antisymm; apply NoDup_incl_length; auto; intros z; apply E.
Qed.

Lemma years_with_list thr Y v r : years_in_order (map fst ((Y, v) :: r)) ->
  length (reached_list thr Y (thr <=? v) r) = years_with (fun x => thr <=? x) ((Y, v) :: r).
Proof.
  intros H. unfold years_with, countb. apply same_elements_length.
  - apply reached_list_NoDup, H.
  - apply NoDup_filter, NoDup_nodup.
  - intros z. rewrite reached_list_In, filter_In, nodup_In, existsb_exists. split.
    + intros [[-> L]|(w & I & L)].
      * split; [now left|]. exists (Y, v). split; [now left|]. cbn [fst snd]. rewrite Z.eqb_refl, L. reflexivity.
      * split; [apply (in_map fst) in I; now right|]. exists (z, w). split; [now right|].
        cbn [fst snd]. rewrite Z.eqb_refl. apply Z.leb_le, L.
    + intros [_ ([y w] & I & L)]. cbn [fst snd] in L. apply andb_prop in L as [L1 L2].
      apply Z.eqb_eq in L1. subst y. destruct I as [I|I]; [injection I as <- <-; left; auto|].
      right. exists w. split; [exact I|]. apply Z.leb_le, L2.
Qed.

Lemma count_run thr r : forall s, cs_year s <> -1 -> 0 <= cs_max s -> years_in_order (cs_year s :: map fst r) ->
  Forall (fun o => fst o <> -1 /\ (1 <= thr \/ 0 <= snd o)) r ->
  count_finish thr (fold_left (count_after thr) r s) =
  cs_count s + Z.of_nat (length (reached_list thr (cs_year s) (thr <=? cs_max s) r)).
Proof.
  induction r as [|[y v] r IH]; intros s Ny M O F; cbn [fold_left reached_list].
  - unfold count_finish. destruct (thr <=? cs_max s); cbn [length]; lia.
  - inversion F as [|? ? [F1 F2] F']; subst. cbn [fst snd] in *.
    cbn [map fst] in O. destruct (years_in_order_tail _ _ O) as [O1 O2].
    destruct (Z.eqb_spec y (cs_year s)) as [E|N].
    + unfold count_after at 2. rewrite E, Z.eqb_refl. cbn [negb].
      rewrite IH; cbn [cs_year cs_max cs_count]; auto.
      * assert ((thr <=? (if cs_max s <? v then v else cs_max s)) = (thr <=? cs_max s) || (thr <=? v)) as ->; [|reflexivity].
        destruct (Z.ltb_spec (cs_max s) v), (Z.leb_spec thr (cs_max s)), (Z.leb_spec thr v); cbn;
          first [reflexivity|lia|destruct (Z.leb_spec thr v); (reflexivity || lia)|destruct (Z.leb_spec thr (cs_max s)); (reflexivity||lia)].
      * destruct (Z.ltb_spec (cs_max s) v); lia.
      * rewrite <- E. exact O1.
    + unfold count_after at 2. destruct (Z.eqb_spec y (cs_year s)); [contradiction|]. cbn [negb].
      destruct (Z.eqb_spec (cs_year s) (-1)); [contradiction|]. cbn [negb andb cs_year cs_max cs_count].
      rewrite IH; cbn [cs_year cs_max cs_count]; auto; [|destruct (Z.ltb_spec 0 v); lia].
      rewrite app_length.
      assert ((thr <=? (if 0 <? v then v else 0)) = (thr <=? v)) as ->.
      { destruct (Z.ltb_spec 0 v); destruct (Z.leb_spec thr 0), (Z.leb_spec thr v); try reflexivity; lia. }
      destruct (thr <=? cs_max s); cbn [length]; lia.
Qed.

Lemma annual_count_spec thr run : run <> [] -> years_in_order (map fst run) ->
  Forall (fun o => 1 <= fst o) run -> (1 <= thr \/ Forall (fun o => 0 <= snd o) run) ->
  annual_count thr run = Z.of_nat (years_with (fun v => thr <=? v) run).
Proof.
  destruct run as [|[y v] r]; [easy|]. intros _ O F P. unfold annual_count. cbn [fold_left].
  rewrite <- (years_with_list thr y v r O).
  inversion F as [|? ? F1 F2]; subst. cbn [fst] in F1.
  assert (1 <= thr \/ 0 <= v) as Pv by (destruct P as [P|P]; [left; exact P|right; inversion P; assumption]).
  unfold count_after at 2, count_reset; cbn [cs_year cs_max cs_count]. destruct (Z.eqb_spec y (-1)); [lia|].
  cbn [negb andb Z.eqb cs_year cs_max cs_count]. rewrite count_run; cbn [cs_year cs_max cs_count].
  - assert ((thr <=? (if 0 <? v then v else 0)) = (thr <=? v)) as ->; [|reflexivity].
    destruct (Z.ltb_spec 0 v); destruct (Z.leb_spec thr 0), (Z.leb_spec thr v); try reflexivity; lia.
  - lia.
  - destruct (Z.ltb_spec 0 v); lia.
  - exact O.
  - rewrite Forall_forall in F2. apply Forall_forall. intros o Ho. specialize (F2 o Ho). split; [lia|].
    destruct P as [P|P]; [left; exact P|right]. rewrite Forall_forall in P. apply P. now right.
Qed.

(** ** Timesteps per year in which some index reached the threshold *)

Lemma count_first_length thr vs : forall ts, length (count_first thr vs ts) = length ts.
Proof. induction vs as [|v vs IH]; intros [|t ts]; cbn; auto. destruct (thr <=? v); cbn; auto. Qed.

Lemma count_first_sum thr vs : forall ts, length vs = length ts ->
  zsum (count_first thr vs ts) = zsum ts + (if existsb (fun v => thr <=? v) vs then 1 else 0).
Proof.
  induction vs as [|v vs IH]; intros [|t ts] H; cbn [length] in H; try discriminate; [reflexivity|].
  cbn [count_first existsb]. destruct (thr <=? v); cbn [orb zsum fold_right]; [fold (zsum ts); lia|].
  fold (zsum ts). fold (zsum (count_first thr vs ts)). rewrite IH by lia. lia.
Qed.

Lemma day_order y m d e : valid_date (Date y m d) -> valid_date e -> yr e = y ->
  (day_of_year (Date y m d) <=? day_of_year e) = month_day_le m d (mon e) (dom e) /\
  (day_of_year e <=? day_of_year (Date y m d)) = month_day_le (mon e) (dom e) m d.
Proof.
  intros A B E. pose proof (date_lt_day_number e (Date y m d) B A) as H1.
  pose proof (date_lt_day_number (Date y m d) e A B) as H2.
  unfold day_number, date_lt, month_day_le in *. cbn [yr mon dom] in *. rewrite E in *.
  split.
  - destruct (Z.leb_spec (day_of_year (Date y m d)) (day_of_year e)); symmetry;
      [apply orb_true_iff|apply orb_false_iff]; rewrite ?andb_true_iff, ?andb_false_iff, ?Z.ltb_lt, ?Z.eqb_eq, ?Z.leb_le, ?Z.ltb_ge, ?Z.eqb_neq, ?Z.leb_gt; lia.
  - destruct (Z.leb_spec (day_of_year e) (day_of_year (Date y m d))); symmetry;
      [apply orb_true_iff|apply orb_false_iff]; rewrite ?andb_true_iff, ?andb_false_iff, ?Z.ltb_lt, ?Z.eqb_eq, ?Z.leb_le, ?Z.ltb_ge, ?Z.eqb_neq, ?Z.leb_gt; lia.
Qed.

Lemma timestamp_some y m d n : timestamp_dayofyear y m d = Some n -> valid_date (Date y m d) /\ n = day_of_year (Date y m d).
Proof.
  unfold timestamp_dayofyear. destruct (_ && _) eqn:B; [|discriminate]. intros H. injection H as <-.
  repeat rewrite andb_true_iff in B. split; [|reflexivity]. unfold valid_date; cbn [yr mon dom]. lia.
Qed.

Lemma timestamp_every y m d : every_year (Some (m, d)) -> exists n, timestamp_dayofyear y m d = Some n.
Proof.
  intros [A B]. unfold timestamp_dayofyear.
  assert (month_days false m <= month_days (gleapb y) m) by (unfold month_days; destruct (gleapb y); destruct (m =? 2); lia).
  replace ((1 <=? m) && (m <=? 12) && (1 <=? d) && (d <=? month_days (gleapb y) m)) with true by lia. eauto.
Qed.

(** One timestep: the new year is opened, and the timestep counts or not. *)
Lemma threshold_after_spec c sy s d vs s' : valid_date d -> length vs = length (ys_this s) ->
  threshold_after c sy s (d, vs) = Some s' ->
  ys_year s' = yr d /\ length (ys_this s') = length (ys_this s) /\
  ys_data s' = (if (yr d =? ys_year s) || (ys_year s =? -1) then ys_data s
                else upd (ys_data s) (Z.to_nat (ys_year s - sy)) (zsum (ys_this s))) /\
  zsum (ys_this s') = (if yr d =? ys_year s then zsum (ys_this s) else 0) +
    (if counts c d && existsb (fun v => cc_threshold c <=? v) vs then 1 else 0).
Proof.
  intros V L. unfold threshold_after.
  set (s1 := if negb (yr d =? ys_year s) then _ else s).
  assert (ys_year s1 = yr d) as Y1 by (subst s1; destruct (Z.eqb_spec (yr d) (ys_year s)); cbn; auto).
  assert (length (ys_this s1) = length (ys_this s)) as L1
    by (subst s1; destruct (yr d =? ys_year s); cbn [negb ys_this]; rewrite ?map_length; auto).
  assert (ys_data s1 = (if (yr d =? ys_year s) || (ys_year s =? -1) then ys_data s
                else upd (ys_data s) (Z.to_nat (ys_year s - sy)) (zsum (ys_this s)))) as D1
    by (subst s1; destruct (yr d =? ys_year s), (ys_year s =? -1); reflexivity).
  assert (zsum (ys_this s1) = (if yr d =? ys_year s then zsum (ys_this s) else 0)) as S1.
  { subst s1; destruct (yr d =? ys_year s); cbn [negb ys_this]; [reflexivity|].
    clear. induction (ys_this s) as [|t l IH]; [reflexivity|]. cbn [map zsum fold_right]. fold (zsum (map (fun _ : Z => 0) l)). lia. }
  clearbody s1. rewrite <- D1, <- S1. unfold counts.
  destruct (match cc_exclude c with Some l => _ | None => false end); cbn [negb andb].
  - intros H. injection H as <-. auto with zarith.
  - rewrite Y1. pose proof (day_of_year_range d V) as R. pose proof (year_days_bounds (yr d)) as YB.
    assert (forall fo, match cc_from c with None => Some 1 | Some (m, dd) => timestamp_dayofyear (yr d) m dd end = Some fo ->
      (fo <=? day_of_year d) = match cc_from c with Some (m, dd) => month_day_le m dd (mon d) (dom d) | None => true end) as KF.
    { intros fo. destruct (cc_from c) as [[m dd]|].
      - intros H. apply timestamp_some in H as [V' ->]. apply (day_order _ _ _ d V' V eq_refl).
      - intros H. injection H as <-. lia. }
    assert (forall t, match cc_to c with None => Some 366 | Some (m, dd) => timestamp_dayofyear (yr d) m dd end = Some t ->
      (day_of_year d <=? t) = match cc_to c with Some (m, dd) => month_day_le (mon d) (dom d) m dd | None => true end) as KT.
    { intros t. destruct (cc_to c) as [[m dd]|].
      - intros H. apply timestamp_some in H as [V' ->]. apply (day_order _ _ _ d V' V eq_refl).
      - intros H. injection H as <-. lia. }
    destruct (match cc_from c with None => Some 1 | Some (m, dd) => timestamp_dayofyear (yr d) m dd end) as [fo|]; [|discriminate].
    destruct (match cc_to c with None => Some 366 | Some (m, dd) => timestamp_dayofyear (yr d) m dd end) as [t|]; [|discriminate].
    rewrite <- (KF fo eq_refl), <- (KT t eq_refl).
    destruct ((fo <=? day_of_year d) && (day_of_year d <=? t)); intros H; injection H as <-; cbn [ys_year ys_this ys_data andb].
    + rewrite count_first_length, count_first_sum by lia. auto.
    + auto with zarith.
Qed.

Definition ok_step (sy : Z) (n : nat) (np : nat) (o : date * list Z) : Prop :=
  valid_date (fst o) /\ sy <= yr (fst o) < sy + Z.of_nat n /\ length (snd o) = np.

Lemma reached_cons c y o run : timesteps_reached c y (o :: run) =
  ((if Z.eqb (yr (fst o)) y && counts c (fst o) && existsb (fun v => (cc_threshold c <=? v)%Z) (snd o) then 1 else 0) + timesteps_reached c y run)%nat.
Proof. unfold timesteps_reached, countb. cbn [filter]. destruct (_ && _ && _); reflexivity. Qed.

Lemma reached_none c y run : ~ In y (map (fun o => yr (fst o)) run) -> timesteps_reached c y run = 0%nat.
Proof.
  intros H. induction run as [|o run IH]; [reflexivity|]. rewrite reached_cons, IH by (intros C; apply H; now right).
  destruct (Z.eqb_spec (yr (fst o)) y); [|reflexivity]. exfalso. apply H. now left.
Qed.

Lemma threshold_run_spec c sy n np run : 0 < sy -> Forall (ok_step sy n np) run ->
  forall s s', ys_year s <> -1 -> sy <= ys_year s < sy + Z.of_nat n -> length (ys_data s) = n -> length (ys_this s) = np ->
  years_in_order (ys_year s :: map (fun o => yr (fst o)) run) ->
  threshold_run c sy s run = Some s' ->
  length (threshold_finish sy s') = n /\
  forall k, (k < n)%nat -> let y := sy + Z.of_nat k in
    nth k (threshold_finish sy s') 0 =
      if y =? ys_year s then zsum (ys_this s) + Z.of_nat (timesteps_reached c y run)
      else if existsb (fun o => yr (fst o) =? y) run then Z.of_nat (timesteps_reached c y run)
      else nth k (ys_data s) 0.
Proof.
  intros Psy F. induction F as [|[d vs] run (V & R & Ln) F IH]; intros s s' N1 R0 Ld Lt O.
  - cbn [threshold_run]. intros H. injection H as <-. unfold threshold_finish. split; [rewrite upd_length; exact Ld|].
    intros k Hk. set (y := sy + Z.of_nat k). rewrite nth_upd by lia. unfold timesteps_reached, countb; cbn [existsb filter length].
    destruct (Nat.eqb_spec k (Z.to_nat (ys_year s - sy))) as [->|E], (Z.eqb_spec y (ys_year s)) as [E'|E']; subst y; try lia.
  - cbn [threshold_run]. destruct (threshold_after c sy s (d, vs)) as [s1|] eqn:A; [|discriminate].
    cbn [fst snd] in *. destruct (threshold_after_spec c sy s d vs s1 V ltac:(lia) A) as (Y1 & L1 & D1 & S1).
    intros H. cbn [map fst] in O. destruct (years_in_order_tail _ _ O) as [O1 O2].
    assert (ys_year s <= yr d) as Le by (inversion O2; auto).
    assert (ys_data s1 = (if yr d =? ys_year s then ys_data s else upd (ys_data s) (Z.to_nat (ys_year s - sy)) (zsum (ys_this s)))) as D1'
      by (rewrite D1; destruct (Z.eqb_spec (ys_year s) (-1)); [contradiction|]; rewrite orb_false_r; reflexivity).
    destruct (IH s1 s') as [IL IK]; auto; try lia.
    + rewrite D1'. destruct (yr d =? ys_year s); rewrite ?upd_length; exact Ld.
    + rewrite Y1. exact O1.
    + split; [exact IL|]. intros k Hk. specialize (IK k Hk). cbv zeta in IK. set (y := sy + Z.of_nat k) in *. rewrite IK. clear IK.
      rewrite reached_cons. cbn [fst snd existsb]. rewrite Y1, S1, D1'.
      destruct (Z.eqb_spec y (ys_year s)) as [Ey|Ey].
      * destruct (Z.eqb_spec (yr d) (ys_year s)) as [Ed|Ed].
        -- destruct (Z.eqb_spec y (yr d)); [|lia]. destruct (Z.eqb_spec (yr d) y); [|lia]. cbn [andb].
           destruct (counts c d && _); lia.
        -- destruct (Z.eqb_spec y (yr d)); [lia|]. destruct (Z.eqb_spec (yr d) y); [lia|]. cbn [andb orb].
           assert (~ In y (map (fun o : date * list Z => yr (fst o)) run)) as NI.
           { intros C. destruct (years_in_order_tail _ _ O1) as [_ O3]. rewrite Forall_forall in O3. specialize (O3 y C). cbn beta in O3. lia. }
           rewrite (reached_none c y run NI).
           replace (existsb (fun o => yr (fst o) =? y) run) with false.
           ++ rewrite nth_upd by lia. destruct (Nat.eqb_spec k (Z.to_nat (ys_year s - sy))); [|subst y; lia].
              cbn [Nat.add]. lia.
           ++ symmetry. apply not_true_iff_false. rewrite existsb_exists. intros (o & Ho & C). apply NI.
              apply Z.eqb_eq in C. subst y. rewrite <- C. apply (in_map (fun o => yr (fst o)) run o Ho).
      * destruct (Z.eqb_spec y (yr d)) as [Ed|Ed].
        -- destruct (Z.eqb_spec (yr d) y); [|lia]. cbn [andb orb]. destruct (Z.eqb_spec (yr d) (ys_year s)); [lia|].
           destruct (counts c d && _); lia.
        -- destruct (Z.eqb_spec (yr d) y); [lia|]. cbn [andb orb Nat.add].
           destruct (existsb _ run); [reflexivity|]. destruct (yr d =? ys_year s); [reflexivity|].
           rewrite nth_upd by lia. destruct (Nat.eqb_spec k (Z.to_nat (ys_year s - sy))); [subst y; lia|reflexivity].
Qed.

Lemma annual_threshold_spec c sy n np this run data : 0 < sy -> run <> [] -> Forall (ok_step sy n np) run -> length this = np ->
  years_in_order (map (fun o => yr (fst o)) run) ->
  annual_threshold_count c sy n this run = Some data ->
  length data = n /\ forall k, (k < n)%nat -> nth k data 0 = Z.of_nat (timesteps_reached c (sy + Z.of_nat k) run).
Proof.
  intros Psy NE F Lt O. unfold annual_threshold_count. destruct run as [|[d vs] run]; [easy|]. clear NE.
  cbn [threshold_run]. set (s0 := YearState (repeat 0 n) this (-1)).
  destruct (threshold_after c sy s0 (d, vs)) as [s1|] eqn:A; [|discriminate].
  pose proof (Forall_inv F) as (V & R & Ln). pose proof (Forall_inv_tail F) as F'. cbn [fst snd] in *.
  destruct (threshold_after_spec c sy s0 d vs s1 V) as (Y1 & L1 & D1 & S1); [cbn; lia|exact A|].
  change (ys_year s0) with (-1) in *. destruct (Z.eqb_spec (yr d) (-1)) as [|_]; [lia|]. rewrite Z.eqb_refl in D1. cbn [orb] in D1.
  change (ys_data s0) with (repeat 0 n) in D1. change (ys_this s0) with this in *.
  destruct (threshold_run c sy s1 run) as [s'|] eqn:E; [|discriminate]. cbn [option_map]. intros H. injection H as <-.
  destruct (threshold_run_spec c sy n np run Psy F') with (s := s1) (s' := s') as [K1 K2]; auto; try lia.
  - rewrite D1. apply repeat_length.
  - rewrite Y1. exact O.
  - split; [exact K1|]. intros k Hk. specialize (K2 k Hk). cbv zeta in K2. rewrite K2, Y1, S1, D1, (nth_repeat 0 n k), reached_cons. cbn [fst snd].
    destruct (Z.eqb_spec (sy + Z.of_nat k) (yr d)) as [Ey|Ey].
    + destruct (Z.eqb_spec (yr d) (sy + Z.of_nat k)); [|lia]. cbn [andb]. destruct (counts c d && _); lia.
    + destruct (Z.eqb_spec (yr d) (sy + Z.of_nat k)); [lia|]. cbn [andb Nat.add].
      destruct (existsb (fun o => yr (fst o) =? sy + Z.of_nat k) run) eqn:X; [reflexivity|].
      rewrite reached_none; [reflexivity|]. intros C. apply in_map_iff in C as (o & C1 & C2).
      apply not_true_iff_false in X. apply X. apply existsb_exists. exists o. split; [exact C2|]. apply Z.eqb_eq, C1.
Qed.

Lemma threshold_run_some c sy run : every_year (cc_from c) -> every_year (cc_to c) ->
  forall s, exists s', threshold_run c sy s run = Some s'.
Proof.
  intros A B. induction run as [|[d vs] run IH]; intros s; cbn [threshold_run]; [eauto|].
  assert (exists s1, threshold_after c sy s (d, vs) = Some s1) as [s1 ->]; [|apply IH].
  unfold threshold_after. set (s1 := if negb (yr d =? ys_year s) then _ else s). clearbody s1.
  destruct (match cc_exclude c with Some _ => _ | None => false end); [eauto|].
  assert (exists x, match cc_from c with None => Some 1 | Some (m, dd) => timestamp_dayofyear (ys_year s1) m dd end = Some x) as [x ->].
  { destruct (cc_from c) as [[m dd]|]; [apply timestamp_every, A|eauto]. }
  assert (exists x, match cc_to c with None => Some 366 | Some (m, dd) => timestamp_dayofyear (ys_year s1) m dd end = Some x) as [z ->].
  { destruct (cc_to c) as [[m dd]|]; [apply timestamp_every, B|eauto]. }
  destruct (_ && _); eauto.
Qed.
