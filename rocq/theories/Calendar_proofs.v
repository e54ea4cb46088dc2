From Verif Require Import Base Calendar_spec Calendar_model.
Local Open Scope Z_scope.
Ltac Zify.zify_post_hook ::= Z.div_mod_to_equations.

Lemma land_3 y : Z.land y 3 = y mod 4.
Proof. change 3 with (Z.ones 2). rewrite Z.land_ones by lia. reflexivity. Qed.
Lemma land_15 y : Z.land y 15 = y mod 16.
Proof. change 15 with (Z.ones 4). rewrite Z.land_ones by lia. reflexivity. Qed.

Lemma gleapb_spec y : gleapb y = true <-> gregorian_leap y.
Proof. unfold gleapb, gregorian_leap. rewrite andb_true_iff, orb_true_iff, negb_true_iff. lia. Qed.

Lemma is_leap_year_gleapb y : is_leap_year y = gleapb y.
Proof.
  unfold is_leap_year, gleapb. rewrite land_3, land_15.
  destruct (y mod 4 =? 0) eqn:E4; [|reflexivity].
  apply Z.eqb_eq in E4. cbn [andb].
  destruct (y mod 25 =? 0) eqn:E25; destruct (y mod 16 =? 0) eqn:E16;
  destruct (y mod 100 =? 0) eqn:E100; destruct (y mod 400 =? 0) eqn:E400; cbn; lia.
Qed.

Lemma is_leap_year_gregorian y : is_leap_year y = true <-> gregorian_leap y.
Proof. rewrite is_leap_year_gleapb. apply gleapb_spec. Qed.

Lemma month_cases m : 1 <= m <= 12 ->
  m = 1 \/ m = 2 \/ m = 3 \/ m = 4 \/ m = 5 \/ m = 6 \/ m = 7 \/ m = 8 \/ m = 9 \/ m = 10 \/ m = 11 \/ m = 12.
Proof. lia. Qed.

Ltac months H :=
  apply month_cases in H; repeat (destruct H as [H|H]); subst.

(** Evaluate closed calendar constants without unfolding arithmetic on variables. *)
Ltac cal :=
  repeat match goal with
  | |- context [days_before ?l ?m] =>
      let v := eval vm_compute in (days_before l m) in progress change (days_before l m) with v
  | |- context [month_days ?l ?m] =>
      let v := eval vm_compute in (month_days l m) in progress change (month_days l m) with v
  | H : context [days_before ?l ?m] |- _ =>
      let v := eval vm_compute in (days_before l m) in progress change (days_before l m) with v in H
  | H : context [month_days ?l ?m] |- _ =>
      let v := eval vm_compute in (month_days l m) in progress change (month_days l m) with v in H
  end.

Lemma dayofyear_index_position leap m d :
  1 <= m <= 12 -> 1 <= d <= month_days leap m ->
  dayofyear_index leap (days_before leap m + d) = leap_position m d.
Proof.
  intros Hm Hd. unfold dayofyear_index, leap_position.
  months Hm; destruct leap; cal; cbn [negb]; try lia;
  match goal with |- context [58 <? ?x] => destruct (58 <? x) eqn:?; lia end.
Qed.

Lemma leap_position_range leap m d :
  1 <= m <= 12 -> 1 <= d <= month_days leap m -> 0 <= leap_position m d <= 365.
Proof.
  intros Hm Hd. unfold leap_position.
  months Hm; destruct leap; cal; lia.
Qed.

Lemma leap_position_lt leap leap' m d m' d' :
  1 <= m <= 12 -> 1 <= d <= month_days leap m ->
  1 <= m' <= 12 -> 1 <= d' <= month_days leap' m' ->
  m < m' -> leap_position m d < leap_position m' d'.
Proof.
  intros Hm Hd Hm' Hd' H. unfold leap_position.
  assert (d <= month_days true m) by (months Hm; destruct leap; cal; lia).
  assert (days_before true m + month_days true m <= days_before true m').
  { clear -Hm Hm' H. months Hm; months Hm'; cal; lia. }
  lia.
Qed.

Lemma leap_position_inj leap leap' m d m' d' :
  1 <= m <= 12 -> 1 <= d <= month_days leap m ->
  1 <= m' <= 12 -> 1 <= d' <= month_days leap' m' ->
  leap_position m d = leap_position m' d' -> m = m' /\ d = d'.
Proof.
  intros Hm Hd Hm' Hd' H.
  destruct (Z.lt_trichotomy m m') as [L|[L|L]].
  - pose proof (leap_position_lt leap leap' m d m' d' Hm Hd Hm' Hd' L). lia.
  - subst. unfold leap_position in H. lia.
  - pose proof (leap_position_lt leap' leap m' d' m d Hm' Hd' Hm Hd L). lia.
Qed.

Lemma mk_timestep_index d i days t :
  valid_date d -> mk_timestep d i days = Some t ->
  ts_dayofyear_index t = leap_position (mon d) (dom d).
Proof.
  intros [Hm Hd] H. unfold mk_timestep in H. destruct (qleb days 0); [discriminate|].
  injection H as <-. cbn [ts_dayofyear_index]. rewrite is_leap_year_gleapb. unfold day_of_year.
  now apply dayofyear_index_position.
Qed.

Lemma mk_timestep_week d i days t :
  valid_date d -> mk_timestep d i days = Some t ->
  ts_week_index t = Z.min 51 (leap_position (mon d) (dom d) / 7).
Proof.
  intros Hv H. pose proof (mk_timestep_index d i days t Hv H) as E.
  destruct Hv as [Hm Hd]. pose proof (leap_position_range _ _ _ Hm Hd) as R.
  unfold mk_timestep in H. destruct (qleb days 0); [discriminate|].
  injection H as <-. cbn [ts_dayofyear_index ts_week_index] in *. rewrite E. unfold week_index.
  destruct (364 <=? leap_position (mon d) (dom d)) eqn:E'; lia.
Qed.

(** *** Day numbers *)
Lemma jan1_succ y : jan1 (y + 1) = jan1 y + year_days y.
Proof.
  unfold jan1, year_days, gleapb.
  destruct (y mod 4 =? 0) eqn:E4; destruct (y mod 100 =? 0) eqn:E100; destruct (y mod 400 =? 0) eqn:E400;
  cbn [andb orb negb]; lia.
Qed.

Lemma year_days_bounds y : 365 <= year_days y <= 366.
Proof. unfold year_days. destruct (gleapb y); lia. Qed.

Lemma jan1_mono y z : y <= z -> jan1 y + 365 * (z - y) <= jan1 z.
Proof. unfold jan1. lia. Qed.

Lemma jan1_strict y z : y < z -> jan1 (y + 1) <= jan1 z.
Proof. intros H. pose proof (jan1_mono (y+1) z). lia. Qed.

Lemma year_of_spec n : jan1 (year_of n) <= n < jan1 (year_of n + 1).
Proof.
  unfold year_of. set (y := 400 * n / 146097 + 1).
  assert (jan1 (y - 1) <= n < jan1 (y + 2)) as H by (unfold y, jan1; lia).
  destruct (n <? jan1 y) eqn:E1.
  - replace (y - 1 + 1) with y by lia. lia.
  - destruct (jan1 (y + 1) <=? n) eqn:E2.
    + replace (y + 1 + 1) with (y + 2) by lia. lia.
    + lia.
Qed.

Lemma year_of_unique n y : jan1 y <= n < jan1 (y + 1) -> year_of n = y.
Proof.
  intros H. pose proof (year_of_spec n) as K.
  destruct (Z.lt_trichotomy (year_of n) y) as [L|[L|L]]; [|exact L|].
  - pose proof (jan1_strict _ _ L). lia.
  - pose proof (jan1_strict _ _ L). lia.
Qed.

Lemma day_of_year_range d : valid_date d -> 1 <= day_of_year d <= year_days (yr d).
Proof.
  intros [Hm Hd]. unfold day_of_year, year_days. destruct d as [y m dd]; cbn [yr mon dom] in *.
  months Hm; destruct (gleapb y); cal; lia.
Qed.

Lemma year_of_day_number d : valid_date d -> year_of (day_number d) = yr d.
Proof.
  intros H. apply year_of_unique. pose proof (day_of_year_range d H).
  rewrite jan1_succ. unfold day_number. lia.
Qed.

Lemma month_of_doy_spec leap m d :
  1 <= m <= 12 -> 1 <= d <= month_days leap m ->
  month_of_doy leap (days_before leap m + d) = m.
Proof.
  intros Hm Hd. unfold month_of_doy.
  months Hm; destruct leap; cbn [fold_left]; cal;
  repeat match goal with
  | |- context [if ?a <? ?b then _ else _] =>
      first [replace (a <? b) with true by (symmetry; apply Z.ltb_lt; lia)
            |replace (a <? b) with false by (symmetry; apply Z.ltb_ge; lia)]
  end; reflexivity.
Qed.

Lemma date_of_day_number d : valid_date d -> date_of (day_number d) = d.
Proof.
  intros Hv. unfold date_of. rewrite year_of_day_number by exact Hv.
  unfold day_number. replace (jan1 (yr d) + day_of_year d - 1 - jan1 (yr d) + 1) with (day_of_year d) by lia.
  destruct Hv as [Hm Hd]. unfold day_of_year. rewrite month_of_doy_spec by assumption.
  destruct d as [y m dd]; cbn [yr mon dom]. f_equal. lia.
Qed.

Definition doy_ok (leap : bool) (i : Z) : bool :=
  let m := month_of_doy leap i in
  (1 <=? m) && (m <=? 12) && (1 <=? i - days_before leap m) && (i - days_before leap m <=? month_days leap m).

Lemma doy_ok_all leap :
  forallb (doy_ok leap) (map Z.of_nat (seq 1 (if leap then 366 else 365))) = true.
Proof. destruct leap; vm_compute; reflexivity. Qed.

(** The domain 1..366 is finite: swept by computation, lifted to all days of a year. *)
Lemma doy_decompose (leap : bool) i :
  1 <= i <= (if leap then 366 else 365) ->
  1 <= month_of_doy leap i <= 12 /\
  1 <= i - days_before leap (month_of_doy leap i) <= month_days leap (month_of_doy leap i).
Proof.
  intros Hi. pose proof (doy_ok_all leap) as H. rewrite forallb_forall in H.
  specialize (H i). assert (doy_ok leap i = true) as K.
  { apply H. apply in_map_iff. exists (Z.to_nat i). split; [lia|]. apply in_seq. destruct leap; lia. }
  unfold doy_ok in K. rewrite !andb_true_iff, !Z.leb_le in K. lia.
Qed.

Lemma date_of_valid n : valid_date (date_of n).
Proof.
  unfold date_of, valid_date. cbn [yr mon dom].
  pose proof (year_of_spec n) as H. rewrite jan1_succ in H. unfold year_days in H.
  apply (doy_decompose (gleapb (year_of n)) (n - jan1 (year_of n) + 1)). destruct (gleapb (year_of n)); lia.
Qed.

Lemma day_number_date_of n : day_number (date_of n) = n.
Proof.
  unfold date_of, day_number, day_of_year; cbn [yr mon dom]. lia.
Qed.

Lemma date_lt_day_number a b :
  valid_date a -> valid_date b -> (date_lt a b <-> day_number a < day_number b).
Proof.
  intros Ha Hb.
  assert (forall a b, valid_date a -> valid_date b -> date_lt a b -> day_number a < day_number b) as K.
  { clear. intros a b Ha Hb [H|[Hy H]].
    - pose proof (day_of_year_range a Ha). pose proof (day_of_year_range b Hb).
      pose proof (jan1_strict _ _ H). rewrite jan1_succ in *. unfold day_number. lia.
    - destruct a as [y m d], b as [y' m' d']; cbn [yr mon dom] in *. subst y'.
      destruct Ha as [Hm Hd], Hb as [Hm' Hd']. unfold day_number, day_of_year; cbn [yr mon dom] in *.
      destruct H as [H|[H1 H2]]; [|subst; lia].
      assert (days_before (gleapb y) m + month_days (gleapb y) m <= days_before (gleapb y) m').
      { destruct (gleapb y); clear -Hm Hm' H; months Hm; months Hm'; cal; lia. }
      lia. }
  split; [apply K; assumption|].
  intros H. assert (date_lt a b \/ a = b \/ date_lt b a) as [T|[T|T]].
  { unfold date_lt. destruct a as [y m d], b as [y' m' d']; cbn [yr mon dom].
    destruct (Z.lt_trichotomy y y') as [|[|]]; [left; lia| |right; right; lia]. subst.
    destruct (Z.lt_trichotomy m m') as [|[|]]; [left; lia| |right; right; lia]. subst.
    destruct (Z.lt_trichotomy d d') as [|[|]]; [left; lia| |right; right; lia]. subst. right; left; reflexivity. }
  - exact T.
  - subst. lia.
  - apply K in T; [lia|assumption|assumption].
Qed.

(** Lemmas in the form used by Calendar_props. *)
Lemma index_is_leap_position d i days t :
  valid_date d -> mk_timestep d i days = Some t ->
  ts_dayofyear_index t = leap_position (mon d) (dom d) /\ 0 <= ts_dayofyear_index t <= 365.
Proof.
  intros Hv H. split; [now apply (mk_timestep_index d i days)|].
  rewrite (mk_timestep_index d i days t Hv H). destruct Hv as [Hm Hd].
  now apply (leap_position_range (gleapb (yr d))).
Qed.

Lemma index_same_iff d i days t d' i' days' t' :
  valid_date d -> valid_date d' ->
  mk_timestep d i days = Some t -> mk_timestep d' i' days' = Some t' ->
  (ts_dayofyear_index t = ts_dayofyear_index t' <-> (mon d = mon d' /\ dom d = dom d')).
Proof.
  intros Hv Hv' H H'. rewrite (mk_timestep_index _ _ _ _ Hv H), (mk_timestep_index _ _ _ _ Hv' H').
  split.
  - destruct Hv, Hv'. now apply (leap_position_inj (gleapb (yr d)) (gleapb (yr d'))).
  - intros [-> ->]. reflexivity.
Qed.

Lemma index_59_feb29 d i days t :
  valid_date d -> mk_timestep d i days = Some t ->
  (ts_dayofyear_index t = 59 <-> (mon d = 2 /\ dom d = 29)).
Proof.
  intros Hv H. rewrite (mk_timestep_index _ _ _ _ Hv H). split.
  - intros E. destruct Hv as [Hm Hd].
    apply (leap_position_inj (gleapb (yr d)) true (mon d) (dom d) 2 29); try lia; try assumption.
    vm_compute; split; discriminate.
  - intros [-> ->]. reflexivity.
Qed.

Lemma timestep_refused d i days : mk_timestep d i days = None <-> (days <= 0)%Q.
Proof. unfold mk_timestep. destruct (qlebP days 0); split; intros H; try easy. Qed.

Lemma week_range d i days t :
  valid_date d -> mk_timestep d i days = Some t -> 0 <= ts_week_index t <= 51.
Proof.
  intros Hv H. rewrite (mk_timestep_week _ _ _ _ Hv H). destruct Hv as [Hm Hd].
  pose proof (leap_position_range _ _ _ Hm Hd). lia.
Qed.

Lemma leap_position_mono d d' :
  valid_date d -> valid_date d' -> yr d = yr d' ->
  day_number d <= day_number d' -> leap_position (mon d) (dom d) <= leap_position (mon d') (dom d').
Proof.
  intros Hv Hv' Hy H.
  assert (~ date_lt d' d) as N by (rewrite date_lt_day_number by assumption; lia).
  unfold date_lt in N.
  destruct (Z.lt_trichotomy (mon d) (mon d')) as [L|[L|L]]; [| |lia].
  - destruct Hv, Hv'. apply Z.lt_le_incl. now apply (leap_position_lt (gleapb (yr d)) (gleapb (yr d'))).
  - rewrite L. unfold leap_position. lia.
Qed.

Lemma week_mono d i days t d' i' days' t' :
  valid_date d -> valid_date d' ->
  mk_timestep d i days = Some t -> mk_timestep d' i' days' = Some t' ->
  yr d = yr d' -> day_number d <= day_number d' -> ts_week_index t <= ts_week_index t'.
Proof.
  intros Hv Hv' H H' Hy Hd. rewrite (mk_timestep_week _ _ _ _ Hv H), (mk_timestep_week _ _ _ _ Hv' H').
  pose proof (leap_position_mono d d' Hv Hv' Hy Hd). lia.
Qed.

Lemma week_blocks d i days t k :
  valid_date d -> mk_timestep d i days = Some t -> 0 <= k <= 51 ->
  (ts_week_index t = k <->
   7 * k <= ts_dayofyear_index t /\ (k < 51 -> ts_dayofyear_index t < 7 * k + 7)).
Proof.
  intros Hv H Hk. rewrite (mk_timestep_week _ _ _ _ Hv H), (mk_timestep_index _ _ _ _ Hv H).
  destruct Hv as [Hm Hd]. pose proof (leap_position_range _ _ _ Hm Hd). lia.
Qed.
