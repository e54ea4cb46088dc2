(** Lemmas on annual profiles. *)
From Verif Require Import Base Calendar_spec Calendar_model Calendar_proofs Ring Periodic_model Periodic_spec Periodic_proofs Profiles_model.
Local Open Scope Z_scope.

(** ** Positions in the year *)
Definition day_index (d : date) : Z := dayofyear_index (is_leap_year (yr d)) (day_of_year d).

Lemma day_index_position d : valid_date d -> day_index d = leap_position (mon d) (dom d).
Proof.
  intros [Hm Hd]. unfold day_index, day_of_year. rewrite is_leap_year_gleapb. now apply dayofyear_index_position.
Qed.

Lemma day_number_position d : valid_date d ->
  day_number d = jan1 (yr d) + day_index d - (if gleapb (yr d) then 0 else if 59 <? day_index d then 1 else 0) /\
  (gleapb (yr d) = false -> day_index d <> 59) /\ 0 <= day_index d <= 365.
Proof.
  intros V. pose proof (day_of_year_range d V) as R. rewrite (day_index_position d V). destruct V as [Hm Hd].
  pose proof (leap_position_range _ _ _ Hm Hd) as P.
  pose proof (dayofyear_index_position _ _ _ Hm Hd) as E.
  unfold day_number, day_of_year in *. set (doy := days_before (gleapb (yr d)) (mon d) + dom d) in *. clearbody doy.
  unfold dayofyear_index in E. destruct (gleapb (yr d)); cbn [negb] in E.
  - split; [lia|]. split; [discriminate|lia].
  - destruct (Z.ltb_spec 58 (doy - 1)) in E; destruct (Z.ltb_spec 59 (leap_position (mon d) (dom d))); split; try lia; split; intros; lia.
Qed.

Lemma every_year_valid y m d : every_year (m, d) -> valid_date (Date y m d).
Proof.
  intros [H1 H2]. cbn [fst snd] in *. split; cbn [mon dom yr]; [exact H1|].
  pose proof (month_days_leap (gleapb y) m H1). lia.
Qed.

Lemma reset_idoy_position m d : reset_idoy m d = leap_position m d.
Proof. unfold reset_idoy, leap_position, day_of_year. cbn [yr mon dom]. change (gleapb 2016) with true. reflexivity. Qed.

Lemma early_late m d : every_year (m, d) -> (m <= 2 -> leap_position m d <= 58) /\ (3 <= m -> 60 <= leap_position m d).
Proof.
  intros [H1 H2]. cbn [fst snd] in *. unfold leap_position. months H1; cal; lia.
Qed.

Lemma year_between d y m r : valid_date d -> every_year (m, r) ->
  day_number (Date y m r) <= day_number d < day_number (Date (y + 1) m r) -> yr d = y \/ yr d = y + 1.
Proof.
  intros V E [H1 H2].
  pose proof (day_of_year_range d V) as R. pose proof (day_of_year_range _ (every_year_valid y m r E)) as R1.
  pose proof (day_of_year_range _ (every_year_valid (y + 1) m r E)) as R2.
  pose proof (jan1_succ (yr d)) as J. pose proof (jan1_succ (y + 1)) as J2. cbn [yr] in *.
  unfold day_number in *. cbn [yr] in *.
  destruct (Z.lt_trichotomy (yr d) y) as [L|[L|L]]; [|now left|].
  - pose proof (jan1_strict (yr d) y L). lia.
  - destruct (Z.eq_dec (yr d) (y + 1)) as [L'|L']; [now right|].
    pose proof (jan1_strict (y + 1) (yr d) ltac:(lia)). lia.
Qed.

(** Days since the last reset and days between the resets, as the code has them. *)
Lemma drawdown_days_spec rm rd d y : every_year (rm, rd) -> valid_date d ->
  day_number (Date y rm rd) <= day_number d < day_number (Date (y + 1) rm rd) ->
  drawdown_days rm rd d =
  (day_number d - day_number (Date y rm rd) +
     (if (rm <=? 2) && negb (gleapb y) && (day_number (Date y 3 1) <=? day_number d) then 1 else 0),
   day_number (Date (y + 1) rm rd) - day_number (Date y rm rd)).
Proof.
  intros E V H. pose proof (year_between d y rm rd V E H) as Y.
  destruct (early_late rm rd E) as [E1 E2].
  pose proof (day_number_position d V) as [P1 [P2 P3]].
  pose proof (day_number_position _ (every_year_valid y rm rd E)) as [A1 [A2 A3]].
  pose proof (day_number_position _ (every_year_valid (y + 1) rm rd E)) as [B1 [B2 B3]].
  assert (every_year (3, 1)) as E31 by (split; cbn; lia).
  pose proof (day_number_position _ (every_year_valid y 3 1 E31)) as [C1 [C2 C3]].
  rewrite (day_index_position _ (every_year_valid y rm rd E)) in *.
  rewrite (day_index_position _ (every_year_valid (y + 1) rm rd E)) in *.
  rewrite (day_index_position _ (every_year_valid y 3 1 E31)) in *.
  cbn [mon dom yr] in *. change (leap_position 3 1) with 60 in *. change (59 <? 60) with true in C1.
  unfold drawdown_days. fold (day_index d). rewrite reset_idoy_position, !is_leap_year_gleapb. cbv zeta.
  set (q := leap_position rm rd) in *. set (p := day_index d) in *. clearbody p q.
  pose proof (jan1_succ y) as J1. pose proof (jan1_succ (y + 1)) as J2. unfold year_days in J1, J2.
  set (dn := day_number d) in *. set (dl := day_number (Date y rm rd)) in *. set (dx := day_number (Date (y + 1) rm rd)) in *.
  set (dm := day_number (Date y 3 1)) in *. clearbody dn dl dx dm.
  set (j0 := jan1 y) in *. set (j1 := jan1 (y + 1)) in *. set (j2 := jan1 (y + 1 + 1)) in *.
  assert (rm <= 2 \/ 3 <= rm) as RM by lia.
  destruct Y as [Y|Y]; rewrite Y in *; fold j0 j1 in P1; clearbody j0 j1 j2.
  - destruct RM as [RM|RM]; [specialize (E1 RM)|specialize (E2 RM)]; clear V E Y E31;
    destruct (gleapb y) eqn:G0, (gleapb (y + 1)) eqn:G1; try specialize (P2 eq_refl); try specialize (A2 eq_refl); try specialize (B2 eq_refl);
    destruct (Z.leb_spec rm 2); try lia; cbn [negb andb];
    destruct (Z.ltb_spec 59 q); try lia; destruct (Z.ltb_spec (p - q) 0);
    destruct (Z.ltb_spec 59 p); try (exfalso; lia); rewrite ?G0, ?G1; cbn [negb andb]; try destruct (Z.leb_spec dm dn); try (exfalso; lia); f_equal; lia.
  - replace (y + 1 - 1) with y by lia.
    destruct RM as [RM|RM]; [specialize (E1 RM)|specialize (E2 RM)]; clear V E Y E31;
    destruct (gleapb y) eqn:G0, (gleapb (y + 1)) eqn:G1; try specialize (P2 eq_refl); try specialize (A2 eq_refl); try specialize (B2 eq_refl);
    destruct (Z.leb_spec rm 2); try lia; cbn [negb andb];
    destruct (Z.ltb_spec 59 q); try lia; destruct (Z.ltb_spec (p - q) 0);
    destruct (Z.ltb_spec 59 p); try (exfalso; lia); rewrite ?G0, ?G1; cbn [negb andb]; try destruct (Z.leb_spec dm dn); try (exfalso; lia); f_equal; lia.
Qed.

Lemma reset_gap rm rd y : every_year (rm, rd) ->
  365 <= day_number (Date (y + 1) rm rd) - day_number (Date y rm rd) <= 366.
Proof.
  intros E. destruct (early_late rm rd E) as [E1 E2].
  pose proof (day_number_position _ (every_year_valid y rm rd E)) as [A1 [A2 A3]].
  pose proof (day_number_position _ (every_year_valid (y + 1) rm rd E)) as [B1 [B2 B3]].
  rewrite (day_index_position _ (every_year_valid y rm rd E)) in *.
  rewrite (day_index_position _ (every_year_valid (y + 1) rm rd E)) in *. cbn [mon dom yr] in *.
  pose proof (jan1_succ y) as J1. unfold year_days in J1.
  destruct E as [E _]. cbn [fst] in E. assert (rm <= 2 \/ 3 <= rm) as [RM|RM] by lia; [specialize (E1 RM)|specialize (E2 RM)];
  destruct (gleapb y), (gleapb (y + 1)); destruct (Z.ltb_spec 59 (leap_position rm rd)); lia.
Qed.

(** ** The interpolated monthly profile *)
Definition src (i : nat) : nat := if Nat.leb i 58 then i else i - 1.

Lemma spread_inv f : forall n, (n <= 365)%nat -> length (fold_left (spread f) (seq 0 n) (repeat 0%Q 366)) = 366%nat /\
  forall i, (i < 366)%nat -> (src i < n)%nat -> nth i (fold_left (spread f) (seq 0 n) (repeat 0%Q 366)) 0%Q = f (src i).
Proof.
  induction n as [|n IH]; intros Hn.
  - split; [reflexivity|]. intros i _ H. lia.
  - destruct (IH ltac:(lia)) as [L IH']. rewrite seq_S, fold_left_app. cbn [fold_left plus].
    set (t := fold_left (spread f) (seq 0 n) (repeat 0%Q 366)) in *. clearbody t.
    unfold spread. destruct (Nat.ltb_spec n 58) as [A|A]; [|destruct (Nat.eqb_spec n 58) as [B|B]; [|destruct (Nat.ltb_spec 58 n) as [C|C]; [|lia]]].
    + split; [now rewrite upd_length|]. intros i Hi Hs. rewrite nth_upd by lia. destruct (Nat.eqb_spec i n) as [->|N].
      * unfold src. destruct (Nat.leb_spec n 58); [reflexivity|lia].
      * apply IH'; [exact Hi|]. unfold src in *. destruct (Nat.leb_spec i 58); lia.
    + subst n. split; [now rewrite !upd_length|]. intros i Hi Hs.
      rewrite nth_upd by (rewrite upd_length; lia). destruct (Nat.eqb_spec i (58 + 1)) as [->|N]; [reflexivity|].
      rewrite nth_upd by lia. destruct (Nat.eqb_spec i 58) as [->|N']; [reflexivity|].
      apply IH'; [exact Hi|]. unfold src in *. destruct (Nat.leb_spec i 58); lia.
    + split; [now rewrite upd_length|]. intros i Hi Hs. rewrite nth_upd by lia. destruct (Nat.eqb_spec i (n + 1)) as [->|N].
      * unfold src. destruct (Nat.leb_spec (n + 1) 58); [lia|]. f_equal. lia.
      * apply IH'; [exact Hi|]. unfold src in *. destruct (Nat.leb_spec i 58); lia.
Qed.

Lemma interp_values_nth day values i : (i < 366)%nat -> nth i (interp_values day values) 0%Q = interp_365 day values (src i).
Proof.
  intros H. unfold interp_values. destruct (spread_inv (interp_365 day values) 365 ltac:(lia)) as [_ S].
  apply S; [exact H|]. unfold src. destruct (Nat.leb_spec i 58); lia.
Qed.

Lemma interp_values_length day values : length (interp_values day values) = 366%nat.
Proof. unfold interp_values. now destruct (spread_inv (interp_365 day values) 365 ltac:(lia)) as [L _]. Qed.

Lemma src_position m d leap : 1 <= m <= 12 -> 1 <= d <= month_days leap m ->
  Z.of_nat (src (Z.to_nat (leap_position m d))) + 1 = days_before false m + Z.min d (month_days false m).
Proof.
  intros Hm Hd. unfold src, leap_position. months Hm; destruct leap; cal;
  match goal with |- context [Nat.leb ?a ?b] => destruct (Nat.leb_spec a b) end; lia.
Qed.

Lemma monthly_value_query day values d : valid_date d ->
  monthly_value (Some day) values d =
  np_interp (days_before false (mon d) + Z.min (dom d) (month_days false (mon d))) (knots_x (knots_start day)) (knots_y day values).
Proof.
  intros V. unfold monthly_value. fold (day_index d). rewrite (day_index_position d V). destruct V as [Hm Hd].
  pose proof (leap_position_range _ _ _ Hm Hd) as R.
  rewrite interp_values_nth by lia. unfold interp_365. now rewrite (src_position _ _ _ Hm Hd).
Qed.

Lemma knots_first : knots_x (knots_start First) = [1; 32; 60; 91; 121; 152; 182; 213; 244; 274; 305; 335; 366].
Proof. reflexivity. Qed.
Lemma knots_last : knots_x (knots_start Last) = [0; 31; 59; 90; 120; 151; 181; 212; 243; 273; 304; 334; 365].
Proof. reflexivity. Qed.

Lemma line_form (x L x0 x1 k : Z) (y0 y1 : Q) : x1 - x0 = L -> x - x0 = k -> 
  ((y1 - y0) / inject_Z (x1 - x0) * inject_Z (x - x0) + y0 == y0 + (y1 - y0) * (inject_Z k / inject_Z L))%Q.
Proof. intros -> ->. unfold Qdiv. ring. Qed.

Ltac walk q :=
  repeat match goal with |- context [if (q <? ?c) then _ else _] => destruct (Z.ltb_spec q c); [try (exfalso; lia)|try (exfalso; lia)] end.
Ltac indices :=
  repeat match goal with |- context [Z.to_nat ?a] => let v := eval vm_compute in (Z.to_nat a) in progress change (Z.to_nat a) with v end;
  cbn [nth].

Lemma interp_first values m k : length values = 12%nat -> 1 <= m <= 12 -> 1 <= k <= month_days false m ->
  (np_interp (days_before false m + k) (knots_x (knots_start First)) (knots_y First values) ==
   nth (Z.to_nat (m - 1)) values 0 +
   (nth (Z.to_nat (m mod 12)) values 0 - nth (Z.to_nat (m - 1)) values 0) * (inject_Z (k - 1) / inject_Z (month_days false m)))%Q.
Proof.
  intros Hl Hm Hk. rewrite knots_first.
  do 12 (destruct values as [|? values]; [discriminate|]). destruct values; [|discriminate].
  cbn [knots_y map seq nth app].
  months Hm; cal; indices; match goal with |- context [np_interp ?z _ _] => remember z as z0 eqn:Ez end; cbn [np_interp]; walk z0;
    apply line_form; lia.
Qed.

Lemma last_day (y0 y1 : Q) (x0 x1 x : Z) : x = x0 ->
  ((y1 - y0) / inject_Z (x1 - x0) * inject_Z (x - x0) + y0 == y0)%Q.
Proof. intros ->. rewrite Z.sub_diag. change (inject_Z 0) with 0%Q. ring. Qed.

Lemma full_day (y0 y1 : Q) k L : k = L -> 0 < L -> (y1 == y0 + (y1 - y0) * (inject_Z k / inject_Z L))%Q.
Proof.
  intros -> H. assert (~ inject_Z L == 0)%Q by (unfold Qeq, inject_Z; cbn; lia). field. assumption.
Qed.

Lemma interp_last values m k : length values = 12%nat -> 1 <= m <= 12 -> 1 <= k <= month_days false m ->
  (np_interp (days_before false m + k) (knots_x (knots_start Last)) (knots_y Last values) ==
   nth (Z.to_nat ((m + 10) mod 12)) values 0 +
   (nth (Z.to_nat (m - 1)) values 0 - nth (Z.to_nat ((m + 10) mod 12)) values 0) * (inject_Z k / inject_Z (month_days false m)))%Q.
Proof.
  intros Hl Hm Hk. rewrite knots_last.
  do 12 (destruct values as [|? values]; [discriminate|]). destruct values; [|discriminate].
  cbn [knots_y map seq nth app].
  months Hm; cal; indices; match goal with |- context [np_interp ?z _ _] => remember z as z0 eqn:Ez end; cbn [np_interp]; walk z0;
    first [ apply line_form; lia
          | match goal with |- (_ == ?a + (?b - ?a) * (inject_Z ?k / inject_Z ?L))%Q =>
              rewrite <- (full_day a b k L ltac:(lia) ltac:(lia)) end;
            first [reflexivity | apply last_day; lia] ].
Qed.
