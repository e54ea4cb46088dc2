(** C97: daily, weekly and interpolated annual profiles. *)
From Verif Require Import Base Calendar_spec Calendar_model Ring Profiles_model Rbf_model Rbf_spec Rbf_proofs.
Local Open Scope Q_scope.
Local Open Scope list_scope.

(** C97: a daily profile needs 366 values; on a date it gives the entry at the position of month and day in a leap year, so
    the 60th entry is the one of 29 February and every other day has the same value each year. *)
Theorem C97_daily : forall values,
  (daily_init values <> None <-> length values = 366%nat) /\
  forall stored, daily_init values = Some stored -> forall d, valid_date d ->
    exists v, daily_value stored d = Some v /\ nth_error values (Z.to_nat (leap_position (mon d) (dom d))) = Some v.
Proof.
  intros values. unfold daily_init. destruct (Nat.eqb_spec (length values) 366) as [E|E].
  - split; [split; [intros _; exact E|discriminate]|]. intros stored H. apply (f_equal (fun o => match o with Some x => x | None => [] end)) in H. cbn in H. subst stored.
    intros d V. rewrite (daily_value_position _ d V). pose proof (position_range d V) as R.
    destruct (nth_error values (Z.to_nat (leap_position (mon d) (dom d)))) as [v|] eqn:N; [now exists v|].
    apply nth_error_None in N. lia.
  - split; [split; [congruence|contradiction]|]. discriminate.
Qed.
Print Assumptions C97_daily.

(** C97: a weekly profile needs 52 or 53 values; the first seven days of the (leap) year have the first, and so on, and the
    52nd lasts until 31 December: a 53rd value is never used. *)
Theorem C97_weekly : forall values,
  (weekly_init values <> None <-> length values = 52%nat \/ length values = 53%nat) /\
  forall stored, weekly_init values = Some stored -> forall d, valid_date d ->
    exists v, weekly_value stored d = Some v /\
      nth_error (firstn 52 values) (Z.to_nat (Z.min 51 (leap_position (mon d) (dom d) / 7))) = Some v.
Proof.
  intros values. unfold weekly_init.
  assert (L : Nat.eqb (length (if Nat.eqb (length values) 53 then firstn 52 values else values)) 52 = true <->
              length values = 52%nat \/ length values = 53%nat).
  { rewrite Nat.eqb_eq. destruct (Nat.eqb_spec (length values) 53) as [E|E]; [rewrite firstn_length; lia|lia]. }
  destruct (Nat.eqb (length (if Nat.eqb (length values) 53 then firstn 52 values else values)) 52).
  - pose proof (proj1 L eq_refl) as L'. split; [split; [intros _; exact L'|discriminate]|]. intros stored H.
    apply (f_equal (fun o => match o with Some x => x | None => [] end)) in H. cbn in H. subst stored.
    intros d V. rewrite (weekly_value_position _ d V). set (k := Z.to_nat (Z.min 51 (leap_position (mon d) (dom d) / 7))).
    assert (K : (k < 52)%nat).
    { unfold k. pose proof (position_range d V) as R. pose proof (Z.div_pos (leap_position (mon d) (dom d)) 7 ltac:(lia) ltac:(lia)). lia. }
    destruct (nth_error values k) as [v|] eqn:N; [|apply nth_error_None in N; lia].
    exists v. split; [reflexivity|]. rewrite <- (firstn_skipn 52 values) in N.
    rewrite nth_error_app1 in N; [exact N|]. rewrite firstn_length. lia.
  - split; [split; [congruence|intros H; apply L in H; discriminate]|]. discriminate.
Qed.
Print Assumptions C97_weekly.

(** C97: which interpolated profiles can be made without variable days. *)
Theorem C97_accepted : forall days values lo hi,
  rbf_init days values lo hi NoBounds <> None <-> length days = length values /\ good_days days.
Proof.
  intros days values lo hi. unfold rbf_init. destruct (Nat.eqb_spec (length days) (length values)) as [E|E]; cbn [negb].
  2: { split; [congruence|]. intros [H _]. contradiction. }
  destruct (set_days days) as [r|] eqn:D.
  - apply set_days_spec in D as [-> G]. split; [intros _; split; assumption|discriminate].
  - split; [congruence|]. intros [_ G]. enough (set_days days = Some days) by congruence. now apply set_days_spec.
Qed.
Print Assumptions C97_accepted.

(** What a profile holds after any creation. *)
Lemma rbf_init_inv days values lo hi b p : rbf_init days values lo hi b = Some p ->
  length days = length values /\ good_days days /\ b_days p = days /\ b_values p = values /\ b_min p = lo /\ b_max p = hi /\
  bounds_init b days = Some (b_lower p, b_upper p).
Proof.
  unfold rbf_init. destruct (Nat.eqb_spec (length days) (length values)) as [E|E]; cbn [negb]; [|discriminate].
  destruct (set_days days) as [r|] eqn:D; [|discriminate]. apply set_days_spec in D as [-> G].
  destruct (bounds_init b days) as [[l u]|]; [|discriminate]. intros H.
  apply (f_equal (fun o => match o with Some x => x | None => p end)) in H. cbv beta iota in H. subst p.
  cbn [b_days b_values b_min b_max b_lower b_upper]. auto 10.
Qed.

(** C97: the points handed to the interpolation come at later and later days, and repeat the given ones with a period of
    365 days. *)
Theorem C97_points : forall days values lo hi b p, rbf_init days values lo hi b = Some p ->
  let xs := rbf_x (b_days p) in let ys := rbf_y (b_values p) in
  length xs = length ys /\
  (forall i j a c, (i < j)%nat -> nth_error xs i = Some a -> nth_error xs j = Some c -> (a < c)%Z) /\
  (forall i x y, nth_error xs i = Some x -> nth_error ys i = Some y ->
     exists j k d, nth_error days j = Some d /\ nth_error values j = Some y /\ (x = d + 365 * k)%Z) /\
  (forall j d y, nth_error days j = Some d -> nth_error values j = Some y ->
     exists i, nth_error xs i = Some d /\ nth_error ys i = Some y).
Proof.
  intros days values lo hi b p H. apply rbf_init_inv in H as [L [G [-> [-> _]]]]. cbv zeta.
  assert (LX : length (rbf_x days) = (length days + 3)%nat) by (unfold rbf_x; cbn [length]; rewrite app_length; cbn [length]; lia).
  assert (LY : length (rbf_y values) = (length values + 3)%nat) by (unfold rbf_y; cbn [length]; rewrite app_length; cbn [length]; lia).
  assert (L3 : (3 <= length days)%nat) by apply G.
  split; [congruence|]. split; [|split].
  - intros i j a c LT A C. pose proof (rbf_x_apart days G i j a c LT A C). lia.
  - intros i x y X Y. destruct i as [|i].
    + cbn in X, Y. injection X as <-. injection Y as <-. exists (length days - 1)%nat, (-1)%Z, (last days 0%Z).
      split; [apply last_nth_error; intros ->; cbn in L3; lia|]. split; [rewrite L; apply last_nth_error; intros ->; cbn in L; lia|lia].
    + destruct (Nat.lt_ge_cases i (length days)) as [C|C].
      * rewrite rbf_x_nth in X by exact C. rewrite rbf_y_nth in Y by lia. exists i, 0%Z, x. repeat split; [exact X|exact Y|lia].
      * unfold rbf_x, rbf_y in X, Y. cbn [nth_error] in X, Y. rewrite nth_error_app2 in X, Y by lia. rewrite <- L in Y.
        destruct (i - length days)%nat as [|[|k]]; cbn [nth_error] in X, Y.
        -- injection X as <-. injection Y as <-. exists 0%nat, 1%Z, 1%Z. split; [apply G|]. split; [apply nth_error_nth'; lia|lia].
        -- apply (f_equal (fun o => match o with Some x => x | None => 0%Z end)) in X. cbv beta iota in X. subst x. injection Y as <-.
           exists 1%nat, 1%Z, (nth 1 days 0%Z). split; [apply nth_error_nth'; lia|]. split; [apply nth_error_nth'; lia|lia].
        -- destruct k; discriminate X.
  - intros j d y D Y. assert (j < length days)%nat by (apply nth_error_Some; congruence). exists (S j).
    rewrite rbf_x_nth, rbf_y_nth by lia. auto.
Qed.
Print Assumptions C97_points.

(** C97: after a reset every date has a value; if the interpolation goes through its points, then on each of the given days
    that is the given value, limited to the smallest and largest allowed one. *)
Theorem C97_given_days : forall fit days values lo hi b p d j day v,
  rbf_init days values lo hi b = Some p -> valid_date d ->
  (forall xs ys i x y, xs = rbf_x days -> ys = rbf_y values ->
     nth_error xs i = Some x -> nth_error ys i = Some y -> fit xs ys x == y) ->
  nth_error days j = Some day -> nth_error values j = Some v -> common_day d = day ->
  exists w, rbf_value (rbf_reset fit p) d = Some w /\
    ((forall h, hi = Some h -> v <= h) -> (forall l, lo = Some l -> l <= v) -> w == v) /\
    ((forall l h, lo = Some l -> hi = Some h -> l <= h) -> (forall h, hi = Some h -> h <= v -> w == h) /\ (forall l, lo = Some l -> v <= l -> w == l)).
Proof.
  intros fit days values lo hi b p d j day v H V F D Y C.
  destruct (C97_points _ _ _ _ _ _ H) as [_ [_ [_ P]]]. apply rbf_init_inv in H as [L [G [ED [EV [El [Eh _]]]]]].
  rewrite ED, EV in P. destruct (P j day v D Y) as [i [PX PY]]. specialize (F _ _ i day v eq_refl eq_refl PX PY).
  rewrite (rbf_value_common fit p d V), ED, EV, El, Eh, C. eexists. split; [reflexivity|].
  set (q := fit (rbf_x days) (rbf_y values) day) in *. clearbody q. unfold clamp. split.
  - intros B1 B2. destruct lo as [l|], hi as [h|]; try specialize (B1 _ eq_refl); try specialize (B2 _ eq_refl); qmm.
  - intros B. split.
    + intros h -> B1. destruct lo as [l|]; [specialize (B _ _ eq_refl eq_refl)|]; qmm.
    + intros l -> B1. destruct hi as [h|]; [specialize (B _ _ eq_refl eq_refl)|]; qmm.
Qed.
Print Assumptions C97_given_days.

(** C97: whatever the interpolation gives, all values lie between the two limits. *)
Theorem C97_limits : forall fit days values lo hi b p d,
  rbf_init days values lo hi b = Some p -> valid_date d ->
  exists w, rbf_value (rbf_reset fit p) d = Some w /\
    (forall l, lo = Some l -> l <= w) /\
    ((forall l h, lo = Some l -> hi = Some h -> l <= h) -> forall h, hi = Some h -> w <= h).
Proof.
  intros fit days values lo hi b p d H V. apply rbf_init_inv in H as [_ [_ [_ [_ [El [Eh _]]]]]].
  rewrite (rbf_value_common fit p d V), El, Eh. eexists. split; [reflexivity|].
  set (q := fit _ _ _). clearbody q. unfold clamp. split.
  - intros l ->. destruct hi; qmm.
  - intros B h ->. destruct lo as [l|]; [specialize (B _ _ eq_refl eq_refl)|]; qmm.
Qed.
Print Assumptions C97_limits.

(** C97: the profile is the same every year, and on 29 February as on the 28th. *)
Theorem C97_same_every_year : forall fit p d e, valid_date d -> valid_date e -> common_day d = common_day e ->
  rbf_value (rbf_reset fit p) d = rbf_value (rbf_reset fit p) e.
Proof. intros fit p d e V W E. now rewrite !rbf_value_common, E by assumption. Qed.
Print Assumptions C97_same_every_year.

Example C97_common_days : common_day (Date 2015 2 28) = 59%Z /\ common_day (Date 2016 2 29) = 59%Z /\
  common_day (Date 2016 3 1) = 60%Z /\ common_day (Date 2015 3 1) = 60%Z /\ common_day (Date 2016 12 31) = 365%Z.
Proof. repeat split. Qed.

(** C97: new values or days count from the next reset on. *)
Theorem C97_variables : forall p values days q r,
  (rbf_set_values p values = Some q -> b_values q = values /\ b_days q = b_days p /\ b_interp q = b_interp p) /\
  (rbf_set_days p days = Some r -> rbf_get_days r = days /\ b_values r = b_values p /\ b_interp r = b_interp p /\ good_days (b_days r)).
Proof.
  intros p values days q r. split.
  - unfold rbf_set_values. destruct (Nat.eqb (length values) (length (b_values p))); [|discriminate]. intros H. injection H as <-. repeat split.
  - unfold rbf_set_days. destruct (set_days (1%Z :: days)) as [ds|] eqn:E; [|discriminate]. apply set_days_spec in E as [-> G].
    intros H. injection H as <-. split; [reflexivity|]. split; [reflexivity|]. split; [reflexivity|exact G].
Qed.
Print Assumptions C97_variables.

(** C97: with explicit bounds, one pair for each day after the first, any days within them are accepted. *)
Theorem C97_explicit_bounds : forall days values lo hi lower upper p new,
  rbf_init days values lo hi (Explicit lower upper) = Some p ->
  length lower = length upper -> length new = b_size p -> within (b_lower p) (b_upper p) new ->
  exists q, rbf_set_days p new = Some q /\ b_days q = 1%Z :: new.
Proof.
  intros days values lo hi lower upper p new H L N W. pose proof H as H'.
  apply rbf_init_inv in H as [LV [G [ED [EV [El [Eh B]]]]]]. apply explicit_spec in B as [E1 [E2 [B1 [B2 B3]]]].
  assert (S3 : b_size p = (length values - 1)%nat).
  { revert H'. unfold rbf_init. destruct (negb _); [discriminate|]. destruct (set_days days); [|discriminate].
    destruct (bounds_init _ _) as [[a c]|]; [|discriminate]. intros H. injection H as <-. reflexivity. }
  assert (GD : good_days (1%Z :: new)).
  { rewrite E1, E2 in W. apply (between_good lower upper new); [|exact W|exact B1|exact B2|exact (B3 L)]. destruct G as [_ [G _]]. lia. }
  unfold rbf_set_days. rewrite (proj2 (set_days_spec (1%Z :: new) (1%Z :: new)) (conj eq_refl GD)). eexists. split; reflexivity.
Qed.
Print Assumptions C97_explicit_bounds.

(** C97: with a range of movement, any days within it are accepted, provided the last day cannot leave the year. *)
Theorem C97_range : forall days values lo hi r p new,
  rbf_init days values lo hi (Range r) = Some p -> (0 < r)%Z -> (forall d, In d days -> d + r <= 365)%Z ->
  within (b_lower p) (b_upper p) new ->
  exists q, rbf_set_days p new = Some q /\ b_days q = 1%Z :: new.
Proof.
  intros days values lo hi r p new H Hr Last W. apply rbf_init_inv in H as [LV [G [ED [EV [El [Eh B]]]]]].
  cbn [bounds_init] in B. destruct (Z.ltb_spec 0 r) as [_|C]; [|lia].
  destruct (existsb (fun x => x <=? 2 * r)%Z (diffs days)) eqn:A; [discriminate|]. apply (proj1 (diffs_apart (2 * r) _ ltac:(lia))) in A.
  injection B as B1 B2. rewrite <- B1, <- B2 in W.
  destruct days as [|d0 t]; [destruct G as [G _]; discriminate G|]. cbn [tl] in W.
  assert (E0 : d0 = 1%Z) by (destruct G as [G _]; cbn in G; now injection G). subst d0.
  assert (T : (2 <= length t)%nat) by (destruct G as [_ [G _]]; cbn [length] in G; lia).
  assert (GD : good_days (1%Z :: new)).
  { apply (between_good (map (fun d => (d - r)%Z) t) (map (fun d => (d + r)%Z) t) new); [|exact W| | |].
    - destruct W as [W _]. rewrite map_length in W. lia.
    - intros x I. apply in_map_iff in I as [d [<- I]]. apply In_nth_error in I as [i I].
      pose proof (A 0%nat (S i) 1%Z d ltac:(lia) eq_refl I). lia.
    - intros x I. apply in_map_iff in I as [d [<- I]]. apply Last. now right.
    - intros i x y X Y. rewrite nth_error_map in X, Y.
      destruct (nth_error t i) as [a|] eqn:EA; [|discriminate X]. destruct (nth_error t (S i)) as [c|] eqn:EC; [|discriminate Y].
      cbn in X, Y. injection X as <-. injection Y as <-. pose proof (A (S i) (S (S i)) a c ltac:(lia) EA EC). lia. }
  unfold rbf_set_days. rewrite (proj2 (set_days_spec (1%Z :: new) (1%Z :: new)) (conj eq_refl GD)). eexists. split; reflexivity.
Qed.
Print Assumptions C97_range.

(** C97, refuted: a range of movement can carry the last day past the end of the year; such a day, within the bounds handed
    to the optimiser, is refused. *)
Theorem C97_range_refuted : exists days values r p new,
  rbf_init days values None None (Range r) = Some p /\ within (b_lower p) (b_upper p) new /\ rbf_set_days p new = None.
Proof.
  exists [1; 100; 360]%Z, [10; 20; 30], 10%Z, (Rbf [1; 100; 360]%Z [10; 20; 30] None None [90; 350]%Z [110; 370]%Z 2 []), [100; 366]%Z.
  split; [reflexivity|]. split; [|reflexivity]. split; [reflexivity|]. split; [reflexivity|].
  intros [|[|i]] v l u V L U; cbn in V, L, U; [injection V as <-; injection L as <-; injection U as <-; lia..|destruct i; discriminate V].
Qed.
Print Assumptions C97_range_refuted.

(** C97, refuted: the number of explicit bounds need not be the number of days to be varied. *)
Theorem C97_bounds_count_refuted : exists days values lower upper p,
  rbf_init days values None None (Explicit lower upper) = Some p /\ b_size p = 3%nat /\ length (b_lower p) = 1%nat.
Proof.
  exists [1; 100; 200; 300]%Z, [10; 20; 30; 20], [50]%Z, [60]%Z. eexists. split; [reflexivity|]. split; reflexivity.
Qed.
Print Assumptions C97_bounds_count_refuted.

(** A profile through three points, interpolated by straight lines. *)
Definition lines (xs : list Z) (ys : list Q) (x : Z) : Q := np_interp x xs ys.
Example C97_example :
  match rbf_init [1; 101; 301]%Z [10; 20; 40] None (Some 30) (Range 20) with
  | Some p => map (fun d => option_map Qred (rbf_value (rbf_reset lines p) d)) [Date 2015 1 1; Date 2016 1 1; Date 2015 2 20; Date 2016 2 29; Date 2015 4 11; Date 2015 12 1; Date 2015 10 28]
              = [Some 10; Some 10; Some 15; Some (79 # 5); Some 20; Some (316 # 13); Some 30] /\
              b_lower p = [81; 281]%Z /\ b_upper p = [121; 321]%Z /\ b_size p = 2%nat
  | None => False
  end.
Proof. vm_compute. auto. Qed.
