(** Annual profiles: C43, C44. *)
From Verif Require Import Base Calendar_spec Calendar_model Calendar_proofs Periodic_spec Profiles_model Profiles_proofs.
Local Open Scope Q_scope.

(** ** C43: uniform drawdown.  [y] is the year of the last reset, [into] the days since then, [total] the days from that
    reset to the next; [every_year] excludes 29 February as reset day. *)

Lemma drawdown_value rm rd residual d into total : drawdown_days rm rd d = (into, total) -> (0 < total)%Z ->
  drawdown rm rd residual d == 1 - (1 - inject_Z residual / inject_Z total) * (inject_Z into / inject_Z total).
Proof.
  intros E H. unfold drawdown. rewrite E. assert (~ inject_Z total == 0) by (unfold Qeq, inject_Z; cbn; lia). field. assumption.
Qed.

(** Reset day from 1 March on: 1 on the reset day, then the same amount less every day, such that the value would reach
    the residual on the next reset day. *)
Theorem C43_linear_from_reset : forall rm rd residual d y, every_year (rm, rd) -> (3 <= rm)%Z -> valid_date d ->
  let last := day_number (Date y rm rd) in let next := day_number (Date (y + 1) rm rd) in
  (last <= day_number d < next)%Z ->
  drawdown rm rd residual d ==
    1 - (1 - inject_Z residual / inject_Z (next - last)) * (inject_Z (day_number d - last) / inject_Z (next - last)).
Proof.
  intros rm rd residual d y E R V last next H. apply drawdown_value; [|pose proof (reset_gap rm rd y E); unfold last, next; lia].
  rewrite (drawdown_days_spec rm rd d y E V H). unfold last, next. destruct (Z.leb_spec rm 2); [lia|]. cbn [andb]. f_equal. lia.
Qed.
Print Assumptions C43_linear_from_reset.

(** Reset day in January or February: the same in years with 29 February, and in other years up to 28 February; from
    1 March on the profile is one day ahead. *)
Theorem C43_linear_early_reset_partial : forall rm rd residual d y, every_year (rm, rd) -> (rm <= 2)%Z -> valid_date d ->
  let last := day_number (Date y rm rd) in let next := day_number (Date (y + 1) rm rd) in
  (last <= day_number d < next)%Z ->
  drawdown rm rd residual d ==
    1 - (1 - inject_Z residual / inject_Z (next - last)) *
        (inject_Z (day_number d - last + if gleapb y then 0 else if (day_number (Date y 3 1) <=? day_number d)%Z then 1 else 0)
         / inject_Z (next - last)).
Proof.
  intros rm rd residual d y E R V last next H. apply drawdown_value; [|pose proof (reset_gap rm rd y E); unfold last, next; lia].
  rewrite (drawdown_days_spec rm rd d y E V H). unfold last, next. destruct (Z.leb_spec rm 2); [|lia]. cbn [andb].
  destruct (gleapb y); cbn [negb andb]; [f_equal; lia|]. destruct (day_number (Date y 3 1) <=? day_number d)%Z; reflexivity.
Qed.
Print Assumptions C43_linear_early_reset_partial.

(** Whatever the reset day: never below the residual, never above 1. *)
Theorem C43_between_residual_and_one : forall rm rd residual d y, every_year (rm, rd) -> valid_date d ->
  let last := day_number (Date y rm rd) in let next := day_number (Date (y + 1) rm rd) in
  (last <= day_number d < next)%Z -> (residual <= next - last)%Z ->
  inject_Z residual / inject_Z (next - last) <= drawdown rm rd residual d <= 1.
Proof.
  intros rm rd residual d y E V last next H Hr. pose proof (reset_gap rm rd y E) as G.
  set (into := (day_number d - last +
     (if (rm <=? 2) && negb (gleapb y) && (day_number (Date y 3 1) <=? day_number d) then 1 else 0))%Z).
  assert (drawdown_days rm rd d = (into, (next - last)%Z)) as ED by exact (drawdown_days_spec rm rd d y E V H).
  rewrite (drawdown_value rm rd residual d _ _ ED) by (unfold last, next; lia).
  assert (0 <= into <= next - last)%Z as I by (unfold into; destruct ((rm <=? 2)%Z && _ && _); lia).
  clearbody into. fold last next in G. set (N := (next - last)%Z) in *. clearbody N. clear - G I Hr.
  assert (0 < inject_Z N) as HN by (change 0 with (inject_Z 0); rewrite <- Zlt_Qlt; lia).
  assert (inject_Z into <= inject_Z N) as H1 by (rewrite <- Zle_Qle; lia).
  assert (0 <= inject_Z into) as H2 by (change 0 with (inject_Z 0); rewrite <- Zle_Qle; lia).
  assert (inject_Z residual <= inject_Z N) as H3 by (rewrite <- Zle_Qle; lia).
  assert (inject_Z residual / inject_Z N <= 1) as R by (apply Qle_shift_div_r; lra).
  assert (inject_Z into / inject_Z N <= 1) as I1 by (apply Qle_shift_div_r; lra).
  assert (0 <= inject_Z into / inject_Z N) as I2 by (apply Qle_shift_div_l; lra).
  set (r := inject_Z residual / inject_Z N) in *. set (t := inject_Z into / inject_Z N) in *. clearbody r t.
  assert (0 <= (1 - r) * (1 - t)) by (apply Qmult_le_0_compat; lra).
  assert (0 <= (1 - r) * t) by (apply Qmult_le_0_compat; lra). lra.
Qed.
Print Assumptions C43_between_residual_and_one.

(** Reset on 1 January, no residual, a year without 29 February: on 31 December the profile is already at the residual
    (not a daily step above it), and it falls by two daily steps from 28 February to 1 March. *)
Theorem C43_january_reset_refuted : exists rm rd residual y,
  drawdown rm rd residual (Date y 12 31) == inject_Z residual / 365 /\
  drawdown rm rd residual (Date y 2 28) - drawdown rm rd residual (Date y 3 1) == 2 / 365 /\
  drawdown rm rd residual (Date y 2 27) - drawdown rm rd residual (Date y 2 28) == 1 / 365 /\
  every_year (rm, rd) /\ valid_date (Date y 12 31).
Proof.
  exists 1%Z, 1%Z, 0%Z, 2015%Z. split; [vm_compute; reflexivity|]. split; [vm_compute; reflexivity|].
  split; [vm_compute; reflexivity|]. split; [split; cbn; lia|split; cbn; lia].
Qed.
Print Assumptions C43_january_reset_refuted.

(** A reset on 29 February is accepted; in a year without that day no date has the value 1. *)
Theorem C43_leap_day_reset_refuted : exists rm rd residual y, forall d, valid_date d -> yr d = y ->
  ~ drawdown rm rd residual d == 1.
Proof.
  exists 2%Z, 29%Z, 0%Z, 2015%Z. intros d V Y E.
  assert (valid_date d) as [Hm Hd] by exact V.
  assert (exists into total, drawdown_days 2 29 d = (into, total) /\ (0 < into)%Z /\ (0 < total)%Z) as [into [total [ED [Hi Ht]]]].
  { destruct (day_number_position d V) as [_ [P2 P3]]. rewrite Y in P2. specialize (P2 eq_refl).
    unfold drawdown_days. fold (day_index d). rewrite Y.
    change (reset_idoy 2 29) with 59%Z. cbv zeta. set (p := day_index d) in *. clearbody p. clear V Hm Hd E.
    change (is_leap_year 2015) with false. change (59 <? 59)%Z with false. cbn [negb andb].
    destruct (Z.ltb_spec (p - 59) 0).
    - destruct (Z.ltb_spec 59 p); [lia|]. eexists; eexists. split; [reflexivity|]. split; [lia|reflexivity].
    - eexists; eexists. split; [reflexivity|]. split; [lia|reflexivity]. }
  rewrite (drawdown_value 2 29 0 d into total ED Ht) in E.
  assert (0 < inject_Z total) as HN by (change 0 with (inject_Z 0); rewrite <- Zlt_Qlt; lia).
  assert (0 < inject_Z into) as H1 by (change 0 with (inject_Z 0); rewrite <- Zlt_Qlt; lia).
  assert (0 < inject_Z into / inject_Z total) as G by (apply Qlt_shift_div_l; lra).
  assert (inject_Z 0 / inject_Z total == 0) as Z0 by (unfold Qdiv; change (inject_Z 0) with 0; ring).
  rewrite Z0 in E. lra.
Qed.
Print Assumptions C43_leap_day_reset_refuted.

Example C43_example : Qred (drawdown 4 1 30 (Date 2015 4 1)) = 1 /\ Qred (drawdown 4 1 30 (Date 2016 3 31)) = 943 # 11163.
Proof. split; vm_compute; reflexivity. Qed.

(** ** C44: interpolated monthly profile.  [month_days false] are the month lengths of a year without 29 February; 29
    February has the value of the 28th. *)
Theorem C44_first : forall values d, length values = 12%nat -> valid_date d ->
  let len := month_days false (mon d) in
  let this := nth (Z.to_nat (mon d - 1)) values 0 in
  let next := nth (Z.to_nat (mon d mod 12)) values 0 in
  monthly_value (Some First) values d == this + (next - this) * (inject_Z (Z.min (dom d) len - 1) / inject_Z len).
Proof.
  intros values d Hl V len this next. rewrite (monthly_value_query First values d V). destruct V as [Hm Hd].
  apply interp_first; [exact Hl|exact Hm|].
  assert (28 <= month_days false (mon d))%Z by (apply Periodic_proofs.month_days_pos; exact Hm). lia.
Qed.
Print Assumptions C44_first.

Theorem C44_last : forall values d, length values = 12%nat -> valid_date d ->
  let len := month_days false (mon d) in
  let this := nth (Z.to_nat (mon d - 1)) values 0 in
  let prev := nth (Z.to_nat ((mon d + 10) mod 12)) values 0 in
  monthly_value (Some Last) values d == prev + (this - prev) * (inject_Z (Z.min (dom d) len) / inject_Z len).
Proof.
  intros values d Hl V len this prev. rewrite (monthly_value_query Last values d V). destruct V as [Hm Hd].
  apply interp_last; [exact Hl|exact Hm|].
  assert (28 <= month_days false (mon d))%Z by (apply Periodic_proofs.month_days_pos; exact Hm). lia.
Qed.
Print Assumptions C44_last.

(** The month's own value on the first / last day of every month of every year, no interpolation: all days. *)
Theorem C44_exact_days : forall values d, length values = 12%nat -> valid_date d ->
  (dom d = 1%Z -> monthly_value (Some First) values d == nth (Z.to_nat (mon d - 1)) values 0) /\
  (dom d = month_days (gleapb (yr d)) (mon d) -> monthly_value (Some Last) values d == nth (Z.to_nat (mon d - 1)) values 0) /\
  monthly_value None values d = nth (Z.to_nat (mon d - 1)) values 0.
Proof.
  intros values d Hl V. split; [|split; [|reflexivity]]; intros E.
  - rewrite (C44_first values d Hl V). destruct V as [Hm _].
    assert (28 <= month_days false (mon d))%Z by (apply Periodic_proofs.month_days_pos; exact Hm).
    rewrite E, Z.min_l by lia. change (inject_Z (1 - 1)) with 0. unfold Qdiv. ring.
  - rewrite (C44_last values d Hl V). destruct V as [Hm _].
    pose proof (Periodic_proofs.month_days_leap (gleapb (yr d)) (mon d) Hm).
    assert (28 <= month_days false (mon d))%Z by (apply Periodic_proofs.month_days_pos; exact Hm).
    rewrite Z.min_r by lia.
    assert (~ inject_Z (month_days false (mon d)) == 0) by (unfold Qeq, inject_Z; cbn [Qnum Qden]; lia).
    field. assumption.
Qed.
Print Assumptions C44_exact_days.

Lemma convex_between a b t : 0 <= t <= 1 ->
  (a <= a + (b - a) * t <= b) \/ (b <= a + (b - a) * t <= a).
Proof.
  intros [H1 H2]. destruct (Qlt_le_dec a b) as [L|L].
  - left. assert (0 <= (b - a) * t) by (apply Qmult_le_0_compat; lra).
    assert (0 <= (b - a) * (1 - t)) by (apply Qmult_le_0_compat; lra). lra.
  - right. assert (0 <= (a - b) * t) by (apply Qmult_le_0_compat; lra).
    assert (0 <= (a - b) * (1 - t)) by (apply Qmult_le_0_compat; lra). lra.
Qed.

(** Every other day: between the two months' values. *)
Theorem C44_between : forall values d, length values = 12%nat -> valid_date d ->
  let this := nth (Z.to_nat (mon d - 1)) values 0 in
  let next := nth (Z.to_nat (mon d mod 12)) values 0 in
  let prev := nth (Z.to_nat ((mon d + 10) mod 12)) values 0 in
  (this <= monthly_value (Some First) values d <= next \/ next <= monthly_value (Some First) values d <= this) /\
  (prev <= monthly_value (Some Last) values d <= this \/ this <= monthly_value (Some Last) values d <= prev).
Proof.
  intros values d Hl V this next prev.
  rewrite (C44_first values d Hl V), (C44_last values d Hl V). fold this next prev.
  destruct V as [Hm Hd].
  assert (28 <= month_days false (mon d))%Z as HL by (apply Periodic_proofs.month_days_pos; exact Hm).
  set (L := month_days false (mon d)) in *. clearbody L this next prev.
  assert (0 < inject_Z L) by (change 0 with (inject_Z 0); rewrite <- Zlt_Qlt; lia).
  split; apply convex_between.
  - split; [apply Qle_shift_div_l; [assumption|]|apply Qle_shift_div_r; [assumption|]].
    + assert (0 <= inject_Z (Z.min (dom d) L - 1)) by (change 0 with (inject_Z 0); rewrite <- Zle_Qle; lia). lra.
    + assert (inject_Z (Z.min (dom d) L - 1) <= inject_Z L) by (rewrite <- Zle_Qle; lia). lra.
  - split; [apply Qle_shift_div_l; [assumption|]|apply Qle_shift_div_r; [assumption|]].
    + assert (0 <= inject_Z (Z.min (dom d) L)) by (change 0 with (inject_Z 0); rewrite <- Zle_Qle; lia). lra.
    + assert (inject_Z (Z.min (dom d) L) <= inject_Z L) by (rewrite <- Zle_Qle; lia). lra.
Qed.
Print Assumptions C44_between.

Example C44_example :
  let v := [0; 31; 3; 4; 5; 6; 7; 8; 9; 10; 11; 62] in
  map (fun d => Qred (monthly_value (Some First) v d)) [Date 2016 1 1; Date 2016 1 11; Date 2016 2 1; Date 2016 12 31] = [0; 10; 31; 2] /\
  map (fun d => Qred (monthly_value (Some Last) v d)) [Date 2016 1 1; Date 2016 1 31; Date 2016 2 28; Date 2016 2 29; Date 2015 12 31] = [60; 0; 31; 31; 62].
Proof. split; vm_compute; reflexivity. Qed.
