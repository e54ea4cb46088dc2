(** Periodic licences: C23, C24, C25. *)
From Verif Require Import Base Calendar_spec LP_model Sys_model RouteLP_model RouteLP_spec Storage_model Sim_model Storage_spec
  Virtual_model Virtual_spec Virtual_proofs Virtual_props Periodic_model Periodic_spec Periodic_proofs.
Local Open Scope Z_scope.

(** ** C23: an annual licence resets exactly once a year. *)

(** In which timesteps the volume is reset, and to what (true: initial volume, false: maximum volume). *)
Theorem C23_reset_when : forall c l i t, ascending l -> nth_error l i = Some t ->
  exists e, nth_error (annual_run c annual_reset (run_of l)) i = Some e /\
    (e <> None <-> first_on_or_after (c_reset_month c, c_reset_day c) l i /\
                   (i = 0%nat -> ~ day_lt (c_reset_month c, c_reset_day c) (md t))) /\
    (forall b, e = Some b -> b = if Nat.eqb i 0 && c_max_is_parameter c then true else c_to_initial c).
Proof.
  intros c l i t Ha Ht. destruct (annual_reset_when c l Ha i) as [u [e [E1 [E2 [E3 E4]]]]]; [apply nth_error_Some; congruence|].
  rewrite Ht in E1. injection E1 as <-. exists e. split; [exact E2|]. split; [exact E3|exact E4].
Qed.
Print Assumptions C23_reset_when.

Theorem C23_at_most_once_a_year : forall c l i j a b ti tj, ascending l -> (i < j)%nat ->
  nth_error (annual_run c annual_reset (run_of l)) i = Some (Some a) ->
  nth_error (annual_run c annual_reset (run_of l)) j = Some (Some b) ->
  nth_error l i = Some ti -> nth_error l j = Some tj -> yr ti <> yr tj.
Proof. intros. eapply annual_once; eauto. Qed.
Print Assumptions C23_at_most_once_a_year.

(** Every year with a timestep on or after the reset date has a reset, unless the run starts in that year after
    the reset date. *)
Theorem C23_every_year : forall c l y, ascending l ->
  (exists i t, nth_error l i = Some t /\ yr t = y /\ day_le (c_reset_month c, c_reset_day c) (md t)) ->
  (forall t, nth_error l 0 = Some t -> yr t = y -> ~ day_lt (c_reset_month c, c_reset_day c) (md t)) ->
  exists i t a, nth_error l i = Some t /\ yr t = y /\ nth_error (annual_run c annual_reset (run_of l)) i = Some (Some a).
Proof. intros c l y. apply (annual_every c l y). Qed.
Print Assumptions C23_every_year.

(** Daily timesteps: the resets are exactly the timesteps on the reset date. *)
Theorem C23_daily : forall c d n i t, valid_date d -> every_year (c_reset_month c, c_reset_day c) -> nth_error (daily d n) i = Some t ->
  (exists a, nth_error (annual_run c annual_reset (run_of (daily d n))) i = Some (Some a)) <->
  (mon t = c_reset_month c /\ dom t = c_reset_day c).
Proof.
  intros c d n i t V Hr Ht. rewrite (annual_daily c d n i t V Hr Ht). unfold md, reset_day. split.
  - intros H. injection H as -> ->. auto.
  - intros [-> ->]. reflexivity.
Qed.
Print Assumptions C23_daily.

Definition april_licence : annual_cfg := {| c_reset_month := 4; c_reset_day := 1; c_to_initial := false; c_max_is_parameter := true |}.
Example C23_example_daily :
  map fst (filter (fun p => match snd p with Some _ => true | None => false end)
     (combine (daily (Date 2015 1 1) 1000) (annual_run april_licence annual_reset (run_of (daily (Date 2015 1 1) 1000)))))
  = [Date 2015 4 1; Date 2016 4 1; Date 2017 4 1].
Proof. vm_compute. reflexivity. Qed.
Example C23_example_premises : ascending (daily (Date 2015 1 1) 1000) /\ every_year (4, 1).
Proof.
  split; [apply daily_ascending; cbv; intuition congruence|]. unfold every_year. cbn. lia.
Qed.
(** Weekly timesteps: the first one on or after 1 April; a start after the reset date does not reset. *)
Example C23_example_weekly :
  annual_run april_licence annual_reset (run_of [Date 2015 3 25; Date 2015 4 8; Date 2015 4 15; Date 2016 4 6]) =
  [None; Some false; None; Some false] /\
  annual_run april_licence annual_reset (run_of [Date 2015 4 8; Date 2015 4 15; Date 2016 4 6]) = [None; None; Some false] /\
  annual_run april_licence annual_reset (run_of [Date 2015 4 1; Date 2015 4 8; Date 2016 4 6]) = [Some true; None; Some false].
Proof. repeat split; reflexivity. Qed.

(** "Once in each calendar year" fails with timesteps longer than a day: a year whose last timestep starts before
    the reset date has no reset, although the reset date is within the run. *)
Theorem C23_skipped_year_refuted :
  exists c l y, ascending l /\ (c_reset_month c, c_reset_day c) = (12, 31) /\
    (exists i j a b, (i < j)%nat /\ nth_error l i = Some a /\ nth_error l j = Some b /\ yr a = y /\ yr b = y + 1) /\
    (forall a b, In (a, b) (combine l (tl l)) -> day_number b = day_number a + 7) /\
    forall i t, nth_error l i = Some t -> nth_error (annual_run c annual_reset (run_of l)) i = Some None.
Proof.
  exists {| c_reset_month := 12; c_reset_day := 31; c_to_initial := false; c_max_is_parameter := false |},
    [Date 2015 12 16; Date 2015 12 23; Date 2015 12 30; Date 2016 1 6; Date 2016 1 13], 2015.
  split; [cbn; unfold date_lt; cbn; lia|]. split; [reflexivity|]. split; [exists 2%nat, 3%nat, (Date 2015 12 30), (Date 2016 1 6); cbn; repeat split; lia|].
  split.
  - intros a b H. cbn in H. repeat (destruct H as [H|H]; [injection H as <- <-; vm_compute; reflexivity|]). contradiction.
  - intros i t H. do 5 (destruct i as [|i]; [reflexivity|]). destruct i; discriminate.
Qed.
Print Assumptions C23_skipped_year_refuted.

(** ** C24: a monthly licence resets every k months. *)

(** In the timesteps in which the month changes and the number of months gone by, the initial ones included,
    is a positive multiple of [k]. *)
Theorem C24_reset_when : forall k init ms i, 1 <= k -> 0 <= init <= k -> (i < length ms)%nat ->
  exists b, nth_error (monthly_run k (monthly_reset init) ms) i = Some b /\
    (b = true <-> new_month ms i /\ 0 < init - 1 + month_changes None ms i /\ (init - 1 + month_changes None ms i) mod k = 0).
Proof. intros. now apply monthly_when. Qed.
Print Assumptions C24_reset_when.

(** Between two resets exactly k month changes are seen. *)
Theorem C24_between_resets : forall k init ms i j, 1 <= k -> 0 <= init <= k -> (i < j)%nat ->
  nth_error (monthly_run k (monthly_reset init) ms) i = Some true ->
  nth_error (monthly_run k (monthly_reset init) ms) j = Some true ->
  (forall m, (i < m < j)%nat -> nth_error (monthly_run k (monthly_reset init) ms) m = Some false) ->
  month_changes None ms j = month_changes None ms i + k.
Proof. intros. now apply (monthly_between k init ms i j). Qed.
Print Assumptions C24_between_resets.

(** In terms of the calendar, for timesteps that skip no month: the first timestep of each month whose distance
    from the first month of the run, plus the initial months, is a positive multiple of [k]. *)
Theorem C24_calendar : forall k init t0 l i t, 1 <= k -> 0 <= init <= k ->
  (forall u, In u (t0 :: l) -> 1 <= mon u <= 12) -> no_month_skipped (t0 :: l) ->
  nth_error (t0 :: l) i = Some t ->
  exists b, nth_error (monthly_run k (monthly_reset init) (map mon (t0 :: l))) i = Some b /\
    (b = true <-> (i = 0%nat \/ exists p, nth_error (t0 :: l) (i - 1) = Some p /\ month_number p < month_number t) /\
                  0 < init + (month_number t - month_number t0) /\ (init + (month_number t - month_number t0)) mod k = 0).
Proof. intros. now apply monthly_calendar. Qed.
Print Assumptions C24_calendar.

Example C24_example :
  map fst (filter snd (combine (daily (Date 2015 11 20) 400) (monthly_run 3 (monthly_reset 1) (map mon (daily (Date 2015 11 20) 400)))))
  = [Date 2016 1 1; Date 2016 4 1; Date 2016 7 1; Date 2016 10 1].
Proof. vm_compute. reflexivity. Qed.
Example C24_example_premises : no_month_skipped (daily (Date 2015 11 20) 3) /\ (forall u, In u (daily (Date 2015 11 20) 3) -> 1 <= mon u <= 12).
Proof. split; [cbn; lia|]. intros u H. cbn in H. repeat (destruct H as [<-|H]; [cbn; lia|]). contradiction. Qed.

(** More initial months than the period: the counter starts beyond the period and never comes back to it. *)
Lemma beyond_never : forall k ms s, k < m_count s + 1 -> forall i, nth_error (monthly_run k s ms) i <> Some true.
Proof.
  intros k. induction ms as [|m ms IH]; intros s Hs i; [destruct i; discriminate|]. cbn [monthly_run]. unfold monthly_before.
  destruct (year_is (m_last_month s) m).
  - destruct i as [|i]; [discriminate|]. cbn [nth_error]. now apply IH.
  - destruct (Z.eqb_spec (m_count s + 1) k) as [E|E]; [lia|]. destruct i as [|i]; [discriminate|]. cbn [nth_error]. apply IH. cbn. lia.
Qed.
Theorem C24_initial_months_refuted : exists k init, 1 <= k /\ 0 <= init /\
  forall ms i, nth_error (monthly_run k (monthly_reset init) ms) i <> Some true.
Proof. exists 2, 3. split; [lia|]. split; [lia|]. intros ms i. apply beyond_never. cbn. lia. Qed.
Print Assumptions C24_initial_months_refuted.

(** Timesteps of a whole year: every timestep starts in the same month, so that no month change is seen after the
    first timestep, however many years go by. *)
Theorem C24_year_long_steps_refuted : exists k, 1 <= k /\
  forall n i, nth_error (monthly_run k (monthly_reset 0) (map mon (map (fun j => Date (2000 + Z.of_nat j) 1 1) (seq 0 n)))) i <> Some true.
Proof.
  exists 1. split; [lia|]. intros n i.
  assert (forall l s, (forall m, In m l -> m = 1) -> m_last_month s = Some 1 -> forall i, nth_error (monthly_run 1 s l) i <> Some true) as L.
  { induction l as [|m l IH]; intros s Hl Hs j; [destruct j; discriminate|]. cbn [monthly_run]. unfold monthly_before. rewrite Hs, (Hl m (or_introl eq_refl)).
    cbn [year_is]. rewrite Z.eqb_refl. destruct j as [|j]; [discriminate|]. cbn [nth_error]. apply IH; [intros; apply Hl; now right|exact Hs]. }
  destruct n as [|n]; [destruct i; discriminate|]. cbn [seq map monthly_run]. cbn -[monthly_run].
  destruct i as [|i]; [discriminate|]. cbn [nth_error]. apply L; [|reflexivity].
  intros m H. rewrite map_map in H. apply in_map_iff in H as [j [<- _]]. reflexivity.
Qed.
Print Assumptions C24_year_long_steps_refuted.

(** ** C25: a seasonal licence is in force exactly inside its season. *)

(** First run of a model: [active] in timestep [i] if and only if its date is in the season, for timesteps that do not
    step over the ends of the season ([fine]) and a run that starts in the season or before the season of its year. *)
Theorem C25_active_in_season_partial : forall c t l i u,
  let r := (c_reset_month (c_annual c), c_reset_day (c_annual c)) in
  let e := (c_end_month c, c_end_day c) in
  day_lt r e \/ day_lt e r ->
  in_season r e (md t) \/ (day_lt r e /\ day_lt (md t) r) ->
  fine r e (t :: l) ->
  nth_error (t :: l) i = Some u ->
  exists b, nth_error (fst (seasonal_run c seasonal_new (run_of (t :: l)))) i = Some b /\ (b = true <-> in_season r e (md u)).
Proof. intros c t l i u r e H1 H2 H3. now apply (seasonal_run_spec c t l). Qed.
Print Assumptions C25_active_in_season_partial.

(** Daily timesteps step over nothing. *)
Theorem C25_daily_partial : forall c d n i u,
  let r := (c_reset_month (c_annual c), c_reset_day (c_annual c)) in
  let e := (c_end_month c, c_end_day c) in
  valid_date d -> every_year r -> every_year e -> r <> e ->
  in_season r e (md d) \/ (day_lt r e /\ day_lt (md d) r) ->
  nth_error (daily d n) i = Some u ->
  exists b, nth_error (fst (seasonal_run c seasonal_new (run_of (daily d n)))) i = Some b /\ (b = true <-> in_season r e (md u)).
Proof.
  intros c d n i u r e V R E Hne H0 Hu. destruct n as [|n]; [destruct i; discriminate|]. cbn [daily] in *.
  apply (seasonal_run_spec c d (daily (tomorrow d) n)); [|exact H0|apply (daily_fine r e R E (S n) d V)|exact Hu].
  unfold r, e in *. unfold reset_day, end_day, day_lt. cbn [fst snd].
  destruct (Z.eq_dec (c_reset_month (c_annual c)) (c_end_month c)) as [X|X]; [|lia].
  destruct (Z.eq_dec (c_reset_day (c_annual c)) (c_end_day c)) as [Y|Y]; [|lia]. exfalso. apply Hne. congruence.
Qed.
Print Assumptions C25_daily_partial.

(** What being out of season means for the solver: the problem posed does not depend on the licence's volume and
    bounds, as long as maximum and minimum differ. *)
Theorem C25_inactive_no_constraint : forall triv S d v vol mn mx, s_kind S v = KVirtual -> d_active d v = false ->
  bounds_differ (d_minvol d v) (d_maxvol d v) -> bounds_differ mn mx ->
  posed triv S (relicensed d v vol mn mx) = posed triv S d.
Proof. intros. now apply relicensed_posed. Qed.
Print Assumptions C25_inactive_no_constraint.

Definition season (rm rd em ed : Z) : seasonal_cfg :=
  {| c_annual := {| c_reset_month := rm; c_reset_day := rd; c_to_initial := false; c_max_is_parameter := false |};
     c_end_month := em; c_end_day := ed |}.
(** Changes of `active` over a run: dates at which it differs from the timestep before. *)
Definition switches (c : seasonal_cfg) (s : seasonal) (l : list date) : list (date * bool) :=
  let bs := fst (seasonal_run c s (run_of l)) in
  map (fun p => (fst (fst p), snd (fst p)))
    (filter (fun p => negb (Bool.eqb (snd (fst p)) (snd p)))
       (combine (combine l bs) (match bs with b :: _ => negb b :: bs | [] => [] end))).
Example C25_example_summer : switches (season 4 1 10 1) seasonal_new (daily (Date 2015 1 1) 800) =
  [(Date 2015 1 1, false); (Date 2015 4 1, true); (Date 2015 10 1, false); (Date 2016 4 1, true); (Date 2016 10 1, false)].
Proof. vm_compute. reflexivity. Qed.
Example C25_example_winter : switches (season 10 1 4 1) seasonal_new (daily (Date 2015 1 1) 800) =
  [(Date 2015 1 1, true); (Date 2015 4 1, false); (Date 2015 10 1, true); (Date 2016 4 1, false); (Date 2016 10 1, true)].
Proof. vm_compute. reflexivity. Qed.

(** A second run of the same model: `_last_active_year` is left from the first run, so that the licence is still in
    force after the end of its season. *)
Theorem C25_second_run_refuted : exists c l s1 s2 i t,
  seasonal_run c seasonal_new (run_of l) = (fst (seasonal_run c seasonal_new (run_of l)), s1) /\
  s2 = seasonal_reset s1 /\
  nth_error l i = Some t /\ ~ in_season (4, 1) (10, 1) (md t) /\
  (c_reset_month (c_annual c), c_reset_day (c_annual c)) = (4, 1) /\ (c_end_month c, c_end_day c) = (10, 1) /\
  nth_error (fst (seasonal_run c seasonal_new (run_of l))) i = Some false /\
  nth_error (fst (seasonal_run c s2 (run_of l))) i = Some true.
Proof.
  exists (season 4 1 10 1), (daily (Date 2015 1 1) 360).
  eexists. eexists. exists 300%nat. eexists. split; [vm_compute; reflexivity|]. split; [reflexivity|]. split; [vm_compute; reflexivity|].
  split; [unfold in_season, day_lt, day_le; cbn; lia|]. split; [reflexivity|]. split; [reflexivity|]. split; vm_compute; reflexivity.
Qed.
Print Assumptions C25_second_run_refuted.

(** A run that starts after the season of its year: the licence is in force in the first timestep. *)
Theorem C25_start_after_season_refuted : exists c d,
  valid_date d /\ ~ in_season (4, 1) (10, 1) (md d) /\
  (c_reset_month (c_annual c), c_reset_day (c_annual c)) = (4, 1) /\ (c_end_month c, c_end_day c) = (10, 1) /\
  nth_error (fst (seasonal_run c seasonal_new (run_of (daily d 10)))) 0 = Some true.
Proof.
  exists (season 4 1 10 1), (Date 2015 11 1). split; [unfold valid_date; vm_compute; intuition congruence|].
  split; [unfold in_season, day_lt, day_le; cbn; lia|]. repeat split; vm_compute; reflexivity.
Qed.
Print Assumptions C25_start_after_season_refuted.

(** The same for a season across the year end, when the run starts between two seasons. *)
Theorem C25_start_between_winters_refuted : exists c d, valid_date d /\
  (c_reset_month (c_annual c), c_reset_day (c_annual c)) = (10, 1) /\ (c_end_month c, c_end_day c) = (4, 1) /\
  ~ in_season (10, 1) (4, 1) (md d) /\
  nth_error (fst (seasonal_run c seasonal_new (run_of (daily d 10)))) 0 = Some true.
Proof.
  exists (season 10 1 4 1), (Date 2015 6 1). split; [unfold valid_date; vm_compute; intuition congruence|].
  split; [reflexivity|]. split; [reflexivity|]. split; [unfold in_season, day_lt, day_le; cbn; lia|]. vm_compute. reflexivity.
Qed.
Print Assumptions C25_start_between_winters_refuted.

(** Weekly timesteps and the default end date, 31 December: no timestep sees the end of the season, and the licence stays
    in force in the new year. *)
Theorem C25_weekly_refuted : exists c l i t,
  (forall a b, In (a, b) (combine l (tl l)) -> day_number b = day_number a + 7) /\
  (c_reset_month (c_annual c), c_reset_day (c_annual c)) = (4, 1) /\ (c_end_month c, c_end_day c) = (12, 31) /\
  nth_error l i = Some t /\ ~ in_season (4, 1) (12, 31) (md t) /\
  nth_error (fst (seasonal_run c seasonal_new (run_of l))) i = Some true.
Proof.
  exists (season 4 1 12 31), [Date 2015 12 16; Date 2015 12 23; Date 2015 12 30; Date 2016 1 6; Date 2016 1 13], 4%nat, (Date 2016 1 13).
  split; [|split; [reflexivity|split; [reflexivity|split; [reflexivity|split; [unfold in_season, day_lt, day_le; cbn; lia|vm_compute; reflexivity]]]]].
  intros a b H. cbn in H. repeat (destruct H as [H|H]; [injection H as <- <-; vm_compute; reflexivity|]). contradiction.
Qed.
Print Assumptions C25_weekly_refuted.

(** Out of season, but with equal bounds (say a licence of zero): the solver tests the bounds before `active`, and
    forbids all flow. *)
Theorem C25_equal_bounds_refuted : exists vol mn mx days, ~ bounds_differ mn mx /\
  virtual_bounds false vol mn mx days = (FX, Fin 0%Q, Fin 0%Q).
Proof.
  exists 0%Q, 0%Q, (Fin 0%Q), 1%Q. split; [|reflexivity]. intros H. apply (H 0%Q eq_refl). reflexivity.
Qed.
Print Assumptions C25_equal_bounds_refuted.
