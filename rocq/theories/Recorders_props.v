(** Property theorems about recorders (C51, C52, C53, C64, C69, C71). *)
From Verif Require Import Base LP_model Calendar_spec Calendar_model Timestepper_model Recorders_model Recorders_spec Recorders_proofs.
Local Open Scope Q_scope.

(** C51: total flow, for each scenario: the factor times the sum of flow times days. *)
Theorem C51_total_flow : forall factor ncomb run i d, complete ncomb run -> (i < ncomb)%nat ->
  nth i (accumulate (total_flow_inc factor) ncomb run) 0 == factor * over_run d i (fun days r => r_flow r * days) run.
Proof.
  intros factor ncomb run i d C Hi. rewrite (accumulate_spec _ d) by auto. unfold over_run. rewrite <- qsum_map_scale.
  apply qsum_map_ext. intros o _. unfold total_flow_inc. ring.
Qed.
Print Assumptions C51_total_flow.

(** C51: total deficit. *)
Theorem C51_total_deficit : forall ncomb run i d, complete ncomb run -> (i < ncomb)%nat ->
  nth i (accumulate total_deficit_inc ncomb run) 0 == over_run d i (fun days r => (r_max r - r_flow r) * days) run.
Proof. intros. apply (accumulate_spec total_deficit_inc); auto. Qed.
Print Assumptions C51_total_deficit.

(** C51: after a run to the end of the timestepper (one [next] more than there are timesteps) the mean flow
    recorder holds the arithmetic mean of factor times flow. *)
Theorem C51_mean_flow : forall factor ncomb run i d start stop delta st st' os,
  setup start stop delta = Some st -> nexts (S (ts_len st)) st = Some (st', os) ->
  length run = ts_len st -> (0 < length run)%nat -> complete ncomb run -> (i < ncomb)%nat ->
  exists m, divide_by_steps (tp_current st') (accumulate (mean_flow_inc factor) ncomb run) = Some m /\
    nth i m 0 == factor * over_run d i (fun _ r => r_flow r) run / steps_of run.
Proof.
  intros factor ncomb run i d start stop delta st st' os Hs Hn L P C Hi.
  destruct (run_divides (mean_flow_inc factor) d ncomb run _ _ _ _ _ _ i Hs Hn L P C Hi) as (m & E & V).
  exists m. split; [exact E|]. rewrite V. unfold over_run. rewrite <- qsum_map_scale.
  assert (qsum (map (fun o => mean_flow_inc factor (o_days o) (nth i (o_reads o) d)) run) ==
          qsum (map (fun o => factor * r_flow (nth i (o_reads o) d)) run)) as ->; [|reflexivity].
  apply qsum_map_ext. intros o _. unfold mean_flow_inc. ring.
Qed.
Print Assumptions C51_mean_flow.

(** C51: the deficit frequency is the fraction of timesteps with a shortfall of more than one millionth. *)
Theorem C51_deficit_frequency : forall ncomb run i d start stop delta st st' os,
  setup start stop delta = Some st -> nexts (S (ts_len st)) st = Some (st', os) ->
  length run = ts_len st -> (0 < length run)%nat -> complete ncomb run -> (i < ncomb)%nat ->
  (forall o, In o run -> r_flow (nth i (o_reads o) d) <= r_max (nth i (o_reads o) d)) ->
  exists m, divide_by_steps (tp_current st') (accumulate deficit_frequency_inc ncomb run) = Some m /\
    nth i m 0 == inject_Z (Z.of_nat (countb (fun o =>
        qltb (1 # 1000000) (r_max (nth i (o_reads o) d) - r_flow (nth i (o_reads o) d))) run)) / steps_of run.
Proof.
  intros ncomb run i d start stop delta st st' os Hs Hn L P C Hi Le.
  destruct (run_divides deficit_frequency_inc d ncomb run _ _ _ _ _ _ i Hs Hn L P C Hi) as (m & E & V).
  exists m. split; [exact E|]. rewrite V.
  assert (over_run d i deficit_frequency_inc run == inject_Z (Z.of_nat (countb (fun o =>
        qltb (1 # 1000000) (r_max (nth i (o_reads o) d) - r_flow (nth i (o_reads o) d))) run))) as ->; [|reflexivity].
  clear -Le. unfold over_run, countb. induction run as [|o run IH]; [reflexivity|]. cbn [map filter].
  rewrite qsum_cons, IH by (intros; apply Le; now right). unfold deficit_frequency_inc.
  specialize (Le o (or_introl eq_refl)). set (r := nth i (o_reads o) d) in *. clearbody r.
  assert (qltb (1 # 1000000) (qabs (r_flow r - r_max r)) = qltb (1 # 1000000) (r_max r - r_flow r)) as ->.
  { assert (qabs (r_flow r - r_max r) == r_max r - r_flow r) as Q by (unfold qabs; destruct (qltbP (r_flow r - r_max r) 0); lra).
    destruct (qltbP (1 # 1000000) (qabs (r_flow r - r_max r))), (qltbP (1 # 1000000) (r_max r - r_flow r)); try reflexivity; lra. }
  destruct (qltb _ _); cbn [length]; [|ring]. rewrite Nat2Z.inj_succ. unfold Z.succ. rewrite inject_Z_plus. ring.
Qed.
Print Assumptions C51_deficit_frequency.

(** A run of three daily timesteps, two scenarios. *)
Definition ex_run : list (observed reading) :=
  [Observed 1 [Reading 2 5; Reading 1 1]; Observed 1 [Reading 3 5; Reading 1 1]; Observed 1 [Reading 5 5; Reading 0 1]].
Example C51_example :
  complete 2 ex_run /\
  (exists st st' os m, setup 0 (2 * DAY) 1 = Some st /\ ts_len st = 3%nat /\ nexts 4 st = Some (st', os) /\
     divide_by_steps (tp_current st') (accumulate deficit_frequency_inc 2 ex_run) = Some m /\
     nth 0 m 0 == 2 # 3 /\ nth 1 m 0 == 1 # 3) /\
  nth 0 (accumulate total_deficit_inc 2 ex_run) 0 == 5 /\
  nth 0 (accumulate (total_flow_inc 2) 2 ex_run) 0 == 20.
Proof.
  split; [repeat constructor|]. split; [|split; vm_compute; reflexivity].
  destruct (setup 0 (2 * DAY) 1) as [st|] eqn:E; [|vm_compute in E; discriminate].
  assert (ts_len st = 3%nat) as L.
  { assert (option_map ts_len (setup 0 (2 * DAY) 1) = Some 3%nat) as H by (vm_compute; reflexivity).
    rewrite E in H. injection H as H. exact H. }
  assert (exists m, match nexts 4 st with Some (st', os) =>
      divide_by_steps (tp_current st') (accumulate deficit_frequency_inc 2 ex_run) | None => None end = Some m /\
      nth 0 m 0 == 2 # 3 /\ nth 1 m 0 == 1 # 3) as (m & H & V1 & V2).
  { assert (option_map (fun st => match nexts 4 st with Some (st', os) =>
      divide_by_steps (tp_current st') (accumulate deficit_frequency_inc 2 ex_run) | None => None end) (setup 0 (2 * DAY) 1)
      = Some (Some [2 # 3; 1 # 3])) as H by (vm_compute; reflexivity).
    rewrite E in H. injection H as H. exists [2 # 3; 1 # 3]. split; [exact H|split; reflexivity]. }
  destruct (nexts 4 st) as [[st' os]|] eqn:N; [|discriminate].
  exists st, st', os, m. auto 10.
Qed.

(** C51 (refuted part): when the model is advanced with [step] and then finished, the divisor is the index of the
    last timestep, one less than the number of timesteps: two timesteps with flow 1 have "mean" 2, and one
    timestep raises ZeroDivisionError. *)
Theorem C51_stepping_refuted :
  exists start stop delta st st' os run,
    setup start stop delta = Some st /\ ts_len st = length run /\ nexts (ts_len st) st = Some (st', os) /\
    complete 1 run /\ (forall o, In o run -> o_reads o = [Reading 1 1]) /\
    divide_by_steps (tp_current st') (accumulate (mean_flow_inc 1) 1 run) = Some [2].
Proof.
  set (run := [Observed 1 [Reading 1 1]; Observed 1 [Reading 1 1]]).
  destruct (setup 0 DAY 1) as [st|] eqn:E; [|vm_compute in E; discriminate].
  assert (ts_len st = 2%nat) as L.
  { assert (option_map ts_len (setup 0 DAY 1) = Some 2%nat) as H by (vm_compute; reflexivity).
    rewrite E in H. injection H as H. exact H. }
  assert (match nexts 2 st with Some (st', _) =>
      divide_by_steps (tp_current st') (accumulate (mean_flow_inc 1) 1 run) | None => None end = Some [2]) as H.
  { assert (option_map (fun st => match nexts 2 st with Some (st', _) =>
      divide_by_steps (tp_current st') (accumulate (mean_flow_inc 1) 1 run) | None => None end) (setup 0 DAY 1)
    = Some (Some [2])) as H by (vm_compute; reflexivity).
    rewrite E in H. cbn [option_map] in H. congruence. }
  destruct (nexts 2 st) as [[st' os]|] eqn:N; [|discriminate].
  exists 0%Z, DAY, 1%Z, st, st', os, run. rewrite L. split; [exact E|]. split; [reflexivity|]. split; [exact N|].
  split; [repeat constructor|]. split; [|exact H]. intros o [<-|[<-|[]]]; reflexivity.
Qed.
Print Assumptions C51_stepping_refuted.

(** C71: total and mean of a parameter. *)
Theorem C71_total_parameter : forall factor (integrate : bool) ncomb run i, complete ncomb run -> (i < ncomb)%nat ->
  nth i (accumulate (total_parameter_inc factor integrate) ncomb run) 0 ==
  factor * over_run 0 i (fun days v => if integrate then v * days else v) run.
Proof.
  intros factor integrate ncomb run i C Hi. rewrite (accumulate_spec _ 0) by auto. unfold over_run. rewrite <- qsum_map_scale.
  apply qsum_map_ext. intros o _. unfold total_parameter_inc. destruct integrate; ring.
Qed.
Print Assumptions C71_total_parameter.

Theorem C71_mean_parameter : forall factor ncomb run i start stop delta st st' os,
  setup start stop delta = Some st -> nexts (S (ts_len st)) st = Some (st', os) ->
  length run = ts_len st -> (0 < length run)%nat -> complete ncomb run -> (i < ncomb)%nat ->
  exists m, divide_by_steps (tp_current st') (accumulate (mean_parameter_inc factor) ncomb run) = Some m /\
    nth i m 0 == factor * over_run 0 i (fun _ v => v) run / steps_of run.
Proof.
  intros factor ncomb run i start stop delta st st' os Hs Hn L P C Hi.
  destruct (run_divides (mean_parameter_inc factor) 0 ncomb run _ _ _ _ _ _ i Hs Hn L P C Hi) as (m & E & V).
  exists m. split; [exact E|]. rewrite V. unfold over_run. rewrite <- qsum_map_scale.
  assert (qsum (map (fun o => mean_parameter_inc factor (o_days o) (nth i (o_reads o) 0)) run) ==
          qsum (map (fun o => factor * nth i (o_reads o) 0) run)) as ->; [|reflexivity].
  apply qsum_map_ext. intros o _. unfold mean_parameter_inc. ring.
Qed.
Print Assumptions C71_mean_parameter.

(** C71: lowest volume of the run, whether a volume at or below the threshold occurred, and the number of timesteps
    with an index at or above the threshold. *)
Theorem C71_minimum_volume : forall volumes, volumes <> [] ->
  exists m, minimum_volume volumes = Some m /\ (forall v, In v volumes -> m <= v) /\ (exists v, In v volumes /\ m == v).
Proof. exact minimum_volume_spec. Qed.
Print Assumptions C71_minimum_volume.

Theorem C71_threshold_volume : forall threshold volumes,
  (exists v, In v volumes /\ v <= threshold) /\ minimum_threshold_volume threshold volumes = 1 \/
  (forall v, In v volumes -> threshold < v) /\ minimum_threshold_volume threshold volumes = 0.
Proof. exact minimum_threshold_spec. Qed.
Print Assumptions C71_threshold_volume.

Theorem C71_timestep_count : forall threshold indices,
  timestep_count threshold indices = Z.of_nat (countb (fun v => (threshold <=? v)%Z) indices).
Proof. exact timestep_count_spec. Qed.
Print Assumptions C71_timestep_count.

Example C71_example :
  minimum_volume [5; 3; 4] = Some 3 /\ minimum_threshold_volume 3 [5; 3; 4] = 1 /\
  minimum_threshold_volume 2 [5; 3; 4] = 0 /\ timestep_count 2 [1; 2; 5; 0]%Z = 2%Z.
Proof. repeat split; vm_compute; reflexivity. Qed.

(** C52: the two ratios add up to one for every flow and limit, zero and infinity included; within [0, max_flow]
    both are proportions, and the supplied ratio is the flow divided by a finite non-zero limit. *)
Theorem C52_complementary : forall flow max_flow, supplied_ratio flow max_flow + curtailment_ratio flow max_flow == 1.
Proof. intros flow m. unfold supplied_ratio, curtailment_ratio. destruct (double_div flow m); ring. Qed.
Print Assumptions C52_complementary.

Theorem C52_proportions : forall flow max_flow, 0 <= flow -> q_le_ext flow max_flow ->
  0 <= supplied_ratio flow max_flow <= 1 /\ 0 <= curtailment_ratio flow max_flow <= 1 /\
  match max_flow with
  | Fin m => supplied_ratio flow max_flow * m == flow
  | _ => supplied_ratio flow max_flow == 0
  end.
Proof.
  intros flow m P L. assert (0 <= supplied_ratio flow m <= 1 /\
    match m with Fin m' => supplied_ratio flow m * m' == flow | _ => supplied_ratio flow m == 0 end) as [A B].
  { destruct m as [|m|]; cbn [q_le_ext] in L; [destruct L| |split; [unfold supplied_ratio, double_div; lra|reflexivity]].
    unfold supplied_ratio, double_div. destruct (qeqbP m 0) as [E|E].
    - split; [lra|]. rewrite E. lra.
    - assert (0 < m) by (apply Qnot_le_lt; intros C; apply E; lra).
      split; [split|]; [apply Qle_shift_div_l; lra|apply Qle_shift_div_r; lra|field; lra]. }
  pose proof (C52_complementary flow m). split; [exact A|]. split; [lra|exact B].
Qed.
Print Assumptions C52_proportions.

Example C52_example : supplied_ratio 3 (Fin 4) == 3 # 4 /\ curtailment_ratio 3 (Fin 4) == 1 # 4 /\
  supplied_ratio 0 (Fin 0) == 1 /\ curtailment_ratio 0 (Fin 0) == 0 /\ curtailment_ratio 3 PInf == 1.
Proof. repeat split; vm_compute; reflexivity. Qed.

(** C53: the entry of a year is the flow times the days of each timestep that lie in that year. *)
Theorem C53_year_entry : forall start_year num_years factors run k,
  Forall (good_step start_year num_years) run -> (k < num_years)%nat ->
  nth k (annual_flow start_year num_years factors run) 0 ==
  qsum (map (fun s => weighted_flow factors (snd s) * days_in_year (start_year + Z.of_nat k) (fst s)) run).
Proof. intros. apply annual_flow_year; auto. Qed.
Print Assumptions C53_year_entry.

(** C53: the sum over the years is the volume of the run inside the recorded years; all of it if the run
    ends within them. *)
Theorem C53_total : forall start_year num_years factors run,
  Forall (good_step start_year num_years) run ->
  qsum (annual_flow start_year num_years factors run) ==
  qsum (map (fun s => weighted_flow factors (snd s) *
    days_between (jan1 start_year * DAY) (jan1 (start_year + Z.of_nat num_years) * DAY) (fst s)) run).
Proof. exact annual_flow_total. Qed.
Print Assumptions C53_total.

Theorem C53_no_water_lost : forall start_year num_years factors run,
  Forall (good_step start_year num_years) run ->
  (forall s, In s run -> p_stop (fst s) <= jan1 (start_year + Z.of_nat num_years) * DAY)%Z ->
  qsum (annual_flow start_year num_years factors run) ==
  qsum (map (fun s => weighted_flow factors (snd s) * length_in_days (fst s)) run).
Proof.
  intros sy n fs run F W. rewrite (annual_flow_total sy n fs run F). apply qsum_map_ext. intros s Hs.
  rewrite Forall_forall in F. destruct (F s Hs) as ((L & _) & _ & _ & A & B). specialize (W s Hs).
  unfold days_between, length_in_days. rewrite Z.max_r by lia. rewrite Z.min_l, Z.max_l by lia. reflexivity.
Qed.
Print Assumptions C53_no_water_lost.

Ltac closed :=
  repeat match goal with |- _ /\ _ => split end;
  try match goal with
      | |- exists _, _ => fail 1
      | |- _ \/ _ => fail 1
      | |- _ => vm_compute; (reflexivity || congruence)
      end.

(** A 10-day timestep from 28 December 2015: 4 days in 2015 and 6 in 2016. *)
Definition ex_period : period := Period ((jan1 2015 + 361) * DAY) ((jan1 2015 + 371) * DAY).
Example C53_example :
  good_step 2015 2 (ex_period, [3; 5]) /\
  nth 0 (annual_flow 2015 2 [1; 2] [(ex_period, [3; 5])]) 0 == 13 * 4 /\
  nth 1 (annual_flow 2015 2 [1; 2] [(ex_period, [3; 5])]) 0 == 13 * 6.
Proof.
  split; [|split; vm_compute; reflexivity]. unfold good_step, plain_period, away_from_epoch, one_year_end, starts_in_year.
  cbn [fst p_start p_stop ex_period]. closed.
  - exists 2015%Z. closed.
  - left. vm_compute. reflexivity.
Qed.

(** C53 (refuted part): a timestep that covers a complete year.  800 days from 1 December 2001: the days of 2002 and
    2003 are booked for 2001, the days of 2004 for 2002. *)
Theorem C53_long_timestep_refuted :
  exists start_year num_years factors p, plain_period p /\ away_from_epoch p /\ starts_in_year start_year p /\
    (p_stop p <= jan1 (start_year + Z.of_nat num_years) * DAY)%Z /\
    nth 1 (annual_flow start_year num_years factors [(p, [1])]) 0 == 39 /\ days_in_year (start_year + 1) p == 365 /\
    nth 0 (annual_flow start_year num_years factors [(p, [1])]) 0 == 761 /\ days_in_year start_year p == 31.
Proof.
  exists 2001%Z, 4%nat, [1], (Period ((jan1 2001 + 334) * DAY) ((jan1 2001 + 1134) * DAY)).
  unfold plain_period, away_from_epoch, starts_in_year. cbn [p_start p_stop].
  closed. left. vm_compute. reflexivity.
Qed.
Print Assumptions C53_long_timestep_refuted.

(** C53 (refuted part): [period.end_time] is the last nanosecond of the period.  Where doubles resolve nanoseconds
    (around 1 January 1970) that nanosecond is lost from the next year. *)
Theorem C53_nanosecond_refuted :
  exists start_year num_years factors p, plain_period p /\ one_year_end p /\
    (p_stop p <= jan1 (start_year + Z.of_nat num_years) * DAY)%Z /\
    qsum (annual_flow start_year num_years factors [(p, [1])]) == length_in_days p - 1 / inject_Z DAY.
Proof.
  exists 1969%Z, 2%nat, [1], (Period ((jan1 1970 - 1) * DAY) ((jan1 1970 + 1) * DAY)).
  unfold plain_period, one_year_end, starts_in_year. cbn [p_start p_stop].
  closed.
  exists 1969%Z. closed.
Qed.
Print Assumptions C53_nanosecond_refuted.

(** C64: normalised storage; [None] would be an exception.  Curve and volume are both 1 is the one excluded case. *)
Theorem C64_normalised_partial : forall vol cc, 0 <= vol <= 1 -> 0 <= cc <= 1 -> ~ (vol == 1 /\ cc == 1) ->
  exists n, normalised_storage vol cc = Some n /\ -1 <= n <= 1 /\
    (n < 0 <-> vol < cc) /\ (vol == cc -> n == 0) /\ (vol == 1 -> n == 1) /\ (vol == 0 -> 0 < cc -> n == -1).
Proof.
  intros vol cc V C N. unfold normalised_storage. destruct (qltbP vol cc) as [L|L].
  - unfold double_div. destruct (qeqbP cc 0) as [E|E]; [lra|]. cbn [option_map]. eexists; split; [reflexivity|].
    assert (0 <= vol / cc) by (apply Qle_shift_div_l; lra). assert (vol / cc < 1) by (apply Qlt_shift_div_r; lra).
    split; [lra|]. split; [split; intros; [exact L|lra]|]. split; [lra|]. split; [lra|].
    intros Z _. assert (vol / cc == 0) by (rewrite Z; field; lra). lra.
  - unfold double_div. destruct (qeqbP (1 - cc) 0) as [E|E]; [exfalso; apply N; lra|]. eexists; split; [reflexivity|].
    assert (0 < 1 - cc) as P by lra.
    assert (0 <= (vol - cc) / (1 - cc)) by (apply Qle_shift_div_l; lra). assert ((vol - cc) / (1 - cc) <= 1) by (apply Qle_shift_div_r; lra).
    split; [lra|]. split; [split; intros; lra|]. split; [intros Z; assert (vol - cc == 0) as -> by lra; field; lra|].
    split; [intros Z; rewrite Z; field; lra|]. intros; lra.
Qed.
Print Assumptions C64_normalised_partial.

(** C64: the value grows with the volume. *)
Theorem C64_monotone : forall vol vol' cc n n', 0 <= vol -> vol <= vol' -> 0 <= cc <= 1 ->
  normalised_storage vol cc = Some n -> normalised_storage vol' cc = Some n' -> n <= n'.
Proof.
  intros vol vol' cc n n' V L C. unfold normalised_storage, double_div.
  destruct (qltbP vol cc) as [A|A], (qltbP vol' cc) as [B|B]; try lra.
  - destruct (qeqbP cc 0); [discriminate|]. cbn [option_map]. intros H H'. injection H as <-. injection H' as <-.
    assert (vol / cc <= vol' / cc) by (unfold Qdiv; apply Qmult_le_compat_r; [lra|apply Qlt_le_weak, Qinv_lt_0_compat; lra]). lra.
  - destruct (qeqbP cc 0); [discriminate|]. cbn [option_map]. destruct (qeqbP (1 - cc) 0); [discriminate|].
    intros H H'. injection H as <-. injection H' as <-.
    assert (vol / cc <= 1) by (apply Qle_shift_div_r; lra). assert (0 <= (vol' - cc) / (1 - cc)) by (apply Qle_shift_div_l; lra). lra.
  - destruct (qeqbP (1 - cc) 0); [discriminate|]. intros H H'. injection H as <-. injection H' as <-.
    unfold Qdiv. apply Qmult_le_compat_r; [lra|]. apply Qlt_le_weak, Qinv_lt_0_compat. lra.
Qed.
Print Assumptions C64_monotone.

(** C64 (refuted part): a full reservoir with its control curve at 1 raises ZeroDivisionError. *)
Theorem C64_full_curve_refuted : exists vol cc, 0 <= vol <= 1 /\ 0 <= cc <= 1 /\ normalised_storage vol cc = None.
Proof. exists 1, 1. repeat split; try lra. Qed.
Print Assumptions C64_full_curve_refuted.

Example C64_example : normalised_storage (1 # 4) (1 # 2) = Some (-2 # 4) /\ normalised_storage (3 # 4) (1 # 2) = Some (4 # 8).
Proof. split; vm_compute; reflexivity. Qed.

(** C69: number of calendar years in which the index reached the threshold. *)
Theorem C69_years_reached : forall threshold run, run <> [] -> years_in_order (map fst run) ->
  Forall (fun o => 1 <= fst o)%Z run -> (1 <= threshold \/ Forall (fun o => 0 <= snd o) run)%Z ->
  annual_count threshold run = Z.of_nat (years_with (fun v => (threshold <=? v)%Z) run).
Proof. exact annual_count_spec. Qed.
Print Assumptions C69_years_reached.

(** C69 (refuted part): the yearly maximum starts at 0, so an index that is always negative is taken to reach the
    threshold 0. *)
Theorem C69_negative_index_refuted : exists threshold run, run <> [] /\ years_in_order (map fst run) /\
  (forall o, In o run -> snd o < threshold)%Z /\ annual_count threshold run = 2%Z.
Proof.
  exists 0%Z, [(2014, -1); (2014, -2); (2015, -1)]%Z. split; [congruence|]. split; [cbn; lia|]. split; [|vm_compute; reflexivity].
  intros o [<-|[<-|[<-|[]]]]; cbn; lia.
Qed.
Print Assumptions C69_negative_index_refuted.

(** C69: number of timesteps per year in which some index is at or above the threshold, outside the excluded months and
    inside the range of dates; [this] is what an earlier run left behind. *)
Theorem C69_timesteps_reached : forall c start_year num_years nparams this run data, (0 < start_year)%Z -> run <> [] ->
  Forall (ok_step start_year num_years nparams) run -> length this = nparams ->
  years_in_order (map (fun o => yr (fst o)) run) ->
  annual_threshold_count c start_year num_years this run = Some data ->
  length data = num_years /\
  forall k, (k < num_years)%nat -> nth k data 0%Z = Z.of_nat (timesteps_reached c (start_year + Z.of_nat k) run).
Proof. exact annual_threshold_spec. Qed.
Print Assumptions C69_timesteps_reached.

(** C69: the recorder never fails if the dates of its range exist in every year. *)
Theorem C69_timesteps_recorded : forall c start_year num_years this run, every_year (cc_from c) -> every_year (cc_to c) ->
  exists data, annual_threshold_count c start_year num_years this run = Some data.
Proof.
  intros c sy n this run A B. unfold annual_threshold_count.
  destruct (threshold_run_some c sy run A B (YearState (repeat 0%Z n) this (-1))) as [s ->]. cbn. eauto.
Qed.
Print Assumptions C69_timesteps_recorded.

(** C69 (refuted part): a range that begins on 29 February stops the run in a year that has none. *)
Theorem C69_leap_day_refuted : exists c start_year num_years run,
  Forall (ok_step start_year num_years 1) run /\ years_in_order (map (fun o => yr (fst o)) run) /\
  cc_from c = Some (2, 29)%Z /\ annual_threshold_count c start_year num_years [0%Z] run = None.
Proof.
  exists (CountConfig 1 None (Some (2, 29)%Z) None), 2015%Z, 1%nat, [(Date 2015 1 1, [0%Z])].
  split; [|split; [exact Logic.I|split; [reflexivity|vm_compute; reflexivity]]].
  constructor; [|constructor]. unfold ok_step, valid_date. cbn. lia.
Qed.
Print Assumptions C69_leap_day_refuted.

Example C69_example :
  annual_count 2 [(2014, 1); (2014, 3); (2015, 1); (2016, 2); (2016, 2)]%Z = 2%Z /\
  annual_threshold_count (CountConfig 2 (Some [12]) (Some (3, 1)) None)%Z 2015 2 [7; 9]%Z
    [(Date 2015 2 28, [5; 5]); (Date 2015 3 1, [5; 5]); (Date 2015 12 1, [5; 5]); (Date 2016 2 29, [5; 0]); (Date 2016 4 1, [0; 2])]%Z
    = Some [1; 1]%Z.
Proof. split; vm_compute; reflexivity. Qed.
