(** Circular memories: C37, C38, C56. *)
From Coq Require Import Permutation.
From Verif Require Import Base Ring LP_model Sys_model RouteLP_model RouteLP_spec RouteLP_proofs RouteLP_flow RouteLP_props
  Buffers_model Buffers_proofs.
Local Open Scope nat_scope.

(** ** C37: the delayed flow is the flow [n] timesteps ago. *)
Theorem C37_delayed_flow : forall n initial s h t, 1 <= n -> length (b_mem s) = n -> t < length h ->
  nth_error (fst (delay_run n (delay_reset initial s) h)) t =
  Some (if Nat.ltb t n then initial else nth (t - n) h 0%Q).
Proof.
  intros n initial s h t Hn Hl Ht. unfold delay_reset.
  rewrite (delay_run_values n Hn h); cbn [b_mem b_pos]; [|rewrite map_length; exact Hl|lia|exact Ht].
  f_equal. unfold unroll. rewrite skipn_O, firstn_O, app_nil_r, map_const, Hl.
  destruct (Nat.ltb_spec t n).
  - rewrite app_nth1 by (rewrite repeat_length; exact H). now apply nth_repeat'.
  - rewrite app_nth2 by (rewrite repeat_length; exact H). now rewrite repeat_length.
Qed.
Print Assumptions C37_delayed_flow.

(** A second run, after whatever first run: the same values. *)
Theorem C37_second_run : forall n initial h1 h2, 1 <= n ->
  fst (delay_run n (delay_reset initial (snd (delay_run n (delay_reset initial (delay_setup n)) h1))) h2) =
  fst (delay_run n (delay_reset initial (delay_setup n)) h2).
Proof.
  intros n initial h1 h2 Hn. do 2 f_equal. unfold delay_reset. rewrite !map_const, delay_run_end_length. cbn [b_mem delay_setup].
  now rewrite !repeat_length.
Qed.
Print Assumptions C37_second_run.

(** The delay in days: exactly days / delta timesteps, refused if that is not a whole number or below 1. *)
Theorem C37_timesteps : forall timesteps days delta, (0 < delta)%Z ->
  match delay_timesteps timesteps days delta with
  | Some n => 1 <= n /\ (if (0 <? days)%Z then (Z.of_nat n * delta = days)%Z else Z.of_nat n = timesteps)
  | None => if (0 <? days)%Z then (days mod delta <> 0)%Z else (timesteps < 1)%Z
  end.
Proof.
  intros timesteps days delta Hd. unfold delay_timesteps. destruct (Z.ltb_spec 0 days) as [H|H].
  - destruct (Z.eqb_spec (days mod delta) 0) as [E|E]; [|exact E].
    apply Z.mod_divide in E; [|lia]. destruct E as [q Hq]. rewrite Hq, Z.div_mul by lia.
    destruct (Z.ltb_spec q 1); [nia|]. split; [lia|]. rewrite Z2Nat.id by lia. reflexivity.
  - destruct (Z.ltb_spec timesteps 1); [lia|]. split; [lia|]. lia.
Qed.
Print Assumptions C37_timesteps.

(** DelayNode (nodes.py:1174-1239): the input has the delayed flow as minimum and maximum, so a solved timestep gives
    out what the output took in [n] timesteps before (up to the 1e-8 the solver rounds by). *)
Theorem C37_delay_node : forall triv S d x n inp initial s h t, wf_sys S -> solved triv S d x ->
  In inp (s_nodes S) -> s_kind S inp = KInput ->
  1 <= n -> length (b_mem s) = n -> t < length h ->
  (forall v, nth_error (fst (delay_run n (delay_reset initial s) h)) t = Some v -> d_min d inp = Fin v /\ d_max d inp = Fin v) ->
  (let v := if Nat.ltb t n then initial else nth (t - n) h 0 in v - eps8 <= committed triv S x inp <= v + eps8)%Q.
Proof.
  intros triv S d x n inp initial s h t W HS Hin Hk Hn Hl Ht Hd.
  pose proof (C37_delayed_flow n initial s h t Hn Hl Ht) as HV. destruct (Hd _ HV) as [E1 E2].
  cbv zeta. set (v := if Nat.ltb t n then initial else nth (t - n) h 0%Q) in *. clearbody v. clear Hd HV.
  destruct (C13_flow_in_bounds triv S d x inp W HS Hin ltac:(rewrite Hk; reflexivity)) as [_ [H1 H2]].
  rewrite E1 in H1. rewrite E2 in H2. split; [exact H1|exact H2].
Qed.
Print Assumptions C37_delay_node.

Example C37_example : fst (delay_run 3 (delay_reset 9 (delay_setup 3)) [1; 2; 3; 4; 5; 6; 7])%Q = [9; 9; 9; 1; 2; 3; 4]%Q.
Proof. reflexivity. Qed.

(** ** C38: the rolling mean is the mean of the last flows. *)
Theorem C38_rolling_mean : forall n initial s h t, 1 <= n -> length (b_mem s) = n -> t < length h ->
  exists v, nth_error (mean_run n initial 0 (mean_reset s) h) t = Some v /\
    (v == if Nat.eqb t 0 then initial else mean (lastn n (firstn t h)))%Q.
Proof.
  intros n initial s h t Hn Hl Ht.
  apply (mean_run_spec n initial Hn h [] (mean_reset s)); [now apply holds_nil|cbn; now rewrite map_length|exact Ht].
Qed.
Print Assumptions C38_rolling_mean.

Example C38_example : map Qred (mean_run 3 9 0 (mean_reset (mean_setup 3)) [1; 2; 3; 4; 8; 6; 7]%Q) = [9; 1; 3 # 2; 2; 3; 5; 6]%Q.
Proof. reflexivity. Qed.

(** A run resumed with reset(start): ts.index starts above 0, the memory is empty, and the first timesteps count flows of
    zero that never happened. *)
Theorem C38_resumed_refuted : exists n initial k h,
  (exists v, nth_error (mean_run n initial k (mean_reset (mean_setup n)) h) 0 = Some v /\ ~ (v == initial)%Q) /\
  (exists v, nth_error (mean_run n initial k (mean_reset (mean_setup n)) h) 1 = Some v /\ ~ (v == mean (firstn 1 h))%Q).
Proof.
  exists 2, 5%Q, 10, [4; 4; 4]%Q. split; eexists; (split; [reflexivity|]); vm_compute; discriminate.
Qed.
Print Assumptions C38_resumed_refuted.

(** ** C56: rolling window recorders see exactly the window. *)

(** [s]: memory with arbitrary contents, either the window's size (RollingMeanFlowNodeRecorder) or as long as the run
    (RollingWindowParameterRecorder). *)
Theorem C56_window : forall agg w s h t, 1 <= w -> (w <= length (b_mem s) \/ length h <= length (b_mem s)) -> t < length h ->
  exists l, nth_error (window_run agg w 0 (window_reset s) h) t = Some (agg l) /\
    Permutation l (lastn (Nat.min (t + 1) w) (firstn (t + 1) h)).
Proof.
  intros agg w s h t Hw Hl Ht.
  destruct (window_run_spec agg w Hw h [] (window_reset s)) with (t := t) as [l [L1 L2]]; [now apply holds_nil|exact Hl|exact Ht|].
  exists l. split; [exact L1|]. cbn [app] in L2. replace (t + 1) with (S t) by lia.
  assert (length (firstn (S t) h) = S t) as HF by (rewrite firstn_length; lia).
  destruct (le_lt_dec w (S t)); [now rewrite Nat.min_r by lia|]. rewrite Nat.min_l by lia. rewrite (lastn_all w) in L2 by lia.
  rewrite (lastn_all (S t)) by lia. exact L2.
Qed.
Print Assumptions C56_window.

(** For aggregates that do not depend on the order of the values. *)
Theorem C56_window_aggregate : forall (agg : list Q -> Q) w s h t,
  (forall a b, Permutation a b -> (agg a == agg b)%Q) ->
  1 <= w -> (w <= length (b_mem s) \/ length h <= length (b_mem s)) -> t < length h ->
  exists v, nth_error (window_run agg w 0 (window_reset s) h) t = Some v /\
    (v == agg (lastn (Nat.min (t + 1) w) (firstn (t + 1) h)))%Q.
Proof.
  intros agg w s h t HP Hw Hl Ht. destruct (C56_window agg w s h t Hw Hl Ht) as [l [L1 L2]]. exists (agg l). split; [exact L1|now apply HP].
Qed.
Print Assumptions C56_window_aggregate.

(** RollingMeanFlowNodeRecorder. *)
Theorem C56_rolling_mean : forall w s h t, 1 <= w -> length (b_mem s) = w -> t < length h ->
  exists v, nth_error (window_run mean w 0 (window_reset s) h) t = Some v /\
    (v == mean (lastn (Nat.min (t + 1) w) (firstn (t + 1) h)))%Q.
Proof. intros w s h t Hw Hl Ht. apply C56_window_aggregate; auto; [apply mean_Permutation|left; lia]. Qed.
Print Assumptions C56_rolling_mean.

Example C56_example : map Qred (window_run mean 3 0 (window_reset {| b_mem := [7; 7; 7; 7; 7; 7]%Q; b_pos := 2 |}) [1; 2; 3; 4; 8; 6]%Q)
  = [1; 3 # 2; 2; 3; 5; 6]%Q.
Proof. reflexivity. Qed.
Example C56_example_short : map Qred (window_run qsum 30 0 (window_reset {| b_mem := [7; 7; 7]%Q; b_pos := 0 |}) [1; 2; 3]%Q) = [1; 3; 6]%Q.
Proof. reflexivity. Qed.

(** A callable that depends on the order (say, the latest value less the oldest) is given the rows in memory order, not in
    the order of time. *)
Theorem C56_order_refuted : exists agg w s h t, 1 <= w /\ w <= length (b_mem s) /\ t < length h /\
  nth_error (window_run agg w 0 (window_reset s) h) t <> Some (agg (lastn (Nat.min (t + 1) w) (firstn (t + 1) h))).
Proof.
  exists (fun l => (last l 0 - hd 0 l)%Q), 2, {| b_mem := [0; 0; 0]%Q; b_pos := 0 |}, [1; 2; 3]%Q, 2.
  cbn -[lastn]. repeat split; try lia. vm_compute. discriminate.
Qed.
Print Assumptions C56_order_refuted.

(** A run resumed with reset(start): rows that were never written are aggregated. *)
Theorem C56_resumed_refuted : exists w s k v,
  (exists o, nth_error (window_run mean w k (window_reset s) [v]) 0 = Some o /\ ~ (o == v)%Q).
Proof. exists 2, {| b_mem := [100; 100]%Q; b_pos := 0 |}, 10, 1%Q. eexists. split; [reflexivity|]. vm_compute. discriminate. Qed.
Print Assumptions C56_resumed_refuted.
