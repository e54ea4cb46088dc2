(** C87: durations and statistics of events. *)
From Coq Require Import Sorting.Permutation Sorting.Sorted.
From Verif Require Import Base Ring Events_model Events_spec Events_proofs EventStats_model EventStats_spec EventStats_proofs.
Local Open Scope nat_scope.
Local Open Scope list_scope.

(** The names of the aggregation functions, for the values of one group. *)
Theorem C87_aggregates : forall l, l <> [] ->
  (pandas_agg PSum l == qsum l)%Q /\ (pandas_agg PMean l * inject_Z (Z.of_nat (length l)) == qsum l)%Q /\
  greatest (pandas_agg PMax l) l /\ least (pandas_agg PMin l) l /\ (pandas_agg PCount l == inject_Z (Z.of_nat (length l)))%Q /\
  forall f, pandas_agg (PCustom f) l = f l.
Proof.
  intros l Hl. pose proof (sum_qsum l) as S. split; [exact S|]. split.
  - cbn [pandas_agg] in *. rewrite S. unfold qlength. assert (~ inject_Z (Z.of_nat (length l)) == 0)%Q.
    { intros E. destruct l as [|x l]; [now apply Hl|]. unfold Qeq, inject_Z in E. cbn [Qnum Qden length] in E. lia. }
    now field.
  - split; [now apply max_greatest|]. split; [now apply min_least|]. split; reflexivity.
Qed.
Print Assumptions C87_aggregates.

(** C87: the value of a scenario aggregates the durations of its own events, and is missing exactly if it has none. *)
Theorem C87_durations : forall m ncomb history l f time i, run m ncomb history = Some l -> i < ncomb ->
  length (durations f time ncomb l) = ncomb /\
  ((forall e, In e l -> e_scenario e <> i) -> nth i (durations f time ncomb l) None = None) /\
  ((exists e, In e l /\ e_scenario e = i) ->
     nth i (durations f time ncomb l) None =
     Some (pandas_agg f (map (fun e => inject_Z ((time (e_end e) - time (e_start e)) / 86400)) (filter (fun e => Nat.eqb (e_scenario e) i) l)))).
Proof.
  intros m ncomb history l f time i H Hi. unfold durations.
  rewrite grouped by (auto; intros e He; exact (run_scenarios _ _ _ _ _ H He)). split; [|split].
  - unfold group_values. generalize (nodup Nat.eq_dec (map fst (map (fun e => (e_scenario e, inject_Z (duration_days time e))) l))). intros ids.
    assert (forall (vals : list (option Q)), length vals = ncomb -> length (fold_left (fun values id => upd values id (Some (pandas_agg f (map snd
      (filter (fun r => Nat.eqb (fst r) id) (map (fun e => (e_scenario e, inject_Z (duration_days time e))) l)))))) ids vals) = ncomb) as K.
    { induction ids as [|id ids IH]; intros vals E; [exact E|]. cbn [fold_left]. apply IH. now rewrite upd_length. }
    apply K, repeat_length.
  - intros N. destruct (of_scenario i l) as [|e es] eqn:E; [reflexivity|]. exfalso.
    assert (In e (of_scenario i l)) as I by (rewrite E; now left). apply filter_In in I as [I J]. apply Nat.eqb_eq in J. exact (N e I J).
  - intros [e [He Ei]]. assert (In e (of_scenario i l)) as I by (apply filter_In; split; [exact He|now apply Nat.eqb_eq]).
    unfold of_scenario in *. destruct (filter (fun e => Nat.eqb (e_scenario e) i) l); [contradiction|reflexivity].
Qed.
Print Assumptions C87_durations.

(** C87: if events of one timestep are counted, the "sum" of the durations is the number of days in triggered timesteps. *)
Theorem C87_total_duration : forall ncomb history l time len i, run 1 ncomb history = Some l -> i < ncomb -> whole_days time len ->
  let n := length history in let trig := trigger history i in
  (never n trig -> nth i (durations PSum time ncomb l) None = None) /\
  (~ never n trig -> exists v, nth i (durations PSum time ncomb l) None = Some v /\ (v == total n trig (days len))%Q).
Proof.
  intros ncomb history l time len i H Hi W. cbv zeta. pose proof (of_scenario_nil 1 ncomb history l i H Hi (le_n _)) as Nil.
  unfold durations. rewrite grouped by (auto; intros e He; exact (run_scenarios _ _ _ _ _ H He)). split.
  - intros N. now rewrite (proj2 Nil N).
  - intros N. destruct (of_scenario i l) as [|e es] eqn:E; [exfalso; apply N, Nil; reflexivity|]. rewrite <- E. eexists. split; [reflexivity|].
    rewrite sum_qsum. unfold total. rewrite <- (qsum_Permutation _ _ (Permutation_map (days len) (spans_triggered ncomb history l i H Hi))).
    rewrite qsum_flat_map. apply qsum_map_ext. intros e' He'. apply duration_span; [exact W|].
    destruct (run_events_wf 1 ncomb history l i e' H Hi He') as [[M _] _]. lia.
Qed.
Print Assumptions C87_total_duration.

(** The days of a period. *)
Definition days_between (len : nat -> Z) (a b : nat) : Q := qsum (map (days len) (seq a (b - a))).

(** C87: "max" is the duration of a longest period among those that count, and "min" of a shortest. *)
Theorem C87_longest : forall m ncomb history l time len i v, run m ncomb history = Some l -> i < ncomb -> whole_days time len ->
  let n := length history in let trig := trigger history i in
  let counts a b := maximal_period n trig a b /\ (m <= b - a \/ b = n) in
  (nth i (durations PMax time ncomb l) None = Some v ->
     (exists a b, counts a b /\ (v == days_between len a b)%Q) /\ forall a b, counts a b -> (days_between len a b <= v)%Q) /\
  (nth i (durations PMin time ncomb l) None = Some v ->
     (exists a b, counts a b /\ (v == days_between len a b)%Q) /\ forall a b, counts a b -> (v <= days_between len a b)%Q).
Proof.
  intros m ncomb history l time len i v H Hi W. cbv zeta. destruct (run_spec m ncomb history l i H Hi) as [_ K]. cbv zeta in K.
  assert (forall e, In e (of_scenario i l) -> inject_Z (duration_days time e) == days_between len (e_start e) (e_end e))%Q as D.
  { intros e He. apply duration_span; [exact W|]. destruct (run_events_wf m ncomb history l i e H Hi He) as [[M _] _]. lia. }
  assert (forall e, In e (of_scenario i l) -> maximal_period (length history) (trigger history i) (e_start e) (e_end e) /\
            (m <= e_end e - e_start e \/ e_end e = length history)) as C.
  { intros e He. apply K in He as (a & b & M & L & ->). cbn. auto. }
  assert (forall a b, maximal_period (length history) (trigger history i) a b -> (m <= b - a \/ b = length history) ->
            In (Event i a b (values_of (tracked history i) a b)) (of_scenario i l)) as B.
  { intros a b M L. apply K. exists a, b. auto. }
  unfold durations.
  assert (forall f, nth i (group_values f ncomb (map (fun e => (e_scenario e, inject_Z (duration_days time e))) l)) None =
    match of_scenario i l with [] => None | es => Some (pandas_agg f (map (fun e => inject_Z (duration_days time e)) es)) end) as G.
  { intros f. apply (grouped f ncomb (fun e => inject_Z (duration_days time e))); auto. intros e He. exact (run_scenarios _ _ _ _ _ H He). }
  rewrite !G. clear G K. destruct (of_scenario i l) as [|e0 es] eqn:E; [split; discriminate|]. rewrite <- E in *.
  assert (map (fun e => inject_Z (duration_days time e)) (of_scenario i l) <> []) as NE by (rewrite E; discriminate).
  split; intros V; apply (f_equal (fun o => match o with Some x => x | None => 0%Q end)) in V; cbv beta iota in V.
  - destruct (max_greatest _ NE) as [[w [W1 W2]] W3]. rewrite V in W2, W3. split.
    + apply in_map_iff in W1 as [e [E1 He]]. exists (e_start e), (e_end e). split; [exact (C e He)|]. rewrite <- (D e He), E1. now symmetry.
    + intros a b [M L]. specialize (B a b M L). pose proof (D _ B) as D1. cbn [e_start e_end] in D1. rewrite <- D1. apply W3. apply in_map_iff. eauto.
  - destruct (min_least _ NE) as [[w [W1 W2]] W3]. rewrite V in W2, W3. split.
    + apply in_map_iff in W1 as [e [E1 He]]. exists (e_start e), (e_end e). split; [exact (C e He)|]. rewrite <- (D e He), E1. now symmetry.
    + intros a b [M L]. specialize (B a b M L). pose proof (D _ B) as D1. cbn [e_start e_end] in D1. rewrite <- D1. apply W3. apply in_map_iff. eauto.
Qed.
Print Assumptions C87_longest.

(** C87: the statistic of a scenario aggregates, over its events, the aggregate of the values tracked in each of them. *)
Theorem C87_statistics : forall m ncomb history l f g i, run m ncomb history = Some l -> i < ncomb ->
  ((forall e, In e l -> e_scenario e <> i) -> nth i (statistics g f ncomb l) None = None) /\
  ((exists e, In e l /\ e_scenario e = i) ->
     nth i (statistics g f ncomb l) None =
     Some (pandas_agg f (map (fun e => pandas_agg g (map (tracked history i) (seq (e_start e) (e_end e - e_start e))))
                             (filter (fun e => Nat.eqb (e_scenario e) i) l)))).
Proof.
  intros m ncomb history l f g i H Hi. unfold statistics.
  rewrite (grouped f ncomb (fun e => pandas_agg g (e_values e))) by (auto; intros e He; exact (run_scenarios _ _ _ _ _ H He)). split.
  - intros N. destruct (of_scenario i l) as [|e es] eqn:E; [reflexivity|]. exfalso.
    assert (In e (of_scenario i l)) as I by (rewrite E; now left). apply filter_In in I as [I J]. apply Nat.eqb_eq in J. exact (N e I J).
  - intros [e [He Ei]]. assert (In e (of_scenario i l)) as I by (apply filter_In; split; [exact He|now apply Nat.eqb_eq]).
    fold (of_scenario i l). transitivity (Some (pandas_agg f (map (fun e => pandas_agg g (e_values e)) (of_scenario i l)))).
    + destruct (of_scenario i l); [contradiction|reflexivity].
    + do 2 f_equal. apply map_ext_in. intros e' He'. destruct (run_events_wf m ncomb history l i e' H Hi He') as [_ ->]. reflexivity.
Qed.
Print Assumptions C87_statistics.

(** C87: with minimum length 1, sums of sums, maxima of maxima and minima of minima are those over all triggered timesteps. *)
Theorem C87_statistics_overall : forall ncomb history l i, run 1 ncomb history = Some l -> i < ncomb ->
  let n := length history in let trig := trigger history i in let steps := map (tracked history i) (triggered_steps n trig) in
  (never n trig -> forall f g, nth i (statistics g f ncomb l) None = None) /\
  (~ never n trig -> exists s a b,
     nth i (statistics PSum PSum ncomb l) None = Some s /\ (s == total n trig (tracked history i))%Q /\
     nth i (statistics PMax PMax ncomb l) None = Some a /\ greatest a steps /\
     nth i (statistics PMin PMin ncomb l) None = Some b /\ least b steps).
Proof.
  intros ncomb history l i H Hi. cbv zeta. pose proof (of_scenario_nil 1 ncomb history l i H Hi (le_n _)) as Nil.
  assert (forall f g, nth i (statistics g f ncomb l) None =
    match of_scenario i l with [] => None | es => Some (pandas_agg f (map (fun e => pandas_agg g (map (tracked history i) (span e))) es)) end) as G.
  { intros f g. unfold statistics. rewrite (grouped f ncomb (fun e => pandas_agg g (e_values e))) by (auto; intros e He; exact (run_scenarios _ _ _ _ _ H He)).
    replace (map (fun e => pandas_agg g (map (tracked history i) (span e))) (of_scenario i l)) with (map (fun e => pandas_agg g (e_values e)) (of_scenario i l)).
    - destruct (of_scenario i l) eqn:E; [reflexivity|]. rewrite <- E. do 2 f_equal.
      apply map_ext_in. intros e' He'. destruct (run_events_wf 1 ncomb history l i e' H Hi He') as [_ ->]. reflexivity.
    - apply map_ext_in. intros e' He'. destruct (run_events_wf 1 ncomb history l i e' H Hi He') as [_ ->]. reflexivity. }
  split.
  - intros N f g. rewrite G. now rewrite (proj2 Nil N).
  - intros N. destruct (of_scenario i l) as [|e0 es] eqn:E; [exfalso; apply N, Nil; reflexivity|]. rewrite <- E in *.
    pose proof (spans_triggered ncomb history l i H Hi) as P.
    assert (forall e, In e (of_scenario i l) -> map (tracked history i) (span e) <> []) as NE.
    { intros e He. destruct (run_events_wf 1 ncomb history l i e H Hi He) as [[M _] _]. unfold span. destruct (e_end e - e_start e) eqn:X; [lia|discriminate]. }
    assert (forall k, In k (triggered_steps (length history) (trigger history i)) <-> exists e, In e (of_scenario i l) /\ In k (span e)) as M.
    { intros k. rewrite <- in_flat_map. split; intros Hk; [eapply Permutation_in; [symmetry; exact P|exact Hk]|eapply Permutation_in; [exact P|exact Hk]]. }
    rewrite !G. assert (exists x xs, of_scenario i l = x :: xs) as [x [xs EX]] by eauto. rewrite EX. cbv iota beta match. rewrite <- EX.
    do 3 eexists. split; [reflexivity|]. split; [|split; [reflexivity|split; [|split; [reflexivity|]]]].
    + rewrite sum_qsum. unfold total. rewrite <- (qsum_Permutation _ _ (Permutation_map (tracked history i) P)). rewrite qsum_flat_map.
      apply qsum_map_ext. intros e _. apply sum_qsum.
    + destruct (max_greatest (map (fun e => pandas_agg PMax (map (tracked history i) (span e))) (of_scenario i l))) as [[w [W1 W2]] W3]; [rewrite EX; discriminate|].
      apply in_map_iff in W1 as [e [E1 He]]. split.
      * destruct (max_greatest _ (NE e He)) as [[w' [X1 X2]] _]. exists w'. split; [|now rewrite X2, E1].
        apply in_map_iff in X1 as [k [<- Hk]]. apply in_map, M. eauto.
      * intros w' Hw. apply in_map_iff in Hw as [k [<- Hk]]. apply M in Hk as [e' [He' Hk]].
        destruct (max_greatest _ (NE e' He')) as [_ X]. eapply Qle_trans; [apply X, in_map, Hk|]. apply W3, in_map_iff. exists e'. now split.
    + destruct (min_least (map (fun e => pandas_agg PMin (map (tracked history i) (span e))) (of_scenario i l))) as [[w [W1 W2]] W3]; [rewrite EX; discriminate|].
      apply in_map_iff in W1 as [e [E1 He]]. split.
      * destruct (min_least _ (NE e He)) as [[w' [X1 X2]] _]. exists w'. split; [|now rewrite X2, E1].
        apply in_map_iff in X1 as [k [<- Hk]]. apply in_map, M. eauto.
      * intros w' Hw. apply in_map_iff in Hw as [k [<- Hk]]. apply M in Hk as [e' [He' Hk]].
        destruct (min_least _ (NE e' He')) as [_ X]. eapply Qle_trans; [|apply X, in_map, Hk]. apply W3, in_map_iff. exists e'. now split.
Qed.
Print Assumptions C87_statistics_overall.

(** Two scenarios, four timesteps of a day each. *)
Definition ex_hist : list (list (bool * Q)) :=
  [[(true, 1%Q); (false, 0%Q)]; [(true, 2%Q); (false, 5%Q)]; [(false, 9%Q); (false, 6%Q)]; [(true, 3%Q); (false, 7%Q)]].
Definition ex_time (k : nat) : Z := (86400 * Z.of_nat k)%Z.
Example C87_example : exists l, run 1 2 ex_hist = Some l /\
  durations PSum ex_time 2 l = [Some (inject_Z 3); None] /\ durations PMax ex_time 2 l = [Some (inject_Z 2); None] /\
  map (option_map Qred) (statistics PSum PMean 2 l) = [Some (inject_Z 3); None] /\ statistics PSum PMax 2 l = [Some (inject_Z 3); None] /\
  durations PCount ex_time 2 l = [Some (inject_Z 2); None].
Proof. eexists. split; [reflexivity|]. repeat split. Qed.
Example C87_example_days : whole_days ex_time (fun _ => 1%Z) /\ ~ never (length ex_hist) (trigger ex_hist 0) /\ never (length ex_hist) (trigger ex_hist 1) /\
  (total (length ex_hist) (trigger ex_hist 0) (days (fun _ => 1%Z)) == 3)%Q /\ (total (length ex_hist) (trigger ex_hist 0) (tracked ex_hist 0) == 6)%Q.
Proof.
  split; [intros k; unfold ex_time; lia|]. split; [intros N; now specialize (N 0 ltac:(cbn; lia))|]. split; [|split; reflexivity].
  intros k Hk. cbn in Hk. destruct k as [|[|[|[|k]]]]; [reflexivity..|lia].
Qed.

(** C87 (refuted part): in a model that is not the first one of a MultiModel, an event that is still open at the end of the run loses its last timestep:
    the sum of the durations differs from the number of days in triggered timesteps. *)
Theorem C87_later_model_refuted : exists ncomb history l time len i v,
  run_later_model 1 ncomb history = Some l /\ i < ncomb /\ whole_days time len /\
  nth i (durations PSum time ncomb l) None = Some v /\ ~ (v == total (length history) (trigger history i) (days len))%Q.
Proof.
  exists 2, ex_hist. eexists. exists ex_time, (fun _ => 1%Z), 0. eexists. split; [reflexivity|]. split; [lia|]. split; [intros k; unfold ex_time; lia|].
  split; [reflexivity|]. discriminate.
Qed.
Print Assumptions C87_later_model_refuted.
