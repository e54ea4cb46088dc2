(** Proofs about events. *)
From Verif Require Import Base Ring Events_model Events_spec.
From Coq Require Import Sorting.Sorted.
Local Open Scope nat_scope.

(** ** One scenario on its own *)

Definition track : Type := list event * option (nat * list Q).

Definition track_step (minimum t id : nat) (triggered : bool) (value : Q) (p : track) : track :=
  match snd p with
  | Some (start, values) =>
      if triggered then (fst p, Some (start, values ++ [value]))
      else (if minimum <=? t - start then fst p ++ [Event id start t values] else fst p, None)
  | None => if triggered then (fst p, Some (t, [value])) else (fst p, None)
  end.

Definition of_scenario (i : nat) (l : list event) : list event := filter (fun e => Nat.eqb (e_scenario e) i) l.
Definition proj (i : nat) (s : state) : track := (of_scenario i (s_events s), nth i (s_current s) None).

Lemma of_scenario_app i l m : of_scenario i (l ++ m) = of_scenario i l ++ of_scenario i m.
Proof. apply filter_app. Qed.

Lemma after_one_length minimum t id tr v s : length (s_current (after_one minimum t id tr v s)) = length (s_current s).
Proof. unfold after_one. destruct (nth id _ None) as [[? ?]|]; destruct tr; cbn [s_current]; apply upd_length. Qed.

Lemma proj_same minimum t i tr v s : i < length (s_current s) ->
  proj i (after_one minimum t i tr v s) = track_step minimum t i tr v (proj i s).
Proof.
  intros H. unfold proj, track_step, after_one. cbn [snd fst].
  destruct (nth i (s_current s) None) as [[start values]|]; destruct tr; cbn [s_events s_current];
    rewrite nth_upd by exact H; rewrite Nat.eqb_refl; try reflexivity.
  f_equal. destruct (minimum <=? t - start); [|reflexivity]. rewrite of_scenario_app.
  cbn. rewrite Nat.eqb_refl. reflexivity.
Qed.

Lemma proj_other minimum t i j tr v s : j < length (s_current s) -> i <> j ->
  proj i (after_one minimum t j tr v s) = proj i s.
Proof.
  intros H N. unfold proj, after_one. apply Nat.eqb_neq in N.
  destruct (nth j (s_current s) None) as [[start values]|]; destruct tr; cbn [s_events s_current];
    rewrite nth_upd by exact H; rewrite N; try reflexivity.
  f_equal. destruct (minimum <=? t - start); [|reflexivity]. rewrite of_scenario_app. cbn.
  apply Nat.eqb_neq in N. destruct (Nat.eqb_spec j i); [congruence|]. apply app_nil_r.
Qed.

Lemma fold_other minimum t (row : list (bool * Q)) i : forall ids s,
  (forall id, In id ids -> id < length (s_current s) /\ id <> i) ->
  let s' := fold_left (fun s id => after_one minimum t id (fst (nth id row (false, 0%Q))) (snd (nth id row (false, 0%Q))) s) ids s in
  proj i s' = proj i s /\ length (s_current s') = length (s_current s).
Proof.
  induction ids as [|id ids IH]; intros s H; [split; reflexivity|]. cbn [fold_left].
  destruct (H id (or_introl eq_refl)) as [H1 H2].
  set (s1 := after_one _ _ _ _ _ s). assert (length (s_current s1) = length (s_current s)) as L by apply after_one_length.
  destruct (IH s1) as [A B]. { intros x Hx. rewrite L. apply H. now right. }
  cbv zeta in A, B. rewrite A, B. split; [|exact L]. apply proj_other; auto.
Qed.

Lemma seq_split n i : i < n -> seq 0 n = seq 0 i ++ i :: seq (S i) (n - S i).
Proof.
  intros H. replace n with (i + S (n - S i)) at 1 by lia. rewrite seq_app. reflexivity.
Qed.

Lemma proj_after minimum t row i s : i < length (s_current s) ->
  proj i (after minimum t row s) = track_step minimum t i (fst (nth i row (false, 0%Q))) (snd (nth i row (false, 0%Q))) (proj i s) /\
  length (s_current (after minimum t row s)) = length (s_current s).
Proof.
  intros H. unfold after. rewrite (seq_split _ i H), fold_left_app. cbn [fold_left].
  destruct (fold_other minimum t row i (seq 0 i) s) as [A B]. { intros id Hid. apply in_seq in Hid. lia. }
  cbv zeta in A, B. set (s1 := fold_left _ (seq 0 i) s) in *. clearbody s1.
  set (s2 := after_one _ _ _ _ _ s1).
  assert (length (s_current s2) = length (s_current s)) as L2 by (unfold s2; rewrite after_one_length; exact B).
  destruct (fold_other minimum t row i (seq (S i) (length (s_current s) - S i)) s2) as [C D].
  { intros id Hid. apply in_seq in Hid. lia. }
  cbv zeta in C, D. rewrite C, D. split; [|exact L2]. unfold s2. rewrite proj_same by lia. rewrite A. reflexivity.
Qed.

Definition track_finish (t id : nat) (p : track) : track :=
  match snd p with Some (start, values) => (fst p ++ [Event id start t values], None) | None => p end.

Lemma finish_one_length t id s : length (s_current (finish_one t id s)) = length (s_current s).
Proof. unfold finish_one. destruct (nth id _ None) as [[? ?]|]; cbn [s_current]; rewrite ?upd_length; reflexivity. Qed.

Lemma finish_other t i : forall ids s, (forall id, In id ids -> id < length (s_current s) /\ id <> i) ->
  let s' := fold_left (fun s id => finish_one t id s) ids s in
  proj i s' = proj i s /\ length (s_current s') = length (s_current s).
Proof.
  induction ids as [|id ids IH]; intros s H; [split; reflexivity|]. cbn [fold_left].
  destruct (H id (or_introl eq_refl)) as [H1 H2].
  set (s1 := finish_one t id s). assert (length (s_current s1) = length (s_current s)) as L by apply finish_one_length.
  destruct (IH s1) as [A B]. { intros x Hx. rewrite L. apply H. now right. }
  cbv zeta in A, B. rewrite A, B. split; [|exact L]. unfold s1, finish_one, proj.
  destruct (nth id (s_current s) None) as [[start values]|]; [|reflexivity]. cbn [s_events s_current].
  rewrite nth_upd by exact H1. destruct (Nat.eqb_spec i id); [congruence|]. rewrite of_scenario_app. cbn.
  destruct (Nat.eqb_spec id i); [congruence|]. rewrite app_nil_r. reflexivity.
Qed.

Lemma proj_finish t i s : i < length (s_current s) -> proj i (finish t s) = track_finish t i (proj i s).
Proof.
  intros H. unfold finish. rewrite (seq_split _ i H), fold_left_app. cbn [fold_left].
  destruct (finish_other t i (seq 0 i) s) as [A B]. { intros id Hid. apply in_seq in Hid. lia. }
  cbv zeta in A, B. set (s1 := fold_left _ (seq 0 i) s) in *. clearbody s1.
  destruct (finish_other t i (seq (S i) (length (s_current s) - S i)) (finish_one t i s1)) as [C D].
  { intros id Hid. apply in_seq in Hid. rewrite finish_one_length. lia. }
  cbv zeta in C, D. rewrite C. rewrite <- A. unfold finish_one, track_finish, proj; cbn [snd fst].
  destruct (nth i (s_current s1) None) as [[start values]|] eqn:E; [|rewrite E; reflexivity].
  cbn [s_events s_current]. rewrite nth_upd by lia. rewrite Nat.eqb_refl, of_scenario_app. cbn. rewrite Nat.eqb_refl. reflexivity.
Qed.

(** ** The history of one scenario *)

Section One.
  Variables (minimum id : nat) (trig : nat -> bool) (val : nat -> Q).

  Fixpoint track_run (t : nat) : track :=
    match t with
    | 0 => ([], None)
    | S t' => track_step minimum t' id (trig t') (val t') (track_run t')
    end.

  Definition values_of (a b : nat) : list Q := map val (seq a (b - a)).

  (** Left end of a period that is triggered up to (not including) t. *)
  Definition open_at (t a : nat) : Prop :=
    a < t /\ (forall j, a <= j < t -> trig j = true) /\ (a = 0 \/ trig (a - 1) = false).

  Lemma values_of_S a b : a <= b -> values_of a (S b) = values_of a b ++ [val b].
  Proof.
    intros H. unfold values_of. replace (S b - a) with (S (b - a)) by lia. rewrite seq_S, map_app. cbn.
    do 2 f_equal. f_equal. lia.
  Qed.

  Lemma track_run_current t :
    (exists a, snd (track_run t) = Some (a, values_of a t) /\ open_at t a) \/
    (snd (track_run t) = None /\ (t = 0 \/ trig (t - 1) = false)).
  Proof.
    induction t as [|t IH]; [right; cbn; auto|]. cbn [track_run]. unfold track_step.
    replace (S t - 1) with t by lia.
    destruct IH as [(a & E & O1 & O2 & O3)|[E O]]; rewrite E; destruct (trig t) eqn:T; cbn [snd].
    - left. exists a. rewrite values_of_S by lia. split; [reflexivity|]. split; [lia|]. split; [|exact O3].
      intros j Hj. destruct (Nat.eq_dec j t) as [->|]; [exact T|apply O2; lia].
    - right. auto.
    - left. exists t. rewrite values_of_S by lia. unfold values_of. rewrite Nat.sub_diag. split; [reflexivity|].
      split; [lia|]. split; [|exact O]. intros j Hj. replace j with t by lia. exact T.
    - right. auto.
  Qed.

  Lemma open_unique t a b : open_at t a -> open_at t b -> a = b.
  Proof.
    intros (A1 & A2 & A3) (B1 & B2 & B3).
    destruct (Nat.lt_trichotomy a b) as [L|[L|L]]; [|exact L|].
    - destruct B3 as [B3|B3]; [lia|]. rewrite A2 in B3 by lia. discriminate.
    - destruct A3 as [A3|A3]; [lia|]. rewrite B2 in A3 by lia. discriminate.
  Qed.

  (** Periods that ended before t and are long enough. *)
  Definition closed_before (t a b : nat) : Prop :=
    b < t /\ open_at b a /\ trig b = false /\ minimum <= b - a.

  Lemma track_run_events t e : In e (fst (track_run t)) <->
    exists a b, closed_before t a b /\ e = Event id a b (values_of a b).
  Proof.
    revert e. induction t as [|t IH]; intros e.
    - cbn. split; [easy|]. intros (a & b & (H & _) & _). lia.
    - cbn [track_run]. unfold track_step.
      assert (forall a b, closed_before t a b -> closed_before (S t) a b) as M by (intros a b (H & K); split; [lia|exact K]).
      destruct (track_run_current t) as [(a & E & O)|[E O]]; rewrite E; destruct (trig t) eqn:T; cbn [fst].
      + rewrite IH. split; intros (x & y & C & D); exists x, y; split; auto.
        destruct C as (C1 & C2 & C3 & C4). split; [|auto]. destruct (Nat.eq_dec y t) as [->|]; [congruence|lia].
      + assert (In e (if minimum <=? t - a then fst (track_run t) ++ [Event id a t (values_of a t)] else fst (track_run t)) <->
          In e (fst (track_run t)) \/ (minimum <= t - a /\ e = Event id a t (values_of a t))) as ->.
        { destruct (Nat.leb_spec minimum (t - a)).
          - rewrite in_app_iff. cbn. split; intros [H1|H1]; auto; [destruct H1 as [<-|[]]; auto|destruct H1; auto].
          - split; [auto|]. intros [H1|[H1 _]]; [exact H1|lia]. }
        rewrite IH. split.
        * intros [(x & y & C & D)|[C D]]; [exists x, y; auto|]. exists a, t. split; [|exact D].
          split; [lia|]. split; [exact O|]. split; [exact T|exact C].
        * intros (x & y & (C1 & C2 & C3 & C4) & D). destruct (Nat.eq_dec y t) as [->|].
          -- right. rewrite (open_unique _ _ _ C2 O) in *. auto.
          -- left. exists x, y. split; [|exact D]. split; [lia|auto].
      + rewrite IH. split; intros (x & y & C & D); exists x, y; split; auto.
        destruct C as (C1 & C2 & C3 & C4). split; [|auto]. destruct (Nat.eq_dec y t) as [->|]; [congruence|lia].
      + rewrite IH. split; intros (x & y & C & D); exists x, y; split; auto.
        destruct C as (C1 & C2 & C3 & C4). split; [|auto]. destruct (Nat.eq_dec y t) as [->|]; [|lia].
        destruct C2 as (P & Q & _). destruct O as [O|O]; [lia|]. rewrite Q in O by lia. discriminate.
  Qed.

  (** Events are in order: each ends before the next one starts. *)
  Definition before_event (e f : event) : Prop := e_end e < e_start f.

  Lemma Sorted_snoc {A} (R : A -> A -> Prop) l x : StronglySorted R l -> (forall y, In y l -> R y x) -> StronglySorted R (l ++ [x]).
  Proof.
    induction 1 as [|y l S IH F]; intros H; cbn.
    - repeat constructor.
    - constructor.
      + apply IH. intros z Hz. apply H. now right.
      + rewrite Forall_forall in *. intros z Hz. apply in_app_iff in Hz as [Hz|[<-|[]]]; [auto|]. apply H. now left.
  Qed.

  Lemma closed_before_open t a b c : closed_before t a b -> open_at t c -> b < c.
  Proof.
    intros (L & _ & T & _) (O1 & O2 & _). destruct (Nat.lt_ge_cases b c) as [H|H]; [exact H|].
    rewrite O2 in T by lia. discriminate.
  Qed.

  Lemma track_run_sorted t : StronglySorted before_event (fst (track_run t)).
  Proof.
    induction t as [|t IH]; [constructor|]. cbn [track_run]. unfold track_step.
    destruct (track_run_current t) as [(a & E & O)|[E O]]; rewrite E; destruct (trig t); cbn [fst]; try exact IH.
    destruct (minimum <=? t - a); [|exact IH]. apply Sorted_snoc; [exact IH|].
    intros y Hy. apply track_run_events in Hy as (x & z & C & ->). unfold before_event; cbn. eapply closed_before_open; eauto.
  Qed.

  Lemma track_finish_spec n :
    let l := fst (track_finish n id (track_run n)) in
    StronglySorted before_event l /\
    forall e, In e l <-> exists a b, maximal_period n trig a b /\ (minimum <= b - a \/ b = n) /\ e = Event id a b (values_of a b).
  Proof.
    cbv zeta. unfold track_finish.
    assert (forall e, In e (fst (track_run n)) <-> exists a b, maximal_period n trig a b /\ b < n /\ minimum <= b - a /\ e = Event id a b (values_of a b)) as K.
    { intros e. rewrite track_run_events. split.
      - intros (a & b & (C1 & (O1 & O2 & O3) & C3 & C4) & D). exists a, b. split; [|auto]. split; [lia|]. split; [exact O2|]. auto.
      - intros (a & b & (M1 & M2 & M3 & M4) & L & C & D). exists a, b. split; [|exact D]. split; [exact L|].
        split; [split; [lia|split; [exact M2|exact M3]]|]. split; [|exact C]. destruct M4 as [M4|M4]; [lia|exact M4]. }
    destruct (track_run_current n) as [(a & E & O)|[E O]]; rewrite E; cbn [fst].
    - split.
      + apply Sorted_snoc; [apply track_run_sorted|]. intros y Hy. apply track_run_events in Hy as (x & z & C & ->).
        unfold before_event; cbn. eapply closed_before_open; eauto.
      + intros e. rewrite in_app_iff, K. split.
        * intros [(x & y & M & L & C & D)|[<-|[]]]; [exists x, y; auto|]. destruct O as (O1 & O2 & O3).
          exists a, n. split; [|auto]. split; [lia|]. split; [exact O2|]. auto.
        * intros (x & y & M & C & D). destruct (Nat.eq_dec y n) as [->|N].
          -- right. left. destruct M as (M1 & M2 & M3 & _).
             assert (x = a) as -> by (apply (open_unique n); [split; [lia|auto]|exact O]). auto.
          -- left. exists x, y. destruct M as (M1 & M'). split; [split; auto|]. split; [lia|]. split; [|exact D]. destruct C; [assumption|contradiction].
    - split; [apply track_run_sorted|]. intros e. rewrite K. split.
      + intros (x & y & M & L & C & D). exists x, y. auto.
      + intros (x & y & M & C & D). exists x, y. destruct (Nat.eq_dec y n) as [->|N].
        * exfalso. destruct M as (M1 & M2 & _). destruct O as [O|O]; [lia|]. rewrite M2 in O by lia. discriminate.
        * split; [exact M|]. destruct M as (M1 & _). split; [lia|]. split; [|exact D]. destruct C; [assumption|contradiction].
  Qed.
End One.

Lemma track_run_ext minimum id trig trig' val val' t :
  (forall j, j < t -> trig j = trig' j /\ val j = val' j) -> track_run minimum id trig val t = track_run minimum id trig' val' t.
Proof.
  induction t as [|t IH]; intros H; [reflexivity|]. cbn [track_run]. destruct (H t) as [-> ->]; [lia|].
  rewrite IH; [reflexivity|]. intros j Hj. apply H. lia.
Qed.

(** Trigger and tracked value of scenario [i] in timestep [j]. *)
Definition trigger (history : list (list (bool * Q))) (i j : nat) : bool := fst (nth i (nth j history []) (false, 0%Q)).
Definition tracked (history : list (list (bool * Q))) (i j : nat) : Q := snd (nth i (nth j history []) (false, 0%Q)).

Lemma steps_app minimum h : forall t x s, steps minimum t (h ++ [x]) s = after minimum (t + length h) x (steps minimum t h s).
Proof.
  induction h as [|r h IH]; intros t x s; cbn [app steps length]; [rewrite Nat.add_0_r; reflexivity|].
  rewrite IH. f_equal. lia.
Qed.

Lemma steps_proj minimum ncomb history i : i < ncomb ->
  proj i (steps minimum 0 history (reset ncomb)) = track_run minimum i (trigger history i) (tracked history i) (length history) /\
  length (s_current (steps minimum 0 history (reset ncomb))) = ncomb.
Proof.
  intros Hi. induction history as [|x h IH] using rev_ind.
  - cbn. split; [|apply repeat_length]. unfold proj. cbn. rewrite nth_repeat. reflexivity.
  - destruct IH as [A B]. rewrite steps_app. cbn [Nat.add]. rewrite app_length. cbn [length]. rewrite Nat.add_1_r. cbn [track_run].
    destruct (proj_after minimum (length h) x i (steps minimum 0 h (reset ncomb))) as [C D]; [lia|].
    rewrite C, D, A. split; [|exact B].
    assert (trigger (h ++ [x]) i (length h) = fst (nth i x (false, 0%Q)) /\ tracked (h ++ [x]) i (length h) = snd (nth i x (false, 0%Q))) as [-> ->].
    { unfold trigger, tracked. rewrite app_nth2, Nat.sub_diag by lia. auto. }
    f_equal. apply track_run_ext. intros j Hj. unfold trigger, tracked. rewrite app_nth1 by lia. auto.
Qed.

Lemma run_spec minimum ncomb history l i : run minimum ncomb history = Some l -> i < ncomb ->
  let n := length history in
  StronglySorted before_event (of_scenario i l) /\
  forall e, In e (of_scenario i l) <-> exists a b, maximal_period n (trigger history i) a b /\ (minimum <= b - a \/ b = n) /\
    e = Event i a b (values_of (tracked history i) a b).
Proof.
  unfold run. destruct (minimum <? 1); [discriminate|]. intros H Hi. injection H as <-. cbv zeta.
  destruct (steps_proj minimum ncomb history i Hi) as [A B].
  pose proof (proj_finish (length history) i (steps minimum 0 history (reset ncomb))) as P. rewrite B in P. specialize (P Hi).
  rewrite A in P. apply (f_equal fst) in P. cbn [proj fst] in P. rewrite P. apply track_finish_spec.
Qed.

(** No event of a scenario that does not exist. *)
Lemma after_scenarios minimum t row s : Forall (fun e => e_scenario e < length (s_current s)) (s_events s) ->
  Forall (fun e => e_scenario e < length (s_current (after minimum t row s))) (s_events (after minimum t row s)) /\
  length (s_current (after minimum t row s)) = length (s_current s).
Proof.
  unfold after. set (n := length (s_current s)). assert (forall id, In id (seq 0 n) -> id < n) as B by (intros id H; apply in_seq in H; lia).
  assert (length (s_current s) = n) as E by reflexivity. clearbody n. revert s E B.
  induction (seq 0 n) as [|id ids IH]; intros s E B F; cbn [fold_left]; [rewrite E; auto|].
  apply IH; [rewrite after_one_length; exact E|intros x Hx; apply B; now right|].
  specialize (B id (or_introl eq_refl)). unfold after_one.
  destruct (nth id (s_current s) None) as [[start values]|]; destruct (fst _); cbn [s_events]; auto.
  destruct (minimum <=? t - start); [|exact F]. apply Forall_app. split; [exact F|]. repeat constructor. exact B.
Qed.

Lemma run_scenarios minimum ncomb history l e : run minimum ncomb history = Some l -> In e l -> e_scenario e < ncomb.
Proof.
  unfold run. destruct (minimum <? 1); [discriminate|]. intros H Hi. injection H as <-. revert e Hi.
  assert (forall h t s, length (s_current s) = ncomb -> Forall (fun e => e_scenario e < ncomb) (s_events s) ->
    length (s_current (steps minimum t h s)) = ncomb /\ Forall (fun e => e_scenario e < ncomb) (s_events (steps minimum t h s))) as K.
  { induction h as [|r h IH]; intros t s E F; cbn [steps]; [auto|].
    rewrite <- E in F. destruct (after_scenarios minimum t r s F) as [A B]. apply IH; [congruence|]. rewrite B, E in A. exact A. }
  destruct (K history 0 (reset ncomb)) as [A B]; [apply repeat_length|constructor|].
  set (s := steps minimum 0 history (reset ncomb)) in *. clearbody s. apply Forall_forall. unfold finish. rewrite A.
  assert (forall id, In id (seq 0 ncomb) -> id < ncomb) as R by (intros id H; apply in_seq in H; lia).
  revert s A B. induction (seq 0 ncomb) as [|id ids IH]; intros s A B; cbn [fold_left]; [exact B|].
  apply IH; [intros x Hx; apply R; now right|rewrite finish_one_length; exact A|].
  specialize (R id (or_introl eq_refl)). unfold finish_one. destruct (nth id (s_current s) None) as [[start values]|]; [|exact B].
  cbn [s_events]. apply Forall_app. split; [exact B|]. repeat constructor. exact R.
Qed.
