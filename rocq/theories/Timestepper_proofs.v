From Verif Require Import Base Calendar_spec Calendar_model Calendar_proofs Timestepper_model Timestepper_spec.
Local Open Scope Z_scope.
Ltac Zify.zify_post_hook ::= Z.div_mod_to_equations.

Lemma DAY_pos : DAY = 86400000000000. Proof. reflexivity. Qed.
Lemma SECOND_val : SECOND = 1000000000. Proof. reflexivity. Qed.

Lemma delta_days_day d delta : 1 <= delta -> (delta_days (day_period delta d) == inject_Z delta)%Q.
Proof.
  intros H. unfold delta_days, day_period; cbn [p_start p_stop].
  replace (((d + delta) * DAY - 1 - d * DAY + SECOND / 2) / SECOND) with (86400 * delta).
  - rewrite inject_Z_mult. field.
  - rewrite DAY_pos, SECOND_val. change (1000000000 / 2) with 500000000. lia.
Qed.

Lemma inject_pos d : 1 <= d -> (0 < inject_Z d)%Q.
Proof. intros H. change 0%Q with (inject_Z 0). rewrite <- Zlt_Qlt. lia. Qed.

Lemma mk_tstep_day delta d i : 1 <= delta ->
  exists t, mk_tstep (day_period delta d) i (delta_days (day_period delta d)) = Some t /\
    ts_index (st_ts t) = i /\ (ts_days (st_ts t) == inject_Z delta)%Q /\
    st_period t = day_period delta d /\ ts_date (st_ts t) = date_of d.
Proof.
  intros H. unfold mk_tstep, mk_timestep.
  pose proof (delta_days_day d delta H) as E. pose proof (inject_pos delta H) as P.
  destruct (qlebP (delta_days (day_period delta d)) 0) as [L|L]; [lra|].
  eexists. split; [reflexivity|]. cbn [st_ts ts_index ts_days st_period ts_date day_period p_start].
  repeat split; try exact E. f_equal. rewrite DAY_pos. lia.
Qed.

Definition nper (s e delta : Z) : Z := if e <? s then 0 else (e - s) / delta + 1.

Lemma nper_spec s e delta i : 1 <= delta ->
  ((i < Z.to_nat (nper s e delta))%nat <-> s + Z.of_nat i * delta <= e).
Proof.
  intros H. unfold nper. destruct (Z.ltb_spec e s) as [L|L].
  - split; intros K; [lia|]. exfalso. nia.
  - split; intros K; nia.
Qed.

(** Invariant of a timestepper made by [setup]: everything but the position is fixed. *)
Definition base_ok (s e delta : Z) (st : tstate) : Prop :=
  tp_periods st = map (fun i => day_period delta (s + Z.of_nat i * delta)) (seq 0 (Z.to_nat (nper s e delta))) /\
  tp_offset st = day_offset delta.

Definition at_index (s e delta : Z) (i : nat) (st : tstate) : Prop :=
  base_ok s e delta st /\ is_timestep s delta i (tp_next st) /\ (i <= Z.to_nat (nper s e delta))%nat.

Lemma is_timestep_day s delta i t : 
  ts_index (st_ts t) = i -> (ts_days (st_ts t) == inject_Z delta)%Q ->
  st_period t = day_period delta (s + Z.of_nat i * delta) ->
  ts_date (st_ts t) = date_of (s + Z.of_nat i * delta) -> is_timestep s delta i t.
Proof.
  intros H1 H2 H3 H4. unfold is_timestep. repeat split; try assumption.
  rewrite H3. unfold day_period. f_equal. f_equal. lia.
Qed.

Lemma next_at s e delta i st : 1 <= delta -> at_index s e delta i st ->
  exists st' o, next st = Some (st', o) /\
   expected_output s e delta i o /\
   tp_current st' = Some (tp_next st) /\
   tp_last_length st' = tp_last_length st /\
   at_index s e delta (if Nat.ltb i (Z.to_nat (nper s e delta)) then S i else i) st'.
Proof.
  intros Hd [[Hp Ho] [Ht Hi]]. unfold next. rewrite Hp, map_length, seq_length.
  destruct Ht as [T1 [T2 [T3 T4]]]. rewrite T1.
  destruct (Nat.leb_spec (Z.to_nat (nper s e delta)) i) as [L|L].
  - eexists _, _. split; [reflexivity|]. split.
    { cbn. pose proof (nper_spec s e delta i Hd). lia. }
    split; [reflexivity|]. split; [reflexivity|].
    destruct (Nat.ltb_spec i (Z.to_nat (nper s e delta))); [lia|].
    repeat split; cbn; try assumption; try reflexivity; try lia.
  - set (np := match nth_error _ (S i) with Some p => p | None => _ end).
    assert (np = day_period delta (s + Z.of_nat (S i) * delta)) as E.
    { unfold np. destruct (nth_error _ (S i)) as [p|] eqn:En.
      - assert (S i < Z.to_nat (nper s e delta))%nat as Hlt.
        { pose proof (nth_error_Some (map (fun i0 : nat => day_period delta (s + Z.of_nat i0 * delta))
            (seq 0 (Z.to_nat (nper s e delta)))) (S i)) as Q1. rewrite map_length, seq_length in Q1.
          apply Q1. rewrite En. discriminate. }
        rewrite (nth_error_seq_map (fun i0 : nat => day_period delta (s + Z.of_nat i0 * delta))) in En by assumption.
        now injection En as <-.
      - rewrite Ho, T3. unfold day_offset, day_period; cbn [p_start p_stop]. f_equal; nia. }
    rewrite E. destruct (mk_tstep_day delta (s + Z.of_nat (S i) * delta) (S i) Hd) as [t [Et [A [B [C D]]]]].
    rewrite Et. eexists _, _. split; [reflexivity|]. split.
    { cbn. split; [apply nper_spec; [assumption|lia]|]. repeat split; assumption. }
    split; [reflexivity|]. split; [reflexivity|].
    destruct (Nat.ltb_spec i (Z.to_nat (nper s e delta))); [|lia].
    split; [split; cbn; [reflexivity|assumption]|]. cbn [tp_next].
    split; [|lia]. apply is_timestep_day; assumption.
Qed.

Lemma expected_none_mono s e delta i j : 1 <= delta -> (i <= j)%nat ->
  e < s + Z.of_nat i * delta -> e < s + Z.of_nat j * delta.
Proof. intros. nia. Qed.

Lemma nexts_at s e delta k : 1 <= delta -> forall i st, at_index s e delta i st ->
  exists st' os, nexts k st = Some (st', os) /\ length os = k /\
   (forall j o, nth_error os j = Some o -> expected_output s e delta (i + j) o) /\
   at_index s e delta (Nat.min (i + k) (Z.to_nat (nper s e delta))) st' /\
   tp_last_length st' = tp_last_length st.
Proof.
  intros Hd. induction k as [|k IH]; intros i st Hat; cbn [nexts].
  - exists st, []. split; [reflexivity|]. split; [reflexivity|]. split.
    + intros j o H. destruct j; discriminate.
    + split; [|reflexivity]. replace (Nat.min _ _) with i; [exact Hat|]. destruct Hat as [_ [_ ?]]. lia.
  - destruct (next_at s e delta i st Hd Hat) as [st1 [o [E1 [X1 [_ [L1 A1]]]]]].
    rewrite E1. destruct (IH _ _ A1) as [st2 [os [E2 [L2 [X2 [A2 L3]]]]]]. rewrite E2.
    exists st2, (o :: os). split; [reflexivity|]. split; [cbn; lia|]. split.
    + intros j o' Hj. destruct j as [|j]; cbn in Hj.
      * injection Hj as <-. now rewrite Nat.add_0_r.
      * specialize (X2 _ _ Hj). destruct (Nat.ltb_spec i (Z.to_nat (nper s e delta))) as [L|L].
        -- now replace (i + S j)%nat with (S i + j)%nat by lia.
        -- (* exhausted: both are StopIteration *)
           assert (i = Z.to_nat (nper s e delta)) as Ei by (destruct Hat as [_ [_ ?]]; lia).
           assert (e < s + Z.of_nat i * delta) by (pose proof (nper_spec s e delta i Hd); lia).
           destruct o' as [t|]; cbn in X2 |- *.
           ++ exfalso. destruct X2 as [X2 _]. assert (e < s + Z.of_nat (i + j) * delta); [|lia].
              apply (expected_none_mono s e delta i); [assumption|lia|assumption].
           ++ apply (expected_none_mono s e delta i); [assumption|lia|assumption].
    + split; [|congruence]. destruct Hat as [_ [_ Hi]].
      destruct (Nat.ltb_spec i (Z.to_nat (nper s e delta))) as [L|L];
      match goal with A : at_index _ _ _ ?x _ |- at_index _ _ _ ?y _ => replace y with x by lia; exact A end.
Qed.

Lemma reset_core_at s e delta last i : 1 <= delta ->
  (i < Z.to_nat (nper s e delta))%nat ->
  let ps := map (fun i => day_period delta (s + Z.of_nat i * delta)) (seq 0 (Z.to_nat (nper s e delta))) in
  exists nxt, nth_error ps i = Some (day_period delta (s + Z.of_nat i * delta)) /\
   mk_tstep (day_period delta (s + Z.of_nat i * delta)) i (delta_days (day_period delta (s + Z.of_nat i * delta))) = Some nxt /\
   at_index s e delta i (TState ps (day_offset delta) None nxt last).
Proof.
  intros Hd Hi ps. destruct (mk_tstep_day delta (s + Z.of_nat i * delta) i Hd) as [t [Et [A [B [C D]]]]].
  exists t. split.
  - unfold ps. now apply (nth_error_seq_map (fun i => day_period delta (s + Z.of_nat i * delta))).
  - split; [exact Et|]. split; [split; reflexivity|]. cbn [tp_next]. split; [|lia].
    apply is_timestep_day; assumption.
Qed.

Lemma setup_spec start stop delta :
  (1 <= delta /\ start / DAY <= stop / DAY) <-> (exists st, setup start stop delta = Some st).
Proof.
  unfold setup, day_periods. destruct (Z.leb_spec delta 0) as [L|L].
  - split; [lia|]. intros [st H]. discriminate.
  - fold (nper (start / DAY) (stop / DAY) delta).
    set (s := start / DAY). set (e := stop / DAY).
    destruct (Z_lt_le_dec e s) as [E|E].
    + split; [lia|]. intros [st H]. unfold nper in H. destruct (Z.ltb_spec e s); [|lia]. discriminate.
    + split; [|lia]. intros _.
      assert (0 < Z.to_nat (nper s e delta))%nat as Hn.
      { apply nper_spec; lia. }
      destruct (reset_core_at s e delta (Some (Z.to_nat (nper s e delta))) 0 ltac:(lia) Hn) as [nxt [E1 [E2 A]]].
      unfold reset_core. rewrite E1, E2. cbn. eexists; reflexivity.
Qed.

Lemma setup_at start stop delta st : setup start stop delta = Some st ->
  1 <= delta /\ at_index (start / DAY) (stop / DAY) delta 0 st /\
  tp_last_length st = Some (ts_len st).
Proof.
  intros H. assert (1 <= delta /\ start / DAY <= stop / DAY) as [Hd Hse].
  { apply setup_spec. now exists st. }
  split; [assumption|]. unfold setup, day_periods in H.
  destruct (Z.leb_spec delta 0); [lia|].
  fold (nper (start / DAY) (stop / DAY) delta) in H.
  assert (0 < Z.to_nat (nper (start / DAY) (stop / DAY) delta))%nat as Hn by (apply nper_spec; lia).
  destruct (reset_core_at (start / DAY) (stop / DAY) delta (Some (Z.to_nat (nper (start / DAY) (stop / DAY) delta))) 0 Hd Hn) as [nxt [E1 [E2 A]]].
  unfold reset_core in H. rewrite E1, E2 in H. cbn in H. injection H as <-.
  rewrite map_length, seq_length. split; [exact A|]. unfold ts_len; cbn. now rewrite map_length, seq_length.
Qed.

Lemma ts_len_spec start stop delta st i : setup start stop delta = Some st ->
  ((i < ts_len st)%nat <-> start / DAY + Z.of_nat i * delta <= stop / DAY).
Proof.
  intros H. destruct (setup_at _ _ _ _ H) as [Hd [[[Hp _] _] _]].
  unfold ts_len. rewrite Hp, map_length, seq_length. now apply nper_spec.
Qed.

Lemma ts_len_nper start stop delta st : setup start stop delta = Some st ->
  ts_len st = Z.to_nat (nper (start / DAY) (stop / DAY) delta).
Proof.
  intros H. destruct (setup_at _ _ _ _ H) as [Hd [[[Hp _] _] _]].
  unfold ts_len. now rewrite Hp, map_length, seq_length.
Qed.

Lemma iterate_spec start stop delta st k : setup start stop delta = Some st ->
  exists st' os, nexts k st = Some (st', os) /\ length os = k /\
    (forall j o, nth_error os j = Some o -> expected_output (start / DAY) (stop / DAY) delta j o).
Proof.
  intros H. destruct (setup_at _ _ _ _ H) as [Hd [A _]].
  destruct (nexts_at _ _ _ k Hd _ _ A) as [st' [os [E [L [X _]]]]].
  exists st', os. repeat split; try assumption.
Qed.

Lemma next_current_set st st' o : next st = Some (st', o) -> tp_current st' = Some (tp_next st).
Proof.
  unfold next. destruct (Nat.leb _ _).
  - intros H. injection H as <- <-. reflexivity.
  - destruct (mk_tstep _ _ _); [|discriminate]. intros H. injection H as <- <-. reflexivity.
Qed.

Lemma nexts_snoc k : forall st st' os,
  nexts (S k) st = Some (st', os) ->
  exists st1 os1 o, nexts k st = Some (st1, os1) /\ next st1 = Some (st', o) /\ os = os1 ++ [o].
Proof.
  induction k as [|k IH]; intros st st' os H.
  - cbn in H. destruct (next st) as [[st1 o]|] eqn:E; [|discriminate]. injection H as <- <-.
    exists st, [], o. repeat split. exact E.
  - cbn [nexts] in H. destruct (next st) as [[st1 o]|] eqn:E; [|discriminate].
    destruct (match next st1 with Some _ => _ | None => _ end) as [[st2 os2]|] eqn:E2; [|discriminate].
    injection H as <- <-.
    destruct (IH st1 st2 os2) as [st3 [os3 [o3 [A [B C]]]]]; [cbn [nexts]; exact E2|].
    exists st3, (o :: os3), o3. cbn [nexts]. rewrite E, A. repeat split; [exact B|]. now rewrite C.
Qed.

(** After the loop [for t in timestepper] has ended, [current.index] is the number of timesteps. *)
Lemma exhausted_current start stop delta st k st' os :
  setup start stop delta = Some st -> (ts_len st < k)%nat -> nexts k st = Some (st', os) ->
  exists t, tp_current st' = Some t /\ ts_index (st_ts t) = ts_len st.
Proof.
  intros H Hk E. destruct k as [|k]; [lia|].
  destruct (nexts_snoc _ _ _ _ E) as [st1 [os1 [o [E1 [E2 _]]]]].
  exists (tp_next st1). split; [now apply next_current_set in E2|].
  destruct (setup_at _ _ _ _ H) as [Hd [A _]].
  destruct (nexts_at _ _ _ k Hd _ _ A) as [st2 [os2 [E3 [_ [_ [A2 _]]]]]].
  rewrite E1 in E3. injection E3 as <- <-. destruct A2 as [_ [T _]]. destruct T as [T _]. rewrite T.
  rewrite (ts_len_nper _ _ _ _ H) in Hk |- *. lia.
Qed.

(** *** reset(start) *)
Lemma find_period_spec start ps : forall k,
  match find_period start k ps with
  | Some i => exists p, (k <= i)%nat /\ nth_error ps (i - k) = Some p /\ p_start p <= start < p_stop p - 1
  | None => forall p, In p ps -> ~ (p_start p <= start < p_stop p - 1)
  end.
Proof.
  induction ps as [|p ps IH]; intros k; cbn [find_period]; [intros q []|].
  destruct ((p_start p <=? start) && (start <? p_stop p - 1)) eqn:E.
  - exists p. rewrite Nat.sub_diag. split; [lia|]. split; [reflexivity|lia].
  - specialize (IH (S k)). destruct (find_period start (S k) ps) as [i|].
    + destruct IH as [q [Hk [Hq Hr]]]. exists q. split; [lia|]. split; [|exact Hr].
      replace (i - k)%nat with (S (i - S k)) by lia. exact Hq.
    + intros q [<-|Hq]; [lia|now apply IH].
Qed.

Lemma reset_start_spec start stop delta st0 k st os d :
  setup start stop delta = Some st0 -> nexts k st0 = Some (st, os) ->
  match reset st (Some d) with
  | Some (st', _) =>
      exists i, (i < ts_len st0)%nat /\
        (start / DAY + Z.of_nat i * delta) * DAY <= d < (start / DAY + (Z.of_nat i + 1) * delta) * DAY /\
        (forall n, exists st'' os', nexts n st' = Some (st'', os') /\ length os' = n /\
           forall j o, nth_error os' j = Some o ->
             expected_output (start / DAY) (stop / DAY) delta (i + j) o)
  | None =>
      forall i, (i < ts_len st0)%nat ->
        ~ ((start / DAY + Z.of_nat i * delta) * DAY <= d < (start / DAY + (Z.of_nat i + 1) * delta) * DAY - 1)
  end.
Proof.
  intros H E. destruct (setup_at _ _ _ _ H) as [Hd [A HL]].
  destruct (nexts_at _ _ _ k Hd _ _ A) as [st2 [os2 [E2 [_ [_ [A2 L2]]]]]].
  rewrite E in E2. injection E2 as <- <-. destruct A2 as [[Hp Ho] _].
  unfold reset, reset_core. rewrite Hp.
  set (s := start / DAY) in *. set (e := stop / DAY) in *.
  set (ps := map _ _). pose proof (find_period_spec d ps 0) as F.
  rewrite (ts_len_nper _ _ _ _ H). fold s e.
  destruct (find_period d 0 ps) as [i|].
  - destruct F as [p [_ [Hn Hr]]]. rewrite Nat.sub_0_r in Hn. rewrite Hn.
    assert (i < Z.to_nat (nper s e delta))%nat as Hi.
    { assert (i < length ps)%nat as X by (apply nth_error_Some; rewrite Hn; discriminate).
      unfold ps in X. now rewrite map_length, seq_length in X. }
    destruct (reset_core_at s e delta (Some (length ps)) i Hd Hi) as [nxt [E1 [E3 A3]]].
    fold ps in E1. rewrite Hn in E1. injection E1 as ->. rewrite E3.
    exists i. split; [exact Hi|]. cbn [day_period p_start p_stop] in Hr.
    split; [lia|].
    intros n. rewrite Ho. fold ps in A3.
    destruct (nexts_at _ _ _ n Hd _ _ A3) as [st3 [os3 [E4 [L4 [X4 _]]]]].
    exists st3, os3. repeat split; assumption.
  - intros i Hi Hr. apply (F (day_period delta (s + Z.of_nat i * delta))).
    + unfold ps. apply in_map_iff. exists i. split; [reflexivity|]. apply in_seq. lia.
    + cbn [day_period p_start p_stop]. lia.
Qed.
