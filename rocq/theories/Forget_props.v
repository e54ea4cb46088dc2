(** C33 for recorders: a second run records what the first one did. *)
From Verif Require Import Base Ring LP_model Recorders_model Calendar_spec Calendar_model Tables_proofs Eval_proofs Forget_model.
From Verif Require Buffers_model Events_model Nodes_model Nodes_spec Nodes_props.
Local Open Scope nat_scope.
Local Open Scope list_scope.

(** What a recorder puts out after a run does not depend on its state before, among the states of the shape made by [setup], a shape that runs
    keep. *)
Definition forgets {S O R} (M : machine S O R) (shape : S -> Prop) (complete : list O -> Prop) : Prop :=
  (forall s s' os, shape s -> shape s' -> complete os -> output M os s = output M os s') /\
  (forall s os, shape s -> shape (through M os s)).

(** What the recorder observes of the model in each timestep. *)
Definition observations {W T O} (look : T -> W -> O) (ts : list T) (ws : list W) : list O := map (fun p => look (fst p) (snd p)) (combine ts ws).

(** A recorder of a model that is run again (C33): equal output, whatever was run before. *)
Theorem C33_recorded_partial {MM V} g (P : Nodes_spec.program MM V) m v ts w w' :
  Nodes_spec.graph_ok g -> Nodes_spec.fresh g P m v -> Nodes_spec.blind g P -> Nodes_spec.same_again g P ->
  Nodes_spec.reached g P m v w -> Nodes_spec.reached g P m v w' -> (forall t r, ts = t :: r -> Periodic_model.p_index (Nodes_model.ts_p t) = 0) ->
  forall S O R (M : machine S O R) shape complete look s s', forgets M shape complete -> shape s -> shape s' ->
  complete (observations look ts (Nodes_spec.run g P ts w)) ->
  output M (observations look ts (Nodes_spec.run g P ts w)) s = output M (observations look ts (Nodes_spec.run g P ts w')) s'.
Proof.
  intros G F B SA R R' T S O Rr M shape complete look s s' [FO _] SH SH' C.
  rewrite <- (Nodes_props.C33_rerun_partial g P m v ts w w' G F B SA R R' T). now apply FO.
Qed.
Print Assumptions C33_recorded_partial.

(** ** The recorders *)

Lemma forgets_const {S O R} (M : machine S O R) (shape : S -> Prop) (c : S) (complete : list O -> Prop) :
  (forall s, shape s -> m_reset M s = c) -> (forall s, shape s -> shape (m_reset M s)) -> (forall s o, shape s -> shape (m_after M s o)) ->
  (forall o s, shape s -> shape (m_finish M o s)) -> forgets M shape complete.
Proof.
  intros H HR HA HF. split.
  - intros s s' os Ss Ss' _. unfold output, through. now rewrite (H s Ss), (H s' Ss').
  - intros s os Ss. unfold through. apply HF. assert (K : forall os s, shape s -> shape (fold_left (m_after M) os s)).
    { induction os0 as [|o os0 IH]; intros s0 S0; cbn [fold_left]; [exact S0|]. apply IH. now apply HA. }
    apply K. now apply HR.
Qed.

Lemma map_const {A B} (b : B) (l : list A) : map (fun _ => b) l = repeat b (length l).
Proof. induction l as [|a l IH]; cbn; [reflexivity|]. now rewrite IH. Qed.

Lemma add_each_length : forall a b, length (add_each a b) = length a.
Proof. induction a as [|x a IH]; intros [|y b]; cbn; try reflexivity. now rewrite IH. Qed.

Lemma annual_flow_length y f s o : length (annual_flow_after y f s o) = length s.
Proof.
  unfold annual_flow_after. generalize (length s) at 1. intros n. generalize (combine (snd o) f). intros l. revert s.
  induction l as [|fw l IH]; intros s; cbn [fold_left]; [reflexivity|]. rewrite IH. unfold add_at.
  match goal with |- context [if ?c then _ else _] => destruct c end; now rewrite ?upd_length.
Qed.

(** *** Rolling windows *)
Lemma firstn_upd_end {A} (x : A) : forall l k, k < length l -> firstn (S k) (upd l k x) = firstn k l ++ [x].
Proof. induction l as [|y l IH]; intros [|k] H; cbn [length] in H; [lia|lia|reflexivity|]. cbn [upd firstn app]. f_equal. apply IH. lia. Qed.
Lemma firstn_upd_in {A} (x : A) : forall l k n, k < n -> firstn n (upd l k x) = upd (firstn n l) k x.
Proof. induction l as [|y l IH]; intros [|k] [|n] H; try lia; try reflexivity. cbn [upd firstn]. f_equal. apply IH. lia. Qed.

(** Two memories alike where it has been written, the next position the same. *)
Definition alike (w i : nat) (b b' : Buffers_model.buffer) : Prop :=
  Buffers_model.b_pos b = Buffers_model.b_pos b' /\ firstn (Nat.min i w) (Buffers_model.b_mem b) = firstn (Nat.min i w) (Buffers_model.b_mem b') /\
  Buffers_model.b_pos b < w /\ (i < w -> Buffers_model.b_pos b = i).

Lemma alike_after agg w i b b' v : 1 <= w -> (w <= length (Buffers_model.b_mem b) \/ i < length (Buffers_model.b_mem b)) -> length (Buffers_model.b_mem b) = length (Buffers_model.b_mem b') ->
  alike w i b b' ->
  fst (Buffers_model.window_after agg w i b v) = fst (Buffers_model.window_after agg w i b' v) /\
  alike w (S i) (snd (Buffers_model.window_after agg w i b v)) (snd (Buffers_model.window_after agg w i b' v)).
Proof.
  intros W L LE [P [F [PW PI]]]. unfold Buffers_model.window_after. cbn [fst snd]. destruct (Nat.ltb_spec i w) as [I|I].
  - assert (PE := PI I). rewrite <- P, PE, Nat.add_1_r. rewrite (Nat.min_l i w) in F by lia. rewrite !firstn_upd_end by lia. rewrite F. split; [reflexivity|].
    unfold alike. cbn [Buffers_model.b_mem Buffers_model.b_pos]. rewrite (Nat.min_l (S i) w) by lia. rewrite !firstn_upd_end by lia. rewrite F.
    unfold Buffers_model.next_pos. destruct (Nat.leb_spec w (i + 1)); repeat split; try lia.
  - rewrite (Nat.min_r i w) in F by lia. rewrite !firstn_upd_in by lia. rewrite F, P. split; [reflexivity|].
    unfold alike. cbn [Buffers_model.b_mem Buffers_model.b_pos]. rewrite (Nat.min_r (S i) w) by lia. rewrite !firstn_upd_in by lia. rewrite F.
    unfold Buffers_model.next_pos. destruct (Nat.leb_spec w (Buffers_model.b_pos b' + 1)); repeat split; try lia.
Qed.

Definition window_step agg w (s : Buffers_model.buffer * list Q) (o : nat * Q) : Buffers_model.buffer * list Q :=
  let r := Buffers_model.window_after agg w (fst o) (fst s) (snd o) in (snd r, upd (snd s) (fst o) (fst r)).
Lemma window_step_shape agg w s o : length (Buffers_model.b_mem (fst (window_step agg w s o))) = length (Buffers_model.b_mem (fst s)) /\ length (snd (window_step agg w s o)) = length (snd s).
Proof. unfold window_step, Buffers_model.window_after. cbn. now rewrite !upd_length. Qed.
Lemma window_steps_shape agg w os : forall s, length (Buffers_model.b_mem (fst (fold_left (window_step agg w) os s))) = length (Buffers_model.b_mem (fst s)) /\
  length (snd (fold_left (window_step agg w) os s)) = length (snd s).
Proof. induction os as [|o os IH]; intros s; cbn [fold_left]; [now split|]. destruct (IH (window_step agg w s o)), (window_step_shape agg w s o). split; congruence. Qed.

Lemma windows_alike agg w : 1 <= w -> forall os i s s', map fst os = seq i (length os) ->
  length (Buffers_model.b_mem (fst s)) = length (Buffers_model.b_mem (fst s')) -> length (snd s) = length (snd s') ->
  (w <= length (Buffers_model.b_mem (fst s)) \/ i + length os <= length (Buffers_model.b_mem (fst s))) -> i + length os <= length (snd s) ->
  alike w i (fst s) (fst s') ->
  forall j, (i <= j /\ j < i + length os) \/ nth_error (snd s) j = nth_error (snd s') j ->
  nth_error (snd (fold_left (window_step agg w) os s)) j = nth_error (snd (fold_left (window_step agg w) os s')) j.
Proof.
  intros W. induction os as [|[i0 v] os IH]; intros i s s' I LM LD L LDD A j J; cbn [length fold_left map seq fst] in *.
  - destruct J as [J|J]; [lia|exact J].
  - injection I as E I. subst i0. destruct (alike_after agg w i (fst s) (fst s') v W ltac:(lia) LM A) as [O A1].
    destruct (window_step_shape agg w s (i, v)) as [S1 S2], (window_step_shape agg w s' (i, v)) as [S1' S2'].
    apply (IH (S i)); [exact I|congruence|congruence|lia|lia|exact A1|].
    unfold window_step. cbn [fst snd]. rewrite O, !nth_error_upd by lia. destruct (Nat.eqb_spec j i) as [->|N].
    + right. reflexivity.
    + destruct J as [J|J]; [left; lia|right; exact J].
Qed.

Lemma reset_alike w b b' : 1 <= w -> alike w 0 (Buffers_model.window_reset b) (Buffers_model.window_reset b').
Proof. intros W. unfold alike, Buffers_model.window_reset. cbn. repeat split. lia. Qed.

(** *** The first timestep of the annual count *)
Lemma threshold_after_length c y s o s' : threshold_after c y s o = Some s' -> length (ys_data s') = length (ys_data s) /\ length (ys_this s') = length (ys_this s).
Proof.
  destruct o as [d vs]. unfold threshold_after.
  set (s1 := if negb (yr d =? ys_year s)%Z then _ else s).
  assert (L1 : length (ys_data s1) = length (ys_data s) /\ length (ys_this s1) = length (ys_this s)).
  { unfold s1. destruct (negb (yr d =? ys_year s)%Z); [|now split]. cbn [ys_data ys_this]. rewrite map_length. split; [|reflexivity].
    destruct (negb (ys_year s =? -1)%Z); [now rewrite upd_length|reflexivity]. }
  assert (CF : forall th vs this, length (count_first th vs this) = length this).
  { intros th. induction vs0 as [|x vs0 IH]; intros [|t this]; cbn; try reflexivity. destruct (th <=? x)%Z; cbn; [reflexivity|now rewrite IH]. }
  intros H. destruct (match cc_exclude c with Some months => existsb (Z.eqb (mon d)) months | None => false end).
  - injection H as <-. exact L1.
  - destruct (match cc_from c with None => Some 1%Z | Some (m, dd) => timestamp_dayofyear (ys_year s1) m dd end); [|discriminate].
    destruct (match cc_to c with None => Some 366%Z | Some (m, dd) => timestamp_dayofyear (ys_year s1) m dd end); [|discriminate].
    destruct ((z <=? day_of_year d) && (day_of_year d <=? z0))%Z; injection H as <-; cbn [ys_data ys_this]; rewrite ?CF; exact L1.
Qed.

Lemma threshold_first c y s s' o : ys_year s = (-1)%Z -> ys_year s' = (-1)%Z -> ys_data s = ys_data s' -> length (ys_this s) = length (ys_this s') ->
  yr (fst o) <> (-1)%Z -> threshold_after c y s o = threshold_after c y s' o.
Proof.
  intros Y Y' D L N. destruct o as [d vs]. cbn [fst] in N. unfold threshold_after. rewrite Y, Y', D, !map_const, L.
  assert (E : (yr d =? -1)%Z = false) by now apply Z.eqb_neq. rewrite E. reflexivity.
Qed.

(** The recorders of _recorders.pyx and EventRecorder forget the run before; those of rolling means and of annual counts although they do not
    reset everything. *)
Theorem C33_recorders_forget :
  (forall nts ncomb, forgets (array_machine ncomb) (fun s => length s = nts) (fun _ => True)) /\
  (forall A (inc : Q -> A -> Q) steps ncomb, forgets (total_machine inc steps) (fun s => length s = ncomb) (fun _ => True)) /\
  forgets minimum_machine (fun _ => True) (fun _ => True) /\
  (forall threshold, forgets (below_machine threshold) (fun _ => True) (fun _ => True)) /\
  (forall threshold, forgets (steps_machine threshold) (fun _ => True) (fun _ => True)) /\
  (forall threshold, forgets (years_machine threshold) (fun _ => True) (fun _ => True)) /\
  (forall start_year factors years, forgets (annual_machine start_year factors) (fun s => length s = years) (fun _ => True)) /\
  (forall ncomb minimum, forgets (events_machine ncomb minimum) (fun _ => True) (fun _ => True)).
Proof.
  split. { intros nts ncomb. apply forgets_const with (c := repeat (repeat 0%Q ncomb) nts); cbn [array_machine m_reset m_after m_finish].
    - intros s L. now rewrite map_const, L.
    - intros s L. now rewrite map_length.
    - intros s o L. now rewrite upd_length.
    - intros o s L. exact L. }
  split. { intros A inc steps ncomb. apply forgets_const with (c := repeat 0%Q ncomb); cbn [total_machine m_reset m_after m_finish].
    - intros s L. now rewrite map_const, L.
    - intros s L. now rewrite map_length.
    - intros s o L. now rewrite add_each_length.
    - intros o s L. destruct steps; [now rewrite map_length|exact L]. }
  split. { apply forgets_const with (c := None); trivial. }
  split. { intros threshold. apply forgets_const with (c := 0%Q); trivial. }
  split. { intros threshold. apply forgets_const with (c := 0%Z); trivial. }
  split. { intros threshold. apply forgets_const with (c := count_reset); trivial. }
  split. { intros y f years. apply forgets_const with (c := repeat 0%Q years); cbn [annual_machine m_reset m_after m_finish].
    - intros s L. now rewrite map_const, L.
    - intros s L. now rewrite map_length.
    - intros s o L. now rewrite annual_flow_length.
    - intros o s L. exact L. }
  intros ncomb minimum. apply forgets_const with (c := Events_model.reset ncomb); trivial.
Qed.
Print Assumptions C33_recorders_forget.

(** After any run, and whatever was before, these recorders have the values about which there are theorems for single runs (C51-C53, C64, C69): totals, minima,
    counts of timesteps and of years, annual totals. *)
Theorem C33_same_values :
  (forall A (inc : Q -> A -> Q) ncomb s run, length s = ncomb -> output (total_machine inc None) run s = accumulate inc ncomb run) /\
  (forall s volumes, output minimum_machine volumes s = minimum_volume volumes) /\
  (forall threshold s volumes, output (below_machine threshold) volumes s = minimum_threshold_volume threshold volumes) /\
  (forall threshold s indices, output (steps_machine threshold) indices s = timestep_count threshold indices) /\
  (forall threshold s run, output (years_machine threshold) run s = annual_count threshold run) /\
  (forall start_year factors years s run, length s = years -> output (annual_machine start_year factors) run s = annual_flow start_year years factors run).
Proof.
  split; [|split; [|split; [|split; [|split]]]]; try reflexivity.
  - intros A inc ncomb s run L. unfold output, through. cbn [total_machine m_reset m_after m_finish m_out]. now rewrite map_const, L.
  - intros y f years s run L. unfold output, through. cbn [annual_machine m_reset m_after m_finish m_out]. now rewrite map_const, L.
Qed.
Print Assumptions C33_same_values.

(** The count of each year forgets although `_data_this_year` is left, as the first timestep starts a new year. *)
Theorem C33_annual_threshold : forall c start_year years params,
  forgets (annual_threshold_machine c start_year) (fun s => length (ys_data (fst s)) = years /\ length (ys_this (fst s)) = params)
    (fun os => match os with o :: _ => yr (fst o) <> (-1)%Z | [] => False end).
Proof.
  intros c y years params. split.
  - intros s s' os [D1 T1] [D2 T2] C. destruct os as [|o os]; [contradiction|]. unfold output, through.
    cbn [fold_left annual_threshold_machine m_reset m_after fst snd]. rewrite !map_const, D1, D2.
    rewrite (threshold_first c y (YearState (repeat 0%Z years) (ys_this (fst s)) (-1)) (YearState (repeat 0%Z years) (ys_this (fst s')) (-1)) o eq_refl eq_refl eq_refl)
      by (cbn [ys_this]; congruence || exact C).
    destruct (threshold_after c y (YearState (repeat 0%Z years) (ys_this (fst s')) (-1)) o) as [s1|]; [reflexivity|].
    assert (K : forall os s0, fold_left (m_after (annual_threshold_machine c y)) os (s0, true) = (s0, true)) by (induction os0 as [|o0 os0 IH]; intros s0; [reflexivity|apply IH]).
    cbn [annual_threshold_machine m_after] in K. rewrite !K. reflexivity.
  - intros s os [D T]. unfold through. cbn [annual_threshold_machine m_finish fst snd ys_data ys_this].
    assert (K : forall os s0, length (ys_data (fst s0)) = years -> length (ys_this (fst s0)) = params ->
      length (ys_data (fst (fold_left (m_after (annual_threshold_machine c y)) os s0))) = years /\ length (ys_this (fst (fold_left (m_after (annual_threshold_machine c y)) os s0))) = params).
    { induction os0 as [|o os0 IH]; intros s0 E1 E2; cbn [fold_left]; [now split|]. apply IH; cbn [annual_threshold_machine m_after]; destruct (snd s0); try assumption;
        destruct (threshold_after c y (fst s0) o) as [s1|] eqn:E; try assumption; apply threshold_after_length in E; cbn [fst]; destruct E; congruence. }
    destruct (K os (m_reset (annual_threshold_machine c y) s)) as [K1 K2]; [cbn; now rewrite map_length|exact T|]. unfold threshold_finish. now rewrite upd_length.
Qed.
Print Assumptions C33_annual_threshold.

(** Rolling windows over a parameter's values, in a run from the first timestep, complete or not. *)
Theorem C33_window : forall agg w nts, 1 <= w ->
  forgets (window_machine agg w) (fun s => length (Buffers_model.b_mem (fst s)) = nts /\ length (snd s) = nts)
    (fun os => map fst os = seq 0 (length os) /\ length os <= nts).
Proof.
  intros agg w nts W. split.
  - intros s s' os [M1 D1] [M2 D2] [I L]. unfold output, through. cbn [window_machine m_finish m_out m_after m_reset]. apply Eval_proofs.nth_error_ext. intros j.
    apply (windows_alike agg w W os 0); cbn [fst snd Buffers_model.window_reset Buffers_model.b_mem]; rewrite ?map_length; try lia; [exact I|now apply reset_alike|].
    right. now rewrite !map_const, D1, D2.
  - intros s os [M1 D1]. unfold through. cbn [window_machine m_finish m_after m_reset].
    destruct (window_steps_shape agg w os (Buffers_model.window_reset (fst s), map (fun _ => 0%Q) (snd s))) as [K1 K2]. unfold window_step in K1, K2.
    rewrite K1, K2. cbn. now rewrite map_length.
Qed.
Print Assumptions C33_window.

(** Rolling mean flows, in a complete run. *)
Theorem C33_rolling_mean_partial : forall agg w nts, 1 <= w ->
  forgets (mean_machine agg w) (fun s => length (Buffers_model.b_mem (fst s)) = w /\ length (snd s) = nts) (fun os => map fst os = seq 0 nts).
Proof.
  intros agg w nts W. split.
  - intros s s' os [M1 D1] [M2 D2] I. assert (L : length os = nts) by (rewrite <- (map_length fst), I; apply seq_length).
    unfold output, through. cbn [mean_machine m_finish m_out m_after m_reset]. apply Eval_proofs.nth_error_ext. intros j.
    apply (windows_alike agg w W os 0); cbn [fst snd Buffers_model.window_reset Buffers_model.b_mem]; try lia; [now rewrite L|now apply reset_alike|].
    destruct (le_lt_dec nts j); [right|left; lia]. transitivity (@None Q); [|symmetry]; apply nth_error_None; lia.
  - intros s os [M1 D1]. unfold through. cbn [mean_machine m_finish m_after m_reset].
    destruct (window_steps_shape agg w os (Buffers_model.window_reset (fst s), snd s)) as [K1 K2]. unfold window_step in K1, K2. rewrite K1, K2. now split.
Qed.
Print Assumptions C33_rolling_mean_partial.

(** Not so if the second run is left after some timesteps: the mean flows of the first run are still there. *)
Theorem C33_rolling_mean_refuted : exists s s' os, length (Buffers_model.b_mem (fst s)) = 2 /\ length (snd s) = 3 /\ length (Buffers_model.b_mem (fst s')) = 2 /\ length (snd s') = 3 /\
  map fst os = seq 0 2 /\ output (mean_machine Buffers_model.mean 2) os s <> output (mean_machine Buffers_model.mean 2) os s'.
Proof.
  exists ({| Buffers_model.b_mem := [0; 0]%Q; Buffers_model.b_pos := 0 |}, [0; 0; 0]%Q), (through (mean_machine Buffers_model.mean 2) [(0, 5%Q); (1, 5%Q); (2, 5%Q)] ({| Buffers_model.b_mem := [0; 0]%Q; Buffers_model.b_pos := 0 |}, [0; 0; 0]%Q)),
    [(0, 5%Q); (1, 5%Q)]. repeat split. vm_compute. discriminate.
Qed.
Print Assumptions C33_rolling_mean_refuted.

(** Nor if a run is resumed at a later timestep by reset(start): the window then takes in what the run before left. *)
Theorem C33_resumed_refuted : exists s s' os, length (Buffers_model.b_mem (fst s)) = 3 /\ length (snd s) = 3 /\ length (Buffers_model.b_mem (fst s')) = 3 /\ length (snd s') = 3 /\
  map fst os = [1; 2] /\ output (window_machine Buffers_model.mean 3) os s <> output (window_machine Buffers_model.mean 3) os s'.
Proof.
  exists ({| Buffers_model.b_mem := [0; 0; 0]%Q; Buffers_model.b_pos := 0 |}, [0; 0; 0]%Q), (through (window_machine Buffers_model.mean 3) [(0, 5%Q); (1, 5%Q); (2, 5%Q)] ({| Buffers_model.b_mem := [0; 0; 0]%Q; Buffers_model.b_pos := 0 |}, [0; 0; 0]%Q)),
    [(1, 1%Q); (2, 1%Q)]. repeat split. vm_compute. discriminate.
Qed.
Print Assumptions C33_resumed_refuted.

(** Two years run twice: the annual counts with what the first run left. *)
Example C33_recorder_example :
  let M := annual_threshold_machine (CountConfig 1 None None None) 2000 in
  let os := [(Date 2000 12 30, [1; 0]); (Date 2000 12 31, [0; 2]); (Date 2001 1 1, [1; 1])]%Z in
  let s := (YearState [7; 7] [7; 7] 3, true)%Z in
  output M os s = Some [2; 1]%Z /\ output M os (through M os s) = Some [2; 1]%Z.
Proof. vm_compute. now split. Qed.
