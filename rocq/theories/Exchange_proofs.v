(** Proofs about values taken from other models. *)
From Verif Require Import Base Exchange_model Exchange_spec.
Local Open Scope nat_scope.
Local Open Scope list_scope.

Lemma put_length k s w : length (put k s w) = length w.
Proof. revert k. induction w as [|a w IH]; intros [|k]; cbn; auto. Qed.
Lemma put_same k s w : k < length w -> at_model (put k s w) k = s.
Proof. unfold at_model. revert k. induction w as [|a w IH]; intros [|k] H; cbn in *; try lia; auto; apply IH; lia. Qed.
Lemma put_other k s w i : i <> k -> at_model (put k s w) i = at_model w i.
Proof.
  unfold at_model. revert k i. induction w as [|a w IH]; intros [|k] [|i] H; cbn; auto; try (now elim H); apply IH; lia.
Qed.

Lemma step_model_length ms t w k : length (step_model ms t w k) = length w.
Proof. unfold step_model. destruct (nth_error ms k); auto using put_length. Qed.
Lemma step_model_other ms t w k i : i <> k -> at_model (step_model ms t w k) i = at_model w i.
Proof. intros H. unfold step_model. destruct (nth_error ms k); auto using put_other. Qed.

(** The world when it is the turn of model [k]. *)
Definition turn (ms : list model) (t : nat) (w : world) (k : nat) : world := fold_left (step_model ms t) (seq 0 k) w.
Lemma turn_S ms t w k : turn ms t w (S k) = step_model ms t (turn ms t w k) k.
Proof. unfold turn. rewrite seq_S, fold_left_app. reflexivity. Qed.
Lemma turn_length ms t w k : length (turn ms t w k) = length w.
Proof. induction k; [reflexivity|]. now rewrite turn_S, step_model_length. Qed.
Lemma turn_later ms t w k i : k <= i -> at_model (turn ms t w k) i = at_model w i.
Proof. induction k; intros H; [reflexivity|]. rewrite turn_S, step_model_other by lia. apply IHk. lia. Qed.
Lemma turn_done ms t w k k' i : i < k -> k <= k' -> at_model (turn ms t w k') i = at_model (turn ms t w k) i.
Proof. intros H L. induction L; [reflexivity|]. rewrite turn_S, step_model_other by lia. exact IHL. Qed.
Lemma step_turn ms w t : step ms w t = turn ms t w (length ms).
Proof. reflexivity. Qed.
Lemma step_length ms w t : length (step ms w t) = length w.
Proof. rewrite step_turn. apply turn_length. Qed.
Lemma run_S ms T w : run ms (S T) w = step ms (run ms T w) T.
Proof. unfold run. rewrite seq_S, fold_left_app. reflexivity. Qed.
Lemma run_length ms T w : length (run ms T w) = length w.
Proof. induction T; [reflexivity|]. now rewrite run_S, step_length. Qed.

(** Model [k] after timestep [t]: its step, taken in the world of its turn. *)
Lemma after_step ms w0 t k m : length w0 = length ms -> nth_error ms k = Some m ->
  let w := turn ms t (run ms t w0) k in
  at_model (run ms (S t) w0) k = after m t (solved m t (before m t w (at_model w k))) /\
  (forall j, j <> k -> j < length ms -> at_model w j = seen ms w0 t k j) /\ at_model w k = at_model (run ms t w0) k.
Proof.
  intros L Hm w. assert (k < length ms) as Hk by (apply nth_error_Some; congruence).
  rewrite run_S, step_turn. split; [|split].
  - rewrite (turn_done ms t _ (S k) (length ms) k) by lia. rewrite turn_S. unfold step_model. rewrite Hm. apply put_same.
    rewrite turn_length, run_length. lia.
  - intros j Hj Hl. unfold seen. destruct (Nat.ltb_spec j k).
    + rewrite run_S, step_turn. subst w. rewrite (turn_done ms t _ (S j) k j), (turn_done ms t _ (S j) (length ms) j); auto; lia.
    + subst w. apply turn_later. lia.
  - subst w. apply turn_later. lia.
Qed.

Lemma rows_nth {A} m (f : nat -> node -> list A) i nd : nth_error (nodes m) i = Some nd -> nth i (rows m f) [] = f i nd.
Proof.
  intros H. unfold rows. assert (i < length (nodes m)) as L by (apply nth_error_Some; congruence).
  rewrite (nth_indep _ [] (f 0 Own)) by now rewrite map_length, seq_length.
  change (f 0 Own) with ((fun i => f i Own) 0).
  erewrite nth_error_nth; [reflexivity|].
  rewrite (nth_error_seq_map (fun i => f i (nth i (nodes m) Own)) _ _ L). f_equal. f_equal. now apply nth_error_nth.
Qed.

Lemma read_all {A} (row : list (option A)) n : length row = n -> map (fun g => nth g row None) (seq 0 n) = row.
Proof.
  intros <-. induction row as [|a row IH]; [reflexivity|]. cbn [length seq map nth]. f_equal. rewrite <- seq_shift, map_map. exact IH.
Qed.
Lemma read_all_error {A} (row : list A) n : length row = n -> map (fun g => nth_error row g) (seq 0 n) = map Some row.
Proof.
  intros <-. induction row as [|a row IH]; [reflexivity|]. cbn [length seq map nth_error]. f_equal. rewrite <- seq_shift, map_map. exact IH.
Qed.

Lemma pars_ref ms w0 t k m p r : length w0 = length ms -> nth_error ms k = Some m -> nth_error (params m) p = Some r -> r <> Calc ->
  nth p (pars (at_model (run ms (S t) w0) k)) [] = nth p (refs m (turn ms t (run ms t w0) k)) [].
Proof.
  intros L Hm Hp Hr. destruct (after_step ms w0 t k m L Hm) as [E _]. rewrite E. cbn [after solved before pars].
  assert (p < length (params m)) as Lp by (apply nth_error_Some; congruence).
  erewrite nth_error_nth; [|apply (nth_error_seq_map _ _ _ Lp)]. rewrite (nth_error_nth _ _ Calc Hp). destruct r; [contradiction|reflexivity..].
Qed.
Lemma refs_nth m w p r : nth_error (params m) p = Some r -> nth p (refs m w) [] =
    match r with
    | Calc => []
    | OtherValue j q => map (fun g => nth g (nth q (pars (at_model w j)) []) None) (seq 0 (scenarios m))
    | OtherFlow j n => map (fun g => nth_error (nth n (flow (at_model w j)) []) g) (seq 0 (scenarios m))
    | OtherVolume j n => map (fun g => nth_error (nth n (vol (at_model w j)) []) g) (seq 0 (scenarios m))
    end.
Proof. intros H. apply nth_error_nth. unfold refs. now rewrite nth_error_map, H. Qed.

(** ** Repeating a run *)
(** Equal but for what [reset] leaves as it was. *)
Definition alike (m : model) (s s' : state) : Prop :=
  flow s = flow s' /\ prev s = prev s' /\ mem s = mem s' /\
  forall i, (forall j n, nth i (nodes m) Own <> ShadowStorage j n) -> nth i (vol s) [] = nth i (vol s') [].

Lemma alike_refl m s : alike m s s.
Proof. repeat split; auto. Qed.

Lemma map_ext_seq {A} (f g : nat -> A) n : (forall i, i < n -> f i = g i) -> map f (seq 0 n) = map g (seq 0 n).
Proof. intros H. apply map_ext_in. intros i Hi. apply in_seq in Hi. apply H. lia. Qed.

(** One step: from the same earlier models, and later ones alike, the state is the same. *)
Lemma step_alike ms t k m w w' : forward ms -> nth_error ms k = Some m ->
  (forall i, i < k -> at_model w i = at_model w' i) -> (forall i mi, k <= i -> nth_error ms i = Some mi -> alike mi (at_model w i) (at_model w' i)) ->
  (forall i, length ms <= i -> at_model w i = at_model w' i) ->
  before m t w (at_model w k) = before m t w' (at_model w' k).
Proof.
  intros F Hm E L O. destruct (F k m Hm) as (FV & FVol & FF & FN & FS).
  destruct (L k m (le_n _) Hm) as (Lf & Lp & Lm & Lv).
  assert (forall j, flow (at_model w j) = flow (at_model w' j) /\ prev (at_model w j) = prev (at_model w' j)) as Fl.
  { intros j. destruct (Nat.lt_ge_cases j k) as [H|H]; [now rewrite E|].
    destruct (nth_error ms j) as [mj|] eqn:Ej; [destruct (L j mj H Ej) as (A & B & _); auto|]. apply nth_error_None in Ej. now rewrite O. }
  assert (forall j n, j <> k -> (k < j -> is_shadow_storage ms j n = false) -> nth n (vol (at_model w j)) [] = nth n (vol (at_model w' j)) []) as Vl.
  { intros j n Hj Hs. destruct (Nat.lt_ge_cases j k) as [H|H]; [now rewrite E|]. assert (k < j) as Hkj by lia. specialize (Hs Hkj).
    destruct (nth_error ms j) as [mj|] eqn:Ej; [|apply nth_error_None in Ej; now rewrite O].
    destruct (L j mj H Ej) as (_ & _ & _ & V). apply V. intros a b K. unfold is_shadow_storage in Hs. now rewrite Ej, K in Hs. }
  assert (refs m w = refs m w') as R.
  { unfold refs. apply map_ext_in. intros p Hp. destruct p as [|j q|j n|j n]; [reflexivity|..].
    - now rewrite (E j (FV j q Hp)).
    - now rewrite (proj1 (Fl j)).
    - destruct (FVol j n Hp) as [A B]. now rewrite (Vl j n A B). }
  assert (forall i, i < length (nodes m) -> In (nth i (nodes m) Own) (nodes m)) as In1 by (intros; now apply nth_In).
  assert (forall {A} (f g : nat -> node -> list A), (forall i, i < length (nodes m) -> f i (nth i (nodes m) Own) = g i (nth i (nodes m) Own)) -> rows m f = rows m g) as RE.
  { intros A f g H. unfold rows. apply map_ext_seq. exact H. }
  assert (flow (before_nodes m w (at_model w k)) = flow (before_nodes m w' (at_model w' k)) /\
          prev (before_nodes m w (at_model w k)) = prev (before_nodes m w' (at_model w' k)) /\
          vol (before_nodes m w (at_model w k)) = vol (before_nodes m w' (at_model w' k)) /\
          mem (before_nodes m w (at_model w k)) = mem (before_nodes m w' (at_model w' k))) as (B1 & B2 & B3 & B4).
  { cbn [before_nodes flow prev vol mem]. split; [|split; [|split]]; [..|exact Lm].
    - apply RE. intros i Hi. destruct (nth i (nodes m) Own) as [|j n|j n]; [reflexivity|..]; now rewrite (proj1 (Fl j)).
    - apply RE. intros i Hi. destruct (nth i (nodes m) Own) as [|j n|j n]; [now rewrite Lp|..]; now rewrite (proj2 (Fl j)).
    - apply RE. intros i Hi. pose proof (In1 i Hi) as Hn. destruct (nth i (nodes m) Own) as [|j n|j n] eqn:En.
      + apply Lv. intros a b. rewrite En. discriminate.
      + apply Lv. intros a b. rewrite En. discriminate.
      + destruct (FS j n Hn) as [A B]. now apply Vl. }
  unfold before. now rewrite R, B1, B2, B3, B4.
Qed.

Lemma list_nth_eq (w w' : world) : length w = length w' -> (forall i, at_model w i = at_model w' i) -> w = w'.
Proof. intros L H. apply (nth_ext w w' no_state no_state L). intros i _. apply H. Qed.

Lemma out_of_world w i : length w <= i -> at_model w i = no_state.
Proof. intros H. unfold at_model. now apply nth_overflow. Qed.

Lemma first_step ms t w w' : forward ms -> length w = length ms -> length w' = length ms ->
  (forall i mi, nth_error ms i = Some mi -> alike mi (at_model w i) (at_model w' i)) -> step ms w t = step ms w' t.
Proof.
  intros F L L' A. rewrite !step_turn.
  assert (forall k, k <= length ms -> forall i, i < k -> at_model (turn ms t w k) i = at_model (turn ms t w' k) i) as K.
  { induction k as [|k IH]; intros Hk i Hi; [lia|].
    destruct (Nat.eq_dec i k) as [->|N].
    - rewrite !turn_S. unfold step_model. destruct (nth_error ms k) as [m|] eqn:Hm; [|apply nth_error_None in Hm; lia].
      rewrite !put_same by (rewrite turn_length; lia). f_equal. f_equal.
      apply (step_alike ms t k m _ _ F Hm).
      + apply IH. lia.
      + intros j mj Hj Ej. rewrite !turn_later by lia. now apply A.
      + intros j Hj. rewrite !out_of_world by (rewrite turn_length; lia). reflexivity.
    - rewrite !turn_S, !step_model_other by lia. apply IH; lia. }
  apply list_nth_eq; [rewrite !turn_length; congruence|]. intros i.
  destruct (Nat.lt_ge_cases i (length ms)); [now apply K|]. rewrite !out_of_world by (rewrite turn_length; lia). reflexivity.
Qed.

Lemma run_from_step ms T w w' : step ms w 0 = step ms w' 0 -> run ms (S T) w = run ms (S T) w'.
Proof. intros E. induction T; [exact E|]. now rewrite (run_S ms (S T) w), (run_S ms (S T) w'), IHT. Qed.

Lemma reset_at ms w i mi : length w = length ms -> nth_error ms i = Some mi -> at_model (reset ms w) i = reset_model mi (at_model w i).
Proof.
  intros L H. unfold at_model, reset. revert w i L H. induction ms as [|m ms IH]; intros [|s w] [|i] L H; cbn in *; try discriminate.
  - congruence.
  - apply IH; auto.
Qed.
Lemma reset_alike ms w w' i mi : length w = length ms -> length w' = length ms -> nth_error ms i = Some mi ->
  alike mi (at_model (reset ms w) i) (at_model (reset ms w') i).
Proof.
  intros L L' H. rewrite (reset_at ms w i mi L H), (reset_at ms w' i mi L' H). unfold alike, reset_model. cbn [flow prev mem vol].
  repeat split; auto. intros k Hk.
  destruct (Nat.lt_ge_cases k (length (nodes mi))) as [B|B].
  - assert (nth_error (nodes mi) k = Some (nth k (nodes mi) Own)) as E by now apply nth_error_nth'.
    rewrite !(rows_nth mi _ k _ E). destruct (nth k (nodes mi) Own) as [|j n|j n]; [reflexivity..|]. now elim (Hk j n).
  - rewrite !nth_overflow by (unfold rows; now rewrite map_length, seq_length). reflexivity.
Qed.
