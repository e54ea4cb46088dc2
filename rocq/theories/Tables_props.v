(** C100: buffered writing of results to a file. *)
From Verif Require Import Base Ring Eval_proofs Tables_model Tables_proofs.
Local Open Scope nat_scope.
Local Open Scope list_scope.

(** C100: the number of timesteps kept in memory is at least one and at most all of them. *)
Theorem C100_buffer : forall how combinations len, 0 < len -> (forall b, how = Timesteps b -> (1 <= b)%Z) ->
  (1 <= buffer_steps how combinations len <= Z.of_nat len)%Z.
Proof. intros how combinations len L B. destruct how as [b|s|]; cbn [buffer_steps]; [specialize (B b eq_refl)| |]; lia. Qed.
Print Assumptions C100_buffer.

(** What the file holds at the end of a run that has completed the timesteps of [rows]: when [run] stops, by itself or through an
    exception in the timestep after them, the current timestep is that one.  *)
Lemma run_rows A (file junk rows : list A) steps len :
  length file = len -> length junk = steps -> 1 <= steps <= len -> 0 < length rows <= len ->
  exists out, tables_run file junk steps rows (Some (length rows)) len = Some out /\ length out = len /\
    forall i, nth_error out i = if i <? length rows then nth_error rows i else nth_error file i.
Proof.
  intros LF LJ [S1 S2] [R1 R2]. unfold tables_run.
  destruct (steps_inv file rows [] _ (reset_inv file junk steps LJ) ltac:(cbn [length]; lia)) as [t [E [I ST]]].
  cbn [length app] in E, I. rewrite E. cbn [tables_reset t_steps] in ST. pose proof I as [L I'].
  unfold tables_finish. rewrite ST. destruct (Nat.ltb_spec 1 steps) as [C|C].
  - destruct (steps_buffer rows 0 (tables_reset (Tables file None steps) junk) t ltac:(unfold tables_reset; cbn [t_steps t_buffer]; destruct (Nat.ltb_spec 1 steps); [discriminate|lia]) E) as [buffer EB].
    rewrite EB in I'. destruct I' as [LB [B1 [I1 I2]]]. rewrite ST in *.
    destruct (div_mod_pred (length rows) steps C R1) as [D1 D2].
    pose proof (Nat.div_mod (length rows) steps ltac:(lia)) as DM. pose proof (Nat.mod_le (length rows) steps ltac:(lia)) as ML.
    destruct (Nat.ltb_spec 0 (length rows mod steps)) as [M|M].
    + destruct (D2 ltac:(lia)) as [E1 E2]. destruct (flush t (length rows) (length rows mod steps)) as [t'|] eqn:F.
      * cbn [option_map]. exists (t_file t'). split; [reflexivity|].
        destruct (flush_rows file rows t buffer (length rows) (length rows mod steps) t' I EB ltac:(lia) R1 steps (length rows - 1) ST eq_refl ltac:(lia) ltac:(lia) ltac:(lia) ltac:(lia) F) as [_ [_ [L' N]]].
        split; [lia|]. intros i. rewrite N, I1, E1. 
        destruct (Nat.leb_spec (steps * (length rows / steps)) i), (Nat.ltb_spec i (length rows)), (Nat.ltb_spec i (steps * (length rows / steps))); cbn [andb]; try lia; reflexivity.
      * unfold flush in F. rewrite EB in F. destruct (Nat.ltb_spec (length rows) (length rows mod steps)); [lia|discriminate].
    + destruct (D1 ltac:(lia)) as [E1 [E2 E3]]. assert (SK : steps <= length rows) by (rewrite <- E1; apply Nat.le_add_l). destruct (Nat.eqb_spec steps len) as [SL|SL].
      * destruct (flush t (length rows) steps) as [t'|] eqn:F.
        -- cbn [option_map]. exists (t_file t'). split; [reflexivity|].
           destruct (flush_rows file rows t buffer (length rows) steps t' I EB ltac:(lia) R1 steps (length rows - 1) ST eq_refl ltac:(lia) ltac:(lia) SK ltac:(lia) F) as [_ [_ [L' N]]].
           split; [lia|]. intros i. rewrite N, I1, E3.
           destruct (Nat.leb_spec (steps * ((length rows - 1) / steps)) i), (Nat.ltb_spec i (length rows)); cbn [andb]; try lia; reflexivity.
        -- unfold flush in F. rewrite EB in F. destruct (Nat.ltb_spec (length rows) steps); [|discriminate].
           rewrite Nat.mod_small in M by lia. lia.
      * cbn [option_map]. exists (t_file t). split; [reflexivity|]. split; [lia|]. intros i. rewrite I1, E3. reflexivity.
  - cbn [option_map]. exists (t_file t). split; [reflexivity|]. split; [lia|]. destruct (t_buffer t) as [b|]; [destruct I' as [_ [X _]]; lia|]. exact I'.
Qed.

(** C100: after a complete run, whatever the buffer, row [i] of the file is the one of timestep [i]. *)
Theorem C100_complete : forall A (file junk rows : list A) how combinations,
  length rows = length file -> 0 < length file -> (forall b, how = Timesteps b -> (1 <= b)%Z) ->
  let steps := Z.to_nat (buffer_steps how combinations (length file)) in
  length junk = steps ->
  tables_run file junk steps rows (Some (length rows)) (length file) = Some rows.
Proof.
  intros A file junk rows how combinations L P B steps LJ. pose proof (C100_buffer how combinations (length file) P B) as S.
  destruct (run_rows A file junk rows steps (length file) eq_refl LJ ltac:(unfold steps; lia) ltac:(lia)) as [out [E [LO N]]].
  rewrite E. f_equal. clear E. apply Eval_proofs.nth_error_ext. intros i. rewrite N. destruct (Nat.ltb_spec i (length rows)) as [C|C]; [reflexivity|].
  transitivity (@None A); [apply nth_error_None; lia|symmetry; apply nth_error_None; lia].
Qed.
Print Assumptions C100_complete.

(** C100: when an exception ends a run in the middle of timestep [k], the rows of all earlier timesteps are in the file and the
    others are as they were, whatever the buffer. *)
Theorem C100_stopped : forall A (file junk rows : list A) how combinations,
  0 < length rows <= length file -> (forall b, how = Timesteps b -> (1 <= b)%Z) ->
  let steps := Z.to_nat (buffer_steps how combinations (length file)) in
  length junk = steps ->
  tables_run file junk steps rows (Some (length rows)) (length file) = Some (rows ++ skipn (length rows) file).
Proof.
  intros A file junk rows how combinations [P L] B steps LJ. pose proof (C100_buffer how combinations (length file) ltac:(lia) B) as S.
  destruct (run_rows A file junk rows steps (length file) eq_refl LJ ltac:(unfold steps; lia) ltac:(lia)) as [out [E [LO N]]].
  rewrite E. f_equal. clear E. apply Eval_proofs.nth_error_ext. intros i. rewrite N. destruct (Nat.ltb_spec i (length rows)) as [C|C].
  - rewrite nth_error_app1 by exact C. reflexivity.
  - rewrite nth_error_app2 by exact C. rewrite nth_error_skipn_at. f_equal. lia.
Qed.
Print Assumptions C100_stopped.

(** C100: if the timestep ended with its row recorded and [finish] is called while it is still the current one (it is when the model
    is stepped by hand, or when a later recorder fails), the rows before the last one are in the file, but the last one only if it
    completes a block. *)
Theorem C100_stepped_partial : forall A (file junk rows : list A) v how combinations,
  0 < length rows -> length rows < length file -> (forall b, how = Timesteps b -> (1 <= b)%Z) ->
  let steps := Z.to_nat (buffer_steps how combinations (length file)) in
  length junk = steps ->
  exists out, tables_run file junk steps (rows ++ [v]) (Some (length rows)) (length file) = Some out /\
    length out = length file /\
    (forall i, i < length rows -> nth_error out i = nth_error rows i) /\
    nth_error out (length rows) = (if S (length rows) mod steps =? 0 then Some v else nth_error file (length rows)) /\
    (forall i, length rows < i -> nth_error out i = nth_error file i).
Proof.
  intros A file junk rows v how combinations P L B0 steps LJ.
  pose proof (C100_buffer how combinations (length file) ltac:(lia) B0) as SB.
  assert (S12 : 1 <= steps <= length file) by (unfold steps; lia). clear SB B0. clearbody steps.
  set (c := length rows) in *. assert (LR : length (rows ++ [v]) = S c) by (rewrite app_length; cbn; unfold c; lia).
  assert (AI : forall i, i < c -> nth_error (rows ++ [v]) i = nth_error rows i) by (intros i Hi; rewrite nth_error_app1 by exact Hi; reflexivity).
  assert (AC : nth_error (rows ++ [v]) c = Some v) by (rewrite nth_error_app2, Nat.sub_diag by (fold c; lia); reflexivity).
  destruct (steps_inv file (rows ++ [v]) [] _ (reset_inv file junk steps LJ) ltac:(cbn [length]; lia)) as [t [E [I ST]]].
  cbn [length app] in E, I. unfold tables_run. rewrite E. cbn [tables_reset t_steps] in ST. pose proof I as [LF I'].
  unfold tables_finish. rewrite ST. destruct (Nat.ltb_spec 1 steps) as [C|C].
  - destruct (steps_buffer (rows ++ [v]) 0 (tables_reset (Tables file None steps) junk) t ltac:(unfold tables_reset; cbn [t_steps t_buffer]; destruct (Nat.ltb_spec 1 steps); [discriminate|lia]) E) as [buffer EB].
    rewrite EB in I'. destruct I' as [LB [B1 [I1 I2]]]. rewrite ST in *. rewrite LR in I1.
    pose proof (Nat.div_mod c steps ltac:(lia)) as DM. pose proof (Nat.mod_le c steps ltac:(lia)) as ML. pose proof (Nat.mod_upper_bound c steps ltac:(lia)) as MB.
    destruct (div_mod_pred (S c) steps C ltac:(lia)) as [D1 D2]. replace (S c - 1) with c in D1, D2 by lia.
    assert (FIN : forall file' : list A, (forall i, nth_error file' i = if (steps * (c / steps) <=? i) && (i <? c) then nth_error (rows ++ [v]) i
        else nth_error (t_file t) i) ->
      (forall i, i < c -> nth_error file' i = nth_error rows i) /\
      nth_error file' c = (if S c mod steps =? 0 then Some v else nth_error file c) /\
      (forall i, c < i -> nth_error file' i = nth_error file i)).
    { intros file' N. assert (Q : steps * (S c / steps) = if S c mod steps =? 0 then S c else steps * (c / steps)).
      { destruct (Nat.eqb_spec (S c mod steps) 0) as [Z|Z]; [apply (D1 Z)|symmetry; apply (D2 Z)]. }
      rewrite Q in I1. clear Q. split; [|split].
      - intros i Hi. rewrite N, I1, !AI by exact Hi.
        destruct (Nat.leb_spec (steps * (c / steps)) i), (Nat.ltb_spec i c), (Nat.eqb_spec (S c mod steps) 0); cbn [andb]; try lia; try reflexivity.
        + destruct (Nat.ltb_spec i (S c)); [reflexivity|lia].
        + destruct (Nat.ltb_spec i (steps * (c / steps))); [reflexivity|lia].
      - rewrite N, I1, Nat.ltb_irrefl, andb_false_r, AC. destruct (Nat.eqb_spec (S c mod steps) 0).
        + destruct (Nat.ltb_spec c (S c)); [reflexivity|lia].
        + destruct (Nat.ltb_spec c (steps * (c / steps))); [lia|reflexivity].
      - intros i Hi. rewrite N, I1. destruct (Nat.ltb_spec i c); [lia|]. rewrite andb_false_r.
        destruct (Nat.eqb_spec (S c mod steps) 0).
        + destruct (Nat.ltb_spec i (S c)); [lia|reflexivity].
        + destruct (Nat.ltb_spec i (steps * (c / steps))); [lia|reflexivity]. }
    destruct (Nat.ltb_spec 0 (c mod steps)) as [M|M].
    + destruct (flush t c (c mod steps)) as [t'|] eqn:F.
      * cbn [option_map]. exists (t_file t'). split; [reflexivity|].
        destruct (flush_rows file (rows ++ [v]) t buffer c (c mod steps) t' I EB ltac:(lia) ltac:(lia) steps c ST ltac:(lia) ltac:(lia) ltac:(lia) ltac:(lia) ltac:(lia) F) as [_ [_ [L' N]]].
        split; [lia|]. apply FIN. exact N.
      * unfold flush in F. rewrite EB in F. destruct (Nat.ltb_spec c (c mod steps)); [lia|discriminate].
    + destruct (Nat.eqb_spec steps (length file)) as [SL|SL].
      * rewrite Nat.mod_small in M by lia. lia.
      * cbn [option_map]. exists (t_file t). split; [reflexivity|]. split; [lia|]. apply FIN. intros i.
        destruct (Nat.leb_spec (steps * (c / steps)) i), (Nat.ltb_spec i c); cbn [andb]; try reflexivity. lia.
  - cbn [option_map]. exists (t_file t). split; [reflexivity|]. split; [lia|]. destruct (t_buffer t) as [b|]; [destruct I' as [_ [X _]]; lia|].
    assert (S1 : steps = 1) by lia. subst steps. rewrite S1. rewrite LR in I'. split; [|split].
    + intros i Hi. rewrite I', AI by exact Hi. destruct (Nat.ltb_spec i (S c)); [reflexivity|lia].
    + rewrite I', AC. destruct (Nat.ltb_spec c (S c)); [|lia]. rewrite Nat.mod_1_r. reflexivity.
    + intros i Hi. rewrite I'. destruct (Nat.ltb_spec i (S c)); [lia|reflexivity].
Qed.
Print Assumptions C100_stepped_partial.

(** C100 fails for models stepped by hand: three calls of `step`, then `finish`, with a buffer of two timesteps out of four. *)
Theorem C100_by_hand_refuted : exists (file junk rows : list nat) steps,
  1 <= steps <= length file /\ length junk = steps /\ 0 < length rows <= length file /\
  exists out, tables_run file junk steps rows (Some (length rows - 1)) (length file) = Some out /\
    nth_error out (length rows - 1) <> nth_error rows (length rows - 1).
Proof.
  exists [0; 0; 0; 0], [9; 9], [5; 6; 7], 2. repeat split; cbn; try lia. exists [5; 6; 0; 0]. split; [reflexivity|]. discriminate.
Qed.
Print Assumptions C100_by_hand_refuted.

(** C100 fails before the first timestep: if the setup of the model fails after the recorder was set up, `finish` fails as well (and
    hides the reason) when there is a buffer, and does nothing when there is none. *)
Theorem C100_no_timestep_refuted : exists (file junk : list nat),
  tables_run file junk (length junk) [] None (length file) = None /\
  (exists junk1, tables_run file junk1 (length junk1) [] None (length file) = Some file).
Proof. exists [0; 0; 0], [9; 9]. split; [reflexivity|]. now exists [9]. Qed.
Print Assumptions C100_no_timestep_refuted.

(** Seven timesteps, three in memory: the file is complete; so it is with one or with all in memory; and after an exception in the
    sixth timestep. *)
Example C100_example :
  let file := repeat 0 7 in let rows := [11; 12; 13; 14; 15; 16; 17] in
  tables_run file [8; 8; 8] 3 rows (Some 7) 7 = Some rows /\
  tables_run file [8] 1 rows (Some 7) 7 = Some rows /\
  tables_run file (repeat 8 7) 7 rows (Some 7) 7 = Some rows /\
  tables_run file [8; 8; 8] 3 (firstn 5 rows) (Some 5) 7 = Some [11; 12; 13; 14; 15; 0; 0] /\
  buffer_steps (Size 65536) 30000 7 = 2%Z /\ buffer_steps (Size 65536) 100000 7 = 1%Z /\ buffer_steps (Timesteps 10) 4 7 = 7%Z.
Proof. vm_compute. repeat split. Qed.
