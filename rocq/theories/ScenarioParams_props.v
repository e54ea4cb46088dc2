(** C66, C77: the value of a parameter that depends on a scenario is the one given for the member of the combination. *)
From Verif Require Import Base Ring Scenario_model Scenario_proofs ScenarioParams_model ScenarioParams_spec ScenarioParams_proofs.
Local Open Scope Z_scope.
Local Open Scope list_scope.

(** Every combination that is run has exactly one member of every scenario, and that member exists. *)
Theorem C66_member : forall c ids l si p id sc, wf_coll c -> checked c -> length ids = length (scenarios c) -> NoDup ids ->
  get_combinations c = Some l -> In si l -> nth_error ids p = Some id -> nth_error (scenarios c) p = Some sc ->
  exists i, member ids id si i /\ Z.of_nat i < sc_size sc /\ forall j, member ids id si j -> j = i.
Proof.
  intros c ids l si p id sc Hw Hu Hlen Hd Hl Hin Hp Hsc. assert (Hne : scenarios c <> []) by (intro E; rewrite E in Hsc; destruct p; discriminate).
  destruct (combinations_valid c l si Hw Hne Hu Hl Hin) as [Hv _]. destruct (member_exists c ids id sc p si Hlen Hv Hp Hsc) as (i & Hm & Hi).
  exists i. split; [exact Hm|]. split; [exact Hi|]. intros j Hj. eapply member_unique; eauto.
Qed.
Print Assumptions C66_member.

(** What is set with the setter of [user_combinations] is checked. *)
Theorem C66_checked : forall c v c', set_user c v = Some c' -> (forall w rows, v = Some (Arr2 w rows) -> Forall (fun r => length r = w) rows) -> checked c'.
Proof.
  intros c v c' E Hv u r Eu Hr. destruct v as [[w rows|]|]; [| discriminate |].
  - assert (c' = Coll (scenarios c) (Some rows)) as ->.
    { cbn [set_user] in E. repeat (match type of E with (if ?b then _ else _) = _ => destruct b; [discriminate|] end). now injection E. }
    cbn [user scenarios] in *. injection Eu as <-.
    destruct (set_user_accepts c w rows _ (Hv w rows eq_refl) E) as (_ & _ & Ha & _). apply Ha. exact Hr.
  - cbn in E. injection E as <-. discriminate.
Qed.
Print Assumptions C66_checked.

(** In every combination run, the value is the one given for the member of that combination. *)
Theorem C66_value : forall c ids id l si p sc t q, wf_coll c -> checked c -> length ids = length (scenarios c) -> NoDup ids ->
  get_combinations c = Some l -> In si l -> nth_error ids p = Some id -> nth_error (scenarios c) p = Some sc ->
  accepted (sc_size sc) q = true -> rectangular (matrix q) -> covers q t (length l) ->
  exists i v, member ids id si i /\ run_param c ids id q t si = Some v /\ belongs q t (global_id si) i v.
Proof.
  intros c ids id l si p sc t q Hw Hu Hlen Hd Hl Hin Hp Hsc Ha Hr Hc. assert (Hne : scenarios c <> []) by (intro E; rewrite E in Hsc; destruct p; discriminate).
  destruct (combinations_valid c l si Hw Hne Hu Hl Hin) as [Hv Hg]. destruct (Forall2_nth_both _ _ _ _ _ Hv Hsc) as (z & Ez & Hz).
  destruct (value_right q p t si (sc_size sc) (Z.to_nat z) (length l)) as (v & Ev & Hb); auto; [rewrite Z2Nat.id by lia; exact Ez|lia|].
  exists (Z.to_nat z), v. split; [exists p; split; [exact Hp|rewrite Z2Nat.id by lia; exact Ez]|]. split; [|exact Hb].
  unfold run_param. rewrite (index_found ids id p Hd Hp). cbn [bindo]. rewrite Nat2Z.id, Hsc. cbn [bindo]. rewrite Ha. exact Ev.
Qed.
Print Assumptions C66_value.

(** A table of the wrong shape is refused when the parameter is made. *)
Theorem C66_shape : forall c ids id p sc t si q, NoDup ids -> nth_error ids p = Some id -> nth_error (scenarios c) p = Some sc ->
  match q with
  | ConstantScenario values => Z.of_nat (length values) <> sc_size sc
  | ArrayIndexedScenario values => width values <> sc_size sc
  | MonthlyFactors _ m | MonthlyProfile m => Z.of_nat (length m) <> sc_size sc \/ width m <> 12
  | WeeklyProfile m => Z.of_nat (length m) <> sc_size sc \/ width m <> 52
  | DailyProfile m => Z.of_nat (length m) <> sc_size sc \/ width m <> 366
  | Wrapper children => Z.of_nat (length children) <> sc_size sc
  end -> run_param c ids id q t si = None.
Proof.
  intros c ids id p sc t si q Hd Hp Hsc H. unfold run_param. rewrite (index_found ids id p Hd Hp). cbn [bindo]. rewrite Nat2Z.id, Hsc. cbn [bindo].
  assert (accepted (sc_size sc) q = false) as ->; [|reflexivity].
  destruct q; cbn [accepted]; try (apply Z.eqb_neq; congruence); apply andb_false_iff; rewrite !Z.eqb_neq; intuition congruence.
Qed.
Print Assumptions C66_shape.

(** ** Data frames *)

(** Whichever columns were loaded, a value that is returned is the one of the member, at the row of the timestep and the offset,
    kept within the data. *)
Theorem C77_dataframe : forall c p sc frame tb offset t si i v, wf_coll c -> checked c -> nth_error (scenarios c) p = Some sc ->
  setup_dataframe c (Z.of_nat p) sc frame = Some tb -> frame <> [] -> nth_error (indices si) p = Some (Z.of_nat i) ->
  table_value tb offset (Z.of_nat p) t si = Some v ->
  exists r row, r = Z.max 0 (Z.min (t_index t + offset) (Z.of_nat (length frame) - 1)) /\ nth_error frame (Z.to_nat r) = Some row /\ nth_error row i = Some v.
Proof.
  intros c p sc frame tb offset t si i v Hw Hu Hsc Es Hne Hi Ev. destruct (setup_dataframe_made _ _ _ _ _ Es) as (w & Ew & Hm).
  assert (Hsz : 1 <= sc_size sc). { unfold wf_coll in Hw. rewrite Forall_forall in Hw. apply Hw. eapply nth_error_In; exact Hsc. }
  destruct (table_value_sound (sc_size sc) w frame tb offset p t si i v) as (row & Er & Eo); auto.
  { intros w' ->. eapply wanted_shape; eauto. }
  eexists _, row. split; [reflexivity|]. split; [|exact Eo]. rewrite <- Er. f_equal. unfold row_index. destruct frame; [contradiction|]. cbn [length]. lia.
Qed.
Print Assumptions C77_dataframe.

(** A value is returned in every combination run.  Missing: slices without a stop, with a stop outside of the scenario, with a
    negative start or step (refuted below). *)
Theorem C77_dataframe_returns_partial : forall c l si p sc frame offset t, wf_coll c -> checked c -> get_combinations c = Some l -> In si l ->
  nth_error (scenarios c) p = Some sc -> loadable c sc -> rectangular frame -> width frame = sc_size sc -> frame <> [] ->
  exists tb v, setup_dataframe c (Z.of_nat p) sc frame = Some tb /\ table_value tb offset (Z.of_nat p) t si = Some v.
Proof.
  intros c l si p sc frame offset t Hw Hu Hl Hin Hsc Hload Hr Hwd Hne. assert (Hne' : scenarios c <> []) by (intro E; rewrite E in Hsc; destruct p; discriminate).
  destruct (setup_dataframe_total c l p sc frame) as (tb & Es); auto. exists tb. destruct (setup_dataframe_made _ _ _ _ _ Es) as (w & Ew & Hm).
  assert (Hsz : 1 <= sc_size sc). { unfold wf_coll in Hw. rewrite Forall_forall in Hw. apply Hw. eapply nth_error_In; exact Hsc. }
  destruct (combinations_valid c l si Hw Hne' Hu Hl Hin) as [Hv _]. destruct (Forall2_nth_both _ _ _ _ _ Hv Hsc) as (z & Ez & Hz).
  assert (Ez' : nth_error (indices si) p = Some (Z.of_nat (Z.to_nat z))) by (rewrite Z2Nat.id by lia; exact Ez).
  destruct (wanted_total c l p sc) as (w0 & Ew0 & Hall); auto. rewrite Ew in Ew0. injection Ew0 as <-.
  destruct (table_value_returns (sc_size sc) w frame tb offset p t si (Z.to_nat z)) as (v & Ev); auto.
  - intros w' ->. eapply wanted_shape; eauto.
  - eapply Forall_impl; [|exact Hr]. intros row Hrow. cbv beta in *. lia.
  - intros w' ->. destruct (Hall w' eq_refl) as [_ Hi]. eapply Hi; eauto.
  - eauto.
Qed.
Print Assumptions C77_dataframe_returns_partial.

(** A slice without a stop is run by the model, but a data frame can not be used with it ... *)
Definition two_by_three : list (list Q) := [[10#1; 11#1; 12#1]; [20#1; 21#1; 22#1]].
Theorem C77_dataframe_open_slice_refuted : exists c l sc frame, wf_coll c /\ checked c /\ get_combinations c = Some l /\ nth_error (scenarios c) 0 = Some sc /\
  rectangular frame /\ width frame = sc_size sc /\ frame <> [] /\ setup_dataframe c 0 sc frame = None.
Proof.
  exists (Coll [Scenario 3 (Some (Slice (Some 1) None None))] None). eexists _, _, two_by_three.
  split; [repeat constructor; cbn; lia|]. split; [intros u r E; discriminate|]. split; [vm_compute; reflexivity|]. split; [reflexivity|].
  split; [repeat constructor|]. split; [reflexivity|]. split; [discriminate|reflexivity].
Qed.
Print Assumptions C77_dataframe_open_slice_refuted.
(** ... nor one whose stop counts from the end or is beyond the last member. *)
Example outside_stops : forall stop, In stop [-1; 4] -> let c := Coll [Scenario 3 (Some (Slice None (Some stop) None))] None in
  get_combinations c <> None /\ setup_dataframe c 0 (Scenario 3 (Some (Slice None (Some stop) None))) two_by_three = None.
Proof. intros stop [<-|[<-|[]]]; vm_compute; split; (discriminate || reflexivity). Qed.
(** With a negative step the columns loaded are not those of the members that are run. *)
Theorem C77_dataframe_negative_step_refuted : exists c l si sc frame tb, wf_coll c /\ checked c /\ get_combinations c = Some l /\ In si l /\ nth_error (scenarios c) 0 = Some sc /\
  rectangular frame /\ width frame = sc_size sc /\ frame <> [] /\ setup_dataframe c 0 sc frame = Some tb /\ table_value tb 0 0 (Timestep 0 1 0 0) si = None.
Proof.
  exists (Coll [Scenario 3 (Some (Slice (Some 2) (Some 0) (Some (-1))))] None). eexists _, (SI 0 [2]), _, two_by_three. eexists.
  split; [repeat constructor; cbn; lia|]. split; [intros u r E; discriminate|]. split; [vm_compute; reflexivity|]. split; [left; reflexivity|]. split; [reflexivity|].
  split; [repeat constructor|]. split; [reflexivity|]. split; [discriminate|]. split; vm_compute; reflexivity.
Qed.
Print Assumptions C77_dataframe_negative_step_refuted.

(** ** Tables *)

(** As for data frames, as long as the row asked for is one of the timesteps of the run. *)
Theorem C77_tables : forall c p sc steps node tb offset t si i v, wf_coll c -> checked c -> nth_error (scenarios c) p = Some sc ->
  setup_tables c (Z.of_nat p) sc steps node = Some tb -> nth_error (indices si) p = Some (Z.of_nat i) ->
  0 <= t_index t + offset < Z.of_nat steps -> table_value tb offset (Z.of_nat p) t si = Some v ->
  exists row, nth_error node (Z.to_nat (t_index t + offset)) = Some row /\ nth_error row i = Some v.
Proof.
  intros c p sc steps node tb offset t si i v Hw Hu Hsc Es Hi Ho Ev. destruct (setup_tables_made _ _ _ _ _ _ Es) as (Hst & Hwd & w & Ew & Hm).
  assert (Hsz : 1 <= sc_size sc). { unfold wf_coll in Hw. rewrite Forall_forall in Hw. apply Hw. eapply nth_error_In; exact Hsc. }
  assert (Hln : exists rows, rows = match w with Some _ => firstn steps node | None => node end /\ rows <> [] /\ (steps <= length rows)%nat).
  { eexists. split; [reflexivity|]. assert (Hl : (steps <= length (match w with Some _ => firstn steps node | None => node end))%nat) by (destruct w; [rewrite firstn_length; lia|exact Hst]).
    split; [|exact Hl]. intro E. rewrite E in Hl. cbn in Hl. lia. }
  destruct Hln as (rows & Erows & Hne & Hln). rewrite <- Erows in Hm.
  destruct (table_value_sound (sc_size sc) w rows tb offset p t si i v) as (row & Er & Eo); auto.
  { intros w' ->. eapply wanted_shape; eauto. }
  exists row. split; [|exact Eo]. assert (Hri : row_index rows offset t = t_index t + offset) by (unfold row_index; lia). rewrite Hri in Er.
  rewrite <- Er, Erows. destruct w; [|reflexivity]. symmetry. apply firstn_nth_error. lia.
Qed.
Print Assumptions C77_tables.

Theorem C77_tables_returns_partial : forall c l si p sc steps node offset t, wf_coll c -> checked c -> get_combinations c = Some l -> In si l ->
  nth_error (scenarios c) p = Some sc -> loadable c sc -> rectangular node -> sc_size sc <= width node -> (0 < steps <= length node)%nat ->
  exists tb v, setup_tables c (Z.of_nat p) sc steps node = Some tb /\ table_value tb offset (Z.of_nat p) t si = Some v.
Proof.
  intros c l si p sc steps node offset t Hw Hu Hl Hin Hsc Hload Hr Hwd Hst. assert (Hne' : scenarios c <> []) by (intro E; rewrite E in Hsc; destruct p; discriminate).
  destruct (setup_tables_total c l p sc steps node) as (tb & Es); auto; [lia|]. exists tb. destruct (setup_tables_made _ _ _ _ _ _ Es) as (_ & _ & w & Ew & Hm).
  assert (Hsz : 1 <= sc_size sc). { unfold wf_coll in Hw. rewrite Forall_forall in Hw. apply Hw. eapply nth_error_In; exact Hsc. }
  destruct (combinations_valid c l si Hw Hne' Hu Hl Hin) as [Hv _]. destruct (Forall2_nth_both _ _ _ _ _ Hv Hsc) as (z & Ez & Hz).
  assert (Ez' : nth_error (indices si) p = Some (Z.of_nat (Z.to_nat z))) by (rewrite Z2Nat.id by lia; exact Ez).
  destruct (wanted_total c l p sc) as (w0 & Ew0 & Hall); auto. rewrite Ew in Ew0. injection Ew0 as <-.
  destruct (table_value_returns (sc_size sc) w (match w with Some _ => firstn steps node | None => node end) tb offset p t si (Z.to_nat z)) as (v & Ev); auto.
  - intros w' ->. eapply wanted_shape; eauto.
  - destruct w; [|destruct node; [cbn in Hst; lia|discriminate]]. destruct node as [|n0 nr]; [cbn in Hst; lia|]. destruct steps; [lia|discriminate].
  - apply Forall_forall. intros row Hrow. assert (Hrn : In row node) by (destruct w; [rewrite <- (firstn_skipn steps node); apply in_or_app; left; exact Hrow|exact Hrow]).
    pose proof (proj1 (Forall_forall _ _) Hr row Hrn) as Hlr. cbv beta in Hlr. lia.
  - intros w' ->. destruct (Hall w' eq_refl) as [_ Hi]. eapply Hi; eauto.
  - eauto.
Qed.
Print Assumptions C77_tables_returns_partial.

(** A look ahead beyond the run: with all the columns it gives the next row of the table; with some of them, the last row of the run. *)
Theorem C77_tables_offset_refuted : exists sc node steps offset t si a b,
  let whole := Coll [sc] None in let chosen := Coll [sc] (Some [[1]]) in
  wf_coll whole /\ checked whole /\ checked chosen /\ rectangular node /\
  bindo (setup_tables whole 0 sc steps node) (fun tb => table_value tb offset 0 t si) = Some a /\
  bindo (setup_tables chosen 0 sc steps node) (fun tb => table_value tb offset 0 t si) = Some b /\ ~ (a == b)%Q.
Proof.
  exists (Scenario 3 None), (two_by_three ++ [[30#1; 31#1; 32#1]]), 2%nat, 1, (Timestep 1 1 0 0), (SI 0 [1]), (31#1)%Q, (21#1)%Q. cbv zeta.
  split; [repeat constructor; cbn; lia|]. split; [intros u r E; discriminate|].
  split; [intros u r E Hr; injection E as <-; destruct Hr as [<-|[]]; repeat constructor; cbn; lia|].
  split; [repeat constructor|]. split; [vm_compute; reflexivity|]. split; [vm_compute; reflexivity|]. intro H. vm_compute in H. discriminate.
Qed.
Print Assumptions C77_tables_offset_refuted.

(** ** Examples *)
(** Two scenarios, of three and two members; the second one has the number 7. *)
Example pair := Coll [Scenario 3 None; Scenario 2 None] None.
Example pair_combinations : option_map (map indices) (get_combinations pair) = Some [[0; 0]; [0; 1]; [1; 0]; [1; 1]; [2; 0]; [2; 1]].
Proof. reflexivity. Qed.
Example pair_values :
  option_map (map (run_param pair [4; 7]%nat 4 (ConstantScenario [10#1; 20#1; 30#1]) (Timestep 0 1 0 0))) (get_combinations pair)
    = Some [Some (10#1); Some (10#1); Some (20#1); Some (20#1); Some (30#1); Some (30#1)]
  /\ option_map (map (run_param pair [4; 7]%nat 7 (ArrayIndexedScenario [[1#1; 2#1]; [3#1; 4#1]]) (Timestep 1 1 0 0))) (get_combinations pair)
    = Some [Some (3#1); Some (4#1); Some (3#1); Some (4#1); Some (3#1); Some (4#1)]
  /\ option_map (map (run_param pair [4; 7]%nat 7 (Wrapper [[0#1; 1#1; 2#1; 3#1; 4#1; 5#1]; [10#1; 11#1; 12#1; 13#1; 14#1; 15#1]]) (Timestep 1 1 0 0))) (get_combinations pair)
    = Some [Some (0#1); Some (11#1); Some (2#1); Some (13#1); Some (4#1); Some (15#1)]
  /\ option_map (map (run_param pair [4; 7]%nat 7 (ConstantScenario [10#1; 20#1; 30#1]) (Timestep 0 1 0 0))) (get_combinations pair)
    = Some [None; None; None; None; None; None].
Proof. repeat split; vm_compute; reflexivity. Qed.
(** Members 2 and 0 chosen by the user, or 1 and 2 by a slice: the columns in the table are numbered anew, the values are the same. *)
Example chosen_values :
  let c := Coll [Scenario 3 None] (Some [[2]; [0]; [2]]) in
  exists tb, setup_dataframe c 0 (Scenario 3 None) two_by_three = Some tb /\ t_values tb = [[10#1; 12#1]; [20#1; 22#1]] /\
    option_map (map (table_value tb 0 0 (Timestep 1 1 0 0))) (get_combinations c) = Some [Some (22#1); Some (20#1); Some (22#1)] /\
    option_map (map (table_value tb (-5) 0 (Timestep 1 1 0 0))) (get_combinations c) = Some [Some (12#1); Some (10#1); Some (12#1)].
Proof. eexists. repeat split; vm_compute; reflexivity. Qed.
Example sliced_values :
  let sc := Scenario 3 (Some (Slice (Some 1) (Some 3) None)) in let c := Coll [sc] None in
  loadable c sc /\ exists tb, setup_dataframe c 0 sc two_by_three = Some tb /\ t_values tb = [[11#1; 12#1]; [21#1; 22#1]] /\
    option_map (map (table_value tb 0 0 (Timestep 1 1 0 0))) (get_combinations c) = Some [Some (21#1); Some (22#1)].
Proof.
  split; [right; repeat split; cbn; try lia; exists 3; split; [reflexivity|lia]|]. eexists. repeat split; vm_compute; reflexivity.
Qed.
