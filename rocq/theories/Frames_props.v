(** C111: data frames of results show every value under the labels of its timestep and its scenarios. *)
From Coq Require Import Strings.Ascii Strings.String.
From Verif Require Import Base Documents_model Documents_proofs Options_props Scenario_model Scenario_spec Scenario_proofs Frames_model Frames_spec Frames_proofs.
Local Open Scope string_scope.
Local Open Scope nat_scope.
Local Open Scope list_scope.

(** * Frames of recorders *)

(** The value recorded of a combination is in the column called after its members, and if no two members of a scenario and no two combinations are alike it is the only one there. *)
Theorem C111_to_dataframe : forall {R A} (ss : list named) (user : option (list (list Z))) (index : list R) (data : list (list A)) l,
  ready ss user -> get_combinations (collection_of ss user) = Some l ->
  List.length data = List.length index -> Forall (fun row => List.length row = List.length l) data ->
  exists f, to_dataframe ss user index data = Some f /\ f_index f = index /\ List.length (f_columns f) = List.length l /\
    forall i row si v, nth_error data i = Some row -> In si l -> nth_error row (global_id si) = Some v ->
    exists ls, called ss (indices si) ls /\ shows f i ls v /\ (distinct ss -> NoDup (map indices l) -> forall v', shows f i ls v' -> v' = v).
Proof.
  intros R A ss user index data l Rd G LI LR. destruct (frame_recorded ss user index data l Rd G LI LR) as (f & E & I & H). exists f. split; [exact E|]. split; [exact I|]. split; [|exact H].
  unfold to_dataframe, multiindex in E. rewrite G in E. destruct ss as [|s ss]; [now destruct (r_some _ _ Rd)|]. cbn [option_map] in E. apply mk_frame_inv in E as [-> _]. cbn [f_columns]. apply map_length.
Qed.
Print Assumptions C111_to_dataframe.

(** Data that does not have a value per combination, or a row per timestep, is refused. *)
Theorem C111_refused : forall {R A} (ss : list named) (user : option (list (list Z))) (index : list R) (data : list (list A)) l,
  ready ss user -> get_combinations (collection_of ss user) = Some l ->
  (List.length data <> List.length index \/ exists row, In row data /\ List.length row <> List.length l) -> to_dataframe ss user index data = None.
Proof.
  intros R A ss user index data l Rd G H. destruct (to_dataframe ss user index data) as [f|] eqn:E; [|reflexivity]. exfalso. unfold to_dataframe, multiindex in E. rewrite G in E.
  destruct ss as [|s ss]; [now destruct (r_some _ _ Rd)|]. cbn [option_map] in E. apply mk_frame_inv in E as (_ & E1 & E2). destruct H as [H|(row & I & H)]; [contradiction|].
  rewrite Forall_forall in E2. specialize (E2 row I). rewrite map_length in E2. contradiction.
Qed.
Print Assumptions C111_refused.

(** Without scenarios there is one column, called 0. *)
Theorem C111_no_scenarios : forall {R A} (user : option (list (list Z))) (index : list R) (data : list A), List.length data = List.length index ->
  exists f, to_dataframe [] user index (map (fun v => [v]) data) = Some f /\ f_index f = index /\ f_columns f = [[Number 0]] /\
    forall i v, nth_error data i = Some v -> forall v', shows f i [Number 0] v' <-> v' = v.
Proof.
  intros R A user index data L. exists (Frame index [[Number 0]] (map (fun v => [v]) data)). split; [|split; [reflexivity|split; [reflexivity|]]].
  - unfold to_dataframe, multiindex. apply mk_frame_some; [now rewrite map_length|]. apply Forall_map, Forall_forall. reflexivity.
  - intros i v Iv v'. split.
    + intros (j & row & C & I & V). cbn [f_columns f_cells] in *. rewrite nth_error_map, Iv in I. cbn in I. injection I as <-. destruct j as [|j]; [cbn in V; congruence|destruct j; discriminate].
    + intros ->. exists 0, [v]. cbn [f_columns f_cells]. split; [reflexivity|]. split; [now rewrite nth_error_map, Iv|reflexivity].
Qed.
Print Assumptions C111_no_scenarios.

(** The names of the members of scenarios are as many as there are members, or they are refused. *)
Theorem C111_named : forall ss user, ss <> [] ->
  (forall s, In s ss -> exists name size sl names, mk_named name size sl names = Some s) ->
  match user with None => True | Some u => Forall (fun row => Forall2 (fun i s => 0 <= i < sc_size (n_scenario s))%Z row ss) u end -> ready ss user.
Proof.
  intros ss user N M U. constructor; [exact N| | |exact U].
  - apply Forall_forall. intros s I. destruct (M s I) as (name & size & sl & names & E). unfold mk_named, mk_scenario in E. destruct (Z.ltb_spec size 1); [discriminate|].
    destruct names as [ns|]; [destruct (Z.of_nat (List.length ns) =? size)%Z|]; try discriminate; injection E as <-; exact H.
  - apply Forall_forall. intros s I. destruct (M s I) as (name & size & sl & names & E). unfold mk_named, mk_scenario in E. destruct (Z.ltb_spec size 1); [discriminate|].
    destruct names as [ns|]; [destruct (Z.eqb_spec (Z.of_nat (List.length ns)) size)|]; try discriminate; injection E as <-; cbn [n_ensemble n_scenario sc_size]; [assumption|exact Logic.I].
Qed.
Print Assumptions C111_named.

(** Members of equal names give columns of equal names. *)
Theorem C111_names_refuted : exists s f, mk_named "s" 2 None (Some [Text "a"; Text "a"]) = Some s /\
  to_dataframe [s] None [tt] [[1; 2]] = Some f /\ shows f 0 [Text "a"] 1 /\ shows f 0 [Text "a"] 2.
Proof.
  eexists _, _. split; [reflexivity|]. split; [reflexivity|]. split; [exists 0, [1; 2]|exists 1, [1; 2]]; now repeat split.
Qed.
Print Assumptions C111_names_refuted.

Definition climate : named := Named "climate" (Scenario 2 None) None.
Definition demand : named := Named "demand" (Scenario 3 None) (Some [Text "low"; Text "mid"; Text "high"]).
Example C111_example : exists f, to_dataframe [climate; demand] (Some [[1; 2]; [0; 0]]%Z) ["mon"; "tue"] [[5; 6]; [7; 8]] = Some f /\
  f_columns f = [[Number 1; Text "high"]; [Number 0; Text "low"]] /\ shows f 1 [Number 0; Text "low"] 8.
Proof. eexists. split; [reflexivity|]. split; [reflexivity|]. exists 1, [7; 8]. now repeat split. Qed.

(** * The tables of the file *)

(** From what is written of the scenarios it can be told which combinations were run, in their order. *)
Theorem C111_tables : forall ss user l t, ready ss user -> NoDup (map n_name ss) -> get_combinations (collection_of ss user) = Some l -> write_tables ss user = Some t ->
  t_scenarios t = map (fun s => (n_name s, sc_size (n_scenario s))) ss /\ told t = Some (map indices l).
Proof.
  intros ss user l t Rd ND G W. split; [|now apply (tables_told ss user l t Rd ND G)]. unfold write_tables in W. destruct user; [now injection W as <-|].
  destruct (existsb _ ss); [|now injection W as <-]. destruct (sequence (map slice_row ss)); [|discriminate]. now injection W as <-.
Qed.
Print Assumptions C111_tables.

(** They are written, unless a slice that applies lacks its start or its end. *)
Theorem C111_tables_written : forall ss user,
  write_tables ss user = None <-> user = None /\ exists s sl, In s ss /\ sc_slice (n_scenario s) = Some sl /\ (sl_start sl = None \/ sl_stop sl = None).
Proof.
  intros ss user. unfold write_tables. destruct user as [u|]; [split; [discriminate|intros [H _]; discriminate]|].
  assert (Q : sequence (map slice_row ss) = None <-> exists s sl, In s ss /\ sc_slice (n_scenario s) = Some sl /\ (sl_start sl = None \/ sl_stop sl = None)).
  { induction ss as [|s ss IH]; [split; [discriminate|intros (s & sl & [] & _)]|]. cbn [map sequence]. destruct (slice_row s) as [r|] eqn:E.
    - split.
      + destruct (sequence (map slice_row ss)) eqn:F; [discriminate|]. intros _. destruct (proj1 IH eq_refl) as (t & sl & I & X). exists t, sl. split; [now right|exact X].
      + intros (t & sl & [<-|I] & X & Y).
        * exfalso. unfold slice_row in E. rewrite X in E. destruct Y as [Y|Y]; rewrite Y in E; [discriminate|destruct (sl_start sl); discriminate].
        * rewrite (proj2 IH); [reflexivity|]. exists t, sl. now repeat split.
    - split; [|reflexivity]. intros _. unfold slice_row in E. destruct (sc_slice (n_scenario s)) as [sl|] eqn:X; [|discriminate]. exists s, sl. split; [now left|]. split; [exact X|].
      destruct (sl_start sl), (sl_stop sl); try discriminate; auto. }
  destruct (existsb _ ss) eqn:X.
  - destruct (sequence (map slice_row ss)) as [rows|] eqn:E; cbn [option_map].
    + split; [discriminate|]. intros [_ H]. apply Q in H. discriminate.
    + split; [intros _; split; [reflexivity|now apply Q]|reflexivity].
  - split; [discriminate|]. intros [_ (s & sl & I & S & _)]. apply not_true_iff_false in X. exfalso. apply X. apply existsb_exists. exists s. split; [exact I|]. now rewrite S.
Qed.
Print Assumptions C111_tables_written.

(** A scenario of which all but the first members are run cannot be recorded to a file, though it runs. *)
Theorem C111_tables_refuted : exists ss, ready ss None /\ distinct ss /\ get_combinations (collection_of ss None) <> None /\ write_tables ss None = None.
Proof.
  exists [Named "s" (Scenario 3 (Some (Slice (Some 1) None None))%Z) None]. split; [|split; [|split; [discriminate|reflexivity]]].
  - constructor; [discriminate| | |exact Logic.I]; constructor; try constructor; cbn; try lia; exact Logic.I.
  - constructor; constructor.
Qed.
Print Assumptions C111_tables_refuted.

(** Combinations are written by the names of scenarios: two of the same name lose one of their members. *)
Theorem C111_names_alike_refuted : exists ss u l t, ready ss (Some u) /\ get_combinations (collection_of ss (Some u)) = Some l /\ write_tables ss (Some u) = Some t /\ told t <> Some (map indices l).
Proof.
  exists [Named "s" (Scenario 2 None) None; Named "s" (Scenario 2 None) None], [[0; 1]]%Z. eexists _, _. split; [|split; [reflexivity|split; [reflexivity|]]].
  - constructor; [discriminate| | |]; repeat constructor; cbn; lia.
  - vm_compute. discriminate.
Qed.
Print Assumptions C111_names_alike_refuted.

(** * generate_dataframes *)

(** When every combination is run, the frame of an array written by the recorder has under each combination the value of that combination. *)
Theorem C111_generate : forall {A} ss l (index : list date) (data : list (list A)),
  ready ss None -> Forall (fun s => sc_slice (n_scenario s) = None) ss -> get_combinations (collection_of ss None) = Some l ->
  List.length data = List.length index -> Forall (fun row => List.length row = List.length l) data ->
  exists t rows f, write_tables ss None = Some t /\ write_array ss None data = Some rows /\ frame_of index t rows = Some f /\ f_index f = index /\
    forall i row si v, nth_error data i = Some row -> In si l -> nth_error row (global_id si) = Some v -> forall v', shows f i (indices si) v' <-> v' = v.
Proof.
  intros A ss l index data Rd F G LI LR. destruct (full_product ss l Rd F G) as (t & W & P). destruct (written ss None l data Rd G LR) as (rows & Wr & Fl).
  exists t, rows, (Frame index (map indices l) data). split; [exact W|]. split; [exact Wr|]. split; [|split; [reflexivity|]].
  - unfold frame_of. rewrite P, Fl. apply mk_frame_some; [exact LI|]. now rewrite map_length.
  - destruct (combinations_ready ss None l Rd G) as [Id V]. pose proof Rd as [N Sz Nm U].
    assert (ND : NoDup (map indices l)).
    { assert (Wf : wf_coll (collection_of ss None)) by (unfold wf_coll; cbn [scenarios collection_of]; apply Forall_map; exact Sz).
      destruct (default_combinations _ _ Wf ltac:(cbn; destruct ss; [congruence|discriminate]) eq_refl G) as (rs & E & I & _). rewrite I. apply product_NoDup.
      cbn [scenarios collection_of] in E. clear - E Sz. revert rs E. induction Sz as [|s ss H Sz IH]; intros [|r rs] E; try discriminate; constructor; cbn [map] in E; injection E as E1 E2.
      - now apply (scenario_range_NoDup (n_scenario s)).
      - now apply IH. }
    intros i row si v Di I Rv v'. pose proof (global_nth l Id si I) as Ni. split.
    + intros (j & row' & Cj & Di' & Rv'). cbn [f_columns f_cells] in *. rewrite nth_error_map in Cj. destruct (nth_error l j) as [sj|] eqn:Nj; [|discriminate]. cbn [option_map] in Cj. injection Cj as Cj.
      assert (J : j = global_id si) by (apply (NoDup_at indices l j (global_id si) ND sj Nj si Ni); exact Cj). congruence.
    + intros ->. exists (global_id si), row. cbn [f_columns f_cells]. split; [now rewrite nth_error_map, Ni|now split].
Qed.
Print Assumptions C111_generate.

(** How many columns the frames of a file have: a column per member of the product of all scenarios. *)
Definition everything (ss : list named) : nat := fold_right Nat.mul 1 (map (fun s => Z.to_nat (sc_size (n_scenario s))) ss).
Lemma product_columns_length ss user t cols : write_tables ss user = Some t -> product_columns t = Some cols -> List.length cols = everything ss.
Proof.
  intros W P. assert (E : t_scenarios t = map (fun s => (n_name s, sc_size (n_scenario s))) ss).
  { unfold write_tables in W. destruct user; [now injection W as <-|]. destruct (existsb _ ss); [|now injection W as <-]. destruct (sequence (map slice_row ss)); [|discriminate]. now injection W as <-. }
  unfold product_columns in P. rewrite E in P. destruct ss as [|s ss]; [discriminate|].
  assert (cols = product (map (fun p : string * Z => map Z.of_nat (seq 0 (Z.to_nat (snd p)))) (map (fun s => (n_name s, sc_size (n_scenario s))) (s :: ss)))) by (cbn [map] in P |- *; congruence). subst cols.
  rewrite product_length, !map_map. unfold everything. generalize (s :: ss). clear. induction l as [|s l IH]; [reflexivity|]. cbn [map fold_right snd nprod]. rewrite map_length, seq_length. f_equal. exact IH.
Qed.
(** A run of fewer (or more) combinations than there are in the product leaves a file of which no frames can be made. *)
Theorem C111_generate_refused : forall {A} ss user l t (index : list date) (data : list (list A)) rows,
  ready ss user -> get_combinations (collection_of ss user) = Some l -> write_tables ss user = Some t -> data <> [] -> Forall (fun row => List.length row = List.length l) data ->
  write_array ss user data = Some rows -> List.length l <> everything ss -> frame_of index t rows = None.
Proof.
  intros A ss user l t index data rows Rd G W Ne LR Wr D. destruct (written ss user l data Rd G LR) as (rows' & Wr' & Fl). assert (rows' = rows) by congruence. subst rows'.
  unfold frame_of. destruct (product_columns t) as [cols|] eqn:P; [|reflexivity]. destruct (mk_frame index cols (map flatten rows)) as [f|] eqn:E; [|reflexivity]. exfalso. apply D.
  apply mk_frame_inv in E as (_ & _ & F). rewrite Fl in F. destruct data as [|row data]; [congruence|]. inversion LR; subst. inversion F; subst.
  rewrite <- (product_columns_length ss user t cols W P). congruence.
Qed.
Print Assumptions C111_generate_refused.

(** Combinations in another order than that of the product are shown under wrong labels, without an error. *)
Theorem C111_generate_combinations_refuted : exists ss u l t rows f, ready ss (Some u) /\ NoDup (map n_name ss) /\ NoDup u /\ get_combinations (collection_of ss (Some u)) = Some l /\
  write_tables ss (Some u) = Some t /\ write_array ss (Some u) [[10; 20]] = Some rows /\ frame_of [(2020, 1, 1)%Z] t rows = Some f /\
  (exists si, In si l /\ indices si = [1%Z] /\ nth_error [10; 20] (global_id si) = Some 10) /\ shows f 0 [1%Z] 20.
Proof.
  exists [Named "s" (Scenario 2 None) None], [[1]; [0]]%Z. eexists _, _, _, _. split; [|split; [|split; [|split; [reflexivity|split; [reflexivity|split; [reflexivity|split; [reflexivity|split]]]]]]].
  - constructor; [discriminate| | |]; repeat constructor; cbn; lia.
  - repeat constructor. intros [].
  - constructor; [intros [H|[]]; discriminate|]. constructor; [intros []|constructor].
  - exists (SI 0 [1%Z]). split; [now left|]. now split.
  - exists 1, [10; 20]. now repeat split.
Qed.
Print Assumptions C111_generate_combinations_refuted.

(** So are the members of a scenario run from the last to the first. *)
Theorem C111_generate_slice_refuted : exists ss l t rows f, ready ss None /\ NoDup (map n_name ss) /\ get_combinations (collection_of ss None) = Some l /\
  write_tables ss None = Some t /\ write_array ss None [[10; 20; 30]] = Some rows /\ frame_of [(2020, 1, 1)%Z] t rows = Some f /\
  (exists si, In si l /\ indices si = [2%Z] /\ nth_error [10; 20; 30] (global_id si) = Some 10) /\ shows f 0 [2%Z] 30.
Proof.
  exists [Named "s" (Scenario 3 (Some (Slice (Some 2) (Some (-4)) (Some (-1)))))%Z None]. eexists _, _, _, _. split; [|split; [|split; [reflexivity|split; [reflexivity|split; [reflexivity|split; [reflexivity|split]]]]]].
  - constructor; [discriminate| | |]; repeat constructor; cbn; lia.
  - repeat constructor. intros [].
  - exists (SI 0 [2%Z]). split; [now left|]. now split.
  - exists 2, [10; 20; 30]. now repeat split.
Qed.
Print Assumptions C111_generate_slice_refuted.

(** No frames can be made of the file of a model without scenarios. *)
Theorem C111_generate_no_scenarios : forall {A} user (index : list date) (rows : list (nd A)) t, write_tables [] user = Some t -> frame_of index t rows = None.
Proof.
  intros A user index rows t W. unfold frame_of, product_columns. assert (E : t_scenarios t = []) by (destruct user; cbn in W; injection W as <-; reflexivity). now rewrite E.
Qed.
Print Assumptions C111_generate_no_scenarios.

(** The frames come in the order of the arrays, one each, up to the first that cannot be made. *)
Theorem C111_frames : forall {A} full index t (arrays : list (array A)),
  let (l, ok) := generate full index t arrays in
  exists done rest, arrays = done ++ rest /\ Forall2 (fun a p => frame_of index t (snd a) = Some (snd p) /\ fst p = array_name full (fst a)) done l /\
    match rest with [] => ok = true | a :: _ => ok = false /\ frame_of index t (snd a) = None end.
Proof.
  intros A full index t arrays. induction arrays as [|[path rows] arrays IH]; cbn [generate]; [exists [], []; repeat split; constructor|].
  destruct (frame_of index t rows) as [f|] eqn:E.
  - destruct (generate full index t arrays) as [l ok]. destruct IH as (done & rest & -> & F & R). exists ((path, rows) :: done), rest. split; [reflexivity|]. split; [|exact R]. constructor; [now split|exact F].
  - exists [], ((path, rows) :: arrays). split; [reflexivity|]. split; [constructor|now split].
Qed.
Print Assumptions C111_frames.

(** Names: the last part of the path, or the last two. *)
Theorem C111_array_name : forall (groups : list string) g n, array_name false (groups ++ [g; n]) = n /\ array_name true (groups ++ [g; n]) = (g ++ "." ++ n)%string.
Proof. intros groups g n. unfold array_name. rewrite rev_app_distr. now split. Qed.
Print Assumptions C111_array_name.
Theorem C111_array_name_root : forall n : string, array_name false [n] = n /\ array_name true [n] = ("/." ++ n)%string.
Proof. intros n. now split. Qed.
Print Assumptions C111_array_name_root.
(** With the last part only, arrays of two groups may have the same name. *)
Theorem C111_array_name_refuted : exists p q : list string, p <> q /\ array_name false p = array_name false q.
Proof. exists ["nodes"; "river"], ["parameters"; "river"]. split; [discriminate|reflexivity]. Qed.
Print Assumptions C111_array_name_refuted.

(** The flows of routes have a value for each route and combination: with two routes or more there is no frame of them, and none of the arrays after them. *)
Theorem C111_routes_refused : forall {A} ss user l t (index : list date) routes (data : list (list A)) rows,
  ready ss user -> get_combinations (collection_of ss user) = Some l -> write_tables ss user = Some t -> List.length l = everything ss -> routes <> 1 -> data <> [] ->
  write_routes ss user routes data = Some rows -> frame_of index t rows = None.
Proof.
  intros A ss user l t index routes data rows Rd G W L Nr Ne Wr. unfold write_routes in Wr. destruct (shape_size ss user l Rd G) as (sh & E & Sz). rewrite E in Wr. apply sequence_spec in Wr.
  unfold frame_of. destruct (product_columns t) as [cols|] eqn:P; [|reflexivity]. destruct (mk_frame index cols (map flatten rows)) as [f|] eqn:M; [|reflexivity]. exfalso.
  apply mk_frame_inv in M as (_ & _ & F). destruct data as [|row data]; [congruence|]. destruct rows as [|x rows]; [discriminate|]. cbn [map] in Wr, F. assert (Wr0 : reshape (routes :: map Z.to_nat sh) row = Some x) by congruence. clear Wr. rename Wr0 into Wr. inversion F as [|? ? H _]; subst.
  pose proof (reshape_size _ _ _ Wr) as Lr. destruct (reshape_flatten (routes :: map Z.to_nat sh) row Lr) as (y & Y & Fy). assert (y = x) by (rewrite Wr in Y; congruence). subst y.
  rewrite Fy, Lr, (product_columns_length ss user t cols W P) in H. cbn [size_of fold_right] in H. fold (size_of (map Z.to_nat sh)) in H. rewrite Sz, L in H.
  assert (B : 1 <= everything ss).
  { clear - Rd. destruct Rd as [_ Sz _ _]. unfold everything. induction Sz as [|s ss B Sz IH]; [cbn; lia|]. cbn [map fold_right]. nia. }
  apply Nr. nia.
Qed.
Print Assumptions C111_routes_refused.

(** Timesteps of one day have the same label. *)
Theorem C111_days_refuted : exists (f : frame date (list Z) nat) t, frame_of [(2020, 1, 1); (2020, 1, 1)]%Z t [Arr [Cell 1; Cell 2]; Arr [Cell 3; Cell 4]] = Some f /\ ~ NoDup (f_index f).
Proof.
  eexists _, (Tables [("s", 2%Z)] None None). split; [reflexivity|]. cbn [f_index]. intros H. inversion H; subst. apply H2. now left.
Qed.
Print Assumptions C111_days_refuted.

Example C111_generate_example : exists t rows f, write_tables [climate; demand] None = Some t /\ write_array [climate; demand] None [[1; 2; 3; 4; 5; 6]] = Some rows /\
  frame_of [(2020, 1, 31)%Z] t rows = Some f /\ shows f 0 [1; 0]%Z 4.
Proof. eexists _, _, _. split; [reflexivity|]. split; [reflexivity|]. split; [reflexivity|]. exists 3, [1; 2; 3; 4; 5; 6]. now repeat split. Qed.

(** * The frame of the model *)

Section Model.
Context {R L A : Type}.
Variable eqb : R -> R -> bool.
Hypothesis eqb_eq : forall a b, eqb a b = true <-> a = b.

(** The frame of all recorders has in the column (name of recorder, column) of a row what the frame of that recorder has there, and nothing if it does not have that row. *)
Theorem C111_model : forall (union : list R) (recs : list (string * frame R L A)), recs <> [] -> NoDup (map fst recs) ->
  Forall (fun p => good (snd p) /\ NoDup (f_index (snd p)) /\ NoDup (f_columns (snd p))) recs ->
  exists f, model_frame eqb union recs = Some f /\ f_index f = union /\
    (forall n l, In (n, l) (f_columns f) <-> exists g, In (n, g) recs /\ In l (f_columns g)) /\
    forall i r n g l, nth_error union i = Some r -> In (n, g) recs -> In l (f_columns g) ->
      forall v, shows f i (n, l) v <-> match v with
                                       | Some v => exists ri, nth_error (f_index g) ri = Some r /\ shows g ri l v
                                       | None => ~ In r (f_index g)
                                       end.
Proof.
  intros union recs Ne ND F. unfold model_frame. rewrite (put_all recs [] ND). cbn [app].
  unfold concat_frames. destruct recs as [|rec0 recs0] eqn:Er; [congruence|]. rewrite <- Er in *. clear Ne. eexists. split; [reflexivity|]. split; [reflexivity|]. cbn [f_columns f_cells].
  assert (Gd : Forall (fun p : string * frame R L A => good (snd p)) recs) by (apply Forall_forall; rewrite Forall_forall in F; intros p I; now destruct (F p I)).
  split.
  - intros n l. rewrite in_flat_map. split.
    + intros ([m g] & I & J). cbn [fst snd] in J. apply in_map_iff in J as (l' & [= -> ->] & J). now exists g.
    + intros (g & I & J). exists (n, g). split; [exact I|]. apply in_map. exact J.
  - intros i r n g l Ur I C v. rewrite Forall_forall in F. destruct (F (n, g) I) as ([Lc Fr] & Di & Dc). cbn [snd] in *. split.
    + intros (k & row & Ck & Ci & Cv). cbn [f_columns f_cells] in *. rewrite nth_error_map, Ur in Ci. cbn in Ci. injection Ci as <-.
      destruct (place_inv eqb recs Gd k n l v r Ck Cv) as (g' & j & I' & Cj & Vj).
      assert (g' = g). { apply In_nth_error in I as [a Ha]. apply In_nth_error in I' as [b Hb]. assert (a = b) by (apply (NoDup_at fst recs a b ND (n, g) Ha (n, g') Hb); reflexivity). congruence. }
      subst g'. unfold row_of in Vj. destruct (in_dec (fun a b => match bool_dec (eqb a b) true with left E => left (proj1 (eqb_eq a b) E) | right E => right (fun X => E (proj2 (eqb_eq a b) X)) end) r (f_index g)) as [Ir|Nr].
      * apply In_nth_error in Ir as [ri Hr]. assert (ri < List.length (f_cells g)) by (rewrite Lc; apply nth_error_Some; congruence).
        destruct (nth_error (f_cells g) ri) as [rw|] eqn:Er'; [|apply nth_error_None in Er'; lia].
        rewrite (row_at_some eqb eqb_eq _ _ ri r rw Di Hr Er'), nth_error_map in Vj. destruct (nth_error rw j) as [w|] eqn:Ew; [|discriminate]. cbn in Vj. injection Vj as <-. exists ri. split; [exact Hr|].
        exists j, rw. now repeat split.
      * rewrite (row_at_none eqb eqb_eq r _ _ Nr), nth_error_map, Cj in Vj. cbn in Vj. injection Vj as <-. exact Nr.
    + intros H. assert (Q : exists j, nth_error (f_columns g) j = Some l /\ nth_error (row_of eqb r g) j = Some v).
      { destruct v as [w|].
        - destruct H as (ri & Hr & j & rw & Cj & Rw & Wj). exists j. split; [exact Cj|]. unfold row_of. rewrite (row_at_some eqb eqb_eq _ _ ri r rw Di Hr Rw). now rewrite nth_error_map, Wj.
        - apply In_nth_error in C as [j Cj]. exists j. split; [exact Cj|]. unfold row_of. rewrite (row_at_none eqb eqb_eq r _ _ H). now rewrite nth_error_map, Cj. }
      destruct Q as (j & Cj & Vj). destruct (place eqb eqb_eq recs Gd n g j l v r I Cj Vj) as (k & Ck & Wk). exists k, (flat_map (fun p => row_of eqb r (snd p)) recs). cbn [f_columns f_cells].
      split; [exact Ck|]. split; [now rewrite nth_error_map, Ur|exact Wk].
Qed.
End Model.
Print Assumptions C111_model.

(** Without a recorder that makes frames it is an error. *)
Theorem C111_model_no_recorders : forall {R L A} (eqb : R -> R -> bool) union, model_frame eqb union ([] : list (string * frame R L A)) = None.
Proof. reflexivity. Qed.
Print Assumptions C111_model_no_recorders.

Example C111_model_example : exists f, model_frame Nat.eqb [1; 2; 3] [("flow", Frame [1; 2] [0; 1] [[10; 11]; [20; 21]]); ("volume", Frame [2; 3] [0] [[5]; [6]])] = Some f /\
  f_columns f = [("flow", 0); ("flow", 1); ("volume", 0)] /\ shows f 1 ("flow", 1) (Some 21) /\ shows f 2 ("flow", 0) None /\ shows f 2 ("volume", 0) (Some 6).
Proof.
  eexists. split; [reflexivity|]. split; [reflexivity|]. split; [exists 1, [Some 20; Some 21; Some 5]|split; [exists 0, [None; None; Some 6]|exists 2, [None; None; Some 6]]]; now repeat split.
Qed.

(** * The frame of a result *)

(** A result has a row per attribute, per setting of the solver and per statistic. *)
Theorem C111_result : forall {V} (plain settings stats : dict V), NoDup (map fst settings) -> NoDup (map fst stats) ->
  (forall k v, In (k, v) plain -> index 0 "." k = None) ->
  (forall k, get ("solver_settings." ++ k)%string (result_rows plain settings stats) = get k settings) /\
  (forall k, get ("solver_stats." ++ k)%string (result_rows plain settings stats) = get k stats) /\
  (forall k, index 0 "." k = None -> get k (result_rows plain settings stats) = get k plain).
Proof.
  intros V plain settings stats Ds Dt Np.
  assert (Pd : forall (p j k : string), index 0 "." k = None -> k <> (p ++ "." ++ j)%string).
  { intros p j k H E. subst k. revert H. clear. induction p as [|c p IH]; cbn [append index].
    - destruct j; discriminate.
    - match goal with |- (if ?b then _ else _) = None -> _ => destruct b end; [intros H; discriminate H|]. intros H. apply IH. change ("." ++ j)%string with (String "." j). destruct (index 0 "." (p ++ String "." j)%string); [discriminate H|reflexivity]. }
  assert (Pl : forall p j, get (p ++ "." ++ j)%string plain = None).
  { intros p j. destruct (get (p ++ "." ++ j)%string plain) as [v|] eqn:E; [|reflexivity]. exfalso.
    assert (I : In ((p ++ "." ++ j)%string, v) plain). { clear - E. induction plain as [|[k w] d IH]; [discriminate|]. cbn [get] in E. destruct (String.eqb_spec k (p ++ "." ++ j)%string) as [->|]; [left; congruence|right; now apply IH]. }
    apply (Pd p j _ (Np _ _ I)). reflexivity. }
  unfold result_rows. destruct (flattened_get "solver_settings" settings Ds plain) as [S1 S2]. destruct (flattened_get "solver_stats" stats Dt (flattened "solver_settings" settings plain)) as [T1 T2].
  split; [|split].
  - intros k. rewrite T2 by (intros j E; revert E; cbn [append]; discriminate). etransitivity; [apply (S1 k)|]. pose proof (Pl "solver_settings" k) as X. cbn in X |- *. rewrite X. now destruct (get k settings).
  - intros k. etransitivity; [apply (T1 k)|]. rewrite S2 by (intros j E; revert E; cbn [append]; discriminate). pose proof (Pl "solver_stats" k) as X. cbn in X |- *. rewrite X. now destruct (get k stats).
  - intros k H. rewrite T2, S2; [reflexivity| |]; intros j; now apply Pd.
Qed.
Print Assumptions C111_result.

Example C111_result_example : get "solver_stats.total" (result_rows [("version", 1); ("num_scenarios", 4)] [("use_presolve", 0)] [("total", 7)]) = Some 7.
Proof. reflexivity. Qed.
