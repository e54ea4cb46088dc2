(** C108: data from files, tables and the document. *)
From Coq Require Import Strings.Ascii Strings.String Sorting.Sorted.
From Verif Require Import Base Documents_model DataLoad_model DataLoad_proofs.
Local Open Scope string_scope.
Local Open Scope nat_scope.
Local Open Scope list_scope.

(** * Selecting *)

Definition only_column (c : label) : selection := {| s_column := Some c; s_columns := None; s_index := None; s_indexes := None |}.
Definition only_index (r : label) : selection := {| s_column := None; s_columns := None; s_index := Some r; s_indexes := None |}.
Definition column_and_index (c r : label) : selection := {| s_column := Some c; s_columns := None; s_index := Some r; s_indexes := None |}.
Definition columns_and_index (cs : list label) (r : label) : selection := {| s_column := None; s_columns := Some cs; s_index := Some r; s_indexes := None |}.
Definition block (cs rs : list label) : selection := {| s_column := None; s_columns := Some cs; s_index := None; s_indexes := Some rs |}.

Lemma map_nth_col (cells : list (list Q)) j n : Forall (fun r => List.length r = n) cells -> j < n ->
  forall i v, nth_error (map (fun r => nth j r 0%Q) cells) i = Some v <-> cell cells i j v.
Proof.
  intros F L i v. rewrite nth_error_map. unfold cell. destruct (nth_error cells i) as [row|] eqn:E; cbn.
  - assert (LR : j < List.length row). { rewrite Forall_forall in F. rewrite (F row); [exact L|]. eapply nth_error_In; eassumption. }
    split.
    + intros [= <-]. exists row. split; [reflexivity|]. apply nth_error_nth'. exact LR.
    + intros (row' & [= <-] & H). f_equal. apply nth_error_nth with (d := 0%Q) in H. exact H.
  - split; [discriminate|]. intros (row & H & _). discriminate.
Qed.

(** "column" gives the column of that name, with all its rows. *)
Theorem C108_column d rows cols cells c : well_formed (Frame d rows cols cells) -> distinct cols ->
  match select (only_column c) (Frame d rows cols cells) with
  | Some (Series d' ls vs) =>
      d' = d /\ ls = rows /\ List.length vs = List.length rows /\
      exists j, labelled cols j c /\ forall i v, nth_error vs i = Some v <-> cell cells i j v
  | Some _ => False
  | None => forall j, ~ labelled cols j c
  end.
Proof.
  intros [WL WF] D. cbn. destruct (places c cols) as [|j r] eqn:E.
  - apply places_none. exact E.
  - assert (L : labelled cols j c) by (apply in_places; rewrite E; left; reflexivity).
    assert (r = []) as -> by (pose proof (places_one c cols j D L); congruence).
    split; [reflexivity|]. split; [reflexivity|]. split; [rewrite map_length; exact WL|].
    exists j. split; [exact L|]. apply (map_nth_col cells j (List.length cols) WF). eapply labelled_lt; eassumption.
Qed.
Print Assumptions C108_column.

(** "index" gives the row of that name, labelled with the columns. *)
Theorem C108_row d rows cols cells r : well_formed (Frame d rows cols cells) -> distinct rows ->
  match select (only_index r) (Frame d rows cols cells) with
  | Some (Series d' ls vs) =>
      d' = false /\ ls = cols /\ List.length vs = List.length cols /\
      exists i, labelled rows i r /\ forall j v, nth_error vs j = Some v <-> cell cells i j v
  | Some _ => False
  | None => forall i, ~ labelled rows i r
  end.
Proof.
  intros [WL WF] D. cbn. destruct (places r rows) as [|i q] eqn:E.
  - apply places_none. exact E.
  - assert (L : labelled rows i r) by (apply in_places; rewrite E; left; reflexivity).
    assert (q = []) as -> by (pose proof (places_one r rows i D L); congruence).
    assert (LR : i < List.length cells) by (rewrite WL; eapply labelled_lt; eassumption).
    pose proof (nth_error_nth' cells [] LR) as N.
    split; [reflexivity|]. split; [reflexivity|]. split.
    + rewrite Forall_forall in WF. apply WF. apply nth_In. exact LR.
    + exists i. split; [exact L|]. intros j v. unfold cell. rewrite N. split.
      * intro H. exists (nth i cells []). auto.
      * intros (row & [= <-] & H). exact H.
Qed.
Print Assumptions C108_row.

(** "column" and "index" give the number where they cross. *)
Theorem C108_cell d rows cols cells c r : well_formed (Frame d rows cols cells) -> distinct rows -> distinct cols ->
  match select (column_and_index c r) (Frame d rows cols cells) with
  | Some (Scalar v) => exists i j, labelled rows i r /\ labelled cols j c /\ cell cells i j v
  | Some _ => False
  | None => (forall i, ~ labelled rows i r) \/ (forall j, ~ labelled cols j c)
  end.
Proof.
  intros [WL WF] DR DC. cbn. destruct (places c cols) as [|j q] eqn:E.
  - right. apply places_none. exact E.
  - assert (L : labelled cols j c) by (apply in_places; rewrite E; left; reflexivity).
    assert (q = []) as -> by (pose proof (places_one c cols j DC L); congruence).
    cbn. destruct (places r rows) as [|i q] eqn:E2.
    + left. apply places_none. exact E2.
    + assert (L2 : labelled rows i r) by (apply in_places; rewrite E2; left; reflexivity).
      assert (q = []) as -> by (pose proof (places_one r rows i DR L2); congruence).
      exists i, j. split; [exact L2|]. split; [exact L|].
      apply (map_nth_col cells j (List.length cols) WF); [eapply labelled_lt; eassumption|].
      apply nth_error_nth'. rewrite map_length, WL. eapply labelled_lt; eassumption.
Qed.
Print Assumptions C108_cell.

(** "columns" and "index" give a part of a row, in the order of the list. *)
Theorem C108_row_part d rows cols cells cs r : well_formed (Frame d rows cols cells) -> distinct rows -> distinct cols ->
  match select (columns_and_index cs r) (Frame d rows cols cells) with
  | Some (Series d' ls vs) =>
      d' = false /\ Forall2 same ls cs /\ List.length vs = List.length cs /\
      forall k c v, nth_error cs k = Some c ->
        (nth_error vs k = Some v <-> exists i j, labelled rows i r /\ labelled cols j c /\ cell cells i j v)
  | Some _ => False
  | None => (forall i, ~ labelled rows i r) \/ exists c, In c cs /\ forall j, ~ labelled cols j c
  end.
Proof.
  intros [WL WF] DR DC. cbn. pose proof (places_all_distinct cs cols DC) as PA. destruct (places_all cs cols) as [js|]; cbn.
  2:{ right. exact PA. }
  destruct (places r rows) as [|i q] eqn:E2.
  - left. apply places_none. exact E2.
  - assert (L2 : labelled rows i r) by (apply in_places; rewrite E2; left; reflexivity).
    assert (q = []) as -> by (pose proof (places_one r rows i DR L2); congruence).
    assert (LI : i < List.length cells) by (rewrite WL; eapply labelled_lt; eassumption).
    pose proof (nth_error_nth' cells [] LI) as N.
    assert (LN : nth i (map (pick 0%Q js) cells) [] = pick 0%Q js (nth i cells [])).
    { apply nth_error_nth. rewrite nth_error_map, N. reflexivity. }
    rewrite LN.
    split; [reflexivity|]. split; [apply pick_labels; exact PA|]. split.
    { rewrite pick_length. symmetry. clear -PA. induction PA; cbn; congruence. }
    intros k c v EK. destruct (Forall2_nth_l _ _ _ _ _ PA EK) as (j & EJ & LJ).
    assert (LL : j < List.length (nth i cells [])).
    { rewrite Forall_forall in WF. rewrite (WF (nth i cells [])); [eapply labelled_lt; eassumption|]. apply nth_In. exact LI. }
    rewrite (pick_nth_error 0%Q js (nth i cells []) k j EJ LL). split.
    + intro H. exists i, j. split; [exact L2|]. split; [exact LJ|]. exists (nth i cells []). auto.
    + intros (i' & j' & L2' & LJ' & row & H1 & H2).
      rewrite <- (DC j' j c LJ' LJ). rewrite (DR i' i r L2' L2) in H1. assert (row = nth i cells []) as <- by congruence. exact H2.
Qed.
Print Assumptions C108_row_part.

(** "columns" and "indexes" give the block of these rows and columns, in the order of the lists. *)
Theorem C108_block d rows cols cells cs rs : well_formed (Frame d rows cols cells) -> distinct rows -> distinct cols ->
  match select (block cs rs) (Frame d rows cols cells) with
  | Some (Frame d' rows' cols' cells') =>
      d' = d /\ Forall2 same rows' rs /\ Forall2 same cols' cs /\ well_formed (Frame d' rows' cols' cells') /\
      forall m k r c v, nth_error rs m = Some r -> nth_error cs k = Some c ->
        (cell cells' m k v <-> exists i j, labelled rows i r /\ labelled cols j c /\ cell cells i j v)
  | Some _ => False
  | None => (exists r, In r rs /\ forall i, ~ labelled rows i r) \/ exists c, In c cs /\ forall j, ~ labelled cols j c
  end.
Proof.
  intros [WL WF] DR DC. cbn. pose proof (places_all_distinct cs cols DC) as PA. destruct (places_all cs cols) as [js|]; cbn.
  2:{ right. exact PA. }
  pose proof (places_all_distinct rs rows DR) as PR. destruct (places_all rs rows) as [is|]; cbn.
  2:{ left. exact PR. }
  split; [reflexivity|]. split; [apply pick_labels; exact PR|]. split; [apply pick_labels; exact PA|].
  assert (RI : forall m i, nth_error is m = Some i -> i < List.length cells).
  { intros m i H. destruct (Forall2_nth_r _ _ _ _ _ PR H) as (r & _ & L). rewrite WL. eapply labelled_lt; eassumption. }
  assert (RC : forall m i, nth_error is m = Some i -> nth_error (pick [] is (map (pick 0%Q js) cells)) m = Some (pick 0%Q js (nth i cells []))).
  { intros m i H. rewrite (pick_nth_error [] is _ m i H) by (rewrite map_length; eapply RI; eassumption).
    rewrite nth_error_map, (nth_error_nth' cells [] (RI _ _ H)). reflexivity. }
  split.
  { split; [rewrite !pick_length; reflexivity|]. apply Forall_forall. intros x Hx. apply In_nth_error in Hx. destruct Hx as (m & Hm).
    destruct (nth_error is m) as [i|] eqn:Ei.
    - rewrite (RC _ _ Ei) in Hm. injection Hm as <-. rewrite !pick_length. reflexivity.
    - exfalso. unfold pick in Hm. rewrite nth_error_map, Ei in Hm. discriminate. }
  intros m k r c v ER EC. destruct (Forall2_nth_l _ _ _ _ _ PR ER) as (i & EI & LI).
  destruct (Forall2_nth_l _ _ _ _ _ PA EC) as (j & EJ & LJ).
  assert (LL : j < List.length (nth i cells [])).
  { rewrite Forall_forall in WF. rewrite (WF (nth i cells [])); [eapply labelled_lt; eassumption|]. apply nth_In. eapply RI; eassumption. }
  pose proof (nth_error_nth' cells [] (RI _ _ EI)) as N.
  unfold cell at 1. rewrite (RC _ _ EI). split.
  - intros (row & [= <-] & H). rewrite (pick_nth_error 0%Q js _ k j EJ LL) in H.
    exists i, j. split; [exact LI|]. split; [exact LJ|]. exists (nth i cells []). auto.
  - intros (i' & j' & LI' & LJ' & row & H1 & H2). exists (pick 0%Q js (nth i cells [])). split; [reflexivity|].
    rewrite (pick_nth_error 0%Q js _ k j EJ LL). rewrite <- (DC j' j c LJ' LJ).
    rewrite (DR i' i r LI' LI) in H1. assert (row = nth i cells []) as <- by congruence. exact H2.
Qed.
Print Assumptions C108_block.

(** A label that several rows have selects all of them, in their order. *)
Theorem C108_repeated d rows cols cells r i1 i2 : well_formed (Frame d rows cols cells) ->
  labelled rows i1 r -> labelled rows i2 r -> i1 <> i2 ->
  exists ps, StronglySorted lt ps /\ (forall i, In i ps <-> labelled rows i r) /\
    exists rows' cells', select (only_index r) (Frame d rows cols cells) = Some (Frame d rows' cols cells') /\
      Forall2 (fun i x => nth_error rows i = Some x) ps rows' /\ Forall2 (fun i x => nth_error cells i = Some x) ps cells'.
Proof.
  intros [WL WF] L1 L2 NE. exists (places r rows). split; [apply places_sorted|]. split; [intro i; apply in_places|].
  assert (Fp : forall (A : Type) (dflt : A) (l : list A), List.length l = List.length rows ->
                 Forall2 (fun i x => nth_error l i = Some x) (places r rows) (pick dflt (places r rows) l)).
  { intros A dflt l LE.
    assert (B : forall i, In i (places r rows) -> i < List.length l) by (intros i Hi; apply (proj1 (in_places _ _ _)) in Hi; rewrite LE; eapply labelled_lt; eassumption).
    revert B. generalize (places r rows). intro ps. induction ps as [|p ps IH]; intro B; cbn; constructor.
    - apply nth_error_nth'. apply B. left. reflexivity.
    - apply IH. intros i Hi. apply B. right. exact Hi. }
  exists (pick [] (places r rows) rows), (pick [] (places r rows) cells). split; [|split; apply Fp; [reflexivity|exact WL]].
  cbn. apply (proj2 (in_places _ _ _)) in L1. apply (proj2 (in_places _ _ _)) in L2.
  destruct (places r rows) as [|a [|b q]]; [destruct L1| |reflexivity].
  destruct L1 as [<-|[]], L2 as [<-|[]]. contradiction.
Qed.
Print Assumptions C108_repeated.


(** "columns" together with "column" are labels of rows. *)
Theorem C108_column_columns d rows cols cells c rs : well_formed (Frame d rows cols cells) -> distinct rows -> distinct cols ->
  match select {| s_column := Some c; s_columns := Some rs; s_index := None; s_indexes := None |} (Frame d rows cols cells) with
  | Some (Series d' ls vs) =>
      d' = d /\ Forall2 same ls rs /\ List.length vs = List.length rs /\
      forall k r v, nth_error rs k = Some r ->
        (nth_error vs k = Some v <-> exists i j, labelled rows i r /\ labelled cols j c /\ cell cells i j v)
  | Some _ => False
  | None => (forall j, ~ labelled cols j c) \/ exists r, In r rs /\ forall i, ~ labelled rows i r
  end.
Proof.
  intros [WL WF] DR DC. cbn. destruct (places c cols) as [|j q] eqn:E.
  - left. apply places_none. exact E.
  - assert (L : labelled cols j c) by (apply in_places; rewrite E; left; reflexivity).
    assert (q = []) as -> by (pose proof (places_one c cols j DC L); congruence).
    cbn. pose proof (places_all_distinct rs rows DR) as PR. destruct (places_all rs rows) as [is|]; cbn.
    2:{ right. exact PR. }
    pose proof (map_nth_col cells j (List.length cols) WF (labelled_lt _ _ _ L)) as MC.
    split; [reflexivity|]. split; [apply pick_labels; exact PR|]. split.
    { rewrite pick_length. symmetry. clear -PR. induction PR; cbn; congruence. }
    intros k r v ER. destruct (Forall2_nth_l _ _ _ _ _ PR ER) as (i & EI & LI).
    rewrite (pick_nth_error 0%Q is _ k i EI) by (rewrite map_length, WL; eapply labelled_lt; eassumption).
    rewrite MC. split.
    + intro H. exists i, j. auto.
    + intros (i' & j' & LI' & LJ' & H). rewrite (DR i' i r LI' LI), (DC j' j c LJ' L) in H. exact H.
Qed.
Print Assumptions C108_column_columns.

(** "indexes" together with "column", or with "index", is always refused: what they select is no longer a frame. *)
Theorem C108_indexes_refused d rows cols cells c cs r rs :
  (distinct cols -> select {| s_column := Some c; s_columns := cs; s_index := None; s_indexes := Some rs |} (Frame d rows cols cells) = None) /\
  (distinct rows -> select {| s_column := None; s_columns := cs; s_index := Some r; s_indexes := Some rs |} (Frame d rows cols cells) = None).
Proof.
  split; intro D; cbn.
  - destruct (places c cols) as [|j q] eqn:E; cbn.
    + destruct cs; reflexivity.
    + assert (L : labelled cols j c) by (apply in_places; rewrite E; left; reflexivity).
      assert (q = []) as -> by (pose proof (places_one c cols j D L); congruence).
      destruct cs as [cs|]; cbn; [|reflexivity]. destruct (places_all cs rows); reflexivity.
  - assert (X : forall cols' cells', match by_index r (Frame d rows cols' cells') with Some df => by_indexes rs df | None => None end = None).
    { intros cols' cells'. cbn. destruct (places r rows) as [|i q] eqn:E; [reflexivity|].
      assert (L : labelled rows i r) by (apply in_places; rewrite E; left; reflexivity).
      assert (q = []) as -> by (pose proof (places_one r rows i D L); congruence). reflexivity. }
    destruct cs as [cs|]; cbn -[by_index by_indexes].
    + destruct (places_all cs cols) as [js|]; cbn -[by_index by_indexes]; [apply X|reflexivity].
    + apply X.
Qed.
Print Assumptions C108_indexes_refused.

(** Claim: the keys can be combined: rows chosen by "indexes" of the column chosen by "column".  False although the cells are there. *)
Definition text (s : string) : label := [Text s].
Definition demand : data :=
  Frame false [text "oxford"; text "cambridge"; text "reading"] [text "mean"; text "peak"] [[10; 15]; [20; 26]; [30; 34]]%Q.
Lemma distinct_texts names : NoDup names -> distinct (map text names).
Proof.
  intros N i j l (x & E1 & H1) (y & E2 & H2). rewrite nth_error_map in E1, E2.
  destruct (nth_error names i) as [a|] eqn:Ea; [|discriminate]. destruct (nth_error names j) as [b|] eqn:Eb; [|discriminate].
  injection E1 as <-. injection E2 as <-.
  pose proof (same_trans _ _ _ H1 (same_sym _ _ H2)) as H. inversion H as [|? ? ? ? H3 _]; subst. inversion H3; subst.
  apply (proj1 (NoDup_nth_error names) N); [apply nth_error_Some|]; congruence.
Qed.
Theorem C108_indexes_refuted : exists df c rs,
  well_formed df /\ (exists d rows cols cells, df = Frame d rows cols cells /\ distinct rows /\ distinct cols /\
     (forall r, In r rs -> exists i, labelled rows i r) /\ exists j, labelled cols j c) /\
  select {| s_column := Some c; s_columns := None; s_index := None; s_indexes := Some rs |} df = None.
Proof.
  exists demand, (text "peak"), [text "oxford"]. split; [split; [reflexivity|repeat constructor]|]. split; [|reflexivity].
  exists false, [text "oxford"; text "cambridge"; text "reading"], [text "mean"; text "peak"], [[10; 15]; [20; 26]; [30; 34]]%Q.
  split; [reflexivity|]. split; [|split; [|split]].
  - apply (distinct_texts ["oxford"; "cambridge"; "reading"]). repeat constructor; cbn; intuition discriminate.
  - apply (distinct_texts ["mean"; "peak"]). repeat constructor; cbn; intuition discriminate.
  - intros r [<-|[]]. exists 0, (text "oxford"). split; [reflexivity|apply same_refl].
  - exists 1, (text "peak"). split; [reflexivity|apply same_refl].
Qed.
Print Assumptions C108_indexes_refuted.

Example C108_example_select :
  select (only_column (text "peak")) demand = Some (Series false [text "oxford"; text "cambridge"; text "reading"] [15; 26; 34]%Q) /\
  select (column_and_index (text "mean") (text "cambridge")) demand = Some (Scalar 20) /\
  select (block [text "peak"] [text "reading"; text "oxford"]) demand = Some (Frame false [text "reading"; text "oxford"] [text "peak"] [[34]; [15]]%Q) /\
  select (only_column (text "minimum")) demand = None /\
  select (only_index (text "a")) (Frame false [text "a"; text "b"; text "a"] [text "x"] [[1]; [2]; [3]]%Q) =
    Some (Frame false [text "a"; text "a"] [text "x"] [[1]; [3]]%Q).
Proof. repeat split. Qed.

(** * Reading *)

(** The readers by file type and by extension. *)
Definition filetypes : list (string * reader) := [("csv", Csv); ("excel", Excel); ("hdf", Hdf); ("rds", Rds)].
Definition extensions : list (string * reader) :=
  [(".xls", Excel); (".xlsx", Excel); (".csv", Csv); (".gz", Csv); (".hdf", Hdf); (".hdf5", Hdf); (".h5", Hdf);
   (".rds", Rds); (".Rds", Rds); (".rdata", Rds); (".RData", Rds)].
Definition chosen (d : dict json) (url : string) (r : reader) : Prop :=
  match get "filetype" d with
  | Some (JString t) => In (t, r) filetypes
  | Some _ => False
  | None => exists base ext, url = (base ++ ext)%string /\ In (ext, r) extensions
  end.
(** Keys which are not for pandas. *)
Definition own_keys (r : reader) : list string :=
  ["column"; "columns"; "index"; "indexes"; "table"; "url"; "comment"] ++ match r with Embedded => ["data"] | _ => ["checksum"; "filetype"] end.


Lemma substring_split : forall s n, n <= String.length s -> (substring 0 n s ++ substring n (String.length s - n) s)%string = s.
Proof.
  assert (F : forall s, substring 0 (String.length s) s = s) by (induction s as [|c s IH]; cbn; congruence).
  induction s as [|c s IH]; intros [|n] L; cbn in *; try reflexivity; try lia.
  - f_equal. apply F.
  - f_equal. apply IH. lia.
Qed.
Lemma ends_with_app suffix s : ends_with suffix s = true -> exists base, s = (base ++ suffix)%string.
Proof.
  unfold ends_with. rewrite andb_true_iff, Nat.leb_le, String.eqb_eq. intros [L E].
  exists (substring 0 (String.length s - String.length suffix) s).
  pose proof (substring_split s (String.length s - String.length suffix) ltac:(lia)) as SP.
  replace (String.length s - (String.length s - String.length suffix)) with (String.length suffix) in SP by lia. rewrite E in SP. congruence.
Qed.
Lemma by_extension_chosen url r : by_extension url = Some r -> exists base ext, url = (base ++ ext)%string /\ In (ext, r) extensions.
Proof.
  unfold by_extension. intro H.
  assert (X : forall es, existsb (fun e => ends_with e url) es = true -> exists base ext, url = (base ++ ext)%string /\ In ext es).
  { intros es E. apply existsb_exists in E. destruct E as (e & I & E). destruct (ends_with_app _ _ E) as (b & ->). exists b, e. auto. }
  repeat match type of H with (if existsb ?f ?l then _ else _) = _ => destruct (existsb f l) eqn:?E end; try discriminate;
    injection H as <-;
    match goal with E : existsb _ _ = true |- _ => apply X in E; destruct E as (b & e & -> & I) end; exists b, e; (split; [reflexivity|]);
    cbn in I; unfold extensions; cbn; intuition (subst; auto 20).
Qed.
Lemma by_filetype_chosen j r : by_filetype j = Some r -> exists t, j = JString t /\ In (t, r) filetypes.
Proof.
  unfold by_filetype. destruct j as [| |s| |]; try discriminate. intro H.
  repeat match type of H with (if String.eqb s ?t then _ else _) = _ => destruct (String.eqb_spec s t) as [->|] end; try discriminate;
    injection H as <-; eexists; (split; [reflexivity|]); cbn; auto 10.
Qed.

Lemma check_all_spec matches url sums es ok : check_all matches url sums = (es, ok) ->
  (forall e, In e es -> exists a h, e = Check url a h /\ In (a, JString h) sums) /\
  (ok = true -> forall a j, In (a, j) sums -> exists h, j = JString h /\ matches url a h = true /\ In (Check url a h) es).
Proof.
  revert es ok. induction sums as [|[a j] sums IH]; cbn; intros es ok.
  - intros [= <- <-]. split; [intros e []|intros _ a j []].
  - destruct j as [| |h| |]; try (intros [= <- <-]; split; [intros e []|discriminate]).
    destruct (matches url a h) eqn:M.
    + destruct (check_all matches url sums) as [es0 ok0]. intros [= <- <-]. destruct (IH _ _ eq_refl) as [I1 I2]. split.
      * intros e [<-|I]; [exists a, h; auto|]. destruct (I1 e I) as (a' & h' & -> & I'). exists a', h'. auto.
      * intros O a' j' [[= <- <-]|I]; [exists h; cbn; auto|]. destruct (I2 O a' j' I) as (h' & -> & M' & I'). exists h'. cbn. auto.
    + intros [= <- <-]. split; [|discriminate]. intros e [<-|[]]. exists a, h. auto.
Qed.

Lemma get_filter_keys k ks (d : dict json) :
  get k (filter (fun kv => existsb (String.eqb (fst kv)) ks) d) = if existsb (String.eqb k) ks then get k d else None.
Proof.
  unfold dict in *. induction d as [|[a v] d IH]; cbn [filter get fst].
  - destruct (existsb (String.eqb k) ks); reflexivity.
  - destruct (existsb (String.eqb a) ks) eqn:E; cbn [get]; rewrite IH; destruct (String.eqb_spec a k) as [->|N]; try reflexivity.
    + rewrite E. reflexivity.
    + rewrite E. reflexivity.
Qed.

Lemma arguments_get r d k :
  get k (fst (arguments r d)) = match r with Rds => if existsb (String.eqb k) ["key"; "parse_dates"; "index_col"] then get k d else None | _ => get k d end.
Proof. destruct r; cbn [arguments fst]; try reflexivity. apply get_filter_keys. Qed.

Lemma read_with_spec read r source d es res : read_with read r source d = (es, res) ->
  es = [Read r source (fst (arguments r (pop "comment" d)))] /\
  match res with None => True | Some (df, rest) => rest = [] /\ exists o, read r source (fst (arguments r (pop "comment" d))) = Some (df, o) end.
Proof.
  unfold read_with. destruct (arguments r (pop "comment" d)) as [kw left_]. cbn [fst].
  intro H. injection H as <- <-. split; [reflexivity|]. destruct (read r source kw) as [[df o]|]; [|exact I].
  destruct (o && truthy (get "parse_dates" left_)); [exact I|]. split; [reflexivity|]. exists o. reflexivity.
Qed.

Lemma read_dataframe_spec path matches read d es res : read_dataframe path matches read d = (es, res) ->
  forall r source kwargs, In (Read r source kwargs) es ->
  (exists before, es = before ++ [Read r source kwargs] /\ forall e, In e before -> exists u a h, e = Check u a h) /\
  match given "url" d with
  | Some (JString u) =>
      let url := resolve path u in
      source = JString url /\ chosen d url r /\ r <> Embedded /\
      match get "checksum" d with
      | None => es = [Read r source kwargs]
      | Some (JDict sums) => forall a j, In (a, j) sums -> exists h, j = JString h /\ matches url a h = true /\ In (Check url a h) es
      | Some _ => False
      end
  | Some _ => False
  | None => r = Embedded /\ given "data" d = Some source /\ get "filetype" d = None /\ get "checksum" d = None /\ es = [Read r source kwargs]
  end /\
  (forall k, get k kwargs = if existsb (String.eqb k) (["url"; "comment"] ++ match r with Embedded => ["data"] | _ => ["checksum"; "filetype"] end) then None
                            else match r with
                                 | Rds => if existsb (String.eqb k) ["key"; "parse_dates"; "index_col"] then get k d else None
                                 | _ => get k d
                                 end) /\
  match res with
  | None => True
  | Some (df, rest) => rest = [] /\ exists o, read r source kwargs = Some (df, o)
  end.
Proof.
  unfold read_dataframe. destruct (given "url" d) as [j|] eqn:U.
  - destruct j as [| |u| |]; try (intros [= <- <-] r source kwargs []).
    rewrite get_pop. cbn [String.eqb Ascii.eqb Bool.eqb].
    set (sums := match get "checksum" d with None => Some [] | Some (JDict sums) => Some sums | Some _ => None end).
    destruct sums as [l|] eqn:SU; subst sums; [|intros [= <- <-] r source kwargs []].
    destruct (check_all matches (resolve path u) l) as [es0 ok] eqn:CA. destruct (check_all_spec _ _ _ _ _ CA) as [C1 C2].
    assert (NR : forall r source kwargs, ~ In (Read r source kwargs) es0).
    { intros r source kwargs I. destruct (C1 _ I) as (a & h & E & _). discriminate. }
    destruct ok; cbn [negb]; [|intros [= <- <-] r source kwargs I; destruct (NR _ _ _ I)].
    rewrite !get_pop. cbn [String.eqb Ascii.eqb Bool.eqb].
    set (rd := match get "filetype" d with Some t => by_filetype t | None => by_extension (resolve path u) end).
    destruct rd as [r0|] eqn:RD; subst rd; [|intros [= <- <-] r source kwargs I; destruct (NR _ _ _ I)].
    destruct (read_with read r0 (JString (resolve path u)) (pop "filetype" (pop "checksum" (pop "url" d)))) as [es' res'] eqn:RW.
    destruct (read_with_spec _ _ _ _ _ _ RW) as [-> RR].
    intros H r source kwargs I. assert (es = es0 ++ [Read r0 (JString (resolve path u)) (fst (arguments r0 (pop "comment" (pop "filetype" (pop "checksum" (pop "url" d))))))] /\ res = res') as [-> ->] by (split; congruence).
    clear H. apply in_app_iff in I. destruct I as [I|[I|[]]]; [destruct (NR _ _ _ I)|]. injection I as -> <- <-.
    split; [exists es0; split; [reflexivity|]; intros e Ie; destruct (C1 _ Ie) as (a & h & -> & _); eauto|].
    split.
    { cbn zeta. split; [reflexivity|]. split; [|split].
      - unfold chosen. destruct (get "filetype" d) as [t|].
        + destruct (by_filetype_chosen _ _ RD) as (t' & -> & I). exact I.
        + apply by_extension_chosen. exact RD.
      - intros ->. destruct (get "filetype" d) as [t|].
        + destruct (by_filetype_chosen _ _ RD) as (t' & -> & I). cbn in I. intuition discriminate.
        + destruct (by_extension_chosen _ _ RD) as (b & e & _ & I). cbn in I. intuition discriminate.
      - destruct (get "checksum" d) as [j|].
        + destruct j as [| | | |sums]; try discriminate. injection SU as ->. intros a j I.
          destruct (C2 eq_refl a j I) as (h & -> & M & IC). exists h. split; [reflexivity|]. split; [exact M|]. apply in_app_iff. auto.
        + injection SU as <-. cbn in CA. injection CA as <-. reflexivity. }
    split.
    { intro k. rewrite arguments_get, !get_pop. cbn [existsb app].
      assert (R : r <> Embedded).
      { intros ->. destruct (get "filetype" d) as [t|].
        + destruct (by_filetype_chosen _ _ RD) as (t' & -> & I). cbn in I. intuition discriminate.
        + destruct (by_extension_chosen _ _ RD) as (b & e & _ & I). cbn in I. intuition discriminate. }
      destruct r; try contradiction; cbn [existsb app];
        destruct (String.eqb k "url"), (String.eqb k "comment"), (String.eqb k "checksum"), (String.eqb k "filetype"); cbn [orb]; try reflexivity;
        match goal with |- (if ?c then None else None) = None => destruct c; reflexivity end. }
    destruct res' as [[df rest]|]; [exact RR|exact I].
  - assert (GD : given "data" (pop "url" d) = given "data" d) by (unfold given; rewrite get_pop; reflexivity).
    rewrite GD. destruct (given "data" d) as [source0|] eqn:DA; [|intros [= <- <-] r source kwargs []].
    unfold present. rewrite !get_pop. cbn [String.eqb Ascii.eqb Bool.eqb].
    destruct (get "filetype" d) as [t|] eqn:FT; [intros [= <- <-] r source kwargs []|].
    destruct (get "checksum" d) as [t|] eqn:CS; [intros [= <- <-] r source kwargs []|].
    cbn [orb]. intros RW r source kwargs I. destruct (read_with_spec _ _ _ _ _ _ RW) as [-> RR].
    destruct I as [I|[]]. injection I as <- <- <-.
    split; [exists []; split; [reflexivity|intros e []]|]. split; [auto 10|]. split.
    { intro k. rewrite !get_pop. cbn [existsb app].
      destruct (String.eqb k "url"), (String.eqb k "comment"), (String.eqb k "data"); reflexivity. }
    destruct res as [[df rest]|]; [exact RR|exact I].
Qed.

(** What happens outside of pywr while the entry [d] of a document is loaded, and what comes of it. *)
Theorem C108_read path tables matches read frequency d es res : load_dataframe path tables matches read frequency d = (es, res) ->
  forall r source kwargs, In (Read r source kwargs) es ->
  (* there is no reference to a table *)
  given "table" d = None /\
  (* the data is read once, after the checksums were compared *)
  (exists before, es = before ++ [Read r source kwargs] /\ forall e, In e before -> exists u a h, e = Check u a h) /\
  (* by the reader the file type or the extension stands for, from a file all of whose checksums match, or from the document *)
  match given "url" d with
  | Some (JString u) =>
      let url := resolve path u in
      source = JString url /\ chosen d url r /\
      match get "checksum" d with
      | None => es = [Read r source kwargs]
      | Some (JDict sums) => forall a j, In (a, j) sums -> exists h, j = JString h /\ matches url a h = true /\ In (Check url a h) es
      | Some _ => False
      end
  | Some _ => False
  | None => r = Embedded /\ given "data" d = Some source /\ get "filetype" d = None /\ get "checksum" d = None /\ es = [Read r source kwargs]
  end /\
  (* with the entries that are not pywr's own *)
  (forall k, get k kwargs = if existsb (String.eqb k) (own_keys r) then None
                            else match r with
                                 | Rds => if existsb (String.eqb k) ["key"; "parse_dates"; "index_col"] then get k d else None
                                 | _ => get k d
                                 end) /\
  (* and the result is selected from what was read *)
  match res with
  | None => True
  | Some (df, rest) => rest = [] /\ exists df0 o s, read r source kwargs = Some (df0, o) /\ to_selection d = Some s /\ select s df0 = Some df
  end.
Proof.
  unfold load_dataframe. cbv zeta. intros H r source kwargs I.
  assert (G : forall k, get k (pop "table" (pop_all selection_keys d)) = if existsb (String.eqb k) ["column"; "columns"; "index"; "indexes"; "table"] then None else get k d).
  { intro k. rewrite get_pop, get_pop_all. unfold selection_keys. cbn [existsb].
    destruct (String.eqb k "column"), (String.eqb k "columns"), (String.eqb k "index"), (String.eqb k "indexes"), (String.eqb k "table"); reflexivity. }
  assert (GT : given "table" (pop_all selection_keys d) = given "table" d) by (unfold given; rewrite get_pop_all; reflexivity).
  rewrite GT in H. destruct (given "table" d) as [j|] eqn:T.
  { destruct j; injection H as <- _; destruct I. }
  split; [reflexivity|].
  destruct (read_dataframe path matches read (pop "table" (pop_all selection_keys d))) as [es0 res0] eqn:RD.
  assert (E0 : es0 = es) by (destruct res0 as [[df rest]|]; congruence). subst es0.
  destruct (read_dataframe_spec _ _ _ _ _ _ RD r source kwargs I) as (B & U & K & R).
  assert (GU : given "url" (pop "table" (pop_all selection_keys d)) = given "url" d) by (unfold given; rewrite G; reflexivity).
  rewrite GU in U.
  split; [exact B|]. split; [|split].
  - destruct (given "url" d) as [j|].
    + destruct j as [| |u| |]; try contradiction. cbn zeta in U |- *. destruct U as (U1 & U2 & _ & U4).
      split; [exact U1|]. split; [|rewrite G in U4; exact U4].
      unfold chosen in U2 |- *. rewrite G in U2. exact U2.
    + destruct U as (U1 & U2 & U3 & U4 & U5). rewrite G in U3, U4. unfold given in U2. rewrite G in U2. auto 10.
  - intro k. rewrite K, !G. unfold own_keys. cbn [existsb app].
    destruct r; cbn [existsb];
      destruct (String.eqb k "column"), (String.eqb k "columns"), (String.eqb k "index"), (String.eqb k "indexes"), (String.eqb k "table"),
               (String.eqb k "url"), (String.eqb k "comment"); cbn [orb]; try reflexivity;
      repeat match goal with |- context [if ?c then _ else _] => destruct c end; reflexivity.
  - destruct res0 as [[df rest]|].
    2:{ assert (res = None) as -> by congruence. exact Logic.I. }
    destruct R as [-> (o & RE)].
    destruct (to_selection d) as [s|]; [|assert (res = None) as -> by congruence; exact Logic.I].
    destruct (select s df) as [df'|] eqn:SE; [|assert (res = None) as -> by congruence; exact Logic.I].
    destruct (check_dates frequency df') as [df''|] eqn:CD; [|assert (res = None) as -> by congruence; exact Logic.I].
    injection H as <-. split; [reflexivity|]. exists df, o, s. split; [exact RE|]. split; [reflexivity|].
    rewrite SE. unfold check_dates in CD. destruct df' as [[|] rows ? ?|[|] ls ?|v]; try congruence; [destruct (frequency rows)|destruct (frequency ls)]; congruence.
Qed.
Print Assumptions C108_read.

(** Data comes from the table that is referred to, without reading anything, or else from what was read. *)
Theorem C108_source path tables matches read frequency d es df rest : load_dataframe path tables matches read frequency d = (es, Some (df, rest)) ->
  match given "table" d with
  | Some (JString name) =>
      es = [] /\ (exists df0 s, get name tables = Some df0 /\ to_selection d = Some s /\ select s df0 = Some df) /\
      forall k, get k rest = if existsb (String.eqb k) ["column"; "columns"; "index"; "indexes"; "table"] then None else get k d
  | Some _ => False
  | None => rest = [] /\ exists r source kwargs, In (Read r source kwargs) es
  end.
Proof.
  intro H. pose proof (C108_read _ _ _ _ _ _ _ _ H) as RD. revert H. unfold load_dataframe. cbv zeta.
  assert (GT : given "table" (pop_all selection_keys d) = given "table" d) by (unfold given; rewrite get_pop_all; reflexivity).
  rewrite GT. destruct (given "table" d) as [j|] eqn:T.
  - destruct j as [| |name| |]; try discriminate.
    destruct (get name tables) as [df0|]; [|discriminate]. destruct (to_selection d) as [s|]; [|discriminate].
    destruct (select s df0) as [df1|] eqn:SE; [|discriminate]. destruct (check_dates frequency df1) as [df2|] eqn:CD; [|discriminate].
    assert (G : forall k, get k (pop "table" (pop_all selection_keys d)) = if existsb (String.eqb k) ["column"; "columns"; "index"; "indexes"; "table"] then None else get k d).
    { intro k. rewrite get_pop, get_pop_all. unfold selection_keys. cbn [existsb].
      destruct (String.eqb k "column"), (String.eqb k "columns"), (String.eqb k "index"), (String.eqb k "indexes"), (String.eqb k "table"); reflexivity. }
    generalize dependent (pop "table" (pop_all selection_keys d)). intros rs G H. injection H as <- <- <-. split; [reflexivity|]. split; [|exact G].
    exists df0, s. split; [reflexivity|]. split; [reflexivity|]. rewrite SE.
    unfold check_dates in CD. destruct df1 as [[|] rows ? ?|[|] ls ?|v]; try congruence; [destruct (frequency rows)|destruct (frequency ls)]; congruence.
  - destruct (read_dataframe path matches read (pop "table" (pop_all selection_keys d))) as [es0 [[df0 rest0]|]] eqn:E; [|discriminate].
    intro H.
    assert (ES : es0 = es) by (injection H as <- _; reflexivity). subst es0.
    assert (P : exists r source kwargs, In (Read r source kwargs) es).
    { revert E. generalize (pop "table" (pop_all selection_keys d)). intros d1 E. unfold read_dataframe in E. cbv zeta in E.
      destruct (given "url" d1) as [j|].
      - destruct j as [| |u| |]; try discriminate.
        match type of E with (match ?c with Some _ => _ | None => _ end) = _ => destruct c as [sums|] end; [|discriminate].
        destruct (check_all matches (resolve path u) sums) as [es1 ok]. destruct ok; [|discriminate]. cbn [negb] in E.
        match type of E with (match ?c with Some _ => _ | None => _ end) = _ => destruct c as [r|] end; [|discriminate].
        match type of E with (let (_, _) := ?c in _) = _ => destruct c as [es2 res2] eqn:RW end.
        destruct (read_with_spec _ _ _ _ _ _ RW) as [-> _]. injection E as <- _. eexists _, _, _. apply in_app_iff. right. left. reflexivity.
      - match type of E with (match ?c with Some _ => _ | None => _ end) = _ => destruct c as [source|] end; [|discriminate].
        match type of E with (if ?c then _ else _) = _ => destruct c end; [discriminate|].
        destruct (read_with_spec _ _ _ _ _ _ E) as [-> _]. eexists _, _, _. left. reflexivity. }
    destruct P as (r & source & kwargs & I). split; [|exists r, source, kwargs; exact I].
    destruct (RD r source kwargs I) as (_ & _ & _ & _ & R). exact (proj1 R).
Qed.
Print Assumptions C108_source.

(** The kind of file is told by "filetype", or by the ending of its name. *)
Lemma append_length a b : String.length (a ++ b)%string = String.length a + String.length b.
Proof. induction a as [|c a IH]; cbn; [reflexivity|]. now rewrite IH. Qed.
Lemma app_ends b e : ends_with e (b ++ e)%string = true.
Proof.
  unfold ends_with. rewrite append_length. apply andb_true_intro. split; [apply Nat.leb_le; lia|]. apply String.eqb_eq.
  replace (String.length b + String.length e - String.length e) with (String.length b) by lia.
  induction b as [|c b IH]; [|exact IH]. change (substring 0 (String.length e) e = e).
  induction e as [|c e IH]; cbn; congruence.
Qed.
Lemma ends_pair b e f : ends_with f (b ++ e)%string = true -> ends_with f e = true \/ ends_with e f = true.
Proof.
  intros H. apply ends_with_app in H as [c H]. revert c H. induction b as [|x b IH]; intros c H.
  - left. cbn in H. subst. apply app_ends.
  - destruct c as [|y c].
    + right. cbn [append] in H. rewrite <- H. change (ends_with e ((String x b) ++ e)%string = true). apply app_ends.
    + cbn [append] in H. injection H as _ H. now apply (IH c).
Qed.
Lemma ends_known b e f : In e (map fst extensions) -> In f (map fst extensions) -> ends_with f (b ++ e)%string = String.eqb f e.
Proof.
  intros He Hf. destruct (String.eqb_spec f e) as [->|N]; [apply app_ends|].
  destruct (ends_with f (b ++ e)%string) eqn:E; [|reflexivity]. exfalso. apply ends_pair in E.
  assert (X : forallb (fun e => forallb (fun f => String.eqb f e || negb (ends_with f e || ends_with e f)) (map fst extensions)) (map fst extensions) = true) by reflexivity.
  rewrite forallb_forall in X. specialize (X e He). rewrite forallb_forall in X. specialize (X f Hf).
  destruct (String.eqb_spec f e); [contradiction|]. destruct E as [E|E]; rewrite E in X; [discriminate|]. now destruct (ends_with f e).
Qed.
Lemma by_extension_all b e r : In (e, r) extensions -> by_extension (b ++ e)%string = Some r.
Proof.
  intros H. assert (He : In e (map fst extensions)) by (apply in_map_iff; exists (e, r); auto).
  unfold by_extension. cbn [existsb]. rewrite !(ends_known b e) by (try exact He; cbn; auto 20). clear He.
  unfold extensions in H. cbn in H. repeat destruct H as [H|H]; try (injection H as <- <-; reflexivity). contradiction.
Qed.
Theorem C108_reader path tables matches read frequency d u r :
  get "table" d = None -> get "url" d = Some (JString u) -> get "checksum" d = None ->
  match get "filetype" d with
  | Some t => exists n, t = JString n /\ In (n, r) filetypes
  | None => exists base ext, resolve path u = (base ++ ext)%string /\ In (ext, r) extensions
  end ->
  exists kwargs, fst (load_dataframe path tables matches read frequency d) = [Read r (JString (resolve path u)) kwargs].
Proof.
  intros T U C F. unfold load_dataframe. cbv zeta. unfold given at 1. rewrite get_pop_all, T. cbn [existsb selection_keys String.eqb Ascii.eqb Bool.eqb orb].
  set (d1 := pop "table" (pop_all selection_keys d)).
  assert (G : forall k, In k ["url"; "checksum"; "filetype"] -> get k d1 = get k d).
  { intros k Hk. unfold d1. rewrite get_pop, get_pop_all. cbn in Hk. repeat destruct Hk as [<-|Hk]; try reflexivity. contradiction. }
  assert (R : exists kwargs res, read_dataframe path matches read d1 = ([Read r (JString (resolve path u)) kwargs], res)).
  { unfold read_dataframe, given. rewrite (G "url") by (cbn; auto). rewrite U. cbv zeta. rewrite !get_pop. cbn [String.eqb Ascii.eqb Bool.eqb].
    rewrite (G "checksum") by (cbn; auto). rewrite C. cbn [check_all negb]. rewrite (G "filetype") by (cbn; auto).
    assert (E : match get "filetype" d with Some t => by_filetype t | None => by_extension (resolve path u) end = Some r).
    { destruct (get "filetype" d) as [t|].
      - destruct F as (n & -> & I). cbn in I. repeat destruct I as [I|I]; try (injection I as <- <-; reflexivity). contradiction.
      - destruct F as (b & e & E & I). rewrite E. now apply by_extension_all. }
    rewrite E. unfold read_with. destruct (arguments _ _) as [kw lf]. eexists _, _. reflexivity. }
  destruct R as (kwargs & res & R). rewrite R. exists kwargs. destruct res as [[df rest]|]; reflexivity.
Qed.
Print Assumptions C108_reader.

(** An entry that is null is as good as none. *)
Lemma pop_comm a b (d : dict json) : pop a (pop b d) = pop b (pop a d).
Proof.
  unfold pop, dict in *. induction d as [|kv d IH]; [reflexivity|]. cbn [filter].
  destruct (String.eqb (fst kv) b) eqn:B, (String.eqb (fst kv) a) eqn:A; cbn [filter negb]; rewrite ?A, ?B; cbn [negb]; congruence.
Qed.
Lemma pop_idem a (d : dict json) : pop a (pop a d) = pop a d.
Proof.
  unfold pop, dict in *. induction d as [|kv d IH]; [reflexivity|]. cbn [filter].
  destruct (String.eqb (fst kv) a) eqn:A; cbn [filter negb]; rewrite ?A; cbn [negb]; congruence.
Qed.
Lemma pop_all_comm a ks (d : dict json) : pop_all ks (pop a d) = pop a (pop_all ks d).
Proof. unfold pop_all. revert d. induction ks as [|k ks IH]; intros d; cbn [fold_left]; [reflexivity|]. rewrite pop_comm. apply IH. Qed.
Lemma pop_all_in a ks (d : dict json) : In a ks -> pop a (pop_all ks d) = pop_all ks d.
Proof.
  unfold pop_all. revert d. induction ks as [|k ks IH]; intros d Hin; cbn [fold_left]; [destruct Hin|]. destruct Hin as [->|Hin]; [|now apply IH].
  pose proof (pop_all_comm a ks (pop a d)) as X. unfold pop_all in X. rewrite pop_idem in X. now rewrite <- X.
Qed.
Theorem C108_null path tables matches read frequency d k :
  In k ["column"; "columns"; "index"; "indexes"; "table"] \/ k = "url" /\ get "table" d = None -> get k d = Some JNull ->
  load_dataframe path tables matches read frequency d = load_dataframe path tables matches read frequency (pop k d).
Proof.
  intros Hk N.
  assert (G : forall k', given k' (pop k d) = given k' d).
  { intros k'. unfold given. rewrite get_pop. destruct (String.eqb_spec k' k) as [->|]; [now rewrite N|reflexivity]. }
  assert (TS : to_selection (pop k d) = to_selection d) by (unfold to_selection; now rewrite !G).
  assert (GT : given "table" (pop_all selection_keys (pop k d)) = given "table" (pop_all selection_keys d)).
  { specialize (G "table"). unfold given in *. rewrite !get_pop_all. exact G. }
  unfold load_dataframe. cbv zeta. rewrite TS, GT.
  assert (P : In k selection_keys \/ k = "table" \/ (k = "url" /\ get "table" d = None)) by (cbn in *; intuition).
  destruct P as [P|[->|[-> T]]].
  - rewrite pop_all_comm, (pop_all_in k selection_keys d P). reflexivity.
  - rewrite pop_all_comm, pop_idem.
    assert (X : given "table" (pop_all selection_keys d) = None) by (unfold given; rewrite get_pop_all; cbn [existsb selection_keys String.eqb Ascii.eqb Bool.eqb orb]; now rewrite N).
    rewrite X. reflexivity.
  - assert (X : given "table" (pop_all selection_keys d) = None) by (unfold given; rewrite get_pop_all; cbn [existsb selection_keys String.eqb Ascii.eqb Bool.eqb orb]; now rewrite T).
    rewrite X, pop_all_comm, pop_comm. set (d1 := pop "table" (pop_all selection_keys d)).
    assert (Y : read_dataframe path matches read (pop "url" d1) = read_dataframe path matches read d1).
    { assert (U : get "url" d1 = Some JNull) by (unfold d1; rewrite get_pop, get_pop_all; exact N).
      unfold read_dataframe, given at 1 3. rewrite get_pop, U. cbn [String.eqb Ascii.eqb Bool.eqb]. now rewrite pop_idem. }
    now rewrite Y.
Qed.
Print Assumptions C108_null.

(** In particular nothing comes of a file with a wrong checksum: it is not even read. *)
Theorem C108_checksum path tables matches read frequency d u sums a h :
  given "table" d = None -> given "url" d = Some (JString u) -> get "checksum" d = Some (JDict sums) ->
  In (a, JString h) sums -> matches (resolve path u) a h = false ->
  let (es, res) := load_dataframe path tables matches read frequency d in
  res = None /\ forall r source kwargs, ~ In (Read r source kwargs) es.
Proof.
  intros T U C I M. destruct (load_dataframe path tables matches read frequency d) as [es res] eqn:E.
  assert (N : forall r source kwargs, ~ In (Read r source kwargs) es).
  { intros r source kwargs IR. destruct (C108_read _ _ _ _ _ _ _ _ E r source kwargs IR) as (_ & _ & X & _).
    rewrite U, C in X. cbv zeta in X. destruct X as (_ & _ & X). destruct (X _ _ I) as (h' & [= <-] & M' & _). congruence. }
  split; [|exact N]. destruct res as [[df rest]|]; [|reflexivity].
  pose proof (C108_source _ _ _ _ _ _ _ _ _ E) as X. rewrite T in X. destruct X as (_ & r & source & kwargs & IR). destruct (N _ _ _ IR).
Qed.
Print Assumptions C108_checksum.

(** Relative names are below the model's directory. *)
Theorem C108_path u p q :
  resolve None u = u /\
  resolve (Some p) ("/" ++ u)%string = ("/" ++ u)%string /\
  (is_abs u = false -> resolve (Some (q ++ "/")%string) u = (q ++ "/" ++ u)%string) /\
  (is_abs u = false -> p <> ""%string -> (forall q, p <> (q ++ "/")%string) -> resolve (Some p) u = (p ++ "/" ++ u)%string).
Proof.
  assert (LA : forall a b, String.length (a ++ b) = String.length a + String.length b) by (induction a as [|c a IH]; intro b; cbn; [reflexivity|f_equal; apply IH]).
  assert (AS : forall a b c : string, ((a ++ b) ++ c)%string = (a ++ (b ++ c))%string) by (induction a as [|x a IH]; intros b c; cbn; [reflexivity|f_equal; apply IH]).
  split; [reflexivity|]. split; [reflexivity|]. split.
  - intro N. unfold resolve. rewrite N. unfold join.
    assert (E : ends_with "/" (q ++ "/") = true).
    { unfold ends_with. rewrite LA. cbn [String.length]. replace (String.length q + 1 - 1) with (String.length q) by lia.
      rewrite andb_true_iff. split; [apply Nat.leb_le; lia|]. clear. induction q as [|c q IH]; [reflexivity|]. exact IH. }
    rewrite E, orb_true_r. rewrite AS. reflexivity.
  - intros N NE NS. unfold resolve. rewrite N. unfold join.
    destruct (String.eqb_spec p "") as [->|_]; [contradiction|].
    destruct (ends_with "/" p) eqn:E; [|reflexivity]. destruct (ends_with_app _ _ E) as (b & ->). destruct (NS b eq_refl).
Qed.
Print Assumptions C108_path.

(** Dates are asked for by anything Python takes for true. *)
Inductive empty_value : json -> Prop :=
| e_null : empty_value JNull
| e_zero q : (q == 0)%Q -> empty_value (JNumber q)
| e_text : empty_value (JString "")
| e_list : empty_value (JList [])
| e_dict : empty_value (JDict []).
Definition dates_asked (d : dict json) : Prop := exists j, get "parse_dates" d = Some j /\ ~ empty_value j.
Lemma truthy_asked d : truthy (get "parse_dates" d) = true <-> dates_asked d.
Proof.
  unfold dates_asked. destruct (get "parse_dates" d) as [j|]; [|split; [discriminate|intros (j & H & _); discriminate]].
  assert (H : truthy (Some j) = true <-> ~ empty_value j).
  { destruct j as [|q|t|l|l]; cbn [truthy].
    - split; [discriminate|intros N; destruct (N e_null)].
    - destruct (qeqbP q 0) as [Z|Z]; cbn; split; try discriminate; try reflexivity.
      + intros N. destruct (N (e_zero q Z)).
      + intros _ X. inversion X. contradiction.
    - destruct (String.eqb_spec t "") as [->|Z]; cbn; split; try discriminate; try reflexivity.
      + intros N. destruct (N e_text).
      + intros _ X. inversion X. congruence.
    - destruct l; split; try discriminate; try reflexivity.
      + intros N. destruct (N e_list).
      + intros _ X. inversion X.
    - destruct l; split; try discriminate; try reflexivity.
      + intros N. destruct (N e_dict).
      + intros _ X. inversion X. }
  rewrite H. split; [intros N; exists j; auto|intros (j' & [= <-] & N); exact N].
Qed.

(** Dates are accepted only if their frequency is known, and never as text where they should have been parsed. *)
Theorem C108_dates path tables matches read frequency d es df rest : load_dataframe path tables matches read frequency d = (es, Some (df, rest)) ->
  match df with Frame true ls _ _ | Series true ls _ => frequency ls = true | _ => True end /\
  (forall r source kwargs df0, In (Read r source kwargs) es -> In r [Csv; Excel; Hdf] -> dates_asked d ->
     read r source kwargs = Some (df0, true) -> False).
Proof.
  intro H. split.
  - revert H. unfold load_dataframe. cbv zeta.
    assert (F : forall df0 df1, match to_selection d with None => None | Some s => match select s df0 with None => None | Some df => check_dates frequency df end end = Some df1 ->
                match df1 with Frame true ls _ _ | Series true ls _ => frequency ls = true | _ => True end).
    { intros df0 df1. destruct (to_selection d) as [s|]; [|discriminate]. destruct (select s df0) as [df2|]; [|discriminate].
      unfold check_dates. destruct df2 as [[|] rows ? ?|[|] ls ?|v]; try (intros [= <-]; exact Logic.I).
      - destruct (frequency rows) eqn:E; [intros [= <-]; exact E|discriminate].
      - destruct (frequency ls) eqn:E; [intros [= <-]; exact E|discriminate]. }
    destruct (given "table" (pop_all selection_keys d)) as [j|].
    + destruct j as [| |name| |]; try discriminate. destruct (get name tables) as [df0|]; [|discriminate].
      destruct (match to_selection d with None => None | Some s => match select s df0 with None => None | Some df => check_dates frequency df end end) eqn:E; [|discriminate].
      intro H. injection H as _ <- _. exact (F _ _ E).
    + destruct (read_dataframe path matches read (pop "table" (pop_all selection_keys d))) as [es0 [[df0 rest0]|]]; [|discriminate].
      destruct (match to_selection d with None => None | Some s => match select s df0 with None => None | Some df => check_dates frequency df end end) eqn:E; [|discriminate].
      intro H. injection H as _ <- _. exact (F _ _ E).
  - intros r source kwargs df0 IR KR PD RE. apply truthy_asked in PD.
    destruct (C108_read _ _ _ _ _ _ _ _ H r source kwargs IR) as (T & (before & EB & CB) & U & K & _).
    revert H. unfold load_dataframe. cbv zeta.
    assert (GT : given "table" (pop_all selection_keys d) = given "table" d) by (unfold given; rewrite get_pop_all; reflexivity).
    rewrite GT, T.
    assert (G : forall k, get k (pop "table" (pop_all selection_keys d)) = if existsb (String.eqb k) ["column"; "columns"; "index"; "indexes"; "table"] then None else get k d).
    { intro k. rewrite get_pop, get_pop_all. unfold selection_keys. cbn [existsb].
      destruct (String.eqb k "column"), (String.eqb k "columns"), (String.eqb k "index"), (String.eqb k "indexes"), (String.eqb k "table"); reflexivity. }
    assert (GP : get "parse_dates" (pop "table" (pop_all selection_keys d)) = get "parse_dates" d) by (rewrite G; reflexivity).
    generalize dependent (pop "table" (pop_all selection_keys d)). intros d1 G GP.
    destruct (read_dataframe path matches read d1) as [es0 [[df1 rest1]|]] eqn:E; [|discriminate].
    intro H. assert (es0 = es) as -> by (injection H as <- _; reflexivity). clear H. revert E.
    unfold read_dataframe. cbv zeta.
    assert (W : forall r0 s0 d2 es2 df2 rest2, get "parse_dates" d2 = get "parse_dates" d1 -> read_with read r0 s0 d2 = (es2, Some (df2, rest2)) -> In (Read r source kwargs) es2 -> False).
    { intros r0 s0 d2 es2 df2 rest2 E2 RW I2. unfold read_with in RW.
      destruct (arguments r0 (pop "comment" d2)) as [kw left_] eqn:AR.
      assert (ES : es2 = [Read r0 s0 kw]) by congruence. subst es2. destruct I2 as [I2|[]]. injection I2 as -> -> ->.
      rewrite RE in RW. cbn [andb] in RW.
      assert (L : get "parse_dates" left_ = get "parse_dates" d2).
      { destruct KR as [<-|[<-|[<-|[]]]]; cbn in AR; injection AR as _ <-; rewrite ?get_pop; reflexivity. }
      rewrite L, E2, GP, PD in RW. discriminate. }
    destruct (given "url" d1) as [j|].
    + destruct j as [| |u| |]; try discriminate.
      match goal with |- (match ?c with Some _ => _ | None => _ end) = _ -> _ => destruct c as [sums|] end; [|discriminate].
      destruct (check_all matches (resolve path u) sums) as [es1 ok] eqn:CA. destruct (check_all_spec _ _ _ _ _ CA) as [C1 _]. destruct ok; [|discriminate]. cbn [negb].
      match goal with |- (match ?c with Some _ => _ | None => _ end) = _ -> _ => destruct c as [r0|] end; [|discriminate].
      match goal with |- (let (_, _) := ?c in _) = _ -> _ => destruct c as [es2 res2] eqn:RW end.
      intro H. assert (ES : es = es1 ++ es2) by (injection H as <- _; reflexivity). assert (R2 : res2 = Some (df1, rest1)) by (injection H as _ <-; reflexivity). subst res2.
      rewrite ES in IR. apply in_app_iff in IR. destruct IR as [IR|IR].
      * destruct (C1 _ IR) as (a & h & X & _). discriminate.
      * eapply W; [|exact RW|exact IR]. rewrite !get_pop. reflexivity.
    + match goal with |- (match ?c with Some _ => _ | None => _ end) = _ -> _ => destruct c as [s0|] end; [|discriminate].
      match goal with |- (if ?c then _ else _) = _ -> _ => destruct c end; [discriminate|].
      intro H. eapply W; [|exact H|exact IR]. rewrite !get_pop. reflexivity.
Qed.
Print Assumptions C108_dates.

(** What has been read is returned, all the entry used up, unless it has text where dates were asked for. *)
Theorem C108_accepted path matches read d es res r source kwargs df o : read_dataframe path matches read d = (es, res) ->
  In (Read r source kwargs) es -> read r source kwargs = Some (df, o) -> (o = false \/ ~ dates_asked d \/ In r [Embedded; Rds]) -> res = Some (df, []).
Proof.
  intros E IR RE C. revert E. unfold read_dataframe. cbv zeta.
  assert (W : forall r0 s0 d2 es2 res2, get "parse_dates" d2 = get "parse_dates" d -> read_with read r0 s0 d2 = (es2, res2) -> In (Read r source kwargs) es2 -> res2 = Some (df, [])).
  { intros r0 s0 d2 es2 res2 E2 RW I2. unfold read_with in RW.
    destruct (arguments r0 (pop "comment" d2)) as [kw left_] eqn:AR.
    assert (ES : es2 = [Read r0 s0 kw]) by congruence. subst es2. destruct I2 as [I2|[]]. injection I2 as -> -> ->. rewrite RE in RW.
    assert (F : o && truthy (get "parse_dates" left_) = false).
    { destruct C as [->|[C|C]]; [reflexivity| |].
      - assert (T : truthy (get "parse_dates" d) = false) by (destruct (truthy (get "parse_dates" d)) eqn:T; [destruct C; apply truthy_asked, T|reflexivity]).
        assert (L : get "parse_dates" left_ = get "parse_dates" d2 \/ get "parse_dates" left_ = None).
        { destruct r; cbn [arguments] in AR; injection AR as _ <-; rewrite ?get_pop, ?get_pop_all; cbn; rewrite ?get_pop; auto. }
        destruct L as [L|L]; rewrite L; [rewrite E2, T|]; apply andb_false_r.
      - assert (L : get "parse_dates" left_ = None).
        { destruct C as [<-|[<-|[]]]; cbn [arguments] in AR; injection AR as _ <-; rewrite ?get_pop, ?get_pop_all; reflexivity. }
        rewrite L. apply andb_false_r. }
    rewrite F in RW. congruence. }
  destruct (given "url" d) as [j|].
  - destruct j as [| |u| |]; try (intros [= <- _]; destruct IR).
    match goal with |- (match ?c with Some _ => _ | None => _ end) = _ -> _ => destruct c as [sums|] end; [|intros [= <- _]; destruct IR].
    destruct (check_all matches (resolve path u) sums) as [es1 ok] eqn:CA. destruct (check_all_spec _ _ _ _ _ CA) as [C1 _].
    assert (N : ~ In (Read r source kwargs) es1) by (intros I1; destruct (C1 _ I1) as (a & h & X & _); discriminate).
    destruct ok; cbn [negb]; [|intros [= <- _]; contradiction].
    match goal with |- (match ?c with Some _ => _ | None => _ end) = _ -> _ => destruct c as [r0|] end; [|intros [= <- _]; contradiction].
    match goal with |- (let (_, _) := ?c in _) = _ -> _ => destruct c as [es2 res2] eqn:RW end.
    intros [= <- <-]. apply in_app_iff in IR. destruct IR as [IR|IR]; [contradiction|].
    eapply W; [|exact RW|exact IR]. rewrite !get_pop. reflexivity.
  - match goal with |- (match ?c with Some _ => _ | None => _ end) = _ -> _ => destruct c as [s0|] end; [|intros [= <- _]; destruct IR].
    match goal with |- (if ?c then _ else _) = _ -> _ => destruct c end; [intros [= <- _]; destruct IR|].
    intro H. eapply W; [|exact H|exact IR]. rewrite !get_pop. reflexivity.
Qed.
Print Assumptions C108_accepted.

(** * Arrays *)

Definition product (l : list nat) : nat := fold_right Nat.mul 1 l.

Lemma concat_length_rows {A} (cells : list (list A)) n : Forall (fun r => List.length r = n) cells -> List.length (List.concat cells) = List.length cells * n.
Proof. induction 1 as [|r cells E F IH]; cbn; [reflexivity|]. rewrite app_length, IH, E. reflexivity. Qed.
Lemma nth_error_concat {A} (cells : list (list A)) n i j : Forall (fun r => List.length r = n) cells -> j < n ->
  nth_error (List.concat cells) (i * n + j) = match nth_error cells i with Some r => nth_error r j | None => None end.
Proof.
  intros F L. revert i. induction F as [|r cells E F IH]; intro i.
  - cbn. destruct i; destruct (_ + j); reflexivity.
  - cbn [List.concat]. destruct i as [|i]; cbn [nth_error Nat.mul Nat.add].
    + apply nth_error_app1. lia.
    + rewrite nth_error_app2 by lia. rewrite <- IH. f_equal. lia.
Qed.

(** The values of a selection are all its numbers, row by row, in as many dimensions as have not length one. *)
Theorem C108_values df : well_formed df ->
  let a := squeeze (values_of df) in
  product (shape a) = List.length (flat a) /\ ~ In 1 (shape a) /\
  match df with
  | Frame _ rows cols cells =>
      shape a = filter (fun n => negb (n =? 1)) [List.length rows; List.length cols] /\
      forall i j v, j < List.length cols -> (nth_error (flat a) (i * List.length cols + j) = Some v <-> cell cells i j v)
  | Series _ ls vs => shape a = filter (fun n => negb (n =? 1)) [List.length ls] /\ flat a = vs
  | Scalar v => shape a = [] /\ flat a = [v]
  end.
Proof.
  intro W.
  assert (P : forall l, product (filter (fun n => negb (n =? 1)) l) = product l).
  { induction l as [|n l IH]; [reflexivity|]. cbn [filter]. destruct (Nat.eqb_spec n 1) as [->|N]; cbn [negb]; unfold product in *; cbn [fold_right]; rewrite IH; lia. }
  cbv zeta. split; [|split].
  - unfold squeeze. cbn [shape flat]. rewrite P. destruct df as [d rows cols cells|d ls vs|v]; cbn.
    + destruct W as [W1 W2]. rewrite (concat_length_rows cells _ W2), W1. lia.
    + rewrite W. lia.
    + reflexivity.
  - unfold squeeze. cbn [shape]. rewrite filter_In. intros [_ H]. discriminate.
  - destruct df as [d rows cols cells|d ls vs|v]; cbn [squeeze values_of shape flat].
    + destruct W as [W1 W2]. split; [reflexivity|]. intros i j v L. rewrite (nth_error_concat cells _ i j W2 L). unfold cell.
      destruct (nth_error cells i) as [row|]; split; intro H; try discriminate.
      * exists row. auto.
      * destruct H as (row' & [= <-] & H). exact H.
      * destruct H as (row' & H & _). discriminate.
    + auto.
    + auto.
Qed.
Print Assumptions C108_values.

(** Numbers in the document: lists of lists of the same shape. *)
Inductive array_of : json -> list nat -> list Q -> Prop :=
| ANumber q : array_of (JNumber q) [] [q]
| AEmpty : array_of (JList []) [0] []
| AList j l sh fl fls : array_of j sh fl -> Forall2 (fun j fl => array_of j sh fl) l fls ->
    array_of (JList (j :: l)) (S (List.length l) :: sh) (fl ++ List.concat fls).

Lemma shape_eqb_eq a b : shape_eqb a b = true <-> a = b.
Proof.
  revert b. induction a as [|x a IH]; intros [|y b]; cbn; try (split; [discriminate|discriminate]); try (split; reflexivity).
  rewrite andb_true_iff, Nat.eqb_eq, IH. split; [intros [-> ->]; reflexivity|intros [= -> ->]; auto].
Qed.

Definition to_arrays := fix all (l : list json) : option (list array) :=
  match l with
  | [] => Some []
  | j :: l => match to_array j, all l with Some a, Some r => Some (a :: r) | _, _ => None end
  end.
Lemma to_array_list l : to_array (JList l) =
  match to_arrays l with
  | None => None
  | Some [] => Some (Array [0] [])
  | Some (a :: r) =>
      if forallb (fun b => shape_eqb (shape b) (shape a)) r
      then Some (Array (S (List.length r) :: shape a) (List.concat (map flat (a :: r)))) else None
  end.
Proof. reflexivity. Qed.

Fixpoint json_depth (j : json) : nat := match j with JList l => S (fold_right Nat.max 0 (map json_depth l)) | _ => 0 end.

Theorem C108_literal j sh fl : to_array j = Some (Array sh fl) <-> array_of j sh fl.
Proof.
  enough (E : forall n j, json_depth j <= n -> forall sh fl, to_array j = Some (Array sh fl) <-> array_of j sh fl) by (apply (E (json_depth j)); lia).
  clear. induction n as [|n IH]; intros j L sh fl.
  - destruct j as [|q|s|l|d]; cbn in L; try lia; try (cbn; split; [discriminate|intro H; inversion H]).
    cbn. split; [intros [= <- <-]; constructor|intro H; inversion H; reflexivity].
  - destruct j as [|q|s|l|d]; try (cbn; split; [discriminate|intro H; inversion H]).
    + cbn. split; [intros [= <- <-]; constructor|intro H; inversion H; reflexivity].
    + assert (A : forall l, (forall j, In j l -> json_depth j <= n) -> forall aa, to_arrays l = Some aa <-> Forall2 (fun j a => array_of j (shape a) (flat a)) l aa).
      { clear -IH. induction l as [|j l IHl]; intros Ln aa; cbn.
        - split; [intros [= <-]; constructor|intro H; inversion H; reflexivity].
        - pose proof (IH j (Ln j (or_introl eq_refl))) as Ij. pose proof (IHl (fun j' H => Ln j' (or_intror H))) as Il. split.
          + destruct (to_array j) as [[s f]|]; [|discriminate]. destruct (to_arrays l) as [r|]; [|discriminate]. intros [= <-].
            constructor; [apply Ij; reflexivity|apply Il; reflexivity].
          + intro H. inversion H as [|? a ? r H1 H2]; subst. apply Ij in H1. apply Il in H2. rewrite H1, H2. destruct a; reflexivity. }
      assert (B : forall j, In j l -> json_depth j <= n).
      { intros j I. cbn in L. assert (M : json_depth j <= fold_right Nat.max 0 (map json_depth l)).
        { clear -I. induction l as [|x l IH]; [destruct I|]. cbn. destruct I as [<-|I]; [lia|]. specialize (IH I). lia. }
        lia. }
      specialize (A l B). rewrite to_array_list. split.
      * destruct (to_arrays l) as [[|a r]|] eqn:E; [| |discriminate].
        -- intros [= <- <-]. pose proof (proj1 (A _) eq_refl) as F. inversion F. constructor.
        -- destruct (forallb (fun b => shape_eqb (shape b) (shape a)) r) eqn:FB; [|discriminate]. intros [= <- <-].
           pose proof (proj1 (A _) eq_refl) as F. inversion F as [|j ? l' ? F1 F2]; subst.
           assert (LE : List.length r = List.length l'). { clear -F2. induction F2; cbn; congruence. }
           rewrite LE. cbn [map List.concat]. constructor; [exact F1|].
           rewrite forallb_forall in FB. clear -F2 FB. induction F2 as [|x y l' r H F2 IH]; cbn [map]; constructor.
           ++ assert (SY : shape y = shape a) by (apply shape_eqb_eq, FB; left; reflexivity). rewrite <- SY. exact H.
           ++ apply IH. intros z Hz. apply FB. right. exact Hz.
      * intro H. inversion H as [| |j l' sh' fl' fls H1 H2]; subst.
        -- reflexivity.
        -- assert (F : Forall2 (fun j a => array_of j (shape a) (flat a)) (j :: l') (Array sh' fl' :: map (Array sh') fls)).
           { constructor; [exact H1|]. clear -H2. induction H2; cbn; constructor; assumption. }
           apply A in F. rewrite F.
           assert (FB : forallb (fun b => shape_eqb (shape b) (shape (Array sh' fl'))) (map (Array sh') fls) = true).
           { apply forallb_forall. intros b Hb. apply in_map_iff in Hb. destruct Hb as (f & <- & _). apply shape_eqb_eq. reflexivity. }
           rewrite FB. cbn [map List.concat shape flat].
           assert (ML : map flat (map (Array sh') fls) = fls) by (rewrite map_map; apply map_id).
           rewrite ML, map_length.
           assert (LE : List.length fls = List.length l') by (clear -H2; induction H2; cbn; congruence). rewrite LE. reflexivity.
Qed.
Print Assumptions C108_literal.

(** A parameter given by "column" and "index" of a table, without a type, is the number where they cross. *)
Theorem C108_number path tables matches read frequency d name c r dt rows cols cells :
  get "values" d = None -> given "table" d = Some (JString name) -> to_selection d = Some (column_and_index c r) ->
  get name tables = Some (Frame dt rows cols cells) -> well_formed (Frame dt rows cols cells) -> distinct rows -> distinct cols ->
  forall v, load_untyped path tables matches read frequency d = ([], Some v) <-> exists i j, labelled rows i r /\ labelled cols j c /\ cell cells i j v.
Proof.
  intros V T SE G W DR DC v.
  assert (GP : forall k, k <> "tags"%string -> get k (pop "tags" d) = get k d).
  { intros k N. rewrite get_pop. destruct (String.eqb_spec k "tags"); [contradiction|reflexivity]. }
  assert (TS : to_selection (pop "tags" d) = to_selection d) by (unfold to_selection, given; rewrite !GP by discriminate; reflexivity).
  unfold load_untyped, load_parameter_values. rewrite GP, V by discriminate.
  assert (PT : present "table" (pop "tags" d) = true).
  { unfold present. rewrite GP by discriminate. unfold given in T. destruct (get "table" d); [reflexivity|discriminate]. }
  rewrite PT, orb_true_r. unfold load_dataframe.
  assert (GT : given "table" (pop_all selection_keys (pop "tags" d)) = Some (JString name)).
  { rewrite <- T. unfold given. rewrite get_pop_all. cbn [existsb selection_keys String.eqb Ascii.eqb Bool.eqb orb]. rewrite GP by discriminate. reflexivity. }
  rewrite GT, G, TS, SE. clear GP TS PT GT V T SE G.
  pose proof (C108_cell dt rows cols cells c r W DR DC) as CE.
  destruct (select (column_and_index c r) (Frame dt rows cols cells)) as [df|].
  - destruct df as [| |w]; try contradiction. cbn. split.
    + intros [= <-]. exact CE.
    + intro H. do 2 f_equal. destruct CE as (i1 & j1 & L1 & M1 & row1 & C1 & D1), H as (i2 & j2 & L2 & M2 & row2 & C2 & D2).
      rewrite (DR i1 i2 r L1 L2) in C1. rewrite (DC j1 j2 c M1 M2) in D1. congruence.
  - cbn. split; [discriminate|]. intros (i & j & L & M & _). destruct CE as [N|N]; [destruct (N i L)|destruct (N j M)].
Qed.
Print Assumptions C108_number.
(** One with "values" is the only number in them; there is no other parameter without a type and a file or table. *)
Theorem C108_literal_number path tables matches read frequency d j v : get "values" d = Some j ->
  snd (load_untyped path tables matches read frequency d) = Some v <-> exists sh, array_of j sh [v].
Proof.
  intros V. unfold load_untyped, load_parameter_values. assert (GP : get "values" (pop "tags" d) = Some j) by (rewrite get_pop; exact V). rewrite GP. cbn [snd].
  destruct (to_array j) as [[sh fl]|] eqn:E; cbn.
  - split.
    + intros H. exists sh. apply C108_literal. rewrite E. unfold to_float in H. cbn in H. destruct fl as [|q [|]]; try discriminate. congruence.
    + intros (sh' & H). apply (proj2 (C108_literal _ _ _)) in H. rewrite E in H. injection H as -> ->. reflexivity.
  - split; [discriminate|]. intros (sh' & H). apply (proj2 (C108_literal _ _ _)) in H. congruence.
Qed.
Print Assumptions C108_literal_number.

(** The targets of FlowDurationCurveDeviationRecorder: the loader adds "indexes", so a "column" of the table with the targets cannot be
    chosen. *)
Theorem C108_target_refused path tables matches read frequency percentiles d name c dt rows cols cells :
  get "values" d = None -> given "table" d = Some (JString name) -> given "column" d = Some (JString c) -> given "index" d = None ->
  percentiles <> JNull ->
  get name tables = Some (Frame dt rows cols cells) -> distinct cols ->
  snd (load_target path tables matches read frequency percentiles d) = None.
Proof.
  intros V T C IX NN G D. unfold load_target.
  assert (GP : forall k, k <> "indexes"%string -> get k (put "indexes" percentiles d) = get k d).
  { intros k N. clear -N. unfold dict in *. induction d as [|[a v] d0 IH]; cbn [put get].
    - destruct (String.eqb_spec "indexes" k); [congruence|reflexivity].
    - destruct (String.eqb_spec a "indexes") as [->|N2]; cbn [get].
      + destruct (String.eqb_spec "indexes" k); [congruence|reflexivity].
      + destruct (String.eqb a k); [reflexivity|exact IH]. }
  assert (GI : get "indexes" (put "indexes" percentiles d) = Some percentiles).
  { clear. unfold dict in *. induction d as [|[a v] d0 IH]; cbn [put get]; [reflexivity|].
    destruct (String.eqb_spec a "indexes") as [->|N2]; cbn [get]; [reflexivity|].
    destruct (String.eqb_spec a "indexes"); [contradiction|exact IH]. }
  generalize dependent (put "indexes" percentiles d). intros d1 GP GI.
  unfold load_parameter_values. rewrite GP, V by discriminate.
  assert (PT : present "table" d1 = true).
  { unfold present. rewrite GP by discriminate. unfold given in T. destruct (get "table" d); [reflexivity|discriminate]. }
  rewrite PT, orb_true_r.
  destruct (load_dataframe path tables matches read frequency d1) as [es res] eqn:E. cbn [snd].
  destruct res as [[df rest]|]; [exfalso|reflexivity].
  pose proof (C108_source _ _ _ _ _ _ _ _ _ E) as X.
  assert (T1 : given "table" d1 = Some (JString name)) by (rewrite <- T; unfold given; rewrite GP by discriminate; reflexivity).
  rewrite T1 in X. destruct X as (_ & (df0 & s & G0 & S0 & SE) & _).
  assert (df0 = Frame dt rows cols cells) as -> by congruence.
  unfold to_selection in S0.
  assert (C1 : given "column" d1 = Some (JString c)) by (rewrite <- C; unfold given; rewrite GP by discriminate; reflexivity).
  assert (I1 : given "index" d1 = None) by (rewrite <- IX; unfold given; rewrite GP by discriminate; reflexivity).
  assert (N1 : given "indexes" d1 = Some percentiles) by (unfold given; rewrite GI; destruct percentiles; congruence).
  rewrite C1, I1, N1 in S0. cbn [optional to_label to_atom option_map] in S0.
  destruct (optional to_labels (given "columns" d1)) as [cs|]; [|discriminate].
  destruct (to_labels percentiles) as [rs|]; [|discriminate]. injection S0 as <-.
  pose proof (proj1 (C108_indexes_refused dt rows cols cells [Text c] cs [] rs) D) as N. congruence.
Qed.
Print Assumptions C108_target_refused.

(** * Tables of the model *)

(** Tables are loaded in the order of the document; each can refer to those before it.  Later tables do not change earlier ones. *)
Theorem C108_tables path matches read frequency entries tables0 tables : load_tables path matches read frequency entries tables0 = Some tables ->
  forall l1 name d l2, entries = l1 ++ (name, d) :: l2 ->
  exists tables1 df rest, load_tables path matches read frequency l1 tables0 = Some tables1 /\
    snd (load_dataframe path tables1 matches read frequency d) = Some (df, rest) /\
    (~ In name (map fst l2) -> get name tables = Some df).
Proof.
  assert (GPO : forall (V : Type) k k' (v : V) (dd : dict V), get k (put k' v dd) = if String.eqb k' k then Some v else get k dd).
  { intros V k k' v dd. unfold dict in *. induction dd as [|[a w] dd IH]; cbn [put get]; [destruct (String.eqb k' k); reflexivity|].
    destruct (String.eqb_spec a k') as [->|N2]; cbn [get]; [destruct (String.eqb k' k); reflexivity|].
    rewrite IH. destruct (String.eqb_spec a k) as [->|N3]; [|reflexivity]. destruct (String.eqb_spec k' k); [congruence|reflexivity]. }
  assert (KEEP : forall l t t' name, load_tables path matches read frequency l t = Some t' -> ~ In name (map fst l) -> get name t' = get name t).
  { induction l as [|[n d] l IH]; cbn [load_tables]; intros t t' name H NI; [congruence|].
    destruct (snd (load_dataframe path t matches read frequency d)) as [[df rest]|]; [|discriminate].
    rewrite (IH _ _ name H) by (intro I; apply NI; right; exact I). rewrite GPO.
    destruct (String.eqb_spec n name) as [->|]; [|reflexivity]. exfalso. apply NI. left. reflexivity. }
  intros H l1. revert entries tables0 H. induction l1 as [|[n e] l1 IH]; intros entries tables0 H name d l2 ->.
  - cbn [app load_tables] in H. destruct (snd (load_dataframe path tables0 matches read frequency d)) as [[df rest]|] eqn:E; [|discriminate].
    exists tables0, df, rest. split; [reflexivity|]. split; [exact E|]. intro NI. rewrite (KEEP _ _ _ name H NI), GPO, String.eqb_refl. reflexivity.
  - cbn [app load_tables] in H |- *. destruct (snd (load_dataframe path tables0 matches read frequency e)) as [[df0 rest0]|] eqn:E; [|discriminate].
    apply (IH _ _ H name d l2 eq_refl).
Qed.
Print Assumptions C108_tables.

(** Claim: the order of the tables in the document does not matter.  False: a table can refer only to those before it. *)
Definition read_demand (r : reader) (source : json) (kwargs : dict json) : option (data * bool) :=
  match r, source with Csv, JString "/m/demand.csv" => Some (demand, false) | _, _ => None end.
Definition all_match (url a h : string) : bool := true.
Theorem C108_order_refuted : exists path matches read frequency a b,
  (exists tables, load_tables path matches read frequency [a; b] [] = Some tables) /\
  load_tables path matches read frequency [b; a] [] = None.
Proof.
  exists (Some "/m"%string), all_match, read_demand, (fun _ => true),
    ("demand"%string, [("url", JString "demand.csv")]), ("peak"%string, [("table", JString "demand"); ("column", JString "peak")]).
  split; [eexists|]; reflexivity.
Qed.
Print Assumptions C108_order_refuted.

Example C108_example_load :
  let load := load_dataframe (Some "/m"%string) [("demand"%string, demand)] all_match read_demand (fun _ => true) in
  load [("url", JString "demand.csv"); ("checksum", JDict [("md5", JString "ab")]); ("column", JString "peak"); ("index_col", JString "city")] =
    ([Check "/m/demand.csv" "md5" "ab"; Read Csv (JString "/m/demand.csv") [("index_col", JString "city")]]%string,
     Some (Series false [text "oxford"; text "cambridge"; text "reading"] [15; 26; 34]%Q, [])) /\
  load [("url", JString "demand.txt")] = ([], None) /\
  fst (load [("url", JString "demand.txt"); ("filetype", JString "csv"); ("sep", JString ";")]) = [Read Csv (JString "/m/demand.txt") [("sep", JString ";")]] /\
  load [("table", JString "demand"); ("index", JString "oxford"); ("comment", JString "x")] =
    ([], Some (Series false [text "mean"; text "peak"] [10; 15]%Q, [("comment", JString "x")]))%string /\
  load_untyped (Some "/m"%string) [("demand"%string, demand)] all_match read_demand (fun _ => true)
    [("table", JString "demand"); ("index", JString "oxford"); ("column", JString "peak")] = ([], Some 15%Q) /\
  snd (load_target (Some "/m"%string) [("demand"%string, demand)] all_match read_demand (fun _ => true) (JList [JString "oxford"])
    [("table", JString "demand"); ("column", JString "peak")]) = None /\
  to_array (JList [JList [JNumber 1; JNumber 2]; JList [JNumber 3; JNumber 4]; JList [JNumber 5; JNumber 6]]) = Some (Array [3; 2] [1; 2; 3; 4; 5; 6]%Q) /\
  to_array (JList [JList [JNumber 1]; JNumber 2]) = None.
Proof. repeat split. Qed.

(** * Comments *)

(** The comment of a constant parameter is kept if its value is in the document or comes from a table. *)
Theorem C108_comment path tables matches read frequency d es m : load_constant_parameter path tables matches read frequency d = (es, Some m) ->
  get "value" d <> None \/ get "values" d <> None \/ given "table" d <> None -> m_comment m = get "comment" d.
Proof.
  unfold load_constant_parameter. destruct (get "value" d) as [j|].
  - destruct j; try discriminate. intros H _. injection H as _ <-. cbn [m_comment]. rewrite get_pop. reflexivity.
  - intros H [N|N]; [congruence|]. destruct (load_parameter_values path tables matches read frequency d) as [es0 res] eqn:E.
    destruct res as [[a rest]|]; [|discriminate]. destruct (to_float a) as [q|]; [|discriminate]. injection H as <- <-. cbn [m_comment].
    unfold load_parameter_values in E. destruct (get "values" d) as [j|].
    + destruct (to_array j) as [a'|]; [|discriminate]. cbn [option_map] in E. assert (R : rest = pop "values" d) by (injection E as _ _ <-; reflexivity).
      rewrite R, get_pop. reflexivity.
    + destruct N as [N|N]; [congruence|]. destruct (present "url" d || present "table" d); [|discriminate].
      destruct (load_dataframe path tables matches read frequency d) as [es1 res1] eqn:L. destruct res1 as [[df rest1]|]; [|discriminate].
      cbn [option_map fst snd] in E. assert (R : rest1 = rest) by (injection E as _ _ <-; reflexivity). subst rest1.
      pose proof (C108_source _ _ _ _ _ _ _ _ _ L) as X. destruct (given "table" d) as [j|]; [|congruence]. destruct j; try contradiction.
      destruct X as (_ & _ & X). rewrite X. reflexivity.
Qed.
Print Assumptions C108_comment.

(** Claim: comments are kept.  False for parameters loaded by [Parameter.load] (profiles and other arrays), for constant parameters from
    files, and for [DataFrameParameter], which takes the first key of a leftover entry for its name. *)
Theorem C108_comment_lost path tables matches read frequency d es m : load_array_parameter path tables matches read frequency d = (es, Some m) -> m_comment m = None.
Proof.
  unfold load_array_parameter. destruct (load_parameter_values path tables matches read frequency (pop "scenario" d)) as [es0 [[a rest]|]]; [|discriminate].
  intro H. injection H as _ <-. reflexivity.
Qed.
Print Assumptions C108_comment_lost.
Definition profile_entry : dict json := [("values", JList [JNumber 1; JNumber 2]); ("comment", JString "measured")]%string.
Definition constant_entry : dict json :=
  [("url", JString "demand.csv"); ("column", JString "peak"); ("index", JString "oxford"); ("comment", JString "measured")]%string.
Definition series_entry : dict json := [("table", JString "demand"); ("column", JString "peak"); ("comment", JString "measured")]%string.
Theorem C108_comment_refuted : exists path tables matches read frequency,
  (exists m, load_array_parameter path tables matches read frequency profile_entry = ([], Some m) /\ m_comment m = None) /\
  (exists es m, load_constant_parameter path tables matches read frequency constant_entry = (es, Some m) /\ m_comment m = None) /\
  (exists df, load_dataframe_parameter path tables matches read frequency series_entry = ([], Some (df, Some "comment"%string, None))).
Proof.
  exists (Some "/m"%string), [("demand"%string, demand)], all_match, read_demand, (fun _ => true).
  split; [eexists; split; reflexivity|]. split; [eexists _, _; split; reflexivity|]. eexists. reflexivity.
Qed.
Print Assumptions C108_comment_refuted.

(** * Classes by name *)

Lemma lower_ascii_idem c : lower_ascii (lower_ascii c) = lower_ascii c.
Proof. destruct c as [[] [] [] [] [] [] [] []]; reflexivity. Qed.
Lemma lower_idem s : lower (lower s) = lower s.
Proof. induction s as [|c s IH]; cbn; [reflexivity|]. rewrite lower_ascii_idem, IH. reflexivity. Qed.

(** A type is the name of a class in any case, or that without "Parameter" at the end. *)
Theorem C108_parameter_class reg c t :
  (get (lower t) reg = Some c -> parameter_class reg t = Some c) /\
  (get (lower t) reg = None -> ends_with "parameter" (lower t) = false -> get (lower t ++ "parameter")%string reg = Some c -> parameter_class reg t = Some c) /\
  (parameter_class reg t = Some c -> get (lower t) reg = Some c \/ get (lower t) reg = None /\ get (lower t ++ "parameter")%string reg = Some c) /\
  parameter_class reg (lower t) = parameter_class reg t.
Proof.
  unfold parameter_class. rewrite lower_idem. split; [intros ->; reflexivity|]. split; [intros -> ->; auto|]. split; [|reflexivity].
  destruct (get (lower t) reg) as [c'|]; [auto|]. destruct (ends_with "parameter" (lower t)); [discriminate|auto].
Qed.
Print Assumptions C108_parameter_class.

Definition drop (n : nat) (s : string) : string := substring n (String.length s - n) s.
Lemma append_nil s : (s ++ "")%string = s.
Proof. induction s as [|c s IH]; cbn; congruence. Qed.
Lemma prefix_refl s : prefix s s = true.
Proof. induction s as [|c s IH]; cbn; [reflexivity|]. destruct (ascii_dec c c); [exact IH|contradiction]. Qed.
Lemma substring_past s n : substring (String.length s) n s = ""%string.
Proof. induction s as [|c s IH]; cbn; [destruct n; reflexivity|exact IH]. Qed.
Lemma substring_all s : substring 0 (String.length s) s = s.
Proof. induction s as [|c s IH]; cbn; congruence. Qed.

Lemma replace_empty_end word : word <> ""%string -> forall s fuel, String.length (s ++ word) <= fuel ->
  (forall i, i < String.length s -> prefix word (drop i (s ++ word)) = false) -> replace_empty fuel word (s ++ word)%string = s.
Proof.
  intros NE s fuel L. revert fuel L. induction s as [|c s IH]; intros fuel L H.
  - cbn [append]. destruct word as [|c word]; [contradiction|]. destruct fuel as [|fuel]; [cbn in L; lia|].
    cbn [replace_empty]. rewrite prefix_refl, substring_past. destruct fuel; reflexivity.
  - destruct fuel as [|fuel]; [cbn in L; lia|]. cbn [append replace_empty].
    assert (P : prefix word (String c (s ++ word)) = false).
    { specialize (H 0 ltac:(cbn; lia)). unfold drop in H. rewrite Nat.sub_0_r, substring_all in H. exact H. }
    rewrite P. f_equal. apply IH; [cbn in L; lia|]. intros i Li. specialize (H (S i) ltac:(cbn; lia)). exact H.
Qed.

(** For recorders also with "Recorder" at the end although the name of the class does not have it. *)
Theorem C108_recorder_class reg c t :
  (get (lower t) reg = Some c -> recorder_class reg t = Some c) /\
  (get (lower t) reg = None -> ends_with "recorder" (lower t) = false -> get (lower t ++ "recorder")%string reg = Some c -> recorder_class reg t = Some c) /\
  (forall s, get (lower t) reg = None -> lower t = (s ++ "recorder")%string -> get s reg = Some c ->
     (forall i, i < String.length s -> prefix "recorder" (drop i (s ++ "recorder")) = false) -> recorder_class reg t = Some c).
Proof.
  unfold recorder_class. split; [intros ->; reflexivity|]. split; [intros -> ->; auto|].
  intros s -> E G H.
  assert (EW : ends_with "recorder" (lower t) = true).
  { rewrite E. clear. unfold ends_with. 
    assert (LA : String.length (s ++ "recorder") = String.length s + 8) by (induction s as [|x s IH]; cbn; [reflexivity|f_equal; exact IH]).
    rewrite LA. cbn [String.length]. replace (String.length s + 8 - 8) with (String.length s) by lia.
    rewrite andb_true_iff. split; [apply Nat.leb_le; lia|]. clear LA. induction s as [|x s IH]; [reflexivity|]. exact IH. }
  rewrite EW, E. rewrite (replace_empty_end "recorder" ltac:(discriminate) s _ (le_n _) H). exact G.
Qed.
Print Assumptions C108_recorder_class.

(** Claim: "Parameter" at the end is optional in both directions, as for recorders.  False: the text without it is thrown away. *)
Theorem C108_parameter_class_refuted : exists name,
  parameter_class (register name []) (name ++ "Parameter") = None /\
  recorder_class (register name []) (name ++ "Recorder") = Some name.
Proof. exists "Demand"%string. split; reflexivity. Qed.
Print Assumptions C108_parameter_class_refuted.

Example C108_example_class :
  parameter_class (register "ConstantParameter" []) "constant" = Some "ConstantParameter"%string /\
  parameter_class (register "ConstantParameter" []) "CONSTANTparameter" = Some "ConstantParameter"%string /\
  parameter_class (register "ConstantParameter" []) "const" = None /\
  recorder_class (register "NumpyArrayNodeRecorder" []) "numpyarraynode" = Some "NumpyArrayNodeRecorder"%string.
Proof. repeat split. Qed.
