(** Included documents: C75. *)
From Coq Require Import Strings.Ascii Strings.String.
From Verif Require Import Base Documents_model Documents_proofs Includes_model Includes_spec Includes_proofs.
Local Open Scope string_scope.
Local Open Scope nat_scope.
Local Open Scope list_scope.

(** C75: what is read for a name.  Names that end in .json, in any case, are those of documents; files that end in .py are run and add nothing; others are refused. *)
Theorem C75_kinds : forall runs fs f,
  (ends_in f ".json" -> read_include runs fs f = fs f) /\
  (ends_in f ".py" -> runs f = true -> read_include runs fs f = Some []) /\
  (ends_in f ".py" -> runs f = false -> read_include runs fs f = None) /\
  (~ ends_in f ".json" -> ~ ends_in f ".py" -> read_include runs fs f = None) /\
  ~ (ends_in f ".json" /\ ends_in f ".py").
Proof.
  intros runs fs f.
  assert (J : lower (extension f) = ".json" <-> ends_in f ".json") by (apply extension_spec; [reflexivity| |]; cbn; intuition discriminate).
  assert (P : lower (extension f) = ".py" <-> ends_in f ".py") by (apply extension_spec; [reflexivity| |]; cbn; intuition discriminate).
  rewrite <- J, <- P. unfold read_include. cbv zeta. split; [|split; [|split; [|split]]].
  - intros ->. reflexivity.
  - intros -> ->. reflexivity.
  - intros -> ->. reflexivity.
  - intros H1 H2. destruct (String.eqb_spec (lower (extension f)) ".json"); [contradiction|]. destruct (String.eqb_spec (lower (extension f)) ".py"); [contradiction|reflexivity].
  - intros [-> H]. discriminate.
Qed.
Print Assumptions C75_kinds.

Example kinds_example : map (fun f => lower (extension f)) ["m.json"; "a.b/m.JSON"; "m.json.bak"; ".json"; "..json"; "x/.py"; "x/y.Py"; "m.json/readme"]
  = [".json"; ".json"; ".bak"; ""; ""; ""; ".py"; ""].
Proof. reflexivity. Qed.
Example ends_example : ends_in "a/m.JSON" ".json".
Proof.
  exists "a/", "m", ".JSON". split; [reflexivity|]. split; [right; now exists "a"|]. split; [cbn; intuition discriminate|].
  split; [exists "m"%char; split; [now left|discriminate]|]. cbn. repeat split; first [now left | right; eexists; repeat split; [| |reflexivity..]; vm_compute; lia].
Qed.

(** The documents that are read: those of all the names that are in the list of includes in the end, one each and in order. *)
Definition read_docs (runs : scripts) (fs : files) (data' : document) (docs : list document) : Prop :=
  Forall2 (fun j d => exists f, j = JString f /\ read_include runs fs f = Some d) (list_at "includes" data') docs.

(** C75: in a document given as a dictionary, the lists of the included documents are appended, each once and in order, also the documents which included
    documents include; of the entries of dictionaries the last one counts; everything else stays as it was. *)
Theorem C75_dict_once : forall runs fs data data' fuel, (forall f d, fs f = Some d -> well_formed d) ->
  load_dict fuel runs fs data = Ok data' ->
  exists docs, read_docs runs fs data' docs /\
    (forall k, list_at k data' = list_at k data ++ flat_map (list_at k) docs) /\
    (forall k n, said_last (map (entries k) docs) (entries k data) n (get n (entries k data'))) /\
    (forall k v, get k data = Some v -> ~ same_kind v v -> get k data' = Some v).
Proof.
  intros runs fs data data' fuel W H.
  assert (W' : forall f d, read_include runs fs f = Some d -> well_formed d).
  { intros f d. unfold read_include. cbv zeta. destruct (String.eqb _ ".json"); [apply W|]. destruct (String.eqb _ ".py"); [|discriminate].
    destruct (runs f); [|discriminate]. intros [= <-]. split; [constructor|]. intros k. constructor. }
  assert (AP : all_proper (read_include runs fs)) by (intros f d Hf; exact (proj1 (W' f d Hf))).
  destruct (load_includes_spec _ AP fuel 0 data data' H) as (docs & more & F & _ & E & N). cbn [skipn] in F, N. exists docs.
  assert (Wd : Forall well_formed docs). { clear - F W'. induction F as [|f d l docs Hf F IH]; constructor; [exact (W' f d Hf)|exact IH]. }
  split; [|split; [|split]].
  - now apply names_docs.
  - intros k. apply merges_list; [|exact E]. clear - Wd. induction Wd as [|d docs [P _] Wd IH]; constructor; auto.
  - intros k n. now apply merges_entries.
  - intros k v. now apply (merges_keep docs).
Qed.
Print Assumptions C75_dict_once.

(** It is an exception if one of the documents has something that is neither a list nor a dictionary, or another of the two than there is already. *)
Theorem C75_merge_refused : forall include data, proper include -> (merge include data = None <-> exists k v, In (k, v) include /\ unsuitable data k v).
Proof. intros include data. apply merge_refused. Qed.
Print Assumptions C75_merge_refused.

(** No included document includes others. *)
Definition flat_includes (fs : files) : Prop := forall f d, fs f = Some d -> well_formed d /\ get "includes" d = None.
Lemma flat_read runs fs : flat_includes fs -> forall f d, read_include runs fs f = Some d -> proper d /\ get "includes" d = None.
Proof.
  intros FL f d. unfold read_include. cbv zeta. destruct (String.eqb _ ".json"); [intros H; destruct (FL f d H) as [[P _] I]; auto|]. destruct (String.eqb _ ".py"); [|discriminate].
  destruct (runs f); [|discriminate]. intros [= <-]. split; [constructor|reflexivity].
Qed.
(** Reading includes ends, if the included documents do not include others. *)
Theorem C75_terminates : forall runs fs data, flat_includes fs -> load_dict (List.length (list_at "includes" data)) runs fs data <> Unfinished.
Proof. intros runs fs data FL. apply load_includes_finishes; [now apply flat_read|lia]. Qed.
Print Assumptions C75_terminates.

(** In a document read from a file every included list comes twice. *)
Theorem C75_file_twice : forall runs fs data data' fuel, flat_includes fs -> load_file fuel runs fs data = Ok data' ->
  exists docs, read_docs runs fs data docs /\ forall k, list_at k data' = list_at k data ++ flat_map (list_at k) docs ++ flat_map (list_at k) docs.
Proof.
  intros runs fs data data' fuel FL H. unfold load_file, bind in H. destruct (load_includes fuel 0 (read_include runs fs) data) as [d1| |] eqn:E; try discriminate.
  assert (W : forall f d, fs f = Some d -> well_formed d) by (intros f d Hf; exact (proj1 (FL f d Hf))).
  destruct (C75_dict_once runs fs data d1 fuel W E) as (docs & R & L & _). destruct (C75_dict_once runs fs d1 data' fuel W H) as (docs' & R' & L' & _).
  assert (none : forall d l, Forall2 (fun j d => exists f, j = JString f /\ read_include runs fs f = Some d) l d -> flat_map (list_at "includes") d = []).
  { intros d l F. induction F as [|j x l d (f & _ & Hf) F IH]; [reflexivity|]. cbn [flat_map]. rewrite IH, app_nil_r. unfold list_at. now rewrite (proj2 (flat_read runs fs FL f x Hf)). }
  assert (I : list_at "includes" d1 = list_at "includes" data) by now rewrite (L "includes"), (none _ _ R), app_nil_r.
  assert (I' : list_at "includes" data' = list_at "includes" d1) by now rewrite (L' "includes"), (none _ _ R'), app_nil_r.
  unfold read_docs in *. rewrite I', I in R'. rewrite I in R. assert (docs' = docs) as ->.
  { clear - R R'. revert docs' R'. induction R as [|j d l docs (f & -> & Hf) R IH]; intros docs' R'; inversion R' as [|? d' ? docs'' (f' & Ef & Hf') R'']; subst; [reflexivity|].
    f_equal; [congruence|now apply IH]. }
  exists docs. split; [exact R|]. intros k. now rewrite L', L, <- app_assoc.
Qed.
Print Assumptions C75_file_twice.

Definition scenario_document : document := [("scenarios", JList [JString "demand"]); ("metadata", JDict [("title", JString "new")])].
Definition example_files : files := fun f => if String.eqb f "s.json" then Some scenario_document else None.
Definition example_document : document :=
  [("includes", JList [JString "c.py"; JString "s.json"]); ("scenarios", JList [JString "inflow"]); ("metadata", JDict [("title", JString "old"); ("by", JString "us")]); ("version", JNumber 1)].
Example include_example :
  load_dict 5 (fun f => String.eqb f "c.py") example_files example_document =
    Ok [("includes", JList [JString "c.py"; JString "s.json"]); ("scenarios", JList [JString "inflow"; JString "demand"]);
        ("metadata", JDict [("title", JString "new"); ("by", JString "us")]); ("version", JNumber 1)] /\
  load_dict 5 (fun _ => false) example_files example_document = Error.
Proof. split; reflexivity. Qed.
(** A document that includes another. *)
Example nested_example :
  load_dict 5 (fun _ => true) (fun f => if String.eqb f "a.json" then Some [("includes", JList [JString "s.json"])] else example_files f) [("includes", JList [JString "a.json"])] =
    Ok [("includes", JList [JString "a.json"; JString "s.json"]); ("scenarios", JList [JString "demand"]); ("metadata", JDict [("title", JString "new")])].
Proof. reflexivity. Qed.

(** The same document read from a file has a scenario more. *)
Theorem C75_file_refuted : exists runs fs data d1 d2 fuel,
  flat_includes fs /\ load_dict fuel runs fs data = Ok d1 /\ load_file fuel runs fs data = Ok d2 /\ List.length (list_at "scenarios" d1) = 2 /\ List.length (list_at "scenarios" d2) = 3.
Proof.
  exists (fun _ => true), example_files, example_document. do 2 eexists. exists 5.
  split; [|repeat split].
  intros f d H. unfold example_files in H. destruct (String.eqb f "s.json"); [|discriminate]. injection H as <-. split; [|reflexivity]. split.
  - cbn. repeat constructor; cbn; intuition discriminate.
  - intros k. unfold entries. cbn [get scenario_document]. destruct (String.eqb "scenarios" k); [constructor|]. destruct (String.eqb "metadata" k); cbn; repeat constructor; intros [].
Qed.
Print Assumptions C75_file_refuted.

(** A document that is included and includes itself is read for ever. *)
Theorem C75_terminates_refuted : exists fs data, forall runs fuel, load_dict fuel runs fs data = Unfinished.
Proof.
  exists (fun f => if String.eqb f "s.json" then Some [("includes", JList [JString "s.json"])] else None), [("includes", JList [JString "s.json"])]. intros runs.
  unfold load_dict. match goal with |- forall fuel, load_includes fuel 0 ?i _ = _ => set (inc := i) end. assert (R : inc "s.json" = Some [("includes", JList [JString "s.json"])]) by reflexivity.
  assert (forall fuel pos n, pos < n -> load_includes fuel pos inc [("includes", JList (repeat (JString "s.json") n))] = Unfinished) as K.
  { induction fuel as [|fuel IH]; intros pos n H; cbn [load_includes].
    - change (get "includes" [("includes", JList (repeat (JString "s.json") n))]) with (Some (JList (repeat (JString "s.json") n))). cbv iota beta.
      rewrite (nth_error_repeat (JString "s.json") H), R. reflexivity.
    - change (get "includes" [("includes", JList (repeat (JString "s.json") n))]) with (Some (JList (repeat (JString "s.json") n))). cbv iota beta.
      rewrite (nth_error_repeat (JString "s.json") H), R.
      change (merge [("includes", JList [JString "s.json"])] [("includes", JList (repeat (JString "s.json") n))]) with
        (Some [("includes", JList (repeat (JString "s.json") n ++ [JString "s.json"]))]). cbv iota beta.
      change [JString "s.json"] with (repeat (JString "s.json") 1). rewrite <- repeat_app. apply IH. lia. }
  intros fuel. apply (K fuel 0 1). lia.
Qed.
Print Assumptions C75_terminates_refuted.
