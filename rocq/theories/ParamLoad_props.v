(** C113: documents of parameters. *)
From Coq Require Import Strings.Ascii Strings.String.
From Verif Require Import Base NodeLoad_proofs Documents_proofs Documents_model DataLoad_proofs DataLoad_model ParamLoad_model ParamLoad_spec ParamLoad_proofs ParamLoad_classes.
Local Open Scope string_scope.
Local Open Scope nat_scope.
Local Open Scope list_scope.

Section World.
Variable named : string -> option obj.
Variable made : dict json -> option obj.
Variable recorder : json -> option obj.
Variable node : string -> option sort.
Variable scenario : string -> bool.
Variable file : dict json -> option (array * dict json).
Local Notation load := (load named made recorder node scenario file).
Local Notation load_entry := (load_entry named made recorder node scenario file).
Local Notation document_of := (document_of named made recorder node scenario file).
Local Notation means := (means named made recorder node scenario file).

Lemma no_values_argument c g : array_class c = false -> In c [Basic; Index; BaseCurve; OfFunction; TimestepLicense] -> In "values" (map fst g) -> call_with c g = None.
Proof.
  intros _ Hc Hg. apply (call_unknown c "values" g Hg). cbn in Hc. destruct Hc as [<-|[<-|[<-|[<-|[<-|[]]]]]]; cbn; intuition discriminate.
Qed.
Lemma load_none c d : table c = None -> load c d = None.
Proof.
  intros H. assert (Hc : In c [Basic; Index; BaseCurve; OfFunction; TimestepLicense]) by (destruct c; try discriminate H; cbn; tauto).
  assert (Ha : array_class c = false) by (cbn in Hc; destruct Hc as [<-|[<-|[<-|[<-|[<-|[]]]]]]; reflexivity).
  assert (E : load_rest named made recorder node scenario file c = load_base scenario file c)
    by (cbn in Hc; destruct Hc as [<-|[<-|[<-|[<-|[<-|[]]]]]]; reflexivity).
  unfold ParamLoad_model.load. rewrite E. clear E H.
  assert (Hcall : forall g d', In "values" (map fst g) -> call c [] g d' = None).
  { intros g d' Hg. unfold call. rewrite (no_values_argument c); [easy | exact Ha | exact Hc|]. rewrite combine_nil, map_app, map_app. cbn [app map]. apply in_or_app. now left. }
  unfold load_base, bind, lift, opt. destruct (opt_scenario scenario d) as [[s d1]|]; [|easy]. destruct (values file d1) as [[v d2]|]; [|easy].
  destruct s; rewrite Hcall by (cbn; tauto); easy.
Qed.

(** ** A document is loaded exactly if it is one of its class, and the class gets the arguments it says. *)
Theorem C113_load c d b : NoDup (map fst d) -> in_itself c d ->
  document_of c d b <-> exists args, load c d = Some args /\ forall n, get n args = b n.
Proof.
  intros Hnd Hin. destruct (table c) as [fs|] eqn:Hfs.
  - rewrite (load_interp named made recorder node scenario file c fs d Hfs Hnd Hin). split.
    + apply (document_interp named made recorder node scenario file c fs Hfs d b Hnd).
    + intros (args & H & Hb). pose proof (interp_document named made recorder node scenario file c fs Hfs d args Hnd H) as (fs' & E & Ha & Hk & Hn & Ht).
      exists fs'. split; [easy|]. split; [|split; [easy|split]].
      * intros f Hf. destruct (Ha f Hf) as [(k & kd & j & o & H1 & H2 & H3)|[H1 H2]].
        -- left. exists k, kd, j, o. rewrite <- Hb. easy.
        -- right. split; [easy|]. destruct (a_need f); [easy|rewrite <- Hb; easy..].
      * intros n Hbn. apply Hn. rewrite Hb. exact Hbn.
      * destruct c; try exact Ht. intros m n Hm Hn' Hne. rewrite <- !Hb. now apply Ht.
  - rewrite (load_none c d Hfs). split.
    + intros (fs & E & _). congruence.
    + intros (args & H & _). discriminate.
Qed.

(** What a document says is determined by it. *)
Theorem C113_one_meaning c d b b' : document_of c d b -> document_of c d b' -> forall n, b n = b' n.
Proof.
  intros H H'. pose proof H as (fs & Hfs & _).
  apply (document_functional named made recorder node scenario file c fs Hfs d b b' H H').
Qed.

(** ** Every entry of a document that is loaded is where an argument comes from, unless it has no effect: an entry nobody asks for is refused,
    and so is one of two entries for the same argument. *)
Theorem C113_no_entry_lost c d args k j : NoDup (map fst d) -> in_itself c d -> load c d = Some args -> get k d = Some j ->
  without_effect c k j
  \/ exists fs f kd o, table c = Some fs /\ In f fs /\ comes_from d f k kd j /\ means kd j o /\ get (a_name f) args = Some o.
Proof.
  intros Hnd Hin Hl Hk. assert (Hd : document_of c d (fun n => get n args)) by (apply C113_load; eauto).
  destruct Hd as (fs & Hfs & Ha & He & _). destruct (He k j Hk) as [(f & kd & Hf & Hc)|Hw]; [right|now left].
  destruct (Ha f Hf) as [(k' & kd' & j' & o & H1 & H2 & H3)|[H1 _]].
  - destruct (comes_from_functional named made recorder node scenario file c fs Hfs d f k kd j k' kd' j' Hf Hc H1) as (<- & <- & <-). exists fs, f, kd, o. easy.
  - exfalso. destruct (comes_from_in _ _ _ _ _ Hc) as [Hi Hg]. rewrite (H1 k kd Hi) in Hg. discriminate.
Qed.

(** ** Where a parameter is wanted and nothing else, a number is refused. *)
Theorem C113_number_refused c fs f d k kd q : NoDup (map fst d) -> in_itself c d ->
  table c = Some fs -> In f fs -> comes_from d f k kd (JNumber q) -> kd = KPar \/ kd = KParOnly \/ kd = KParIndex -> load c d = None.
Proof.
  intros Hnd Hin Hfs Hf Hc Hk. destruct (load c d) as [args|] eqn:E; [|easy]. exfalso.
  destruct (comes_from_in _ _ _ _ _ Hc) as [Hi Hg].
  destruct (C113_no_entry_lost c d args k (JNumber q) Hnd Hin E Hg) as [Hw|(fs' & f' & kd' & o & Hfs' & Hf' & Hc' & Hm & _)].
  - destruct Hw as [(Ha & _)|[(_ & _ & _ & Hj)|(-> & ->)]]; [|discriminate|].
    + destruct c; try discriminate Ha; cbn in Hfs; (assert (E1 : fs = _) by (symmetry; injection Hfs as Hfs; exact Hfs)); subst fs; cbn in Hf;
        repeat (destruct Hf as [<-|Hf]; [cbn in Hi; repeat (destruct Hi as [Hi|Hi]; [assert (kd <> KPar /\ kd <> KParOnly /\ kd <> KParIndex) by (repeat split; intros ->; discriminate); tauto|]); destruct Hi|]); destruct Hf.
    + cbn in Hfs. assert (E1 : fs = _) by (symmetry; injection Hfs as Hfs; exact Hfs). subst fs. cbn in Hf.
      repeat (destruct Hf as [<-|Hf]; [cbn in Hi; destruct Hi as [Hi|[]]; discriminate|]); destruct Hf.
  - assert (fs' = fs) by congruence. subst fs'.
    assert (f' = f). { apply (key_field c fs Hfs f' f k Hf' Hf); apply in_map_iff; [exists (k, kd'); split; [easy|]; apply (comes_from_in _ _ _ _ _ Hc') | exists (k, kd); easy]. }
    subst f'. destruct (comes_from_functional named made recorder node scenario file c fs Hfs d f k kd _ k kd' _ Hf Hc Hc') as (_ & <- & _).
    destruct Hk as [->|[->| ->]]; cbn in Hm; destruct Hm as [Hr Ho]; inversion Hr; subst.
    + destruct Ho as [Ho|Ho]; [inversion Ho | discriminate].
    + inversion Ho.
    + destruct Ho as [n Ho]. discriminate.
Qed.

(** ** In lists of parameters that may be numbers, a number stands for a constant parameter, and the order is kept. *)
Theorem C113_list_order (P : json -> obj -> Prop) j o l : each P j o -> elements j l ->
  exists os, o = OList os /\ List.length os = List.length l
    /\ forall i x, nth_error l i = Some x -> exists y, nth_error os i = Some y /\ P x y.
Proof.
  intros (l' & os & He & HF & ->) Hl. assert (l' = l) by (inversion He; subst; inversion Hl; subst; congruence). subst l'. exists os. split; [easy|].
  split; [clear -HF; induction HF; cbn; congruence|]. intros i x Hi. clear He Hl. revert i Hi.
  induction HF as [|a b l os H HF IH]; intros [|i] Hi; try discriminate; cbn in *.
  - assert (a = x) by congruence. subst a. eauto.
  - now apply IH.
Qed.
Theorem C113_number_constant j o l i q : means KParsWrap j o -> elements j l -> nth_error l i = Some (JNumber q) ->
  exists os, o = OList os /\ nth_error os i = Some (OConst q).
Proof.
  intros Hm Hl Hi. destruct (C113_list_order _ _ _ _ Hm Hl) as (os & -> & _ & H). exists os. split; [easy|].
  destruct (H i _ Hi) as (y & Hy & o' & Hr & Hs). inversion Hr; subst. inversion Hs as [? Hp|]; subst; [inversion Hp | easy].
Qed.

(** ** Numbers read from a file or table are as good as numbers in the document; what the file did not use are arguments. *)
Definition in_place_of (d rest : dict json) (v : json) : dict json :=
  ("values", v) :: pop "values" rest ++ match get "scenario" d with Some j => [("scenario", j)] | None => [] end.
Lemma pop_head k j (d : dict json) : pop k ((k, j) :: d) = pop k d.
Proof. unfold pop. cbn. now rewrite String.eqb_refl. Qed.
Lemma pop_absent k (d : dict json) : get k d = None -> pop k d = d.
Proof.
  unfold pop, dict. induction d as [|[k' j] d IH]; cbn; [easy|]. destruct (String.eqb_spec k' k) as [->|E]; [discriminate|]. intros H. cbn. now rewrite (IH H).
Qed.
Lemma pop_twice k (d : dict json) : pop k (pop k d) = pop k d.
Proof. apply pop_absent, get_pop_same. Qed.
Lemma pop_app k (d e : dict json) : pop k (d ++ e) = pop k d ++ pop k e.
Proof. unfold pop. apply filter_app. Qed.
Theorem C113_from_file c d a rest v : array_class c = true ->
  get "values" d = None -> get "url" d <> None \/ get "table" d <> None ->
  file (pop "scenario" d) = Some (a, rest) -> get "scenario" rest = None -> to_array v = Some a ->
  load c d = load c (in_place_of d rest v).
Proof.
  intros Hc Hv Hp Hf Hs Ha.
  assert (E : load_rest named made recorder node scenario file c = load_base scenario file c) by (destruct c; try discriminate Hc; reflexivity).
  unfold ParamLoad_model.load. rewrite E. apply f_equal. clear E Hc. unfold load_base.
  assert (Hpop : pop "scenario" (in_place_of d rest v) = ("values", v) :: pop "values" rest).
  { unfold in_place_of. change (("values", v) :: pop "values" rest ++ ?x) with ([("values", v)] ++ pop "values" rest ++ x).
    rewrite !pop_app. rewrite (pop_absent "scenario" (pop "values" rest)) by (rewrite get_pop_other by discriminate; exact Hs).
    destruct (get "scenario" d); cbn [pop filter fst snd String.eqb Ascii.eqb Bool.eqb negb app]; unfold pop; cbn; now rewrite app_nil_r. }
  assert (Hget : get "scenario" (in_place_of d rest v) = get "scenario" d).
  { unfold in_place_of. change (get "scenario" (pop "values" rest ++ match get "scenario" d with Some j => [("scenario", j)] | None => [] end) = get "scenario" d).
    unfold dict. rewrite get_app. rewrite get_pop_other by discriminate. rewrite Hs. destruct (get "scenario" d); easy. }
  assert (Hvals : values file (pop "scenario" d) = Some (OVal a, rest)).
  { unfold values. rewrite get_pop_other by discriminate. rewrite Hv. unfold present. rewrite !get_pop_other by discriminate. rewrite Hf.
    destruct (get "url" d); [easy|]. destruct (get "table" d); [easy|]. destruct Hp as [Hp|Hp]; contradiction. }
  assert (Hvals' : values file (("values", v) :: pop "values" rest) = Some (OVal a, pop "values" rest)).
  { unfold values. cbn [get String.eqb Ascii.eqb Bool.eqb]. rewrite Ha. cbn [option_map]. now rewrite pop_head, pop_twice. }
  cbv [bind opt_scenario opt lift ret]. rewrite Hget, Hpop. clear Hget Hpop.
  destruct (get "scenario" d) as [[| |s| |]|]; cbn [find_scenario option_map]; try reflexivity.
  2: destruct (scenario s); [|reflexivity]; cbn [option_map].
  all: rewrite Hvals, Hvals', pop_twice; reflexivity.
Qed.

(** ** Entries of the section "parameters" and inner documents *)
Definition body (d : dict json) : dict json := pop_all ["tags"; "type"; "name"] d.
Lemma body_nodup d : NoDup (map fst d) -> NoDup (map fst (body d)).
Proof. apply NoDup_pop_all. Qed.
Lemma given_spec k (d : dict json) j : given k d = Some j <-> get k d = Some j /\ j <> JNull.
Proof.
  unfold given. destruct (get k d) as [[| | | |]|]; split; try (intros [H1 H2]; congruence); intros H; try discriminate; assert (E : j = _) by (symmetry; injection H as H; exact H);
    subst j; split; easy.
Qed.
(** The class is the one of the type; it gets what the rest of the document says; the name and the tags of the document become those of the parameter. *)
Theorem C113_entry d l : NoDup (map fst d) -> (forall c, in_itself c (body d)) ->
  load_entry d = Some l ->
  (exists typ, get "type" d = Some (JString typ) /\ class_of typ = Some (l_class l))
  /\ document_of (l_class l) (body d) (fun n => get n (l_args l))
  /\ (forall j, l_name l = Some j <-> get "name" d = Some j /\ j <> JNull)
  /\ (forall j, l_tags l = Some j <-> get "tags" d = Some j /\ j <> JNull).
Proof.
  intros Hnd Hin H. unfold ParamLoad_model.load_entry in H. destruct (get "type" d) as [[| |typ| |]|] eqn:Et; try discriminate.
  destruct (class_of typ) as [c|] eqn:Ec; [|discriminate]. destruct (load c (pop_all ["tags"; "type"; "name"] d)) as [b|] eqn:El; [|discriminate].
  assert (E : l = Loaded c b (given "name" d) (given "tags" d)) by congruence. subst l. cbn [l_class l_args l_name l_tags].
  split; [eauto|]. split; [|split; intros j; apply given_spec].
  apply C113_load; [now apply body_nodup | apply Hin | exists b; split; [exact El | easy]].
Qed.
Theorem C113_entry_loads d typ c b : NoDup (map fst d) -> in_itself c (body d) ->
  get "type" d = Some (JString typ) -> class_of typ = Some c -> document_of c (body d) b ->
  exists l, load_entry d = Some l /\ l_class l = c /\ forall n, get n (l_args l) = b n.
Proof.
  intros Hnd Hin Et Ec Hd. apply C113_load in Hd; [|now apply body_nodup | exact Hin]. destruct Hd as (args & Hl & Hb).
  unfold ParamLoad_model.load_entry. rewrite Et, Ec. unfold body in Hl. rewrite Hl. eauto.
Qed.
(** A document without a class, or whose class has no such document, is refused. *)
Theorem C113_entry_refused d : NoDup (map fst d) -> (forall c, in_itself c (body d)) ->
  (forall typ c b, get "type" d = Some (JString typ) -> class_of typ = Some c -> ~ document_of c (body d) b) -> load_entry d = None.
Proof.
  intros Hnd Hin H. destruct (load_entry d) as [l|] eqn:E; [|easy]. exfalso. destruct (C113_entry d l Hnd Hin E) as ((typ & H1 & H2) & H3 & _).
  exact (H typ _ _ H1 H2 H3).
Qed.
End World.
Print Assumptions C113_load.
Print Assumptions C113_one_meaning.
Print Assumptions C113_no_entry_lost.
Print Assumptions C113_number_refused.
Print Assumptions C113_list_order.
Print Assumptions C113_number_constant.
Print Assumptions C113_from_file.
Print Assumptions C113_entry.
Print Assumptions C113_entry_loads.
Print Assumptions C113_entry_refused.

(** ** The type is the name of the class in any case of letters, with or without "parameter" at its end. *)
Lemma append_length s t : String.length (s ++ t)%string = String.length s + String.length t.
Proof. induction s as [|c s IH]; cbn; [easy | now rewrite IH]. Qed.
Lemma substring_append s t : substring 0 (String.length s) (s ++ t)%string = s.
Proof. induction s as [|c s IH]; cbn; [destruct t; easy | now rewrite IH]. Qed.
Lemma registry_names : NoDup (map fst registry).
Proof. apply nodupb_spec. vm_compute. reflexivity. Qed.
Lemma registry_once n c : In (n, c) registry ->
  forall key, n = (key ++ "parameter")%string -> get key registry = None /\ ends_with "parameter" key = false.
Proof.
  intros Hin key E.
  assert (Hk : key = substring 0 (String.length n - 9) n).
  { subst n. rewrite append_length. cbn [String.length]. replace (String.length key + 9 - 9) with (String.length key) by lia. symmetry. apply substring_append. }
  assert (Hall : forallb (fun nc => let key := substring 0 (String.length (fst nc) - 9) (fst nc) in
                            negb (String.eqb (fst nc) (key ++ "parameter")) || (match get key registry with None => true | Some _ => false end && negb (ends_with "parameter" key))) registry = true)
    by (vm_compute; reflexivity).
  rewrite forallb_forall in Hall. specialize (Hall _ Hin). cbn [fst] in Hall. cbv zeta in Hall. rewrite <- Hk in Hall. rewrite E in Hall. rewrite String.eqb_refl in Hall. cbn [negb orb] in Hall.
  apply andb_true_iff in Hall. destruct Hall as [H1 H2]. split; [destruct (get key registry); easy | now apply negb_true_iff].
Qed.
Theorem C113_type typ c : class_of typ = Some c <-> exists n, In (n, c) registry /\ (n = lower typ \/ n = (lower typ ++ "parameter")%string).
Proof.
  unfold class_of. split.
  - destruct (get (lower typ) registry) as [c'|] eqn:E.
    + intros H. assert (c' = c) by congruence. subst c'. exists (lower typ). split; [now apply get_in_pair | now left].
    + destruct (ends_with "parameter" (lower typ)); [discriminate|]. intros H. exists (lower typ ++ "parameter")%string. split; [now apply get_in_pair | now right].
  - intros (n & Hin & [->| E]).
    + now rewrite (get_of_pair _ _ _ registry_names Hin).
    + destruct (registry_once n c Hin (lower typ) E) as [-> ->]. rewrite <- E. apply (get_of_pair _ _ _ registry_names Hin).
Qed.
Print Assumptions C113_type.

(** ** Classes that are registered and have no documents: their constructors do not take what Parameter.load passes. *)
Theorem C113_unloadable_refuted : exists typs, Forall (fun typ => exists c, class_of typ = Some c
  /\ forall named made recorder node scenario file d, load named made recorder node scenario file c d = None) typs
  /\ typs = ["Parameter"; "IndexParameter"; "BaseControlCurve"; "FunctionParameter"; "TimestepLicense"].
Proof.
  eexists. split; [|reflexivity]. repeat constructor; eexists; (split; [reflexivity|]); intros; apply load_none; reflexivity.
Qed.
Print Assumptions C113_unloadable_refuted.

(** * A world to try documents in *)

Definition a_named (s : string) : option obj := if String.eqb s "p" then Some (OPar 1 false) else if String.eqb s "i" then Some (OPar 2 true) else None.
Definition a_made (d : dict json) : option obj := match get "type" d with Some _ => Some (OPar 3 false) | None => match get "values" d with Some (JNumber q) => Some (ONum q) | _ => None end end.
Definition a_recorder (j : json) : option obj := match j with JString "r" => Some (ORec 1) | _ => None end.
Definition a_nodes (s : string) : option sort :=
  if String.eqb s "river" then Some Flowing else if String.eqb s "reservoir" then Some Storing else if String.eqb s "group" then Some Other else None.
Definition a_scenarios (s : string) : bool := String.eqb s "climate".
Definition a_file (d : dict json) : option (array * dict json) := Some (Array [2] [1; 2]%Q, pop_all ["url"; "table"; "column"] d).
Notation load' := (load a_named a_made a_recorder a_nodes a_scenarios a_file).
Notation load_entry' := (load_entry a_named a_made a_recorder a_nodes a_scenarios a_file).

Definition sample (kd : kind) : json :=
  match kd with
  | KRaw | KNumber => JNumber 5
  | KArray | KValues | KData => JList [JNumber 1; JNumber 2]
  | KNode | KFlowNode => JString "river"
  | KStorage => JString "reservoir"
  | KNodes => JList [JString "reservoir"]
  | KScenario | KScenarioNull => JString "climate"
  | KRecorder => JString "r"
  | KPar | KParNum | KParOnly | KParLoose | KCurve => JString "p"
  | KParIndex => JString "i"
  | KPars | KParsWrap | KParsLoose | KParsConst => JList [JString "p"; JString "i"]
  end.
Definition sample_document (c : class) (fs : list field) : dict json :=
  flat_map (fun f => match a_need f, a_keys f with
                     | Required, (k, kd) :: _ => [(k, sample kd)]
                     | _, _ => if match c with CurveInterpolated => String.eqb (a_name f) "parameters" | _ => false end then [("parameters", sample KPars)] else []
                     end) fs.
(** All the other classes have documents that are loaded. *)
Theorem C113_loadable c fs : table c = Some fs -> exists args, load' c (sample_document c fs) = Some args /\ NoDup (map fst (sample_document c fs)).
Proof.
  intros H. destruct c; try discriminate H; (assert (E : fs = _) by (symmetry; injection H as H; exact H)); subst fs;
    (eexists; split; [vm_compute; reflexivity | apply nodupb_spec; vm_compute; reflexivity]).
Qed.
Print Assumptions C113_loadable.

(** * What one might expect of documents and is not so *)

(** The comment of a parameter with values is dropped. *)
Theorem C113_comment_refuted : exists d args, get "comment" d = Some (JString "from the 1997 study")
  /\ load' DailyProfile d = Some args /\ get "comment" args = Some ONone.
Proof. exists [("values", JList [JNumber 1]); ("comment", JString "from the 1997 study")]. eexists. split; [reflexivity|]. split; vm_compute; reflexivity. Qed.
Print Assumptions C113_comment_refuted.
(** So is the address, when there are values, even if it is that of other values. *)
Theorem C113_url_refuted : exists d args, get "url" d <> None /\ load' ArrayIndexed d = Some args
  /\ load' ArrayIndexed (pop "url" d) = Some args.
Proof. exists [("values", JList [JNumber 1]); ("url", JString "flows.csv")]. eexists. split; [discriminate|]. split; vm_compute; reflexivity. Qed.
Print Assumptions C113_url_refuted.
(** A text where a list of parameters is wanted is read letter by letter. *)
Theorem C113_text_refuted : exists d args, get "control_curves" d = Some (JString "pi") /\ load' CurveIndex d = Some args
  /\ get "control_curves" args = Some (OList [OPar 1 false; OPar 2 true]).
Proof. exists [("storage_node", JString "reservoir"); ("control_curves", JString "pi")]. eexists. split; [reflexivity|]. split; vm_compute; reflexivity. Qed.
Print Assumptions C113_text_refuted.
(** The numbers of a ControlCurveParameter are not read from a file, whereas those of the interpolated one are. *)
Theorem C113_curve_file_refuted : exists d, load' CurveInterpolated d <> None /\ load' Curve d = None.
Proof.
  exists [("storage_node", JString "reservoir"); ("control_curve", JNumber (1 # 2)); ("url", JString "values.csv")]. split; vm_compute; [discriminate | reflexivity].
Qed.
Print Assumptions C113_curve_file_refuted.
(** The single control curve is not accepted by all classes of control curves. *)
Theorem C113_single_curve_refuted : exists d, load' Curve d <> None /\ load' CurveIndex d = None.
Proof. exists [("storage_node", JString "reservoir"); ("control_curve", JNumber (1 # 2))]. split; vm_compute; [discriminate | reflexivity]. Qed.
Print Assumptions C113_single_curve_refuted.
(** A number or null is not refused by all classes that want a parameter. *)
Theorem C113_loose_refuted : exists j o, j = JNumber 3 /\ o = ONum 3
  /\ (exists args, load' Interpolated [("parameter", j); ("x", JList [JNumber 0]); ("y", JList [JNumber 1])] = Some args /\ get "parameter" args = Some o)
  /\ load' Negative [("parameter", j)] = None
  /\ (exists args, load' Negative [("parameter", JNull)] = Some args /\ get "parameter" args = Some ONone).
Proof.
  exists (JNumber 3), (ONum 3). split; [easy|]. split; [easy|]. split; [eexists; split; vm_compute; reflexivity|]. split; [vm_compute; reflexivity|].
  eexists. split; vm_compute; reflexivity.
Qed.
Print Assumptions C113_loose_refuted.
(** The names of arguments are not always those of entries. *)
Theorem C113_argument_names_refuted : exists d d', load' ParameterThreshold d = None /\ In ("param", JString "p") d
  /\ load' ParameterThreshold d' <> None /\ In ("parameter", JString "p") d'.
Proof.
  exists [("param", JString "p"); ("threshold", JNumber 1); ("predicate", JString "LT")],
         [("parameter", JString "p"); ("threshold", JNumber 1); ("predicate", JString "LT")].
  split; [vm_compute; reflexivity|]. split; [cbn; tauto|]. split; [vm_compute; discriminate | cbn; tauto].
Qed.
Print Assumptions C113_argument_names_refuted.

(** * Examples *)

Example ex_load : load' Curve [("storage_node", JString "reservoir"); ("control_curves", JList [JNumber (1 # 2); JString "p"]); ("values", JList [JNumber 10; JNumber 5; JNumber 0]);
                               ("variable_indices", JList [JNumber 0])]
  = Some [("storage_node", ONode "reservoir" Storing); ("control_curves", OList [OConst (1 # 2); OPar 1 false]); ("values", OVal (Array [3] [10; 5; 0]%Q));
          ("parameters", ONone); ("variable_indices", ORaw (JList [JNumber 0]))].
Proof. vm_compute. reflexivity. Qed.
(** Both control_curve and control_curves: one of them is an argument given twice. *)
Example ex_twice : load' Curve [("storage_node", JString "reservoir"); ("control_curve", JNumber (1 # 2)); ("control_curves", JList []); ("values", JList [JNumber 10])] = None.
Proof. vm_compute. reflexivity. Qed.
Example ex_document : document_of a_named a_made a_recorder a_nodes a_scenarios a_file Max [("parameter", JString "p"); ("threshold", JNumber 3)]
  (fun n => if String.eqb n "parameter" then Some (OPar 1 false) else if String.eqb n "threshold" then Some (ORaw (JNumber 3)) else None).
Proof.
  apply C113_load; [apply nodupb_spec; reflexivity | intros H; discriminate H|]. eexists. split; [vm_compute; reflexivity|].
  intros n. cbn [get]. rewrite (String.eqb_sym "parameter" n), (String.eqb_sym "threshold" n). reflexivity.
Qed.
Example ex_unknown : load' Max [("parameter", JString "p"); ("treshold", JNumber 3)] = None.
Proof. vm_compute. reflexivity. Qed.
Example ex_number : load' Division [("numerator", JNumber 1); ("denominator", JString "p")] = None.
Proof. vm_compute. reflexivity. Qed.
Example ex_node_of_other_sort : load' Storage [("storage_node", JString "river")] = None /\ load' Flow [("node", JString "reservoir")] = None.
Proof. vm_compute. easy. Qed.
Example ex_from_file : load' ConstantScenario [("scenario", JString "climate"); ("url", JString "a.csv"); ("column", JString "x"); ("is_variable", JNumber 1)]
  = Some [("scenario", OScen "climate"); ("values", OVal (Array [2] [1; 2]%Q)); ("name", ONone); ("comment", ONone); ("is_variable", ORaw (JNumber 1))].
Proof. vm_compute. reflexivity. Qed.
Example ex_entry : load_entry' [("type", JString "ControlCurveIndex"); ("name", JString "band"); ("storage_node", JString "reservoir"); ("control_curves", JList [JNumber (1 # 2)]);
                                ("tags", JDict [])]
  = Some (Loaded CurveIndex [("storage_node", ONode "reservoir" Storing); ("control_curves", OList [OConst (1 # 2)])] (Some (JString "band")) (Some (JDict []))).
Proof. vm_compute. reflexivity. Qed.
Example ex_type : class_of "MonthlyProfile" = Some MonthlyProfile /\ class_of "monthlyprofilePARAMETER" = Some MonthlyProfile /\ class_of "monthly" = None
  /\ class_of "AnnualLicense" = Some AnnualLicense.
Proof. vm_compute. easy. Qed.
