(** C114: documents of recorders. *)
From Coq Require Import Strings.Ascii Strings.String.
From Verif Require Import Base NodeLoad_proofs Documents_proofs Documents_model DataLoad_proofs DataLoad_props DataLoad_model
  ParamLoad_model ParamLoad_spec ParamLoad_proofs ParamLoad_classes RecLoad_model RecLoad_spec RecLoad_proofs RecLoad_classes.
Local Open Scope string_scope.
Local Open Scope nat_scope.
Local Open Scope list_scope.

Section World.
Variable named : string -> option obj.
Variable made : dict json -> option obj.
Variable missing : dict json -> bool.
Variable rec_named : string -> option nat.
Variable rec_made : dict json -> option nat.
Variable node : string -> option sort.
Variable scenario : string -> bool.
Variable path : option string.
Variable file : dict json -> option (array * dict json).
Local Notation load := (RecLoad_model.load named made missing rec_named rec_made node scenario path file).
Local Notation load_entry := (RecLoad_model.load_entry named made missing rec_named rec_made node scenario path file).
Local Notation document_of := (RecLoad_spec.document_of named made missing rec_named rec_made node scenario path file).
Local Notation means := (RecLoad_spec.means named made missing rec_named rec_made node scenario path file).

(** ** A document is loaded exactly if it is one of its class, and the class gets the arguments it says. *)
Theorem C114_load c d b : NoDup (map fst d) ->
  document_of c d b <-> exists args, load c d = Some args /\ forall n, get n args = b n.
Proof.
  intros Hnd. rewrite (load_interp named made missing rec_named rec_made node scenario path file c d Hnd). split.
  - apply (document_interp named made missing rec_named rec_made node scenario path file c (table c) eq_refl d b Hnd).
  - intros (args & H & Hb).
    pose proof (interp_document named made missing rec_named rec_made node scenario path file c (table c) eq_refl d args Hnd H) as (Ha & Hc & Hk & Hn & Ht).
    split; [|split; [exact Hc|split; [exact Hk|split; [|exact Ht]]]].
    + intros f Hf. destruct (Ha f Hf) as [(k & kd & j & o & H1 & H2 & H3)|[H1 H2]].
      * left. exists k, kd, j, o. rewrite <- Hb. easy.
      * right. split; [easy|]. destruct (a_need f); [easy|rewrite <- Hb; easy..].
    + intros n Hbn. apply Hn. rewrite Hb. exact Hbn.
Qed.

(** What a document says is determined by it. *)
Theorem C114_one_meaning c d b b' : document_of c d b -> document_of c d b' -> forall n, b n = b' n.
Proof. apply (document_functional named made missing rec_named rec_made node scenario path file c (table c) eq_refl). Qed.

(** ** Every entry of a document that is loaded is where an argument comes from, unless it has no effect. *)
Theorem C114_no_entry_lost c d args k j : NoDup (map fst d) -> load c d = Some args -> get k d = Some j ->
  without_effect c k
  \/ exists f kd o, In f (table c) /\ comes_from d f k kd j /\ means d kd j o /\ get (a_name f) args = Some o.
Proof.
  intros Hnd Hl Hk. assert (Hd : document_of c d (fun n => get n args)) by (apply C114_load; eauto).
  destruct Hd as (Ha & _ & He & _). destruct (He k j Hk) as [(f & kd & Hf & Hc)|Hw]; [right|now left].
  destruct (Ha f Hf) as [(k' & kd' & j' & o & H1 & H2 & H3)|[H1 _]].
  - destruct (comes_from_functional named made missing rec_named rec_made node scenario path file c (table c) eq_refl d f k kd j k' kd' j' Hf Hc H1) as (<- & <- & <-). exists f, kd, o. easy.
  - exfalso. destruct (comes_from_in _ _ _ _ _ Hc) as [Hi Hg]. rewrite (H1 k kd Hi) in Hg. discriminate.
Qed.
(** What none of the classes but one lets pass: an entry that is not in the table. *)
Theorem C114_unknown_refused c d k : NoDup (map fst d) -> c <> RollingMean -> get k d <> None ->
  ~ In k (map fst (checked c)) -> (forall f kd, In f (table c) -> ~ In (k, kd) (a_keys f)) -> load c d = None.
Proof.
  intros Hnd Hc Hk Hch Ht. destruct (load c d) as [args|] eqn:E; [|easy]. exfalso. destruct (get k d) as [j|] eqn:Ek; [|easy].
  destruct (C114_no_entry_lost c d args k j Hnd E Ek) as [[Hw|[Hw _]]|(f & kd & o & Hf & Hcf & _)]; [contradiction|contradiction|].
  apply (Ht f kd Hf). apply (comes_from_in _ _ _ _ _ Hcf).
Qed.

(** ** Entries of the section "recorders" and inner documents: the class is that of the type, and everything else, the name included, are its arguments. *)
Theorem C114_entry d c args : NoDup (map fst d) -> load_entry d = Some (c, args) ->
  (exists typ, get "type" d = Some (JString typ) /\ class_of typ = Some c) /\ document_of c (pop "type" d) (fun n => get n args).
Proof.
  intros Hnd H. unfold RecLoad_model.load_entry in H. destruct (get "type" d) as [[| |typ| |]|] eqn:Et; try discriminate.
  destruct (class_of typ) as [c'|] eqn:Ec; [|discriminate]. destruct (load c' (pop "type" d)) as [b|] eqn:El; [|discriminate].
  assert (c' = c) by (cbn in H; congruence). assert (b = args) by (cbn in H; congruence). subst c' b.
  split; [eauto|]. apply C114_load; [now apply NoDup_pop | eauto].
Qed.
Theorem C114_entry_loads d typ c b : NoDup (map fst d) -> get "type" d = Some (JString typ) -> class_of typ = Some c -> document_of c (pop "type" d) b ->
  exists args, load_entry d = Some (c, args) /\ forall n, get n args = b n.
Proof.
  intros Hnd Et Ec Hd. apply C114_load in Hd; [|now apply NoDup_pop]. destruct Hd as (args & Hl & Hb).
  unfold RecLoad_model.load_entry. rewrite Et, Ec, Hl. cbn. eauto.
Qed.
Theorem C114_entry_refused d : NoDup (map fst d) ->
  (forall typ c b, get "type" d = Some (JString typ) -> class_of typ = Some c -> ~ document_of c (pop "type" d) b) -> load_entry d = None.
Proof.
  intros Hnd H. destruct (load_entry d) as [[c args]|] eqn:E; [|easy]. exfalso. destruct (C114_entry d c args Hnd E) as ((typ & H1 & H2) & H3).
  exact (H typ _ _ H1 H2 H3).
Qed.
End World.
Print Assumptions C114_load.
Print Assumptions C114_one_meaning.
Print Assumptions C114_no_entry_lost.
Print Assumptions C114_unknown_refused.
Print Assumptions C114_entry.
Print Assumptions C114_entry_loads.
Print Assumptions C114_entry_refused.

(** ** The type is the name of the class in any case of letters, with or without "recorder" at its end. *)
Lemma app_assoc_s a b c : (a ++ (b ++ c) = (a ++ b) ++ c)%string.
Proof. induction a as [|x a IH]; cbn; [easy | now rewrite IH]. Qed.
Lemma app_nil_s a : (a ++ "" = a)%string.
Proof. induction a as [|x a IH]; cbn; [easy | now rewrite IH]. Qed.
Lemma length_app_s s t : String.length (s ++ t)%string = String.length s + String.length t.
Proof. induction s as [|c s IH]; cbn; [easy | now rewrite IH]. Qed.
Lemma prefix_app w : forall s, prefix w s = true -> exists t, s = (w ++ t)%string.
Proof.
  induction w as [|x w IH]; intros s H; [now exists s|]. destruct s as [|y s]; [discriminate H|]. cbn in H. destruct (ascii_dec x y) as [->|]; [|discriminate].
  destruct (IH s H) as [t ->]. now exists t.
Qed.
(** The word is found at most at the end. *)
Definition once (key : string) : Prop := forall a b, key = (a ++ "recorder" ++ b)%string -> b = "".
Lemma without_end a : once (a ++ "recorder")%string -> without "recorder" 0 (a ++ "recorder")%string = a.
Proof.
  induction a as [|x a IH]; intros H; [reflexivity|]. cbn [append].
  assert (E : prefix "recorder" (String x (a ++ "recorder")) = false).
  { destruct (prefix "recorder" (String x (a ++ "recorder"))) eqn:E; [|easy]. exfalso. apply prefix_app in E. destruct E as [t E].
    assert (t = "") by (apply (H "" t); exact E). subst t. apply (f_equal String.length) in E. cbn in E. rewrite length_app_s in E. cbn in E. lia. }
  cbn [without]. rewrite E. rewrite IH; [easy|]. intros p q Hp. apply (H (String x p) q). cbn [append]. now rewrite Hp.
Qed.
Lemma registry_names : NoDup (map fst registry).
Proof. apply nodupb_spec. vm_compute. reflexivity. Qed.
Lemma registered_word n c : In (n, c) registry -> exists a b, n = (a ++ "recorder" ++ b)%string.
Proof.
  intros Hin. assert (Hall : forallb (fun nc => ends_with "recorder" (fst nc) || ends_with "recorder2" (fst nc)) registry = true) by (vm_compute; reflexivity).
  rewrite forallb_forall in Hall. specialize (Hall _ Hin). cbn [fst] in Hall. apply orb_true_iff in Hall.
  destruct Hall as [H|H]; apply ends_with_app in H; destruct H as [a ->]; exists a; [exists "" | exists "2"]; reflexivity.
Qed.
Lemma registered_once n c : In (n, c) registry ->
  forall key, n = (key ++ "recorder")%string -> get key registry = None /\ ends_with "recorder" key = false.
Proof.
  intros Hin key E.
  assert (Hk : key = substring 0 (String.length n - 8) n).
  { subst n. rewrite length_app_s. cbn [String.length]. replace (String.length key + 8 - 8) with (String.length key) by lia.
    clear. induction key as [|x s IH]; [reflexivity | cbn; now rewrite <- IH]. }
  assert (Hall : forallb (fun nc => let key := substring 0 (String.length (fst nc) - 8) (fst nc) in
                            negb (String.eqb (fst nc) (key ++ "recorder")) || (match get key registry with None => true | Some _ => false end && negb (ends_with "recorder" key))) registry = true)
    by (vm_compute; reflexivity).
  rewrite forallb_forall in Hall. specialize (Hall _ Hin). cbn [fst] in Hall. cbv zeta in Hall. rewrite <- Hk in Hall. rewrite E in Hall. rewrite String.eqb_refl in Hall. cbn [negb orb] in Hall.
  apply andb_true_iff in Hall. destruct Hall as [H1 H2]. split; [destruct (get key registry); easy | now apply negb_true_iff].
Qed.
Lemma class_registered typ n c : In (n, c) registry -> n = lower typ \/ n = (lower typ ++ "recorder")%string -> class_of typ = Some c.
Proof.
  intros Hin [->| E]; unfold class_of.
  - now rewrite (get_of_pair _ _ _ registry_names Hin).
  - destruct (registered_once n c Hin (lower typ) E) as [-> ->]. rewrite <- E. apply (get_of_pair _ _ _ registry_names Hin).
Qed.
Theorem C114_type typ c : once (lower typ) ->
  class_of typ = Some c <-> exists n, In (n, c) registry /\ (n = lower typ \/ n = (lower typ ++ "recorder")%string).
Proof.
  intros Ho. split; [|intros (n & Hin & Hn); now apply (class_registered typ n)].
  unfold class_of. destruct (get (lower typ) registry) as [c'|] eqn:E.
  - intros H. assert (c' = c) by congruence. subst c'. exists (lower typ). split; [now apply get_in_pair | now left].
  - destruct (ends_with "recorder" (lower typ)) eqn:Ee.
    + intros H. exfalso. apply ends_with_app in Ee. destruct Ee as [a Ea]. rewrite Ea in Ho, H. rewrite (without_end a Ho) in H.
      apply get_in_pair in H. destruct (registered_word _ _ H) as (p & q & ->).
      assert (Hq : (q ++ "recorder")%string = "") by (apply (Ho p); now rewrite <- !app_assoc_s).
      apply (f_equal String.length) in Hq. rewrite length_app_s in Hq. cbn in Hq. lia.
    + intros H. exists (lower typ ++ "recorder")%string. split; [now apply get_in_pair | now right].
Qed.
Print Assumptions C114_type.
(** Both ways of writing the type of each class but one. *)
Theorem C114_both_types n c a : In (n, c) registry -> n = (a ++ "recorder")%string -> forall typ, lower typ = n \/ lower typ = a -> class_of typ = Some c.
Proof. intros Hin E typ [H|H]; apply (class_registered typ n c Hin); [left; now symmetry | right; now rewrite H]. Qed.
Print Assumptions C114_both_types.
Theorem C114_short_type_refuted : exists long short, class_of long = Some Tables2 /\ class_of short = None
  /\ (forall c, c <> Tables2 -> exists a, In ((a ++ "recorder")%string, c) registry) /\ long = (substring 0 6 short ++ "recorder" ++ substring 6 1 short)%string.
Proof.
  exists "tablesrecorder2", "tables2". split; [reflexivity|]. split; [reflexivity|]. split; [|reflexivity].
  intros c Hc. assert (Hall : forallb (fun nc => match snd nc with Tables2 => true | _ => ends_with "recorder" (fst nc) end) registry = true) by (vm_compute; reflexivity).
  rewrite forallb_forall in Hall. assert (Hin : exists n, In (n, c) registry).
  { assert (In c (map snd registry)) as H by (destruct c; vm_compute; tauto). apply in_map_iff in H. destruct H as ([n c'] & <- & H). eauto. }
  destruct Hin as [n Hin]. specialize (Hall _ Hin). cbn [fst snd] in Hall. assert (He : ends_with "recorder" n = true) by (destruct c; easy).
  apply ends_with_app in He. destruct He as [a ->]. eauto.
Qed.
Print Assumptions C114_short_type_refuted.
(** The second look-up takes the word out where it ought to look for something else. *)
Theorem C114_odd_type_refuted : exists typ, class_of typ = Some Aggregated /\ ~ exists n, In (n, Aggregated) registry /\ (n = lower typ \/ n = (lower typ ++ "recorder")%string).
Proof.
  exists "AggregatedRecRecorderOrderRecorder". split; [vm_compute; reflexivity|]. intros (n & Hin & Hn).
  assert (Hall : forallb (fun nc => negb (String.eqb (fst nc) (lower "AggregatedRecRecorderOrderRecorder") || String.eqb (fst nc) (lower "AggregatedRecRecorderOrderRecorder" ++ "recorder"))) registry = true)
    by (vm_compute; reflexivity).
  rewrite forallb_forall in Hall. specialize (Hall _ Hin). cbn [fst] in Hall. destruct Hn as [Hn|Hn]; rewrite <- Hn, String.eqb_refl in Hall; [|rewrite orb_true_r in Hall]; discriminate.
Qed.
Print Assumptions C114_odd_type_refuted.

(** * A world to try documents in *)

Definition a_named (s : string) : option obj := if String.eqb s "p" then Some (OPar 1 false) else if String.eqb s "i" then Some (OPar 2 true) else None.
Definition a_made (d : dict json) : option obj := match get "type" d with Some (JString "constant") => Some (OPar 3 false) | _ => None end.
Definition a_missing (d : dict json) : bool := match get "type" d with Some _ => true | None => false end.
Definition a_rec_named (s : string) : option nat := if String.eqb s "r" then Some 1 else if String.eqb s "p" then Some 2 else None.
Definition a_rec_made (d : dict json) : option nat := match get "type" d with Some (JString "event") => Some 3 | _ => None end.
Definition a_nodes (s : string) : option sort :=
  if String.eqb s "river" then Some Flowing else if String.eqb s "reservoir" then Some Storing else if String.eqb s "group" then Some Other else None.
Definition a_scenarios (s : string) : bool := String.eqb s "climate".
Definition a_file (d : dict json) : option (array * dict json) := Some (Array [2] [1; 2]%Q, pop_all ["url"; "table"; "column"] d).
Notation load' := (RecLoad_model.load a_named a_made a_missing a_rec_named a_rec_made a_nodes a_scenarios (Some "/models") a_file).
Notation load_entry' := (RecLoad_model.load_entry a_named a_made a_missing a_rec_named a_rec_made a_nodes a_scenarios (Some "/models") a_file).

Definition sample (kd : kind) : json :=
  match kd with
  | KRaw => JNumber 5
  | KText => JString "x"
  | KInt => JNumber 5
  | KPath => JString "out.h5"
  | KNode => JString "river"
  | KStorage => JString "reservoir"
  | KNodes => JList [JString "river"; JString "reservoir"]
  | KScenarioNull => JString "climate"
  | KRecorder => JString "r"
  | KRecorders => JList [JString "r"; JString "p"]
  | KPar | KParOnly | KObserved | KTracked => JString "p"
  | KParIndex => JString "i"
  | KParsLoose => JList [JString "p"; JString "i"]
  | KTarget => JList [JNumber 1; JNumber 2]
  end.
Definition sample_document (c : class) : dict json :=
  flat_map (fun f => match a_need f, a_keys f with Required, (k, kd) :: _ => [(k, sample kd)] | _, _ => [] end) (table c)
  ++ match c with
     | Aggregated => [("agg_func", JString "mean")]
     | DurationDeviation => [("upper_target_fdc", sample KTarget)]
     | RollingMean => [("days", JNumber 5)]
     | _ => []
     end.
(** All classes have documents that are loaded. *)
Theorem C114_loadable c : exists args, load' c (sample_document c) = Some args /\ NoDup (map fst (sample_document c)).
Proof. destruct c; (eexists; split; [vm_compute; reflexivity | apply nodupb_spec; vm_compute; reflexivity]). Qed.
Print Assumptions C114_loadable.

(** * What one might expect of documents and is not so *)

(** A rolling mean takes neither the function for the scenarios nor whether it is an objective, nor does it refuse a misspelt entry. *)
Theorem C114_rolling_mean_refuted : exists d args, get "agg_func" d = Some (JString "max") /\ get "is_objective" d = Some (JString "minimise") /\ get "timestep" d = Some (JNumber 3)
  /\ load' RollingMean d = Some args /\ get "agg_func" args = None /\ get "is_objective" args = None
  /\ load' RollingMean (pop_all ["agg_func"; "is_objective"; "timestep"] d) = Some args.
Proof.
  exists [("node", JString "river"); ("days", JNumber 5); ("agg_func", JString "max"); ("is_objective", JString "minimise"); ("timestep", JNumber 3)].
  eexists. repeat (split; [vm_compute; reflexivity|]). vm_compute. reflexivity.
Qed.
Print Assumptions C114_rolling_mean_refuted.
(** The scenario of a deviation of flow duration curves has to be there and is never used. *)
Theorem C114_scenario_refuted : exists d args, get "scenario" d = Some (JString "climate")
  /\ load' DurationDeviation d = Some args /\ load' DurationDeviation (pop "scenario" d) = Some args /\ load' DurationDeviation (put "scenario" (JString "x") d) = None.
Proof.
  exists [("node", JString "river"); ("percentiles", JList [JNumber 50]); ("lower_target_fdc", JList [JNumber 1]); ("scenario", JString "climate")].
  eexists. repeat (split; [vm_compute; reflexivity|]). vm_compute. reflexivity.
Qed.
Print Assumptions C114_scenario_refuted.
(** So for the node of a recorder of a parameter. *)
Theorem C114_node_refuted : exists d args, get "node" d = Some (JString "river")
  /\ load' MeanParameter d = Some args /\ load' MeanParameter (pop "node" d) = Some args /\ load' MeanParameter (put "node" (JString "x") d) = None.
Proof. exists [("parameter", JString "p"); ("node", JString "river")]. eexists. repeat (split; [vm_compute; reflexivity|]). vm_compute. reflexivity. Qed.
Print Assumptions C114_node_refuted.
(** The functions of an aggregated recorder have no default that works, whereas those of all other classes have. *)
Theorem C114_aggregated_default_refuted : exists d, load' Aggregated d = None /\ load' Aggregated (put "agg_func" (JString "mean") d) <> None.
Proof. exists [("recorders", JList [JString "r"])]. split; vm_compute; [reflexivity | discriminate]. Qed.
Print Assumptions C114_aggregated_default_refuted.
(** The options of the writer of a CSVRecorder are refused. *)
Theorem C114_csv_options_refuted : exists d, load' Csv d = None /\ get "csv_kwargs" d <> None /\ load' Csv (pop "csv_kwargs" d) <> None.
Proof.
  exists [("url", JString "out.csv"); ("csv_kwargs", JDict [("delimiter", JString ";")])]. split; [vm_compute; reflexivity|]. split; vm_compute; discriminate.
Qed.
Print Assumptions C114_csv_options_refuted.
(** A recorder by the name of a parameter is not what an EventRecorder observes. *)
Theorem C114_observed_refuted : exists d args, a_rec_named "p" = Some 2 /\ get "threshold" d = Some (JString "p") /\ load' Event d = Some args /\ get "threshold" args = Some (OPar 1 false).
Proof. exists [("threshold", JString "p")]. eexists. repeat (split; [vm_compute; reflexivity|]). vm_compute. reflexivity. Qed.
Print Assumptions C114_observed_refuted.
(** The names of arguments are not always those of entries: the parameter is "param" in the constructors of all but one class of those that read "parameter" by
    IndexParameterRecorder.load, and a file is never "h5file" in documents. *)
Theorem C114_argument_names_refuted : exists d d', load' ArrayParameter d = None /\ In ("param", JString "p") d /\ load' ArrayParameter d' <> None /\ In ("parameter", JString "p") d'
  /\ load' Tables [("h5file", JString "out.h5")] = None.
Proof.
  exists [("param", JString "p")], [("parameter", JString "p")]. split; [vm_compute; reflexivity|]. split; [cbn; tauto|]. split; [vm_compute; discriminate|]. split; [cbn; tauto | vm_compute; reflexivity].
Qed.
Print Assumptions C114_argument_names_refuted.

(** * Examples *)

Example ex_load : load' DurationDeviation [("node", JString "river"); ("percentiles", JList [JNumber 20; JNumber 80]); ("lower_target_fdc", JDict [("url", JString "a.csv")]);
                                           ("upper_target_fdc", JList [JNumber 3; JNumber 4]); ("agg_func", JString "mean")]
  = Some [("node", ONode "river" Flowing); ("percentiles", ORaw (JList [JNumber 20; JNumber 80])); ("lower_target_fdc", OVal (Array [2] [1; 2]%Q));
          ("upper_target_fdc", ORaw (JList [JNumber 3; JNumber 4])); ("agg_func", ORaw (JString "mean"))].
Proof. vm_compute. reflexivity. Qed.
Example ex_no_target : load' DurationDeviation [("node", JString "river"); ("percentiles", JList [JNumber 20])] = None.
Proof. vm_compute. reflexivity. Qed.
Example ex_two_functions : load' FlowDuration [("node", JString "river"); ("percentiles", JList [JNumber 20]); ("fdc_agg_func", JString "mean"); ("temporal_agg_func", JString "max")] = None.
Proof. vm_compute. reflexivity. Qed.
Example ex_document : RecLoad_spec.document_of a_named a_made a_missing a_rec_named a_rec_made a_nodes a_scenarios None a_file TotalFlow
  [("node", JString "river"); ("factor", JNumber 3)]
  (fun n => if String.eqb n "node" then Some (ONode "river" Flowing) else if String.eqb n "factor" then Some (ORaw (JNumber 3)) else None).
Proof.
  apply C114_load; [apply nodupb_spec; reflexivity|]. eexists. split; [vm_compute; reflexivity|].
  intros n. cbn [get]. rewrite (String.eqb_sym "node" n), (String.eqb_sym "factor" n). reflexivity.
Qed.
Example ex_misspelt : load' TotalFlow [("node", JString "river"); ("factro", JNumber 3)] = None.
Proof. vm_compute. reflexivity. Qed.
Example ex_whole : load' RollingWindow [("parameter", JString "p"); ("window", JNumber (7 # 2))]
  = Some [("param", OPar 1 false); ("window", ORaw (JNumber 3))].
Proof. vm_compute. reflexivity. Qed.
Example ex_file : load' Tables2 [("url", JString "out.h5"); ("routes", JString "/routes")]
  = Some [("h5file", ORaw (JString "/models/out.h5")); ("routes", ORaw (JString "/routes"))].
Proof. vm_compute. reflexivity. Qed.
Example ex_inner : load' EventDuration [("event_recorder", JDict [("type", JString "event")]); ("recorder_agg_func", JString "max")]
  = Some [("event_recorder", ORec 3); ("recorder_agg_func", ORaw (JString "max"))].
Proof. vm_compute. reflexivity. Qed.
Example ex_event : load' Event [("threshold", JDict [("type", JString "event")]); ("minimum_event_length", JNumber 2)]
  = Some [("threshold", ORec 3); ("minimum_event_length", ORaw (JNumber 2)); ("tracked_parameter", ONone)]
  /\ load' Event [("threshold", JString "p"); ("minimum_event_length", JNumber 0)] = None /\ load' Event [("threshold", JNumber 3)] = None.
Proof. vm_compute. easy. Qed.
Example ex_entry : load_entry' [("type", JString "MinimumVolumeStorage"); ("name", JString "low"); ("node", JString "reservoir"); ("is_objective", JString "max")]
  = Some (MinimumVolume, [("node", ONode "reservoir" Storing); ("is_objective", ORaw (JString "max")); ("name", ORaw (JString "low"))])
  /\ load_entry' [("type", JString "MinimumVolumeStorage"); ("name", JString "low"); ("node", JString "river")] = None.
Proof. vm_compute. easy. Qed.
Example ex_type : class_of "CSV" = Some Csv /\ class_of "csvRECORDER" = Some Csv /\ class_of "Recorder" = None /\ class_of "csvrecorderrecorder" = None.
Proof. vm_compute. easy. Qed.
