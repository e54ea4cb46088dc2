(** The methods `load` of recorders read what the tables say. *)
From Coq Require Import Strings.Ascii Strings.String.
From Verif Require Import Base NodeLoad_proofs Documents_proofs Documents_model DataLoad_proofs DataLoad_model
  ParamLoad_model ParamLoad_spec ParamLoad_proofs ParamLoad_classes RecLoad_model RecLoad_spec RecLoad_proofs.
Local Open Scope string_scope.
Local Open Scope nat_scope.
Local Open Scope list_scope.

Definition loud (c : class) : bool := match checked c with [] => match c with RollingMean => false | _ => true end | _ => false end.
Lemma hush_loud c d : loud c = true -> hush c d = d.
Proof.
  intros H. unfold hush. transitivity (filter (fun _ => true) d).
  - apply filter_ext. intros [k j]. unfold loud in H. unfold quiet. destruct (checked c) eqn:E; [|discriminate]. destruct c; try discriminate H; reflexivity.
  - induction d as [|x d IH]; cbn; [easy|]. unfold dict in *. now rewrite IH.
Qed.
Definition quiet_node (c : class) : bool := match c with OfParameter | ArrayParameter | ArrayDaily | TotalParameter | MeanParameter => true | _ => false end.
Lemma hush_node c d : quiet_node c = true -> hush c d = pop "node" d.
Proof.
  intros H. unfold hush, pop. apply filter_ext. intros [k j]. cbn [fst]. f_equal.
  destruct c; try discriminate H; unfold quiet; cbn [checked map fst existsb]; rewrite !orb_false_r; reflexivity.
Qed.
Lemma hush_deviation d : hush DurationDeviation d = pop "scenario" d.
Proof.
  unfold hush, pop. apply filter_ext. intros [k j]. cbn [fst]. f_equal. unfold quiet; cbn [checked map fst existsb]; rewrite !orb_false_r; reflexivity.
Qed.
Lemma filter_nothing {A} (p q : A -> bool) l : (forall x, q x = true -> p x = false) -> filter p (filter q l) = [].
Proof. intros H. induction l as [|x l IH]; cbn; [easy|]. destruct (q x) eqn:E; [cbn; now rewrite (H x E) | easy]. Qed.
Lemma hush_rolling d : hush RollingMean (pop_all ["node"; "timesteps"; "days"; "name"] d) = [].
Proof.
  rewrite pop_all_filter. unfold hush. apply filter_nothing. intros [k j]. unfold quiet. cbn [fst checked map]. intros H. rewrite H. now rewrite orb_true_r.
Qed.
Lemma call_lacks c g f : In f (formals c) -> get (f_name f) g = None -> f_required f = true -> call_with c g = None.
Proof. intros H1 H2 H3. unfold call_with. rewrite (bound_lacks _ _ _ H1 H2 H3). destruct (_ && _); easy. Qed.
Lemma call_unfit c g f o : In f (formals c) -> get (f_name f) g = Some o -> fit (f_type f) o = None -> call_with c g = None.
Proof. intros H1 H2 H3. unfold call_with. rewrite (bound_fits _ _ _ _ H1 H2 H3). destruct (_ && _); easy. Qed.

Section World.
Variable named : string -> option obj.
Variable made : dict json -> option obj.
Variable missing : dict json -> bool.
Variable rec_named : string -> option nat.
Variable rec_made : dict json -> option nat.
Variable node : string -> option sort.
Variable scenario : string -> bool.
Variable path : option string.
Variable file : dict json -> option (array * dict json).
Local Notation load := (load named made missing rec_named rec_made node scenario path file).
Local Notation interp := (interp named made missing rec_named rec_made node scenario path file).

Ltac simp :=
  cbv [present]; cbn [checked forallb run pick a_keys a_need a_name entry entry_or needs lets map reads fst snd app option_map negb andb orb or_none find_scenario].
Ltac gets d :=
  repeat match goal with
  | |- context [get ?k (pop ?k ?d')] => rewrite (get_pop_same k d')
  | |- context [get ?k (pop ?k' ?d')] => rewrite (get_pop_other k k' d') by discriminate
  | H : get ?k d = _ |- context [get ?k d] => rewrite H
  | H : load_parameter named made ?j = _ |- context [load_parameter named made ?j] => rewrite H
  | H : load_list named made ?j = _ |- context [load_list named made ?j] => rewrite H
  | H : load_tracked named made ?j = _ |- context [load_tracked named made ?j] => rewrite H
  | H : load_threshold named made missing rec_named rec_made ?j = _ |- context [load_threshold named made missing rec_named rec_made ?j] => rewrite H
  | H : load_recorder rec_named rec_made ?j = _ |- context [load_recorder rec_named rec_made ?j] => rewrite H
  | H : load_recorders rec_named rec_made ?j = _ |- context [load_recorders rec_named rec_made ?j] => rewrite H
  | |- context [load_tracked named made None] => change (load_tracked named made None) with (Some ONone)
  | |- context [load_target file ?p None] => change (load_target file p None) with (Some ONone)
  | H : get "percentiles" d = Some ?p |- context [read_target file d ?j] => rewrite (read_target_some file d p j H)
  | H : load_target file ?p ?j = _ |- context [load_target file ?p ?j] => rewrite H
  | H : find_node node ?j = _ |- context [find_node node ?j] => rewrite H
  | H : find_nodes node ?j = _ |- context [find_nodes node ?j] => rewrite H
  | H : to_int ?j = _ |- context [to_int ?j] => rewrite H
  | H : to_path path ?j = _ |- context [to_path path ?j] => rewrite H
  | H : find_scenario scenario ?j = _ |- context [find_scenario scenario ?j] => rewrite H
  end.
Ltac finish d :=
  try reflexivity; try discriminate;
  try (match goal with |- context [hush RollingMean ?r] =>
         replace r with (pop_all ["node"; "timesteps"; "days"; "name"] d) by (symmetry; change (pop_all ["node"; "timesteps"; "days"; "name"] d) with
           (pop "name" (pop "days" (pop "timesteps" (pop "node" d)))); pops d); rewrite (hush_rolling d) end);
  rewrite ?fst_pair; rewrite ?hush_loud by reflexivity; rewrite ?hush_node by reflexivity; rewrite ?hush_deviation;
  cbn [formals base on_node on_storage on_parameter on_index tables_rest plain must may f_name map app combine raw or_none];
  change (map (fun kv : string * json => (fst kv, raw (snd kv)))) with raws;
  try (apply f_equal; repeat match goal with |- ?x :: _ = ?x :: _ => apply f_equal end; try reflexivity; apply f_equal; pops d);
  try (lazymatch goal with
       | |- call_with _ (raws d) = None => first
           [ apply call_lacks with (f := must "node" TAny); [cbn; tauto | cbn [f_name must]; rewrite get_raws; gets d; reflexivity | reflexivity]
           | apply call_lacks with (f := must "node" TStore); [cbn; tauto | cbn [f_name must]; rewrite get_raws; gets d; reflexivity | reflexivity] ]
       end).
Ltac go d :=
  simp; gets d; simp;
  lazymatch goal with
  | |- context [get ?k (pop ?k2 ?d2)] => go d
  | |- context [if scenario ?s then _ else _] => destruct (scenario s) eqn:?; go d
  | |- context [match ?j with JNull => _ | JNumber _ => _ | JString _ => _ | JList _ => _ | JDict _ => _ end] => destruct j eqn:?; go d
  | |- context [match get ?k d with _ => _ end] => destruct (get k d) eqn:?; go d
  | |- context [get ?k d] => destruct (get k d) eqn:?; go d
  | |- context [load_parameter named made ?j] => destruct (load_parameter named made j) eqn:?; go d
  | |- context [load_list named made ?j] => destruct (load_list named made j) eqn:?; go d
  | |- context [load_tracked named made ?j] => destruct (load_tracked named made j) eqn:?; go d
  | |- context [load_threshold named made missing rec_named rec_made ?j] => destruct (load_threshold named made missing rec_named rec_made j) eqn:?; go d
  | |- context [load_recorder rec_named rec_made ?j] => destruct (load_recorder rec_named rec_made j) eqn:?; go d
  | |- context [load_recorders rec_named rec_made ?j] => destruct (load_recorders rec_named rec_made j) eqn:?; go d
  | |- context [load_target file ?p (Some ?j)] => destruct (load_target file p (Some j)) eqn:?; go d
  | |- context [find_node node ?j] => destruct (find_node node j) eqn:?; go d
  | |- context [find_nodes node ?j] => destruct (find_nodes node j) eqn:?; go d
  | |- context [to_int ?j] => destruct (to_int j) eqn:?; go d
  | |- context [to_path path ?j] => destruct (to_path path j) eqn:?; go d
  | |- context [find_scenario scenario ?j] => destruct (find_scenario scenario j) eqn:?; go d
  | |- _ => finish d
  end.
Ltac start d :=
  let Hn := fresh in intros d Hn;
  lazymatch goal with |- _ = interp ?c _ d =>
    let p := eval vm_compute in (popped c (table c)) in
    unfold RecLoad_proofs.interp, checked_ok; replace (popped c (table c)) with p by (vm_compute; reflexivity)
  end.
Ltac open := unfold RecLoad_model.load, load_rest; cbv [bind ret lift req opt has call par pars nod optional opt_scenario present
  load_base load_aggregated load_of_parameter load_of_index load_deviation load_normalised load_window load_rolling_mean load_annual_count load_annual_total load_turbine
  load_file load_event load_of_events].
Definition reads_table (c : class) : Prop := forall d, NoDup (map fst d) -> load c d = interp c (table c) d.

Lemma r_base c : match c with OfNode | OfStorage | ArrayNode | ArrayDeficit | ArraySupplied | ArrayCurtailment | ArrayCost | FlowDuration | SeasonalDuration | ArrayStorage
  | StorageDuration | ArrayLevel | ArrayArea | TotalDeficit | TotalFlow | MeanFlow | DeficitFrequency | ConstantStorage | MinimumVolume | MinimumThreshold
  | Kde => True | _ => False end -> reads_table c.
Proof. intros Hc. destruct c; try (destruct Hc; fail); clear Hc; unfold reads_table; start d; open; go d. Qed.
Lemma r_parameter c : quiet_node c = true -> reads_table c.
Proof. intros Hc. destruct c; try discriminate Hc; clear Hc; unfold reads_table; start d; open; go d. Qed.
Lemma r_index c : match c with OfIndex | ArrayIndex | CountIndex | AnnualCountIndex => True | _ => False end -> reads_table c.
Proof. intros Hc. destruct c; try (destruct Hc; fail); clear Hc; unfold reads_table; start d; open; go d. Qed.
Lemma r_others c : match c with Aggregated | RollingWindow | AnnualCountThreshold | AnnualTotal | Hydropower | HydroEnergy | Csv | Tables | Tables2
  | EventDuration | EventStatistic | ArrayNormalised | NormalisedKde => True | _ => False end -> reads_table c.
Proof. intros Hc. destruct c; try (destruct Hc; fail); clear Hc; unfold reads_table; start d; open; go d. Qed.
Lemma r_event : reads_table Event.
Proof. unfold reads_table; start d; open; go d. Qed.
Lemma r_deviation : reads_table DurationDeviation.
Proof.
  unfold reads_table; start d; open. simp.
  destruct (get "node" d) as [jn|] eqn:En; [|go d]. destruct (find_node node jn) as [n|] eqn:Efn; [|go d].
  destruct (get "percentiles" d) as [p|] eqn:Ep; [|go d]. go d.
Qed.
Lemma r_rolling : reads_table RollingMean.
Proof. unfold reads_table; start d; open; cbv [call_only]; go d. Qed.
Lemma load_interp c : reads_table c.
Proof. destruct c; first [apply r_base; exact I | apply r_parameter; reflexivity | apply r_index; exact I | apply r_others; exact I | apply r_event | apply r_deviation | apply r_rolling]. Qed.
End World.
