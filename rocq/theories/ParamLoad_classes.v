(** The methods `load` read what the tables say. *)
From Coq Require Import Strings.Ascii Strings.String.
From Verif Require Import Base NodeLoad_proofs Documents_proofs Documents_model DataLoad_proofs DataLoad_model ParamLoad_model ParamLoad_spec ParamLoad_proofs.
Local Open Scope string_scope.
Local Open Scope nat_scope.
Local Open Scope list_scope.

Lemma fst_pair {A B} (o : option A) (d : B) : option_map fst (option_map (fun b => (b, d)) o) = o.
Proof. destruct o; easy. Qed.
Lemma hush_none c d : quiet_keys c = [] -> hush c d = d.
Proof.
  intros H. unfold hush, quiet. rewrite H. cbn. induction d as [|x d IH]; cbn; [easy|]. unfold dict in *. now rewrite IH.
Qed.
Lemma pop_pop_all k ks (d : dict json) : pop k (pop_all ks d) = pop_all (ks ++ [k]) d.
Proof. unfold pop_all. now rewrite fold_left_app. Qed.
Lemma pop_as_all k (d : dict json) : pop k d = pop_all [k] d.
Proof. easy. Qed.
Lemma as_all (d : dict json) : d = pop_all [] d.
Proof. easy. Qed.

Lemma call_twice c n g (d : dict json) : In n (map fst g) -> get n d <> None -> call_with c (g ++ raws d) = None.
Proof.
  intros H1 H2. destruct (call_with c (g ++ raws d)) as [b|] eqn:E; [|easy]. apply (proj1 (call_with_some _ _ _)) in E. destruct E as (E & _). exfalso.
  rewrite map_app, raws_names in E. apply (NoDup_app_disjoint _ _ E n H1). destruct (get n d) as [j|] eqn:Eg; [|contradiction]. apply get_key. eauto.
Qed.

Lemma hush_tables d : hush TablesArray d = pop "checksum" d.
Proof.
  unfold hush, pop. apply filter_ext. intros [k j]. unfold quiet. cbn [quiet_keys array_class fst snd existsb]. destruct (String.eqb_spec k "checksum") as [E|E]; [|easy].
  subst k. easy.
Qed.
Lemma hush_scenario c d : array_class c = true -> scenario_class c = true -> hush c d = pop "comment" (pop "url" d).
Proof.
  intros H1 H2. unfold hush, quiet, quiet_keys. rewrite H1, H2. change (pop "comment" (pop "url" d)) with (pop_all ["url"; "comment"] d). rewrite pop_all_filter.
  apply filter_ext. intros [k j]. cbn [fst snd app existsb].
  destruct (String.eqb_spec k "url") as [E|_]; [subst k; easy|]. destruct (String.eqb_spec k "comment") as [E|_]; [subst k; easy|]. easy.
Qed.
Lemma hush_array c d : array_class c = true -> scenario_class c = false -> NoDup (map fst d) -> get "scenario" d = None \/ get "scenario" d = Some JNull ->
  hush c d = pop "scenario" (pop "comment" (pop "url" d)).
Proof.
  intros H1 H2 Hnd H3. unfold hush, quiet, quiet_keys. rewrite H1, H2.
  change (pop "scenario" (pop "comment" (pop "url" d))) with (pop_all ["url"; "comment"; "scenario"] d). rewrite pop_all_filter.
  apply filter_ext_in. intros [k j] Hin. cbn [fst snd app existsb].
  destruct (String.eqb_spec k "url") as [E|_]; [subst k; easy|]. destruct (String.eqb_spec k "comment") as [E|_]; [subst k; easy|].
  destruct (String.eqb_spec k "scenario") as [E|_]; [|easy]. subst k. pose proof (get_of_pair _ _ _ Hnd Hin) as Hg. destruct H3 as [H3|H3]; [congruence|].
  assert (j = JNull) by congruence. now subst j.
Qed.
Lemma hush_keeps c d j : get "scenario" d = Some j -> j <> JNull -> In "scenario" (map fst (raws (hush c d))).
Proof.
  intros Hg Hj. rewrite raws_names. apply in_map_iff. exists ("scenario", j). split; [easy|]. apply filter_In. split; [now apply get_in_pair|].
  unfold quiet. cbn [fst snd]. destruct j; [contradiction|..]; now rewrite String.eqb_refl, andb_false_r.
Qed.
Lemma NoDup_pop k (d : dict json) : NoDup (map fst d) -> NoDup (map fst (pop k d)).
Proof. apply NoDup_filter_keys. Qed.

Lemma bound_fits fs g f o : In f fs -> get (f_name f) g = Some o -> fit (f_type f) o = None -> bound fs g = None.
Proof.
  intros Hin Hg Hf. induction fs as [|f' fs IH]; [easy|]. cbn [bound]. destruct Hin as [->|Hin]; [now rewrite Hg, Hf|].
  rewrite (IH Hin). destruct (get (f_name f') g); [destruct (fit (f_type f') o0); easy | destruct (f_required f'); easy].
Qed.
Lemma bound_lacks fs g f : In f fs -> get (f_name f) g = None -> f_required f = true -> bound fs g = None.
Proof.
  intros Hin Hg Hf. induction fs as [|f' fs IH]; [easy|]. cbn [bound]. destruct Hin as [->|Hin]; [now rewrite Hg, Hf|].
  rewrite (IH Hin). destruct (get (f_name f') g); [destruct (fit (f_type f') o); easy | destruct (f_required f'); easy].
Qed.
Lemma call_unfit c g f o : In f (formals c) -> get (f_name f) g = Some o -> fit (f_type f) o = None -> call_with c g = None.
Proof. intros H1 H2 H3. unfold call_with. rewrite (bound_fits _ _ _ _ H1 H2 H3). destruct (_ && _); easy. Qed.
Lemma call_lacks c g f : In f (formals c) -> get (f_name f) g = None -> f_required f = true -> call_with c g = None.
Proof. intros H1 H2 H3. unfold call_with. rewrite (bound_lacks _ _ _ H1 H2 H3). destruct (_ && _); easy. Qed.
Lemma call_unknown c n g : In n (map fst g) -> ~ In n (map f_name (formals c)) -> call_with c g = None.
Proof.
  intros H1 H2. destruct (call_with c g) as [b|] eqn:E; [|easy]. apply (proj1 (call_with_some _ _ _)) in E. destruct E as (_ & E & _). exfalso. auto.
Qed.

Ltac pops d :=
  lazymatch goal with
  | |- ?l = ?r =>
      let rec keys t := lazymatch t with
                        | d => constr:(@nil string)
                        | pop ?k ?t' => let ks := keys t' in constr:(k :: ks)
                        end in
      let a := keys l in let b := keys r in
      let a := eval cbv [rev app] in (rev a) in let b := eval cbv [rev app] in (rev b) in
      change (pop_all a d = pop_all b d); apply pops_same; intros ? ?HH; cbn [In] in *;
      repeat match goal with H : _ \/ _ |- _ => destruct H as [<-|H] | H : False |- _ => destruct H end; auto 20
  end.

Section World.
Variable named : string -> option obj.
Variable made : dict json -> option obj.
Variable recorder : json -> option obj.
Variable node : string -> option sort.
Variable scenario : string -> bool.
Variable file : dict json -> option (array * dict json).
Local Notation load := (load named made recorder node scenario file).
Local Notation interp := (interp named made recorder node scenario file).

Ltac simp :=
  cbv [present]; cbn [load_parameter find_scenario run pick a_keys a_need a_name entry entry_or curves needs lets map reads fst snd app option_map negb andb orb xorb].
Ltac gets d :=
  repeat match goal with
  | |- context [get ?k (pop ?k ?d')] => rewrite (get_pop_same k d')
  | |- context [get ?k (pop ?k' ?d')] => rewrite (get_pop_other k k' d') by discriminate
  | H : get ?k d = _ |- context [get ?k d] => rewrite H
  | H : load_parameter named made ?j = _ |- context [load_parameter named made ?j] => rewrite H
  | H : load_list named made ?j = _ |- context [load_list named made ?j] => rewrite H
  | H : load_wrapped named made ?j = _ |- context [load_wrapped named made ?j] => rewrite H
  | H : find_node node ?j = _ |- context [find_node node ?j] => rewrite H
  | H : find_nodes node ?j = _ |- context [find_nodes node ?j] => rewrite H
  | H : recorder ?j = _ |- context [recorder ?j] => rewrite H
  | H : to_number ?j = _ |- context [to_number ?j] => rewrite H
  | H : load_data file ?j = _ |- context [load_data file ?j] => rewrite H
  | H : find_scenario scenario ?j = _ |- context [find_scenario scenario ?j] => rewrite H
  | H : to_array ?j = _ |- context [to_array ?j] => rewrite H
  end.
Ltac finish d :=
  try reflexivity; try discriminate;
  try (exfalso; match goal with H : true = true -> _ |- _ => destruct (H eq_refl) as [?|[? ?]]; congruence end);
  rewrite ?fst_pair; rewrite ?hush_none by reflexivity; rewrite ?hush_tables;
  cbn [formals own_formals base plain must may threshold_rest one_array scenario_array f_name map app combine raw or_none];
  try (apply f_equal; repeat match goal with |- ?x :: _ = ?x :: _ => apply f_equal end; fold (raws d); try reflexivity;
       match goal with |- map _ ?a = raws ?b => change (raws a = raws b); apply f_equal; pops d end);
  try (change (map (fun kv : string * json => (fst kv, raw (snd kv)))) with raws;
       lazymatch goal with
       | |- call_with ?c (?a :: ?b :: ?e :: ?f :: raws ?d') = None =>
           first [ apply (call_twice c "parameters" [a; b; e; f] d'); [cbn; tauto | gets d; congruence]
                 | apply (call_twice c "values" [a; b; e; f] d'); [cbn; tauto | gets d; congruence] ]
       | |- call_with MonthlyFactors (("scenario", ONone) :: ?r) = None =>
           apply (call_unfit MonthlyFactors (("scenario", ONone) :: r) (must "scenario" TScen) ONone); [now left | easy..]
       end).
Ltac go d :=
  simp; gets d; simp;
  lazymatch goal with
  | |- context [get ?k (pop ?k2 ?d2)] => go d
  | |- context [if scenario ?s then _ else _] => destruct (scenario s) eqn:?; go d
  | |- context [match ?j with JNull => _ | JNumber _ => _ | JString _ => _ | JList _ => _ | JDict _ => _ end] => destruct j eqn:?; go d
  | |- context [match get ?k d with _ => _ end] => destruct (get k d) eqn:?; go d
  | |- context [get ?k d] => destruct (get k d) eqn:?; go d
  | |- context [load_parameter named made ?j] => destruct (load_parameter named made j) eqn:?; go d
  | |- context [load_list named made ?j] => destruct (load_list named made j) eqn:?; go d
  | |- context [load_wrapped named made ?j] => destruct (load_wrapped named made j) eqn:?; go d
  | |- context [find_node node ?j] => destruct (find_node node j) eqn:?; go d
  | |- context [find_nodes node ?j] => destruct (find_nodes node j) eqn:?; go d
  | |- context [recorder ?j] => destruct (recorder j) eqn:?; go d
  | |- context [to_number ?j] => destruct (to_number j) eqn:?; go d
  | |- context [load_data file ?j] => destruct (load_data file j) eqn:?; go d
  | |- context [find_scenario scenario ?j] => destruct (find_scenario scenario j) eqn:?; go d
  | |- context [to_array ?j] => destruct (to_array j) eqn:?; go d
  | |- _ => finish d
  end.
Ltac start fs d :=
  let H := fresh in let Hn := fresh in
  intros fs d H Hn; unfold in_itself; cbn [reads_values array_class orb];
  lazymatch type of H with table ?c = Some fs =>
    let t := eval cbv [table] in (table c) in
    lazymatch t with Some ?l => assert (E : fs = l) by (unfold table in H; congruence); subst fs; clear H;
      let p := eval vm_compute in (popped c l) in
      unfold ParamLoad_proofs.interp; replace (popped c l) with p by (vm_compute; reflexivity)
    end
  end.
Ltac open := unfold ParamLoad_model.load, load_rest; cbv [bind ret lift req opt has call par pars nod optional opt_scenario control_curves storage_node single present
  values load_constant load_tables_array load_monthly_factors load_plain load_indexed_array load_harmonic load_aggregated load_division load_of_parameter
  load_of_node load_storage load_past_flow load_curve_interpolated load_curve_piecewise load_curve_index load_curve load_weighted_average load_threshold
  load_multiple load_hydropower load_polynomial1 load_polynomial2 load_scaled load_interpolated load_interpolated_volume load_interpolated_flow load_quadrature
  load_wrapper load_licence load_base].
Definition reads_table (c : class) : Prop :=
  forall fs d, table c = Some fs -> NoDup (map fst d) -> in_itself c d -> load c d = interp c fs d.

Ltac unknown d :=
  first
  [ apply (call_unknown _ "scenario"); [now left | cbn; intuition discriminate]
  | apply (call_unknown _ "scenario");
    [cbn [map]; do 3 right; eapply hush_keeps; [gets d; reflexivity | discriminate] | cbn; intuition discriminate] ].
Ltac array_finish d :=
  change (map (fun kv : string * json => (fst kv, raw (snd kv)))) with raws;
  lazymatch goal with
  | |- call_with _ _ = None => apply call_lacks with (f := must "scenario" TScen);
      [now left | match goal with |- context [raws ?a] => change (get "scenario" (raws a) = None) end; rewrite get_raws; gets d; reflexivity | reflexivity]
  | |- None = call_with _ _ => symmetry; unknown d
  | |- call_with ?c _ = call_with ?c _ =>
      first [ rewrite hush_scenario by reflexivity; apply f_equal; repeat match goal with |- ?x :: _ = ?x :: _ => apply f_equal end; apply f_equal; pops d
            | rewrite hush_array; [apply f_equal; repeat match goal with |- ?x :: _ = ?x :: _ => apply f_equal end; apply f_equal; pops d
                                  | reflexivity | reflexivity | repeat apply NoDup_pop; assumption | gets d; auto]
            | transitivity (@None bindings); [unknown d | symmetry; unknown d] ]
  end.
Lemma r_array c : array_class c = true -> reads_table c.
Proof.
  intros Hc. destruct c; try discriminate Hc; clear Hc; unfold reads_table; start fs d; intros Hin; open; cbn [together_ok]; go d; array_finish d.
Qed.
Lemma r_Constant : reads_table Constant.
Proof. unfold reads_table. start fs d. intros Hin. open. cbn [together_ok]. go d. Qed.
Lemma r_TablesArray : reads_table TablesArray.
Proof. unfold reads_table. start fs d. intros Hin. open. cbn [together_ok]. go d. Qed.
Lemma r_MonthlyFactors : reads_table MonthlyFactors.
Proof. unfold reads_table. start fs d. intros Hin. open. cbn [together_ok]. go d. Qed.
Lemma r_UniformDrawdown : reads_table UniformDrawdown.
Proof. unfold reads_table. start fs d. intros Hin. open. cbn [together_ok]. go d. Qed.
Lemma r_RbfProfile : reads_table RbfProfile.
Proof. unfold reads_table. start fs d. intros Hin. open. cbn [together_ok]. go d. Qed.
Lemma r_IndexedArray : reads_table IndexedArray.
Proof. unfold reads_table. start fs d. intros Hin. open. cbn [together_ok]. go d. Qed.
Lemma r_AnnualHarmonic : reads_table AnnualHarmonic.
Proof. unfold reads_table. start fs d. intros Hin. open. cbn [together_ok]. go d. Qed.
Lemma r_Aggregated : reads_table Aggregated.
Proof. unfold reads_table. start fs d. intros Hin. open. cbn [together_ok]. go d. Qed.
Lemma r_AggregatedIndex : reads_table AggregatedIndex.
Proof. unfold reads_table. start fs d. intros Hin. open. cbn [together_ok]. go d. Qed.
Lemma r_Division : reads_table Division.
Proof. unfold reads_table. start fs d. intros Hin. open. cbn [together_ok]. go d. Qed.
Lemma r_Negative : reads_table Negative.
Proof. unfold reads_table. start fs d. intros Hin. open. cbn [together_ok]. go d. Qed.
Lemma r_Max : reads_table Max.
Proof. unfold reads_table. start fs d. intros Hin. open. cbn [together_ok]. go d. Qed.
Lemma r_NegativeMax : reads_table NegativeMax.
Proof. unfold reads_table. start fs d. intros Hin. open. cbn [together_ok]. go d. Qed.
Lemma r_Min : reads_table Min.
Proof. unfold reads_table. start fs d. intros Hin. open. cbn [together_ok]. go d. Qed.
Lemma r_NegativeMin : reads_table NegativeMin.
Proof. unfold reads_table. start fs d. intros Hin. open. cbn [together_ok]. go d. Qed.
Lemma r_Offset : reads_table Offset.
Proof. unfold reads_table. start fs d. intros Hin. open. cbn [together_ok]. go d. Qed.
Lemma r_Deficit : reads_table Deficit.
Proof. unfold reads_table. start fs d. intros Hin. open. cbn [together_ok]. go d. Qed.
Lemma r_Flow : reads_table Flow.
Proof. unfold reads_table. start fs d. intros Hin. open. cbn [together_ok]. go d. Qed.
Lemma r_Storage : reads_table Storage.
Proof. unfold reads_table. start fs d. intros Hin. open. cbn [together_ok]. go d. Qed.
Lemma r_PiecewiseIntegral : reads_table PiecewiseIntegral.
Proof. unfold reads_table. start fs d. intros Hin. open. cbn [together_ok]. go d. Qed.
Lemma r_FlowDelay : reads_table FlowDelay.
Proof. unfold reads_table. start fs d. intros Hin. open. cbn [together_ok]. go d. Qed.
Lemma r_DiscountFactor : reads_table DiscountFactor.
Proof. unfold reads_table. start fs d. intros Hin. open. cbn [together_ok]. go d. Qed.
Lemma r_RollingMean : reads_table RollingMean.
Proof. unfold reads_table. start fs d. intros Hin. open. cbn [together_ok]. go d. Qed.
Lemma r_CurveInterpolated : reads_table CurveInterpolated.
Proof. unfold reads_table. start fs d. intros Hin. open. cbn [together_ok]. go d. Qed.
Lemma r_CurvePiecewise : reads_table CurvePiecewise.
Proof. unfold reads_table. start fs d. intros Hin. open. cbn [together_ok]. go d. Qed.
Lemma r_CurveIndex : reads_table CurveIndex.
Proof. unfold reads_table. start fs d. intros Hin. open. cbn [together_ok]. go d. Qed.
Lemma r_Curve : reads_table Curve.
Proof. unfold reads_table. start fs d. intros Hin. open. cbn [together_ok]. go d. Qed.
Lemma r_WeightedAverage : reads_table WeightedAverage.
Proof. unfold reads_table. start fs d. intros Hin. open. cbn [together_ok]. go d. Qed.
Lemma r_StorageThreshold : reads_table StorageThreshold.
Proof. unfold reads_table. start fs d. intros Hin. open. cbn [together_ok]. go d. Qed.
Lemma r_NodeThreshold : reads_table NodeThreshold.
Proof. unfold reads_table. start fs d. intros Hin. open. cbn [together_ok]. go d. Qed.
Lemma r_MultipleThreshold : reads_table MultipleThreshold.
Proof. unfold reads_table. start fs d. intros Hin. open. cbn [together_ok]. go d. Qed.
Lemma r_MultipleThresholdParameter : reads_table MultipleThresholdParameter.
Proof. unfold reads_table. start fs d. intros Hin. open. cbn [together_ok]. go d. Qed.
Lemma r_ParameterThreshold : reads_table ParameterThreshold.
Proof. unfold reads_table. start fs d. intros Hin. open. cbn [together_ok]. go d. Qed.
Lemma r_RecorderThreshold : reads_table RecorderThreshold.
Proof. unfold reads_table. start fs d. intros Hin. open. cbn [together_ok]. go d. Qed.
Lemma r_CurrentYear : reads_table CurrentYear.
Proof. unfold reads_table. start fs d. intros Hin. open. cbn [together_ok]. go d. Qed.
Lemma r_CurrentDay : reads_table CurrentDay.
Proof. unfold reads_table. start fs d. intros Hin. open. cbn [together_ok]. go d. Qed.
Lemma r_Hydropower : reads_table Hydropower.
Proof. unfold reads_table. start fs d. intros Hin. open. cbn [together_ok]. go d. Qed.
Lemma r_Polynomial1D : reads_table Polynomial1D.
Proof. unfold reads_table. start fs d. intros Hin. open. cbn [together_ok]. go d. Qed.
Lemma r_Polynomial2D : reads_table Polynomial2D.
Proof. unfold reads_table. start fs d. intros Hin. open. cbn [together_ok]. go d. Qed.
Lemma r_BinaryStep : reads_table BinaryStep.
Proof. unfold reads_table. start fs d. intros Hin. open. cbn [together_ok]. go d. Qed.
Lemma r_Rectifier : reads_table Rectifier.
Proof. unfold reads_table. start fs d. intros Hin. open. cbn [together_ok]. go d. Qed.
Lemma r_Logistic : reads_table Logistic.
Proof. unfold reads_table. start fs d. intros Hin. open. cbn [together_ok]. go d. Qed.
Lemma r_ScaledProfile : reads_table ScaledProfile.
Proof. unfold reads_table. start fs d. intros Hin. open. cbn [together_ok]. go d. Qed.
Lemma r_Interpolated : reads_table Interpolated.
Proof. unfold reads_table. start fs d. intros Hin. open. cbn [together_ok]. go d. Qed.
Lemma r_InterpolatedVolume : reads_table InterpolatedVolume.
Proof. unfold reads_table. start fs d. intros Hin. open. cbn [together_ok]. go d. Qed.
Lemma r_InterpolatedFlow : reads_table InterpolatedFlow.
Proof. unfold reads_table. start fs d. intros Hin. open. cbn [together_ok]. go d. Qed.
Lemma r_InterpolatedQuadrature : reads_table InterpolatedQuadrature.
Proof. unfold reads_table. start fs d. intros Hin. open. cbn [together_ok]. go d. Qed.
Lemma r_ScenarioWrapper : reads_table ScenarioWrapper.
Proof. unfold reads_table. start fs d. intros Hin. open. cbn [together_ok]. go d. Qed.
Lemma r_StorageLicense : reads_table StorageLicense.
Proof. unfold reads_table. start fs d. intros Hin. open. cbn [together_ok]. go d. Qed.
Lemma r_AnnualLicense : reads_table AnnualLicense.
Proof. unfold reads_table. start fs d. intros Hin. open. cbn [together_ok]. go d. Qed.
Lemma r_AnnualExponential : reads_table AnnualExponential.
Proof. unfold reads_table. start fs d. intros Hin. open. cbn [together_ok]. go d. Qed.
Lemma r_AnnualHyperbola : reads_table AnnualHyperbola.
Proof. unfold reads_table. start fs d. intros Hin. open. cbn [together_ok]. go d. Qed.
Lemma r_OtherParameter : reads_table OtherParameter.
Proof. unfold reads_table. start fs d. intros Hin. open. cbn [together_ok]. go d. Qed.
Lemma r_OtherIndex : reads_table OtherIndex.
Proof. unfold reads_table. start fs d. intros Hin. open. cbn [together_ok]. go d. Qed.
Lemma r_OtherFlow : reads_table OtherFlow.
Proof. unfold reads_table. start fs d. intros Hin. open. cbn [together_ok]. go d. Qed.
Lemma r_OtherStorage : reads_table OtherStorage.
Proof. unfold reads_table. start fs d. intros Hin. open. cbn [together_ok]. go d. Qed.
Lemma load_interp c : reads_table c.
Proof.
  destruct (array_class c) eqn:E; [now apply r_array|].
  destruct c; try discriminate E;
    first [ intros fs d H; discriminate H
          | apply r_Constant
          | apply r_TablesArray
          | apply r_MonthlyFactors
          | apply r_UniformDrawdown
          | apply r_RbfProfile
          | apply r_IndexedArray
          | apply r_AnnualHarmonic
          | apply r_Aggregated
          | apply r_AggregatedIndex
          | apply r_Division
          | apply r_Negative
          | apply r_Max
          | apply r_NegativeMax
          | apply r_Min
          | apply r_NegativeMin
          | apply r_Offset
          | apply r_Deficit
          | apply r_Flow
          | apply r_Storage
          | apply r_PiecewiseIntegral
          | apply r_FlowDelay
          | apply r_DiscountFactor
          | apply r_RollingMean
          | apply r_CurveInterpolated
          | apply r_CurvePiecewise
          | apply r_CurveIndex
          | apply r_Curve
          | apply r_WeightedAverage
          | apply r_StorageThreshold
          | apply r_NodeThreshold
          | apply r_MultipleThreshold
          | apply r_MultipleThresholdParameter
          | apply r_ParameterThreshold
          | apply r_RecorderThreshold
          | apply r_CurrentYear
          | apply r_CurrentDay
          | apply r_Hydropower
          | apply r_Polynomial1D
          | apply r_Polynomial2D
          | apply r_BinaryStep
          | apply r_Rectifier
          | apply r_Logistic
          | apply r_ScaledProfile
          | apply r_Interpolated
          | apply r_InterpolatedVolume
          | apply r_InterpolatedFlow
          | apply r_InterpolatedQuadrature
          | apply r_ScenarioWrapper
          | apply r_StorageLicense
          | apply r_AnnualLicense
          | apply r_AnnualExponential
          | apply r_AnnualHyperbola
          | apply r_OtherParameter
          | apply r_OtherIndex
          | apply r_OtherFlow
          | apply r_OtherStorage ].
Qed.
End World.
