(** Lemmas about the documents of parameters. *)
From Coq Require Import Strings.Ascii Strings.String.
From Verif Require Import Base NodeLoad_proofs Documents_proofs Documents_model DataLoad_proofs DataLoad_model ParamLoad_model ParamLoad_spec.
Local Open Scope string_scope.
Local Open Scope nat_scope.
Local Open Scope list_scope.

(** * Lists and dictionaries *)

Lemma existsb_In k l : existsb (String.eqb k) l = true <-> In k l.
Proof.
  rewrite existsb_exists. split; [intros (x & Hx & E); apply String.eqb_eq in E; now subst | intros H; exists k; split; [easy | apply String.eqb_refl]].
Qed.
Lemma nodupb_spec l : nodupb l = true <-> NoDup l.
Proof.
  induction l as [|x l IH]; cbn; [split; [constructor | easy]|].
  rewrite andb_true_iff, negb_true_iff, IH. split.
  - intros [H1 H2]. constructor; [|easy]. intros H. apply existsb_In in H. congruence.
  - intros H. inversion H as [|? ? H1 H2]; subst. split; [|easy]. destruct (existsb (String.eqb x) l) eqn:E; [|easy]. apply existsb_In in E. contradiction.
Qed.
Lemma all_some {A B} (f : A -> option B) l r : all f l = Some r <-> Forall2 (fun x y => f x = Some y) l r.
Proof.
  revert r. induction l as [|x l IH]; intros r; cbn.
  - split; [intros H; assert (r = []) by congruence; subst; constructor | intros H; inversion H; easy].
  - destruct (f x) as [y|] eqn:E.
    + destruct (all f l) as [r'|] eqn:E2.
      * split.
        -- intros H. assert (r = y :: r') by congruence. subst. constructor; [easy|]. now apply IH.
        -- intros H. inversion H as [|? y' ? r'' H1 H2]; subst. apply (proj2 (IH _)) in H2. congruence.
      * split; [discriminate|]. intros H. inversion H as [|? y' ? r'' H1 H2]; subst. apply (proj2 (IH _)) in H2. discriminate.
    + split; [discriminate|]. intros H. inversion H; subst. congruence.
Qed.
Lemma Forall2_impl {A B} (P Q : A -> B -> Prop) l r : (forall x y, P x y -> Q x y) -> Forall2 P l r -> Forall2 Q l r.
Proof. intros H F. induction F; constructor; auto. Qed.

Lemma same_image {A B} (f : A -> B) l : NoDup (map f l) -> forall x y, In x l -> In y l -> f x = f y -> x = y.
Proof.
  induction l as [|z l IH]; cbn; [easy|]. intros H x y Hx Hy E. inversion H as [|? ? H1 H2]; subst.
  destruct Hx as [->|Hx], Hy as [->|Hy]; auto; exfalso; apply H1; [rewrite E | rewrite <- E]; now apply in_map.
Qed.
Lemma get_pop_other k k' (d : dict json) : k <> k' -> get k (pop k' d) = get k d.
Proof. intros H. rewrite get_pop. destruct (String.eqb_spec k k'); [contradiction | easy]. Qed.
Lemma get_pop_same k (d : dict json) : get k (pop k d) = None.
Proof. rewrite get_pop, String.eqb_refl. easy. Qed.
Lemma get_filter (p : string * json -> bool) k (d : dict json) : NoDup (map fst d) ->
  get k (filter p d) = match get k d with Some j => if p (k, j) then Some j else None | None => None end.
Proof.
  unfold dict. induction d as [|[k' j] d IH]; cbn; [easy|]. intros H. inversion H as [|? ? H1 H2]; subst.
  destruct (String.eqb_spec k' k) as [->|E].
  - destruct (p (k, j)) eqn:E2; cbn; [rewrite String.eqb_refl; easy|].
    rewrite (IH H2). destruct (get k d) eqn:E3; [|easy]. exfalso. apply H1. apply get_key. eauto.
  - destruct (p (k', j)); cbn; [destruct (String.eqb_spec k' k); [contradiction|] |]; apply (IH H2).
Qed.
Lemma NoDup_filter_keys (p : string * json -> bool) (d : dict json) : NoDup (map fst d) -> NoDup (map fst (filter p d)).
Proof.
  unfold dict. induction d as [|[k j] d IH]; cbn; [easy|]. intros H. inversion H as [|? ? H1 H2]; subst.
  destruct (p (k, j)); cbn; [|auto]. constructor; [|auto]. intros Hin. apply H1. apply in_map_iff in Hin. destruct Hin as ([k2 j2] & E & Hin).
  apply filter_In in Hin. apply in_map_iff. exists (k2, j2). tauto.
Qed.
Lemma NoDup_pop_all ks : forall (d : dict json), NoDup (map fst d) -> NoDup (map fst (pop_all ks d)).
Proof.
  unfold pop_all. induction ks as [|k ks IH]; cbn; intros d H; [easy|]. apply IH. now apply NoDup_filter_keys.
Qed.
Lemma pop_all_filter ks : forall (d : dict json), pop_all ks d = filter (fun kv => negb (existsb (String.eqb (fst kv)) ks)) d.
Proof.
  unfold pop_all. induction ks as [|k ks IH]; intros d; cbn.
  - induction d as [|x d IH]; cbn; [easy|]. unfold dict in *. now rewrite <- IH.
  - rewrite IH. unfold pop, dict. induction d as [|[k' j] d IH']; cbn; [easy|].
    destruct (String.eqb k' k); cbn; [apply IH'|]. destruct (existsb (String.eqb k') ks); cbn; [apply IH' | now rewrite IH'].
Qed.
(** Popping the same keys, up to those that are not there. *)
Lemma pops_same ks ks' (d : dict json) :
  (forall k, In k ks -> In k ks' \/ get k d = None) -> (forall k, In k ks' -> In k ks \/ get k d = None) -> pop_all ks d = pop_all ks' d.
Proof.
  intros H1 H2. rewrite !pop_all_filter. apply filter_ext_in. intros [k j] Hin. cbn. f_equal.
  assert (Hk : get k d <> None).
  { intros E. apply get_none_key in E. apply E. apply in_map_iff. now exists (k, j). }
  apply Bool.eq_iff_eq_true. rewrite !existsb_In. split; intros H; [destruct (H1 _ H) | destruct (H2 _ H)]; easy.
Qed.

Definition raws (d : dict json) : list (string * obj) := map (fun kv => (fst kv, raw (snd kv))) d.
Lemma raws_names d : map fst (raws d) = map fst d.
Proof. unfold raws. rewrite map_map. easy. Qed.
Lemma get_raws k (d : dict json) : get k (raws d) = option_map raw (get k d).
Proof. unfold dict. induction d as [|[k' j] d IH]; cbn; [easy|]. destruct (String.eqb k' k); [easy|apply IH]. Qed.

(** * Calls *)

Lemma bound_get fs g b : NoDup (map f_name fs) -> bound fs g = Some b ->
  (forall f, In f fs -> match get (f_name f) g with
                        | Some o => exists o', fit (f_type f) o = Some o' /\ get (f_name f) b = Some o'
                        | None => f_required f = false /\ get (f_name f) b = None
                        end)
  /\ (forall n, ~ In n (map f_name fs) -> get n b = None).
Proof.
  revert b. induction fs as [|f fs IH]; intros b Hnd; cbn [bound].
  - intros H. assert (b = []) by congruence. subst. split; [easy|]. intros; easy.
  - cbn in Hnd. inversion Hnd as [|? ? Hn Hnd']; subst.
    destruct (get (f_name f) g) as [o|] eqn:E.
    + destruct (fit (f_type f) o) as [o'|] eqn:Ef; [|discriminate]. destruct (bound fs g) as [b'|] eqn:Eb; [|discriminate].
      intros H. assert (Hb : b = (f_name f, o') :: b') by congruence. subst b. destruct (IH b' Hnd' eq_refl) as [I1 I2]. split.
      * intros f' [<-|Hin]; cbn.
        -- rewrite E, String.eqb_refl. eauto.
        -- assert (Hne : f_name f <> f_name f') by (intros E'; apply Hn; unfold f_name in E' |- *; rewrite E'; now apply (in_map f_name)).
           destruct (String.eqb_spec (f_name f) (f_name f')); [contradiction|]. apply I1; easy.
      * intros n Hnn. cbn in Hnn |- *. destruct (String.eqb_spec (f_name f) n) as [E'|]; [exfalso; tauto|]. apply I2. tauto.
    + destruct (f_required f) eqn:Er; [discriminate|]. intros H. destruct (IH b Hnd' H) as [I1 I2]. split.
      * intros f' [<-|Hin]; [rewrite E; split; [easy | now apply I2] | now apply I1].
      * intros n Hnn. apply I2. cbn in Hnn. tauto.
Qed.
Lemma bound_goes fs g :
  (forall f, In f fs -> match get (f_name f) g with Some o => fit (f_type f) o <> None | None => f_required f = false end) ->
  exists b, bound fs g = Some b.
Proof.
  induction fs as [|f fs IH]; intros H; cbn [bound]; [eauto|].
  destruct IH as [b Hb]; [intros f' Hin; apply H; now right|]. specialize (H f (or_introl eq_refl)).
  rewrite Hb. destruct (get (f_name f) g) as [o|]; [destruct (fit (f_type f) o); [eauto|contradiction] | rewrite H; eauto].
Qed.
Lemma call_with_some c g b : call_with c g = Some b <->
  NoDup (map fst g) /\ (forall n, In n (map fst g) -> In n (map f_name (formals c))) /\ bound (formals c) g = Some b /\ extra c b = true.
Proof.
  unfold call_with. split.
  - destruct (nodupb (map fst g)) eqn:E1; cbn; [|discriminate].
    destruct (forallb _ (map fst g)) eqn:E2; [|discriminate]. destruct (bound (formals c) g) as [b'|]; [|discriminate].
    destruct (extra c b') eqn:E3; [|discriminate]. intros H. assert (b' = b) by congruence. subst. rewrite <- nodupb_spec. repeat split; auto.
    intros n Hn. rewrite forallb_forall in E2. now apply existsb_In, E2.
  - intros (H1 & H2 & H3 & H4). apply (proj2 (nodupb_spec _)) in H1. rewrite H1, H3, H4. cbn.
    replace (forallb _ (map fst g)) with true; [easy|]. symmetry. apply forallb_forall. intros n Hn. now apply existsb_In, H2.
Qed.

Section World.
Variable named : string -> option obj.
Variable made : dict json -> option obj.
Variable recorder : json -> option obj.
Variable node : string -> option sort.
Variable scenario : string -> bool.
Variable file : dict json -> option (array * dict json).
Local Notation means := (means named made recorder node scenario file).
Local Notation argument := (argument named made recorder node scenario file).
Local Notation document_of := (document_of named made recorder node scenario file).
Local Notation load := (load named made recorder node scenario file).
Local Notation refers := (refers named made).

(** * Kinds *)

Definition reads (kd : kind) (j : json) : option obj :=
  match kd with
  | KRaw => Some (raw j)
  | KNumber => to_number j
  | KArray => Some (OArr j)
  | KValues => option_map OVal (to_array j)
  | KData => load_data file j
  | KNode | KFlowNode | KStorage => find_node node j
  | KNodes => find_nodes node j
  | KScenario => find_scenario scenario j
  | KScenarioNull => match j with JNull => Some ONone | _ => find_scenario scenario j end
  | KRecorder => recorder j
  | KPar | KParNum | KParOnly | KParIndex | KParLoose => load_parameter named made j
  | KCurve => option_map (fun p => OList [p]) (load_parameter named made j)
  | KPars | KParsWrap | KParsLoose => load_list named made j
  | KParsConst => load_wrapped named made j
  end.
(** The types of arguments an entry of a kind is for. *)
Definition for_type (kd : kind) (t : ptype) : bool :=
  match kd, t with
  | KRaw, TAny | KNumber, TAny | KArray, TAny | KValues, TAny | KData, TAny | KNode, TAny | KNodes, TAny
  | KFlowNode, TNode | KStorage, TStore | KStorage, TStoreNone | KScenario, TScen | KScenarioNull, TScenNone | KRecorder, TRec
  | KPar, TPar | KParNum, TParNum | KParOnly, TComp | KParIndex, TIndex | KParLoose, TAny
  | KCurve, TWrap | KPars, TComps | KParsWrap, TWrap | KParsLoose, TAny | KParsConst, TAny => true
  | _, _ => false
  end.

Lemma load_parameter_refers j o : load_parameter named made j = Some o <-> refers j o.
Proof.
  split.
  - destruct j; cbn; intros H; try discriminate; try (constructor; easy); assert (E : o = _) by (symmetry; injection H as H; exact H); subst o; constructor.
  - intros H. inversion H; subst; cbn; easy.
Qed.
Lemma comp_some o o' : comp o = Some o' <-> o' = o /\ a_parameter o.
Proof.
  split.
  - destruct o; cbn; try discriminate; intros H; (split; [congruence | constructor]).
  - intros [-> H]. inversion H; easy.
Qed.
Lemma wrapped_some o o' : wrapped o = Some o' <-> stands_for o o'.
Proof.
  split.
  - destruct o; cbn; try discriminate; intros H; assert (E : o' = _) by (symmetry; injection H as H; exact H); subst o';
      first [apply constant | apply itself; constructor].
  - intros H. inversion H as [? Hp|]; subst; [|easy]. inversion Hp; easy.
Qed.
Lemma items_some j l : items j = Some l <-> elements j l.
Proof.
  split.
  - destruct j; cbn; intros H; try discriminate; (assert (E : l = _) by (symmetry; injection H as H; exact H); subst l; constructor).
  - intros H. inversion H; easy.
Qed.
Lemma all_chain {A B C} (f : A -> option B) (h : B -> option C) l os :
  (exists r, all f l = Some r /\ all h r = Some os) <-> Forall2 (fun x z => exists y, f x = Some y /\ h y = Some z) l os.
Proof.
  split.
  - intros (r & H1 & H2). apply all_some in H1. apply all_some in H2. revert os H2.
    induction H1 as [|x y l r H H1 IH]; intros os H2; inversion H2; subst; constructor; eauto.
  - intros H. induction H as [|x z l os (y & H1 & H2) H IH].
    + exists []. split; easy.
    + destruct IH as (r & I1 & I2). exists (y :: r). cbn. now rewrite H1, I1, H2, I2.
Qed.
Lemma load_list_fit (h : obj -> option obj) j o (P : json -> obj -> Prop) :
  (forall j o, P j o <-> exists o', refers j o' /\ h o' = Some o) ->
  each P j o <-> exists l, load_list named made j = Some (OList l) /\ option_map OList (all h l) = Some o.
Proof.
  intros HP. unfold each, load_list. split.
  - intros (l & os & He & HF & ->). apply items_some in He. rewrite He.
    assert (HF' : Forall2 (fun x z => exists y, load_parameter named made x = Some y /\ h y = Some z) l os).
    { eapply Forall2_impl; [|exact HF]. intros x y Hxy. apply HP in Hxy. destruct Hxy as (o' & H1 & H2). exists o'. split; [now apply load_parameter_refers | easy]. }
    apply all_chain in HF'. destruct HF' as (r & H1 & H2). exists r. now rewrite H1, H2.
  - intros (l & H1 & H2). destruct (items j) as [l0|] eqn:E; [|discriminate]. destruct (all (load_parameter named made) l0) as [r|] eqn:E2; [|discriminate].
    cbn in H1. assert (r = l) by congruence. subst r. destruct (all h l) as [os|] eqn:E3; [|discriminate]. cbn in H2. assert (o = OList os) by congruence. subst o.
    exists l0, os. split; [now apply items_some|]. split; [|easy].
    assert (HF : Forall2 (fun x z => exists y, load_parameter named made x = Some y /\ h y = Some z) l0 os) by (apply all_chain; eauto).
    eapply Forall2_impl; [|exact HF]. intros x y (o' & H3 & H4). apply HP. exists o'. split; [now apply load_parameter_refers | easy].
Qed.
Lemma load_list_is_list j o : load_list named made j = Some o -> exists l, o = OList l.
Proof.
  unfold load_list. destruct (items j); [|discriminate]. destruct (all _ l); [|discriminate]. cbn. intros H. eexists. symmetry. injection H as H. exact H.
Qed.
Lemma constant_for_wrap o o' : constant_for o o' <-> o' = wrap_const o.
Proof.
  unfold constant_for. split.
  - intros [(q & -> & ->)|[H ->]]; [easy|]. destruct o; try easy. exfalso. now apply (H q).
  - intros ->. destruct o; cbn; try (right; split; [intros; discriminate | easy]). left. eauto.
Qed.

Lemma all_id {A} (l : list A) : all Some l = Some l.
Proof. induction l as [|x l IH]; cbn; [easy | now rewrite IH]. Qed.

Lemma means_reads kd t j o : for_type kd t = true -> means kd j o <-> exists o', reads kd j = Some o' /\ fit t o' = Some o.
Proof.
  intros Ht.
  assert (Hsimple : (forall o', fit t o' = Some o') -> (means kd j o <-> reads kd j = Some o) -> means kd j o <-> exists o', reads kd j = Some o' /\ fit t o' = Some o).
  { intros H1 H2. rewrite H2. split; [intros H; exists o; easy | intros (o' & H3 & H4); rewrite H1 in H4; congruence]. }
  destruct kd; destruct t; try discriminate Ht; clear Ht; cbn [means reads].
  - apply Hsimple; [easy|]. cbn [means reads]. split.
    + intros [[-> ->]|[H ->]]; [easy|]. destruct j; [contradiction|easy..].
    + intros H. assert (o = raw j) by congruence. subst o. destruct j; [left; easy| right; split; [discriminate | easy]..].
  - apply Hsimple; [easy|]. cbn [means reads]. split; [intros (q & -> & ->); easy|]. destruct j; cbn; try discriminate. intros H. exists q. split; [easy | congruence].
  - apply Hsimple; [easy|]. cbn [means reads]. split; [intros ->; easy | congruence].
  - apply Hsimple; [easy|]. cbn [means reads]. unfold numbers. cbn [reads]. destruct (to_array j) as [a|]; cbn.
    + split; [intros (a' & H & ->); congruence | intros H; exists a; split; [easy | congruence]].
    + split; [intros (a' & H & _); discriminate | discriminate].
  - apply Hsimple; [easy|]. cbn [means reads]. cbn [reads]. split.
    + intros [(l & -> & a & H & ->)|[(d & v & -> & Hv & a & H & ->)|(d & a & rest & -> & Hv & Hp & Hf & ->)]]; unfold load_data.
      * now rewrite H.
      * unfold values. rewrite Hv, H. easy.
      * unfold values. rewrite Hv. assert (Hpr : present "url" d || present "table" d = true).
        { unfold present. destruct (get "url" d); [easy|]. destruct (get "table" d); [easy|]. destruct Hp as [Hp|Hp]; now contradiction Hp. }
        rewrite Hpr, Hf. easy.
    + unfold load_data. destruct j as [|q|s|l|d]; try discriminate.
      * destruct (to_array (JList l)) as [a|] eqn:E; [|discriminate]. cbn. intros H. left. exists l. split; [easy|]. exists a. split; [easy | congruence].
      * unfold values. intros H. right. destruct (get "values" d) as [v|] eqn:Ev.
        -- left. destruct (to_array v) as [a|] eqn:E; [|discriminate]. cbn in H. exists d, v. split; [easy|]. split; [easy|]. exists a. split; [easy|congruence].
        -- right. destruct (present "url" d || present "table" d) eqn:Ep; [|discriminate].
           destruct (file d) as [[a rest]|] eqn:Ef; [|discriminate]. cbn in H. exists d, a, rest. repeat split; auto; [|congruence].
           unfold present in Ep. destruct (get "url" d); [left; discriminate|]. destruct (get "table" d); [right; discriminate | discriminate].
  - apply Hsimple; [easy|]. cbn [means reads]. cbn [reads]. unfold a_node, find_node. split.
    + intros (s & k & -> & H & ->). now rewrite H.
    + destruct j as [| |s| |]; try discriminate. destruct (node s) as [k|] eqn:E; [|discriminate]. cbn. intros H. exists s, k. repeat split; auto; congruence.
  - unfold find_node. split.
    + intros (s & -> & H & ->). exists (ONode s Flowing). now rewrite H.
    + intros (o' & H & Hf). destruct j as [| |s| |]; try discriminate. destruct (node s) as [k|] eqn:E; [|discriminate]. cbn in H.
      assert (o' = ONode s k) by congruence. subst o'. destruct k; try discriminate. cbn in Hf. exists s. repeat split; auto; congruence.
  - unfold find_node. split.
    + intros (s & -> & H & ->). exists (ONode s Storing). now rewrite H.
    + intros (o' & H & Hf). destruct j as [| |s| |]; try discriminate. destruct (node s) as [k|] eqn:E; [|discriminate]. cbn in H.
      assert (o' = ONode s k) by congruence. subst o'. destruct k; try discriminate. cbn in Hf. exists s. repeat split; auto; congruence.
  - unfold find_node. split.
    + intros (s & -> & H & ->). exists (ONode s Storing). now rewrite H.
    + intros (o' & H & Hf). destruct j as [| |s| |]; try discriminate. destruct (node s) as [k|] eqn:E; [|discriminate]. cbn in H.
      assert (o' = ONode s k) by congruence. subst o'. destruct k; try discriminate. cbn in Hf. exists s. repeat split; auto; congruence.
  - apply Hsimple; [easy|]. cbn [means reads]. cbn [reads]. unfold each, find_nodes. split.
    + intros (l & os & He & HF & ->). apply items_some in He. rewrite He.
      replace (all (find_node node) l) with (Some os); [easy|]. symmetry. apply all_some. eapply Forall2_impl; [|exact HF].
      intros x y (s & k & -> & H & ->). unfold find_node. now rewrite H.
    + destruct (items j) as [l|] eqn:E; [|discriminate]. destruct (all (find_node node) l) as [os|] eqn:E2; [|discriminate]. cbn. intros H.
      exists l, os. split; [now apply items_some|]. split; [|congruence]. apply all_some in E2. eapply Forall2_impl; [|exact E2].
      intros x y Hxy. unfold find_node in Hxy. destruct x as [| |s| |]; try discriminate. destruct (node s) as [k|] eqn:En; [|discriminate]. cbn in Hxy.
      exists s, k. repeat split; auto; congruence.
  - unfold a_scenario, find_scenario. split.
    + intros (s & -> & H & ->). exists (OScen s). now rewrite H.
    + intros (o' & H & Hf). destruct j as [| |s| |]; try discriminate. destruct (scenario s) eqn:E; [|discriminate]. assert (o' = OScen s) by congruence. subst o'.
      cbn in Hf. exists s. repeat split; auto; congruence.
  - unfold a_scenario, find_scenario. split.
    + intros [(s & -> & H & ->)|[-> ->]]; [exists (OScen s); now rewrite H | exists ONone; easy].
    + intros (o' & H & Hf). destruct j as [| |s| |]; try discriminate.
      * assert (o' = ONone) by congruence. subst o'. cbn in Hf. right. split; [easy | congruence].
      * left. destruct (scenario s) eqn:E; [|discriminate]. assert (o' = OScen s) by congruence. subst o'.
        cbn in Hf. exists s. repeat split; auto; congruence.
  - split.
    + intros [H Ho]. exists o. split; [easy|]. destruct Ho as [(n & ->)| ->]; easy.
    + intros (o' & H & Hf). destruct o'; try discriminate; cbn in Hf; assert (E : o = _) by (symmetry; injection Hf as Hf; exact Hf); subst o; split; eauto.
  - split.
    + intros [H Ho]. exists o. split; [now apply load_parameter_refers|]. destruct Ho as [Hp| ->]; [inversion Hp; easy | easy].
    + intros (o' & H & Hf). apply load_parameter_refers in H.
      destruct o'; try discriminate; cbn in Hf; assert (E : o = _) by (symmetry; injection Hf as Hf; exact Hf); subst o; (split; [easy|]);
        first [right; reflexivity | left; constructor].
  - split.
    + intros [H Ho]. exists o. split; [now apply load_parameter_refers|]. destruct Ho as [Hp|(q & ->)]; [inversion Hp; easy | easy].
    + intros (o' & H & Hf). apply load_parameter_refers in H.
      destruct o'; try discriminate; cbn in Hf; assert (E : o = _) by (symmetry; injection Hf as Hf; exact Hf); subst o; (split; [easy|]);
        first [right; eexists; reflexivity | left; constructor].
  - split.
    + intros [H Ho]. exists o. split; [now apply load_parameter_refers|]. cbn. now apply comp_some.
    + intros (o' & H & Hf). apply load_parameter_refers in H. cbn in Hf. apply comp_some in Hf. destruct Hf as [-> Hp]. easy.
  - split.
    + intros [H (n & ->)]. exists (OPar n true). split; [now apply load_parameter_refers | easy].
    + intros (o' & H & Hf). apply load_parameter_refers in H. destruct o' as [| | |n ix| | | | | | |]; try discriminate. destruct ix; [|discriminate]. cbn in Hf.
      assert (o = OPar n true) by congruence. subst o. split; [easy | eauto].
  - apply Hsimple; [easy|]. cbn [means reads]. cbn [reads]. symmetry. apply load_parameter_refers.
  - split.
    + intros (o1 & o2 & H1 & H2 & ->). apply load_parameter_refers in H1. exists (OList [o1]). rewrite H1. cbn. split; [easy|].
      apply wrapped_some in H2. now rewrite H2.
    + intros (o' & H & Hf). destruct (load_parameter named made j) as [o1|] eqn:E; [|discriminate]. cbn in H. assert (o' = OList [o1]) by congruence. subst o'.
      cbn in Hf. destruct (wrapped o1) as [o2|] eqn:E2; [|discriminate]. cbn in Hf. exists o1, o2. split; [now apply load_parameter_refers|].
      split; [now apply wrapped_some | congruence].
  - rewrite (load_list_fit comp).
    + split; [intros (l & H1 & H2); exists (OList l); easy|]. intros (o' & H1 & H2). destruct (load_list_is_list _ _ H1) as [l ->]. exists l. easy.
    + intros j' o'. split; [intros [H1 H2]; exists o'; split; [easy | now apply comp_some]|]. intros (o1 & H1 & H2). apply comp_some in H2. destruct H2 as [-> H2]. easy.
  - rewrite (load_list_fit wrapped).
    + split; [intros (l & H1 & H2); exists (OList l); easy|]. intros (o' & H1 & H2). destruct (load_list_is_list _ _ H1) as [l ->]. exists l. easy.
    + intros j' o'. split; intros (o1 & H1 & H2); exists o1; (split; [easy | now apply wrapped_some]).
  - apply Hsimple; [easy|]. cbn [means reads]. cbn [reads]. rewrite (load_list_fit Some).
    + split; [intros (l & H1 & H2); rewrite all_id in H2; cbn in H2; congruence|]. intros H. destruct (load_list_is_list _ _ H) as [l ->]. exists l. now rewrite all_id.
    + intros j' o'. split; [intros H; exists o'; easy | intros (o1 & H1 & H2); congruence].
  - apply Hsimple; [easy|]. cbn [means reads]. cbn [reads]. rewrite (load_list_fit (fun o => Some (wrap_const o))).
    + unfold load_list, load_wrapped. destruct (items j) as [l|]; [|split; [intros (? & ? & _); discriminate | discriminate]].
      destruct (all (load_parameter named made) l) as [os|]; [|split; [intros (? & ? & _); discriminate | discriminate]]. cbn.
      assert (Hm : all (fun o => Some (wrap_const o)) os = Some (map wrap_const os)).
      { clear. induction os as [|x os IH]; cbn; [easy | now rewrite IH]. }
      split.
      * intros (l' & H1 & H2). assert (os = l') by congruence. subst l'. rewrite Hm in H2. easy.
      * intros H. exists os. now rewrite Hm.
    + intros j' o'. split; intros (o1 & H1 & H2); exists o1; (split; [easy|]); [apply constant_for_wrap in H2 | apply constant_for_wrap]; congruence.
Qed.

(** * Tables *)

(** Entries that `load` leaves for the constructor, and those of the same form that it takes itself. *)
Definition taken_raw (c : class) (k : string) : bool :=
  existsb (String.eqb k)
    match c with
    | AnnualHarmonic => ["mean"; "amplitudes"; "phases"]
    | Polynomial1D | Polynomial2D => ["coefficients"]
    | StorageLicense | AnnualLicense | AnnualExponential | AnnualHyperbola => ["amount"]
    | TablesArray => ["node"]
    | _ => []
    end.
Definition through (c : class) (f : field) : bool :=
  match a_keys f, a_need f with
  | _, Default _ => false
  | [(k, KRaw)], _ => String.eqb k (a_name f) && negb (taken_raw c k)
  | _, _ => false
  end.
Definition is_required (n : need) : bool := match n with Required => true | _ => false end.
Definition quiet_keys (c : class) : list string :=
  if array_class c then ["url"; "comment"] ++ (if scenario_class c then [] else ["scenario"]) else match c with TablesArray => ["checksum"] | _ => [] end.
Definition quiet (c : class) (kv : string * json) : bool :=
  existsb (String.eqb (fst kv)) (quiet_keys c)
  && (negb (String.eqb (fst kv) "scenario") || match snd kv with JNull => true | _ => false end).
Definition fits_default (t : ptype) (o : obj) : bool :=
  match o, t with
  | ONone, (TAny | TPar | TComps | TRec | TScenNone | TStoreNone) => true
  | OList [], TWrap => true
  | ORaw _, TAny => true
  | _, _ => false
  end.
Definition any_type (t : ptype) : bool := match t with TAny => true | _ => false end.
Definition field_ok (c : class) (f : field) : bool :=
  existsb (fun fm => String.eqb (f_name fm) (a_name f)
    && (if through c f then any_type (f_type fm) && Bool.eqb (f_required fm) (is_required (a_need f)) && negb (existsb (String.eqb (a_name f)) (quiet_keys c))
        else forallb (fun kk => for_type (snd kk) (f_type fm)) (a_keys f)
             && match a_need f with Left => false | Required => true | Default o => fits_default (f_type fm) o end)) (formals c).
Definition all_keys (fs : list field) : list string := flat_map (fun f => map fst (a_keys f)) fs.
Definition table_ok (c : class) : bool :=
  match table c with
  | None => true
  | Some fs =>
      nodupb (map a_name fs) && nodupb (all_keys fs) && nodupb (map f_name (formals c))
      && forallb (field_ok c) fs
      && forallb (fun fm => existsb (String.eqb (f_name fm)) (map a_name fs)) (formals c)
  end.
Lemma tables_ok c : table_ok c = true.
Proof. destruct c; reflexivity. Qed.

(** ** Reading by a table *)
Fixpoint pick (ks : list (string * kind)) (n : need) (d : dict json) : option (obj * dict json) :=
  match ks with
  | [] => match n with Default o => Some (o, d) | _ => None end
  | (k, kd) :: ks => match get k d with
                     | Some j => match reads kd j with Some o => Some (o, pop k d) | None => None end
                     | None => pick ks n d
                     end
  end.
Fixpoint run (fs : list field) (d : dict json) : option (list (string * obj) * dict json) :=
  match fs with
  | [] => Some ([], d)
  | f :: fs => match pick (a_keys f) (a_need f) d with
               | None => None
               | Some (o, d') => match run fs d' with Some (g, r) => Some ((a_name f, o) :: g, r) | None => None end
               end
  end.
Definition hush (c : class) (d : dict json) : dict json := filter (fun kv => negb (quiet c kv)) d.
Definition together_ok (c : class) (d : dict json) : bool :=
  match c with
  | Curve => negb (present "values" d && present "parameters" d)
  | CurveInterpolated => xorb (present "values" d) (present "parameters" d)
  | _ => true
  end.
Definition popped (c : class) (fs : list field) : list field := filter (fun f => negb (through c f)) fs.
Definition interp (c : class) (fs : list field) (d : dict json) : option bindings :=
  if together_ok c d then
    match run (popped c fs) d with Some (g, r) => call_with c (g ++ raws (hush c r)) | None => None end
  else None.

(** The same without a changing document. *)
Fixpoint value_of (ks : list (string * kind)) (n : need) (d : dict json) : option obj :=
  match ks with
  | [] => match n with Default o => Some o | _ => None end
  | (k, kd) :: ks => match get k d with Some j => reads kd j | None => value_of ks n d end
  end.
Fixpoint key_of (ks : list (string * kind)) (d : dict json) : list string :=
  match ks with [] => [] | (k, _) :: ks => match get k d with Some _ => [k] | None => key_of ks d end end.
Lemma key_of_in ks d k : In k (key_of ks d) -> In k (map fst ks).
Proof. induction ks as [|[k' kd] ks IH]; cbn; [easy|]. destruct (get k' d); cbn; [intros [<-|[]]; now left | intros H; right; auto]. Qed.
Lemma pick_value ks n d : pick ks n d = option_map (fun o => (o, pop_all (key_of ks d) d)) (value_of ks n d).
Proof.
  induction ks as [|[k kd] ks IH]; cbn.
  - destruct n; easy.
  - destruct (get k d) as [j|]; [|easy]. destruct (reads kd j); easy.
Qed.
Lemma value_of_get ks n d d' : (forall k, In k (map fst ks) -> get k d = get k d') -> value_of ks n d = value_of ks n d' /\ key_of ks d = key_of ks d'.
Proof.
  induction ks as [|[k kd] ks IH]; cbn; intros H; [easy|]. rewrite <- (H k (or_introl eq_refl)).
  destruct (get k d); [easy|]. apply IH. intros k' Hk. apply H. now right.
Qed.
Lemma NoDup_app_disjoint {A} (l m : list A) : NoDup (l ++ m) -> forall x, In x l -> In x m -> False.
Proof.
  induction l as [|y l IH]; cbn; intros H x H1 H2; [easy|]. inversion H as [|? ? Hn Hd]; subst. destruct H1 as [->|H1]; [|eauto].
  apply Hn, in_or_app. now right.
Qed.
Lemma NoDup_app_parts {A} (l m : list A) : NoDup (l ++ m) -> NoDup l /\ NoDup m.
Proof.
  induction l as [|y l IH]; cbn; intros H; [split; [constructor | easy]|]. inversion H as [|? ? Hn Hd]; subst. destruct (IH Hd) as [I1 I2].
  split; [|easy]. constructor; [|easy]. intros Hy. apply Hn, in_or_app. now left.
Qed.
Lemma run_values fs : forall d, NoDup (all_keys fs) ->
  run fs d = option_map (fun g => (g, pop_all (flat_map (fun f => key_of (a_keys f) d) fs) d))
                        (all (fun f => option_map (pair (a_name f)) (value_of (a_keys f) (a_need f) d)) fs).
Proof.
  induction fs as [|f fs IH]; intros d Hnd; cbn [run all flat_map]; [easy|].
  unfold all_keys in Hnd. cbn [flat_map] in Hnd. destruct (NoDup_app_parts _ _ Hnd) as [_ Hnd'].
  rewrite pick_value. destruct (value_of (a_keys f) (a_need f) d) as [o|]; cbn [option_map]; [|easy].
  rewrite (IH _ Hnd').
  assert (Hsame : forall f', In f' fs -> forall k, In k (map fst (a_keys f')) -> get k (pop_all (key_of (a_keys f) d) d) = get k d).
  { intros f' Hf' k Hk. rewrite get_pop_all. destruct (existsb (String.eqb k) (key_of (a_keys f) d)) eqn:E; [|easy]. exfalso.
    apply existsb_In, key_of_in in E. apply (NoDup_app_disjoint _ _ Hnd k E). apply in_flat_map. now exists f'. }
  assert (Hall : all (fun f => option_map (pair (a_name f)) (value_of (a_keys f) (a_need f) (pop_all (key_of (a_keys f) d) d))) fs
                 = all (fun f => option_map (pair (a_name f)) (value_of (a_keys f) (a_need f) d)) fs \/ True) by now right.
  clear Hall.
  set (d' := pop_all (key_of (a_keys f) d) d) in *.
  assert (Ha : all (fun f => option_map (pair (a_name f)) (value_of (a_keys f) (a_need f) d')) fs
               = all (fun f => option_map (pair (a_name f)) (value_of (a_keys f) (a_need f) d)) fs
               /\ flat_map (fun f => key_of (a_keys f) d') fs = flat_map (fun f => key_of (a_keys f) d) fs).
  { clear IH Hnd Hnd'. clearbody d'. induction fs as [|f' fs IH]; cbn; [easy|].
    destruct (value_of_get (a_keys f') (a_need f') d' d (Hsame f' (or_introl eq_refl))) as [-> ->].
    destruct IH as [-> ->]; [intros f2 H2; apply Hsame; now right|]. easy. }
  destruct Ha as [-> ->]. destruct (all _ fs) as [g|]; cbn; [|easy]. f_equal. f_equal.
  unfold d', pop_all. now rewrite fold_left_app.
Qed.

(** ** Keys and fields *)
Lemma comes_from_key f d k kd j : comes_from d f k kd j -> key_of (a_keys f) d = [k] /\ forall n, value_of (a_keys f) n d = reads kd j.
Proof.
  intros (bs & as_ & E & Hb & Hg). rewrite E. clear E. induction bs as [|[k' kd'] bs IH]; cbn.
  - rewrite Hg. easy.
  - rewrite (Hb k' kd' (or_introl eq_refl)). apply IH. intros k2 kd2 H. apply (Hb k2 kd2). now right.
Qed.
Lemma not_given_key f d : not_given d f -> key_of (a_keys f) d = [] /\ forall n, value_of (a_keys f) n d = match n with Default o => Some o | _ => None end.
Proof.
  unfold not_given. generalize (a_keys f). intros ks H. induction ks as [|[k kd] ks IH]; cbn; [easy|].
  rewrite (H k kd (or_introl eq_refl)). apply IH. intros k2 kd2 H2. apply (H k2 kd2). now right.
Qed.
Lemma given_or_not f (d : dict json) : (exists k kd j, comes_from d f k kd j) \/ not_given d f.
Proof.
  unfold comes_from, not_given. generalize (a_keys f). intros ks. induction ks as [|[k kd] ks IH].
  - right. intros; easy.
  - destruct (get k d) as [j|] eqn:E.
    + left. exists k, kd, j, [], ks. repeat split; auto. intros; easy.
    + destruct IH as [(k2 & kd2 & j2 & bs & as_ & E2 & Hb & Hg)|H].
      * left. exists k2, kd2, j2, ((k, kd) :: bs), as_. subst ks. repeat split; auto. intros k' kd' [H|H]; [congruence | eauto].
      * right. intros k' kd' [H2|H2]; [congruence | eauto].
Qed.
Lemma comes_from_in d f k kd j : comes_from d f k kd j -> In (k, kd) (a_keys f) /\ get k d = Some j.
Proof. intros (bs & as_ & E & _ & Hg). split; [rewrite E; apply in_elt | easy]. Qed.

Lemma through_form c f : through c f = true -> exists k, a_keys f = [(k, KRaw)] /\ a_name f = k /\ (a_need f = Required \/ a_need f = Left).
Proof.
  unfold through. destruct (a_keys f) as [|[k kd] [|]]; destruct (a_need f); try discriminate; try (destruct kd; discriminate);
    destruct kd; try discriminate; intros H; apply andb_true_iff in H; destruct H as [H _]; apply String.eqb_eq in H; exists k; auto.
Qed.
Lemma fits_default_fit t o : fits_default t o = true -> fit t o = Some o.
Proof. destruct o as [| | | | | | | | | |l]; destruct t; try discriminate; try (intros _; reflexivity); destruct l; try discriminate; intros _; reflexivity. Qed.

Section Class.
Variable c : class.
Variable fs : list field.
Hypothesis Hfs : table c = Some fs.

Lemma ok_parts : NoDup (map a_name fs) /\ NoDup (all_keys fs) /\ NoDup (map f_name (formals c))
  /\ (forall f, In f fs -> field_ok c f = true) /\ (forall fm, In fm (formals c) -> In (f_name fm) (map a_name fs)).
Proof.
  pose proof (tables_ok c) as H. unfold table_ok in H. rewrite Hfs in H. rewrite !andb_true_iff in H. destruct H as ((((H1 & H2) & H3) & H4) & H5).
  apply (proj1 (nodupb_spec _)) in H1. apply (proj1 (nodupb_spec _)) in H2. apply (proj1 (nodupb_spec _)) in H3.
  rewrite forallb_forall in H4, H5. repeat split; auto. intros fm Hfm. now apply existsb_In, H5.
Qed.
Lemma field_formal f : In f fs -> exists fm, In fm (formals c) /\ f_name fm = a_name f
  /\ (through c f = true -> f_type fm = TAny /\ f_required fm = is_required (a_need f) /\ ~ In (a_name f) (quiet_keys c))
  /\ (through c f = false -> (forall k kd, In (k, kd) (a_keys f) -> for_type kd (f_type fm) = true)
                             /\ match a_need f with Left => False | Required => True | Default o => fit (f_type fm) o = Some o end).
Proof.
  intros Hf. destruct ok_parts as (_ & _ & _ & H & _). specialize (H f Hf). unfold field_ok in H. apply existsb_exists in H. destruct H as (fm & Hin & H).
  apply andb_true_iff in H. destruct H as [Hn H]. apply String.eqb_eq in Hn. exists fm. split; [easy|]. split; [easy|].
  destruct (through c f).
  - split; [|discriminate]. intros _. rewrite !andb_true_iff in H. destruct H as ((H1 & H2) & H3).
    split; [destruct (f_type fm); easy|]. split; [now apply Bool.eqb_prop|]. apply negb_true_iff in H3. intros Hq. apply existsb_In in Hq. congruence.
  - split; [discriminate|]. intros _. apply andb_true_iff in H. destruct H as [H1 H2]. split.
    + rewrite forallb_forall in H1. intros k kd Hk. exact (H1 _ Hk).
    + destruct (a_need f); [easy | now apply fits_default_fit | discriminate].
Qed.
Lemma formal_field fm : In fm (formals c) -> exists f, In f fs /\ a_name f = f_name fm.
Proof. intros H. destruct ok_parts as (_ & _ & _ & _ & H'). specialize (H' fm H). apply in_map_iff in H'. destruct H' as (f & E & Hf). exists f. easy. Qed.
Lemma same_field f f' : In f fs -> In f' fs -> a_name f = a_name f' -> f = f'.
Proof. intros H1 H2. destruct ok_parts as (H & _). exact (same_image a_name fs H f f' H1 H2). Qed.
Lemma same_formal f f' : In f (formals c) -> In f' (formals c) -> f_name f = f_name f' -> f = f'.
Proof. intros H1 H2. destruct ok_parts as (_ & _ & H & _). exact (same_image f_name (formals c) H f f' H1 H2). Qed.
Lemma in_popped f : In f (popped c fs) <-> In f fs /\ through c f = false.
Proof. unfold popped. rewrite filter_In, negb_true_iff. easy. Qed.
Lemma key_field f f' k : In f fs -> In f' fs -> In k (map fst (a_keys f)) -> In k (map fst (a_keys f')) -> f = f'.
Proof.
  destruct ok_parts as (_ & H & _). unfold all_keys in H. clear Hfs. induction fs as [|x l IH]; [easy|]. cbn in H. destruct (NoDup_app_parts _ _ H) as [_ H'].
  intros [->|H1] [->|H2] Hk1 Hk2; [easy | | | now apply IH]; exfalso; apply (NoDup_app_disjoint _ _ H k); auto; apply in_flat_map; eauto.
Qed.
Lemma popped_keys : NoDup (all_keys (popped c fs)).
Proof.
  destruct ok_parts as (_ & H & _). unfold all_keys in *. clear Hfs. unfold popped. induction fs as [|x l IH]; cbn in *; [constructor|].
  destruct (NoDup_app_parts _ _ H) as [Hx Hl]. destruct (through c x); cbn; [now apply IH|].
  specialize (IH Hl). assert (Hd : forall k, In k (map fst (a_keys x)) -> In k (flat_map (fun f => map fst (a_keys f)) (filter (fun f => negb (through c f)) l)) -> False).
  { intros k H1 H2. apply (NoDup_app_disjoint _ _ H k H1). apply in_flat_map in H2. destruct H2 as (f & Hf & Hk). apply filter_In in Hf. apply in_flat_map. exists f. tauto. }
  revert Hx Hd. generalize (map fst (a_keys x)). intros ks Hx Hd. induction ks as [|k ks IHk]; cbn; [easy|]. inversion Hx as [|? ? N1 N2]; subst.
  constructor; [|apply IHk; [easy | intros k' Hk'; apply Hd; now right]]. intros Hin. apply in_app_or in Hin. destruct Hin as [Hin|Hin]; [contradiction|].
  apply (Hd k); [now left | easy].
Qed.

(** The values of the popped fields. *)
Definition pairs (d : dict json) : option (list (string * obj)) :=
  all (fun f => option_map (pair (a_name f)) (value_of (a_keys f) (a_need f) d)) (popped c fs).
Definition chosen (d : dict json) : list string := flat_map (fun f => key_of (a_keys f) d) (popped c fs).
Lemma pairs_names d g : pairs d = Some g -> map fst g = map a_name (popped c fs).
Proof.
  unfold pairs. intros H. apply all_some in H. revert H. generalize (popped c fs). intros l H. induction H as [|f y l r H H' IH]; cbn; [easy|].
  rewrite IH. f_equal. destruct (value_of _ _ d); [|discriminate]. cbn in H. assert (E : y = (a_name f, o)) by congruence. now subst.
Qed.
Lemma popped_names : NoDup (map a_name (popped c fs)).
Proof.
  destruct ok_parts as (H & _). clear Hfs. unfold popped. induction fs as [|x l IH]; cbn in *; [constructor|]. inversion H as [|? ? H1 H2]; subst.
  destruct (through c x); cbn; [now apply IH|]. constructor; [|now apply IH]. intros Hin. apply H1. apply in_map_iff in Hin. destruct Hin as (f & E & Hf).
  apply filter_In in Hf. apply in_map_iff. exists f. tauto.
Qed.
Lemma pairs_get d g f : pairs d = Some g -> In f (popped c fs) -> exists o, value_of (a_keys f) (a_need f) d = Some o /\ get (a_name f) g = Some o.
Proof.
  intros H Hf. pose proof (pairs_names _ _ H) as Hnames. pose proof popped_names as Hnd. unfold pairs in H. apply all_some in H.
  apply In_nth_error in Hf. destruct Hf as [i Hi]. destruct (Forall2_nth_l _ _ _ _ _ H Hi) as (y & Hy & Hv).
  destruct (value_of (a_keys f) (a_need f) d) as [o|]; [|discriminate]. exists o. split; [easy|]. cbn in Hv. assert (y = (a_name f, o)) by congruence. subst y.
  apply get_of_pair; [rewrite Hnames; easy | eapply nth_error_In; eauto].
Qed.
Lemma pairs_goes d : (forall f, In f (popped c fs) -> value_of (a_keys f) (a_need f) d <> None) -> exists g, pairs d = Some g.
Proof.
  unfold pairs. generalize (popped c fs). intros l H. induction l as [|f l IH]; cbn; [eauto|].
  destruct IH as [g Hg]; [intros f' Hf'; apply H; now right|]. rewrite Hg. specialize (H f (or_introl eq_refl)).
  destruct (value_of (a_keys f) (a_need f) d); [cbn; eauto | contradiction].
Qed.
Lemma interp_some d b : interp c fs d = Some b <->
  together_ok c d = true /\ exists g, pairs d = Some g /\ call_with c (g ++ raws (hush c (pop_all (chosen d) d))) = Some b.
Proof.
  unfold interp. rewrite (run_values _ d popped_keys). fold (pairs d). fold (chosen d). destruct (together_ok c d); [|split; [discriminate | intros [? _]; discriminate]].
  destruct (pairs d) as [g|]; cbn; split; intros H; try discriminate.
  - split; [easy|]. exists g. easy.
  - destruct H as (_ & g' & E & H). congruence.
  - destruct H as (_ & g' & E & H). discriminate.
Qed.

(** What is left for the constructor. *)
Lemma rest_get d k j : NoDup (map fst d) ->
  get k (hush c (pop_all (chosen d) d)) = Some j <-> get k d = Some j /\ ~ In k (chosen d) /\ quiet c (k, j) = false.
Proof.
  intros Hnd. unfold hush. rewrite get_filter by now apply NoDup_pop_all. rewrite get_pop_all.
  destruct (existsb (String.eqb k) (chosen d)) eqn:E.
  - apply existsb_In in E. split; [discriminate | tauto].
  - assert (Hn : ~ In k (chosen d)) by (intros H; apply existsb_In in H; congruence).
    destruct (get k d) as [j'|]; [|split; [discriminate | intros (? & _); discriminate]].
    destruct (quiet c (k, j')) eqn:Eq; cbn.
    + split; [discriminate|]. intros (H & _ & H'). congruence.
    + split; [intros H; assert (j' = j) by congruence; subst; auto | intros (H & _); easy].
Qed.
Lemma chosen_spec d k : In k (chosen d) <-> exists f kd j, In f (popped c fs) /\ comes_from d f k kd j.
Proof.
  unfold chosen. rewrite in_flat_map. split.
  - intros (f & Hf & Hk). destruct (given_or_not f d) as [(k' & kd & j & H)|H].
    + destruct (comes_from_key _ _ _ _ _ H) as [E _]. rewrite E in Hk. destruct Hk as [->|[]]. eauto.
    + destruct (not_given_key _ _ H) as [E _]. rewrite E in Hk. destruct Hk.
  - intros (f & kd & j & Hf & H). exists f. split; [easy|]. destruct (comes_from_key _ _ _ _ _ H) as [-> _]. now left.
Qed.
Lemma through_rest d f j : NoDup (map fst d) -> In f fs -> through c f = true ->
  get (a_name f) (hush c (pop_all (chosen d) d)) = Some j <-> get (a_name f) d = Some j.
Proof.
  intros Hnd Hf Ht. rewrite (rest_get d _ _ Hnd). split; [tauto|]. intros H. split; [easy|].
  destruct (through_form _ _ Ht) as (k & Hk & Hn & _). split.
  - intros Hc. apply chosen_spec in Hc. destruct Hc as (f' & kd & j' & Hf' & Hcf). apply in_popped in Hf'. destruct Hf' as [Hf' Ht'].
    apply comes_from_in in Hcf. destruct Hcf as [Hin _]. assert (f' = f); [|congruence]. apply (key_field f' f (a_name f)); auto.
    + apply in_map_iff. now exists (a_name f, kd).
    + rewrite Hk, Hn. now left.
  - destruct (field_formal f Hf) as (fm & _ & _ & Hthr & _). destruct (Hthr Ht) as (_ & _ & Hq). unfold quiet. cbn.
    destruct (existsb (String.eqb (a_name f)) (quiet_keys c)) eqn:E; [|easy]. apply existsb_In in E. contradiction.
Qed.

Lemma quiet_effect k j : quiet c (k, j) = true -> without_effect c k j.
Proof.
  unfold quiet, without_effect, quiet_keys. cbn. rewrite andb_true_iff. intros [H1 H2]. apply existsb_In in H1.
  destruct (array_class c) eqn:Ea.
  - destruct H1 as [<-|[<-|H1]]; [left; auto..|].
    destruct (scenario_class c) eqn:Es; [destruct H1|]. destruct H1 as [<-|[]]. right. left. cbn in H2. destruct j; [auto | discriminate..].
  - destruct c; try (destruct H1; fail). destruct H1 as [<-|[]]. right. right. auto.
Qed.
Lemma effect_quiet k j : without_effect c k j -> quiet c (k, j) = true.
Proof.
  unfold quiet, without_effect, quiet_keys. cbn. rewrite andb_true_iff. intros [[Ha [-> | ->]]|[(Ha & Hs & -> & ->)|[-> ->]]].
  - rewrite Ha. easy.
  - rewrite Ha. easy.
  - rewrite Ha, Hs. easy.
  - easy.
Qed.
Lemma polynomial_extra (b : bindings) : c = Polynomial1D ->
  (forall n, In n ["node"; "storage_node"; "parameter"] -> exists o, get n b = Some o) ->
  extra c b = true <-> together c [] (fun n => get n b).
Proof.
  intros -> Hb. destruct (Hb "node") as [x Ex]; [cbn; tauto|]. destruct (Hb "storage_node") as [y Ey]; [cbn; tauto|].
  destruct (Hb "parameter") as [z Ez]; [cbn; tauto|]. unfold extra, together, countb. cbn [filter]. rewrite Ex, Ey, Ez.
  assert (Hn : forall o, {o = ONone} + {o <> ONone /\ some_object (Some o) = true}) by (intros o; destruct o; [left; easy | right; split; [discriminate | easy]..]).
  assert (Hpair : forall m n x y, get m b = Some x -> get n b = Some y -> In m ["node"; "storage_node"; "parameter"] -> In n ["node"; "storage_node"; "parameter"] ->
            m <> n -> x <> ONone -> y <> ONone ->
            ~ (forall m n, In m ["node"; "storage_node"; "parameter"] -> In n ["node"; "storage_node"; "parameter"] -> m <> n -> get m b = Some ONone \/ get n b = Some ONone)).
  { intros m n x' y' E1 E2 I1 I2 Hne N1 N2 H. destruct (H m n I1 I2 Hne); congruence. }
  destruct (Hn x) as [->|[Hx Sx]], (Hn y) as [->|[Hy Sy]], (Hn z) as [->|[Hz Sz]]; rewrite ?Sx, ?Sy, ?Sz; cbn [some_object]; split; intros H;
    try reflexivity; try discriminate H;
    try (exfalso; first [exact (Hpair _ _ _ _ Ex Ey ltac:(cbn; tauto) ltac:(cbn; tauto) ltac:(discriminate) Hx Hy H)
                        | exact (Hpair _ _ _ _ Ex Ez ltac:(cbn; tauto) ltac:(cbn; tauto) ltac:(discriminate) Hx Hz H)
                        | exact (Hpair _ _ _ _ Ey Ez ltac:(cbn; tauto) ltac:(cbn; tauto) ltac:(discriminate) Hy Hz H)]);
    intros m n Hm Hn' Hne; cbn in Hm, Hn'; destruct Hm as [<-|[<-|[<-|[]]]]; destruct Hn' as [<-|[<-|[<-|[]]]]; try contradiction; rewrite ?Ex, ?Ey, ?Ez; auto.
Qed.

(** The order of the result follows the document. *)
Theorem interp_document d b : NoDup (map fst d) -> interp c fs d = Some b -> document_of c d (fun n => get n b).
Proof.
  intros Hnd H. apply interp_some in H. destruct H as (Hto & g & Hg & Hc). apply call_with_some in Hc. destruct Hc as (Hn & Hk & Hb & He).
  destruct ok_parts as (_ & _ & Hform & _ & _).
  destruct (bound_get _ _ _ Hform Hb) as [B1 B2].
  rewrite map_app, raws_names, (pairs_names _ _ Hg) in Hn, Hk.
  assert (Harg : forall f, In f fs -> argument d f (fun n => get n b)).
  { intros f Hf. destruct (field_formal f Hf) as (fm & Hfm & Hname & Hthr & Hpop). specialize (B1 fm Hfm). rewrite Hname in B1. rewrite get_app, get_raws in B1.
    destruct (through c f) eqn:Et.
    - destruct (Hthr eq_refl) as (Hty & Hrq & _). clear Hpop Hthr. destruct (through_form _ _ Et) as (k & Hks & Hkn & Hneed).
      assert (Hng : get (a_name f) g = None).
      { apply get_none_key. rewrite (pairs_names _ _ Hg). intros Hin. apply in_map_iff in Hin. destruct Hin as (f' & E & Hf').
        apply in_popped in Hf'. destruct Hf' as [Hf' Ht']. assert (f' = f) by now apply same_field. congruence. }
      rewrite Hng in B1. rewrite Hty in B1.
      destruct (get (a_name f) (hush c (pop_all (chosen d) d))) as [j|] eqn:Er; cbn in B1.
      + apply (proj1 (through_rest d f j Hnd Hf Et)) in Er. destruct B1 as (o' & E1 & E2). left. exists k, KRaw, j, o'. rewrite Hkn in Er. split; [|split; [|easy]].
        * exists [], []. rewrite Hks. split; [easy|]. split; [intros; easy|easy].
        * apply (means_reads KRaw TAny j o' eq_refl). exists (raw j). easy.
      + right. destruct B1 as [R1 R2]. split.
        * intros k' kd' Hin. rewrite Hks in Hin. destruct Hin as [E|[]]. assert (k' = a_name f) by congruence. subst k'.
          destruct (get (a_name f) d) as [j|] eqn:Ed; [|easy]. apply (proj2 (through_rest d f j Hnd Hf Et)) in Ed. congruence.
        * rewrite Hrq in R1. destruct Hneed as [E|E]; rewrite E in *; [discriminate | easy].
    - destruct (Hpop eq_refl) as (Hkt & Hdef). clear Hthr Hpop.
      assert (Hfp : In f (popped c fs)) by (apply in_popped; easy).
      destruct (pairs_get _ _ _ Hg Hfp) as (o & Hv & Hgo). rewrite Hgo in B1. destruct B1 as (o' & F1 & F2).
      destruct (given_or_not f d) as [(k & kd & j & Hcf)|Hng].
      + left. exists k, kd, j, o'. split; [easy|]. split; [|easy]. destruct (comes_from_key _ _ _ _ _ Hcf) as [_ Hv']. rewrite Hv' in Hv.
        destruct (comes_from_in _ _ _ _ _ Hcf) as [Hin _]. apply (means_reads kd (f_type fm) j o' (Hkt _ _ Hin)). eauto.
      + right. split; [easy|]. destruct (not_given_key _ _ Hng) as [_ Hv']. rewrite Hv' in Hv. destruct (a_need f) as [|o0|]; [discriminate| |discriminate].
        assert (o0 = o) by congruence. subst o0. congruence. }
  exists fs. split; [easy|]. split; [easy|]. split; [|split].
  - intros k j Hj. destruct (in_dec string_dec k (chosen d)) as [Hin|Hnin].
    + left. apply chosen_spec in Hin. destruct Hin as (f & kd & j' & Hf & Hcf). exists f, kd. apply in_popped in Hf. split; [easy|].
      destruct (comes_from_in _ _ _ _ _ Hcf) as [_ E]. assert (j' = j) by congruence. now subst.
    + destruct (quiet c (k, j)) eqn:Eq; [right; now apply quiet_effect|]. left.
      assert (Hr : get k (hush c (pop_all (chosen d) d)) = Some j) by (apply rest_get; auto).
      assert (Hkr : In k (map fst (hush c (pop_all (chosen d) d)))) by (apply get_key; eauto).
      assert (Hkf : In k (map f_name (formals c))) by (apply Hk, in_or_app; now right).
      apply in_map_iff in Hkf. destruct Hkf as (fm & Ek & Hfm). destruct (formal_field fm Hfm) as (f & Hf & En).
      exists f, KRaw. split; [easy|]. destruct (through c f) eqn:Et.
      * destruct (through_form _ _ Et) as (k' & Hks & Hkn & _). assert (E' : k' = k) by congruence. rewrite E' in Hks. exists [], []. rewrite Hks. split; [easy|]. split; [intros; easy | easy].
      * exfalso. apply (NoDup_app_disjoint _ _ Hn k); [|easy]. apply in_map_iff. exists f. split; [congruence | apply in_popped; easy].
  - intros n Hnn. destruct (in_dec string_dec n (map f_name (formals c))) as [Hin|Hnin]; [|now rewrite B2 in Hnn].
    apply in_map_iff in Hin. destruct Hin as (fm & En & Hfm). destruct (formal_field fm Hfm) as (f & Hf & E). exists f. split; [easy | congruence].
  - unfold together_ok in Hto. destruct c eqn:Ec; try exact I.
    + cbn. unfold present in Hto. destruct (get "values" d), (get "parameters" d); try discriminate Hto; [right; split; [discriminate | easy] | left; split; [easy | discriminate]].
    + cbn. unfold present in Hto. destruct (get "values" d), (get "parameters" d); try discriminate Hto; auto.
    + rewrite <- Ec in *. assert (Hp : extra c b = true <-> together c [] (fun n => get n b)).
      { apply polynomial_extra; [easy|]. intros n Hin. rewrite Ec in Hfs. unfold table in Hfs.
        assert (Hdef : forall n kd, In (entry_or n kd ONone) fs -> exists o, get n b = Some o).
        { intros n' kd' Hin'. destruct (Harg _ Hin') as [(k & kd & j & o & _ & _ & E)|[_ E]]; cbn in E; eauto. }
        assert (Hfe : fs = needs ["coefficients"] ++ [entry_or "node" KNode ONone; entry_or "storage_node" KStorage ONone; entry_or "parameter" KPar ONone]
                          ++ lets ["use_proportional_volume"; "offset"; "scale"] ++ common) by congruence.
        cbn in Hin. destruct Hin as [<-|[<-|[<-|[]]]]; [apply (Hdef "node" KNode) | apply (Hdef "storage_node" KStorage) | apply (Hdef "parameter" KPar)];
          rewrite Hfe; cbn; tauto. }
      apply Hp in He. rewrite Ec in He |- *. exact He.
Qed.

(** A document has one meaning. *)
Lemma means_functional kd j o o' : means kd j o -> means kd j o' -> o = o'.
Proof.
  assert (Ht : exists t, for_type kd t = true).
  { destruct kd; first [exists TAny; reflexivity | exists TPar; reflexivity | exists TIndex; reflexivity | exists TComp; reflexivity | exists TComps; reflexivity
      | exists TWrap; reflexivity | exists TParNum; reflexivity | exists TRec; reflexivity | exists TScen; reflexivity | exists TScenNone; reflexivity
      | exists TNode; reflexivity | exists TStore; reflexivity]. }
  destruct Ht as [t Ht]. rewrite !(means_reads kd t j _ Ht). intros (x & H1 & H2) (y & H3 & H4). congruence.
Qed.
Lemma comes_from_functional d f k kd j k' kd' j' : In f fs -> comes_from d f k kd j -> comes_from d f k' kd' j' -> k = k' /\ kd = kd' /\ j = j'.
Proof.
  intros Hf H1 H2. destruct (comes_from_key _ _ _ _ _ H1) as [E1 _]. destruct (comes_from_key _ _ _ _ _ H2) as [E2 _].
  assert (k = k') by congruence. subst k'. destruct (comes_from_in _ _ _ _ _ H1) as [I1 G1]. destruct (comes_from_in _ _ _ _ _ H2) as [I2 G2].
  split; [easy|]. split; [|congruence].
  assert (Hnd : NoDup (map fst (a_keys f))).
  { destruct ok_parts as (_ & H & _). unfold all_keys in H. clear - Hf H. induction fs as [|x l IH]; [destruct Hf|]. cbn in H.
    destruct (NoDup_app_parts _ _ H) as [Hx Hl]. destruct Hf as [->|Hf]; [easy | now apply IH]. }
  assert (E : (k, kd) = (k, kd')) by (apply (same_image fst (a_keys f) Hnd); easy). congruence.
Qed.
Lemma argument_functional d f b b' : In f fs -> argument d f b -> argument d f b' -> b (a_name f) = b' (a_name f).
Proof.
  intros Hf [(k & kd & j & o & H1 & H2 & H3)|[H1 H2]] [(k' & kd' & j' & o' & H1' & H2' & H3')|[H1' H2']].
  - destruct (comes_from_functional _ _ _ _ _ _ _ _ Hf H1 H1') as (-> & -> & ->). rewrite H3, H3'. f_equal. eapply means_functional; eauto.
  - destruct (comes_from_in _ _ _ _ _ H1) as [Hi Hg]. rewrite (H1' _ _ Hi) in Hg. discriminate.
  - destruct (comes_from_in _ _ _ _ _ H1') as [Hi Hg]. rewrite (H1 _ _ Hi) in Hg. discriminate.
  - destruct (a_need f); [easy | congruence | congruence].
Qed.
Lemma document_functional d b b' : document_of c d b -> document_of c d b' -> forall n, b n = b' n.
Proof.
  intros (fs1 & E1 & A1 & _ & N1 & _) (fs2 & E2 & A2 & _ & N2 & _) n. assert (fs1 = fs) by congruence. assert (fs2 = fs) by congruence. subst fs1 fs2.
  destruct (in_dec string_dec n (map a_name fs)) as [Hin|Hnin].
  - apply in_map_iff in Hin. destruct Hin as (f & <- & Hf). apply (argument_functional d f); auto.
  - destruct (b n) eqn:Eb; [exfalso; destruct (N1 n) as (f & Hf & <-); [congruence | apply Hnin; now apply in_map]|].
    destruct (b' n) eqn:Eb'; [exfalso; destruct (N2 n) as (f & Hf & <-); [congruence | apply Hnin; now apply in_map] | easy].
Qed.

Theorem document_interp d b : NoDup (map fst d) -> document_of c d b -> exists b', interp c fs d = Some b' /\ forall n, get n b' = b n.
Proof.
  intros Hnd Hdoc. pose proof Hdoc as (fs1 & E1 & Harg & Hkeys & Hnames & Hto). assert (fs1 = fs) by congruence. subst fs1. clear E1.
  destruct ok_parts as (_ & _ & Hform & _ & _).
  assert (Hval : forall f, In f (popped c fs) -> value_of (a_keys f) (a_need f) d <> None).
  { intros f Hf. apply in_popped in Hf. destruct Hf as [Hf Et]. destruct (field_formal f Hf) as (fm & _ & _ & _ & Hpop). destruct (Hpop Et) as (Hkt & Hdef).
    destruct (Harg f Hf) as [(k & kd & j & o & H1 & H2 & _)|[H1 H2]].
    - destruct (comes_from_key _ _ _ _ _ H1) as [_ ->]. destruct (comes_from_in _ _ _ _ _ H1) as [Hi _].
      apply (means_reads kd (f_type fm) j o (Hkt _ _ Hi)) in H2. destruct H2 as (o' & -> & _). discriminate.
    - destruct (not_given_key _ _ H1) as [_ ->]. destruct (a_need f); [easy | discriminate | easy]. }
  destruct (pairs_goes d Hval) as [g Hg].
  assert (Hrest : forall k j, get k (hush c (pop_all (chosen d) d)) = Some j -> exists f, In f fs /\ through c f = true /\ a_name f = k).
  { intros k j Hr. apply (rest_get d k j Hnd) in Hr. destruct Hr as (Hj & Hnc & Hq). destruct (Hkeys k j Hj) as [(f & kd & Hf & Hcf)|He].
    - destruct (through c f) eqn:Et.
      + exists f. split; [easy|]. split; [easy|]. destruct (through_form _ _ Et) as (k' & Hks & Hkn & _). destruct (comes_from_in _ _ _ _ _ Hcf) as [Hi _].
        rewrite Hks in Hi. destruct Hi as [E|[]]. congruence.
      + exfalso. apply Hnc. apply chosen_spec. exists f, kd, j. split; [apply in_popped; easy | easy].
    - apply effect_quiet in He. congruence. }
  set (given := g ++ raws (hush c (pop_all (chosen d) d))) in *.
  assert (Hgiven : forall f, In f fs -> exists fm, In fm (formals c) /\ f_name fm = a_name f /\
            match get (a_name f) given with Some o => fit (f_type fm) o = b (a_name f) /\ b (a_name f) <> None | None => f_required fm = false /\ b (a_name f) = None end).
  { intros f Hf. destruct (field_formal f Hf) as (fm & Hfm & Hn & Hthr & Hpop). exists fm. split; [easy|]. split; [easy|].
    unfold given. rewrite get_app, get_raws. destruct (through c f) eqn:Et.
    - destruct (Hthr eq_refl) as (Hty & Hrq & _). destruct (through_form _ _ Et) as (k & Hks & Hkn & Hneed).
      assert (Hng : get (a_name f) g = None).
      { apply get_none_key. rewrite (pairs_names _ _ Hg). intros Hin. apply in_map_iff in Hin. destruct Hin as (f' & E & Hf').
        apply in_popped in Hf'. destruct Hf' as [Hf' Ht']. assert (f' = f) by now apply same_field. congruence. }
      rewrite Hng. destruct (Harg f Hf) as [(k' & kd & j & o & H1 & H2 & H3)|[H1 H2]].
      + destruct (comes_from_in _ _ _ _ _ H1) as [Hi Hgj]. rewrite Hks in Hi. destruct Hi as [E|[]]. assert (k' = a_name f) by congruence. assert (kd = KRaw) by congruence. subst k' kd.
        apply (proj2 (through_rest d f j Hnd Hf Et)) in Hgj. rewrite Hgj. cbn. rewrite Hty, H3. split; [|discriminate].
        apply (means_reads KRaw TAny j o eq_refl) in H2. destruct H2 as (o' & H4 & H5). cbn in H4. assert (o' = raw j) by congruence. subst o'. exact H5.
      + destruct (get (a_name f) (hush c (pop_all (chosen d) d))) as [j|] eqn:Er; cbn.
        * exfalso. apply (proj1 (through_rest d f j Hnd Hf Et)) in Er. rewrite (H1 (a_name f) KRaw) in Er; [discriminate|]. rewrite Hks, Hkn. now left.
        * rewrite Hrq. destruct Hneed as [E|E]; rewrite E in *; easy.
    - destruct (Hpop eq_refl) as (Hkt & Hdef). assert (Hfp : In f (popped c fs)) by (apply in_popped; easy).
      destruct (pairs_get _ _ _ Hg Hfp) as (o & Hv & Hgo). rewrite Hgo. destruct (Harg f Hf) as [(k & kd & j & o' & H1 & H2 & H3)|[H1 H2]].
      + destruct (comes_from_key _ _ _ _ _ H1) as [_ Hv']. rewrite Hv' in Hv. destruct (comes_from_in _ _ _ _ _ H1) as [Hi _].
        apply (means_reads kd (f_type fm) j o' (Hkt _ _ Hi)) in H2. destruct H2 as (o2 & H4 & H5). rewrite H3. split; [congruence | discriminate].
      + destruct (not_given_key _ _ H1) as [_ Hv']. rewrite Hv' in Hv. destruct (a_need f) as [|o0|]; try discriminate. assert (o0 = o) by congruence. subst o0.
        rewrite H2. split; [easy | discriminate]. }
  assert (Hbound : exists b', bound (formals c) given = Some b').
  { apply bound_goes. intros fm Hfm. destruct (formal_field fm Hfm) as (f & Hf & En). destruct (Hgiven f Hf) as (fm' & Hfm' & En' & H).
    assert (fm' = fm) by (apply same_formal; congruence). subst fm'. rewrite <- En. destruct (get (a_name f) given) as [o|]; [destruct H as [-> H]; exact H | tauto]. }
  destruct Hbound as [b' Hb']. destruct (bound_get _ _ _ Hform Hb') as [B1 B2].
  assert (Hsame : forall n, get n b' = b n).
  { intros n. destruct (in_dec string_dec n (map f_name (formals c))) as [Hin|Hnin].
    - apply in_map_iff in Hin. destruct Hin as (fm & <- & Hfm). destruct (formal_field fm Hfm) as (f & Hf & En). destruct (Hgiven f Hf) as (fm' & Hfm' & En' & H).
      assert (fm' = fm) by (apply same_formal; congruence). subst fm'. specialize (B1 fm Hfm). rewrite <- En in *. destruct (get (a_name f) given) as [o|].
      + destruct B1 as (o' & E1 & E2). destruct H as [H _]. congruence.
      + destruct B1 as [_ ->]. destruct H as [_ ->]. easy.
    - rewrite (B2 n Hnin). destruct (b n) eqn:Eb; [|easy]. exfalso. destruct (Hnames n) as (f & Hf & <-); [congruence|].
      destruct (field_formal f Hf) as (fm & Hfm & En & _). apply Hnin. rewrite <- En. now apply in_map. }
  exists b'. split; [|easy]. apply interp_some. split.
  - unfold together_ok. destruct c; try easy; cbn in Hto; unfold present; destruct (get "values" d), (get "parameters" d); try easy;
      destruct Hto as [Hto|Hto]; try discriminate; destruct Hto as [Hto1 Hto2]; try discriminate; now contradiction Hto2 || now contradiction Hto1.
  - exists g. split; [easy|]. fold given. apply call_with_some. repeat split.
    + unfold given. rewrite map_app, raws_names, (pairs_names _ _ Hg).
      assert (Hnr : NoDup (map fst (hush c (pop_all (chosen d) d)))) by (apply NoDup_filter_keys, NoDup_pop_all; easy).
      pose proof popped_names as Hnp.
      assert (Hdis : forall n, In n (map a_name (popped c fs)) -> In n (map fst (hush c (pop_all (chosen d) d))) -> False).
      { intros n H1 H2. apply in_map_iff in H1. destruct H1 as (f & En & Hf). apply in_popped in Hf. destruct Hf as [Hf Et].
        apply get_key in H2. destruct H2 as [j Hj]. destruct (Hrest n j Hj) as (f' & Hf' & Et' & En'). assert (f = f') by (apply same_field; congruence). congruence. }
      revert Hnp Hnr Hdis. generalize (map a_name (popped c fs)), (map fst (hush c (pop_all (chosen d) d))). intros l m Hl Hm Hd.
      induction l as [|x l IH]; cbn; [easy|]. inversion Hl as [|? ? N1 N2]; subst. constructor.
      * intros Hin. apply in_app_or in Hin. destruct Hin as [Hin|Hin]; [contradiction|]. apply (Hd x); [now left | easy].
      * apply IH; [easy|]. intros n Hn1. apply Hd. now right.
    + intros n Hin. assert (Hfld : exists f, In f fs /\ a_name f = n).
      { unfold given in Hin. rewrite map_app, raws_names, (pairs_names _ _ Hg) in Hin. apply in_app_or in Hin. destruct Hin as [Hin|Hin].
        - apply in_map_iff in Hin. destruct Hin as (f & En & Hf). apply in_popped in Hf. exists f. tauto.
        - apply get_key in Hin. destruct Hin as [j Hj]. destruct (Hrest n j Hj) as (f & Hf & _ & En). eauto. }
      destruct Hfld as (f & Hf & <-). destruct (field_formal f Hf) as (fm & Hfm & En & _). rewrite <- En. now apply in_map.
    + easy.
    + destruct c eqn:Ec; try reflexivity. rewrite <- Ec in *. apply polynomial_extra; [easy| |].
      * intros n Hin. rewrite Hsame. rewrite Ec in Hfs. unfold table in Hfs.
        assert (Hdef : forall n kd, In (entry_or n kd ONone) fs -> exists o, b n = Some o).
        { intros n' kd' Hin'. destruct (Harg _ Hin') as [(k & kd & j & o & _ & _ & E)|[_ E]]; cbn in E; eauto. }
        assert (Hfe : fs = needs ["coefficients"] ++ [entry_or "node" KNode ONone; entry_or "storage_node" KStorage ONone; entry_or "parameter" KPar ONone]
                          ++ lets ["use_proportional_volume"; "offset"; "scale"] ++ common) by congruence.
        cbn in Hin. destruct Hin as [<-|[<-|[<-|[]]]]; [apply (Hdef "node" KNode) | apply (Hdef "storage_node" KStorage) | apply (Hdef "parameter" KPar)];
          rewrite Hfe; cbn; tauto.
      * rewrite Ec in Hto |- *. cbn in Hto |- *. intros m n Hm Hn Hne. rewrite !Hsame. now apply Hto.
Qed.
End Class.
End World.
