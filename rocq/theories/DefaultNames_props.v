(** C125: recorders without a name. *)
From Coq Require Import Strings.Ascii Strings.String Lia.
From Verif Require Import Base Names_model DefaultNames_model.
From Verif Require Hash_model.
Local Open Scope string_scope.
Local Open Scope list_scope.

(** Names of classes have no full stops. *)
Fixpoint identifier (s : string) : Prop := match s with EmptyString => True | String c r => c <> "."%char /\ identifier r end.

(** What distinguishes the recorders: the class, and the name of what they are on, if they are on something. *)
Definition watched (t : target) : option string :=
  match t with OnNothing => None | OnNode _ n => Some n | OnParameter _ (Some n) => Some n | OnParameter _ None => Some "None" end.

Lemma lower_identifier : forall s, identifier s -> identifier (Hash_model.lower s).
Proof.
  induction s as [|c s IH]; [trivial|]. intros [H K]. cbn [Hash_model.lower identifier]. split; [|auto]. clear IH K.
  unfold Hash_model.lower_char. cbv zeta. pose proof (nat_ascii_bounded c).
  destruct (Nat.leb_spec 65 (nat_of_ascii c)); destruct (Nat.leb_spec (nat_of_ascii c) 90); cbn [andb]; auto.
  intros E. apply (f_equal nat_of_ascii) in E. rewrite nat_ascii_embedding in E by lia. cbn in E. lia.
Qed.
Lemma append_dot : forall a b x y, identifier a -> identifier b -> (a ++ "." ++ x = b ++ "." ++ y)%string -> a = b /\ x = y.
Proof.
  induction a as [|c a IH]; intros [|d b] x y Ia Ib E; cbn in E.
  - split; congruence.
  - destruct Ib as [N _]. exfalso. apply N. congruence.
  - destruct Ia as [N _]. exfalso. apply N. congruence.
  - assert (c = d) by congruence. destruct (IH b x y (proj2 Ia) (proj2 Ib)) as [-> ->]; [cbn; congruence|]. subst. auto.
Qed.
Lemma no_dot : forall a b x, identifier a -> a <> (b ++ "." ++ x)%string.
Proof.
  induction a as [|c a IH]; intros [|d b] x I; cbn; try discriminate; destruct I as [N I].
  - intros E. congruence.
  - intros E. apply (IH b x I). cbn. congruence.
Qed.
Lemma default_name r : r_name r = None ->
  recorder_name r = match watched (r_target r) with None => Hash_model.lower (r_class r) | Some n => Hash_model.lower (r_class r) ++ "." ++ n end%string.
Proof. intros E. unfold recorder_name. rewrite E. destruct (r_target r) as [|i n|i [n|]]; reflexivity. Qed.

(** C125: a recorder has the name it is given, or else that of its class in small letters and of what it is on. *)
Theorem C125_called : forall r, (forall n, r_name r = Some n -> recorder_name r = n)
  /\ (r_name r = None -> watched (r_target r) = None -> recorder_name r = Hash_model.lower (r_class r))
  /\ (forall n, r_name r = None -> watched (r_target r) = Some n -> recorder_name r = (Hash_model.lower (r_class r) ++ "." ++ n)%string).
Proof.
  intros r. split; [|split].
  - intros n E. unfold recorder_name. rewrite E. reflexivity.
  - intros E W. rewrite (default_name r E), W. reflexivity.
  - intros n E W. rewrite (default_name r E), W. reflexivity.
Qed.
Print Assumptions C125_called.

(** C125: two recorders without names are called the same exactly if their classes are, and they are on things of the same name. *)
Theorem C125_distinct : forall r s, identifier (r_class r) -> identifier (r_class s) -> r_name r = None -> r_name s = None ->
  (recorder_name r = recorder_name s <-> Hash_model.lower (r_class r) = Hash_model.lower (r_class s) /\ watched (r_target r) = watched (r_target s)).
Proof.
  intros r s Ir Is Nr Ns. rewrite (default_name r Nr), (default_name s Ns). apply lower_identifier in Ir. apply lower_identifier in Is.
  split; [|intros [E1 E2]; rewrite E1, E2; reflexivity].
  destruct (watched (r_target r)) as [n|], (watched (r_target s)) as [m|]; intros E.
  - destruct (append_dot _ _ _ _ Ir Is E) as [-> ->]. auto.
  - exfalso. symmetry in E. exact (no_dot _ _ _ Is E).
  - exfalso. exact (no_dot _ _ _ Ir E).
  - auto.
Qed.
Print Assumptions C125_distinct.

Definition bears (l : list component) (name : string) : Prop := exists c, In c l /\ c_name c = Some name.
Lemma free_iff name l : component_free (Some name) l = true <-> ~ bears l name.
Proof.
  unfold component_free, bears. split.
  - intros H (c & I & E). apply Bool.negb_true_iff in H.
    assert (X : existsb (fun c => match c_name c with Some t => String.eqb name t | None => false end) l = true).
    { apply existsb_exists. exists c. split; [exact I|]. rewrite E. apply String.eqb_refl. }
    congruence.
  - intros H. apply Bool.negb_true_iff. destruct (existsb _ l) eqn:E; [|reflexivity]. exfalso. apply H.
    apply existsb_exists in E. destruct E as (c & I & E). exists c. split; [exact I|]. destruct (c_name c) as [t|]; [|discriminate].
    apply String.eqb_eq in E. congruence.
Qed.

(** C125: recorders made one after the other are all made exactly if their names are different and not those of components already there; they come after
    these in the order in which they were made, by those names. One whose name is taken is refused and changes nothing. *)
Theorem C125_created : forall recs l, Forall (eq true) (fst (create_all recs l)) <->
  NoDup (map recorder_name recs) /\ forall r, In r recs -> ~ bears l (recorder_name r).
Proof.
  induction recs as [|r recs IH]; intros l; cbn [create_all fst].
  - cbn. split; [intros _; split; [constructor|contradiction]|constructor].
  - unfold create_component. destruct (component_free (Some (recorder_name r)) l) eqn:F.
    + apply (proj1 (free_iff _ _)) in F. specialize (IH (l ++ [Component (List.length l) (Some (recorder_name r))])).
      destruct (create_all recs (l ++ [Component (List.length l) (Some (recorder_name r))])) as [all l2]. cbn [fst] in *. cbn [map].
      assert (B : forall n, bears (l ++ [Component (List.length l) (Some (recorder_name r))]) n <-> bears l n \/ n = recorder_name r).
      { intros n. unfold bears. split.
        - intros (c & I & E). apply in_app_or in I. destruct I as [I|[<-|[]]]; [left; eauto|right; cbn in E; congruence].
        - intros [(c & I & E)| ->]; [exists c; split; [apply in_or_app; auto|exact E]|].
          exists (Component (List.length l) (Some (recorder_name r))). split; [apply in_or_app; right; left; reflexivity|reflexivity]. }
      split.
      * intros H. inversion H as [|? ? _ H2]; subst. apply (proj1 IH) in H2. destruct H2 as [ND D]. split.
        { constructor; [|exact ND]. intros I. apply in_map_iff in I. destruct I as (s & E & I). apply (D s I). apply B. right. exact E. }
        { intros s [<-|I]; [exact F|]. intros X. apply (D s I). apply B. left. exact X. }
      * intros [ND D]. inversion ND as [|? ? NI ND2]; subst. constructor; [reflexivity|]. apply (proj2 IH). split; [exact ND2|].
        intros s I X. apply B in X. destruct X as [X|X]; [exact (D s (or_intror I) X)|]. apply NI. rewrite <- X. apply in_map. exact I.
    + destruct (create_all recs l) as [all l2]. cbn [fst]. split.
      * intros H. inversion H. discriminate.
      * intros [_ D]. exfalso. specialize (D r (or_introl eq_refl)). apply (proj2 (free_iff _ _)) in D. congruence.
Qed.
Print Assumptions C125_created.
Theorem C125_names : forall recs l, Forall (eq true) (fst (create_all recs l)) ->
  exists new, snd (create_all recs l) = l ++ new /\ map c_name new = map (fun r => Some (recorder_name r)) recs.
Proof.
  induction recs as [|r recs IH]; intros l; cbn [create_all].
  - intros _. exists []. rewrite app_nil_r. auto.
  - unfold create_component. destruct (component_free (Some (recorder_name r)) l).
    + specialize (IH (l ++ [Component (List.length l) (Some (recorder_name r))])).
      destruct (create_all recs (l ++ [Component (List.length l) (Some (recorder_name r))])) as [all l2]. cbn [fst snd] in *.
      intros H. inversion H; subst. destruct IH as (new & -> & E); [assumption|].
      exists (Component (List.length l) (Some (recorder_name r)) :: new). rewrite <- app_assoc. split; [reflexivity|]. cbn. rewrite E. reflexivity.
    + destruct (create_all recs l). cbn. intros H. inversion H. discriminate.
Qed.
Print Assumptions C125_names.
Theorem C125_taken : forall r l, bears l (recorder_name r) -> create_all [r] l = ([false], l).
Proof.
  intros r l B. cbn. unfold create_component. destruct (component_free (Some (recorder_name r)) l) eqn:F; [|reflexivity].
  exfalso. apply (proj1 (free_iff _ _)) in F. auto.
Qed.
Print Assumptions C125_taken.

(** So recorders that are given no name can all be made in a new model exactly if no two are of one class and on things of one name. *)
Theorem C125_unnamed : forall recs, (forall r, In r recs -> identifier (r_class r) /\ r_name r = None) ->
  (Forall (eq true) (fst (create_all recs [])) <-> NoDup (map (fun r => (Hash_model.lower (r_class r), watched (r_target r))) recs)).
Proof.
  intros recs H. rewrite C125_created. transitivity (NoDup (map recorder_name recs)).
  { split; [tauto|]. intros ND. split; [exact ND|]. intros r _ (c & [] & _). }
  induction recs as [|r recs IH]; cbn [map]; [split; constructor|].
  assert (IH' := IH (fun s I => H s (or_intror I))). destruct (H r (or_introl eq_refl)) as [Ir Nr].
  split; intros ND; inversion ND as [|? ? NI ND2]; subst; (constructor; [|apply IH'; exact ND2]); intros I; apply NI; apply in_map_iff in I;
    destruct I as (s & E & I); apply in_map_iff; exists s; (split; [|exact I]); destruct (H s (or_intror I)) as [Is Ns].
  - apply (proj2 (C125_distinct s r Is Ir Ns Nr)). split; congruence.
  - apply (proj1 (C125_distinct s r Is Ir Ns Nr)) in E. destruct E as [-> ->]. reflexivity.
Qed.
Print Assumptions C125_unnamed.

Example unnamed_example :
  let a := Recorder "NumpyArrayNodeRecorder" (OnNode 0 "demand") None in
  let b := Recorder "NumpyArrayNodeRecorder" (OnNode 1 "river") None in
  let c := Recorder "TotalFlowNodeRecorder" (OnNode 0 "demand") None in
  fst (create_all [a; b; c; a] []) = [true; true; true; false] /\ recorder_name a = "numpyarraynoderecorder.demand"
  /\ map c_name (snd (create_all [a; b; c; a] [])) = map (fun r => Some (recorder_name r)) [a; b; c].
Proof. vm_compute. repeat split; reflexivity. Qed.

(** Things are different although their names are not: recorders of two parameters without names, or on nothing, are refused after the first. *)
Theorem C125_parameters_refuted : exists r s, r_target r <> r_target s /\ r_name r = None /\ r_name s = None /\ fst (create_all [r; s] []) = [true; false].
Proof.
  exists (Recorder "NumpyArrayParameterRecorder" (OnParameter 0 None) None), (Recorder "NumpyArrayParameterRecorder" (OnParameter 1 None) None).
  vm_compute. repeat split; try reflexivity. discriminate.
Qed.
Print Assumptions C125_parameters_refuted.
Theorem C125_on_nothing_refuted : exists r, identifier (r_class r) /\ r_target r = OnNothing /\ r_name r = None /\ fst (create_all [r; r] []) = [true; false].
Proof. exists (Recorder "AggregatedRecorder" OnNothing None). repeat split; try discriminate; vm_compute; reflexivity. Qed.
Print Assumptions C125_on_nothing_refuted.
