From Coq Require Import Strings.String Sorting.Permutation.
From Verif Require Import Base Paths Documents_model Documents_proofs Drawing_props NodeLoad_model.
Local Open Scope string_scope.
Local Open Scope nat_scope.
Local Open Scope list_scope.

(** * Specification *)

(** [n]'s entry refers to [r]. *)
Definition refers (doc : document) (n r : string) : Prop := exists e, get n doc = Some e /\ In r (e_refs e).
(** The node made from the entry of [n] is at place [i]. *)
Definition made_at (g : graph) (n : string) (i : nat) : Prop := nth_error g i = Some (n, FromEntry).
Definition present (g : graph) (n : string) (i : nat) : Prop := exists o, nth_error g i = Some (n, o).
Definition all_subs (doc : document) : list (string * bool) := flat_map (fun p => e_subs (snd p)) doc.
Definition top_subs (doc : document) : list string := map fst (filter snd (all_subs doc)).
(** No name is used twice, other than by children. *)
Definition clean (doc : document) : Prop :=
  NoDup (map fst doc ++ top_subs doc) /\ (forall s, In (s, false) (all_subs doc) -> ~ In s (map fst doc ++ top_subs doc)).
Definition closed (doc : document) : Prop := forall n r, refers doc n r -> In r (map fst doc).
Definition acyclic (doc : document) : Prop := forall n, ~ plus (refers doc) n n.
Definition sound (doc : document) : Prop := forall n e, In (n, e) doc -> e_known e = true /\ e_good e = true.

Lemma mem_In n l : mem n l = true <-> In n l.
Proof.
  unfold mem. rewrite existsb_exists. split.
  - intros (x & I & E). apply String.eqb_eq in E. now subst.
  - intros I. exists n. split; [exact I|apply String.eqb_refl].
Qed.

Lemma get_key {V} n (d : dict V) : In n (map fst d) <-> exists v, get n d = Some v.
Proof.
  unfold dict in *. induction d as [|[k v] d IH]; cbn [map fst get].
  - split; [intros []|intros (v & H); discriminate].
  - destruct (String.eqb_spec k n) as [->|N].
    + split; [intros _; now exists v|intros _; now left].
    + rewrite <- IH. cbn [In]. split; [intros [E|I]; [contradiction|exact I]|intros I; now right].
Qed.
Lemma get_none_key {V} n (d : dict V) : get n d = None <-> ~ In n (map fst d).
Proof.
  rewrite get_key. destruct (get n d) as [v|]; split.
  - discriminate.
  - intros H. exfalso. apply H. now exists v.
  - intros _ (v & H). discriminate.
  - reflexivity.
Qed.
Lemma get_in_pair {V} n (d : dict V) v : get n d = Some v -> In (n, v) d.
Proof.
  unfold dict in *. induction d as [|[k w] d IH]; cbn [get]; [discriminate|].
  destruct (String.eqb_spec k n) as [->|N]; intros H; [injection H as <-; now left|right; auto].
Qed.
Lemma get_of_pair {V} n (d : dict V) v : NoDup (map fst d) -> In (n, v) d -> get n d = Some v.
Proof.
  unfold dict in *. induction d as [|[k w] d IH]; cbn [map fst get]; intros ND I; [destruct I|].
  inversion ND; subst. destruct I as [E|I].
  - injection E as -> ->. now rewrite String.eqb_refl.
  - destruct (String.eqb_spec k n) as [->|N]; [exfalso; apply H1; apply in_map_iff; now exists (n, v)|auto].
Qed.
Lemma get_app {V} n (d d' : dict V) : get n (d ++ d') = match get n d with Some v => Some v | None => get n d' end.
Proof.
  unfold dict in *. induction d as [|[k w] d IH]; cbn [app get]; [reflexivity|]. now destruct (String.eqb k n).
Qed.

(** The first place of a name. *)
Fixpoint first {V} (n : string) (d : list (string * V)) : nat :=
  match d with [] => 0 | (k, _) :: d => if String.eqb k n then 0 else S (first n d) end.
Lemma first_nth {V} n (d : dict V) v : get n d = Some v -> nth_error d (first n d) = Some (n, v).
Proof.
  unfold dict in *. induction d as [|[k w] d IH]; cbn [get first]; [discriminate|].
  destruct (String.eqb_spec k n) as [->|N]; intros H; [injection H as <-; reflexivity|now apply IH].
Qed.
Lemma first_le {V} n (d : dict V) i v : nth_error d i = Some (n, v) -> first n d <= i.
Proof.
  unfold dict in *. revert i. induction d as [|[k w] d IH]; intros i H; [now destruct i|]. cbn [first].
  destruct i; cbn [nth_error] in H.
  - injection H as -> ->. rewrite String.eqb_refl. apply le_n.
  - destruct (String.eqb k n); [lia|]. specialize (IH _ H). lia.
Qed.

(** * What loading leaves behind *)

(** The invariant of graphs: nodes made from entries have entries and follow what they refer to, and no name was taken when a node was added. *)
Record tidy (doc : document) (g : graph) : Prop := {
  t_entry : forall n i, made_at g n i -> exists e, get n doc = Some e /\ e_known e = true /\ e_good e = true /\
              (forall s, In s (e_subs e) -> In (fst s, Part (snd s)) g) /\
              (forall r, In r (e_refs e) -> exists j, j < i /\ present g r j);
  t_part : forall s t, In (s, Part t) g -> exists n e, get n doc = Some e /\ In (s, t) (e_subs e) /\ In (n, FromEntry) g;
  t_taken : forall n i j o, made_at g n i -> nth_error g j = Some (n, o) -> is_top o = true \/ i < j -> i = j }.

Lemma tidy_nil doc : tidy doc [].
Proof.
  split.
  - intros n i H. unfold made_at in H. now destruct i.
  - intros s t [].
  - intros n i j o H. unfold made_at in H. now destruct i.
Qed.

Lemma taken_In g n : taken g n = true <-> exists o, In (n, o) g /\ is_top o = true.
Proof.
  unfold taken. rewrite existsb_exists. split.
  - intros ([m o] & I & E). cbn [fst snd] in E. apply Bool.andb_true_iff in E as [E T]. apply String.eqb_eq in E as ->. now exists o.
  - intros (o & I & T). exists (n, o). cbn [fst snd]. now rewrite String.eqb_refl, T.
Qed.

Lemma construct_some n e g g' : construct n e g = Some g' ->
  g' = g ++ map (fun s => (fst s, Part (snd s))) (e_subs e) ++ [(n, FromEntry)] /\ e_good e = true /\
  (forall s, In s (e_subs e) -> taken g (fst s) = false) /\ taken (g ++ map (fun s => (fst s, Part (snd s))) (e_subs e)) n = false.
Proof.
  unfold construct. cbv zeta.
  destruct (e_good e) eqn:G; cbn [andb]; [|discriminate].
  destruct (existsb (taken g) (map fst (e_subs e))) eqn:X; cbn [negb andb]; [discriminate|].
  destruct (taken (g ++ map (fun s => (fst s, Part (snd s))) (e_subs e)) n) eqn:T; cbn [negb]; [discriminate|].
  intros H. injection H as <-. repeat split.
  intros s I. destruct (taken g (fst s)) eqn:Y; [|reflexivity].
  exfalso. enough (existsb (taken g) (map fst (e_subs e)) = true) by congruence.
  apply existsb_exists. exists (fst s). split; [now apply in_map|exact Y].
Qed.

Lemma nth_error_split3 {A} (l m : list A) x i y : nth_error (l ++ m ++ [x]) i = Some y ->
  nth_error l i = Some y \/ (List.length l <= i < List.length l + List.length m /\ In y m) \/ (i = List.length l + List.length m /\ y = x).
Proof.
  intros H. destruct (Nat.lt_ge_cases i (List.length l)) as [L|L].
  - left. now rewrite nth_error_app1 in H.
  - right. rewrite nth_error_app2 in H by exact L.
    destruct (Nat.lt_ge_cases (i - List.length l) (List.length m)) as [K|K].
    + left. rewrite nth_error_app1 in H by exact K. split; [lia|]. now apply nth_error_In in H.
    + right. rewrite nth_error_app2 in H by exact K.
      destruct (i - List.length l - List.length m) as [|k] eqn:E; cbn [nth_error] in H.
      * injection H as <-. split; [lia|reflexivity].
      * now destruct k.
Qed.

Lemma tidy_construct doc n e g g' :
  tidy doc g -> get n doc = Some e -> e_known e = true -> (forall r, In r (e_refs e) -> exists j, present g r j) ->
  construct n e g = Some g' -> tidy doc g'.
Proof.
  intros T E K R C. apply construct_some in C as (-> & G & S' & N).
  set (parts := map (fun s => (fst s, Part (snd s))) (e_subs e)) in *.
  assert (PP : forall p, In p parts -> exists s t, p = (s, Part t) /\ In (s, t) (e_subs e)).
  { intros p I. apply in_map_iff in I as ([s t] & <- & I). now exists s, t. }
  assert (LL : forall r j, present g r j -> j < List.length g).
  { intros r j [o P]. apply nth_error_Some. congruence. }
  assert (UP : forall r j, present g r j -> present (g ++ parts ++ [(n, FromEntry)]) r j).
  { intros r j P. destruct P as [o P]. exists o. rewrite nth_error_app1; [exact P|]. apply nth_error_Some. congruence. }
  split.
  - intros m i M. unfold made_at in M. apply nth_error_split3 in M as [M|[[_ M]|[-> M]]].
    + destruct (t_entry _ _ T _ _ M) as (e' & E' & K' & G' & SB & RF). exists e'. repeat (split; [assumption|]). split.
      * intros s I. apply in_or_app. left. now apply SB.
      * intros r I. destruct (RF r I) as (j & L & P). exists j. split; [exact L|now apply UP].
    + apply PP in M as (s & t & M & _). discriminate.
    + injection M as ->. exists e. repeat (split; [assumption|]). split.
      * intros s I. apply in_or_app. right. apply in_or_app. left. unfold parts. apply in_map_iff. now exists s.
      * intros r I. destruct (R r I) as (j & P). exists j. split; [|now apply UP]. specialize (LL _ _ P). lia.
  - intros s t I. apply in_app_or in I as [I|I].
    + destruct (t_part _ _ T _ _ I) as (m & e' & E' & I' & M). exists m, e'. split; [assumption|]. split; [assumption|]. apply in_or_app. now left.
    + apply in_app_or in I as [I|[I|[]]].
      * apply PP in I as (s' & t' & H & I). injection H as -> ->. exists n, e. split; [assumption|]. split; [assumption|].
        apply in_or_app. right. apply in_or_app. right. now left.
      * discriminate.
  - intros m i j o M J U. unfold made_at in M. apply nth_error_split3 in M as [M|[[_ M]|[-> M]]].
    + apply nth_error_split3 in J as [J|[[L J]|[-> J]]].
      * exact (t_taken _ _ T m i j o M J U).
      * exfalso. apply PP in J as (s & t & H & I). injection H as -> ->.
        assert (X : taken g s = true) by (apply taken_In; exists FromEntry; split; [now apply nth_error_In in M|reflexivity]).
        specialize (S' _ I). cbn [fst] in S'. congruence.
      * exfalso. injection J as -> ->.
        assert (X : taken (g ++ parts) n = true).
        { apply taken_In. exists FromEntry. split; [apply in_or_app; left; now apply nth_error_In in M|reflexivity]. }
        congruence.
    + apply PP in M as (s & t & M & _). discriminate.
    + injection M as ->. assert (L : j <= List.length g + List.length parts).
      { assert (j < List.length (g ++ parts ++ [(n, FromEntry)])) by (apply nth_error_Some; congruence).
        rewrite !app_length in H. cbn [List.length] in H. lia. }
      destruct (Nat.eq_dec j (List.length g + List.length parts)) as [->|D]; [reflexivity|].
      exfalso. destruct U as [U|U]; [|lia].
      assert (X : taken (g ++ parts) n = true).
      { apply taken_In. exists o. split; [|exact U].
        rewrite app_assoc, nth_error_app1 in J by (rewrite app_length; lia). now apply nth_error_In in J. }
      congruence.
Qed.

(** Loading only adds. *)
Definition extends (g g' : graph) : Prop := exists h, g' = g ++ h.
Lemma extends_refl g : extends g g.
Proof. exists []. now rewrite app_nil_r. Qed.
Lemma extends_trans a b c : extends a b -> extends b c -> extends a c.
Proof. intros [h ->] [k ->]. exists (h ++ k). now rewrite app_assoc. Qed.
Lemma extends_present g g' r j : extends g g' -> present g r j -> present g' r j.
Proof. intros [h ->] [o P]. exists o. rewrite nth_error_app1; [exact P|]. apply nth_error_Some. congruence. Qed.

Lemma lookup_present g n o : lookup n g = Some o -> present g n (first n g).
Proof. intros H. exists o. now apply first_nth. Qed.

Lemma pre_load_tidy doc fuel : forall n st st',
  tidy doc (fst st) -> pre_load_node doc fuel n st = Done st' ->
  tidy doc (fst st') /\ extends (fst st) (fst st') /\ (exists j, present (fst st') n j).
Proof.
  induction fuel as [|fuel IH]; intros n st st' T H; cbn [pre_load_node] in H; [discriminate|].
  destruct (lookup n (fst st)) as [o|] eqn:L.
  - injection H as <-. split; [exact T|]. split; [apply extends_refl|]. exists (first n (fst st)). now apply lookup_present in L.
  - destruct (get n doc) as [e|] eqn:E; [|discriminate].
    destruct (mem n (snd st)); [discriminate|].
    destruct (e_known e) eqn:K; cbn [negb] in H; [|discriminate].
    assert (EA : forall l s s', tidy doc (fst s) -> each (pre_load_node doc fuel) l s = Done s' ->
              tidy doc (fst s') /\ extends (fst s) (fst s') /\ forall r, In r l -> exists j, present (fst s') r j).
    { induction l as [|r l IHl]; intros s s' Ts Hs; cbn [each] in Hs.
      - injection Hs as <-. split; [exact Ts|]. split; [apply extends_refl|intros r []].
      - destruct (pre_load_node doc fuel r s) as [s1| |] eqn:P; try discriminate.
        destruct (IH _ _ _ Ts P) as (T1 & X1 & J1). destruct (IHl _ _ T1 Hs) as (T2 & X2 & J2).
        split; [exact T2|]. split; [now apply extends_trans with (fst s1)|].
        intros q [<-|I]; [|now apply J2]. destruct J1 as [j J1]. exists j. now apply extends_present with (fst s1). }
    destruct (each (pre_load_node doc fuel) (e_refs e) (fst st, n :: snd st)) as [s1| |] eqn:P; try discriminate.
    destruct (EA _ (fst st, n :: snd st) _ T P) as (T1 & X1 & J1). cbn [fst] in X1.
    destruct (construct n e (fst s1)) as [g|] eqn:C; [|discriminate]. injection H as <-. cbn [fst].
    split; [now apply (tidy_construct doc n e (fst s1) g T1 E K J1)|].
    apply construct_some in C as (-> & _ & _ & _). split.
    + apply extends_trans with (fst s1); [exact X1|]. eexists. reflexivity.
    + exists (List.length (fst s1) + List.length (e_subs e)), FromEntry.
      rewrite nth_error_app2 by lia. rewrite nth_error_app2 by (rewrite map_length; lia).
      rewrite map_length. now replace (List.length (fst s1) + List.length (e_subs e) - List.length (fst s1) - List.length (e_subs e)) with 0 by lia.
Qed.

Lemma each_tidy doc fuel : forall l s s', tidy doc (fst s) -> each (pre_load_node doc fuel) l s = Done s' ->
  tidy doc (fst s') /\ extends (fst s) (fst s') /\ forall r, In r l -> exists j, present (fst s') r j.
Proof.
  induction l as [|r l IHl]; intros s s' Ts Hs; cbn [each] in Hs.
  - injection Hs as <-. split; [exact Ts|]. split; [apply extends_refl|intros r []].
  - destruct (pre_load_node doc fuel r s) as [s1| |] eqn:P; try discriminate.
    destruct (pre_load_tidy _ _ _ _ _ Ts P) as (T1 & X1 & J1). destruct (IHl _ _ T1 Hs) as (T2 & X2 & J2).
    split; [exact T2|]. split; [now apply extends_trans with (fst s1)|].
    intros q [<-|I]; [|now apply J2]. destruct J1 as [j J1]. exists j. now apply extends_present with (fst s1).
Qed.

Lemma load_done doc g : load doc = Done g -> tidy doc g /\ forall n, In n (map fst doc) -> lookup n g = Some FromEntry.
Proof.
  unfold load. destruct (each _ _ _) as [[g' op]| |] eqn:E; try discriminate.
  destruct (forallb (finalise_node g') (map fst doc)) eqn:F; [|discriminate]. intros H. injection H as <-.
  destruct (each_tidy _ _ _ ([], []) _ (tidy_nil doc) E) as (T & _ & _). split; [exact T|].
  intros n I. rewrite forallb_forall in F. specialize (F n I). unfold finalise_node in F.
  destruct (lookup n g') as [[|t]|]; congruence.
Qed.

(** Of a loaded document: a node made from an entry is the first of its name, and the only one. *)
Lemma made_first doc g n i : load doc = Done g -> made_at g n i -> i = first n g /\ forall j o, nth_error g j = Some (n, o) -> j = i.
Proof.
  intros L M. apply load_done in L as (T & F). destruct (t_entry _ _ T _ _ M) as (e & E & _).
  assert (I : In n (map fst doc)) by (apply get_key; now exists e).
  specialize (F n I). apply first_nth in F.
  assert (U : first n g = i) by (apply (t_taken _ _ T n (first n g) i FromEntry F M); now left).
  split; [now symmetry|]. intros j o J. subst i. symmetry. apply (t_taken _ _ T n (first n g) j o M J).
  destruct (Nat.eq_dec (first n g) j) as [D|D].
  - left. subst j. unfold made_at in M. rewrite M in J. now injection J as <-.
  - right. apply first_le in J. lia.
Qed.

Lemma refers_before doc g n r : load doc = Done g -> refers doc n r -> first r g < first n g /\ exists o, lookup r g = Some o.
Proof.
  intros L (e & E & I). destruct (load_done _ _ L) as (T & F).
  assert (K : In n (map fst doc)) by (apply get_key; now exists e).
  specialize (F n K). apply first_nth in F. destruct (t_entry _ _ T _ _ F) as (e' & E' & _ & _ & _ & RF).
  rewrite E in E'. injection E' as <-. destruct (RF r I) as (j & LJ & [o P]). split.
  - apply first_le in P. lia.
  - destruct (lookup r g) as [o'|] eqn:X; [now exists o'|]. exfalso. apply get_none_key in X. apply X.
    apply in_map_iff. exists (r, o). split; [reflexivity|]. now apply nth_error_In in P.
Qed.

Lemma load_acyclic doc g : load doc = Done g -> acyclic doc.
Proof.
  intros L n C. assert (X : forall a b, plus (refers doc) a b -> first b g < first a g).
  { induction 1 as [a b R|a b c R _ IH]; destruct (refers_before _ _ _ _ L R) as [H _]; lia. }
  specialize (X _ _ C). lia.
Qed.

(** * When loading goes through *)

Fixpoint chain (R : string -> string -> Prop) (l : list string) : Prop :=      (* the last first: each is referred to by the next *)
  match l with a :: (b :: _) as t => R b a /\ chain R t | _ => True end.
Lemma chain_plus (R : string -> string -> Prop) l : forall a n, chain R (a :: l) -> In n (a :: l) -> n = a \/ plus R n a.
Proof.
  induction l as [|b l IH]; intros a n C I.
  - destruct I as [I|[]]. now left.
  - destruct C as [Rba C]. destruct I as [I|I]; [now left|]. right.
    destruct (IH b n C I) as [->|P]; [now apply plus_one|now apply plus_snoc with b].
Qed.

(** The graph holds exactly the nodes of some entries, and their parts. *)
Record complete (doc : document) (g : graph) (made : list string) : Prop := {
  c_made : forall n, In (n, FromEntry) g <-> In n made;
  c_part : forall s t, In (s, Part t) g -> exists n e, In n made /\ get n doc = Some e /\ In (s, t) (e_subs e);
  c_keys : forall n, In n made -> In n (map fst doc) }.

Section Success.
Variable doc : document.
Hypothesis Cl : clean doc.
Hypothesis Cd : closed doc.
Hypothesis Ac : acyclic doc.
Hypothesis So : sound doc.

Lemma keys_nodup : NoDup (map fst doc).
Proof.
  clear Cd Ac So. destruct Cl as [ND _]. clear Cl. unfold NodeLoad_model.document, dict in *. revert ND. generalize (top_subs doc). generalize (map fst doc). clear.
  induction l as [|a l IH]; intros m ND; [constructor|]. cbn [app] in ND. inversion ND; subst. constructor; [|now apply IH with m].
  intros I. apply H1. apply in_or_app. now left.
Qed.

Lemma sub_in n e s t : get n doc = Some e -> In (s, t) (e_subs e) -> In (s, t) (all_subs doc).
Proof. intros E I. apply get_in_pair in E. unfold all_subs. apply in_flat_map. now exists (n, e). Qed.
Lemma sub_not_key n e s t : get n doc = Some e -> In (s, t) (e_subs e) -> ~ In s (map fst doc).
Proof.
  intros E I K. pose proof (sub_in _ _ _ _ E I) as J. destruct Cl as [ND Ch]. destruct t.
  - assert (T : In s (top_subs doc)) by (unfold top_subs; apply in_map_iff; exists (s, true); split; [reflexivity|apply filter_In; now split]).
    revert ND K T. generalize (map fst doc), (top_subs doc). clear. intros l m ND K T.
    induction l as [|a l IH]; [destruct K|]. cbn [app] in ND. inversion ND; subst. destruct K as [->|K]; [|now apply IH].
    apply H1. apply in_or_app. now right.
  - apply (Ch s J). apply in_or_app. now left.
Qed.

(** Two entries have no top-level part in common, and no other part has its name. *)
Lemma top_sub_owner n e n' e' s t : get n doc = Some e -> get n' doc = Some e' -> In (s, true) (e_subs e) -> In (s, t) (e_subs e') -> n = n'.
Proof.
  intros E E' I I'. destruct Cl as [ND Ch].
  assert (T : In s (top_subs doc)).
  { unfold top_subs. apply in_map_iff. exists (s, true). split; [reflexivity|]. apply filter_In. split; [now apply (sub_in n e)|reflexivity]. }
  destruct t.
  2:{ exfalso. apply (Ch s (sub_in _ _ _ _ E' I')). apply in_or_app. now right. }
  apply get_in_pair in E, E'.
  assert (NT : NoDup (top_subs doc)).
  { revert ND. generalize (map fst doc), (top_subs doc). clear. induction l as [|a l IH]; intros m ND; [exact ND|]. inversion ND; subst. now apply IH. }
  clear - E E' I I' NT. unfold top_subs, all_subs, NodeLoad_model.document, dict in *.
  revert E E' NT. generalize doc. clear doc. induction doc as [|[k f] d IH]; intros E E' NT; [destruct E|].
  cbn [flat_map snd] in NT. rewrite filter_app, map_app in NT.
  assert (ND2 : NoDup (map fst (filter snd (flat_map (fun p => e_subs (snd p)) d)))).
  { revert NT. generalize (map fst (filter snd (e_subs f))). induction l as [|a l IHl]; intros H; [exact H|]. inversion H; subst. auto. }
  assert (X : forall m h, In (m, h) d -> In (s, true) (e_subs h) -> In (s, true) (e_subs f) -> False).
  { intros m h M Ih If. assert (A1 : In s (map fst (filter snd (e_subs f)))) by (apply in_map_iff; exists (s, true); split; [reflexivity|now apply filter_In]).
    assert (A2 : In s (map fst (filter snd (flat_map (fun p => e_subs (snd p)) d)))).
    { apply in_map_iff. exists (s, true). split; [reflexivity|]. apply filter_In. split; [|reflexivity]. apply in_flat_map. now exists (m, h). }
    revert NT A1 A2. generalize (map fst (filter snd (e_subs f))), (map fst (filter snd (flat_map (fun p => e_subs (snd p)) d))). clear.
    intros l m NT A1 A2. induction l as [|a l IH]; [destruct A1|]. cbn [app] in NT. inversion NT; subst. destruct A1 as [->|A1]; [|now apply IH].
    apply H1. apply in_or_app. now right. }
  destruct E as [E|E], E' as [E'|E'].
  - congruence.
  - injection E as -> ->. exfalso. now apply (X n' e').
  - injection E' as -> ->. exfalso. now apply (X n e).
  - now apply IH.
Qed.

Lemma construct_goes n e g made : get n doc = Some e -> complete doc g made -> ~ In n made ->
  exists g', construct n e g = Some g' /\ complete doc g' (n :: made).
Proof.
  intros E C N. assert (G : e_good e = true) by (apply (So n); now apply get_in_pair).
  assert (Kn : In n (map fst doc)) by (apply get_key; now exists e).
  unfold construct. cbv zeta. set (parts := map (fun s => (fst s, Part (snd s))) (e_subs e)).
  assert (PP : forall p, In p parts -> exists s t, p = (s, Part t) /\ In (s, t) (e_subs e)).
  { intros p I. apply in_map_iff in I as ([s t] & <- & I). now exists s, t. }
  rewrite G. cbn [andb].
  replace (existsb (taken g) (map fst (e_subs e))) with false.
  2:{ symmetry. apply Bool.not_true_iff_false. intros X. apply existsb_exists in X as (s & I & X).
      apply in_map_iff in I as ([s' t] & <- & I). cbn [fst] in X. apply taken_In in X as ([|t'] & O & T).
      - apply (c_made _ _ _ C) in O. apply (c_keys _ _ _ C) in O. exact (sub_not_key _ _ _ _ E I O).
      - cbn [is_top] in T. subst t'. destruct (c_part _ _ _ C _ _ O) as (m & e' & M & E' & I').
        assert (m = n) by (apply (top_sub_owner m e' n e s' t); assumption). subst m. contradiction. }
  replace (taken (g ++ parts) n) with false.
  2:{ symmetry. apply Bool.not_true_iff_false. intros X. apply taken_In in X as (o & I & T). apply in_app_or in I as [I|I].
      - destruct o as [|t].
        + apply (c_made _ _ _ C) in I. contradiction.
        + destruct (c_part _ _ _ C _ _ I) as (m & e' & M & E' & I'). exact (sub_not_key _ _ _ _ E' I' Kn).
      - apply PP in I as (s & t & H & I). injection H as -> ->. exact (sub_not_key _ _ _ _ E I Kn). }
  cbn [negb]. eexists. split; [reflexivity|]. split.
  - intros m. rewrite !in_app_iff. cbn [In]. rewrite <- (c_made _ _ _ C m). split.
    + intros [I|[I|[I|[]]]]; [now right|apply PP in I as (s & t & H & _); discriminate|left; congruence].
    + intros [->|I]; [right; right; now left|now left].
  - intros s t I. rewrite !in_app_iff in I. destruct I as [I|[I|[I|[]]]].
    + destruct (c_part _ _ _ C _ _ I) as (m & e' & M & E' & I'). exists m, e'. split; [now right|now split].
    + apply PP in I as (s' & t' & H & I). injection H as -> ->. exists n, e. split; [now left|now split].
    + discriminate.
  - intros m [<-|M]; [exact Kn|now apply (c_keys _ _ _ C)].
Qed.

Lemma complete_lookup g made n : complete doc g made -> In n (map fst doc) -> lookup n g = (if mem n made then Some FromEntry else None).
Proof.
  intros C K. destruct (mem n made) eqn:M.
  - apply mem_In in M. apply (c_made _ _ _ C) in M. destruct (lookup n g) as [o|] eqn:L.
    + apply get_in_pair in L. destruct o as [|t]; [reflexivity|]. destruct (c_part _ _ _ C _ _ L) as (m & e & _ & E & I).
      exfalso. exact (sub_not_key _ _ _ _ E I K).
    + exfalso. apply get_none_key in L. apply L. apply in_map_iff. now exists (n, FromEntry).
  - destruct (lookup n g) as [o|] eqn:L; [|reflexivity]. apply get_in_pair in L. exfalso. destruct o as [|t].
    + apply (c_made _ _ _ C) in L. apply mem_In in L. congruence.
    + destruct (c_part _ _ _ C _ _ L) as (m & e & _ & E & I). exact (sub_not_key _ _ _ _ E I K).
Qed.

(** Opened entries are made, or on the way. *)
Definition going (st : state) (made stack : list string) : Prop :=
  complete doc (fst st) made /\ (forall n, In n (snd st) -> In n made \/ In n stack) /\ incl stack (map fst doc) /\ NoDup stack /\
  chain (refers doc) stack /\ (forall n, In n stack -> ~ In n made).

Lemma pre_load_goes fuel : forall n st made stack,
  going st made stack -> In n (map fst doc) -> match stack with [] => True | h :: _ => refers doc h n end ->
  List.length doc < fuel + List.length stack ->
  exists st' made', pre_load_node doc fuel n st = Done st' /\ going st' made' stack /\ In n made' /\ incl made made'.
Proof.
  induction fuel as [|fuel IH]; intros n st made stack Go K H L.
  - exfalso. destruct Go as (_ & _ & Is & Ns & _). pose proof (NoDup_incl_length Ns Is) as X. rewrite map_length in X. unfold NodeLoad_model.document, dict in *. lia.
  - cbn [pre_load_node]. pose proof Go as (C & Op & Is & Ns & Ch & Dj). rewrite (complete_lookup _ _ _ C K).
    destruct (mem n made) eqn:M.
    + exists st, made. apply mem_In in M. split; [reflexivity|]. split; [exact Go|]. split; [exact M|now intros x Ix].
    + assert (M' : ~ In n made) by (intros X; apply mem_In in X; congruence).
      destruct (proj1 (get_key n doc) K) as (e & E). rewrite E.
      assert (NS : ~ In n stack).
      { intros X. destruct stack as [|h stack]; [destruct X|]. destruct (chain_plus _ _ _ _ Ch X) as [->|P].
        - apply (Ac h). now apply plus_one.
        - apply (Ac n). now apply plus_snoc with h. }
      destruct (mem n (snd st)) eqn:O.
      { exfalso. apply mem_In in O. destruct (Op n O); contradiction. }
      destruct (So n e (get_in_pair _ _ _ E)) as [Kn _]. rewrite Kn. cbn [negb].
      assert (EA : forall l s mk, incl l (e_refs e) -> going s mk (n :: stack) ->
                exists s' mk', each (pre_load_node doc fuel) l s = Done s' /\ going s' mk' (n :: stack) /\ incl mk mk').
      { induction l as [|r l IHl]; intros s mk Il Gs; cbn [each].
        - exists s, mk. split; [reflexivity|]. split; [exact Gs|now intros x Ix].
        - assert (R : refers doc n r) by (exists e; split; [exact E|apply Il; now left]).
          destruct (IH r s mk (n :: stack) Gs (Cd _ _ R) R) as (s1 & mk1 & P1 & G1 & _ & I1).
          { cbn [List.length]. lia. }
          rewrite P1. destruct (IHl s1 mk1 (fun x Ix => Il x (or_intror Ix)) G1) as (s2 & mk2 & P2 & G2 & I2).
          exists s2, mk2. split; [exact P2|]. split; [exact G2|]. intros x Ix. now apply I2, I1. }
      destruct (EA (e_refs e) (fst st, n :: snd st) made (fun x Ix => Ix)) as (s' & mk' & P & Gs' & Im).
      { split; [exact C|]. cbn [fst snd]. split; [|split; [|split; [|split]]].
        - intros m [<-|X]; [right; now left|destruct (Op m X); [now left|right; now right]].
        - intros m [<-|X]; [exact K|now apply Is].
        - now constructor.
        - destruct stack as [|h stack]; [exact I|]. cbn [chain]. now split.
        - intros m [<-|X]; [exact M'|now apply Dj]. }
      rewrite P. destruct Gs' as (C' & Op' & Is' & Ns' & Ch' & Dj').
      destruct (construct_goes n e (fst s') mk' E C') as (g & Cg & Cg').
      { apply Dj'. now left. }
      rewrite Cg. exists (g, snd s'), (n :: mk'). split; [reflexivity|]. split; [|split; [now left|]].
      * split; [exact Cg'|]. cbn [fst snd]. split; [|split; [exact Is|split; [exact Ns|split; [exact Ch|]]]].
        -- intros m X. destruct (Op' m X) as [Y|[<-|Y]]; [left; now right|left; now left|now right].
        -- intros m X [<-|Y]; [contradiction|]. apply (Dj' m); [now right|exact Y].
      * intros m X. right. now apply Im.
Qed.

Lemma load_goes : exists g, load doc = Done g.
Proof.
  assert (EA : forall l s mk, incl l (map fst doc) -> going s mk [] ->
            exists s' mk', each (pre_load_node doc (S (List.length doc))) l s = Done s' /\ going s' mk' [] /\ incl mk mk' /\ incl l mk').
  { induction l as [|n l IHl]; intros s mk Il Gs; cbn [each].
    - exists s, mk. split; [reflexivity|]. split; [exact Gs|]. split; [now intros x Ix|intros x []].
    - destruct (pre_load_goes (S (List.length doc)) n s mk [] Gs (Il n (or_introl eq_refl)) I) as (s1 & m1 & P1 & G1 & N1 & I1); [cbn [List.length]; lia|].
      rewrite P1. destruct (IHl s1 m1 (fun x Ix => Il x (or_intror Ix)) G1) as (s2 & m2 & P2 & G2 & I2 & L2).
      exists s2, m2. split; [exact P2|]. split; [exact G2|]. split; [intros x Ix; now apply I2, I1|].
      intros x [<-|Ix]; [now apply I2|now apply L2]. }
  destruct (EA (map fst doc) ([], []) [] (fun x Ix => Ix)) as (s & mk & P & G & _ & L).
  { split; [|split; [|split; [|split; [|split]]]].
    - split; [intros n; split; intros []|intros s t []|intros n []].
    - intros n [].
    - intros n [].
    - constructor.
    - exact I.
    - intros n []. }
  unfold load. rewrite P. destruct s as [g op]. destruct G as (C & _). cbn [fst] in C.
  replace (forallb (finalise_node g) (map fst doc)) with true; [now exists g|].
  symmetry. apply forallb_forall. intros n K. unfold finalise_node. rewrite (complete_lookup _ _ _ C K).
  replace (mem n mk) with true; [reflexivity|]. symmetry. apply mem_In. now apply L.
Qed.
End Success.

(** * The depth of the recursion *)

Definition opened_ok (doc : document) (op : list string) : Prop := NoDup op /\ incl op (map fst doc).

Lemma pre_load_finishes doc fuel : forall n st,
  opened_ok doc (snd st) -> List.length doc < fuel + List.length (snd st) ->
  match pre_load_node doc fuel n st with
  | Unfinished => False
  | Fails => True
  | Done st' => opened_ok doc (snd st') /\ List.length (snd st) <= List.length (snd st')
  end.
Proof.
  induction fuel as [|fuel IH]; intros n st [Nd In'] L.
  - exfalso. pose proof (NoDup_incl_length Nd In') as X. rewrite map_length in X. unfold NodeLoad_model.document, dict in *. lia.
  - cbn [pre_load_node]. destruct (lookup n (fst st)); [now split|].
    destruct (get n doc) as [e|] eqn:E; [|exact I]. destruct (mem n (snd st)) eqn:M; [exact I|].
    destruct (e_known e); cbn [negb]; [|exact I].
    assert (EA : forall l s, opened_ok doc (snd s) -> List.length doc < fuel + List.length (snd s) ->
              match each (pre_load_node doc fuel) l s with
              | Unfinished => False
              | Fails => True
              | Done s' => opened_ok doc (snd s') /\ List.length (snd s) <= List.length (snd s')
              end).
    { induction l as [|r l IHl]; intros s Os Ls; cbn [each]; [now split|].
      specialize (IH r s Os Ls). destruct (pre_load_node doc fuel r s) as [s1| |]; try contradiction; [|exact I].
      destruct IH as [O1 L1]. specialize (IHl s1 O1 ltac:(lia)). destruct (each (pre_load_node doc fuel) l s1) as [s2| |]; try contradiction; [|exact I].
      destruct IHl as [O2 L2]. split; [exact O2|lia]. }
    assert (O1 : opened_ok doc (n :: snd st)).
    { split; [constructor; [intros X; apply mem_In in X; congruence|exact Nd]|].
      intros m [<-|X]; [apply get_key; now exists e|now apply In']. }
    specialize (EA (e_refs e) (fst st, n :: snd st) O1). cbn [snd List.length] in EA. specialize (EA ltac:(lia)).
    destruct (each (pre_load_node doc fuel) (e_refs e) (fst st, n :: snd st)) as [s1| |]; try contradiction; [|exact I].
    destruct (construct n e (fst s1)); [|exact I]. cbn [snd]. destruct EA as [O2 L2]. split; [exact O2|lia].
Qed.

Lemma load_finishes doc : load doc <> Unfinished.
Proof.
  assert (EA : forall l s, opened_ok doc (snd s) ->
            match each (pre_load_node doc (S (List.length doc))) l s with Unfinished => False | _ => True end).
  { induction l as [|r l IHl]; intros s Os; cbn [each]; [exact I|].
    pose proof (pre_load_finishes doc (S (List.length doc)) r s Os ltac:(lia)) as P.
    destruct (pre_load_node doc (S (List.length doc)) r s) as [s1| |]; try contradiction; [|exact I]. apply IHl. apply P. }
  unfold load. specialize (EA (map fst doc) ([], [])). destruct (each _ _ _) as [[g op]| |].
  - destruct (forallb _ _); discriminate.
  - discriminate.
  - exfalso. apply EA. split; [constructor|intros n []].
Qed.

(** * Order of the document *)

Lemma get_perm {V} (d d' : dict V) n : NoDup (map fst d) -> Permutation d d' -> get n d = get n d'.
Proof.
  intros ND P. assert (ND' : NoDup (map fst d')) by (apply (Permutation_NoDup (l := map fst d)); [now apply Permutation_map|exact ND]).
  destruct (get n d) as [v|] eqn:E; symmetry.
  - apply get_in_pair in E. apply get_of_pair; [exact ND'|]. now apply (Permutation_in _ P).
  - apply get_none_key in E. apply get_none_key. intros I. apply E. apply (Permutation_in (l := map fst d')); [|exact I].
    apply Permutation_map. now symmetry.
Qed.

Lemma perm_top_subs (d d' : document) : Permutation d d' -> Permutation (top_subs d) (top_subs d') /\ Permutation (all_subs d) (all_subs d').
Proof.
  intros P. assert (A : Permutation (all_subs d) (all_subs d')) by (unfold all_subs; now apply Permutation_flat_map).
  split; [|exact A]. unfold top_subs. apply Permutation_map.
  clear P. induction A as [|[s []] l l' _ IH|[s []] [s' []] l|]; cbn [filter snd]; try (apply Permutation_refl); try (now constructor).
  - exact IH.
  - now transitivity (filter snd l').
Qed.

Lemma perm_clean (d d' : document) : Permutation d d' -> clean d -> clean d'.
Proof.
  intros P [N C]. destruct (perm_top_subs _ _ P) as [T A].
  assert (Q : Permutation (map fst d ++ top_subs d) (map fst d' ++ top_subs d')) by (apply Permutation_app; [now apply Permutation_map|exact T]).
  split; [now apply (Permutation_NoDup Q)|]. intros s I J. apply (C s).
  - apply (Permutation_in (l := all_subs d')); [now symmetry|exact I].
  - apply (Permutation_in (l := map fst d' ++ top_subs d')); [now symmetry|exact J].
Qed.
