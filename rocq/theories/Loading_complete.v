(** Documents that can be loaded are loaded. *)
From Verif Require Import Base Sorting Loading_model Loading_spec Loading_proofs.
Local Close Scope string_scope.
Local Open Scope nat_scope.
Local Open Scope list_scope.

Definition nm (l : list data) : list string := flat_map name_of l.
Lemma nm_app : forall l m, nm (l ++ m) = nm l ++ nm m. Proof. intros. apply flat_map_app. Qed.
Lemma nm_perm : forall l m, Permutation l m -> NoDup (nm l) -> NoDup (nm m).
Proof. intros l m Hp. apply Permutation_NoDup. apply Permutation_flat_map. exact Hp. Qed.
Lemma NoDup_app_l : forall {A} (l m : list A), NoDup (l ++ m) -> NoDup l.
Proof. intros A l; induction l as [|a r IH]; intros m H; [constructor|]. cbn in H. inversion H; subst. constructor; [|eauto]. intro Hin. apply H2. apply in_or_app. auto. Qed.
Lemma NoDup_app_r : forall {A} (l m : list A), NoDup (l ++ m) -> NoDup m.
Proof. intros A l; induction l as [|a r IH]; intros m H; [exact H|]. cbn in H. inversion H; subst. eauto. Qed.
Lemma NoDup_app_disjoint : forall {A} (l m : list A) x, NoDup (l ++ m) -> In x l -> In x m -> False.
Proof.
  intros A l; induction l as [|a r IH]; intros m x H Hl Hm; [contradiction|]. cbn in H. inversion H; subst. destruct Hl as [->|Hl]; [|eauto].
  apply H2. apply in_or_app. auto.
Qed.
Lemma nm_app_l : forall l m, NoDup (nm (l ++ m)) -> NoDup (nm l). Proof. intros l m. rewrite nm_app. apply NoDup_app_l. Qed.
Lemma nm_app_r : forall l m, NoDup (nm (l ++ m)) -> NoDup (nm m). Proof. intros l m. rewrite nm_app. apply NoDup_app_r. Qed.

(** A definition is waiting, or there is a component for it. *)
Definition there (s : state) (x : kind * string) : Prop :=
  In x (map fst (to_load s)) \/ exists o, In o (objects s) /\ o_kind o = fst x /\ o_name o = Some (snd x).

Lemma there_kept : forall ds s s' x, inv s -> inv s' -> basic ds s s' -> there s x -> there s' x.
Proof.
  intros ds s s' x Hi Hi' (Hg & [gone Hp] & Hc) [Hin|(o & Ho & H)].
  - apply (Permutation_in x (Permutation_map fst Hp)) in Hin. rewrite map_app in Hin. apply in_app_or in Hin. destruct Hin as [Hin|Hin]; [|left; exact Hin].
    right. unfold conserved in Hc. rewrite (pending_perm _ _ Hp), pending_app, !app_assoc in Hc. apply Permutation_app_inv_r in Hc.
    apply in_map_iff in Hin. destruct Hin as (e & <- & He).
    destruct Hi as (_ & Hwf & _). eapply Permutation_Forall in Hwf; [|exact Hp]. apply Forall_app in Hwf. destruct Hwf as [Hwf _].
    pose proof (proj1 (Forall_forall _ _) Hwf e He) as (t & g & c & Ed).
    assert (Hsrc : In (snd e) (sources (objects s'))).
    { eapply Permutation_in; [symmetry; exact Hc|]. apply in_or_app. right. unfold pending. apply in_flat_map. exists e. split; [exact He|]. rewrite Ed. left. reflexivity. }
    unfold sources in Hsrc. apply in_map_iff in Hsrc. destruct Hsrc as (o & Eo & Ho). exists o. split; [exact Ho|].
    destruct Hi' as (Hw & _). apply In_nth_error in Ho. destruct Ho as (i & Ei). destruct (Hw i o Ei) as [_ Hf]. rewrite Eo, Ed in Hf. destruct Hf as (Hk & Hn & _).
    split; [exact Hk|]. rewrite Hn. destruct (fst (fst e)); reflexivity.
  - right. exists o. destruct Hg as [new ->]. split; [apply in_or_app; left; exact Ho|exact H].
Qed.

Section Complete.
  Variable D : list ((kind * string) * data).
  Variable rank : kind * string -> nat.
  Hypothesis Drank : forall e x, In e D -> In x (references (snd e)) -> rank x < rank (fst e) /\ In x (map fst D).
  Hypothesis Dsound : forall e, In e D -> sound (snd e) = true.

  Definition downward (A : kind * string -> Prop) : Prop := forall x y, A x -> rank y < rank x -> A y.
  Definition ready (A : kind * string -> Prop) (s : state) : Prop := forall x, In x (map fst D) -> A x -> there s x.
  Definition names_ok (ds : list data) (s : state) : Prop := NoDup (nm (sources (objects s) ++ ds ++ pending (to_load s))).
  Definition from_D (s : state) : Prop := incl (to_load s) D.

  Lemma from_D_kept : forall ds s s', from_D s -> basic ds s s' -> from_D s'.
  Proof. intros ds s s' Hd (_ & [gone Hp] & _) e He. apply Hd. eapply Permutation_in; [symmetry; exact Hp|]. apply in_or_app. right. exact He. Qed.
  Lemma names_kept : forall ds es s s', names_ok (ds ++ es) s -> basic ds s s' -> names_ok es s'.
  Proof.
    intros ds es s s' Hn (_ & _ & Hc). unfold names_ok, conserved in *. eapply nm_perm; [|exact Hn].
    rewrite (Permutation_app_comm es), !app_assoc, Hc. rewrite <- !app_assoc. apply Permutation_app_head. apply Permutation_app_head. apply Permutation_app_comm.
  Qed.
  Lemma names_first : forall ds es s, names_ok (ds ++ es) s -> names_ok ds s.
  Proof.
    intros ds es s Hn. unfold names_ok in *. apply nm_app_r with (l := es). eapply nm_perm; [|exact Hn].
    rewrite <- !app_assoc. rewrite (Permutation_app_comm es (sources _ ++ _)), <- !app_assoc. apply Permutation_app_head. apply Permutation_app_head. apply Permutation_app_comm.
  Qed.

  Definition succeeds (fuel : nat) (d : data) : Prop :=
    forall A s, List.length (to_load s) <= fuel -> inv s -> from_D s -> downward A -> ready A s ->
      (forall x, In x (references d) -> A x /\ In x (map fst D)) -> sound d = true -> names_ok (dictionaries d) s ->
      exists v s', load fuel d s = Ok v s'.

  Lemma list_succeeds : forall fuel l, Forall (succeeds fuel) l ->
    forall A s, List.length (to_load s) <= fuel -> inv s -> from_D s -> downward A -> ready A s ->
      (forall x, In x (flat_map references l) -> A x /\ In x (map fst D)) -> forallb sound l = true -> names_ok (flat_map dictionaries l) s ->
      exists vs s', load_list fuel l s = Ok vs s'.
  Proof.
    intros fuel l; induction l as [|c r IH]; intros HF A s Hl Hi Hd HA Hr Hx Hs Hn; cbn [load_list]; [eauto|].
    cbn [forallb flat_map] in *. apply andb_true_iff in Hs. destruct Hs as [Hs1 Hs2].
    destruct (Forall_inv HF A s Hl Hi Hd HA Hr) as (v & s1 & E1); auto.
    { intros x Hin. apply Hx. apply in_or_app. auto. }
    { eapply names_first; exact Hn. }
    rewrite E1. cbn [bind]. pose proof (load_basic _ _ _ _ _ E1) as Hb. pose proof (load_good _ _ _ _ _ E1 Hi) as (Hi1 & _).
    destruct (IH (Forall_inv_tail HF) A s1) as (vs & s2 & E2); auto.
    - destruct Hb as (_ & Sh & _). apply shrinks_length in Sh. lia.
    - eapply from_D_kept; eauto.
    - intros x Hin HAx. eapply there_kept; [exact Hi|exact Hi1|exact Hb|]. apply Hr; assumption.
    - intros x Hin. apply Hx. apply in_or_app. auto.
    - eapply names_kept; eauto.
    - rewrite E2. cbn [bind]. eauto.
  Qed.

  Lemma build_succeeds : forall k t n g c vs s s1, inv s1 -> names_ok (dictionaries (Inline k t n g c)) s -> basic (flat_map dictionaries c) s s1 ->
    exists v s2, build k t n (Inline k t n g c) vs s1 = Ok v s2.
  Proof.
    intros k t n g c vs s s1 Hi1 Hn Hb. unfold build. cbv zeta. destruct (own_name k t n) as [m|] eqn:Em; [|eauto].
    destruct (existsb (named m) (objects s1)) eqn:Ex; [|eauto]. exfalso.
    cbn [dictionaries] in Hn. change (Inline k t n g c :: flat_map dictionaries c) with ([Inline k t n g c] ++ flat_map dictionaries c) in Hn.
    assert (Hn' : names_ok (flat_map dictionaries c ++ [Inline k t n g c]) s).
    { unfold names_ok in *. eapply nm_perm; [|exact Hn]. apply Permutation_app_head. apply Permutation_app_tail. apply Permutation_app_comm. }
    pose proof (names_kept _ _ _ _ Hn' Hb) as H. unfold names_ok in H. rewrite app_assoc in H. apply nm_app_l in H. rewrite nm_app in H.
    apply existsb_exists in Ex. destruct Ex as (o & Ho & Hm).
    apply (NoDup_app_disjoint _ _ m H).
    - unfold nm, sources. apply in_flat_map. exists (o_data o). split; [apply in_map; exact Ho|]. unfold named in Hm. destruct (o_name o) as [m'|] eqn:Eo; [|discriminate].
      apply String.eqb_eq in Hm. subst m'. destruct Hi1 as (Hw & _). apply In_nth_error in Ho. destruct Ho as (i & Ei). destruct (Hw i o Ei) as [_ Hf].
      destruct (o_data o) as [| | |k1 t1 n1 g1 c1] eqn:Ed; try contradiction. destruct Hf as (_ & Hnm & _). rewrite Eo in Hnm. symmetry in Hnm. apply nth_error_In in Hnm. exact Hnm.
    - rewrite (own_name_of k t n g c) in Em. apply nth_error_In in Em. unfold nm. cbn [flat_map]. rewrite app_nil_r. exact Em.
  Qed.

  Lemma load_succeeds : forall fuel d, succeeds fuel d.
  Proof.
    induction fuel as [|f IHf]; intro d; induction d as [|k n|k|k t n g c IHc] using data_ind'; intros A s Hl Hi Hd HA Hr Hx Hs Hn.
    1,5: rewrite load_unfold; cbn; eauto.
    2,5: rewrite load_unfold; destruct k; [cbn; eauto|discriminate].
    1,3: rewrite load_ref; destruct (lookup k n (objects s)) as [o|] eqn:El; [eauto|];
         destruct (Hx (k, n) (or_introl eq_refl)) as [HAx HDx]; destruct (Hr (k, n) HDx HAx) as [Hin|(o & Ho & Hk & Hnm)];
         [|exfalso; cbn [fst snd] in *; exact (lookup_none k n _ o El Ho Hk Hnm)];
         destruct (take k n (to_load s)) as [[d' rest]|] eqn:Et; [|exfalso; exact (take_none _ _ _ Et Hin)]; apply take_perm in Et.
    - apply Permutation_length in Et. cbn in Et. lia.
    - cbn [rec_of].
      assert (Hi' : inv (State rest (objects s))) by (apply inv_shrink; [exact Hi|exists [((k, n), d')]; exact Et]).
      assert (HeD : In ((k, n), d') D). { apply Hd. eapply Permutation_in; [symmetry; exact Et|]. left. reflexivity. }
      apply (IHf d' (fun y => rank y < rank (k, n))).
      + cbn [to_load]. apply Permutation_length in Et. cbn [List.length] in Et. lia.
      + exact Hi'.
      + intros e He. apply Hd. eapply Permutation_in; [symmetry; exact Et|]. right. exact He.
      + intros x y H1 H2. lia.
      + intros x Hin' Hxr. destruct (Hr x Hin' (HA _ _ HAx Hxr)) as [H|H]; [|right; exact H]. left. cbn [to_load].
        apply (Permutation_in x (Permutation_map fst Et)) in H. destruct H as [H|H]; [|exact H]. cbn [fst] in H. subst x. lia.
      + intros x Hin'. exact (Drank ((k, n), d') x HeD Hin').
      + exact (Dsound _ HeD).
      + unfold names_ok in *. cbn [dictionaries app objects to_load] in *. eapply nm_perm; [|exact Hn]. apply Permutation_app_head.
        rewrite (pending_perm _ _ Et). cbn. reflexivity.
    - rewrite load_inline. cbn [sound] in Hs. apply andb_true_iff in Hs. destruct Hs as [Hg Hs].
      destruct (list_succeeds 0 c IHc A s) as (vs & s1 & E1); auto.
      { cbn [dictionaries] in Hn. change (Inline k t n g c :: flat_map dictionaries c) with ([Inline k t n g c] ++ flat_map dictionaries c) in Hn.
        apply names_first with (es := [Inline k t n g c]). unfold names_ok in *. eapply nm_perm; [|exact Hn]. apply Permutation_app_head. apply Permutation_app_tail. apply Permutation_app_comm. }
      rewrite E1. cbn [bind]. rewrite Hg. rewrite <- Hg. eapply build_succeeds; [|exact Hn|eapply load_list_basic; exact E1].
      apply (load_list_good _ _ _ _ _ E1 Hi).
    - rewrite load_inline. cbn [sound] in Hs. apply andb_true_iff in Hs. destruct Hs as [Hg Hs].
      destruct (list_succeeds (S f) c IHc A s) as (vs & s1 & E1); auto.
      { cbn [dictionaries] in Hn. change (Inline k t n g c :: flat_map dictionaries c) with ([Inline k t n g c] ++ flat_map dictionaries c) in Hn.
        apply names_first with (es := [Inline k t n g c]). unfold names_ok in *. eapply nm_perm; [|exact Hn]. apply Permutation_app_head. apply Permutation_app_tail. apply Permutation_app_comm. }
      rewrite E1. cbn [bind]. rewrite Hg. rewrite <- Hg. eapply build_succeeds; [|exact Hn|eapply load_list_basic; exact E1].
      apply (load_list_good _ _ _ _ _ E1 Hi).
  Qed.

  (** [more]: the names still to come from the nodes. *)
  Definition loading (more : list data) (s : state) : Prop :=
    inv s /\ from_D s /\ ready (fun _ => True) s /\ names_ok more s.

  Lemma load_all_succeeds : forall more fuel k s, List.length (to_load s) <= fuel -> loading more s ->
    exists s', load_all fuel k s = Ok tt s' /\ loading more s'.
  Proof.
    intros more; induction fuel as [|f IH]; intros k s Hl Hs.
    - cbn [load_all]. destruct (popitem k (to_load s)) as [[[n d] rest]|] eqn:E; [|eauto].
      apply popitem_perm in E. apply Permutation_length in E. cbn in E. lia.
    - rewrite load_all_unfold. destruct (popitem k (to_load s)) as [[[n d] rest]|] eqn:E; [|eauto]. apply popitem_perm in E. cbv zeta.
      pose proof (Permutation_length E) as Hlen. cbn [List.length] in Hlen. destruct Hs as (Hi & Hd & Hr & Hn).
      assert (Hi' : inv (State rest (objects s))) by (apply inv_shrink; [exact Hi|exists [((k, n), d)]; exact E]).
      assert (HeD : In ((k, n), d) D). { apply Hd. eapply Permutation_in; [symmetry; exact E|]. left. reflexivity. }
      assert (Hd' : from_D (State rest (objects s))). { intros e He. apply Hd. eapply Permutation_in; [symmetry; exact E|]. right. exact He. }
      assert (Hwf : exists t g c, d = Inline k t (Some n) g c).
      { destruct Hi as (_ & Hwf & _). eapply Permutation_Forall in Hwf; [|exact E]. apply Forall_inv in Hwf. exact Hwf. }
      assert (Hn' : names_ok (dictionaries d ++ more) (State rest (objects s))).
      { unfold names_ok in *. cbn [objects to_load]. eapply nm_perm; [|exact Hn]. apply Permutation_app_head. rewrite (pending_perm _ _ E). cbn [pending flat_map snd].
        rewrite !app_assoc. apply Permutation_app_tail. apply Permutation_app_comm. }
      destruct (load_succeeds f d (fun y => rank y < rank (k, n)) (State rest (objects s))) as (v & s2 & E2).
      + cbn [to_load]. lia.
      + exact Hi'.
      + exact Hd'.
      + intros x y H1 H2. lia.
      + intros x Hin Hxr. destruct (Hr x Hin I) as [H|H]; [|right; exact H]. left. cbn [to_load].
        apply (Permutation_in x (Permutation_map fst E)) in H. destruct H as [H|H]; [|exact H]. cbn [fst] in H. subst x. lia.
      + intros x Hin. exact (Drank ((k, n), d) x HeD Hin).
      + exact (Dsound _ HeD).
      + eapply names_first; exact Hn'.
      + pose proof (load_basic _ _ _ _ _ E2) as Hb. pose proof (load_good _ _ _ _ _ E2 Hi') as (Hi2 & _ & Hden).
        assert (Hs2 : loading more s2).
        { split; [exact Hi2|]. split; [eapply from_D_kept; eauto|]. split.
          - intros x Hin _. apply there_kept with (ds := []) (s := s); [exact Hi|exact Hi2| |apply Hr; auto].
            eapply basic_pop; [exact E|]. rewrite app_nil_r. exact Hb.
          - eapply names_kept; eauto. }
        assert (Hlen2 : List.length (to_load s2) <= f). { destruct Hb as (_ & Sh & _). apply shrinks_length in Sh. cbn [to_load] in Sh. lia. }
        assert (Hv : v <> Number). { destruct Hwf as (t & g & c & ->). destruct v; [contradiction|discriminate]. }
        destruct (IH k s2 Hlen2 Hs2) as (s' & E3 & Hs').
        destruct k.
        * rewrite E2. cbn [bind]. destruct v as [|i]; [congruence|]. eauto.
        * destruct (lookup R n (objects s)) as [o|] eqn:El.
          -- exfalso. apply lookup_some in El. destruct El as (Ho & Hk & Hnm). destruct Hwf as (t & g & c & ->).
             unfold names_ok in Hn'. cbn [objects to_load] in Hn'. rewrite nm_app in Hn'. apply (NoDup_app_disjoint _ _ n Hn').
             ++ unfold nm, sources. apply in_flat_map. exists (o_data o). split; [apply in_map; exact Ho|]. destruct Hi as (Hw & _).
                apply In_nth_error in Ho. destruct Ho as (i & Ei). destruct (Hw i o Ei) as [_ Hf].
                destruct (o_data o) as [| | |k1 t1 n1 g1 c1] eqn:Ed; try contradiction. destruct Hf as (_ & Hnm' & _). rewrite Hnm in Hnm'. symmetry in Hnm'. apply nth_error_In in Hnm'. exact Hnm'.
             ++ unfold nm. rewrite <- app_assoc. cbn [dictionaries app flat_map name_of]. left. reflexivity.
          -- rewrite E2. cbn [bind]. eauto.
  Qed.

  Lemma load_nodes_succeeds : forall l s, to_load s = [] -> loading (flat_map dictionaries (List.concat l)) s ->
    (forall d x, In d (List.concat l) -> In x (references d) -> In x (map fst D)) -> forallb sound (List.concat l) = true ->
    exists vss s', load_nodes l s = Ok vss s'.
  Proof.
    induction l as [|ds r IH]; intros s Hs (Hi & Hd & Hr & Hn) Hx Hg; cbn [load_nodes]; [eauto|].
    cbn [List.concat] in *. rewrite flat_map_app in Hn. rewrite forallb_app in Hg. apply andb_true_iff in Hg. destruct Hg as [Hg1 Hg2].
    destruct (list_succeeds 0 ds) with (A := fun _ : kind * string => True) (s := s) as (vs & s1 & E1); auto.
    - apply Forall_forall. intros d _. apply load_succeeds.
    - rewrite Hs. reflexivity.
    - intros x y _ _. exact I.
    - intros x Hin. split; [exact I|]. apply in_flat_map in Hin. destruct Hin as (d & Hdd & Hin). eapply Hx; [|exact Hin]. apply in_or_app. auto.
    - eapply names_first; exact Hn.
    - rewrite E1. cbn [bind]. pose proof (load_list_basic _ _ _ _ _ E1) as Hb. pose proof (load_list_good _ _ _ _ _ E1 Hi) as (Hi1 & _).
      destruct (IH s1) as (vss & s2 & E2); auto.
      + destruct Hb as (_ & Sh & _). apply shrinks_length in Sh. rewrite Hs in Sh. destruct (to_load s1); [reflexivity|cbn in Sh; lia].
      + split; [exact Hi1|]. split; [eapply from_D_kept; eauto|]. split; [|eapply names_kept; eauto].
        intros x Hin _. eapply there_kept; [exact Hi|exact Hi1|exact Hb|]. apply Hr; auto.
      + intros d x Hin. apply Hx. apply in_or_app. auto.
      + rewrite E2. cbn [bind]. eauto.
  Qed.
End Complete.

Lemma load_document_succeeds : forall doc, typed doc -> keyed doc -> acyclic doc -> defined doc -> distinct doc ->
  forallb sound (all_data doc) = true -> exists vss s, load_document doc = Ok vss s.
Proof.
  intros doc Ht Hk [rank Hrank] Hdef Hdis Hs. rewrite (load_document_typed doc Ht).
  unfold all_data in *. rewrite forallb_app in Hs. apply andb_true_iff in Hs. destruct Hs as [Hs1 Hs2].
  assert (Drank : forall e x, In e (definitions doc) -> In x (references (snd e)) -> rank x < rank (fst e) /\ In x (map fst (definitions doc))).
  { intros e x He Hx. split; [eauto|]. eapply Hdef; [|exact Hx]. unfold all_data. apply in_or_app. left. apply in_map. exact He. }
  assert (Dsound : forall e, In e (definitions doc) -> sound (snd e) = true).
  { intros e He. rewrite forallb_forall in Hs1. apply Hs1. apply in_map. exact He. }
  set (more := flat_map dictionaries (List.concat (d_nodes doc))).
  assert (H0 : loading (definitions doc) more (State (definitions doc) [])).
  { split; [apply inv_start; assumption|]. split; [intros e He; exact He|]. split.
    - intros x Hin _. left. exact Hin.
    - unfold names_ok, distinct in *. cbn [objects to_load sources map app]. unfold all_data in Hdis. rewrite flat_map_app in Hdis. eapply nm_perm; [|exact Hdis].
      rewrite Permutation_app_comm. apply Permutation_app_head. unfold pending. rewrite !flat_map_concat_map, map_map. reflexivity. }
  destruct (load_all_succeeds (definitions doc) rank Drank Dsound more (List.length (definitions doc)) R (State (definitions doc) []) (le_n _) H0) as (s1 & E1 & H1).
  rewrite E1. cbn [bind]. pose proof (load_all_shrinks _ _ _ _ E1) as Sh. apply shrinks_length in Sh. cbn [to_load] in Sh.
  destruct (load_all_succeeds (definitions doc) rank Drank Dsound more (List.length (definitions doc)) P s1 Sh H1) as (s2 & E2 & H2).
  rewrite E2. cbn [bind]. apply (load_nodes_succeeds (definitions doc) rank Drank Dsound); auto.
  - eapply loaded_all; eauto.
  - intros d x Hin Hx. eapply Hdef; [|exact Hx]. unfold all_data. apply in_or_app. right. exact Hin.
Qed.
