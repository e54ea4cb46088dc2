From Verif Require Import Base Paths Graph_model Graph_spec Graph_proofs Rewire_model Rewire_spec.
Local Open Scope nat_scope.
Local Open Scope list_scope.

(** ** Calls *)
Lemma dfold_snoc ops o : dfold (ops ++ [o]) = dstep (dfold ops) o.
Proof. unfold dfold. now rewrite fold_left_app. Qed.

Lemma has_edge_depends ops c d : 1 <= d -> (has_edge (grun ops) d c = true <-> depends ops c d).
Proof.
  intros Hd. destruct (grun_refines ops) as [_ [_ [He Hl]]]. unfold depends. destruct (has_edgeP (grun ops) d c) as [H|H].
  - split; [|auto]. intros _. apply He in H as [[E _]|[_ [_ H]]]; [unfold ROOT in E; lia|exact H].
  - split; [discriminate|]. intros D. exfalso. apply H, He. right. destruct (Hl c d D). auto.
Qed.

Lemma depends_live ops c d : depends ops c d -> live (created ops) c /\ live (created ops) d.
Proof. destruct (grun_refines ops) as [_ [_ [_ Hl]]]. apply Hl. Qed.

Lemma comps_In it_list d : In d (comps it_list) <-> In (IComp d) it_list.
Proof.
  unfold comps. rewrite in_flat_map. split.
  - intros [[x|] [H1 H2]]; cbn in H2; [destruct H2 as [<-|[]]; exact H1|contradiction].
  - intros H. exists (IComp d). cbn. auto.
Qed.

Lemma comps_app a b : comps (a ++ b) = comps a ++ comps b.
Proof. unfold comps. apply flat_map_app. Qed.

Lemma add_one st ops c it : live (created ops) c -> (forall d, it = IComp d -> live (created ops) d) ->
  created (ops ++ [add_op st c it]) = created ops /\
  forall a b, depends (ops ++ [add_op st c it]) a b <-> depends ops a b \/ (a = c /\ In b (comps [it])).
Proof.
  intros Hc Hd. unfold created, depends in *. rewrite dfold_snoc. destruct (dfold ops) as [n D]. cbn [fst snd] in *.
  destruct it as [d|].
  - specialize (Hd d eq_refl). destruct st; cbn; (split; [reflexivity|]); intros a b; intuition (subst; auto).
  - destruct st; cbn; (split; [reflexivity|]); intros a b; intuition.
Qed.

Lemma add_many st c l : forall ops, live (created ops) c -> Forall (live (created ops)) (comps l) ->
  created (ops ++ map (add_op st c) l) = created ops /\
  forall a b, depends (ops ++ map (add_op st c) l) a b <-> depends ops a b \/ (a = c /\ In b (comps l)).
Proof.
  induction l as [|it l IH]; intros ops Hc Hl; cbn [map].
  - rewrite app_nil_r. split; [reflexivity|]. cbn. intuition.
  - change (add_op st c it :: map (add_op st c) l) with ([add_op st c it] ++ map (add_op st c) l). rewrite app_assoc.
    change (it :: l) with ([it] ++ l) in *. rewrite comps_app in *. apply Forall_app in Hl as [H1 H2].
    destruct (add_one st ops c it Hc) as [C1 D1].
    { intros d ->. cbn in H1. now inversion H1. }
    destruct (IH (ops ++ [add_op st c it])) as [C2 D2].
    + now rewrite C1.
    + now rewrite C1.
    + split; [congruence|]. intros a b. rewrite D2, D1, in_app_iff. tauto.
Qed.

Lemma remove_one st ops c d :
  created (ops ++ [remove_op st c d]) = created ops /\
  forall a b, depends (ops ++ [remove_op st c d]) a b <-> depends ops a b /\ ~ (a = c /\ b = d).
Proof.
  unfold created, depends. rewrite dfold_snoc. destruct (dfold ops) as [n D]. cbn [fst snd].
  destruct st; cbn; (split; [reflexivity|]); intros a b; intuition.
Qed.

Lemma remove_many st c l : forall ops, NoDup (comps l) -> (forall d, In d (comps l) -> depends ops c d) ->
  exists ops', remove_all st ops c l = (ops', false) /\ created ops' = created ops /\
    forall a b, depends ops' a b <-> depends ops a b /\ ~ (a = c /\ In b (comps l)).
Proof.
  induction l as [|[d|] l IH]; intros ops Hn Hd.
  - exists ops. cbn. split; [reflexivity|]. split; [reflexivity|]. intuition.
  - change (comps (IComp d :: l)) with (d :: comps l) in *. inversion Hn as [|? ? Hx Hn']; subst. cbn [remove_all].
    pose proof (Hd d (or_introl eq_refl)) as D0. destruct (depends_live _ _ _ D0) as [_ Hl].
    rewrite (proj2 (has_edge_depends ops c d ltac:(unfold live in Hl; lia)) D0).
    destruct (remove_one st ops c d) as [C1 D1].
    destruct (IH (ops ++ [remove_op st c d]) Hn') as [ops' [E [C2 D2]]].
    + intros x Hin. rewrite D1. split; [apply Hd; now right|]. intros [_ ->]. contradiction.
    + exists ops'. split; [exact E|]. split; [congruence|]. intros a b. rewrite D2, D1. cbn [In]. intuition.
  - change (comps (IOther :: l)) with (comps l) in *. cbn [remove_all]. now apply IH.
Qed.

(** ** Attributes *)
Definition slots_comps (l : list slot) : list nat := flat_map (fun sl => comps (s_items sl)) l.

Lemma upd_nth_split {A} (l1 l2 : list A) x y : upd_nth (List.length l1) y (l1 ++ x :: l2) = l1 ++ y :: l2.
Proof.
  unfold upd_nth. rewrite firstn_app, firstn_all, Nat.sub_diag, firstn_O, app_nil_r. f_equal. f_equal.
  rewrite skipn_app, (skipn_all2 l1) by lia. cbn [app]. now replace (S (List.length l1) - List.length l1) with 1 by lia.
Qed.

Lemma here_out s c : ~ live (List.length (r_slots s)) c -> here s c = [].
Proof.
  unfold live, here. destruct c as [|k]; [reflexivity|]. intros H. apply nth_overflow. lia.
Qed.

Lemma set_slot_spec s ops c i sl old : live (List.length (r_slots s)) c -> nth_error (here s c) i = Some old ->
  List.length (r_slots (set_slot s ops c i sl)) = List.length (r_slots s) /\
  (forall c', c' <> c -> here (set_slot s ops c i sl) c' = here s c') /\
  exists l1 l2, here s c = l1 ++ old :: l2 /\ here (set_slot s ops c i sl) c = l1 ++ sl :: l2 /\ List.length l1 = i.
Proof.
  intros Hc Hi. destruct c as [|k]; [unfold live in Hc; lia|].
  assert (Hk : k < List.length (r_slots s)) by (unfold live in Hc; lia).
  pose proof (nth_error_nth' (r_slots s) [] Hk) as E. destruct (nth_error_split _ _ E) as [m1 [m2 [Em Lm]]].
  destruct (nth_error_split _ _ Hi) as [l1 [l2 [El Ll]]].
  assert (U : r_slots (set_slot s ops (S k) i sl) = m1 ++ (l1 ++ sl :: l2) :: m2).
  { unfold set_slot. cbn [r_slots]. rewrite El. rewrite <- Ll at 1. rewrite upd_nth_split.
    rewrite Em at 1. replace (S k - 1) with (List.length m1) by lia. apply upd_nth_split. }
  split; [|split].
  - rewrite U, Em, !app_length. cbn. lia.
  - intros c' Hne. destruct c' as [|k']; [reflexivity|]. unfold here. rewrite U.
    refine (eq_trans _ (eq_sym (f_equal (fun l => nth k' l []) Em))).
    destruct (Nat.lt_trichotomy k' (List.length m1)) as [H|[H|H]].
    + rewrite !app_nth1 by lia. reflexivity.
    + exfalso. apply Hne. lia.
    + rewrite !app_nth2 by lia. destruct (k' - List.length m1) as [|j] eqn:Ej; [lia|]. reflexivity.
  - exists l1, l2. split; [exact El|]. split; [|exact Ll]. unfold here. rewrite U. rewrite <- Lm.
    rewrite app_nth2 by lia. now rewrite Nat.sub_diag.
Qed.

Lemma set_slot_changed s ops c i sl old : live (List.length (r_slots s)) c -> nth_error (here s c) i = Some old ->
  now_holds s (set_slot s ops c i sl) c i sl.
Proof.
  intros Hc Hi. destruct (set_slot_spec s ops c i sl old Hc Hi) as [_ [Hh [l1 [l2 [E1 [E2 L]]]]]]. split.
  - rewrite E2, nth_error_app2 by lia. rewrite L, Nat.sub_diag. reflexivity.
  - intros c' j Hne. destruct (Nat.eq_dec c' c) as [->|H]; [|now rewrite (Hh c' H)].
    rewrite E1, E2. destruct (Nat.lt_trichotomy j i) as [H|[->|H]].
    + rewrite !nth_error_app1 by lia. reflexivity.
    + now destruct Hne.
    + rewrite !nth_error_app2 by lia. destruct (j - List.length l1) as [|k] eqn:Ek; [lia|reflexivity].
Qed.

Lemma remove_first_split d l k : remove_first (IComp d) l = Some k -> exists l1 l2, l = l1 ++ IComp d :: l2 /\ k = l1 ++ l2.
Proof.
  revert k. induction l as [|x l IH]; intros k H; cbn in H; [discriminate|].
  destruct (item_eqb x (IComp d)) eqn:E.
  - injection H as <-. destruct x as [y|]; cbn in E; [|discriminate]. apply Nat.eqb_eq in E. subst. now exists [], l.
  - destruct (remove_first (IComp d) l) as [k'|]; cbn in H; [|discriminate]. injection H as <-.
    destruct (IH k' eq_refl) as [l1 [l2 [-> ->]]]. now exists (x :: l1), l2.
Qed.

Lemma remove_first_none d l : remove_first (IComp d) l = None -> ~ In (IComp d) l.
Proof.
  induction l as [|x l IH]; cbn; [intuition|]. destruct (item_eqb x (IComp d)) eqn:E; [discriminate|].
  destruct (remove_first (IComp d) l) as [k|]; cbn; [discriminate|]. intros _ [->|H]; [|now apply IH].
  cbn in E. rewrite Nat.eqb_refl in E. discriminate.
Qed.

Lemma remove_last_split d l k : remove_last (IComp d) l = Some k -> exists l1 l2, l = l1 ++ IComp d :: l2 /\ k = l1 ++ l2.
Proof.
  unfold remove_last. destruct (remove_first (IComp d) (rev l)) as [k'|] eqn:E; cbn; [|discriminate]. intros [= <-].
  apply remove_first_split in E as [l1 [l2 [E ->]]]. exists (rev l2), (rev l1). split.
  - rewrite <- (rev_involutive l), E, rev_app_distr. cbn. now rewrite <- app_assoc.
  - apply rev_app_distr.
Qed.

Lemma remove_last_none d l : remove_last (IComp d) l = None -> ~ In (IComp d) l.
Proof.
  unfold remove_last. destruct (remove_first (IComp d) (rev l)) as [k'|] eqn:E; cbn; [discriminate|]. intros _ H.
  apply remove_first_none in E. apply E. now apply -> in_rev.
Qed.

(** ** Invariant *)
Record inv (s : rstate) : Prop := {
  i_count : created (r_ops s) = List.length (r_slots s);
  i_once : once s;
  i_declared : forall c d, In d (held s c) -> depends (r_ops s) c d }.
Definition exact_s (s : rstate) : Prop := forall c d, depends (r_ops s) c d -> In d (held s c).

Lemma no_empty_falsy s d : no_empty s -> falsy s (IComp d) = false.
Proof.
  intros H. specialize (H d). cbn. destruct (here s d) as [|[[] [|]] [|]]; try reflexivity. now destruct H.
Qed.

Lemma NoDup_mid {A} (a b c : list A) : NoDup (a ++ b ++ c) -> NoDup b /\ forall x, In x b -> ~ In x a /\ ~ In x c.
Proof.
  intros H. induction a as [|y a IH]; cbn in H.
  - induction b as [|z b IHb]; cbn in H; [split; [constructor|easy]|]. inversion H as [|? ? Hz Hn]; subst.
    destruct (IHb Hn) as [H1 H2]. rewrite in_app_iff in Hz. split; [constructor; tauto|].
    intros x [<-|Hx]; [tauto|]. now apply H2.
  - inversion H as [|? ? Hy Hn]; subst. destruct (IH Hn) as [H1 H2]. split; [exact H1|].
    intros x Hx. destruct (H2 x Hx) as [H3 H4]. split; [|exact H4]. intros [->|?]; [|tauto]. apply Hy. rewrite !in_app_iff. tauto.
Qed.

Lemma held_split s c l1 sl l2 : here s c = l1 ++ sl :: l2 -> held s c = slots_comps l1 ++ comps (s_items sl) ++ slots_comps l2.
Proof. intros E. unfold held. rewrite E, flat_map_app. reflexivity. Qed.

(** An attribute is rewritten: [gone] are removed from the declared dependencies, [new] are added. *)
Lemma rewrite_slot s ops c i old sl (gone new : list nat) :
  inv s -> live (List.length (r_slots s)) c -> nth_error (here s c) i = Some old ->
  (forall d, In d gone -> In d (comps (s_items old))) ->
  (forall d, In d (comps (s_items sl)) -> In d new \/ (In d (comps (s_items old)) /\ ~ In d gone)) ->
  created ops = created (r_ops s) ->
  (forall a b, depends ops a b <-> (depends (r_ops s) a b /\ ~ (a = c /\ In b gone)) \/ (a = c /\ In b new)) ->
  once (set_slot s ops c i sl) ->
  inv (set_slot s ops c i sl) /\
  (exact_s s -> (forall d, In d new -> In d (comps (s_items sl))) ->
   (forall d, In d (comps (s_items old)) -> In d gone \/ In d (comps (s_items sl))) -> exact_s (set_slot s ops c i sl)).
Proof.
  intros [Ic Io Id] Hc Hi Hg Hn Hcr Hd Ho.
  destruct (set_slot_spec s ops c i sl old Hc Hi) as [L [Hh [l1 [l2 [E1 [E2 _]]]]]].
  pose proof (Io c) as Hnd. rewrite (held_split _ _ _ _ _ E1) in Hnd. apply NoDup_mid in Hnd as [_ Hnd].
  split; [split|].
  - cbn. rewrite Hcr, Ic. now rewrite <- L.
  - exact Ho.
  - intros a b Hb. change (r_ops (set_slot s ops c i sl)) with ops. apply Hd. destruct (Nat.eq_dec a c) as [->|Hne].
    + rewrite (held_split _ _ _ _ _ E2), !in_app_iff in Hb.
      destruct Hb as [Hb|[Hb|Hb]].
      * left. split; [apply Id; rewrite (held_split _ _ _ _ _ E1), !in_app_iff; auto|].
        intros [_ X]. destruct (Hnd b (Hg b X)). contradiction.
      * destruct (Hn b Hb) as [H|[H1 H2]]; [right; auto|]. left.
        split; [apply Id; rewrite (held_split _ _ _ _ _ E1), !in_app_iff; auto|]. tauto.
      * left. split; [apply Id; rewrite (held_split _ _ _ _ _ E1), !in_app_iff; auto|].
        intros [_ X]. destruct (Hnd b (Hg b X)). contradiction.
    + left. unfold held in Hb. rewrite (Hh a Hne) in Hb. split; [now apply Id|]. tauto.
  - intros Hx Hnew Hold a b. change (r_ops (set_slot s ops c i sl)) with ops. intros D. apply Hd in D as [[D Hng]|[-> Hb]].
    + apply Hx in D. destruct (Nat.eq_dec a c) as [->|Hne].
      * rewrite (held_split _ _ _ _ _ E1), !in_app_iff in D. rewrite (held_split _ _ _ _ _ E2), !in_app_iff.
        destruct D as [D|[D|D]]; auto. destruct (Hold b D) as [?|?]; [tauto|auto].
      * unfold held. rewrite (Hh a Hne). exact D.
    + rewrite (held_split _ _ _ _ _ E2), !in_app_iff. auto.
Qed.

Lemma create_spec ops c slots : live (created ops) c -> Forall (live (created ops)) (slots_comps slots) ->
  let ops' := ops ++ flat_map (fun sl => map (add_op (s_style sl) c) (s_items sl)) slots in
  created ops' = created ops /\ forall a b, depends ops' a b <-> depends ops a b \/ (a = c /\ In b (slots_comps slots)).
Proof.
  revert ops. induction slots as [|sl slots IH]; intros ops Hc Hl; cbn [flat_map].
  - rewrite app_nil_r. split; [reflexivity|]. cbn. intuition.
  - change (slots_comps (sl :: slots)) with (comps (s_items sl) ++ slots_comps slots) in *. apply Forall_app in Hl as [H1 H2].
    destruct (add_many (s_style sl) c (s_items sl) ops Hc H1) as [C1 D1]. rewrite app_assoc.
    destruct (IH (ops ++ map (add_op (s_style sl) c) (s_items sl))) as [C2 D2]; [now rewrite C1|now rewrite C1|].
    split; [cbn in C2; congruence|]. intros a b. cbn in D2. rewrite D2, D1, in_app_iff. tauto.
Qed.

Lemma NoDup_app_l {A} (a b : list A) : NoDup (a ++ b) -> NoDup a.
Proof.
  induction a as [|x a IH]; cbn; intros H; [constructor|]. inversion H as [|? ? Hx Hn]; subst. constructor; [|now apply IH].
  intros X. apply Hx. rewrite in_app_iff. auto.
Qed.

Lemma slot_NoDup s c i sl : once s -> live (List.length (r_slots s)) c -> nth_error (here s c) i = Some sl -> NoDup (comps (s_items sl)).
Proof.
  intros Ho Hc Hi. destruct (nth_error_split _ _ Hi) as [l1 [l2 [E _]]]. pose proof (Ho c) as H.
  rewrite (held_split _ _ _ _ _ E) in H. now apply NoDup_mid in H.
Qed.

Lemma slot_held s c i sl d : nth_error (here s c) i = Some sl -> In d (comps (s_items sl)) -> In d (held s c).
Proof. intros Hi Hd. unfold held. apply in_flat_map. exists sl. split; [now apply nth_error_In in Hi|exact Hd]. Qed.

Lemma comps_filter_NoDup f l : NoDup (comps l) -> NoDup (comps (filter f l)).
Proof.
  induction l as [|[d|] l IH]; intros H; [constructor| |].
  - change (comps (IComp d :: l)) with (d :: comps l) in H. inversion H as [|? ? Hx Hn]; subst. cbn [filter].
    destruct (f (IComp d)); [|now apply IH]. change (NoDup (d :: comps (filter f l))). constructor; [|now apply IH].
    intros X. apply Hx. apply comps_In in X. apply comps_In. now apply filter_In in X.
  - cbn [filter]. destruct (f IOther); [change (NoDup (comps (filter f l)))|]; now apply IH.
Qed.

Definition setter (st : style) : Prop := st = Strict \/ st = Truthy \/ st = Curves.

(** What a setter removes. *)
Definition removed (s : rstate) (st : style) (old : list item) : list item :=
  match st with Truthy => filter (fun it => negb (falsy s it)) old | _ => old end.

Lemma removed_In s st old d : In d (comps (removed s st old)) -> In d (comps old).
Proof.
  unfold removed. destruct st; auto. intros H. apply comps_In in H. apply comps_In. now apply filter_In in H.
Qed.

Lemma removed_all s st old d : no_empty s -> In d (comps old) -> In d (comps (removed s st old)).
Proof.
  intros Hf H. unfold removed. destruct st; auto. apply comps_In. apply comps_In in H. apply filter_In. split; [exact H|].
  cbn beta. now rewrite (no_empty_falsy s d Hf).
Qed.

Lemma assign_eq s c i v st old : nth_error (here s c) i = Some (Slot st old) -> setter st ->
  rstep s (Assign c i v) =
  let (ops, raised) := remove_all st (r_ops s) c (removed s st old) in
  if raised then (RS ops (r_slots s), true) else (set_slot s (ops ++ map (add_op st c) v) c i (Slot st v), false).
Proof. intros Hi [->|[->| ->]]; cbn [rstep]; rewrite Hi; reflexivity. Qed.

Lemma assign_spec s c i v st old : inv s -> exist s (c :: comps v) -> nth_error (here s c) i = Some (Slot st old) -> setter st ->
  exists s', rstep s (Assign c i v) = (s', false) /\ now_holds s s' c i (Slot st v) /\
    (once s' -> inv s' /\ (exact_s s -> no_empty s -> exact_s s')).
Proof.
  intros I Hex Hi Hst. rewrite (assign_eq s c i v st old Hi Hst). inversion Hex as [|? ? Hc Hv]; subst.
  pose proof (slot_NoDup s c i _ (i_once s I) Hc Hi) as Hn. cbn [s_items] in Hn.
  destruct (remove_many st c (removed s st old) (r_ops s)) as [ops [E [C D]]].
  - unfold removed. destruct st; auto. now apply comps_filter_NoDup.
  - intros d Hd. apply (i_declared s I). apply (slot_held s c i _ d Hi). cbn. now apply removed_In in Hd.
  - rewrite E. eexists. split; [reflexivity|]. split; [exact (set_slot_changed s _ c i _ _ Hc Hi)|]. intros Ho.
    destruct (add_many st c v ops) as [C2 D2].
    { rewrite C, (i_count s I). exact Hc. }
    { rewrite C, (i_count s I). exact Hv. }
    destruct (rewrite_slot s (ops ++ map (add_op st c) v) c i (Slot st old) (Slot st v) (comps (removed s st old)) (comps v) I Hc Hi) as [H1 H2].
    + intros d. apply removed_In.
    + cbn. auto.
    + congruence.
    + intros a b. rewrite D2, D. tauto.
    + exact Ho.
    + split; [exact H1|]. intros Hx Hf. apply H2; [exact Hx|cbn; auto|]. cbn. intros d Hd. left. now apply removed_all.
Qed.

Lemma append_spec s c i d st old : inv s -> exist s [c; d] -> nth_error (here s c) i = Some (Slot st old) -> st = Members \/ st = Recorded ->
  exists s', rstep s (Append c i d) = (s', false) /\ now_holds s s' c i (Slot st (old ++ [IComp d])) /\
    (once s' -> inv s' /\ (exact_s s -> exact_s s')).
Proof.
  intros I Hex Hi Hst. inversion Hex as [|? ? Hc Hv]; subst.
  destruct (add_one st (r_ops s) c (IComp d)) as [C D].
  { rewrite (i_count s I). exact Hc. }
  { intros x [= <-]. rewrite (i_count s I). now inversion Hv. }
  exists (set_slot s (r_ops s ++ [add_op st c (IComp d)]) c i (Slot st (old ++ [IComp d]))).
  split; [destruct Hst; subst; cbn [rstep]; rewrite Hi; reflexivity|]. split; [exact (set_slot_changed s _ c i _ _ Hc Hi)|]. intros Ho.
  destruct (rewrite_slot s (r_ops s ++ [add_op st c (IComp d)]) c i (Slot st old) (Slot st (old ++ [IComp d])) [] [d] I Hc Hi) as [H1 H2].
  - intros ? [].
  - cbn. intros x. rewrite comps_app, in_app_iff. cbn. intuition.
  - exact C.
  - intros a b. rewrite D. cbn. intuition.
  - exact Ho.
  - split; [exact H1|]. intros Hx. apply H2; [exact Hx| |].
    + cbn. intros x. rewrite comps_app, in_app_iff. cbn. intuition.
    + cbn. intros x. rewrite comps_app, in_app_iff. intuition.
Qed.

Lemma drop_spec s c i d st old : inv s -> exist s [c; d] -> nth_error (here s c) i = Some (Slot st old) -> st = Members \/ st = Recorded ->
  In (IComp d) old ->
  exists s' kept, rstep s (Drop c i d) = (s', false) /\ (exists l1 l2, old = l1 ++ IComp d :: l2 /\ kept = l1 ++ l2) /\
    now_holds s s' c i (Slot st kept) /\ (once s' -> inv s' /\ (exact_s s -> exact_s s')).
Proof.
  intros I Hex Hi Hst Hin. inversion Hex as [|? ? Hc Hv]; subst.
  assert (K : exists kept, match st with Members => remove_first (IComp d) old | Recorded => remove_last (IComp d) old | _ => None end = Some kept /\
                exists l1 l2, old = l1 ++ IComp d :: l2 /\ kept = l1 ++ l2).
  { destruct Hst; subst.
    - destruct (remove_first (IComp d) old) as [k|] eqn:E; [|now apply remove_first_none in E].
      exists k. split; [reflexivity|]. now apply remove_first_split.
    - destruct (remove_last (IComp d) old) as [k|] eqn:E; [|now apply remove_last_none in E].
      exists k. split; [reflexivity|]. now apply remove_last_split. }
  destruct K as [kept [Ek [l1 [l2 [El Ekept]]]]].
  destruct (remove_many st c [IComp d] (r_ops s)) as [ops [E [C D]]].
  { cbn. repeat constructor; easy. }
  { cbn. intros x [<-|[]]. apply (i_declared s I). apply (slot_held s c i _ d Hi). now apply comps_In. }
  exists (set_slot s ops c i (Slot st kept)), kept.
  split; [cbn [rstep]; rewrite Hi, Ek, E; reflexivity|]. split; [now exists l1, l2|].
  split; [exact (set_slot_changed s _ c i _ _ Hc Hi)|].
  intros Ho. pose proof (slot_NoDup s c i _ (i_once s I) Hc Hi) as Hn. cbn [s_items] in Hn.
  rewrite El, comps_app in Hn. change (comps (IComp d :: l2)) with ([d] ++ comps l2) in Hn. apply NoDup_mid in Hn as [_ Hn].
  destruct (Hn d (or_introl eq_refl)) as [N1 N2].
  destruct (rewrite_slot s ops c i (Slot st old) (Slot st kept) [d] [] I Hc Hi) as [H1 H2].
  - cbn. intros x [<-|[]]. now apply comps_In.
  - cbn [s_items]. intros x. rewrite El, Ekept, !comps_app. change (comps (IComp d :: l2)) with (d :: comps l2).
    rewrite !in_app_iff. cbn [In]. intros Hx. right. split; [tauto|]. intros [<-|[]]. tauto.
  - exact C.
  - intros a b. rewrite D. cbn. intuition.
  - exact Ho.
  - split; [exact H1|]. intros Hx. apply H2; [exact Hx|easy|].
    cbn [s_items]. intros x. rewrite El, Ekept, !comps_app. change (comps (IComp d :: l2)) with (d :: comps l2).
    rewrite !in_app_iff. cbn [In]. tauto.
Qed.

Lemma create_inv s slots s' r : inv s -> possible s (Create slots) -> rstep s (Create slots) = (s', r) -> once s' ->
  r = false /\ inv s' /\ (exact_s s -> exact_s s').
Proof.
  intros I Hp E Ho. cbn [rstep] in E. injection E as <- <-. split; [reflexivity|].
  set (c := S (List.length (r_slots s))) in *.
  set (ops := r_ops s ++ [New]).
  assert (C0 : created ops = c /\ forall a b, depends ops a b <-> depends (r_ops s) a b).
  { unfold ops, created, depends. rewrite dfold_snoc. pose proof (i_count s I) as H. unfold created in H.
    destruct (dfold (r_ops s)) as [n D]. cbn in *. unfold c. split; [now f_equal|tauto]. }
  destruct C0 as [C0 D0].
  destruct (create_spec ops c slots) as [C D].
  { rewrite C0. unfold live, c. lia. }
  { rewrite C0. cbn in Hp. unfold exist in Hp. apply (Forall_impl _ (P := live (List.length (r_slots s)))); [|exact Hp].
    unfold live, c. intros; lia. }
  set (s' := RS _ _) in *.
  assert (Eo : r_ops s' = ops ++ flat_map (fun sl => map (add_op (s_style sl) c) (s_items sl)) slots).
  { unfold s', ops. cbn [r_ops]. now rewrite <- app_assoc. }
  assert (Hh : forall a, a <> c -> held s' a = held s a).
  { intros [|k] Hk; [reflexivity|]. unfold held, here, s'. cbn [r_slots].
    destruct (Nat.lt_ge_cases k (List.length (r_slots s))) as [H|H].
    - now rewrite app_nth1.
    - assert (k <> List.length (r_slots s)) by (unfold c in Hk; lia).
      rewrite !nth_overflow; [reflexivity|lia|]. rewrite app_length. cbn. lia. }
  assert (Hc : held s' c = slots_comps slots).
  { unfold held, here, c, s'. cbn [r_slots]. rewrite app_nth2 by lia. now rewrite Nat.sub_diag. }
  split; [split|].
  - rewrite Eo, C, C0. unfold s', c. cbn [r_slots]. rewrite app_length. cbn. lia.
  - exact Ho.
  - intros a b Hb. rewrite Eo. apply D. rewrite D0. destruct (Nat.eq_dec a c) as [->|Hne].
    + rewrite Hc in Hb. auto.
    + rewrite (Hh a Hne) in Hb. left. now apply (i_declared s I).
  - intros Hx a b. rewrite Eo, D, D0. intros [H|[-> H]].
    + assert (a <> c). { apply depends_live in H as [H _]. rewrite (i_count s I) in H. unfold live, c in *. lia. }
      rewrite (Hh a ltac:(assumption)). now apply Hx.
    + now rewrite Hc.
Qed.

Lemma step_inv s a s' r : inv s -> possible s a -> by_setter s a -> rstep s a = (s', r) -> once s' ->
  inv s' /\ (exact_s s -> no_empty s -> exact_s s').
Proof.
  intros I Hp Hb E Ho. destruct a as [slots|c i v|c i d|c i d].
  - destruct (create_inv s slots s' r I Hp E Ho) as [_ [H1 H2]]. split; [exact H1|]. auto.
  - destruct Hb as [st [old [Hi Hst]]]. destruct Hp as [Hex _].
    destruct (assign_spec s c i v st old I Hex Hi Hst) as [s2 [E2 [_ H]]]. assert (s' = s2) by congruence. subst. auto.
  - cbn in Hp. destruct (nth_error (here s c) i) as [[st old]|] eqn:Hi.
    2:{ cbn [rstep] in E. rewrite Hi in E. assert (s' = s) by congruence. subst. auto. }
    destruct (match st with Members | Recorded => true | _ => false end) eqn:Est.
    + destruct (append_spec s c i d st old I Hp Hi) as [s2 [E2 [_ H]]]; [destruct st; auto; discriminate|].
      assert (s' = s2) by congruence. subst. destruct (H Ho). auto.
    + cbn [rstep] in E. rewrite Hi in E. assert (s' = s) by (destruct st; congruence). subst. auto.
  - cbn in Hp. destruct (nth_error (here s c) i) as [[st old]|] eqn:Hi.
    2:{ cbn [rstep] in E. rewrite Hi in E. assert (s' = s) by congruence. subst. auto. }
    destruct (match st with Members => remove_first (IComp d) old | Recorded => remove_last (IComp d) old | _ => None end) as [kept|] eqn:Ek.
    + assert (Hst : st = Members \/ st = Recorded) by (destruct st; auto; discriminate).
      assert (Hin : In (IComp d) old).
      { destruct Hst; subst; [apply remove_first_split in Ek|apply remove_last_split in Ek]; destruct Ek as [l1 [l2 [-> _]]]; rewrite in_app_iff; cbn; auto. }
      destruct (drop_spec s c i d st old I Hp Hi Hst Hin) as [s2 [k [E2 [_ [_ H]]]]]. assert (s' = s2) by congruence. subst. destruct (H Ho). auto.
    + cbn [rstep] in E. rewrite Hi, Ek in E. assert (s' = s) by congruence. subst. auto.
Qed.

Lemma empty_inv : inv (RS [] []) /\ exact_s (RS [] []).
Proof.
  assert (H : forall c, held (RS [] []) c = []) by (intros [|[|c]]; reflexivity).
  split; [split|].
  - reflexivity.
  - intros c. rewrite H. constructor.
  - intros c d. rewrite H. easy.
  - intros c d [].
Qed.

Lemma reached_inv P s : reached P s -> inv s.
Proof.
  induction 1 as [|s a s' r Hr IH HP Hp Hb E Ho]; [apply empty_inv|]. now apply (step_inv s a s' r).
Qed.

Lemma reached_exact s : reached no_empty s -> exact_s s.
Proof.
  induction 1 as [|s a s' r Hr IH HP Hp Hb E Ho]; [apply empty_inv|].
  apply (step_inv s a s' r); auto. now apply reached_inv in Hr.
Qed.

Lemma holds_held s c d : holds s c d <-> In d (held s c).
Proof.
  unfold holds, holds_at, held. rewrite in_flat_map. split.
  - intros [i [sl [H1 H2]]]. exists sl. split; [now apply nth_error_In in H1|]. now apply comps_In.
  - intros [sl [H1 H2]]. apply In_nth_error in H1 as [i H1]. exists i, sl. split; [exact H1|]. now apply comps_In.
Qed.

(** ** Deciding the conditions, for examples *)
Definition liveb (n c : nat) : bool := Nat.leb 1 c && Nat.leb c n.
Fixpoint nodupb (l : list nat) : bool := match l with [] => true | x :: l => negb (memb x l) && nodupb l end.
Definition existb (s : rstate) (l : list nat) : bool := forallb (liveb (List.length (r_slots s))) l.
Definition possibleb (s : rstate) (a : act) : bool :=
  match a with
  | Create slots => existb s (slots_comps slots)
  | Assign c i v => existb s (c :: comps v) && match nth_error (here s c) i with Some (Slot st _) => match st with Strict | Truthy | Curves => true | _ => false end | None => false end
  | Append c i d | Drop c i d => existb s [c; d]
  end.
Definition onceb (s : rstate) : bool := forallb (fun l => nodupb (slots_comps l)) (r_slots s).
Definition no_emptyb (s : rstate) : bool := forallb (fun l => match l with [Slot Members []] => false | _ => true end) (r_slots s).
Fixpoint checked (s : rstate) (l : list act) : bool :=
  match l with [] => true | a :: l => let s' := fst (rstep s a) in no_emptyb s && possibleb s a && onceb s' && checked s' l end.

Lemma nodupb_spec l : nodupb l = true -> NoDup l.
Proof.
  induction l as [|x l IH]; cbn; intros H; [constructor|]. apply andb_prop in H as [H1 H2]. constructor; [|now apply IH].
  destruct (membP x l) as [Hx|Hx]; [discriminate|exact Hx].
Qed.

Lemma existb_spec s l : existb s l = true -> exist s l.
Proof.
  unfold existb, exist. intros H. apply Forall_forall. intros x Hx. rewrite forallb_forall in H. specialize (H x Hx).
  unfold liveb in H. apply andb_prop in H as [H1 H2]. apply Nat.leb_le in H1, H2. unfold live. lia.
Qed.

Lemma here_In s c : here s c = [] \/ In (here s c) (r_slots s).
Proof.
  unfold here. destruct c as [|k]; [now left|]. destruct (Nat.lt_ge_cases k (List.length (r_slots s))) as [H|H].
  - right. now apply nth_In.
  - left. now apply nth_overflow.
Qed.

Lemma checked_reached_from l : forall s, reached no_empty s -> checked s l = true -> reached no_empty (fold_left (fun s a => fst (rstep s a)) l s).
Proof.
  induction l as [|a l IH]; intros s Hr H; [exact Hr|]. cbn [checked fold_left] in *.
  apply andb_prop in H as [H H4]. apply andb_prop in H as [H H3]. apply andb_prop in H as [H1 H2]. apply IH; [|exact H4].
  apply (Step no_empty s a _ (snd (rstep s a)) Hr).
  - intros c E. destruct (here_In s c) as [X|X]; [rewrite X in E; discriminate|]. unfold no_emptyb in H1. rewrite forallb_forall in H1.
    specialize (H1 _ X). rewrite E in H1. discriminate.
  - destruct a as [slots|c i v|c i d|c i d]; cbn [possibleb] in H2; try (apply existb_spec; exact H2).
    apply andb_prop in H2 as [H2 H5]. split; [now apply existb_spec|]. destruct (nth_error (here s c) i); discriminate.
  - destruct a as [slots|c i v|c i d|c i d]; cbn [by_setter]; try exact I. cbn [possibleb] in H2. apply andb_prop in H2 as [_ H5].
    destruct (nth_error (here s c) i) as [[st old]|]; [|discriminate]. exists st, old. split; [reflexivity|]. destruct st; auto; discriminate.
  - apply surjective_pairing.
  - intros c. unfold held. destruct (here_In (fst (rstep s a)) c) as [X|X]; [rewrite X; constructor|].
    unfold onceb in H3. rewrite forallb_forall in H3. apply nodupb_spec. exact (H3 _ X).
Qed.

Lemma checked_reached l : checked (RS [] []) l = true -> reached no_empty (run l).
Proof. intros H. apply checked_reached_from; [constructor|exact H]. Qed.
