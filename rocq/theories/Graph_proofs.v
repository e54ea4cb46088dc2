From Verif Require Import Base Paths Graph_model Graph_spec.

(** ** Graph operations refine the dependency relation *)
Lemma edge_eqbP e f : reflect (e = f) (edge_eqb e f).
Proof.
  destruct e as [a b], f as [c d]. unfold edge_eqb; cbn.
  destruct (Nat.eqb_spec a c), (Nat.eqb_spec b d); cbn; constructor; congruence.
Qed.

Lemma has_edgeP g a b : reflect (In (a, b) (cg_edges g)) (has_edge g a b).
Proof.
  unfold has_edge. destruct (existsb (edge_eqb (a, b)) (cg_edges g)) eqn:E; constructor.
  - apply existsb_exists in E as [e [He E]]. destruct (edge_eqbP (a, b) e); [now subst|discriminate].
  - intros H. assert (existsb (edge_eqb (a, b)) (cg_edges g) = true); [|congruence].
    apply existsb_exists. exists (a, b). split; [exact H|]. now destruct (edge_eqbP (a, b) (a, b)).
Qed.

Lemma add_edge_In g a b e : In e (cg_edges (add_edge g a b)) <-> In e (cg_edges g) \/ e = (a, b).
Proof.
  unfold add_edge. destruct (has_edgeP g a b) as [H|H]; cbn.
  - split; [auto|]. intros [?| ->]; auto.
  - rewrite in_app_iff. cbn. intuition.
Qed.

Lemma remove_edge_In g a b e : In e (cg_edges (remove_edge g a b)) <-> In e (cg_edges g) /\ e <> (a, b).
Proof.
  unfold remove_edge; cbn. rewrite filter_In. destruct (edge_eqbP (a, b) e); cbn; intuition congruence.
Qed.

Lemma add_edge_count g a b : cg_count (add_edge g a b) = cg_count g.
Proof. unfold add_edge. now destruct (has_edge g a b). Qed.

Lemma add_edge_NoDup g a b : NoDup (cg_edges g) -> NoDup (cg_edges (add_edge g a b)).
Proof.
  intros H. unfold add_edge. destruct (has_edgeP g a b) as [|Hn]; [exact H|]. cbn.
  apply NoDup_app_intro; [exact H|constructor; [easy|constructor]|].
  intros x Hx [<-|[]]. contradiction.
Qed.

Lemma remove_edge_NoDup g a b : NoDup (cg_edges g) -> NoDup (cg_edges (remove_edge g a b)).
Proof. intros H. apply NoDup_filter. exact H. Qed.

Lemma successors_In g a b : In b (successors g a) <-> In (a, b) (cg_edges g).
Proof.
  unfold successors. rewrite in_map_iff. split.
  - intros [[x y] [<- H]]. apply filter_In in H as [H E]. cbn in E. apply Nat.eqb_eq in E. now subst.
  - intros H. exists (a, b). split; [reflexivity|]. apply filter_In. split; [exact H|]. apply Nat.eqb_refl.
Qed.

Lemma predecessors_In g a b : In a (predecessors g b) <-> In (a, b) (cg_edges g).
Proof.
  unfold predecessors. rewrite in_map_iff. split.
  - intros [[x y] [<- H]]. apply filter_In in H as [H E]. cbn in E. apply Nat.eqb_eq in E. now subst.
  - intros H. exists (a, b). split; [reflexivity|]. apply filter_In. split; [exact H|]. apply Nat.eqb_refl.
Qed.

Lemma fold_remove_In (f : nat -> nat * nat) l : forall g e,
  In e (cg_edges (fold_left (fun h n => remove_edge h (fst (f n)) (snd (f n))) l g)) <->
  In e (cg_edges g) /\ ~ In e (map f l).
Proof.
  induction l as [|x l IH]; intros g e; cbn [fold_left map].
  - cbn. intuition.
  - rewrite IH, remove_edge_In. cbn. rewrite <- surjective_pairing. intuition congruence.
Qed.

Lemma fold_remove_count (f : nat -> nat * nat) l : forall g,
  cg_count (fold_left (fun h n => remove_edge h (fst (f n)) (snd (f n))) l g) = cg_count g.
Proof. induction l as [|x l IH]; intros g; cbn [fold_left]; [reflexivity|]. now rewrite IH. Qed.

Lemma fold_remove_NoDup (f : nat -> nat * nat) l : forall g, NoDup (cg_edges g) ->
  NoDup (cg_edges (fold_left (fun h n => remove_edge h (fst (f n)) (snd (f n))) l g)).
Proof.
  induction l as [|x l IH]; intros g H; cbn [fold_left]; [exact H|]. apply IH. now apply remove_edge_NoDup.
Qed.

(** Refinement: root edges to exactly the existing components, the other edges are the dependencies. *)
Definition refines (g : cgraph) (s : dstate) : Prop :=
  cg_count g = fst s /\ NoDup (cg_edges g) /\
  (forall a b, In (a, b) (cg_edges g) <->
     (a = ROOT /\ live (fst s) b) \/ (live (fst s) a /\ live (fst s) b /\ snd s b a)) /\
  (forall x y, snd s x y -> live (fst s) x /\ live (fst s) y).

Lemma exists_cP g c : reflect (live (cg_count g) c) (exists_c g c).
Proof.
  unfold exists_c, live. destruct (Nat.leb_spec0 1 c), (Nat.leb_spec0 c (cg_count g)); cbn; constructor; lia.
Qed.

Lemma refines_add g s x y :
  refines g s -> live (fst s) x -> live (fst s) y ->
  refines (add_edge g y x) (fst s, fun a b => snd s a b \/ (a = x /\ b = y /\ live (fst s) x /\ live (fst s) y)).
Proof.
  intros [Hc [Hn [He Hd]]] Hx Hy. split; [|split; [|split]]; cbn [fst snd].
  - now rewrite add_edge_count.
  - now apply add_edge_NoDup.
  - intros a b. rewrite add_edge_In, He. split.
    + intros [[?|?]|E]; [now left|right; intuition|]. injection E as -> ->. right. intuition.
    + intros [?|[? [? [?|[-> [-> _]]]]]]; auto.
  - intros a b [H|[-> [-> _]]]; [now apply Hd|auto].
Qed.

Lemma refines_add_dead g s x y :
  refines g s -> ~ (live (fst s) x /\ live (fst s) y) ->
  refines g (fst s, fun a b => snd s a b \/ (a = x /\ b = y /\ live (fst s) x /\ live (fst s) y)).
Proof.
  intros [Hc [Hn [He Hd]]] Hl. split; [|split; [|split]]; cbn [fst snd]; auto.
  - intros a b. rewrite He. intuition.
  - intros a b [H|[-> [-> H]]]; [now apply Hd|]. exact H.
Qed.

Lemma refines_remove g s x y :
  refines g s -> live (fst s) y ->
  refines (remove_edge g y x) (fst s, fun a b => snd s a b /\ ~ (a = x /\ b = y)).
Proof.
  intros [Hc [Hn [He Hd]]] Hy. split; [|split; [|split]]; cbn [fst snd].
  - exact Hc.
  - now apply remove_edge_NoDup.
  - intros a b. rewrite remove_edge_In, He. split.
    + intros [[?|[? [? ?]]] Hne]; [now left|]. right. split; [tauto|split; [tauto|split; [tauto|]]].
      intros [-> ->]. now apply Hne.
    + intros [[-> Hb]|[Ha [Hb [H Hne]]]].
      * split; [now left|]. intros E. injection E as <- <-. unfold live, ROOT in *. lia.
      * split; [tauto|]. intros E. injection E as -> ->. now apply Hne.
  - intros a b [H _]. now apply Hd.
Qed.

Lemma refines_remove_dead g s x y :
  refines g s -> ~ (live (fst s) x /\ live (fst s) y) ->
  refines g (fst s, fun a b => snd s a b /\ ~ (a = x /\ b = y)).
Proof.
  intros [Hc [Hn [He Hd]]] Hl. split; [|split; [|split]]; cbn [fst snd]; auto.
  - intros a b. rewrite He. split; [|tauto].
    intros [?|[Ha [Hb H]]]; [now left|right]. split; [tauto|split; [tauto|split; [tauto|]]]. intros [-> ->]. tauto.
  - intros a b [H _]. now apply Hd.
Qed.

Lemma gstep_refines g s o : refines g s -> refines (gstep g o) (dstep s o).
Proof.
  intros R. pose proof R as R'. destruct R as [Hc [Hn [He Hd]]]. destruct s as [n D]. cbn [fst snd] in *.
  destruct o as [|x [y|]|y [x|]|x [y|]|y [x|]|x|y]; cbn [gstep dstep]; try exact R'.
  - (* New *) split; [|split; [|split]]; cbn [fst snd].
    + now rewrite add_edge_count; cbn; rewrite Hc.
    + apply add_edge_NoDup. exact Hn.
    + intros a b. rewrite add_edge_In. cbn. rewrite He. split.
      * intros [[[-> Hb]|[Ha [Hb H]]]|E].
        -- left. unfold live in *. lia.
        -- right. unfold live in *. repeat split; try lia. exact H.
        -- injection E as -> ->. left. unfold live. lia.
      * intros [[-> Hb]|[Ha [Hb H]]].
        -- destruct (Nat.eq_dec b (S (cg_count g))) as [->|Hne]; [now right|].
           left. left. unfold live in *. lia.
        -- left. right. destruct (Hd _ _ H). tauto.
    + intros a b H. apply Hd in H. unfold live in *. lia.
  - destruct (exists_cP g x), (exists_cP g y); cbn; rewrite Hc in *.
    + now apply (refines_add g (n, D)).
    + apply (refines_add_dead g (n, D)); cbn; tauto.
    + apply (refines_add_dead g (n, D)); cbn; tauto.
    + apply (refines_add_dead g (n, D)); cbn; tauto.
  - destruct (exists_cP g x), (exists_cP g y); cbn; rewrite Hc in *.
    + now apply (refines_add g (n, D)).
    + apply (refines_add_dead g (n, D)); cbn; tauto.
    + apply (refines_add_dead g (n, D)); cbn; tauto.
    + apply (refines_add_dead g (n, D)); cbn; tauto.
  - destruct (exists_cP g x), (exists_cP g y); cbn; rewrite Hc in *.
    + now apply (refines_remove g (n, D)).
    + apply (refines_remove_dead g (n, D)); cbn; tauto.
    + apply (refines_remove_dead g (n, D)); cbn; tauto.
    + apply (refines_remove_dead g (n, D)); cbn; tauto.
  - destruct (exists_cP g x), (exists_cP g y); cbn; rewrite Hc in *.
    + now apply (refines_remove g (n, D)).
    + apply (refines_remove_dead g (n, D)); cbn; tauto.
    + apply (refines_remove_dead g (n, D)); cbn; tauto.
    + apply (refines_remove_dead g (n, D)); cbn; tauto.
  - (* ChildrenClear *)
    destruct (exists_cP g x) as [Hx|Hx]; rewrite Hc in Hx.
    + pose proof (fold_remove_In (fun m => (m, x)) (filter (fun m => negb (Nat.eqb m ROOT)) (predecessors g x)) g) as Hf.
      pose proof (fold_remove_count (fun m => (m, x)) (filter (fun m => negb (Nat.eqb m ROOT)) (predecessors g x)) g) as Hcnt.
      pose proof (fold_remove_NoDup (fun m => (m, x)) (filter (fun m => negb (Nat.eqb m ROOT)) (predecessors g x)) g Hn) as Hnd.
      cbn [fst snd] in Hf, Hcnt, Hnd.
      split; [|split; [|split]]; cbn [fst snd].
      * now rewrite Hcnt.
      * exact Hnd.
      * intros a b. rewrite Hf, He. split.
        -- intros [[[-> Hb]|[Ha [Hb H]]] Hnin]; [now left|]. right. split; [tauto|split; [tauto|split; [tauto|]]].
           intros ->. apply Hnin. apply in_map_iff. exists a. split; [reflexivity|].
           apply filter_In. rewrite predecessors_In. split; [apply He; right; tauto|].
           destruct (Nat.eqb_spec a ROOT) as [->|]; [unfold live, ROOT in *; lia|reflexivity].
        -- intros [[-> Hb]|[Ha [Hb [H Hne]]]].
           ++ split; [now left|]. rewrite in_map_iff. intros [m [E Hm]]. injection E as -> ->.
              apply filter_In in Hm as [_ Hm]. discriminate.
           ++ split; [tauto|]. rewrite in_map_iff. intros [m [E Hm]]. injection E as -> ->. congruence.
      * intros a b [H _]. now apply Hd.
    + split; [|split; [|split]]; cbn [fst snd]; auto.
      * intros a b. rewrite He. split; [|tauto]. intros [?|[Ha [Hb H]]]; [now left|right].
        split; [tauto|split; [tauto|split; [tauto|]]]. intros ->. tauto.
      * intros a b [H _]. now apply Hd.
  - (* ParentsClear *)
    destruct (exists_cP g y) as [Hy|Hy]; rewrite Hc in Hy.
    + pose proof (fold_remove_In (fun m => (y, m)) (successors g y) g) as Hf.
      pose proof (fold_remove_count (fun m => (y, m)) (successors g y) g) as Hcnt.
      pose proof (fold_remove_NoDup (fun m => (y, m)) (successors g y) g Hn) as Hnd.
      cbn [fst snd] in Hf, Hcnt, Hnd.
      split; [|split; [|split]]; cbn [fst snd].
      * now rewrite Hcnt.
      * exact Hnd.
      * intros a b. rewrite Hf, He. split.
        -- intros [[[-> Hb]|[Ha [Hb H]]] Hnin]; [now left|]. right. split; [tauto|split; [tauto|split; [tauto|]]].
           intros ->. apply Hnin. apply in_map_iff. exists b. split; [reflexivity|].
           apply successors_In. apply He. right. tauto.
        -- intros [[-> Hb]|[Ha [Hb [H Hne]]]].
           ++ split; [now left|]. rewrite in_map_iff. intros [m [E Hm]]. injection E as -> ->. unfold live, ROOT in *. lia.
           ++ split; [tauto|]. rewrite in_map_iff. intros [m [E Hm]]. injection E as -> ->. congruence.
      * intros a b [H _]. now apply Hd.
    + split; [|split; [|split]]; cbn [fst snd]; auto.
      * intros a b. rewrite He. split; [|tauto]. intros [?|[Ha [Hb H]]]; [now left|right].
        split; [tauto|split; [tauto|split; [tauto|]]]. intros ->. tauto.
      * intros a b [H _]. now apply Hd.
Qed.

Lemma fold_refines ops : forall g s, refines g s -> refines (fold_left gstep ops g) (fold_left dstep ops s).
Proof. induction ops as [|o ops IH]; intros g s R; [exact R|]. cbn. apply IH. now apply gstep_refines. Qed.

Lemma gempty_refines : refines gempty (0%nat, fun _ _ => False).
Proof.
  split; [reflexivity|]. split; [constructor|]. split; cbn.
  - intros a b. unfold live. split; [contradiction|]. intros [[_ ?]|[_ [_ []]]]. lia.
  - contradiction.
Qed.

Lemma grun_refines ops : refines (grun ops) (dfold ops).
Proof. apply fold_refines. apply gempty_refines. Qed.

(** ** Facts about a graph that refines a dependency state *)
Section Refined.
  Context (g : cgraph) (s : dstate) (R : refines g s).
  Let n := fst s.
  Let D := snd s.
  Let E := fun a b => In b (successors g a).

  Lemma R_nodes x : In x (cnodes g) <-> x = ROOT \/ live n x.
  Proof.
    destruct R as [Hc _]. unfold cnodes, components. cbn [In]. rewrite in_seq. unfold live, n, ROOT. rewrite <- Hc. 
    split; [intros [<-|]|intros [->|]]; auto; right; lia.
  Qed.

  Lemma R_edge a b : E a b <-> (a = ROOT /\ live n b) \/ (live n a /\ live n b /\ D b a).
  Proof. destruct R as [_ [_ [He _]]]. unfold E. rewrite successors_In. apply He. Qed.

  Lemma R_dep x y : D x y -> E y x.
  Proof. intros H. apply R_edge. right. destruct R as [_ [_ [_ Hd]]]. destruct (Hd x y H). auto. Qed.

  Lemma R_succ_NoDup a : NoDup (successors g a).
  Proof.
    destruct R as [_ [Hn _]]. unfold successors. apply NoDup_map_inj; [|now apply NoDup_filter].
    intros [x y] [x' y'] H H' Heq. apply filter_In in H as [_ H], H' as [_ H'].
    cbn in *. apply Nat.eqb_eq in H, H'. congruence.
  Qed.

  Lemma R_plus_inv a b : plus E a b -> live n a -> plus D b a.
  Proof.
    induction 1 as [a b H|a b c H _ IH]; intros Ha; apply R_edge in H as [[-> _]|[_ [Hb H]]];
      try (unfold live, ROOT in Ha; lia).
    - now apply plus_one.
    - eapply plus_trans; [exact (IH Hb)|now apply plus_one].
  Qed.

  Lemma R_plus_E a b : plus D a b -> plus E b a.
  Proof.
    induction 1 as [a b H|a b c H _ IH]; [apply plus_one; now apply R_dep|].
    eapply plus_trans; [exact IH|]. apply plus_one. now apply R_dep.
  Qed.

  Lemma R_root_target a : ~ E a ROOT.
  Proof. intros H. apply R_edge in H. unfold live, ROOT in H. lia. Qed.

  Lemma R_plus_live a b : plus E a b -> live n b.
  Proof. induction 1 as [a b H|]; [apply R_edge in H; tauto|assumption]. Qed.

  Lemma R_cyclic : cyclic E <-> cyclic D.
  Proof.
    split; intros [x H].
    - exists x. apply R_plus_inv; [exact H|]. eapply R_plus_live; eauto.
    - exists x. now apply R_plus_E.
  Qed.

  Lemma R_has_cycle : has_cycle g = true <-> cyclic D.
  Proof.
    rewrite <- R_cyclic. unfold has_cycle. rewrite existsb_exists. split.
    - intros [x [_ H]]. apply existsb_exists in H as [v [Hv H]]. apply orb_true_iff in H as [H|H].
      + apply Nat.eqb_eq in H. subst. exists x. now apply plus_one.
      + destruct (sp (successors g) x (length (cnodes g)) [v] v) as [|p ps] eqn:Esp; [discriminate|].
        assert (In p (sp (successors g) x (length (cnodes g)) [v] v)) as Hp by (rewrite Esp; now left).
        apply sp_sound in Hp as [q [-> [Hq [Hl [_ [_ [Hc _]]]]]]].
        exists x. eapply plus_step; [exact Hv|]. apply (walk_plus E (v :: q)).
        * split; [reflexivity|]. split; [|exact Hc]. destruct q as [|z q]; [congruence|].
          rewrite <- Hl. reflexivity.
        * destruct q; [congruence|]. cbn. lia.
    - intros [x H]. assert (Hx : live n x) by (eapply R_plus_live; eauto).
      exists x. split; [apply R_nodes; now right|]. apply existsb_exists.
      assert (exists v, E x v /\ (v = x \/ plus E v x)) as [v [Hv Hp]].
      { inversion H as [? ? H1|? b ? H1 H2]; subst; eauto. }
      exists v. split; [exact Hv|]. apply orb_true_iff.
      assert (v = x \/ exists p, simple_path E v x p) as [->|[p Hs]].
      { destruct Hp as [->|Hp]; [now left|]. now apply plus_simple. }
      + left. apply Nat.eqb_refl.
      + right. assert (Hv' : In v (cnodes g)).
        { apply R_nodes. right. apply R_edge in Hv. tauto. }
        assert (length p <= length (cnodes g))%nat as Hlen.
        { eapply simple_path_length; [exact Hv'| |exact Hs].
          intros a b Hab. apply R_nodes. right. apply R_edge in Hab. tauto. }
        destruct Hs as [[Hh [Hl Hc]] [Hnd H2]]. destruct p as [|v' q]; [discriminate|].
        cbn in Hh. injection Hh as ->. inversion Hnd as [|? ? Hni Hnd']; subst.
        assert (In (v :: q) (sp (successors g) (last (v :: q) v) (length (cnodes g)) [v] v)) as Hin.
        { apply sp_complete; auto.
          - intros ->. cbn in H2. lia.
          - destruct q; [cbn in H2; lia|reflexivity].
          - intros y Hy [<-|[]]. contradiction.
          - change (length (v :: q)) with (S (length q)) in Hlen. lia. }
        destruct (sp _ _ _ _ _); [contradiction|reflexivity].
  Qed.
End Refined.

(** ** Depth-first search *)
Section DFS.
  Context (succ : nat -> list nat) (nodes : list nat).
  Let E := fun a b => In b (succ a).
  Context (Hnodes : forall a b, E a b -> In b nodes) (Hacyc : ~ cyclic E).

  (** successors of every finished node are finished, and come later in the (reversed) list *)
  Definition topo (out : list nat) : Prop :=
    NoDup out /\ forall l1 x l2, out = l1 ++ x :: l2 -> forall y, E x y -> In y l2.

  Lemma topo_cons x out : ~ In x out -> (forall y, E x y -> In y out) -> topo out -> topo (x :: out).
  Proof.
    intros Hx Hs [Hn Ht]. split; [now constructor|].
    intros [|z l1] x' l2 Heq y Hy; cbn in Heq; injection Heq as -> ->.
    - now apply Hs.
    - eapply Ht; [reflexivity|exact Hy].
  Qed.

  Lemma dfs_ok fuel : forall stk n out,
    topo out -> NoDup stk -> incl stk nodes -> In n nodes ->
    (forall x, In x stk -> ~ In x out) ->
    (forall x, In x stk -> plus E x n) ->
    (length nodes < fuel + length stk)%nat ->
    let out' := dfs succ fuel stk n out in
    topo out' /\ incl out out' /\ In n out' /\
    (forall x, In x out' -> In x out \/ x = n \/ plus E n x) /\
    (forall x, In x stk -> ~ In x out').
  Proof.
    induction fuel as [|f IH]; intros stk n out Ht Hstk Hincl Hn Hdis Hpath Hfuel.
    - exfalso. assert (length stk <= length nodes)%nat by now apply NoDup_incl_length. cbn in Hfuel. lia.
    - cbn zeta. cbn [dfs].
      assert (Hns : ~ In n stk) by (intros Hin; apply Hacyc; exists n; now apply Hpath).
      destruct (membP n stk) as [|_]; [contradiction|]. cbn [orb].
      destruct (membP n out) as [Hin|Hnout].
      { repeat split; auto; try apply Ht. apply incl_refl. }
      assert (Hstk' : NoDup (n :: stk)) by now constructor.
      assert (Hincl' : incl (n :: stk) nodes) by (intros x [<-|Hx]; auto).
      assert (Hloop : forall ss o, (forall s, In s ss -> E n s) ->
        topo o -> (forall x, In x (n :: stk) -> ~ In x o) ->
        let o' := fold_left (fun o s => dfs succ f (n :: stk) s o) ss o in
        topo o' /\ incl o o' /\ (forall s, In s ss -> In s o') /\
        (forall x, In x o' -> In x o \/ plus E n x) /\
        (forall x, In x (n :: stk) -> ~ In x o')).
      { induction ss as [|s ss IHs]; intros o Hss Hto Hdo; cbn zeta; cbn [fold_left].
        - split; [exact Hto|]. split; [apply incl_refl|]. split; [intros ? []|]. split; [auto|exact Hdo].
        - assert (Hs : E n s) by (apply Hss; now left).
          assert (Hp : forall x, In x (n :: stk) -> plus E x s).
          { intros x [<-|Hx]; [now apply plus_one|]. eapply plus_trans; [exact (Hpath x Hx)|now apply plus_one]. }
          assert (Hf : (length nodes < f + length (n :: stk))%nat) by (cbn [length]; lia).
          destruct (IH (n :: stk) s o Hto Hstk' Hincl' (Hnodes n s Hs) Hdo Hp Hf) as [T1 [T2 [T3 [T4 T5]]]].
          destruct (IHs (dfs succ f (n :: stk) s o)) as [U1 [U2 [U3 [U4 U5]]]]; auto.
          { intros s' Hs'. apply Hss. now right. }
          split; [exact U1|]. split; [eapply incl_tran; eauto|]. split; [|split; [|exact U5]].
          + intros s' [<-|Hs']; [apply U2, T3|now apply U3].
          + intros x Hx. apply U4 in Hx as [Hx|Hx]; [|now right].
              apply T4 in Hx as [Hx|[->|Hx]]; [now left|right; now apply plus_one|right].
              eapply plus_step; eauto. }
      destruct (Hloop (succ n) out) as [U1 [U2 [U3 [U4 U5]]]]; auto.
      { intros x [<-|Hx]; auto. }
      split; [|split; [|split; [|split]]].
      + apply topo_cons; [apply U5; now left|exact U3|exact U1].
      + intros x Hx. right. now apply U2.
      + now left.
      + intros x [<-|Hx]; [auto|]. apply U4 in Hx as [Hx|Hx]; auto.
      + intros x Hx [<-|Hin]; [contradiction|]. apply (U5 x); [now right|exact Hin].
  Qed.

  Lemma topo_before out x y : topo out -> In x out -> plus E x y -> before out x y.
  Proof.
    intros [Hn Ht] Hx Hp. apply in_split in Hx as [l1 [l2 ->]].
    assert (In y l2) as Hy.
    { assert (forall z w, plus E z w -> forall m1 m2, l1 ++ x :: l2 = m1 ++ z :: m2 -> In w m2) as K.
      { induction 1 as [z w H|z w v H _ IH]; intros m1 m2 Heq.
        - eapply Ht; eauto.
        - assert (Hw : In w m2) by (eapply Ht; eauto).
          apply in_split in Hw as [k1 [k2 ->]].
          assert (In v k2) as Hv.
          { apply (IH (m1 ++ z :: k1) k2). rewrite Heq. now rewrite <- app_assoc. }
          apply in_or_app. right. now right. }
      eapply K; [exact Hp|reflexivity]. }
    apply in_split in Hy as [k1 [k2 ->]]. now exists l1, k1, k2.
  Qed.
End DFS.

Lemma before_filter f l a b : before l a b -> f a = true -> f b = true -> before (filter f l) a b.
Proof.
  intros [l1 [l2 [l3 ->]]] Ha Hb. exists (filter f l1), (filter f l2), (filter f l3).
  rewrite filter_app. cbn. rewrite Ha, filter_app. cbn. now rewrite Hb.
Qed.

Definition order_ok (s : dstate) (l : list nat) : Prop :=
  NoDup l /\ (forall c, In c l <-> live (fst s) c) /\ (forall x y, plus (snd s) x y -> before l y x).

Lemma flat_order_ok g s : refines g s -> ~ cyclic (snd s) -> order_ok s (flat_order g).
Proof.
  intros R Hac. unfold flat_order.
  set (E := fun a b => In b (successors g a)).
  assert (HacE : ~ cyclic E) by (intros H; apply Hac; now apply (R_cyclic g s R)).
  assert (HN : forall a b, In b (successors g a) -> In b (cnodes g)).
  { intros a b H. apply (R_nodes g s R). right. apply (R_edge g s R) in H. tauto. }
  assert (HT : topo (successors g) []).
  { split; [constructor|]. intros [|]; discriminate. }
  pose proof (dfs_ok (successors g) (cnodes g) HN HacE (S (length (cnodes g))) [] ROOT [] HT
    (NoDup_nil _) (fun x H => match H with end) (or_introl eq_refl) (fun x H => match H with end)
    (fun x H => match H with end) ltac:(cbn; lia)) as K.
  cbn zeta in K. destruct K as [T1 [_ [T3 [T4 _]]]].
  set (out := dfs (successors g) (S (length (cnodes g))) [] ROOT []) in *.
  assert (Hall : forall c, live (fst s) c -> In c out).
    { intros c Hc. destruct T1 as [_ T1]. apply in_split in T3 as [l1 [l2 E']].
      rewrite E'. apply in_or_app. right. right. eapply T1; [exact E'|]. apply (R_edge g s R). now left. }
  split; [|split; [intros c; split|]].
    + apply NoDup_filter. apply T1.
    + intros H. apply filter_In in H as [H Hr]. apply T4 in H as [[]|[->|H]]; [discriminate|].
      now apply (R_plus_live g s R) in H.
    + intros Hc. apply filter_In. split; [now apply Hall|].
      destruct (Nat.eqb_spec c ROOT) as [->|]; [unfold live, ROOT in *; lia|reflexivity].
    + intros x y Hp.
      assert (forall a b, plus (snd s) a b -> live (fst s) a /\ live (fst s) b) as L.
      { destruct R as [_ [_ [_ Hd]]]. induction 1 as [a b H|a b c H _ IH]; [now apply Hd in H|].
        apply Hd in H. tauto. }
      destruct (L x y Hp) as [Hx Hy]. apply (R_plus_E g s R) in Hp.
      apply before_filter.
      * apply (topo_before (successors g)); [exact T1| |exact Hp]. now apply Hall.
      * destruct (Nat.eqb_spec y ROOT) as [->|]; [unfold live, ROOT in *; lia|reflexivity].
      * destruct (Nat.eqb_spec x ROOT) as [->|]; [unfold live, ROOT in *; lia|reflexivity].
Qed.

(** ** Model state machine *)
Lemma ops_of_app es es' : ops_of (es ++ es') = ops_of es ++ ops_of es'.
Proof. unfold ops_of. apply flat_map_app. Qed.

Lemma flatten_graph b s : ms_graph (fst (flatten b s)) = ms_graph s.
Proof. unfold flatten. destruct (ms_flat s), b; cbn; try reflexivity; destruct (has_cycle (ms_graph s)); reflexivity. Qed.

Lemma msetup_graph s : ms_graph (fst (msetup s)) = ms_graph s.
Proof.
  unfold msetup. pose proof (flatten_graph true s) as H. destruct (flatten true s) as [s' [l|]]; exact H.
Qed.

Lemma mrun_graph s : ms_graph (fst (mrun s)) = ms_graph s.
Proof. unfold mrun. destruct (ms_dirty s); [apply msetup_graph|apply flatten_graph]. Qed.

Lemma mhistory_graph_gen es : forall s g, ms_graph s = g ->
  ms_graph (fold_left mevent es s) = fold_left gstep (ops_of es) g.
Proof.
  induction es as [|e es IH]; intros s g Hs; [exact Hs|].
  change (ops_of (e :: es)) with ((match e with EOp o => [o] | _ => [] end) ++ ops_of es).
  rewrite fold_left_app. cbn [fold_left]. apply IH.
  destruct e; cbn; [now rewrite Hs|exact Hs|now rewrite msetup_graph|now rewrite mrun_graph].
Qed.

Lemma mhistory_graph es : ms_graph (mhistory es) = grun (ops_of es).
Proof. apply mhistory_graph_gen. reflexivity. Qed.

(** A setup flattens the current graph. *)
Lemma msetup_result s ops :
  ms_graph s = grun ops ->
  match snd (msetup s) with
  | Some l => ~ cyclic (depends ops) /\ good_order ops l
  | None => cyclic (depends ops)
  end.
Proof.
  intros Hg. pose proof (grun_refines ops) as R. rewrite <- Hg in R.
  pose proof (R_has_cycle _ _ R) as HC. unfold msetup, flatten.
  destruct (ms_flat s); destruct (has_cycle (ms_graph s)) eqn:E; cbn.
  - now apply HC.
  - assert (~ cyclic (depends ops)) as Hn by (intros H; apply HC in H; congruence).
    split; [exact Hn|]. now apply (flat_order_ok _ _ R).
  - now apply HC.
  - assert (~ cyclic (depends ops)) as Hn by (intros H; apply HC in H; congruence).
    split; [exact Hn|]. now apply (flat_order_ok _ _ R).
Qed.

Lemma dirty_run es : ms_dirty (mhistory es) = true ->
  match snd (mrun (mhistory es)) with
  | Some l => ~ cyclic (depends (ops_of es)) /\ good_order (ops_of es) l
  | None => cyclic (depends (ops_of es))
  end.
Proof. intros Hd. unfold mrun. rewrite Hd. apply msetup_result. apply mhistory_graph. Qed.

Lemma setup_any es :
  match snd (msetup (mhistory es)) with
  | Some l => ~ cyclic (depends (ops_of es)) /\ good_order (ops_of es) l
  | None => cyclic (depends (ops_of es))
  end.
Proof. apply msetup_result. apply mhistory_graph. Qed.

(** Once set up, runs without component operations in between use the order of that set-up. *)
Definition quiet (e : event) : bool := match e with EOp _ => false | _ => true end.

Lemma msetup_some s l : snd (msetup s) = Some l ->
  ms_flat (fst (msetup s)) = Some l /\ ms_dirty (fst (msetup s)) = false.
Proof.
  unfold msetup, flatten. destruct (ms_flat s), (has_cycle (ms_graph s)); cbn; intros E; try discriminate;
    injection E as <-; auto.
Qed.

(** Invariant after a successful set-up: the graph is the one flattened, the stored order is its order. *)
Definition settled (g : cgraph) (l : list nat) (s : mstate) : Prop :=
  ms_graph s = g /\ ms_flat s = Some l.

Lemma msetup_some_order s l : snd (msetup s) = Some l ->
  has_cycle (ms_graph s) = false /\ l = flat_order (ms_graph s).
Proof.
  unfold msetup, flatten. destruct (ms_flat s), (has_cycle (ms_graph s)); cbn; intros E; try discriminate;
    injection E as <-; auto.
Qed.

Lemma settled_step g l s e :
  has_cycle g = false -> l = flat_order g -> settled g l s -> quiet e = true -> settled g l (mevent s e).
Proof.
  intros Hc Hl [Hg Hf] Hq. destruct e as [o| | |]; [discriminate| | |]; cbn [mevent].
  - split; assumption.
  - unfold msetup, flatten. rewrite Hf, Hg, Hc. cbn. split; [reflexivity|cbn; now rewrite Hl].
  - unfold mrun. destruct (ms_dirty s).
    + unfold msetup, flatten. rewrite Hf, Hg, Hc. cbn. split; [reflexivity|cbn; now rewrite Hl].
    + unfold flatten. rewrite Hf. split; assumption.
Qed.

Lemma quiet_runs es es' l :
  snd (msetup (mhistory es)) = Some l -> forallb quiet es' = true ->
  snd (mrun (fold_left mevent es' (fst (msetup (mhistory es))))) = Some l.
Proof.
  intros Hs Hq. destruct (msetup_some_order _ _ Hs) as [Hc Hl]. destruct (msetup_some _ _ Hs) as [Hf _].
  assert (settled (ms_graph (mhistory es)) l (fold_left mevent es' (fst (msetup (mhistory es))))) as [Hg Hf'].
  { assert (settled (ms_graph (mhistory es)) l (fst (msetup (mhistory es)))) as H0
      by (split; [apply msetup_graph|exact Hf]).
    revert H0 Hq. generalize (fst (msetup (mhistory es))) as s0.
    induction es' as [|e es' IH]; intros s0 H0 Hq; [exact H0|]. cbn in Hq. apply andb_true_iff in Hq as [Hq1 Hq2].
    cbn [fold_left]. apply IH; [|exact Hq2]. now apply settled_step. }
  clear -Hg Hf' Hc Hl. revert Hg Hf'. generalize (fold_left mevent es' (fst (msetup (mhistory es)))) as s1.
  intros s1 Hg Hf'. unfold mrun. destruct (ms_dirty s1).
  - unfold msetup, flatten. rewrite Hf', Hg, Hc. cbn. now rewrite <- Hl.
  - unfold flatten. now rewrite Hf'.
Qed.

(** ** Evaluation in a good order reads values of the same timestep *)
Lemma calc_all_skip rd F order : forall v c, ~ In c order -> calc_all rd F order v c = v c.
Proof.
  induction order as [|x order IH]; intros v c H; [reflexivity|]. cbn.
  unfold calc_all in IH |- *. cbn [fold_left]. rewrite IH by (intros K; apply H; now right).
  unfold set_value. destruct (Nat.eqb_spec c x) as [->|]; [|reflexivity]. exfalso. apply H. now left.
Qed.

Lemma calc_all_app rd F l m v : calc_all rd F (l ++ m) v = calc_all rd F m (calc_all rd F l v).
Proof. apply fold_left_app. Qed.

Lemma calc_all_fresh rd F order v c :
  NoDup order -> In c order ->
  (forall y, In y (rd c) -> before order y c) ->
  calc_all rd F order v c = F c (map (calc_all rd F order v) (rd c)).
Proof.
  intros Hn Hin Hb. apply in_split in Hin as [l [m ->]].
  assert (Hcl : ~ In c l /\ ~ In c m).
  { apply NoDup_remove_2 in Hn. rewrite in_app_iff in Hn. tauto. }
  rewrite calc_all_app.
  change (calc_all rd F (c :: m) (calc_all rd F l v))
    with (calc_all rd F m (set_value (calc_all rd F l v) c (F c (map (calc_all rd F l v) (rd c))))).
  rewrite calc_all_skip by tauto. unfold set_value at 1. rewrite Nat.eqb_refl.
  f_equal. apply map_ext_in. intros y Hy.
  assert (In y l /\ y <> c /\ ~ In y m) as [Hyl [Hyc Hym]].
  { destruct (Hb y Hy) as [l1 [l2 [l3 E]]].
    assert (l = l1 ++ y :: l2) as ->.
    { assert (K : l ++ c :: m = (l1 ++ y :: l2) ++ c :: l3) by (rewrite E, <- app_assoc; reflexivity).
      assert (Hn2 : NoDup ((l1 ++ y :: l2) ++ c :: l3)) by (rewrite <- K; exact Hn).
      clear -K Hn Hn2. revert K Hn Hn2. generalize (l1 ++ y :: l2) as k.
      induction l as [|a l IH]; intros k K Hn Hn2; destruct k as [|b k]; cbn in *; auto.
      - injection K as -> K. exfalso. inversion Hn2 as [|? ? Hni _]; subst. apply Hni.
        apply in_or_app. right. now left.
      - injection K as -> K. exfalso. inversion Hn as [|? ? Hni _]; subst. apply Hni.
        apply in_or_app. right. now left.
      - injection K as -> K. f_equal. inversion Hn; inversion Hn2; subst. apply IH; auto. }
    split; [apply in_or_app; right; now left|].
    rewrite <- app_assoc in Hn. cbn in Hn. apply NoDup_remove_2 in Hn.
    rewrite in_app_iff in Hn. split.
    - intros ->. apply Hn. right. apply in_or_app. right. now left.
    - intros H. apply Hn. right. apply in_or_app. right. now right. }
  change (calc_all rd F (c :: m) (calc_all rd F l v))
    with (calc_all rd F m (set_value (calc_all rd F l v) c (F c (map (calc_all rd F l v) (rd c))))).
  rewrite (calc_all_skip rd F m) by exact Hym. unfold set_value.
  destruct (Nat.eqb_spec y c); [contradiction|reflexivity].
Qed.

(** ** Constructors declare what they read *)
Definition forgets_thresholds (k : ctor) : bool :=
  match k with CMultipleThresholdIndex _ | CMultipleThresholdParameterIndex _ _ => true | _ => false end.

(** Only additions: every dependency once declared stays. *)
Definition additive (o : gop) : bool :=
  match o with New | ChildrenAdd _ _ | ParentsAdd _ _ => true | _ => false end.

Lemma ctor_calls_additive c k : forallb additive (ctor_calls c k) = true.
Proof.
  assert (forall f l, (forall x : nat, additive (f x) = true) -> forallb additive (map f l) = true) as K.
  { intros f l H. induction l; cbn; [reflexivity|]. now rewrite H. }
  destruct k; cbn; try reflexivity; rewrite ?forallb_app; cbn; rewrite ?K; auto.
Qed.

Lemma dfold_mono ops : forall (s : dstate) x y, forallb additive ops = true -> snd s x y ->
  snd (fold_left dstep ops s) x y.
Proof.
  induction ops as [|o ops IH]; intros s x y Ha H; [exact H|]. cbn in Ha. apply andb_true_iff in Ha as [Ho Ha].
  cbn [fold_left]. apply IH; [exact Ha|]. destruct s as [n D].
  destruct o as [|a [b|]|a [b|]|a [b|]|a [b|]|a|a]; cbn in *; try discriminate; auto.
Qed.

Lemma dfold_count_mono ops : forall (s : dstate), (fst s <= fst (fold_left dstep ops s))%nat.
Proof.
  induction ops as [|o ops IH]; intros s; [cbn; lia|]. cbn [fold_left].
  specialize (IH (dstep s o)). destruct s as [n D].
  destruct o as [|a [b|]|a [b|]|a [b|]|a [b|]|a|a]; cbn in *; lia.
Qed.

Lemma dfold_In ops : forall (s : dstate) x y, forallb additive ops = true ->
  live (fst s) x -> live (fst s) y ->
  In (ChildrenAdd x (IComp y)) ops \/ In (ParentsAdd y (IComp x)) ops ->
  snd (fold_left dstep ops s) x y.
Proof.
  induction ops as [|o ops IH]; intros s x y Ha Hx Hy H; [destruct H as [[]|[]]|].
  cbn in Ha. apply andb_true_iff in Ha as [Ho Ha].
  assert (o = ChildrenAdd x (IComp y) \/ o = ParentsAdd y (IComp x) \/
          (In (ChildrenAdd x (IComp y)) ops \/ In (ParentsAdd y (IComp x)) ops)) as [->|[->|K]]
    by (cbn in H; intuition).
  - cbn [fold_left]. apply dfold_mono; [exact Ha|]. destruct s as [n D]. cbn in *. auto.
  - cbn [fold_left]. apply dfold_mono; [exact Ha|]. destruct s as [n D]. cbn in *. auto.
  - cbn [fold_left]. pose proof (dfold_count_mono [o] s) as M. cbn in M.
    apply IH; auto; unfold live in *; lia.
Qed.

Lemma ctor_declares c k ops :
  forgets_thresholds k = false -> live (created ops) c ->
  forall y, In y (ctor_reads k) -> live (created ops) y ->
  depends (ops ++ ctor_calls c k) c y.
Proof.
  intros Hk Hc y Hy Hly. unfold depends, dfold. rewrite fold_left_app.
  apply dfold_In; auto; [apply ctor_calls_additive|].
  assert (forall (f : nat -> gop) l, In y l -> In (f y) (map f l)) as M by (intros; now apply in_map).
  destruct k; cbn in Hk; try discriminate; cbn in Hy |- *.
  - left. now apply (M (fun p => ChildrenAdd c (IComp p))).
  - left. destruct Hy as [->|Hy]; [now left|]. right. apply in_or_app. left.
    now apply (M (fun p => ChildrenAdd c (IComp p))).
  - left. intuition; subst; auto.
  - left. intuition; subst; auto.
  - left. intuition; subst; auto.
  - right. intuition; subst; auto.
  - left. now apply (M (fun p => ChildrenAdd c (IComp p))).
  - right. apply in_app_or in Hy as [Hy|Hy]; apply in_or_app; [left|right];
      now apply (M (fun p => ParentsAdd p (IComp c))).
  - left. apply in_app_or in Hy as [Hy|Hy]; apply in_or_app; [left|right];
      now apply (M (fun p => ChildrenAdd c (IComp p))).
Qed.

(** A model built by constructor calls only: component [i+1] is made by [ks !! i]. *)
Definition reads_of (ks : list (option ctor)) (c : nat) : list nat :=
  match nth_error ks (c - 1) with Some (Some k) => ctor_reads k | _ => [] end.

Lemma created_app ops ops' : created (ops ++ ops') = fst (fold_left dstep ops' (dfold ops)).
Proof. unfold created, dfold. now rewrite fold_left_app. Qed.

Lemma ctor_calls_created c k : forall (s : dstate), fst (fold_left dstep (ctor_calls c k) s) = fst s.
Proof.
  assert (forall l (s : dstate), (forall o, In o l -> o <> New) -> fst (fold_left dstep l s) = fst s) as K.
  { induction l as [|o l IH]; intros s H; [reflexivity|]. cbn [fold_left]. rewrite IH by (intros; apply H; now right).
    assert (o <> New) by (apply H; now left). destruct s as [n D].
    destruct o as [|a [b|]|a [b|]|a [b|]|a [b|]|a|a]; cbn; congruence. }
  intros s. apply K. intros o Ho. destruct k; cbn in Ho; rewrite ?in_app_iff in Ho;
    repeat match goal with
    | H : _ \/ _ |- _ => destruct H
    | H : In _ (map _ _) |- _ => apply in_map_iff in H as [? [<- _]]
    | H : In _ (_ :: _) |- _ => destruct H
    | H : In _ (_ ++ _) |- _ => apply in_app_or in H as [?|?]
    | H : In _ [] |- _ => destruct H
    | H : False |- _ => destruct H
    end; subst; try congruence; discriminate.
Qed.

Lemma build_ops_snoc ks k :
  build_ops (ks ++ [k]) = build_ops ks ++
    New :: match k with None => [] | Some k' => ctor_calls (S (length ks)) k' end.
Proof.
  unfold build_ops. rewrite app_length. cbn [length]. rewrite Nat.add_1_r, seq_S.
  assert (forall {A B} (l l' : list A) (m m' : list B), length l = length m ->
            combine (l ++ l') (m ++ m') = combine l m ++ combine l' m') as K.
  { intros A B l. induction l as [|a l IH]; intros l' [|b m] m' H; cbn in *; try discriminate; auto.
    f_equal. apply IH. lia. }
  rewrite K by now rewrite seq_length. rewrite flat_map_app. cbn. now rewrite app_nil_r.
Qed.

Lemma build_created ks : created (build_ops ks) = length ks.
Proof.
  induction ks as [|k ks IH] using rev_ind; [reflexivity|].
  rewrite build_ops_snoc, created_app, app_length. cbn [length]. unfold created in IH.
  cbn [fold_left]. destruct (dfold (build_ops ks)) as [n D]. cbn in IH |- *.
  destruct k as [k|]; [rewrite ctor_calls_created|]; cbn; lia.
Qed.

Lemma build_depends ks c y :
  (forall k, In (Some k) ks -> forgets_thresholds k = false) ->
  (* arguments exist before the constructor is called *)
  (forall d z, In z (reads_of ks d) -> (1 <= z < d)%nat) ->
  In y (reads_of ks c) -> depends (build_ops ks) c y.
Proof.
  intros Hf Harg. induction ks as [|k ks IH] using rev_ind; intros Hy.
  { unfold reads_of in Hy. destruct (c - 1)%nat; contradiction. }
  pose proof (Harg c y Hy) as Hcy.
  rewrite build_ops_snoc.
  destruct (Nat.lt_ge_cases (c - 1) (length ks)) as [Hlt|Hge].
  - assert (depends (build_ops ks) c y) as H.
    { apply IH.
      - intros k' Hk'. apply Hf. apply in_or_app. now left.
      - intros d z Hz. apply (Harg d z). unfold reads_of in *.
        destruct (Nat.lt_ge_cases (d - 1) (length ks)); [now rewrite nth_error_app1|].
        assert (nth_error ks (d - 1) = None) as E by now apply nth_error_None. now rewrite E in Hz.
      - unfold reads_of in *. now rewrite nth_error_app1 in Hy by exact Hlt. }
    unfold depends, dfold in *. rewrite fold_left_app. apply dfold_mono; [|exact H].
    destruct k as [k|]; [cbn; apply ctor_calls_additive|reflexivity].
  - unfold reads_of in Hy. rewrite nth_error_app2 in Hy by exact Hge.
    destruct (c - 1 - length ks)%nat as [|d] eqn:Ed; [|destruct d; contradiction].
    cbn in Hy. destruct k as [k|]; [|contradiction].
    assert (c = S (length ks)) as -> by lia.
    change (build_ops ks ++ New :: ctor_calls (S (length ks)) k)
      with (build_ops ks ++ [New] ++ ctor_calls (S (length ks)) k).
    rewrite app_assoc.
    assert (created (build_ops ks ++ [New]) = S (length ks)) as Hcr.
    { rewrite created_app. pose proof (build_created ks) as B. unfold created in B.
      destruct (dfold (build_ops ks)) as [n D]. cbn in *. lia. }
    apply ctor_declares; auto.
    + apply Hf. apply in_or_app. right. now left.
    + rewrite Hcr. unfold live. lia.
    + rewrite Hcr. unfold live. lia.
Qed.

(** ** Orphans *)
Lemma orphans_spec ops isparam node_comps c :
  In c (orphans (grun ops) isparam node_comps) <->
  live (created ops) c /\ isparam c = true /\ (forall x, ~ depends ops x c) /\ ~ In c node_comps.
Proof.
  pose proof (grun_refines ops) as R. unfold orphans. rewrite filter_In.
  assert (In c (components (grun ops)) <-> live (created ops) c) as Hc.
  { unfold components. rewrite in_seq. destruct R as [-> _]. unfold live, created. lia. }
  rewrite Hc, andb_true_iff, negb_true_iff.
  assert (live (created ops) c ->
    (memb c (filter (fun d => negb (Nat.eqb (length (successors (grun ops) d)) 0)) (components (grun ops)) ++ node_comps)
       = false <-> (forall x, ~ depends ops x c) /\ ~ In c node_comps)) as K.
  { intros Hl. destruct (membP c (filter (fun d => negb (Nat.eqb (length (successors (grun ops) d)) 0)) (components (grun ops)) ++ node_comps)) as [H|H];
      rewrite in_app_iff, filter_In, Hc in H.
    - split; [discriminate|]. intros [H1 H2]. destruct H as [[_ H]|H]; [|contradiction].
      exfalso. destruct (successors (grun ops) c) as [|x l] eqn:E; [discriminate|].
      apply (H1 x). assert (In x (successors (grun ops) c)) as Hx by (rewrite E; now left).
      apply (R_edge _ _ R) in Hx as [[-> _]|[_ [_ Hx]]]; [unfold live, ROOT in Hl; lia|exact Hx].
    - split; [|reflexivity]. intros _. split; [|tauto]. intros x Hx. apply H. left. split; [exact Hl|].
      apply (R_dep _ _ R) in Hx. destruct (successors (grun ops) c); [contradiction|reflexivity]. }
  tauto.
Qed.
