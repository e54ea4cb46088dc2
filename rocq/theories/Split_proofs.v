From Coq Require Import Sorting.Permutation.
From Verif Require Import Base Paths Sorting Routes_model LP_model Sys_model RouteLP_model RouteLP_spec RouteLP_proofs RouteLP_flow LP_optimal
  EdgeLP_model EdgeLP_spec EdgeLP_proofs EdgeLP_limits Connect_model Connect_spec Connect_proofs Piecewise_model Piecewise_proofs Loss_proofs Split_model Split_spec.
Local Open Scope nat_scope.
Local Open Scope list_scope.
Local Open Scope Q_scope.

(** ** The graph *)
Lemma split_edges_new w p names a b : In (a, b) (edges (new_split w p names)) <-> In (a, b) (edges w) \/ inner_edge p a b.
Proof.
  unfold new_split. set (w1 := new_piecewise w _). set (w2 := World _ _ _ _).
  assert (forall l w0, In (a, b) (edges (fold_left (fun w x => add_edge (add_edge w (x_output x, x_input x)) (x_link x, x_output x)) l w0)) <->
    In (a, b) (edges w0) \/ exists x, In x l /\ (a = x_output x /\ b = x_input x \/ a = x_link x /\ b = x_output x)) as F.
  { induction l as [|x l IH]; intros w0; cbn [fold_left]; [split; [tauto|intros [H|[x [[] _]]]; exact H]|].
    rewrite IH, !add_edge_in. split.
    - intros [[[H|H]|H]|[y [Hy H]]]; [now left| | |].
      + injection H as -> ->. right. exists x. split; [now left|tauto].
      + injection H as -> ->. right. exists x. split; [now left|tauto].
      + right. exists y. split; [now right|exact H].
    - intros [H|[y [[<-|Hy] [[-> ->]|[-> ->]]]]]; try tauto; right; exists y; tauto. }
  rewrite F. unfold w2. cbn [edges]. unfold w1. rewrite piece_edges_new. cbn [p_sub p_input p_output p_links]. unfold inner_edge. split.
  - intros [[H|[H|[s [Hs [H|H]]]]]|H]; try (injection H as -> ->); tauto.
  - intros [H|[[-> ->]|[[H ->]|[[-> H]|H]]]]; try tauto; left; right; right; [exists a|exists b]; tauto.
Qed.
Lemma split_kind_new w p names : kind_of (new_split w p names) (sp_self p) = Split names (sp_input p) (map x_input (sp_slots p)) (sp_output p).
Proof.
  unfold new_split. set (w2 := World _ _ _ _).
  assert (forall l w0, kind_of (fold_left (fun w x => add_edge (add_edge w (x_output x, x_input x)) (x_link x, x_output x)) l w0) = kind_of w0) as H.
  { induction l as [|x l IH]; intros w0; cbn [fold_left]; [reflexivity|]. rewrite IH.
    destruct (add_edge_same (add_edge w0 (x_output x, x_input x)) (x_link x, x_output x)) as [[_ ->] _].
    now destruct (add_edge_same w0 (x_output x, x_input x)) as [[_ ->] _]. }
  rewrite H. unfold w2. cbn [kind_of]. now rewrite Nat.eqb_refl.
Qed.
Lemma inner_inside p a b : inner_edge p a b -> In a (insides p) /\ In b (insides p).
Proof.
  assert (forall x, In x (sp_slots p) -> In (x_link x) (sublinks p) /\ In (x_output x) (map x_output (sp_slots p)) /\ In (x_input x) (map x_input (sp_slots p))) as X.
  { intros x Hx. repeat split; [apply in_or_app; right|..]; now apply in_map. }
  unfold inner_edge, insides. cbn [In]. rewrite !in_app_iff.
  intros [[-> ->]|[[H ->]|[[-> H]|[x [Hx [[-> ->]|[-> ->]]]]]]]; try specialize (X x Hx); tauto.
Qed.
Lemma split_edges_kept w p names ops : (forall a b, In (a, b) (edges w) -> ~ In a (insides p) /\ ~ In b (insides p)) ->
  leaves_alone (new_split w p names) (sp_self p) (fun n => In n (insides p)) ops ->
  split_edges (edges (perform (new_split w p names) ops)) p.
Proof.
  intros E [N U]. pose proof (split_edges_new w p names) as E1. pose proof (split_kind_new w p names) as K1. set (w1 := new_split w p names) in *.
  split.
  - intros a b H. apply perform_keeps; [|apply E1; now right]. cbn [fst]. intros o u Io Iu <-. apply (N o a Io Iu). now apply inner_inside in H.
  - intros a b H HI. apply perform_edges in H as [H|[u [v [f [t [I [A B]]]]]]].
    + apply E1 in H as [H|H]; [|now left]. apply E in H. tauto.
    + cbn [fst snd] in *. right. assert (~ In u (insides p)) as Iu by (apply (N _ u I); now left). assert (~ In v (insides p)) as Iv by (apply (N _ v I); right; now left).
      split.
      * destruct (Nat.eq_dec u (sp_self p)) as [->|X]; [|left; apply (U u f a X Iu); now left]. rewrite K1 in A. cbn in A.
        destruct A as [n [x [_ [_ [_ A]]]]]. apply nth_error_In in A. destruct A as [<-|A]; tauto.
      * destruct (Nat.eq_dec v (sp_self p)) as [->|X]; [|left; apply (U v t b X Iv); now right]. rewrite K1 in B. cbn in B. now right.
Qed.

(** ** What surrounds the nodes inside *)
Record around (es : list (nat * nat)) (p : split) : Prop := {
  ar_link : forall s b, In s (sublinks p) -> In (s, b) es -> b = sp_sub p \/ exists x, In x (sp_slots p) /\ x_link x = s /\ b = x_output x;
  ar_to_link : forall s a, In s (sublinks p) -> In (a, s) es -> a = sp_output p;
  ar_sub : forall b, In (sp_sub p, b) es -> b = sp_input p;
  ar_to_sub : forall a, In (a, sp_sub p) es -> In a (sublinks p);
  ar_output : forall b, In (sp_output p, b) es -> In b (sublinks p);
  ar_extra : forall x b, In x (sp_slots p) -> In (x_output x, b) es -> b = x_input x;
  ar_to_extra : forall x a, In x (sp_slots p) -> In (a, x_output x) es -> a = x_link x
}.
Lemma NoDup_map_In_inj {A B} (f : A -> B) l x y : NoDup (map f l) -> In x l -> In y l -> f x = f y -> x = y.
Proof.
  induction l as [|a l IH]; [contradiction|]. cbn [map]. intros N Hx Hy E. apply NoDup_cons_iff in N as [N1 N2].
  destruct Hx as [->|Hx], Hy as [->|Hy]; try reflexivity; try (now apply IH); exfalso; apply N1; [rewrite E|rewrite <- E]; now apply in_map.
Qed.
Record parts (p : split) : Prop := {
  pt_links : NoDup (sublinks p);
  pt_slot_links : NoDup (map x_link (sp_slots p));
  pt_outputs : NoDup (map x_output (sp_slots p));
  pt_inputs : NoDup (map x_input (sp_slots p));
  pt_o : sp_output p <> sp_input p /\ sp_output p <> sp_sub p /\ sp_input p <> sp_sub p;
  pt_l : forall s, In s (sublinks p) -> s <> sp_output p /\ s <> sp_input p /\ s <> sp_sub p;
  pt_x : forall x, In x (sp_slots p) -> x_output x <> sp_output p /\ x_output x <> sp_input p /\ x_output x <> sp_sub p /\
           x_input x <> sp_output p /\ x_input x <> sp_input p /\ x_input x <> sp_sub p;
  pt_lx : forall s x, In s (sublinks p) -> In x (sp_slots p) -> s <> x_output x /\ s <> x_input x;
  pt_xx : forall x y, In x (sp_slots p) -> In y (sp_slots p) -> x_output x <> x_input y
}.
Lemma NoDup_app_split {A} (l m : list A) : NoDup (l ++ m) -> NoDup l /\ NoDup m /\ forall a, In a l -> ~ In a m.
Proof.
  induction l as [|a l IH]; cbn; intros H; [repeat split; [constructor|exact H|tauto]|].
  apply NoDup_cons_iff in H as [H1 H2]. destruct (IH H2) as [I1 [I2 I3]]. repeat split; [constructor; [|exact I1]|exact I2|].
  - intros X. apply H1, in_or_app. now left.
  - intros b [<-|Hb] Z; [apply H1, in_or_app; now right|now apply (I3 b)].
Qed.
Lemma parts_apart p : NoDup (insides p) -> parts p.
Proof.
  unfold insides. intros D. apply NoDup_cons_iff in D as [D1 D]. apply NoDup_cons_iff in D as [D2 D]. apply NoDup_cons_iff in D as [D3 D].
  apply NoDup_app_split in D as [L [D LX]]. apply NoDup_app_split in D as [O [I OI]]. cbn [In] in D1, D2. rewrite !in_app_iff in *.
  assert (forall x, In x (sp_slots p) -> In (x_output x) (map x_output (sp_slots p)) /\ In (x_input x) (map x_input (sp_slots p))) as X by (intros; split; now apply in_map).
  constructor; try assumption.
  - unfold sublinks in L. now apply NoDup_app_split in L.
  - repeat split; intros Z; rewrite ?Z in *; tauto.
  - intros s Hs. repeat split; intros ->; tauto.
  - intros x Hx. apply X in Hx. repeat split; intros Z; rewrite ?Z in *; tauto.
  - intros s x Hs Hx. apply X in Hx. specialize (LX s Hs). rewrite in_app_iff in LX. split; intros ->; tauto.
  - intros x y Hx Hy Z. apply X in Hx, Hy. apply (OI (x_output x)); [tauto|]. rewrite Z. tauto.
Qed.

Lemma around_edges es p : NoDup (insides p) -> split_edges es p -> around es p.
Proof.
  intros D [_ E]. pose proof (parts_apart p D) as P. destruct (pt_o _ P) as [O1 [O2 O3]].
  assert (forall s, In s (sublinks p) -> In s (insides p)) as IL by (intros s Hs; unfold insides; cbn; rewrite !in_app_iff; tauto).
  assert (forall x, In x (sp_slots p) -> In (x_output x) (insides p) /\ In (x_link x) (sublinks p)) as IX.
  { intros x Hx. split; [unfold insides; cbn; rewrite !in_app_iff; do 4 right; left; now apply in_map|]. apply in_or_app. right. now apply in_map. }
  assert (In (sp_sub p) (insides p) /\ In (sp_output p) (insides p)) as [IS IO] by (unfold insides; cbn; tauto).
  assert (forall n, In n (sublinks p) \/ n = sp_sub p \/ n = sp_output p \/ (exists x, In x (sp_slots p) /\ n = x_output x) ->
    In n (insides p) /\ n <> sp_input p /\ ~ In n (map x_input (sp_slots p))) as NI.
  { intros n H. assert (In n (insides p)) as I by (destruct H as [H|[->|[->|[x [Hx ->]]]]]; [now apply IL|assumption..|now apply IX]). split; [exact I|]. split.
    - destruct H as [H|[->|[->|[x [Hx ->]]]]]; [now apply (pt_l _ P)|congruence|congruence|now apply (pt_x _ P)].
    - intros Z. apply in_map_iff in Z as [y [Ey Hy]]. destruct H as [H|[->|[->|[x [Hx ->]]]]].
      + (pose proof (pt_lx _ P n y H Hy); intuition congruence).
      + (pose proof (pt_x _ P y Hy); intuition congruence).
      + (pose proof (pt_x _ P y Hy); intuition congruence).
      + now apply (pt_xx _ P x y Hx Hy). }
  assert (forall a b, In a (sublinks p) \/ a = sp_sub p \/ a = sp_output p \/ (exists x, In x (sp_slots p) /\ a = x_output x) ->
    In (a, b) es -> inner_edge p a b) as From.
  { intros a b H He. destruct (NI a H) as [A1 [A2 A3]]. destruct (E a b He (or_introl A1)) as [G|[G _]]; [exact G|tauto]. }
  assert (forall a b, In b (sublinks p) \/ b = sp_sub p \/ (exists x, In x (sp_slots p) /\ b = x_output x) -> In (a, b) es -> inner_edge p a b) as To.
  { intros a b H He. destruct (NI b) as [A1 [A2 A3]]; [tauto|]. destruct (E a b He (or_intror A1)) as [G|[_ [G|G]]]; [exact G|tauto|].
    exfalso. subst b. destruct H as [H|[H|[x [Hx H]]]]; [now apply (pt_l _ P) in H|congruence|(pose proof (pt_x _ P x Hx); intuition congruence)]. }
  constructor.
  - intros s b Hs He. apply From in He; [|tauto]. destruct He as [[-> _]|[[_ ->]|[[-> _]|[x [Hx [[-> _]|[-> ->]]]]]]].
    + exfalso. now apply (pt_l _ P) in Hs.
    + now left.
    + exfalso. now apply (pt_l _ P) in Hs.
    + exfalso. (pose proof (pt_lx _ P _ x Hs Hx); intuition congruence).
    + right. now exists x.
  - intros s a Hs He. apply To in He; [|tauto]. destruct He as [[_ ->]|[[_ ->]|[[-> _]|[x [Hx [[_ ->]|[_ ->]]]]]]]; try reflexivity; exfalso.
    + now apply (pt_l _ P) in Hs.
    + now apply (pt_l _ P) in Hs.
    + (pose proof (pt_lx _ P _ x Hs Hx); intuition congruence).
    + (pose proof (pt_lx _ P _ x Hs Hx); intuition congruence).
  - intros b He. apply From in He; [|tauto]. destruct He as [[_ ->]|[[H _]|[[H _]|[x [Hx [[H _]|[H _]]]]]]]; try reflexivity; exfalso.
    + now apply (pt_l _ P) in H.
    + congruence.
    + symmetry in H. (pose proof (pt_x _ P x Hx); intuition congruence).
    + symmetry in H. now apply (pt_l _ P (x_link x)) in H; [|apply IX].
  - intros a He. apply To in He; [|tauto]. destruct He as [[_ H]|[[H _]|[[_ H]|[x [Hx [[_ H]|[_ H]]]]]]]; try assumption; exfalso.
    + congruence.
    + now apply (pt_l _ P) in H.
    + symmetry in H. (pose proof (pt_x _ P x Hx); intuition congruence).
    + symmetry in H. (pose proof (pt_x _ P x Hx); intuition congruence).
  - intros b He. apply From in He; [|tauto]. destruct He as [[H _]|[[H _]|[[_ H]|[x [Hx [[H _]|[H _]]]]]]]; try assumption; exfalso.
    + congruence.
    + now apply (pt_l _ P) in H.
    + symmetry in H. (pose proof (pt_x _ P x Hx); intuition congruence).
    + symmetry in H. now apply (pt_l _ P (x_link x)) in H; [|apply IX].
  - intros x b Hx He. apply From in He; [|eauto 6]. destruct He as [[H _]|[[H _]|[[H _]|[y [Hy [[H ->]|[H _]]]]]]].
    + exfalso. (pose proof (pt_x _ P x Hx); intuition congruence).
    + exfalso. (pose proof (pt_lx _ P _ x H Hx); intuition congruence).
    + exfalso. (pose proof (pt_x _ P x Hx); intuition congruence).
    + f_equal. symmetry. now apply (NoDup_map_In_inj x_output (sp_slots p)); [apply (pt_outputs _ P)|..].
    + exfalso. pose proof (pt_lx _ P (x_link y) x (proj2 (IX y Hy)) Hx). intuition congruence.
  - intros x a Hx He. apply To in He; [|eauto 6]. destruct He as [[_ H]|[[_ H]|[[_ H]|[y [Hy [[_ H]|[-> H]]]]]]].
    + exfalso. (pose proof (pt_x _ P x Hx); intuition congruence).
    + exfalso. (pose proof (pt_x _ P x Hx); intuition congruence).
    + exfalso. (pose proof (pt_lx _ P _ x H Hx); intuition congruence).
    + exfalso. now apply (pt_xx _ P x y Hx Hy).
    + f_equal. symmetry. now apply (NoDup_map_In_inj x_output (sp_slots p)); [apply (pt_outputs _ P)|..].
Qed.

(** ** What the flows satisfy, whichever solver made them *)
Record flows (p : split) (fl : nat -> Q) : Prop := {
  fw_nonneg : forall n, In n (insides p) -> 0 <= fl n;
  fw_out : fl (sp_output p) == qsum (map fl (sublinks p));
  fw_sub : qsum (map fl (sublinks p)) == fl (sp_sub p) + qsum (map (fun x => fl (x_output x)) (sp_slots p));
  fw_in : fl (sp_sub p) == fl (sp_input p);
  fw_extra : forall x, In x (sp_slots p) -> fl (x_output x) == fl (x_input x) /\ fl (x_output x) <= fl (x_link x)
}.
Lemma qsum_memb a l : NoDup l -> qsum (map (fun s => bq (Nat.eqb a s)) l) == bq (memb a l).
Proof.
  induction l as [|s l IH]; cbn [map qsum memb existsb]; [reflexivity|]. intros N. apply NoDup_cons_iff in N as [N1 N2]. rewrite (IH N2).
  unfold memb in *. cbn [existsb]. destruct (Nat.eqb_spec a s) as [->|]; cbn [orb].
  - destruct (existsb (Nat.eqb s) l) eqn:E; [|unfold bq; ring]. exfalso. apply N1. apply existsb_exists in E as [y [Hy E]]. apply Nat.eqb_eq in E. now subst.
  - unfold bq. destruct (existsb (Nat.eqb a) l); ring.
Qed.

(** Balances between domains, from the cross domain rows. *)
Lemma cross_flows S p (fl : nat -> Q) : wf_sys S -> split_in S p ->
  (forall o, In o (s_nodes S) -> s_kind S o = KOutput -> (exists i, supplies S o i = true) ->
     fl o == qsum (map (fun i => fl i / s_conv S i) (filter (supplies S o) (s_nodes S)))) ->
  fl (sp_output p) == qsum (map fl (sublinks p)) /\ fl (sp_sub p) == fl (sp_input p) /\
  forall x, In x (sp_slots p) -> fl (x_output x) == fl (x_input x).
Proof.
  intros W I B. pose proof (parts_apart p (si_apart _ _ I)) as P. pose proof (around_edges _ p (si_apart _ _ I) (si_edges _ _ I)) as A.
  destruct (si_kinds _ _ I) as [K1 [K2 [K3 [K4 K5]]]]. destruct (si_domain _ _ I) as [D1 [D2 [D3 D4]]]. destruct (si_edges _ _ I) as [E _].
  assert (forall o l, In o (s_nodes S) -> s_kind S o = KOutput -> NoDup l -> l <> [] -> (forall i, supplies S o i = true <-> In i l) ->
    (forall i, In i l -> In i (s_nodes S) /\ s_conv S i = 1) -> fl o == qsum (map fl l)) as G.
  { intros o l Ho Ko Nl El Sl Cl. rewrite (B o Ho Ko).
    - rewrite (qsum_Permutation _ (map (fun i => fl i / s_conv S i) l)).
      + apply qsum_map_ext. intros i Hi. destruct (Cl i Hi) as [_ ->]. field.
      + apply Permutation_map, NoDup_Permutation; [apply NoDup_filter; exact (wf_nodes _ W)|exact Nl|].
        intros i. rewrite filter_In, Sl. split; [tauto|]. intros Hi. split; [now apply Cl|exact Hi].
    - destruct l as [|i l]; [congruence|]. exists i. apply Sl. now left. }
  assert (forall n, In n (sublinks p) \/ n = sp_input p \/ In n (map x_input (sp_slots p)) -> In n (s_nodes S) /\ s_conv S n = 1) as C.
  { intros n Hn. split; [apply (si_nodes _ _ I)|now apply (si_conv _ _ I)]. unfold insides. cbn. rewrite !in_app_iff. intuition. }
  split; [|split].
  - apply G; [apply (si_nodes _ _ I); unfold insides; cbn; tauto|exact K1|exact (pt_links _ P)|exact (si_some _ _ I)| |intros i Hi; apply C; tauto].
    intros i. rewrite supplies_iff. split; [intros [_ [_ H]]; now apply (ar_output _ _ A)|]. intros Hi. rewrite (D1 i Hi). split; [now apply K4|]. split; [exact D3|]. apply E. unfold inner_edge. tauto.
  - rewrite (G (sp_sub p) [sp_input p]); [cbn; ring|apply (si_nodes _ _ I); unfold insides; cbn; tauto|exact K3|repeat constructor; cbn; tauto|discriminate| |].
    + intros i. rewrite supplies_iff. split; [intros [_ [_ H]]; left; symmetry; now apply (ar_sub _ _ A)|]. intros [<-|[]]. split; [exact K2|]. split; [congruence|]. apply E. unfold inner_edge. tauto.
    + intros i [<-|[]]. apply C. tauto.
  - intros x Hx. destruct (K5 x Hx) as [K6 K7]. destruct (D2 x Hx) as [D5 D6].
    rewrite (G (x_output x) [x_input x]); [cbn; ring| |exact K6|repeat constructor; cbn; tauto|discriminate| |].
    + apply (si_nodes _ _ I). unfold insides. cbn. rewrite !in_app_iff. do 4 right. left. now apply in_map.
    + intros i. rewrite supplies_iff. split; [intros [_ [_ H]]; left; symmetry; now apply (ar_extra _ _ A)|]. intros [<-|[]]. split; [exact K7|]. split; [congruence|].
      apply E. unfold inner_edge. do 3 right. exists x. tauto.
    + intros i [<-|[]]. apply C. right. right. now apply in_map.
Qed.

Section Route.
  Variables (triv : bool) (S : sys) (d : data) (x : nat -> Q) (p : split).
  Hypothesis (W : wf_sys S) (I : split_in S p) (H : solved triv S d x).

  Lemma inside_node n : In n (insides p) -> In n (s_nodes S) /\ is_flow_node (s_kind S n) = true.
  Proof.
    intros Hn. split; [now apply (si_nodes _ _ I)|]. destruct (si_kinds _ _ I) as [K1 [K2 [K3 [K4 K5]]]].
    unfold insides in Hn. cbn in Hn. rewrite !in_app_iff in Hn. destruct Hn as [<-|[<-|[<-|[Hn|[Hn|Hn]]]]]; rewrite ?K1, ?K2, ?K3; try reflexivity.
    - now rewrite (K4 n Hn).
    - apply in_map_iff in Hn as [y [<- Hy]]. now rewrite (proj1 (K5 y Hy)).
    - apply in_map_iff in Hn as [y [<- Hy]]. now rewrite (proj2 (K5 y Hy)).
  Qed.
  Lemma link_route s r : In s (sublinks p) -> In r (routes triv S) -> rfirst r = s ->
    r = [s; sp_sub p] \/ exists y, In y (sp_slots p) /\ x_link y = s /\ r = [s; x_output y].
  Proof.
    intros Hs Hr Hf. pose proof (routes_facts _ _ _ W Hr) as F. pose proof (around_edges _ p (si_apart _ _ I) (si_edges _ _ I)) as A.
    destruct (si_domain _ _ I) as [D1 [D2 [D3 D4]]].
    pose proof (rf_length _ _ F) as HL. pose proof (rf_chain _ _ F) as HC.
    destruct r as [|a [|b r]]; [cbn in HL; lia..|]. cbn in Hf. subst a. cbn in HC. destruct HC as [Eb HC].
    pose proof (rf_domain _ _ F) as DM.
    destruct (ar_link _ _ A s b Hs Eb) as [->|[y [Hy [Ey ->]]]].
    - left. destruct r as [|c r]; [reflexivity|]. exfalso. destruct HC as [Ec _]. apply (ar_sub _ _ A) in Ec as ->. apply D4. apply DM; cbn; tauto.
    - right. exists y. split; [exact Hy|]. split; [exact Ey|]. destruct r as [|c r]; [reflexivity|]. exfalso. destruct HC as [Ec _].
      apply (ar_extra _ _ A y _ Hy) in Ec as ->. destruct (D2 y Hy) as [D5 D6]. apply D6. rewrite <- D5. apply DM; cbn; tauto.
  Qed.
  Lemma to_output_route o r : In o (sp_sub p :: map x_output (sp_slots p)) -> In r (routes triv S) -> rlast r = o -> In (rfirst r) (sublinks p) /\ r = [rfirst r; o].
  Proof.
    intros Ho Hr Hl. pose proof (routes_facts _ _ _ W Hr) as F. pose proof (around_edges _ p (si_apart _ _ I) (si_edges _ _ I)) as A.
    destruct (si_domain _ _ I) as [D1 [D2 [D3 D4]]]. destruct (si_kinds _ _ I) as [K1 [K2 [K3 [K4 K5]]]].
    assert (s_kind S o = KOutput) as Ko.
    { destruct Ho as [<-|Ho]; [exact K3|]. apply in_map_iff in Ho as [y [<- Hy]]. now apply K5. }
    assert (In o r) as Hin by (rewrite <- Hl; apply last_in; exact (rf_ne _ _ F)).
    destruct (pred_edge S r o F Hin) as [a [Ha [Ea _]]].
    { intros Z. pose proof (rf_first _ _ F). congruence. }
    assert (In a (sublinks p)) as La.
    { destruct Ho as [<-|Ho]; [now apply (ar_to_sub _ _ A)|]. apply in_map_iff in Ho as [y [<- Hy]]. rewrite (ar_to_extra _ _ A y a Hy Ea). apply in_or_app. right. now apply in_map. }
    assert (rfirst r = a) as Ef.
    { destruct (Nat.eq_dec a (rfirst r)) as [|N]; [now symmetry|]. exfalso. destruct (pred_edge S r a F Ha N) as [b [Hb [Eb _]]].
      apply (ar_to_link _ _ A a b La) in Eb as ->. apply D3. rewrite <- (D1 a La). now apply (rf_domain _ _ F). }
    rewrite Ef. split; [exact La|]. destruct (link_route a r La Hr Ef) as [E|[y [_ [_ E]]]]; rewrite E in Hl; cbn in Hl; subst o; exact E.
  Qed.

  Lemma route_flows : flows p (committed triv S x).
  Proof.
    destruct (si_kinds _ _ I) as [K1 [K2 [K3 [K4 K5]]]]. pose proof (parts_apart p (si_apart _ _ I)) as P.
    destruct (cross_flows S p (committed triv S x) W I) as [C1 [C2 C3]]; [intros o; now apply cross_balance with (d := d)|].
    assert (forall n, In n (sublinks p) \/ n = sp_sub p \/ In n (map x_output (sp_slots p)) -> In n (insides p)) as IN.
    { intros n. unfold insides. cbn. rewrite !in_app_iff. intuition. }
    constructor; auto.
    - intros n Hn. destruct (inside_node n Hn) as [A B]. now destruct (flow_in_bounds triv S d x n W H A B).
    - rewrite (qsum_map_ext _ (fun s => rsum (routes triv S) x (fun r => bq (Nat.eqb (rfirst r) s))) (sublinks p)).
      2:{ intros s Hs. destruct (inside_node s) as [A B]; [now apply IN; left|]. rewrite committed_flow by assumption. unfold carries. now rewrite (K4 s Hs). }
      rewrite <- (rsum_sum (routes triv S) x (fun s r => bq (Nat.eqb (rfirst r) s))).
      rewrite (qsum_map_ext _ (fun y => rsum (routes triv S) x (fun r => bq (Nat.eqb (rlast r) (x_output y)))) (sp_slots p)).
      2:{ intros y Hy. destruct (inside_node (x_output y)) as [A B]; [apply IN; right; right; now apply in_map|]. rewrite committed_flow by assumption. unfold carries. now rewrite (proj1 (K5 y Hy)). }
      rewrite <- (rsum_sum (routes triv S) x (fun y r => bq (Nat.eqb (rlast r) (x_output y)))).
      destruct (inside_node (sp_sub p)) as [A B]; [now apply IN; right; left|]. rewrite committed_flow by assumption. unfold carries. rewrite K3.
      rewrite <- rsum_plus. apply rsum_ext. intros r Hr. rewrite qsum_memb by exact (pt_links _ P).
      rewrite <- (map_map x_output (fun o => bq (Nat.eqb (rlast r) o))), qsum_memb by exact (pt_outputs _ P).
      destruct (membP (rfirst r) (sublinks p)) as [M1|M1].
      + destruct (link_route _ r M1 Hr eq_refl) as [E|[y [Hy [Ey E]]]].
        * assert (rlast r = sp_sub p) as -> by (rewrite E; reflexivity). rewrite Nat.eqb_refl.
          destruct (membP (sp_sub p) (map x_output (sp_slots p))) as [M2|M2]; [|unfold bq; ring]. exfalso. apply in_map_iff in M2 as [y [Ey Hy]]. (pose proof (pt_x _ P y Hy); intuition congruence).
        * assert (rlast r = x_output y) as -> by (rewrite E; reflexivity).
          destruct (Nat.eqb_spec (x_output y) (sp_sub p)) as [Z|_]; [exfalso; (pose proof (pt_x _ P y Hy); intuition congruence)|].
          destruct (membP (x_output y) (map x_output (sp_slots p))) as [M2|M2]; [unfold bq; ring|]. exfalso. apply M2. now apply in_map.
      + destruct (Nat.eqb_spec (rlast r) (sp_sub p)) as [Z|_]; [exfalso; apply M1; now apply (to_output_route (sp_sub p)); [left|..]|].
        destruct (membP (rlast r) (map x_output (sp_slots p))) as [M2|M2]; [|unfold bq; ring]. exfalso. apply M1. now apply (to_output_route (rlast r)); [right|..].
    - intros y Hy. split; [now apply C3|].
      destruct (inside_node (x_output y)) as [A1 B1]; [apply IN; right; right; now apply in_map|].
      assert (In (x_link y) (sublinks p)) as L by (apply in_or_app; right; now apply in_map).
      destruct (inside_node (x_link y)) as [A2 B2]; [apply IN; now left|]. rewrite !committed_flow by assumption.
      unfold carries. rewrite (proj1 (K5 y Hy)), (K4 _ L). apply rsum_le.
      { destruct H as [Pb [HP [Hx _]]]. apply posed_inv in HP. intros c Hc. apply Hx. now rewrite (pf_cols _ _ _ _ HP). }
      intros r Hr. destruct (Nat.eqb_spec (rlast r) (x_output y)) as [Z|_]; [|destruct (Nat.eqb (rfirst r) (x_link y)); unfold bq; lra].
      destruct (to_output_route (x_output y) r) as [M E]; [right; now apply in_map|exact Hr|exact Z|].
      pose proof (around_edges _ p (si_apart _ _ I) (si_edges _ _ I)) as A. pose proof (rf_chain _ _ (routes_facts _ _ _ W Hr)) as HC. rewrite E in HC. cbn in HC. destruct HC as [HC _].
      rewrite (ar_to_extra _ _ A y _ Hy HC), Nat.eqb_refl. unfold bq. lra.
  Qed.
End Route.

Section Edges.
  Variables (triv : bool) (S : sys) (d : data) (y : nat -> Q) (p : split).
  Hypothesis (R : regular S) (IO : inner_only S y) (I : split_in S p) (H : edge_solved triv S d y).

  Lemma supplies_feeds o : supplies S o = feeds S o.
  Proof. reflexivity. Qed.
  Lemma edge_flows : flows p (ecommitted S y).
  Proof.
    destruct (si_kinds _ _ I) as [K1 [K2 [K3 [K4 K5]]]]. pose proof (parts_apart p (si_apart _ _ I)) as P.
    destruct (si_domain _ _ I) as [D1 [D2 [D3 D4]]]. pose proof (around_edges _ p (si_apart _ _ I) (si_edges _ _ I)) as A.
    pose proof (reg_wf _ R) as W. pose proof (edge_bal triv S d y H) as B.
    destruct (cross_flows S p (ecommitted S y) W I) as [C1 [C2 C3]]; [intros o; now apply (edge_cross_balance triv S d y)|].
    assert (forall n, In n (sublinks p) \/ n = sp_sub p \/ In n (map x_output (sp_slots p)) -> In n (insides p)) as IN.
    { intros n. unfold insides. cbn. rewrite !in_app_iff. intuition. }
    assert (forall s, In s (sublinks p) -> ecommitted S y s == outflow S y s) as FL.
    { intros s Hs. destruct (inside_node S p I s) as [A1 A2]; [now apply IN; left|]. rewrite (ecommitted_flow S y R IO B) by assumption. unfold through. now rewrite (K4 s Hs). }
    assert (forall x, In x (sp_slots p) -> ecommitted S y (x_output x) == inflow S y (x_output x)) as FX.
    { intros x Hx. destruct (inside_node S p I (x_output x)) as [A1 A2]; [apply IN; right; right; now apply in_map|].
      rewrite (ecommitted_flow S y R IO B) by assumption. unfold through. now rewrite (proj1 (K5 x Hx)). }
    constructor; auto.
    - intros n Hn. destruct (inside_node S p I n Hn) as [A1 A2]. now destruct (edge_flow_in_bounds triv S d y R IO H n A1 A2).
    - rewrite (qsum_map_ext _ _ (sublinks p) FL), (qsum_map_ext _ _ (sp_slots p) FX).
      destruct (inside_node S p I (sp_sub p)) as [A1 A2]; [now apply IN; right; left|]. rewrite (ecommitted_flow S y R IO B (sp_sub p)) by assumption. unfold through. rewrite K3.
      unfold outflow, inflow. rewrite <- (esum_sum S y (fun s e => bq (same_domain S e && Nat.eqb (fst e) s))).
      rewrite <- (esum_sum S y (fun x e => bq (same_domain S e && Nat.eqb (snd e) (x_output x)))). rewrite <- esum_plus. apply esum_ext. intros [a b] He. cbn [fst snd].
      destruct (same_domain S (a, b)) eqn:SD; cbn [andb].
      2:{ rewrite (qsum_map_zero (fun _ => bq false)), (qsum_map_zero (fun _ => bq false)) by reflexivity. reflexivity. }
      rewrite qsum_memb by exact (pt_links _ P). rewrite <- (map_map x_output (fun o => bq (Nat.eqb b o))), qsum_memb by exact (pt_outputs _ P).
      destruct (membP a (sublinks p)) as [M1|M1].
      + destruct (ar_link _ _ A a b M1 He) as [->|[x [Hx [_ ->]]]].
        * rewrite Nat.eqb_refl. destruct (membP (sp_sub p) (map x_output (sp_slots p))) as [M2|M2]; [|unfold bq; ring].
          exfalso. apply in_map_iff in M2 as [x [Ex Hx]]. pose proof (pt_x _ P x Hx). intuition congruence.
        * destruct (Nat.eqb_spec (x_output x) (sp_sub p)) as [Z|_]; [exfalso; pose proof (pt_x _ P x Hx); intuition congruence|].
          destruct (membP (x_output x) (map x_output (sp_slots p))) as [M2|M2]; [unfold bq; ring|]. exfalso. apply M2. now apply in_map.
      + destruct (Nat.eqb_spec b (sp_sub p)) as [->|_]; [exfalso; now apply M1, (ar_to_sub _ _ A)|].
        destruct (membP b (map x_output (sp_slots p))) as [M2|M2]; [|unfold bq; ring]. exfalso. apply in_map_iff in M2 as [x [<- Hx]].
        apply M1. rewrite (ar_to_extra _ _ A x a Hx He). apply in_or_app. right. now apply in_map.
    - intros x Hx. split; [now apply C3|]. assert (In (x_link x) (sublinks p)) as L by (apply in_or_app; right; now apply in_map).
      rewrite (FX x Hx), (FL _ L). unfold inflow, outflow, esum. apply qsum_map_le. intros [k [a b]] Hk. cbn [fst snd].
      assert (0 <= y k) as Yk.
      { destruct H as [E [HE [Hy _]]]. apply eposed_inv in HE. apply Hy. rewrite (ef_cols _ _ _ _ HE). apply enumerate_In in Hk. apply nth_error_Some. congruence. }
      apply Qmult_le_compat_r; [|exact Yk]. destruct (same_domain S (a, b)); cbn [andb]; [|unfold bq; lra].
      destruct (Nat.eqb_spec b (x_output x)) as [->|_]; [|destruct (Nat.eqb a (x_link x)); unfold bq; lra].
      apply enumerate_In, nth_error_In in Hk. rewrite (ar_to_extra _ _ A x a Hx Hk), Nat.eqb_refl. unfold bq. lra.
  Qed.
End Edges.

(** ** Ratios *)
Lemma link_member S p s : split_in S p -> In s (sublinks p) -> member_ok S s.
Proof.
  intros I Hs. destruct (inside_node S p I s) as [A B]; [unfold insides; cbn; rewrite !in_app_iff; tauto|]. split; [exact A|]. split; [exact B|].
  destruct (si_kinds _ _ I) as [_ [_ [_ [K4 _]]]]. destruct (si_domain _ _ I) as [D1 [_ [D3 _]]]. pose proof (around_edges _ p (si_apart _ _ I) (si_edges _ _ I)) as Ar.
  intros a Da. split; intros He; [|rewrite (K4 s Hs); discriminate]. exfalso. apply (ar_to_link _ _ Ar s a Hs) in He as ->. apply D3. now rewrite Da, (D1 s Hs).
Qed.
Lemma skipn_In' {A} n (l : list A) a : In a (skipn n l) -> In a l.
Proof. intros H. rewrite <- (firstn_skipn n l). apply in_or_app. now right. Qed.
Lemma agg_pairs_In p fs m f : In (m, f) (agg_pairs p fs) -> In m (sublinks p).
Proof.
  unfold agg_pairs. intros H. apply in_flat_map in H as [[[r|] n] [H1 H2]]; cbn in H2; [|contradiction]. destruct H2 as [E|[]]. injection E as <- <-.
  apply in_combine_r in H1. unfold from_last_step in H1. destruct (List.length (sp_steps p)); now apply skipn_In' in H1.
Qed.
Lemma pair_ratio S d p fs (fl : nat -> Q) : split_factors S d p fs ->
  (forall f, In f (d_factors d (sp_agg p)) -> ~ f == 0) ->
  (forall m0 ms i mi fi f0, s_members S (sp_agg p) = m0 :: ms -> hd_error (d_factors d (sp_agg p)) = Some f0 ->
     nth_error (m0 :: ms) i = Some mi -> nth_error (d_factors d (sp_agg p)) i = Some fi -> In m0 (map fst (agg_pairs p fs)) -> In mi (map fst (agg_pairs p fs)) -> fl m0 * fi == fl mi * f0) ->
  forall m f m' f', In (m, f) (agg_pairs p fs) -> In (m', f') (agg_pairs p fs) -> fl m * f' == fl m' * f.
Proof.
  intros F Nz Rt m f m' f' H H'. rewrite (sf_members _ _ _ _ F), (sf_factors _ _ _ _ F) in *.
  destruct (agg_pairs p fs) as [|[m0 f0] l] eqn:El; [contradiction|]. rewrite <- El in *.
  assert (forall n g, In (n, g) (agg_pairs p fs) -> fl m0 * g == fl n * f0) as G.
  { intros n g Hn. apply In_nth_error in Hn as [i Hi]. apply (Rt m0 (map fst l) i n g f0).
    - now rewrite El.
    - now rewrite El.
    - change (m0 :: map fst l) with (map fst ((m0, f0) :: l)). rewrite <- El. now rewrite nth_error_map, Hi.
    - now rewrite nth_error_map, Hi.
    - rewrite El. now left.
    - apply nth_error_In in Hi. now apply (in_map fst) in Hi. }
  assert (~ f0 == 0) as N0 by (apply Nz; rewrite El; now left).
  pose proof (G _ _ H) as G1. pose proof (G _ _ H') as G2.
  assert (f0 * (fl m * f') == f0 * (fl m' * f)) as E.
  { transitivity (fl m0 * f * f'); [rewrite G1; ring|]. transitivity (fl m0 * f' * f); [ring|]. rewrite G2. ring. }
  exact (proj1 (Qmult_inj_l _ _ f0 N0) E).
Qed.

Lemma route_ratio triv S d x p fs : wf_sys S -> split_in S p -> split_factors S d p fs -> solved triv S d x ->
  forall m f m' f', In (m, f) (agg_pairs p fs) -> In (m', f') (agg_pairs p fs) -> committed triv S x m * f' == committed triv S x m' * f.
Proof.
  intros W I F H. apply (pair_ratio S d p fs); [exact F| |].
  - destruct H as [P [HP _]]. apply posed_inv in HP. destruct (pf_factor _ _ _ _ HP _ (sf_node _ _ _ _ F) (sf_kind _ _ _ _ F) (sf_has _ _ _ _ F)) as [l [Hl _]].
    unfold factor_rows in Hl. destruct (s_members S (sp_agg p)) as [|m0 ms]; [discriminate|]. destruct (factors_usable (m0 :: ms) (d_factors d (sp_agg p))) eqn:U; [|discriminate].
    intros f. now apply (factors_usable_nonzero _ _ _ U).
  - intros m0 ms i mi fi f0 Em Ef Hm Hf M0 Mi.
    assert (forall n, In n (map fst (agg_pairs p fs)) -> member_ok S n) as G.
    { intros n Hn. apply in_map_iff in Hn as [[k g] [<- Hn]]. apply (link_member S p); [exact I|]. now apply agg_pairs_In in Hn. }
    apply (factor_ratio triv S d x (sp_agg p) m0 ms i mi fi f0); auto; apply F.
Qed.
Lemma edge_ratio triv S d y p fs : regular S -> inner_only S y -> split_in S p -> split_factors S d p fs -> edge_solved triv S d y ->
  forall m f m' f', In (m, f) (agg_pairs p fs) -> In (m', f') (agg_pairs p fs) -> ecommitted S y m * f' == ecommitted S y m' * f.
Proof.
  intros R IO I F H. apply (pair_ratio S d p fs); [exact F| |].
  - destruct H as [E [HE _]]. apply eposed_inv in HE. destruct (ef_factor _ _ _ _ HE _ (sf_node _ _ _ _ F) (sf_kind _ _ _ _ F) (sf_has _ _ _ _ F)) as [l [Hl _]].
    unfold edge_factor_rows in Hl. destruct (s_members S (sp_agg p)) as [|m0 ms]; [discriminate|]. destruct (factors_usable (m0 :: ms) (d_factors d (sp_agg p))) eqn:U; [|discriminate].
    intros f. now apply (factors_usable_nonzero _ _ _ U).
  - intros m0 ms i mi fi f0 Em Ef Hm Hf M0 Mi. apply (edge_factor_ratio triv S d y R IO H (sp_agg p) m0 ms i mi fi f0); auto; apply F.
Qed.

(** All of the flow beyond the steps before the last is shared out in the ratio of the factors. *)
Lemma combine_pairs (f0 : Q) (gs : list Q) (m0 : nat) (ms : list nat) : List.length gs = List.length ms ->
  flat_map (fun rn => match fst rn with Some r => [(snd rn, r)] | None => [] end) (combine (map Some (f0 :: gs)) (m0 :: ms)) = combine (m0 :: ms) (f0 :: gs).
Proof.
  intros H. cbn [map combine flat_map fst snd app]. f_equal. revert ms H. induction gs as [|g gs IH]; intros [|m ms] H; try discriminate; [reflexivity|].
  cbn [map combine flat_map fst snd app]. f_equal. apply IH. now injection H.
Qed.
Lemma shares p (fl : nat -> Q) pre s0 f0 gs : sp_steps p = pre ++ [s0] -> List.length gs = List.length (sp_slots p) -> flows p fl ->
  ~ f0 == 0 ->
  (forall m f m' f', In (m, f) (agg_pairs p (map Some (f0 :: gs))) -> In (m', f') (agg_pairs p (map Some (f0 :: gs))) -> fl m * f' == fl m' * f) ->
  let beyond := fl (sp_output p) - qsum (map fl pre) in
  fl s0 * qsum (f0 :: gs) == f0 * beyond /\
  forall j x g, nth_error (sp_slots p) j = Some x -> nth_error gs j = Some g -> fl (x_link x) * qsum (f0 :: gs) == g * beyond.
Proof.
  intros Es Lg F N0 Rt. cbv zeta.
  assert (from_last_step p = s0 :: map x_link (sp_slots p)) as Ef.
  { unfold from_last_step, sublinks. rewrite Es, app_length, Nat.add_comm. cbn [List.length Nat.add]. rewrite <- app_assoc, skipn_app, skipn_all, Nat.sub_diag. reflexivity. }
  assert (agg_pairs p (map Some (f0 :: gs)) = combine (s0 :: map x_link (sp_slots p)) (f0 :: gs)) as Ea.
  { unfold agg_pairs. rewrite Ef. apply combine_pairs. now rewrite map_length. }
  rewrite Ea in Rt.
  assert (In (s0, f0) (combine (s0 :: map x_link (sp_slots p)) (f0 :: gs))) as I0 by (left; reflexivity).
  assert (fl (sp_output p) - qsum (map fl pre) == qsum (map fl (s0 :: map x_link (sp_slots p)))) as Eb.
  { rewrite (fw_out _ _ F). unfold sublinks. rewrite Es, <- app_assoc, map_app, qsum_app. cbn [app map]. ring. }
  assert (f0 * qsum (map fl (s0 :: map x_link (sp_slots p))) == fl s0 * qsum (f0 :: gs)) as Et.
  { assert (forall ms hs, List.length hs = List.length ms -> (forall m h, In (m, h) (combine ms hs) -> fl s0 * h == fl m * f0) -> f0 * qsum (map fl ms) == fl s0 * qsum hs) as G.
    { induction ms as [|m ms IH]; intros [|h hs] L Hr; try discriminate; cbn [map qsum]; [ring|].
      rewrite !Qmult_plus_distr_r, (IH hs); [|now injection L|intros; apply Hr; now right]. rewrite (Hr m h) by now left. ring. }
    apply (G (s0 :: map x_link (sp_slots p)) (f0 :: gs)); [cbn; now rewrite map_length, Lg|]. intros m h Hm. now apply (Rt s0 f0 m h). }
  rewrite Eb. split; [now rewrite Et|]. intros j x g Hx Hg.
  assert (In (x_link x, g) (combine (s0 :: map x_link (sp_slots p)) (f0 :: gs))) as Ix.
  { right. apply (nth_error_In _ j). rewrite <- Ea in *. clear - Hx Hg. revert gs j Hx Hg. induction (sp_slots p) as [|y l IH]; intros gs [|j] Hx Hg; try discriminate.
    - destruct gs; [discriminate|]. cbn in *. congruence.
    - destruct gs; [discriminate|]. cbn in *. now apply IH. }
  pose proof (Rt _ _ _ _ I0 Ix) as Rx.
  assert (f0 * (fl (x_link x) * qsum (f0 :: gs)) == f0 * (g * qsum (map fl (s0 :: map x_link (sp_slots p))))) as E.
  { transitivity (fl s0 * g * qsum (f0 :: gs)); [rewrite Rx; ring|]. transitivity (g * (fl s0 * qsum (f0 :: gs))); [ring|]. rewrite <- Et. ring. }
  rewrite Eb. exact (proj1 (Qmult_inj_l _ _ f0 N0) E).
Qed.
