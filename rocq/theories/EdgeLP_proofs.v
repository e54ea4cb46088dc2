(** The problem of the edge solver, read as limits on the flows that the nodes report. *)
From Verif Require Import Base Paths Sorting Routes_model Routes_spec Routes_proofs LP_model Sys_model
  RouteLP_model RouteLP_spec RouteLP_proofs RouteLP_flow EdgeLP_model EdgeLP_spec EdgeLP_meets.
From Coq Require Import Permutation.
Open Scope Q_scope.

(** ** Sums over edges *)
Definition esum (S : sys) (y : nat -> Q) (f : nat * nat -> Q) : Q :=
  qsum (map (fun c => f (snd c) * y (fst c)) (enumerate (s_edges S))).

Lemma esum_ext S y f g : (forall e, In e (s_edges S) -> f e == g e) -> esum S y f == esum S y g.
Proof.
  intros H. apply qsum_map_ext. intros [k e] Hk. cbn [fst snd]. rewrite H; [reflexivity|]. eapply enumerate_snd; eauto.
Qed.
Lemma esum_plus S y f g : esum S y (fun e => f e + g e) == esum S y f + esum S y g.
Proof. unfold esum. rewrite <- qsum_map_plus. apply qsum_map_ext. intros; ring. Qed.
Lemma esum_scale S y c f : esum S y (fun e => c * f e) == c * esum S y f.
Proof. unfold esum. rewrite <- qsum_map_scale. apply qsum_map_ext. intros; ring. Qed.
Lemma esum_zero S y f : (forall e, In e (s_edges S) -> f e == 0) -> esum S y f == 0.
Proof.
  intros H. apply qsum_map_zero. intros [k e] Hk. cbn [fst snd]. rewrite H; [ring|]. eapply enumerate_snd; eauto.
Qed.
Lemma esum_sum {A} S y (f : A -> nat * nat -> Q) (l : list A) :
  esum S y (fun e => qsum (map (fun a => f a e) l)) == qsum (map (fun a => esum S y (f a)) l).
Proof.
  unfold esum. rewrite (qsum_swap (fun a c => f a (snd c) * y (fst c)) l (enumerate (s_edges S))).
  apply qsum_map_ext. intros c _. rewrite qsum_map_scale_r. reflexivity.
Qed.
Lemma esum_y S y z f : (forall k e, In (k, e) (enumerate (s_edges S)) -> f e * y k == f e * z k) ->
  esum S y f == esum S z f.
Proof. intros H. apply qsum_map_ext. intros [k e] Hk. cbn [fst snd]. now apply H. Qed.

Lemma ecols_sum S y p v :
  qsum (map (fun c => snd c * y (fst c)) (map (fun c => (c, v)) (ecols S p))) == v * esum S y (fun e => bq (p e)).
Proof.
  unfold ecols. rewrite !map_map. cbn [fst snd]. rewrite qsum_filter. unfold esum.
  rewrite <- qsum_map_scale. apply qsum_map_ext. intros; ring.
Qed.
Lemma ecols_NoDup S p : NoDup (ecols S p).
Proof. apply NoDup_map_filter. rewrite enumerate_map_fst. apply seq_NoDup. Qed.
Lemma enumerate_In {A} (l : list A) k a : In (k, a) (enumerate l) <-> nth_error l k = Some a.
Proof.
  unfold enumerate. assert (forall b, In (k, a) (combine (seq b (length l)) l) <-> (b <= k)%nat /\ nth_error l (k - b) = Some a) as H.
  { induction l as [|y l IH]; intros b; cbn [length seq combine In].
    - split; [tauto|]. intros [_ H]. destruct (k - b)%nat; discriminate.
    - rewrite IH. split.
      + intros [H|[H1 H2]].
        * injection H as -> ->. rewrite Nat.sub_diag. auto.
        * split; [lia|]. replace (k - b)%nat with (Datatypes.S (k - Datatypes.S b)) by lia. exact H2.
      + intros [H1 H2]. destruct (Nat.eq_dec b k) as [->|N].
        * rewrite Nat.sub_diag in H2. injection H2 as ->. now left.
        * right. split; [lia|]. replace (k - b)%nat with (Datatypes.S (k - Datatypes.S b)) in H2 by lia. exact H2. }
  rewrite H, Nat.sub_0_r. split; [tauto|]. intros K. split; [lia|exact K].
Qed.
Lemma ecols_In S p k : In k (ecols S p) <-> exists e, nth_error (s_edges S) k = Some e /\ p e = true.
Proof.
  unfold ecols. rewrite in_map_iff. split.
  - intros [[k' e] [E H]]. cbn in E. subst k'. apply filter_In in H as [H1 H2]. apply enumerate_In in H1. eauto.
  - intros [e [H1 H2]]. exists (k, e). split; [reflexivity|]. apply filter_In. split; [now apply enumerate_In|exact H2].
Qed.

Definition inflow (S : sys) (y : nat -> Q) (n : nat) : Q :=
  esum S y (fun e => bq (same_domain S e && Nat.eqb (snd e) n)).
Definition outflow (S : sys) (y : nat -> Q) (n : nat) : Q :=
  esum S y (fun e => bq (same_domain S e && Nat.eqb (fst e) n)).
(** The flow that the row of a node sees. *)
Definition through (S : sys) (y : nat -> Q) (n : nat) : Q :=
  match s_kind S n with KOutput => inflow S y n | _ => outflow S y n end.
Definition balanced (S : sys) (y : nat -> Q) : Prop :=
  forall n, In n (s_nodes S) -> s_kind S n = KLink -> inflow S y n == outflow S y n.

Lemma node_ecols_sum S y n v :
  qsum (map (fun c => snd c * y (fst c)) (map (fun c => (c, v)) (node_ecols S n))) == v * through S y n.
Proof. unfold node_ecols, through. destruct (s_kind S n); apply ecols_sum. Qed.

(** ** Node flows *)
Definition half (S : sys) (n : nat) : Q := if is_link (s_kind S n) then 1 # 2 else 1.

Lemma edge_node_flows_sum S y k :
  edge_node_flows S y k == half S k * esum S y (fun e => bq (Nat.eqb (fst e) k) + bq (Nat.eqb (snd e) k)).
Proof.
  unfold edge_node_flows, esum.
  match goal with |- fold_left ?g _ _ _ == ?s => set (G := g) end.
  assert (forall cs nf, fold_left G cs nf k == nf k + half S k *
     qsum (map (fun c => (bq (Nat.eqb (fst (snd c)) k) + bq (Nat.eqb (snd (snd c)) k)) * y (fst c)) cs)) as H.
  2:{ rewrite H. ring. }
  induction cs as [|[c [a b]] cs IH]; intros nf; cbn [fold_left map qsum fst snd]; [ring|].
  rewrite IH. assert (G nf (c, (a, b)) k == nf k + half S k * ((bq (Nat.eqb a k) + bq (Nat.eqb b k)) * y c)) as ->; [|ring].
  unfold G. cbn [fst snd]. destruct (qeqbP (y c) 0) as [E|E]; [rewrite E; ring|].
  cbn [fold_left]. unfold add. rewrite (Nat.eqb_sym a k), (Nat.eqb_sym b k). unfold half.
  destruct (Nat.eqb_spec k a) as [<-|Na], (Nat.eqb_spec k b) as [<-|Nb]; unfold bq;
    destruct (is_link (s_kind S k)); try field; ring.
Qed.

Lemma inner_esum S y p : inner_only S y ->
  esum S y (fun e => bq (p e)) == esum S y (fun e => bq (same_domain S e && p e)).
Proof.
  intros I. apply qsum_map_ext. intros [k [a b]] Hk. cbn [fst snd]. unfold same_domain. cbn [fst snd].
  destruct (Nat.eqb_spec (s_domain S a) (s_domain S b)) as [E|N]; cbn [andb]; [reflexivity|].
  apply enumerate_In in Hk. rewrite (I k a b Hk N). ring.
Qed.

Section Edge.
  Variables (triv : bool) (S : sys) (d : data) (y : nat -> Q).
  Hypothesis C : regular S.
  Hypothesis I : inner_only S y.
  Let W := reg_wf _ C.
  Let cross := cross_domain_routes triv S.

  Lemma node_flows_in_out k : edge_node_flows S y k == half S k * (outflow S y k + inflow S y k).
  Proof.
    rewrite edge_node_flows_sum, esum_plus. unfold outflow, inflow.
    rewrite (inner_esum S y (fun e => Nat.eqb (fst e) k) I), (inner_esum S y (fun e => Nat.eqb (snd e) k) I). reflexivity.
  Qed.

  Lemma input_inflow k : s_kind S k = KInput -> inflow S y k == 0.
  Proof.
    intros Hk. apply esum_zero. intros [a b] He. cbn [fst snd]. unfold same_domain. cbn [fst snd].
    destruct (Nat.eqb_spec (s_domain S a) (s_domain S b)) as [E|N]; [|reflexivity].
    destruct (Nat.eqb_spec b k) as [->|]; [|reflexivity]. destruct (reg_clean _ C a k He E) as [H _]. contradiction.
  Qed.
  Lemma output_outflow k : s_kind S k = KOutput -> outflow S y k == 0.
  Proof.
    intros Hk. apply esum_zero. intros [a b] He. cbn [fst snd]. unfold same_domain. cbn [fst snd].
    destruct (Nat.eqb_spec (s_domain S a) (s_domain S b)) as [E|N]; [|reflexivity].
    destruct (Nat.eqb_spec a k) as [->|]; [|reflexivity]. destruct (reg_clean _ C k b He E) as [_ H]. contradiction.
  Qed.
  Lemma no_flow k : is_flow_node (s_kind S k) = false -> inflow S y k == 0 /\ outflow S y k == 0.
  Proof.
    intros Hk. split; apply esum_zero; intros [a b] He; cbn [fst snd]; destruct (reg_edges _ C a b He) as [Ha Hb];
      destruct (same_domain S (a, b)); try reflexivity; cbn [andb].
    - destruct (Nat.eqb_spec b k) as [->|]; [congruence|reflexivity].
    - destruct (Nat.eqb_spec a k) as [->|]; [congruence|reflexivity].
  Qed.

  Hypothesis B : balanced S y.

  Lemma node_flows_through k : In k (s_nodes S) -> edge_node_flows S y k == through S y k.
  Proof.
    intros Hk. rewrite node_flows_in_out. unfold through, half. destruct (s_kind S k) eqn:K; cbn [is_link].
    - rewrite input_inflow by exact K. ring.
    - rewrite output_outflow by exact K. ring.
    - rewrite (B k Hk K). ring.
    - destruct (no_flow k) as [-> ->]; [now rewrite K|]. ring.
    - destruct (no_flow k) as [-> ->]; [now rewrite K|]. ring.
    - destruct (no_flow k) as [-> ->]; [now rewrite K|]. ring.
    - destruct (no_flow k) as [-> ->]; [now rewrite K|]. ring.
  Qed.
  Lemma node_flows_zero k : is_flow_node (s_kind S k) = false -> edge_node_flows S y k == 0.
  Proof. intros Hk. rewrite node_flows_in_out. destruct (no_flow k Hk) as [-> ->]. ring. Qed.

  Lemma ecommitted_flow n : In n (s_nodes S) -> is_flow_node (s_kind S n) = true -> ecommitted S y n == through S y n.
  Proof.
    intros Hn Hk. unfold ecommitted. rewrite committed_plain; auto; [now apply node_flows_through|].
    intros E. rewrite E in Hk. discriminate.
  Qed.
  Lemma ecommitted_storage st : In st (s_nodes S) -> s_kind S st = KStorage ->
    ecommitted S y st == qsum (map (inflow S y) (s_outputs S st)) - qsum (map (outflow S y) (s_inputs S st)).
  Proof.
    intros Hn Hk. unfold ecommitted. rewrite committed_storage by auto.
    rewrite (node_flows_zero st) by now rewrite Hk.
    rewrite (qsum_map_ext (edge_node_flows S y) (inflow S y) (s_outputs S st)).
    2:{ intros n H. destruct (wf_outputs_nodes _ W n st H) as [H1 [H2 _]]. rewrite node_flows_through by exact H1.
        unfold through. now rewrite H2. }
    rewrite (qsum_map_ext (edge_node_flows S y) (outflow S y) (s_inputs S st)).
    2:{ intros n H. destruct (wf_inputs_nodes _ W n st H) as [H1 [H2 _]]. rewrite node_flows_through by exact H1.
        unfold through. now rewrite H2. }
    ring.
  Qed.
  (** A node that is no storage: also virtual and aggregated ones. *)
  Lemma ecommitted_other n : In n (s_nodes S) -> is_flow_node (s_kind S n) = false -> s_kind S n <> KStorage ->
    ecommitted S y n == 0.
  Proof. intros Hn Hk Hs. unfold ecommitted. rewrite committed_plain; auto. now apply node_flows_zero. Qed.

  (** ** Rows *)
  Lemma cross_ecols_sum n : In n (s_nodes S) -> s_kind S n = KOutput ->
    qsum (map (fun c => snd c * y (fst c)) (map (fun cv => (fst cv, 1 / snd cv)) (cross_ecols S cross n))) ==
    qsum (map (fun i => outflow S y i / s_conv S i) (filter (feeds S n) (s_nodes S))).
  Proof.
    intros Hn Hk. rewrite <- (cross_sum triv S n (fun i => outflow S y i / s_conv S i) W Hn Hk). fold cross.
    assert (forall r, In r cross -> exists a b, r = [a; b]) as H.
    { intros r Hr. apply (proj2 (cross_spec triv S W)) in Hr as [a [b [-> _]]]. eauto. }
    clearbody cross. clear Hn Hk B I. induction cross as [|r l IH]; cbn [cross_ecols flat_map map qsum]; [reflexivity|].
    destruct (H r (or_introl eq_refl)) as [a [b ->]]. rewrite !map_app, qsum_app. fold (cross_ecols S l n).
    rewrite IH by (intros q Hq; apply H; now right). apply Qplus_comp; [|reflexivity]. cbn [rfirst hd nth].
    destruct (Nat.eqb a n); cbn [map qsum]; [|unfold bq; ring].
    rewrite !map_map. cbn [fst snd]. unfold outflow, out_edges.
    pose proof (ecols_sum S y (fun e => same_domain S e && Nat.eqb (fst e) b) (1 / s_conv S b)) as F.
    rewrite map_map in F. cbn [fst snd] in F. rewrite F. unfold bq at 2. unfold Qdiv. ring.
  Qed.

  Lemma edge_flow_rows n l : In n (s_nodes S) -> is_flow_node (s_kind S n) = true ->
    edge_non_storage_rows S d cross n = Ok l ->
    ((forall r, In r l -> row_ok y r) <->
     within (flow_bounds (d_min d n) (d_max d n)) (ecommitted S y n) /\
     (s_kind S n = KOutput -> (exists i, feeds S n i = true) ->
       ecommitted S y n == qsum (map (fun i => ecommitted S y i / s_conv S i) (filter (feeds S n) (s_nodes S))))).
  Proof.
    intros Hn Hk Hl. unfold edge_non_storage_rows in Hl.
    assert (exists cs, ecols_checked S n = Ok cs /\ cs = node_ecols S n) as [cs [Ec Es]].
    { unfold ecols_checked in *. destruct (match s_kind S n with KInput => _ | KOutput => _ | _ => _ end); [discriminate|].
      destruct (node_ecols S n) eqn:E; [discriminate|]. eauto. }
    rewrite Ec in Hl. subst cs. cbn [bindR] in Hl.
    destruct (flow_bounds (d_min d n) (d_max d n)) as [[t lb] ub] eqn:Eb. cbn [within].
    destruct (set_row (map (fun c0 => (c0, 1)) (node_ecols S n)) t lb ub) as [r1|e] eqn:E1; [|discriminate]. cbn [bindR] in Hl.
    assert (row_ok y r1 <-> bounds_ok t lb ub (ecommitted S y n)) as H1.
    { rewrite (set_row_ok _ _ _ _ _ y E1).
      split; apply bounds_ok_ext; rewrite node_ecols_sum, ecommitted_flow by assumption; ring. }
    destruct (in_cross cross n) eqn:Ex.
    - apply in_cross_iff in Ex as [Ho Hi]; [|exact W|exact Hn].
      destruct (set_row (map (fun c0 => (c0, - (1))) (node_ecols S n) ++ _) FX (Fin 0) (Fin 0)) as [r2|] eqn:E2; [|discriminate].
      cbn [bindR] in Hl. injection Hl as <-.
      assert (row_ok y r2 <-> ecommitted S y n == qsum (map (fun i => ecommitted S y i / s_conv S i) (filter (feeds S n) (s_nodes S)))) as H2.
      { rewrite (set_row_ok _ _ _ _ _ y E2). cbn [bounds_ok]. rewrite map_app, qsum_app, node_ecols_sum, cross_ecols_sum by assumption.
        rewrite (qsum_map_ext (fun i => ecommitted S y i / s_conv S i) (fun i => outflow S y i / s_conv S i)).
        2:{ intros i Hi'. apply filter_In in Hi' as [Hi' Hs]. apply feeds_iff in Hs as [Hs _].
            rewrite ecommitted_flow by (auto; now rewrite Hs). unfold through. now rewrite Hs. }
        rewrite (ecommitted_flow n Hn Hk). set (A := through S y n). split; intros K; lra. }
      rewrite <- H1. split.
      + intros K. split; [apply K; now left|]. intros _ _. apply H2, K. right. now left.
      + intros [K1 K2] r [<-|[<-|[]]]; [exact K1|]. apply H2. auto.
    - injection Hl as <-. rewrite <- H1. split.
      + intros K. split; [apply K; now left|]. intros Ho Hi. exfalso.
        assert (in_cross cross n = true) by (apply in_cross_iff; auto). congruence.
      + intros [K _] r [<-|[]]. exact K.
  Qed.

  Lemma flat_map_sum (f : nat -> list nat) (g : nat -> Q) v l :
    (forall n, In n l -> qsum (map (fun c => snd c * y (fst c)) (map (fun c => (c, v)) (f n))) == v * g n) ->
    qsum (map (fun c => snd c * y (fst c)) (map (fun c => (c, v)) (flat_map f l))) == v * qsum (map g l).
  Proof.
    induction l as [|n l IH]; intros H; cbn [flat_map map qsum]; [ring|].
    rewrite !map_app, qsum_app, IH, (H n) by (auto using in_eq, in_cons). ring.
  Qed.

  Lemma edge_storage_row_ok st r : In st (s_nodes S) -> s_kind S st = KStorage -> edge_storage_row S d st = Ok r ->
    (row_ok y r <-> within (storage_bounds (d_vol d st) (d_minvol d st) (d_maxvol d st) (d_days d)) (ecommitted S y st)).
  Proof.
    intros Hn Hk Hr. unfold edge_storage_row in Hr.
    destruct (storage_bounds (d_vol d st) (d_minvol d st) (d_maxvol d st) (d_days d)) as [[t lb] ub]. cbn [within].
    rewrite (set_row_ok _ _ _ _ _ y Hr).
    assert (qsum (map (fun c => snd c * y (fst c))
      (map (fun c => (c, 1)) (flat_map (in_edges S) (s_outputs S st)) ++
       map (fun c => (c, - (1))) (flat_map (out_edges S) (s_inputs S st)))) == ecommitted S y st) as E.
    { rewrite map_app, qsum_app, (flat_map_sum (in_edges S) (inflow S y)), (flat_map_sum (out_edges S) (outflow S y)).
      - rewrite ecommitted_storage by assumption. ring.
      - intros n _. apply ecols_sum.
      - intros n _. apply ecols_sum. }
    split; apply bounds_ok_ext; rewrite E; reflexivity.
  Qed.

  Lemma dict_add_sum m k v : msum y (dict_add m k v) == msum y m + v * y k.
  Proof.
    unfold msum. induction m as [|[k' v'] m IH]; cbn [dict_add map qsum fst snd]; [ring|].
    destruct (Nat.eqb_spec k' k) as [->|N]; cbn [map qsum fst snd]; [ring|]. rewrite IH. ring.
  Qed.

  Lemma virtual_dict_sum v :
    msum y (virtual_dict S v) == qsum (map (fun mf => snd mf * through S y (fst mf)) (combine (s_members S v) (s_vfactors S v))).
  Proof.
    unfold virtual_dict. set (l := combine (s_members S v) (s_vfactors S v)). clearbody l.
    match goal with |- msum y (fold_left ?g _ _) == ?s =>
      enough (forall m, msum y (fold_left g l m) == msum y m + s) as H by (rewrite H; unfold msum; cbn [map qsum]; ring) end.
    induction l as [|[n f] l IH]; intros m; cbn [fold_left map qsum fst snd]; [ring|]. rewrite IH.
    assert (forall cs m, msum y (fold_left (fun m c => dict_add m c f) cs m) == msum y m + qsum (map (fun c => f * y c) cs)) as H.
    { induction cs as [|c cs IHc]; intros m'; cbn [fold_left map qsum]; [ring|]. rewrite IHc, dict_add_sum. ring. }
    rewrite H. pose proof (node_ecols_sum S y n f) as E. rewrite map_map in E. cbn [fst snd] in E. rewrite E. ring.
  Qed.

  Lemma edge_virtual_row_ok v r : In v (s_nodes S) -> s_kind S v = KVirtual -> edge_virtual_row S d v = Ok r ->
    (row_ok y r <-> within (virtual_bounds (d_active d v) (d_vol d v) (d_minvol d v) (d_maxvol d v) (d_days d))
       (virtual_flow S (ecommitted S y) v)).
  Proof.
    intros Hv Hk Hr. unfold edge_virtual_row in Hr.
    destruct (virtual_bounds (d_active d v) (d_vol d v) (d_minvol d v) (d_maxvol d v) (d_days d)) as [[t lb] ub]. cbn [within].
    rewrite (set_row_ok _ _ _ _ _ y Hr).
    assert (qsum (map (fun c => snd c * y (fst c)) (map (fun e => (fst e, - snd e)) (virtual_dict S v)))
      == virtual_flow S (ecommitted S y) v) as E.
    { rewrite map_map. cbn [fst snd]. rewrite (qsum_map_ext _ (fun e => - (1) * (snd e * y (fst e)))) by (intros; ring).
      rewrite qsum_map_scale. fold (msum y (virtual_dict S v)). rewrite virtual_dict_sum, virtual_flow_sum.
      rewrite (qsum_map_ext (fun mf => snd mf * ecommitted S y (fst mf)) (fun mf => snd mf * through S y (fst mf))); [ring|].
      intros [m f] Hc. cbn [fst snd]. rewrite ecommitted_flow; [reflexivity|..];
        eapply (reg_members _ C v m Hv (or_intror Hk)); eapply in_combine_l; eauto. }
    split; apply bounds_ok_ext; rewrite E; reflexivity.
  Qed.

  Lemma edge_factor_rows_ok a l : In a (s_nodes S) -> s_kind S a = KAggregated -> edge_factor_rows S d a = Ok l ->
    ((forall r, In r l -> row_ok y r) <->
     forall m0 ms m g, s_members S a = m0 :: ms -> In (m, g) (combine ms (tl (d_factors d a))) ->
       ecommitted S y m0 == hd 0 (d_factors d a) / g * ecommitted S y m).
  Proof.
    intros Ha Hk Hl. unfold edge_factor_rows in Hl.
    assert (forall m, In m (s_members S a) -> ecommitted S y m == through S y m) as Hc.
    { intros m Hm. apply ecommitted_flow; eapply reg_members; eauto. }
    destruct (s_members S a) as [|m0 ms].
    { discriminate. }
    destruct (factors_usable _ _); [|discriminate].
    rewrite tl_map_norm, combine_map_r in Hl.
    assert (forall m g r, In (m, g) (combine ms (tl (d_factors d a))) ->
      set_row (map (fun c => (c, 1)) (node_ecols S m0) ++
               map (fun c => (c, - (hd 0 (d_factors d a) / g))) (node_ecols S m)) FX (Fin 0) (Fin 0) = Ok r ->
      (row_ok y r <-> ecommitted S y m0 == hd 0 (d_factors d a) / g * ecommitted S y m)) as Hrow.
    { intros m g r Hin Hr. rewrite (set_row_ok _ _ _ _ _ y Hr). cbn [bounds_ok]. rewrite map_app, qsum_app, !node_ecols_sum.
      rewrite (Hc m0) by now left. rewrite (Hc m) by (right; eapply in_combine_l; eauto).
      set (A := through S y m0). set (T := _ / g * through S y m).
      setoid_replace (- (hd 0 (d_factors d a) / g) * through S y m) with (- T) by (unfold T; ring).
      split; intros K; lra. }
    split.
    - intros H m0' ms' m g E Hin. injection E as <- <-.
      destruct (mapM_In _ _ _ Hl (m, hd 0 (d_factors d a) / g)) as [r [Hr Hrl]].
      { apply in_map_iff. exists (m, g). auto. }
      cbn [fst snd] in Hr. apply (Hrow m g r Hin Hr), H, Hrl.
    - intros H r Hr. destruct (mapM_In_inv _ _ _ Hl r Hr) as [[m f] [Hset Hin]]. cbn [fst snd] in Hset.
      apply in_map_iff in Hin as [[m' g] [E Hin]]. cbn [fst snd] in E. injection E as -> <-.
      apply (Hrow m g r Hin Hset). eapply H; eauto.
  Qed.

  (** No edge counts for two members. *)
  Definition edges_apart (a : nat) : Prop :=
    forall i j m m' c, nth_error (s_members S a) i = Some m -> nth_error (s_members S a) j = Some m' ->
      In c (node_ecols S m) -> In c (node_ecols S m') -> i = j.

  Lemma dict_set_all w cs : forall m, NoDup cs -> (forall c, In c cs -> ~ In c (map fst m)) ->
    let m' := fold_left (fun m c => dict_set m c w) cs m in
    msum y m' == msum y m + qsum (map (fun c => w * y c) cs) /\
    (forall j, In j (map fst m') -> In j (map fst m) \/ In j cs).
  Proof.
    induction cs as [|c cs IH]; intros m Hn Hk; cbn [fold_left map qsum]; [split; [ring|auto]|].
    inversion Hn as [|? ? Hc Hn']; subst. destruct (IH (dict_set m c w) Hn') as [H1 H2].
    { intros c' Hc' Hin. apply dict_set_keys in Hin as [->|Hin]; [now apply Hc|]. apply (Hk c'); auto. now right. }
    split.
    - rewrite H1, dict_set_fresh by (apply Hk; now left). ring.
    - intros j Hj. destruct (H2 j Hj) as [Hj'|Hj']; [|right; now right].
      apply dict_set_keys in Hj' as [->|Hj']; [right; now left|now left].
  Qed.

  Lemma node_ecols_NoDup n : NoDup (node_ecols S n).
  Proof. unfold node_ecols. destruct (s_kind S n); apply ecols_NoDup. Qed.

  Lemma agg_matrix_sum (l : list (nat * Q)) : forall m,
    (forall i j n n' c, nth_error (map fst l) i = Some n -> nth_error (map fst l) j = Some n' ->
       In c (node_ecols S n) -> In c (node_ecols S n') -> i = j) ->
    (forall n c, In n (map fst l) -> In c (node_ecols S n) -> ~ In c (map fst m)) ->
    msum y (fold_left (fun m nw => fold_left (fun m c => dict_set m c (snd nw)) (node_ecols S (fst nw)) m) l m) ==
    msum y m + qsum (map (fun nw => snd nw * through S y (fst nw)) l).
  Proof.
    induction l as [|[n w] l IH]; intros m H1 H2; cbn [fold_left map qsum fst snd]; [ring|].
    destruct (dict_set_all w (node_ecols S n) m (node_ecols_NoDup n)) as [E K].
    { intros c Hc. apply (H2 n c); [now left|exact Hc]. }
    rewrite IH.
    - rewrite E. pose proof (node_ecols_sum S y n w) as F. rewrite map_map in F. cbn [fst snd] in F. rewrite F. ring.
    - intros i j a b c Hi Hj Ha Hb.
      specialize (H1 (Datatypes.S i) (Datatypes.S j) a b c Hi Hj Ha Hb). congruence.
    - intros n' c Hn' Hc Hin. destruct (K c Hin) as [Hm|Hm].
      + apply (H2 n' c); auto. now right.
      + apply In_nth_error in Hn' as [j Hj]. specialize (H1 0%nat (Datatypes.S j) n n' c eq_refl Hj Hm Hc). discriminate.
  Qed.

  Lemma edge_agg_row_ok a r : In a (s_nodes S) -> s_kind S a = KAggregated -> edges_apart a -> edge_agg_row S d a = Ok r ->
    (row_ok y r <-> within (flow_bounds (d_min d a) (d_max d a)) (aggregated_flow S (ecommitted S y) a)).
  Proof.
    intros Ha Hk Hap Hr. unfold edge_agg_row in Hr. destruct (flow_bounds (d_min d a) (d_max d a)) as [[t lb] ub]. cbn [within].
    rewrite (set_row_ok _ _ _ _ _ y Hr).
    assert (qsum (map (fun c => snd c * y (fst c)) (isort (fun u v => Nat.leb (fst u) (fst v)) (edge_agg_matrix S a)))
      == aggregated_flow S (ecommitted S y) a) as E.
    { rewrite (qsum_Permutation _ (map (fun c => snd c * y (fst c)) (edge_agg_matrix S a))).
      2:{ apply Permutation_map. apply Permutation_sym, isort_perm. }
      fold (msum y (edge_agg_matrix S a)). unfold edge_agg_matrix. rewrite agg_matrix_sum.
      - unfold msum. cbn [map qsum]. unfold aggregated_flow. rewrite Qplus_0_l. apply qsum_map_ext.
        intros [n w] Hn. cbn [fst snd]. rewrite ecommitted_flow; [ring|..];
          eapply (reg_members _ C a n Ha (or_introl Hk)); eapply in_combine_l; eauto.
      - rewrite map_fst_combine by (symmetry; eapply reg_weights; eauto). exact Hap.
      - intros n c _ _ []. }
    split; apply bounds_ok_ext; rewrite E; reflexivity.
  Qed.
End Edge.

(** ** The posed problem *)
Record eposed_facts (triv : bool) (S : sys) (d : data) (P : lp) : Prop := {
  ef_cols : lp_ncols P = length (s_edges S);
  ef_obj : lp_obj P = edge_costs S d;
  ef_flow : forall n, In n (s_nodes S) -> is_flow_node (s_kind S n) = true ->
    exists l, edge_non_storage_rows S d (cross_domain_routes triv S) n = Ok l /\ incl l (lp_rows P);
  ef_balance : forall n, In n (s_nodes S) -> s_kind S n = KLink ->
    exists r, balance_row S n = Ok r /\ In r (lp_rows P);
  ef_storage : forall n, In n (s_nodes S) -> s_kind S n = KStorage ->
    exists r, edge_storage_row S d n = Ok r /\ In r (lp_rows P);
  ef_virtual : forall n, In n (s_nodes S) -> s_kind S n = KVirtual ->
    exists r, edge_virtual_row S d n = Ok r /\ In r (lp_rows P);
  ef_factor : forall n, In n (s_nodes S) -> s_kind S n = KAggregated -> s_has_factors S n = true ->
    exists l, edge_factor_rows S d n = Ok l /\ incl l (lp_rows P);
  ef_agg : forall n, In n (s_nodes S) -> s_kind S n = KAggregated ->
    exists r, edge_agg_row S d n = Ok r /\ In r (lp_rows P);
  ef_only : forall r, In r (lp_rows P) ->
    (exists n l, In n (s_nodes S) /\ is_flow_node (s_kind S n) = true /\
       edge_non_storage_rows S d (cross_domain_routes triv S) n = Ok l /\ In r l) \/
    (exists n, In n (s_nodes S) /\ s_kind S n = KLink /\ balance_row S n = Ok r) \/
    (exists n, In n (s_nodes S) /\ s_kind S n = KStorage /\ edge_storage_row S d n = Ok r) \/
    (exists n, In n (s_nodes S) /\ s_kind S n = KVirtual /\ edge_virtual_row S d n = Ok r) \/
    (exists n l, In n (s_nodes S) /\ s_kind S n = KAggregated /\ s_has_factors S n = true /\
       edge_factor_rows S d n = Ok l /\ In r l) \/
    (exists n, In n (s_nodes S) /\ s_kind S n = KAggregated /\ edge_agg_row S d n = Ok r)
}.

Lemma eposed_inv triv S d P : eposed triv S d = Ok P -> eposed_facts triv S d P.
Proof.
  unfold eposed. destruct (match all_nodes S, s_edges S with [], _ | _, [] => true | _, _ => false end); [discriminate|].
  destruct (match of_kind S is_flow_node with [] => true | _ => false end); [discriminate|].
  destruct (concatR (mapM (edge_non_storage_rows S d (cross_domain_routes triv S)) (of_kind S is_flow_node)))
    as [r1|e] eqn:E1; [|discriminate]. cbn [bindR].
  destruct (mapM (balance_row S) (of_kind S is_link)) as [r2|e] eqn:E2; [|discriminate]. cbn [bindR].
  destruct (mapM (edge_storage_row S d) (of_kind S is_storage)) as [r3|e] eqn:E3; [|discriminate]. cbn [bindR].
  destruct (mapM (edge_virtual_row S d) (of_kind S is_virtual)) as [r4|e] eqn:E4; [|discriminate]. cbn [bindR].
  destruct (concatR (mapM (edge_factor_rows S d) (filter (s_has_factors S) (of_kind S is_aggregated))))
    as [r5|e] eqn:E5; [|discriminate]. cbn [bindR].
  destruct (mapM (edge_agg_row S d) (of_kind S is_aggregated)) as [r6|e] eqn:E6; [|discriminate]. cbn [bindR].
  intros H. injection H as <-.
  destruct (concatR_mapM _ _ _ E1) as [F1 G1]. destruct (concatR_mapM _ _ _ E5) as [F5 G5].
  constructor; cbn [lp_ncols lp_rows lp_obj].
  - reflexivity.
  - reflexivity.
  - intros n Hn Hk. destruct (F1 n) as [b [H1 H2]]; [apply of_kind_In; auto|]. exists b. split; [exact H1|].
    intros y Hy. rewrite !in_app_iff. specialize (H2 y Hy). tauto.
  - intros n Hn Hk. destruct (mapM_In _ _ _ E2 n) as [b [H1 H2]]; [apply of_kind_In; rewrite Hk; auto|].
    exists b. split; [exact H1|]. rewrite !in_app_iff. tauto.
  - intros n Hn Hk. destruct (mapM_In _ _ _ E3 n) as [b [H1 H2]]; [apply of_kind_In; rewrite Hk; auto|].
    exists b. split; [exact H1|]. rewrite !in_app_iff. tauto.
  - intros n Hn Hk. destruct (mapM_In _ _ _ E4 n) as [b [H1 H2]]; [apply of_kind_In; rewrite Hk; auto|].
    exists b. split; [exact H1|]. rewrite !in_app_iff. tauto.
  - intros n Hn Hk Hf. destruct (F5 n) as [b [H1 H2]]; [apply filter_In; split; [apply of_kind_In; rewrite Hk; auto|exact Hf]|].
    exists b. split; [exact H1|]. intros y Hy. rewrite !in_app_iff. specialize (H2 y Hy). tauto.
  - intros n Hn Hk. destruct (mapM_In _ _ _ E6 n) as [b [H1 H2]]; [apply of_kind_In; rewrite Hk; auto|].
    exists b. split; [exact H1|]. rewrite !in_app_iff. tauto.
  - intros r Hr. rewrite !in_app_iff in Hr. destruct Hr as [Hr|[Hr|[Hr|[Hr|[Hr|Hr]]]]].
    + left. destruct (G1 r Hr) as [n [l [H1 [H2 H3]]]]. apply of_kind_In in H1 as [H1 H4]. exists n, l. auto.
    + right; left. destruct (mapM_In_inv _ _ _ E2 r Hr) as [n [H1 H2]]. apply of_kind_In in H2 as [H2 H3].
      exists n. split; [exact H2|]. split; [|exact H1]. destruct (s_kind S n); try discriminate; reflexivity.
    + right; right; left. destruct (mapM_In_inv _ _ _ E3 r Hr) as [n [H1 H2]]. apply of_kind_In in H2 as [H2 H3].
      exists n. split; [exact H2|]. split; [|exact H1]. destruct (s_kind S n); try discriminate; reflexivity.
    + do 3 right; left. destruct (mapM_In_inv _ _ _ E4 r Hr) as [n [H1 H2]]. apply of_kind_In in H2 as [H2 H3].
      exists n. split; [exact H2|]. split; [|exact H1]. destruct (s_kind S n); try discriminate; reflexivity.
    + do 4 right; left. destruct (G5 r Hr) as [n [l [H1 [H2 H3]]]]. apply filter_In in H1 as [H1 H5].
      apply of_kind_In in H1 as [H1 H4]. exists n, l. split; [exact H1|].
      split; [destruct (s_kind S n); try discriminate; reflexivity|]. auto.
    + do 5 right. destruct (mapM_In_inv _ _ _ E6 r Hr) as [n [H1 H2]]. apply of_kind_In in H2 as [H2 H3].
      exists n. split; [exact H2|]. split; [|exact H1]. destruct (s_kind S n); try discriminate; reflexivity.
Qed.

Lemma balance_row_ok S n r y : balance_row S n = Ok r -> (row_ok y r <-> inflow S y n == outflow S y n).
Proof.
  intros Hr. unfold balance_row in Hr. rewrite (set_row_ok _ _ _ _ _ y Hr). cbn [bounds_ok].
  rewrite map_app, qsum_app. unfold in_edges, out_edges. rewrite !ecols_sum. fold (inflow S y n) (outflow S y n).
  set (A := inflow S y n). set (T := outflow S y n). split; intros K; lra.
Qed.

Lemma edge_balanced triv S d E y : eposed triv S d = Ok E -> feasible E y -> balanced S y.
Proof.
  intros HE [_ HF] n Hn Hk. apply eposed_inv in HE. destruct (ef_balance _ _ _ _ HE n Hn Hk) as [r [Hr Hin]].
  apply (balance_row_ok S n r y Hr). auto.
Qed.

Lemma edge_meets triv S d E y : regular S -> inner_only S y ->
  (forall a, In a (s_nodes S) -> s_kind S a = KAggregated -> edges_apart S a) ->
  eposed triv S d = Ok E ->
  (feasible E y <-> (forall c, (c < length (s_edges S))%nat -> 0 <= y c) /\ balanced S y /\ meets S d (ecommitted S y)).
Proof.
  intros C I Ap HE. split.
  - intros F. pose proof (edge_balanced _ _ _ _ _ HE F) as B. apply eposed_inv in HE. destruct F as [Hy HF].
    rewrite (ef_cols _ _ _ _ HE) in Hy. split; [exact Hy|]. split; [exact B|]. split.
    + intros n Hn Hk. destruct (ef_flow _ _ _ _ HE n Hn Hk) as [l [Hl Hin]].
      apply (edge_flow_rows triv S d y C I B n l Hn Hk Hl). auto.
    + intros n Hn Hk Hi. assert (is_flow_node (s_kind S n) = true) as Hf by now rewrite Hk.
      destruct (ef_flow _ _ _ _ HE n Hn Hf) as [l [Hl Hin]].
      apply (edge_flow_rows triv S d y C I B n l Hn Hf Hl); auto.
    + intros n Hn Hk. destruct (ef_storage _ _ _ _ HE n Hn Hk) as [r [Hr Hin]].
      apply (edge_storage_row_ok S d y C I B n r); auto.
    + intros n Hn Hk. destruct (ef_virtual _ _ _ _ HE n Hn Hk) as [r [Hr Hin]].
      apply (edge_virtual_row_ok S d y C I B n r); auto.
    + intros a m0 ms m g Ha Hk Hf Hm Hin. destruct (ef_factor _ _ _ _ HE a Ha Hk Hf) as [l [Hl Hi]].
      eapply (proj1 (edge_factor_rows_ok S d y C I B a l Ha Hk Hl)); eauto.
    + intros n Hn Hk. destruct (ef_agg _ _ _ _ HE n Hn Hk) as [r [Hr Hin]].
      apply (edge_agg_row_ok S d y C I B n r); auto.
  - intros [Hy [B M]]. apply eposed_inv in HE. split; [now rewrite (ef_cols _ _ _ _ HE)|]. intros r Hr.
    destruct (ef_only _ _ _ _ HE r Hr) as [H|[H|[H|[H|[H|H]]]]].
    + destruct H as [n [l [H1 [H2 [H3 H4]]]]]. eapply (proj2 (edge_flow_rows triv S d y C I B n l H1 H2 H3)); [|exact H4].
      split; [apply (meets_flow _ _ _ M); auto|intros; apply (meets_cross _ _ _ M); auto].
    + destruct H as [n [H1 [H2 H3]]]. apply (balance_row_ok S n r y H3). auto.
    + destruct H as [n [H1 [H2 H3]]]. apply (edge_storage_row_ok S d y C I B n r); auto. apply (meets_storage _ _ _ M); auto.
    + destruct H as [n [H1 [H2 H3]]]. apply (edge_virtual_row_ok S d y C I B n r); auto. apply (meets_virtual _ _ _ M); auto.
    + destruct H as [n [l [H1 [H2 [H3 [H4 H5]]]]]]. eapply (proj2 (edge_factor_rows_ok S d y C I B n l H1 H2 H4)); [|exact H5].
      intros m0 ms m g. apply (meets_factors _ _ _ M); auto.
    + destruct H as [n [H1 [H2 H3]]]. apply (edge_agg_row_ok S d y C I B n r); auto. apply (meets_agg _ _ _ M); auto.
Qed.

(** ** Cost *)
Lemma add_all cs v : forall (arr : nat -> Q) k, NoDup cs ->
  fold_left (fun arr c => add arr c v) cs arr k == arr k + v * bq (memb k cs).
Proof.
  induction cs as [|c cs IH]; intros arr k Hn; cbn [fold_left].
  - unfold bq. cbn. ring.
  - inversion Hn as [|? ? Hc Hn']; subst. rewrite IH by exact Hn'. unfold add. cbn [memb existsb].
    fold (memb k cs). destruct (Nat.eqb_spec k c) as [->|N]; cbn [orb].
    + destruct (membP c cs) as [H|H]; [contradiction|]. unfold bq. ring.
    + ring.
Qed.

Lemma edge_costs_sum S d k :
  edge_costs S d k == qsum (map (fun n => (get_cost S d n * half S n) *
     (bq (memb k (in_edges S n)) + bq (memb k (out_edges S n)))) (s_nodes S)).
Proof.
  rewrite qsum_nodes_all. unfold edge_costs.
  match goal with |- fold_left ?g _ _ _ == ?s => set (G := g) end.
  assert (forall l arr, fold_left G l arr k == arr k + qsum (map (fun n => (get_cost S d n * half S n) *
     (bq (memb k (in_edges S n)) + bq (memb k (out_edges S n)))) l)) as H.
  2:{ rewrite H. ring. }
  induction l as [|n l IH]; intros arr; cbn [fold_left map qsum]; [ring|]. rewrite IH.
  unfold G at 1. cbv zeta. rewrite !add_all by apply ecols_NoDup. unfold half.
  destruct (is_link (s_kind S n)); [setoid_replace (get_cost S d n / 2) with (get_cost S d n * (1 # 2)) by field|]; ring.
Qed.

Lemma memb_ecols S p k e : nth_error (s_edges S) k = Some e -> memb k (ecols S p) = p e.
Proof.
  intros H. apply eq_true_iff_eq. destruct (membP k (ecols S p)) as [K|K].
  - apply ecols_In in K as [e' [H1 H2]]. rewrite H in H1. injection H1 as <-. intuition.
  - split; [discriminate|]. intros Hp. exfalso. apply K, ecols_In. eauto.
Qed.

Lemma objective_edges triv S d E y : eposed triv S d = Ok E ->
  objective E y == qsum (map (fun n => get_cost S d n * (half S n * (outflow S y n + inflow S y n))) (s_nodes S)).
Proof.
  intros HE. apply eposed_inv in HE. unfold objective. rewrite (ef_cols _ _ _ _ HE), (ef_obj _ _ _ _ HE).
  transitivity (qsum (map (fun c => edge_costs S d (fst c) * y (fst c)) (enumerate (s_edges S)))).
  { rewrite <- enumerate_map_fst, map_map. reflexivity. }
  rewrite (qsum_map_ext _ (fun c => qsum (map (fun n => (get_cost S d n * half S n) *
     (bq (same_domain S (snd c) && Nat.eqb (snd (snd c)) n) + bq (same_domain S (snd c) && Nat.eqb (fst (snd c)) n))) (s_nodes S)) * y (fst c))).
  2:{ intros [k e] Hk. cbn [fst snd]. apply enumerate_In in Hk. rewrite edge_costs_sum.
      apply Qmult_comp; [|reflexivity]. apply qsum_map_ext. intros n _. unfold in_edges, out_edges.
      rewrite !(memb_ecols S _ k e Hk). reflexivity. }
  fold (esum S y (fun e => qsum (map (fun n => (get_cost S d n * half S n) *
     (bq (same_domain S e && Nat.eqb (snd e) n) + bq (same_domain S e && Nat.eqb (fst e) n))) (s_nodes S)))).
  rewrite (esum_sum S y (fun n e => (get_cost S d n * half S n) *
     (bq (same_domain S e && Nat.eqb (snd e) n) + bq (same_domain S e && Nat.eqb (fst e) n)))).
  apply qsum_map_ext. intros n _. rewrite esum_scale, esum_plus. fold (inflow S y n) (outflow S y n). ring.
Qed.

Lemma edge_objective_user_cost triv S d E y : regular S -> inner_only S y -> eposed triv S d = Ok E ->
  objective E y == user_cost S d (ecommitted S y).
Proof.
  intros C I HE. unfold ecommitted. rewrite user_cost_nodes.
  - rewrite (objective_edges triv S d E y HE). apply qsum_map_ext. intros n _.
    rewrite (node_flows_in_out S y I). reflexivity.
  - exact (reg_wf _ C).
  - intros n Hn. eapply node_flows_zero; eauto.
Qed.
