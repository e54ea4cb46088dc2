(** Amounts on edges and amounts on routes: every allocation to routes loads the edges in a balanced way,
    and in an acyclic network every balanced load of the edges comes from an allocation to routes. *)
From Verif Require Import Base Paths Sorting Routes_model Routes_spec Routes_proofs LP_model Sys_model
  RouteLP_model RouteLP_spec RouteLP_proofs RouteLP_flow EdgeLP_model EdgeLP_spec EdgeLP_meets EdgeLP_proofs.
From Coq Require Import Permutation.
Open Scope Q_scope.

(** ** Acyclic chains *)
Lemma chain_plus {A} (E : A -> A -> Prop) l : forall a b, chain E (a :: l) -> In b l -> plus E a b.
Proof.
  induction l as [|c l IH]; intros a b [H Hc] Hin; [contradiction|]. destruct Hin as [<-|Hin].
  - now apply plus_one.
  - eapply plus_step; [exact H|]. now apply IH.
Qed.

Lemma acyclic_NoDup {A} (E : A -> A -> Prop) r : ~ cyclic E -> chain E r -> NoDup r.
Proof.
  intros Ac. induction r as [|a r IH]; intros Hc; [constructor|]. constructor.
  - intros Hin. apply Ac. exists a. eapply chain_plus; eauto.
  - apply IH. destruct Hc. assumption.
Qed.

Lemma chain_weaken {A} (E F : A -> A -> Prop) r : (forall a b, E a b -> F a b) -> chain E r -> chain F r.
Proof.
  intros H. induction r as [|a r IH]; [auto|]. intros [H1 H2]. split; [|auto]. destruct r; auto.
Qed.

Lemma chain_app {A} (E : A -> A -> Prop) l a b m : chain E (l ++ [a]) -> E a b -> chain E (b :: m) -> chain E (l ++ a :: b :: m).
Proof.
  intros H1 H2 H3. induction l as [|c l IH]; cbn [app]; [split; assumption|].
  cbn [app] in H1. destruct H1 as [H1 H4]. split; [|auto].
  destruct l; cbn [app] in *; assumption.
Qed.

Lemma inner_chain_domain S r : chain (inner_edge S) r -> forall m n, In m r -> In n r -> s_domain S m = s_domain S n.
Proof.
  assert (forall r a, chain (inner_edge S) (a :: r) -> forall n, In n (a :: r) -> s_domain S n = s_domain S a) as H.
  { clear. induction r as [|b r IH]; intros a Hc n Hn.
    - destruct Hn as [<-|[]]. reflexivity.
    - destruct Hc as [[_ H] Hc]. destruct Hn as [<-|Hn]; [reflexivity|]. rewrite (IH b Hc n Hn). now symmetry. }
  intros Hc m n Hm Hn. destruct r as [|a r]; [contradiction|]. rewrite (H r a Hc m Hm), (H r a Hc n Hn). reflexivity.
Qed.

Lemma inner_chain_kinds triv S r : comparable triv S -> (2 <= length r)%nat -> chain (inner_edge S) r ->
  forall n, In n r -> In n (s_nodes S) /\ is_flow_node (s_kind S n) = true.
Proof.
  intros C. induction r as [|a r IH]; intros Hlen Hc n Hn; [contradiction|].
  destruct r as [|b r]; [cbn in Hlen; lia|]. destruct Hc as [[He _] Hc].
  destruct (reg_edges _ (cmp_regular _ _ C) a b He) as [Ka Kb]. destruct (wf_ends _ (reg_wf _ (cmp_regular _ _ C)) a b He) as [Na Nb].
  destruct Hn as [<-|Hn]; [auto|]. destruct r as [|c r].
  - destruct Hn as [<-|[]]. auto.
  - apply IH; auto. cbn; lia.
Qed.

(** A chain of inner edges from an input to an output is a route. *)
Lemma chain_route triv S r : comparable triv S -> ~ cyclic (inner_edge S) ->
  chain (inner_edge S) r -> (2 <= length r)%nat -> s_kind S (rfirst r) = KInput -> s_kind S (rlast r) = KOutput ->
  In r (routes triv S).
Proof.
  intros C Ac Hc Hl Hf Hz. pose proof (reg_wf _ (cmp_regular _ _ C)) as W.
  pose proof (inner_chain_kinds triv S r C Hl Hc) as Hk.
  apply (proj2 (model_routes_spec triv (net_of S) (wf_net_of S W))).
  exists (rfirst r), (rlast r). cbn [selected net_of n_nodes n_is_input n_is_output n_is_link].
  assert (r <> []) as Hne by (destruct r; [cbn in Hl; lia|discriminate]).
  split; [split; [apply Hk, first_in, Hne|now rewrite Hf]|].
  split; [split; [apply Hk, last_in, Hne|now rewrite Hz]|].
  split; [left; split; [|split; [now apply (acyclic_NoDup (inner_edge S))|exact Hl]]|].
  - split; [destruct r; [congruence|reflexivity]|]. split; [unfold rlast; now apply last_default|].
    eapply chain_weaken; [|exact Hc]. intros a b [H _]. exact H.
  - split.
    + intros p Hp n Hn. injection Hp as <-. destruct Hn as [l [m [_ [_ E]]]].
      assert (In n r) as Hin by (rewrite E, in_app_iff; right; now left).
      destruct (Hk n Hin) as [_ K]. unfold is_flow_node in K. rewrite orb_comm, (orb_comm (is_link _)), orb_assoc.
      destruct (is_input (s_kind S n)), (is_output (s_kind S n)), (is_link (s_kind S n)); try discriminate; reflexivity.
    + split; [discriminate|]. intros m n Hm Hn. now apply (inner_chain_domain S r).
Qed.

Lemma route_inner_chain triv S r : wf_sys S -> In r (routes triv S) -> chain (inner_edge S) r.
Proof.
  intros W Hr. pose proof (routes_facts _ _ _ W Hr) as F.
  pose proof (rf_chain _ _ F) as Hc. pose proof (rf_domain _ _ F) as Hd. clear F Hr.
  induction r as [|a r IH]; [exact I|]. destruct Hc as [H1 H2]. split.
  - destruct r as [|b r]; [exact I|]. split; [exact H1|]. apply Hd; [now left|right; now left].
  - apply IH; [exact H2|]. intros m n Hm Hn. apply Hd; now right.
Qed.

(** ** What a route does to the balance of a node *)
Definition leaves (r : list nat) (n : nat) : bool := memb n r && negb (Nat.eqb n (rlast r)).
Definition enters (r : list nat) (n : nat) : bool := memb n r && negb (Nat.eqb n (rfirst r)).
Definition on_pair (r : list nat) (e : nat * nat) : Q := bq (pair_in (fst e) (snd e) r).

Lemma sum_pick {A} (eqb : A -> A -> bool) (eqbP : forall a b, reflect (a = b) (eqb a b)) (l : list A) k :
  NoDup l -> In k l -> qsum (map (fun a => bq (eqb k a)) l) == 1.
Proof.
  induction l as [|a l IH]; intros Hn Hin; [contradiction|]. inversion Hn as [|? ? Ha Hn']; subst. cbn [map qsum].
  destruct (eqbP k a) as [->|N].
  - rewrite qsum_map_zero; [unfold bq; ring|]. intros b Hb. destruct (eqbP a b) as [->|]; [contradiction|reflexivity].
  - destruct Hin as [->|Hin]; [congruence|]. rewrite IH by assumption. unfold bq. ring.
Qed.

Definition pair_eqb (e f : nat * nat) : bool := Nat.eqb (fst e) (fst f) && Nat.eqb (snd e) (snd f).
Lemma pair_eqbP e f : reflect (e = f) (pair_eqb e f).
Proof.
  destruct e as [a b], f as [c d']. unfold pair_eqb. cbn [fst snd].
  destruct (Nat.eqb_spec a c) as [->|], (Nat.eqb_spec b d') as [->|]; constructor; congruence.
Qed.

Lemma pair_in_In a b r : pair_in a b r = true -> In a r /\ In b r.
Proof.
  intros H. apply pair_in_iff in H as [l [m ->]]. rewrite !in_app_iff. split; right; [now left|right; now left].
Qed.

Lemma pair_inner triv S r a b : wf_sys S -> In r (routes triv S) -> pair_in a b r = true -> inner_edge S a b.
Proof.
  intros W Hr H. apply pair_in_iff in H as [l [m E]]. apply (route_inner_chain triv S r W) in Hr.
  rewrite E in Hr. now apply chain_mid in Hr.
Qed.

Lemma sd_true S a b : s_domain S a = s_domain S b -> same_domain S (a, b) = true.
Proof. intros H. apply Nat.eqb_eq. exact H. Qed.

Lemma route_leaves triv S r n : wf_sys S -> In r (routes triv S) ->
  qsum (map (fun e => bq (same_domain S e && Nat.eqb (fst e) n) * on_pair r e) (s_edges S)) == bq (leaves r n).
Proof.
  intros W Hr. pose proof (routes_facts _ _ _ W Hr) as F. unfold leaves. destruct (membP n r) as [Hn|Hn]; cbn [andb].
  - destruct (Nat.eqb_spec n (rlast r)) as [E|N]; cbn [negb].
    + apply qsum_map_zero. intros [a b] _. unfold on_pair. cbn [fst snd].
      destruct (Nat.eqb_spec a n) as [->|]; [|rewrite andb_false_r; unfold bq; ring].
      destruct (pair_in n b r) eqn:P; [|unfold bq at 2; ring]. exfalso.
      apply pair_in_iff in P as [l [m P]]. pose proof (rf_nodup _ _ F) as Hnd. rewrite P in Hnd.
      assert (In n (b :: m)).
      { rewrite E, P. unfold rlast. rewrite last_app_cons. change (n :: b :: m) with ([n] ++ b :: m). rewrite last_app_cons.
        apply In_last. discriminate. }
      apply NoDup_remove in Hnd as [_ Hnd]. apply Hnd. rewrite in_app_iff. now right.
    + destruct (succ_unique r n (rf_nodup _ _ F) Hn N) as [p [Hp E]].
      assert (inner_edge S n p) as [He Hd].
      { eapply pair_inner; eauto. rewrite E. apply Nat.eqb_refl. }
      change (bq true) with 1. rewrite <- (sum_pick pair_eqb pair_eqbP (s_edges S) (n, p) (wf_edges _ W) He).
      apply qsum_map_ext. intros [a b] _. unfold on_pair, pair_eqb. cbn [fst snd].
      destruct (Nat.eqb_spec a n) as [->|Na].
      * rewrite Nat.eqb_refl, E. cbn [andb]. destruct (Nat.eqb_spec p b) as [<-|].
        -- rewrite (sd_true S n p Hd). reflexivity.
        -- unfold bq at 2. rewrite Qmult_0_r. reflexivity.
      * rewrite andb_false_r. destruct (Nat.eqb_spec n a) as [->|]; [congruence|]. cbn [andb]. unfold bq. ring.
  - apply qsum_map_zero. intros [a b] _. unfold on_pair. cbn [fst snd].
    destruct (Nat.eqb_spec a n) as [->|]; [|rewrite andb_false_r; unfold bq; ring].
    destruct (pair_in n b r) eqn:P; [|unfold bq at 2; ring]. exfalso. apply pair_in_In in P. tauto.
Qed.

Lemma route_enters triv S r n : wf_sys S -> In r (routes triv S) ->
  qsum (map (fun e => bq (same_domain S e && Nat.eqb (snd e) n) * on_pair r e) (s_edges S)) == bq (enters r n).
Proof.
  intros W Hr. pose proof (routes_facts _ _ _ W Hr) as F. unfold enters. destruct (membP n r) as [Hn|Hn]; cbn [andb].
  - destruct (Nat.eqb_spec n (rfirst r)) as [E|N]; cbn [negb].
    + apply qsum_map_zero. intros [a b] _. unfold on_pair. cbn [fst snd].
      destruct (Nat.eqb_spec b n) as [->|]; [|rewrite andb_false_r; unfold bq; ring].
      destruct (pair_in a n r) eqn:P; [|unfold bq at 2; ring]. exfalso.
      apply pair_in_iff in P as [l [m P]]. pose proof (rf_nodup _ _ F) as Hnd. rewrite P in Hnd.
      change (l ++ a :: n :: m) with (l ++ [a] ++ n :: m) in Hnd. rewrite app_assoc in Hnd.
      apply NoDup_remove in Hnd as [_ Hnd]. apply Hnd. rewrite in_app_iff. left.
      rewrite E, P. destruct l; cbn; now left.
    + destruct (pred_unique r n (rf_nodup _ _ F) Hn N) as [p [Hp E]].
      assert (inner_edge S p n) as [He Hd].
      { eapply pair_inner; eauto. rewrite E. apply Nat.eqb_refl. }
      change (bq true) with 1. rewrite <- (sum_pick pair_eqb pair_eqbP (s_edges S) (p, n) (wf_edges _ W) He).
      apply qsum_map_ext. intros [a b] _. unfold on_pair, pair_eqb. cbn [fst snd].
      destruct (Nat.eqb_spec b n) as [->|Na].
      * rewrite Nat.eqb_refl, E, andb_true_r. destruct (Nat.eqb_spec p a) as [<-|].
        -- rewrite (sd_true S p n Hd). reflexivity.
        -- unfold bq at 2. rewrite Qmult_0_r. reflexivity.
      * rewrite andb_false_r. destruct (Nat.eqb_spec n b) as [->|]; [congruence|]. rewrite andb_false_r. unfold bq. ring.
  - apply qsum_map_zero. intros [a b] _. unfold on_pair. cbn [fst snd].
    destruct (Nat.eqb_spec b n) as [->|]; [|rewrite andb_false_r; unfold bq; ring].
    destruct (pair_in a n r) eqn:P; [|unfold bq at 2; ring]. exfalso. apply pair_in_In in P. tauto.
Qed.

(** Links are neither first nor last. *)
Lemma link_leaves S r n : route_facts S r -> s_kind S n = KLink -> leaves r n = memb n r /\ enters r n = memb n r.
Proof.
  intros F Hk. unfold leaves, enters. split.
  - destruct (Nat.eqb_spec n (rlast r)) as [->|]; [rewrite (rf_last _ _ F) in Hk; discriminate|]. apply andb_true_r.
  - destruct (Nat.eqb_spec n (rfirst r)) as [->|]; [rewrite (rf_first _ _ F) in Hk; discriminate|]. apply andb_true_r.
Qed.

(** ** From routes to edges *)
Definition edges_of (triv : bool) (S : sys) (x : nat -> Q) (k : nat) : Q :=
  match nth_error (s_edges S) k with Some (a, b) => edge_flow (routes triv S) x a b | None => 0 end.

Lemma enumerate_map_snd {A} (l : list A) : map snd (enumerate l) = l.
Proof. unfold enumerate. generalize 0%nat. induction l as [|e l IH]; intros b; cbn; [reflexivity|]. now rewrite IH. Qed.

(** A sum over the edges of a load that is given edge by edge. *)
Lemma esum_load S y (f g : nat * nat -> Q) : (forall k e, nth_error (s_edges S) k = Some e -> y k == g e) ->
  esum S y f == qsum (map (fun e => f e * g e) (s_edges S)).
Proof.
  intros H. unfold esum. transitivity (qsum (map (fun c => f (snd c) * g (snd c)) (enumerate (s_edges S)))).
  - apply qsum_map_ext. intros [k e] Hk. cbn [fst snd]. apply enumerate_In in Hk. now rewrite (H k e Hk).
  - rewrite <- (map_map snd (fun e => f e * g e)). rewrite enumerate_map_snd. reflexivity.
Qed.

Lemma esum_edges_of triv S x f :
  esum S (edges_of triv S x) f ==
  rsum (routes triv S) x (fun r => qsum (map (fun e => f e * on_pair r e) (s_edges S))).
Proof.
  rewrite (esum_load S _ f (fun e => edge_flow (routes triv S) x (fst e) (snd e))).
  2:{ intros k [a b] Hk. unfold edges_of. rewrite Hk. reflexivity. }
  rewrite (rsum_sum (routes triv S) x (fun e r => f e * on_pair r e)). apply qsum_map_ext. intros e _.
  rewrite rsum_scale, edge_flow_rsum. reflexivity.
Qed.

Lemma edges_of_outflow triv S x n : wf_sys S ->
  outflow S (edges_of triv S x) n == rsum (routes triv S) x (fun r => bq (leaves r n)).
Proof. intros W. unfold outflow. rewrite esum_edges_of. apply rsum_ext. intros r Hr. exact (route_leaves triv S r n W Hr). Qed.
Lemma edges_of_inflow triv S x n : wf_sys S ->
  inflow S (edges_of triv S x) n == rsum (routes triv S) x (fun r => bq (enters r n)).
Proof. intros W. unfold inflow. rewrite esum_edges_of. apply rsum_ext. intros r Hr. exact (route_enters triv S r n W Hr). Qed.

Lemma edges_of_nonneg triv S x : (forall c, (c < length (routes triv S))%nat -> 0 <= x c) ->
  forall k, 0 <= edges_of triv S x k.
Proof.
  intros Hx k. unfold edges_of. destruct (nth_error (s_edges S) k) as [[a b]|]; [|lra].
  rewrite edge_flow_rsum. apply rsum_nonneg; [exact Hx|]. intros r _. destruct (pair_in a b r); unfold bq; lra.
Qed.

Lemma edges_of_inner triv S x : wf_sys S -> inner_only S (edges_of triv S x).
Proof.
  intros W k a b Hk Hd. unfold edges_of. rewrite Hk, edge_flow_rsum. apply rsum_zero. intros r Hr.
  destruct (pair_in a b r) eqn:P; [|reflexivity]. exfalso. apply Hd. eapply pair_inner; eauto.
Qed.

Lemma edges_of_balanced triv S x : wf_sys S -> balanced S (edges_of triv S x).
Proof.
  intros W n Hn Hk. rewrite edges_of_inflow, edges_of_outflow by exact W. apply rsum_ext. intros r Hr.
  destruct (link_leaves S r n (routes_facts _ _ _ W Hr) Hk) as [-> ->]. reflexivity.
Qed.

Lemma commit_ext S nf nf' : (forall n, In n (s_nodes S) -> nf n == nf' n) ->
  forall k, commit_all_nodes S nf k == commit_all_nodes S nf' k.
Proof.
  intros H k. unfold commit_all_nodes. rewrite !commit_fold. apply Qplus_comp; [reflexivity|].
  apply qsum_map_ext. intros n Hn. apply all_nodes_In in Hn. unfold contrib. pose proof (H n Hn) as E.
  destruct (s_slot S n); rewrite ?E; reflexivity.
Qed.

Lemma edges_of_committed triv S x : comparable triv S ->
  forall k, ecommitted S (edges_of triv S x) k == committed triv S x k.
Proof.
  intros C. pose proof (reg_wf _ (cmp_regular _ _ C)) as W. apply commit_ext. intros n Hn.
  rewrite (node_flows_through S _ (cmp_regular _ _ C) (edges_of_inner triv S x W) (edges_of_balanced triv S x W) n Hn).
  rewrite node_flows_carries by exact W. unfold through.
  destruct (is_flow_node (s_kind S n)) eqn:Fl.
  - assert (forall r, In r (routes triv S) -> carries S n r = memb n r) as Hc.
    { intros r Hr. apply carries_memb; [eapply routes_facts; eauto|exact Fl|apply clean_all; exact (reg_clean _ (cmp_regular _ _ C))]. }
    destruct (s_kind S n) eqn:K; try discriminate.
    + rewrite edges_of_outflow by exact W. apply rsum_ext. intros r Hr. rewrite (Hc r Hr). unfold leaves.
      destruct (Nat.eqb_spec n (rlast r)) as [E|]; [|now rewrite andb_true_r].
      pose proof (rf_last _ _ (routes_facts _ _ _ W Hr)). congruence.
    + rewrite edges_of_inflow by exact W. apply rsum_ext. intros r Hr. rewrite (Hc r Hr). unfold enters.
      destruct (Nat.eqb_spec n (rfirst r)) as [E|]; [|now rewrite andb_true_r].
      pose proof (rf_first _ _ (routes_facts _ _ _ W Hr)). congruence.
    + rewrite edges_of_outflow by exact W. apply rsum_ext. intros r Hr. rewrite (Hc r Hr).
      destruct (link_leaves S r n (routes_facts _ _ _ W Hr) K) as [-> _]. reflexivity.
  - destruct (no_flow S (edges_of triv S x) (cmp_regular _ _ C) n Fl) as [E1 E2].
    assert (rsum (routes triv S) x (fun r => bq (carries S n r)) == 0) as ->.
    { apply rsum_zero. intros r _. unfold carries. destruct (s_kind S n); try discriminate; reflexivity. }
    destruct (s_kind S n); try discriminate; assumption.
Qed.

Lemma meets_ext S d f g : (forall n, f n == g n) -> meets S d f -> meets S d g.
Proof.
  intros E M. split.
  - intros n Hn Hk. apply (within_ext _ (f n)); [apply E|]. apply (meets_flow _ _ _ M); auto.
  - intros o Ho Hk Hi. rewrite <- (E o), (meets_cross _ _ _ M o Ho Hk Hi). apply qsum_map_ext. intros i _. now rewrite (E i).
  - intros n Hn Hk. apply (within_ext _ (f n)); [apply E|]. apply (meets_storage _ _ _ M); auto.
  - intros n Hn Hk. apply (within_ext _ (virtual_flow S f n)); [|apply (meets_virtual _ _ _ M); auto].
    rewrite !virtual_flow_sum. apply Qopp_comp, qsum_map_ext. intros [m w] _. cbn [fst snd]. now rewrite (E m).
  - intros a m0 ms m h Ha Hk Hf Hm Hin. rewrite <- (E m0), <- (E m). eapply (meets_factors _ _ _ M); eauto.
  - intros n Hn Hk. apply (within_ext _ (aggregated_flow S f n)); [|apply (meets_agg _ _ _ M); auto].
    unfold aggregated_flow. apply qsum_map_ext. intros [m w] _. cbn [fst snd]. now rewrite (E m).
Qed.

Lemma user_cost_ext S d f g : (forall n, f n == g n) -> user_cost S d f == user_cost S d g.
Proof.
  intros E. unfold user_cost. apply qsum_map_ext. intros n _. destruct (s_slot S n); try reflexivity.
  destruct (is_flow_node (s_kind S n) || is_storage (s_kind S n)); [now rewrite (E n)|reflexivity].
Qed.

(** ** From edges to routes *)
Definition loaded (S : sys) (y : nat -> Q) (a b : nat) : Prop :=
  exists k, nth_error (s_edges S) k = Some (a, b) /\ 0 < y k.

Lemma qsum_pos_exists {A} (f : A -> Q) l : 0 < qsum (map f l) -> exists a, In a l /\ 0 < f a.
Proof.
  induction l as [|a l IH]; cbn [map qsum]; intros H; [lra|].
  destruct (Qlt_le_dec 0 (f a)) as [K|K]; [exists a; split; [now left|exact K]|].
  destruct IH as [b [Hb Hf]]; [lra|]. exists b. split; [now right|exact Hf].
Qed.
Lemma qsum_pos_intro {A} (f : A -> Q) l a : (forall b, In b l -> 0 <= f b) -> In a l -> 0 < f a -> 0 < qsum (map f l).
Proof.
  induction l as [|b l IH]; intros Hn Hin Hp; [contradiction|]. cbn [map qsum].
  assert (0 <= qsum (map f l)) by (apply qsum_map_nonneg; intros c Hc; apply Hn; now right).
  destruct Hin as [->|Hin]; [lra|]. pose proof (Hn b (or_introl eq_refl)).
  assert (0 < qsum (map f l)) by (apply IH; auto; intros c Hc; apply Hn; now right). lra.
Qed.

Section Decompose.
  Variables (triv : bool) (S : sys).
  Hypothesis C : comparable triv S.
  Hypothesis Ac : ~ cyclic (inner_edge S).
  Let W := reg_wf _ (cmp_regular _ _ C).

  Definition load_ok (y : nat -> Q) : Prop :=
    (forall c, (c < length (s_edges S))%nat -> 0 <= y c) /\ inner_only S y /\ balanced S y.

  Lemma enum_nonneg y k e : load_ok y -> nth_error (s_edges S) k = Some e -> 0 <= y k.
  Proof. intros [H _] Hk. apply H. apply nth_error_Some. congruence. Qed.

  Lemma loaded_inner y a b : load_ok y -> loaded S y a b -> inner_edge S a b.
  Proof.
    intros [_ [I _]] [k [Hk Hp]]. split; [now apply nth_error_In in Hk|].
    destruct (Nat.eq_dec (s_domain S a) (s_domain S b)) as [E|N]; [exact E|].
    rewrite (I k a b Hk N) in Hp. lra.
  Qed.

  Lemma loaded_in y a b : load_ok y -> loaded S y a b -> 0 < inflow S y b.
  Proof.
    intros L H. destruct (loaded_inner y a b L H) as [_ Hd]. destruct H as [k [Hk Hp]].
    unfold inflow, esum. apply qsum_pos_intro with (a := (k, (a, b))).
    - intros [j e] Hj. cbn [fst snd]. apply enumerate_In in Hj. pose proof (enum_nonneg y j e L Hj).
      destruct (same_domain S e && Nat.eqb (snd e) b); unfold bq; lra.
    - now apply enumerate_In.
    - cbn [fst snd]. rewrite (sd_true S a b Hd), Nat.eqb_refl. unfold bq; cbn [andb]. lra.
  Qed.
  Lemma loaded_out y a b : load_ok y -> loaded S y a b -> 0 < outflow S y a.
  Proof.
    intros L H. destruct (loaded_inner y a b L H) as [_ Hd]. destruct H as [k [Hk Hp]].
    unfold outflow, esum. apply qsum_pos_intro with (a := (k, (a, b))).
    - intros [j e] Hj. cbn [fst snd]. apply enumerate_In in Hj. pose proof (enum_nonneg y j e L Hj).
      destruct (same_domain S e && Nat.eqb (fst e) a); unfold bq; lra.
    - now apply enumerate_In.
    - cbn [fst snd]. rewrite (sd_true S a b Hd), Nat.eqb_refl. unfold bq; cbn [andb]. lra.
  Qed.
  Lemma in_loaded y b : 0 < inflow S y b -> exists a, loaded S y a b.
  Proof.
    intros H. apply qsum_pos_exists in H as [[k [u v]] [Hk H]]. cbn [fst snd] in H. apply enumerate_In in Hk.
    destruct (Nat.eqb_spec v b) as [->|]; [|rewrite andb_false_r in H; unfold bq in H; lra].
    exists u, k. split; [exact Hk|]. destruct (same_domain S (u, b)); cbn [andb] in H; unfold bq in H; lra.
  Qed.
  Lemma out_loaded y a : 0 < outflow S y a -> exists b, loaded S y a b.
  Proof.
    intros H. apply qsum_pos_exists in H as [[k [u v]] [Hk H]]. cbn [fst snd] in H. apply enumerate_In in Hk.
    destruct (Nat.eqb_spec u a) as [->|]; [|rewrite andb_false_r in H; unfold bq in H; lra].
    exists v, k. split; [exact Hk|]. destruct (same_domain S (a, v)); cbn [andb] in H; unfold bq in H; lra.
  Qed.

  Lemma go_forward y : load_ok y -> forall fuel a b, loaded S y a b ->
    exists l, chain (loaded S y) (b :: l) /\ (s_kind S (last (b :: l) 0%nat) = KOutput \/ length l = fuel).
  Proof.
    intros L. induction fuel as [|fuel IH]; intros a b H; [exists []; split; [cbn; tauto|now right]|].
    pose proof (loaded_inner y a b L H) as [He Hd]. destruct (reg_edges _ (cmp_regular _ _ C) a b He) as [_ Kb].
    destruct (s_kind S b) eqn:K; try discriminate.
    - destruct (reg_clean _ (cmp_regular _ _ C) a b He Hd) as [N _]. congruence.
    - exists []. split; [cbn; tauto|]. left. exact K.
    - pose proof (loaded_in y a b L H) as Hin. destruct L as [L1 [L2 B]].
      rewrite (B b) in Hin by (auto; now apply (wf_ends _ W) in He).
      destruct (out_loaded y b Hin) as [c Hc].
      destruct (IH b c Hc) as [l [Hl Hz]]. exists (c :: l). split; [split; assumption|].
      destruct Hz as [Hz|Hz]; [left; exact Hz|right; cbn; congruence].
  Qed.

  Lemma go_back y : load_ok y -> forall fuel a b r, chain (loaded S y) (a :: b :: r) ->
    exists l, chain (loaded S y) (l ++ a :: b :: r) /\
      (s_kind S (hd 0%nat (l ++ a :: b :: r)) = KInput \/ length l = fuel).
  Proof.
    intros L. induction fuel as [|fuel IH]; intros a b r Hc; [exists []; split; [exact Hc|now right]|].
    pose proof (proj1 Hc) as H. pose proof (loaded_inner y a b L H) as [He Hd].
    destruct (reg_edges _ (cmp_regular _ _ C) a b He) as [Ka _].
    destruct (s_kind S a) eqn:K; try discriminate.
    - exists []. split; [exact Hc|]. left. exact K.
    - destruct (reg_clean _ (cmp_regular _ _ C) a b He Hd) as [_ N]. congruence.
    - pose proof (loaded_out y a b L H) as Ho. pose proof L as [L1 [L2 B]].
      rewrite <- (B a) in Ho by (auto; now apply (wf_ends _ W) in He).
      destruct (in_loaded y a Ho) as [c Hl].
      destruct (IH c a (b :: r)) as [l [Hl1 Hl2]]; [split; assumption|].
      exists (l ++ [c]). rewrite <- app_assoc. cbn [app]. split; [exact Hl1|].
      destruct Hl2 as [Hl2|Hl2]; [left; exact Hl2|right; rewrite app_length; cbn; lia].
  Qed.

  Lemma loaded_length y r : load_ok y -> chain (loaded S y) r -> (2 <= length r)%nat -> (length r <= length (s_nodes S))%nat.
  Proof.
    intros L Hc H2. assert (chain (inner_edge S) r) as Hi by (eapply chain_weaken; [|exact Hc]; intros; now apply (loaded_inner y)).
    apply NoDup_incl_length; [now apply (acyclic_NoDup (inner_edge S))|]. intros n Hn.
    eapply inner_chain_kinds; eauto.
  Qed.

  (** A loaded edge lies on a route that is loaded all along. *)
  Lemma loaded_route y a b : load_ok y -> loaded S y a b -> exists r, In r (routes triv S) /\ chain (loaded S y) r.
  Proof.
    intros L H. set (fuel := length (s_nodes S)).
    destruct (go_forward y L fuel a b H) as [l [Hl Hz]].
    assert (chain (loaded S y) (a :: b :: l)) as Hc by (split; assumption).
    assert (s_kind S (last (b :: l) 0%nat) = KOutput) as Hlast.
    { destruct Hz as [Hz|Hz]; [exact Hz|]. exfalso. apply loaded_length in Hc; [|exact L|cbn; lia]. cbn in Hc. subst fuel. lia. }
    destruct (go_back y L fuel a b l Hc) as [p [Hp Hf]].
    assert (2 <= length (p ++ a :: b :: l))%nat as H2 by (rewrite app_length; cbn; lia).
    exists (p ++ a :: b :: l). split; [|exact Hp].
    apply chain_route; auto.
    - eapply chain_weaken; [|exact Hp]. intros u v. now apply loaded_inner.
    - destruct Hf as [Hf|Hf]; [exact Hf|]. exfalso. apply loaded_length in Hp; auto. rewrite app_length in Hp. cbn in Hp. subst fuel. lia.
    - unfold rlast. rewrite last_app_cons. exact Hlast.
  Qed.

  (** The least load along a route. *)
  Lemma least_load y r : load_ok y -> chain (loaded S y) r -> (2 <= length r)%nat ->
    exists m k, 0 < m /\ (forall j a b, nth_error (s_edges S) j = Some (a, b) -> pair_in a b r = true -> m <= y j) /\
      (exists a b, nth_error (s_edges S) k = Some (a, b) /\ pair_in a b r = true /\ y k == m).
  Proof.
    intros L. assert (forall j k e, nth_error (s_edges S) j = Some e -> nth_error (s_edges S) k = Some e -> j = k) as U.
    { intros j k e Hj Hk. eapply (proj1 (NoDup_nth_error (s_edges S)) (wf_edges _ W)).
      - apply nth_error_Some. congruence.
      - congruence. }
    induction r as [|a r IH]; intros Hc H2; [cbn in H2; lia|]. destruct r as [|b r]; [cbn in H2; lia|].
    destruct Hc as [[k [Hk Hp]] Hc]. destruct r as [|c r].
    - exists (y k), k. split; [exact Hp|]. split.
      + intros j u v Hj P. unfold pair_in in P. cbn in P. rewrite orb_false_r in P.
        apply andb_true_iff in P as [P1 P2]. apply Nat.eqb_eq in P1. apply Nat.eqb_eq in P2. subst u v.
        rewrite (U j k _ Hj Hk). lra.
      + exists a, b. split; [exact Hk|]. split; [|reflexivity]. unfold pair_in. cbn. now rewrite !Nat.eqb_refl.
    - destruct (IH Hc) as [m [k' [Hm [Hle [u [v [Hk' [P' E']]]]]]]]; [cbn; lia|].
      assert (forall s t, pair_in s t (a :: b :: c :: r) = (Nat.eqb a s && Nat.eqb b t) || pair_in s t (b :: c :: r)) as Pe by reflexivity.
      destruct (Qlt_le_dec (y k) m) as [K|K].
      + exists (y k), k. split; [exact Hp|]. split.
        * intros j s t Hj P. rewrite Pe in P. apply orb_true_iff in P as [P|P].
          -- apply andb_true_iff in P as [P1 P2]. apply Nat.eqb_eq in P1. apply Nat.eqb_eq in P2. subst s t.
             rewrite (U j k _ Hj Hk). lra.
          -- specialize (Hle j s t Hj P). lra.
        * exists a, b. split; [exact Hk|]. split; [|reflexivity]. rewrite Pe, !Nat.eqb_refl. reflexivity.
      + exists m, k'. split; [exact Hm|]. split.
        * intros j s t Hj P. rewrite Pe in P. apply orb_true_iff in P as [P|P].
          -- apply andb_true_iff in P as [P1 P2]. apply Nat.eqb_eq in P1. apply Nat.eqb_eq in P2. subst s t.
             rewrite (U j k _ Hj Hk). exact K.
          -- exact (Hle j s t Hj P).
        * exists u, v. split; [exact Hk'|]. split; [|exact E']. rewrite Pe, P'. apply orb_true_r.
  Qed.

  Definition take (y : nat -> Q) (r : list nat) (m : Q) (k : nat) : Q :=
    match nth_error (s_edges S) k with
    | Some (a, b) => y k - m * bq (pair_in a b r)
    | None => y k
    end.

  Lemma esum_take y r m f : esum S (take y r m) f == esum S y f - m * qsum (map (fun e => f e * on_pair r e) (s_edges S)).
  Proof.
    transitivity (qsum (map (fun c => f (snd c) * y (fst c) - m * (f (snd c) * on_pair r (snd c))) (enumerate (s_edges S)))).
    - apply qsum_map_ext. intros [k [a b]] Hk. cbn [fst snd]. apply enumerate_In in Hk. unfold take, on_pair. rewrite Hk. cbn [fst snd]. ring.
    - rewrite qsum_map_minus. fold (esum S y f). rewrite qsum_map_scale.
      rewrite <- (map_map snd (fun e => f e * on_pair r e)). rewrite enumerate_map_snd. reflexivity.
  Qed.

  Lemma take_ok y r m : load_ok y -> In r (routes triv S) ->
    (forall j a b, nth_error (s_edges S) j = Some (a, b) -> pair_in a b r = true -> m <= y j) -> load_ok (take y r m).
  Proof.
    intros L Hr Hle. split; [|split].
    - intros c Hc. unfold take. destruct (nth_error (s_edges S) c) as [[a b]|] eqn:E.
      + pose proof (enum_nonneg y c _ L E). specialize (Hle c a b E). destruct (pair_in a b r); unfold bq.
        * specialize (Hle eq_refl). lra.
        * lra.
      + apply nth_error_None in E. lia.
    - intros k a b Hk Hd. unfold take. rewrite Hk. destruct L as [_ [I _]]. rewrite (I k a b Hk Hd).
      destruct (pair_in a b r) eqn:P; [|unfold bq; ring]. exfalso. apply Hd. eapply pair_inner; eauto.
    - intros n Hn Hk. unfold inflow, outflow. rewrite !esum_take.
      rewrite (route_enters triv S r n W Hr), (route_leaves triv S r n W Hr).
      destruct (link_leaves S r n (routes_facts _ _ _ W Hr) Hk) as [-> ->].
      destruct L as [_ [_ B]]. specialize (B n Hn Hk). unfold inflow, outflow in B. rewrite B. reflexivity.
  Qed.

  Definition positive (y : nat -> Q) : list nat := filter (fun k => qltb 0 (y k)) (seq 0 (length (s_edges S))).

  Lemma filter_less {A} (p q : A -> bool) l a : (forall b, In b l -> q b = true -> p b = true) ->
    In a l -> p a = true -> q a = false -> (length (filter q l) < length (filter p l))%nat.
  Proof.
    intros H Hin Hp Hq. induction l as [|b l IH]; [contradiction|]. cbn [filter].
    assert (forall l', (forall c, In c l' -> In c (b :: l)) -> (length (filter q l') <= length (filter p l'))%nat) as Le.
    { induction l' as [|c l' IHl]; intros Hc; cbn [filter]; [lia|].
      specialize (IHl (fun e He => Hc e (or_intror He))). destruct (q c) eqn:E.
      - rewrite (H c) by (auto; apply Hc; now left). cbn. lia.
      - destruct (p c); cbn; lia. }
    destruct Hin as [->|Hin].
    - rewrite Hp, Hq. cbn. specialize (Le l (fun c Hc => or_intror Hc)). lia.
    - specialize (IH (fun c Hc => H c (or_intror Hc)) Hin). destruct (q b) eqn:E.
      + rewrite (H b) by (auto; now left). cbn. lia.
      + destruct (p b); cbn; lia.
  Qed.

  Lemma edge_flow_add rs x j v a b : (j < length rs)%nat ->
    edge_flow rs (add x j v) a b == edge_flow rs x a b + v * bq (pair_in a b (nth j rs [])).
  Proof.
    intros Hj. unfold edge_flow.
    rewrite (qsum_map_ext _ (fun k => (if pair_in a b (nth k rs []) then x k else 0) + bq (Nat.eqb j k) * (v * bq (pair_in a b (nth k rs []))))).
    2:{ intros k _. unfold add. rewrite (Nat.eqb_sym j k). destruct (pair_in a b (nth k rs [])), (Nat.eqb k j); unfold bq; ring. }
    rewrite qsum_map_plus. apply Qplus_comp; [reflexivity|].
    rewrite (qsum_indicator (fun k => v * bq (pair_in a b (nth k rs [])))); [reflexivity|apply seq_NoDup|]. apply in_seq. lia.
  Qed.

  Lemma decompose : forall n y, (length (positive y) <= n)%nat -> load_ok y ->
    exists x, (forall c, 0 <= x c) /\ forall k, (k < length (s_edges S))%nat -> y k == edges_of triv S x k.
  Proof.
    induction n as [|n IH]; intros y Hn L.
    - exists (fun _ => 0). split; [intros; lra|]. intros k Hk. unfold edges_of.
      destruct (nth_error (s_edges S) k) as [[a b]|] eqn:E; [|apply nth_error_None in E; lia].
      assert (edge_flow (routes triv S) (fun _ => 0) a b == 0) as ->.
      { unfold edge_flow. apply qsum_map_zero. intros c _. destruct (pair_in a b _); reflexivity. }
      pose proof (enum_nonneg y k _ L E). destruct (Qlt_le_dec 0 (y k)) as [K|K]; [|lra]. exfalso.
      assert (In k (positive y)) as Hin.
      { apply filter_In. split; [apply in_seq; lia|]. destruct (qltbP 0 (y k)); [reflexivity|lra]. }
      destruct (positive y); [contradiction|cbn in Hn; lia].
    - destruct (positive y) as [|k0 ks] eqn:Ep.
      { apply IH; [rewrite Ep; cbn; lia|exact L]. }
      assert (In k0 (positive y)) as Hk0 by (rewrite Ep; now left).
      apply filter_In in Hk0 as [Hk0 Hp0]. apply in_seq in Hk0. destruct (qltbP 0 (y k0)) as [Hpos|]; [|discriminate].
      destruct (nth_error (s_edges S) k0) as [[a0 b0]|] eqn:E0; [|apply nth_error_None in E0; lia].
      destruct (loaded_route y a0 b0 L) as [r [Hr Hc]]; [exists k0; auto|].
      pose proof (routes_facts _ _ _ W Hr) as F.
      destruct (least_load y r L Hc (rf_length _ _ F)) as [m [k1 [Hm [Hle [a1 [b1 [E1 [P1 Em]]]]]]]].
      pose proof (take_ok y r m L Hr Hle) as L'.
      destruct (IH (take y r m)) as [x [Hx Hxe]]; [|exact L'|].
      { assert (length (positive (take y r m)) < length (positive y))%nat; [|rewrite Ep in *; cbn [length] in *; lia].
        apply (filter_less _ _ _ k1).
        - intros k Hk Ht. apply in_seq in Hk. destruct (qltbP 0 (take y r m k)) as [Ht'|]; [|discriminate].
          destruct (qltbP 0 (y k)) as [|N]; [reflexivity|]. exfalso. unfold take in Ht'.
          destruct (nth_error (s_edges S) k) as [[a b]|]; [|lra]. destruct (pair_in a b r); unfold bq in Ht'; lra.
        - apply in_seq. split; [lia|]. apply nth_error_Some. congruence.
        - destruct (qltbP 0 (y k1)) as [|N]; [reflexivity|]. lra.
        - destruct (qltbP 0 (take y r m k1)) as [N|]; [|reflexivity]. exfalso. unfold take in N. rewrite E1, P1 in N. unfold bq in N. lra. }
      apply In_nth with (d := []) in Hr. destruct Hr as [j [Hj Ej]].
      exists (add x j m). split.
      { intros c. unfold add. specialize (Hx c). destruct (Nat.eqb c j); lra. }
      intros k Hk. specialize (Hxe k Hk). unfold edges_of, take in *.
      destruct (nth_error (s_edges S) k) as [[a b]|] eqn:E; [|apply nth_error_None in E; lia].
      rewrite edge_flow_add by exact Hj. rewrite Ej, <- Hxe. ring.
  Qed.
End Decompose.

(** ** Edges of members *)
Lemma on_route_left triv S n r : comparable triv S -> In r (routes triv S) -> In n r ->
  exists l m, r = l ++ n :: m /\ chain (inner_edge S) (l ++ [n]) /\ chain (inner_edge S) (n :: m).
Proof.
  intros C Hr Hn. pose proof (route_inner_chain triv S r (reg_wf _ (cmp_regular _ _ C)) Hr) as Hc.
  apply in_split in Hn as [l [m ->]]. exists l, m. split; [reflexivity|]. split; [|now apply chain_app_r in Hc].
  clear Hr. induction l as [|a l IH]; cbn [app] in *; [cbn; tauto|]. destruct Hc as [H1 H2]. split; [|auto].
  destruct l; cbn [app] in *; exact H1.
Qed.

(** In an acyclic network every inner edge whose ends are on routes is on a route. *)
Lemma edge_on_route triv S a b : comparable triv S -> ~ cyclic (inner_edge S) -> inner_edge S a b ->
  (exists r, In r (routes triv S) /\ In a r) -> (exists r, In r (routes triv S) /\ In b r) ->
  exists r, In r (routes triv S) /\ In a r /\ In b r.
Proof.
  intros C Ac He [r1 [Hr1 Ha]] [r2 [Hr2 Hb]]. pose proof (reg_wf _ (cmp_regular _ _ C)) as W.
  destruct (on_route_left triv S a r1 C Hr1 Ha) as [l1 [m1 [E1 [C1 _]]]].
  destruct (on_route_left triv S b r2 C Hr2 Hb) as [l2 [m2 [E2 [_ C2]]]].
  pose proof (routes_facts _ _ _ W Hr1) as F1. pose proof (routes_facts _ _ _ W Hr2) as F2.
  exists (l1 ++ a :: b :: m2). split; [|rewrite !in_app_iff; split; right; [now left|right; now left]].
  apply chain_route; auto.
  - now apply chain_app.
  - rewrite app_length. cbn. lia.
  - pose proof (rf_first _ _ F1) as K. rewrite E1 in K. destruct l1; exact K.
  - pose proof (rf_last _ _ F2) as K. rewrite E2 in K. unfold rlast in *. rewrite last_app_cons in *. exact K.
Qed.

Lemma posed_on_route triv S d P n : posed triv S d = Ok P -> comparable triv S -> In n (s_nodes S) -> is_flow_node (s_kind S n) = true ->
  exists r, In r (routes triv S) /\ In n r.
Proof.
  intros HP C Hn Hk. apply posed_inv in HP. destruct (pf_flow _ _ _ _ HP n Hn Hk) as [l [Hl _]].
  unfold non_storage_rows in Hl. destruct (node_cols S (routes triv S) n) as [|c cs] eqn:E; [discriminate|].
  assert (In c (node_cols S (routes triv S) n)) as Hc by (rewrite E; now left).
  unfold node_cols in Hc. destruct (s_kind S n); try discriminate; apply cols_In in Hc as [r [Hr [Hp _]]]; exists r; (split; [exact Hr|]).
  - apply Nat.eqb_eq in Hp. subst n. apply first_in, (rf_ne S), (routes_facts triv), Hr. exact (reg_wf _ (cmp_regular _ _ C)).
  - apply Nat.eqb_eq in Hp. subst n. apply last_in, (rf_ne S), (routes_facts triv), Hr. exact (reg_wf _ (cmp_regular _ _ C)).
  - destruct (membP n r); [assumption|discriminate].
Qed.

Lemma node_ecols_In S n c : In c (node_ecols S n) -> exists a b, nth_error (s_edges S) c = Some (a, b) /\ s_domain S a = s_domain S b /\
  (n = a \/ n = b).
Proof.
  unfold node_ecols. intros H.
  assert (In c (in_edges S n) \/ In c (out_edges S n)) as [K|K] by (destruct (s_kind S n); auto);
  apply ecols_In in K as [[a b] [H1 H2]]; cbn [fst snd] in H2; apply andb_true_iff in H2 as [H2 H3];
  apply Nat.eqb_eq in H2; apply Nat.eqb_eq in H3; cbn [fst snd] in H2; exists a, b; auto.
Qed.

Lemma members_apart triv S d P a : posed triv S d = Ok P -> comparable triv S -> ~ cyclic (inner_edge S) ->
  In a (s_nodes S) -> s_kind S a = KAggregated -> edges_apart S a.
Proof.
  intros HP C Ac Ha Hk i j m m' c Hi Hj Hc Hc'.
  destruct (node_ecols_In S m c Hc) as [u [v [E [Hd Hm]]]].
  destruct (node_ecols_In S m' c Hc') as [u' [v' [E' [_ Hm']]]]. rewrite E in E'. injection E' as <- <-.
  apply nth_error_In in E. destruct (wf_ends _ (reg_wf _ (cmp_regular _ _ C)) u v E) as [Nu Nv]. destruct (reg_edges _ (cmp_regular _ _ C) u v E) as [Ku Kv].
  destruct (edge_on_route triv S u v C Ac) as [r [Hr [Hu Hv]]].
  - split; assumption.
  - eapply posed_on_route; eauto.
  - eapply posed_on_route; eauto.
  - apply (cmp_apart _ _ C a r Ha Hk Hr i j m m' Hi Hj).
    + destruct Hm as [->| ->]; assumption.
    + destruct Hm' as [->| ->]; assumption.
Qed.

(** ** The two problems *)
Lemma ecommitted_load S y z : (forall k, (k < length (s_edges S))%nat -> y k == z k) ->
  forall n, ecommitted S y n == ecommitted S z n.
Proof.
  intros H. apply commit_ext. intros n _. rewrite !edge_node_flows_sum. apply Qmult_comp; [reflexivity|].
  apply esum_y. intros k e Hk. apply enumerate_fst in Hk. rewrite (H k Hk). reflexivity.
Qed.

Lemma route_to_edge triv S d P E x : comparable triv S -> ~ cyclic (inner_edge S) ->
  posed triv S d = Ok P -> eposed triv S d = Ok E -> feasible P x ->
  feasible E (edges_of triv S x) /\ inner_only S (edges_of triv S x) /\
  (forall n, ecommitted S (edges_of triv S x) n == committed triv S x n).
Proof.
  intros C Ac HP HE HF. apply (route_meets triv S d x C P HP) in HF as [Hx M].
  pose proof (edges_of_inner triv S x (reg_wf _ (cmp_regular _ _ C))) as I. pose proof (edges_of_committed triv S x C) as Hc.
  split; [|split; [exact I|exact Hc]].
  apply (edge_meets triv S d E _ (cmp_regular _ _ C) I); auto.
  - intros a Ha Hk. eapply members_apart; eauto.
  - split; [|split].
    + intros c _. now apply edges_of_nonneg.
    + apply edges_of_balanced, (reg_wf _ (cmp_regular _ _ C)).
    + eapply meets_ext; [|exact M]. intros n. now rewrite Hc.
Qed.

Lemma edge_to_route triv S d P E y : comparable triv S -> ~ cyclic (inner_edge S) ->
  posed triv S d = Ok P -> eposed triv S d = Ok E -> feasible E y -> inner_only S y ->
  exists x, feasible P x /\ (forall k, (k < length (s_edges S))%nat -> y k == edges_of triv S x k) /\
    (forall n, committed triv S x n == ecommitted S y n).
Proof.
  intros C Ac HP HE HF I.
  apply (edge_meets triv S d E y (cmp_regular _ _ C) I (fun a Ha Hk => members_apart triv S d P a HP C Ac Ha Hk) HE) in HF as [Hy [B M]].
  destruct (decompose triv S C Ac (length (positive S y)) y) as [x [Hx Hxe]]; [lia|split; [exact Hy|split; assumption]|].
  assert (forall n, committed triv S x n == ecommitted S y n) as Hc.
  { intros n. rewrite <- (edges_of_committed triv S x C n). symmetry. now apply ecommitted_load. }
  exists x. split; [|split; [exact Hxe|exact Hc]].
  apply (route_meets triv S d x C P HP). split; [intros c _; apply Hx|].
  eapply meets_ext; [|exact M]. intros n. now rewrite Hc.
Qed.
