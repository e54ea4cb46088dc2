From Verif Require Import Base Paths Sorting Routes_model Routes_spec Routes_proofs LP_model LP_check LP_optimal Sys_model RouteLP_model RouteLP_spec RouteLP_proofs RouteLP_flow
  EdgeLP_model EdgeLP_spec EdgeLP_meets Connect_model Connect_spec Connect_proofs Loss_proofs Piecewise_model Piecewise_spec.
Local Open Scope nat_scope.
Local Open Scope list_scope.
Local Open Scope Q_scope.

(** ** The inside of the node *)
Lemma piece_edges_new w p e : In e (edges (new_piecewise w p)) <->
  In e (edges w) \/ e = (p_sub p, p_input p) \/ exists s, In s (p_links p) /\ (e = (s, p_sub p) \/ e = (p_output p, s)).
Proof.
  unfold new_piecewise. set (w0 := add_edge _ _).
  assert (forall l w1, In e (edges (fold_left (fun w s => add_edge (add_edge w (s, p_sub p)) (p_output p, s)) l w1)) <->
     In e (edges w1) \/ exists s, In s l /\ (e = (s, p_sub p) \/ e = (p_output p, s))) as H.
  { induction l as [|s l IH]; intros w1; cbn [fold_left].
    - split; [now left|]. intros [H|[s [[] _]]]; exact H.
    - rewrite IH, !add_edge_in. split.
      + intros [[[H|H]|H]|[s' [Hs H]]]; [now left|right; exists s; split; [now left|tauto]..|right; exists s'; split; [now right|tauto]].
      + intros [H|[s' [[<-|Hs] H]]]; [tauto|tauto|right; exists s'; tauto]. }
  rewrite H. unfold w0. rewrite add_edge_in. cbn [edges]. tauto.
Qed.
Lemma piece_kind_new w p : kind_of (new_piecewise w p) (p_self p) = Through (p_input p) (p_output p).
Proof.
  unfold new_piecewise. set (k := fun n : nat => if Nat.eqb n (p_self p) then _ else _).
  assert (forall l w1, kind_of (fold_left (fun w s => add_edge (add_edge w (s, p_sub p)) (p_output p, s)) l w1) = kind_of w1) as H.
  { induction l as [|s l IH]; intros w1; cbn [fold_left]; [reflexivity|]. rewrite IH.
    destruct (add_edge_same (add_edge w1 (s, p_sub p)) (p_output p, s)) as [[_ ->] _]. now destruct (add_edge_same w1 (s, p_sub p)) as [[_ ->] _]. }
  rewrite H. destruct (add_edge_same (World (model_of w) k (edges w) (dirty w)) (p_sub p, p_input p)) as [[_ ->] _]. cbn [kind_of].
  unfold k. now rewrite Nat.eqb_refl.
Qed.

Definition distinct (p : piecewise) : Prop := NoDup (p_self p :: p_output p :: p_input p :: p_sub p :: p_links p).

Lemma piece_edges_kept w p ops : distinct p -> (forall a b, In (a, b) (edges w) -> ~ inside p a /\ ~ inside p b) ->
  leaves_alone (new_piecewise w p) (p_self p) (inside p) ops -> piece_edges (edges (perform (new_piecewise w p) ops)) p.
Proof.
  intros D E [N U]. pose proof (piece_edges_new w p) as E1. pose proof (piece_kind_new w p) as K1. set (w1 := new_piecewise w p) in *.
  unfold distinct in D. do 4 (apply NoDup_cons_iff in D as [? D]). cbn [In] in *.
  assert (forall n a s, ~ inside p n -> source (kind_of w1 n) n s a -> a = p_input p \/ ~ inside p a) as SR.
  { intros n a s I H'. destruct (Nat.eq_dec n (p_self p)) as [->|X]; [|right; now apply (U n s a X I); left]. rewrite K1 in H'. cbn in H'. now left. }
  assert (forall n a s, ~ inside p n -> target (kind_of w1 n) n s a -> a = p_output p \/ ~ inside p a) as TG.
  { intros n a s I H'. destruct (Nat.eq_dec n (p_self p)) as [->|X]; [|right; now apply (U n s a X I); right]. rewrite K1 in H'. cbn in H'. now left. }
  assert (forall e, inside p (fst e) -> In e (edges w1) -> In e (edges (perform w1 ops))) as Keep.
  { intros e Ie He. apply perform_keeps; [|exact He]. intros o u Io Iu Z. apply (N o u Io Iu). now rewrite <- Z. }
  split; [|split].
  - intros s Hs. split; (apply Keep; [unfold inside; cbn; tauto|]); apply E1; right; right; exists s; tauto.
  - apply Keep; [unfold inside; cbn; tauto|]. apply E1. tauto.
  - intros a b H'. apply perform_edges in H' as [H'|[u [v [f [t [I [A B]]]]]]].
    + apply E1 in H' as [H'|[H'|[s [Hs [H'|H']]]]].
      * destruct (E a b H') as [Ea Eb]. unfold inside in *. repeat split; intros; subst; tauto.
      * injection H' as -> ->. repeat split; intros; try tauto; try (subst; tauto); intuition congruence.
      * injection H' as -> ->. repeat split; intros Z; try tauto; try (exfalso; subst; tauto); try congruence; rewrite Z in *; tauto.
      * injection H' as -> ->. repeat split; intros Z; try tauto; try (exfalso; subst; tauto); try congruence; rewrite Z in *; tauto.
    + cbn [fst snd] in *. assert (~ inside p u) as Iu by (apply (N _ u I); now left). assert (~ inside p v) as Iv by (apply (N _ v I); right; now left).
      destruct (SR u a f Iu A) as [->|Ia], (TG v b t Iv B) as [->|Ib]; unfold inside in *; repeat split; intros Z; try tauto; try (exfalso; subst; tauto); intuition congruence.
Qed.

(** ** Moving water from one column to another *)
Definition moved (x : nat -> Q) (e : Q) (a b : nat) : nat -> Q := fun k => x k + e * (unit a k - unit b k).
Lemma val_moved coef x e a b : val coef (moved x e a b) == val coef x + e * (val coef (unit a) - val coef (unit b)).
Proof.
  unfold val, moved. rewrite (qsum_map_ext _ (fun c => snd c * x (fst c) + e * (snd c * unit a (fst c) - snd c * unit b (fst c)))) by (intros; ring).
  now rewrite qsum_map_plus, qsum_map_scale, qsum_map_minus.
Qed.
Lemma rsum_unit rs c h : (c < List.length rs)%nat -> rsum rs (unit c) h == h (nth c rs []).
Proof.
  intros H. rewrite rsum_seq. unfold unit. apply (qsum_unit Nat.eqb (fun k => h (nth k rs []))); [apply Nat.eqb_eq|apply seq_NoDup|]. apply in_seq. lia.
Qed.

(** The dictionary of an aggregated node. *)
Lemma dict_set_val m k v c : val (dict_set m k v) (unit c) == if Nat.eqb k c then v else val m (unit c).
Proof.
  unfold val, dict_set. cbn [map qsum fst snd]. unfold unit at 1. destruct (Nat.eqb_spec k c) as [->|N].
  - rewrite qsum_map_zero; [unfold bq; ring|]. intros [i q] H. apply filter_In in H as [_ H]. cbn [fst snd] in *. unfold unit.
    destruct (Nat.eqb i c); [discriminate|unfold bq; ring].
  - unfold bq at 1. rewrite Qmult_0_r, Qplus_0_l. induction m as [|[i q] m IH]; cbn [filter map qsum fst snd]; [reflexivity|].
    destruct (Nat.eqb_spec i k) as [->|N']; cbn [negb map qsum fst snd]; rewrite IH; [|reflexivity].
    unfold unit at 2. destruct (Nat.eqb_spec k c); [contradiction|]. unfold bq. ring.
Qed.
Lemma agg_inner_val n w c (cs : list (nat * list nat)) : forall m,
  val (fold_left (fun m c => if memb n (snd c) then dict_set m (fst c) w else m) cs m) (unit c) ==
  if existsb (fun c' => memb n (snd c') && Nat.eqb (fst c') c) cs then w else val m (unit c).
Proof.
  induction cs as [|[i r] cs IH]; intros m; cbn [fold_left existsb fst snd]; [reflexivity|]. rewrite IH.
  destruct (memb n r); cbn [andb orb]; [|reflexivity]. destruct (existsb _ cs); [now rewrite orb_true_r|]. rewrite orb_false_r.
  apply dict_set_val.
Qed.
Lemma existsb_column n c rs : (c < List.length rs)%nat ->
  existsb (fun c' => memb n (snd c') && Nat.eqb (fst c') c) (enumerate rs) = memb n (nth c rs []).
Proof.
  intros H. destruct (memb n (nth c rs [])) eqn:E.
  - apply existsb_exists. exists (c, nth c rs []). split; [|cbn [fst snd]; now rewrite E, Nat.eqb_refl].
    apply EdgeLP_proofs.enumerate_In. now apply nth_error_nth'.
  - apply not_true_iff_false. intros X. apply existsb_exists in X as [[i r] [Hi X]]. cbn [fst snd] in X. apply andb_true_iff in X as [X1 X2].
    apply Nat.eqb_eq in X2. subst i. apply EdgeLP_proofs.enumerate_In in Hi. rewrite (nth_error_nth _ _ [] Hi) in E. congruence.
Qed.
Lemma agg_matrix_val S rs a c1 c2 : (c1 < List.length rs)%nat -> (c2 < List.length rs)%nat ->
  (forall n, In n (s_members S a) -> memb n (nth c1 rs []) = memb n (nth c2 rs [])) ->
  val (agg_matrix S rs a) (unit c1) == val (agg_matrix S rs a) (unit c2).
Proof.
  intros H1 H2 M. unfold agg_matrix.
  assert (forall l m, (forall nw, In nw l -> In (fst nw) (s_members S a)) -> val m (unit c1) == val m (unit c2) ->
    val (fold_left (fun m nw => fold_left (fun m c => if memb (fst nw) (snd c) then dict_set m (fst c) (snd nw) else m) (enumerate rs) m) l m) (unit c1) ==
    val (fold_left (fun m nw => fold_left (fun m c => if memb (fst nw) (snd c) then dict_set m (fst c) (snd nw) else m) (enumerate rs) m) l m) (unit c2)) as K.
  { induction l as [|[n w] l IH]; intros m Hl Hm; cbn [fold_left]; [exact Hm|]. apply IH; [intros nw I; apply Hl; now right|].
    rewrite !agg_inner_val, !existsb_column by assumption. cbn [fst snd]. rewrite (M n) by (apply (Hl (n, w)); now left).
    destruct (memb n (nth c2 rs [])); [reflexivity|exact Hm]. }
  apply K; [|reflexivity]. intros [n w] H. now apply in_combine_l in H.
Qed.
Lemma isort_val (m : list (nat * Q)) x : val (isort (fun u v => Nat.leb (fst u) (fst v)) m) x == val m x.
Proof. unfold val. apply qsum_Permutation, Permutation_map, Permutation_sym, isort_perm. Qed.

(** ** Bounds *)
Lemma room_above mx v : within (flow_bounds (Fin 0) mx) v ->
  (exists m, mx = Fin m /\ v == round8 m) \/ exists e, 0 < e /\ forall e', 0 <= e' <= e -> within (flow_bounds (Fin 0) mx) (v + e').
Proof.
  unfold within, flow_bounds, constraint_type. destruct mx as [|m|]; cbn [eround8 near]; change (round8 0) with 0.
  - cbn. tauto.
  - destruct (qltbP (qabs (0 - round8 m)) eps8) as [E|E]; cbn [bounds_ok ext_le_q q_le_ext].
    + intros H. left. exists m. split; [reflexivity|]. rewrite H. unfold round8 in *. destruct (qltbP (qabs m) eps8) as [K|K]; [reflexivity|].
      exfalso. apply K. assert (qabs m == qabs (0 - m)) as -> by (unfold qabs; qifs; lra). exact E.
    + intros [A B]. destruct (Qlt_le_dec v (round8 m)) as [L|L].
      * right. exists (round8 m - v). split; [lra|]. intros e' He. split; lra.
      * left. exists m. split; [reflexivity|]. lra.
  - cbn. intros H. right. exists 1. split; [lra|]. intros. lra.
Qed.
Lemma room_below mx v : within (flow_bounds (Fin 0) mx) v -> 0 < v -> forall e', 0 <= e' <= v -> within (flow_bounds (Fin 0) mx) (v - e').
Proof.
  unfold within, flow_bounds, constraint_type. destruct mx as [|m|]; cbn [eround8 near]; change (round8 0) with 0.
  - cbn. tauto.
  - destruct (qltbP (qabs (0 - round8 m)) eps8) as [E|E]; cbn [bounds_ok ext_le_q q_le_ext]; intros; lra.
  - cbn. intros. lra.
Qed.
Lemma round8_lt a b : a < b -> eps8 <= qabs a \/ eps8 <= qabs b -> round8 a < round8 b.
Proof.
  intros H1 H2. unfold round8. assert (forall q, qabs q == q /\ 0 <= q \/ qabs q == - q /\ q <= 0) as A by (intros q; unfold qabs; qifs; lra).
  pose proof (A a) as Aa. pose proof (A b) as Ab. destruct (qltbP (qabs a) eps8), (qltbP (qabs b) eps8); unfold eps8 in *; lra.
Qed.

(** ** Two steps *)
Section Steps.
  Variables (triv : bool) (S : sys) (d : data) (p : piecewise).
  Hypothesis (W : wf_sys S) (PI : piecewise_in S d p).
  Let rs := routes triv S.

  Lemma step_route s : In s (p_links p) -> In [s; p_sub p] rs.
  Proof.
    intros Hs. destruct (pi_kinds _ _ _ PI) as [K1 [K2 [K3 K4]]]. destruct (pi_domain _ _ _ PI) as [D1 _].
    destruct (pi_edges _ _ _ PI) as [E1 _].
    apply (proj2 (model_routes_spec triv (net_of S) (wf_net_of S W))). exists s, (p_sub p). cbn [selected net_of n_nodes n_is_input n_is_output n_is_link].
    assert (s <> p_sub p) as N by (intros ->; specialize (K4 _ Hs); congruence).
    split; [split; [apply (pi_nodes _ _ _ PI); unfold inside; tauto|now rewrite (K4 s Hs)]|].
    split; [split; [apply (pi_nodes _ _ _ PI); unfold inside; tauto|now rewrite K3]|].
    split; [left; split; [|split; [|cbn; lia]]|].
    - split; [reflexivity|]. split; [reflexivity|]. cbn. split; [now apply E1|tauto].
    - constructor; [cbn; intuition congruence|]. constructor; [now intros []|constructor].
    - split; [|split; [discriminate|]].
      + intros q Hq n Hn. injection Hq as <-. destruct Hn as [l [m [Hl [Hm E]]]]. exfalso.
        assert (List.length [s; p_sub p] = List.length (l ++ n :: m)) as L by now rewrite E. rewrite app_length in L. cbn in L.
        destruct l; [congruence|]. destruct m; [congruence|]. cbn in L. lia.
      + intros m n Hm Hn. cbn in Hm, Hn. pose proof (D1 s Hs).
        destruct Hm as [<-|[<-|[]]], Hn as [<-|[<-|[]]]; cbn; congruence.
  Qed.
  Lemma only_step_route s r : In s (p_links p) -> In r rs -> rfirst r = s -> r = [s; p_sub p].
  Proof.
    intros Hs Hr Hf. pose proof (routes_facts _ _ _ W Hr) as F. destruct (pi_kinds _ _ _ PI) as [K1 [K2 [K3 K4]]].
    destruct (pi_edges _ _ _ PI) as [_ [_ E]]. destruct (pi_domain _ _ _ PI) as [D1 [D2 D3]].
    pose proof (rf_length _ _ F) as HL. pose proof (rf_chain _ _ F) as HC.
    destruct r as [|a [|b r]]; [cbn in HL; lia..|]. cbn in Hf. subst a. cbn in HC. destruct HC as [Eb HC].
    assert (b = p_sub p) as -> by (apply E in Eb; tauto). destruct r as [|c r]; [reflexivity|]. exfalso.
    destruct HC as [Ec _]. assert (c = p_input p) as -> by (apply E in Ec; tauto).
    apply D3. apply (rf_domain _ _ F); cbn; tauto.
  Qed.

  Lemma step_column s : In s (p_links p) -> exists c, (c < List.length rs)%nat /\ nth c rs [] = [s; p_sub p].
  Proof. intros Hs. apply step_route in Hs. apply In_nth with (d := []) in Hs as [c [H1 H2]]. now exists c. Qed.
  Lemma step_flow s c x : In s (p_links p) -> (c < List.length rs)%nat -> nth c rs [] = [s; p_sub p] -> committed triv S x s == x c.
  Proof.
    intros Hs Hc Hn. destruct (pi_kinds _ _ _ PI) as [_ [_ [_ K4]]].
    rewrite committed_flow; [|exact W|apply (pi_nodes _ _ _ PI); unfold inside; tauto|now rewrite (K4 s Hs)].
    fold rs. rewrite rsum_seq.
    rewrite (qsum_map_ext _ (fun k => x k * bq (Nat.eqb k c))).
    - apply (qsum_unit Nat.eqb x); [apply Nat.eqb_eq|apply seq_NoDup|]. apply in_seq. lia.
    - intros k Hk. apply in_seq in Hk. unfold carries. rewrite (K4 s Hs).
      assert (Nat.eqb (rfirst (nth k rs [])) s = Nat.eqb k c) as ->; [|ring].
      destruct (Nat.eqb_spec k c) as [->|N].
      + rewrite Hn. cbn. apply Nat.eqb_refl.
      + apply Nat.eqb_neq. intros Z. apply N. assert (In (nth k rs []) rs) as Hin by (apply nth_In; lia).
        pose proof (only_step_route s _ Hs Hin Z) as Er. pose proof (proj1 (model_routes_spec triv (net_of S) (wf_net_of S W))) as ND.
        change (NoDup rs) in ND. rewrite NoDup_nth with (d := []) in ND. apply ND; [lia|exact Hc|]. congruence.
  Qed.

  (** ** Through the node *)
  Lemma steps_through x : committed triv S x (p_sub p) == qsum (map (committed triv S x) (p_links p)).
  Proof.
    destruct (pi_kinds _ _ _ PI) as [K1 [K2 [K3 K4]]]. destruct (pi_edges _ _ _ PI) as [E1 [E2 E3]]. destruct (pi_domain _ _ _ PI) as [D1 [D2 D3]].
    assert (forall n, inside p n -> In n (s_nodes S)) as Nd by exact (pi_nodes _ _ _ PI).
    rewrite committed_flow; [|exact W|apply Nd; unfold inside; tauto|now rewrite K3].
    rewrite (qsum_map_ext (committed triv S x) (fun s => rsum rs x (fun r => bq (carries S s r)))).
    2:{ intros s Hs. apply committed_flow; [exact W|apply Nd; unfold inside; tauto|now rewrite (K4 s Hs)]. }
    rewrite <- (rsum_sum rs x (fun s r => bq (carries S s r)) (p_links p)). apply rsum_ext. intros r Hr. pose proof (routes_facts _ _ _ W Hr) as F.
    pose proof (pi_apart _ _ _ PI) as ND. do 3 (apply NoDup_cons_iff in ND as [_ ND]).
    unfold carries at 1. rewrite K3. destruct (Nat.eqb_spec (rlast r) (p_sub p)) as [El|El].
    - assert (In (p_sub p) r) as Hin by (rewrite <- El; apply last_in; exact (rf_ne _ _ F)).
      destruct (pred_edge S r (p_sub p) F Hin) as [a [Ha [Ea _]]].
      { intros Z. pose proof (rf_first _ _ F). congruence. }
      assert (In a (p_links p)) as La by (apply E3 in Ea; tauto).
      assert (rfirst r = a) as Ef.
      { destruct (Nat.eq_dec a (rfirst r)) as [|N]; [now symmetry|]. exfalso. destruct (pred_edge S r a F Ha N) as [b [Hb [Eb _]]].
        assert (b = p_output p) as -> by (apply E3 in Eb; tauto). apply D2. now apply (rf_domain _ _ F). }
      rewrite (qsum_map_ext _ (fun s => 1 * bq (Nat.eqb s a))).
      + rewrite (qsum_unit Nat.eqb (fun _ => 1) a); [reflexivity|apply Nat.eqb_eq|exact ND|exact La].
      + intros s Hs. unfold carries. rewrite (K4 s Hs), Ef, Nat.eqb_sym. ring.
    - symmetry. apply qsum_map_zero. intros s Hs. unfold carries. rewrite (K4 s Hs). destruct (Nat.eqb_spec (rfirst r) s) as [Z|]; [|reflexivity].
      exfalso. apply El. rewrite (only_step_route s r Hs Hr Z). reflexivity.
  Qed.
  Lemma fed_steps x : p_links p <> [] -> solved triv S d x -> committed triv S x (p_output p) == qsum (map (committed triv S x) (p_links p)).
  Proof.
    intros Ne H. destruct (pi_kinds _ _ _ PI) as [K1 [K2 [K3 K4]]]. destruct (pi_edges _ _ _ PI) as [E1 [E2 E3]]. destruct (pi_domain _ _ _ PI) as [D1 [D2 D3]].
    pose proof (pi_apart _ _ _ PI) as ND. do 3 (apply NoDup_cons_iff in ND as [_ ND]).
    assert (forall s, supplies S (p_output p) s = true <-> In s (p_links p)) as Sp.
    { intros s. rewrite supplies_iff. split; [intros [_ [_ X]]; apply E3 in X; tauto|]. intros Hs. rewrite (D1 s Hs). split; [now apply K4|]. split; [exact D2|now apply E1]. }
    destruct (p_links p) as [|s0 l] eqn:El; [now elim Ne|].
    rewrite <- El in *. rewrite (cross_balance triv S d x (p_output p) W H); [|apply (pi_nodes _ _ _ PI); unfold inside; tauto|exact K1|].
    - rewrite (qsum_Permutation _ (map (fun i => committed triv S x i / s_conv S i) (p_links p))).
      + apply qsum_map_ext. intros s Hs. rewrite (pi_conv _ _ _ PI s Hs). field.
      + apply Permutation_map, NoDup_Permutation; [apply NoDup_filter; exact (wf_nodes _ W)|exact ND|].
          intros s. rewrite filter_In, Sp. split; [tauto|]. intros Hs. split; [apply (pi_nodes _ _ _ PI); unfold inside; tauto|exact Hs].
    - exists s0. apply Sp. rewrite El. now left.
  Qed.
  Lemma left_steps x : s_conv S (p_input p) = 1 -> solved triv S d x -> committed triv S x (p_sub p) == committed triv S x (p_input p).
  Proof.
    intros Cv H. destruct (pi_kinds _ _ _ PI) as [K1 [K2 [K3 K4]]]. destruct (pi_edges _ _ _ PI) as [E1 [E2 E3]]. destruct (pi_domain _ _ _ PI) as [D1 [D2 D3]].
    assert (forall i, supplies S (p_sub p) i = true <-> i = p_input p) as Sp.
    { intros i. rewrite supplies_iff. split; [intros [_ [_ X]]; apply E3 in X; tauto|]. intros ->. split; [exact K2|]. split; [congruence|exact E2]. }
    rewrite (cross_balance triv S d x (p_sub p) W H); [|apply (pi_nodes _ _ _ PI); unfold inside; tauto|exact K3|exists (p_input p); now apply Sp].
    rewrite (qsum_Permutation _ (map (fun i => committed triv S x i / s_conv S i) [p_input p])).
    - cbn [map qsum]. rewrite Cv. field.
    - apply Permutation_map, NoDup_Permutation; [apply NoDup_filter; exact (wf_nodes _ W)|repeat constructor; cbn; tauto|].
      intros i. rewrite filter_In, Sp. cbn [In]. split; [intros [_ ->]; tauto|]. intros [<-|[]]. split; [apply (pi_nodes _ _ _ PI); unfold inside; tauto|reflexivity].
  Qed.

  Variables (s t c1 c2 : nat).
  Hypothesis (Hs : In s (p_links p)) (Ht : In t (p_links p)).
  Hypothesis (L1 : (c1 < List.length rs)%nat) (L2 : (c2 < List.length rs)%nat).
  Hypothesis (N1 : nth c1 rs [] = [s; p_sub p]) (N2 : nth c2 rs [] = [t; p_sub p]).

  Lemma step_kinds : s_kind S s = KInput /\ s_kind S t = KInput /\ s_kind S (p_sub p) = KOutput.
  Proof. destruct (pi_kinds _ _ _ PI) as [_ [_ [K3 K4]]]. auto. Qed.

  Lemma same_carries n : n <> s -> n <> t -> carries S n [s; p_sub p] = carries S n [t; p_sub p].
  Proof.
    intros A B. unfold carries. destruct (s_kind S n); try reflexivity.
    - cbn. destruct (Nat.eqb_spec s n); [congruence|]. destruct (Nat.eqb_spec t n); congruence.
    - cbn. destruct (Nat.eqb_spec n s); [congruence|]. destruct (Nat.eqb_spec n t); congruence.
  Qed.
  Lemma same_feeds o : feeds S o s = feeds S o t.
  Proof.
    destruct step_kinds as [K1 [K2 _]]. destruct (pi_domain _ _ _ PI) as [D1 _]. destruct (pi_edges _ _ _ PI) as [E1 [_ E]].
    destruct (feeds S o s) eqn:F1, (feeds S o t) eqn:F2; try reflexivity; exfalso.
    - apply feeds_iff in F1 as [_ [X Y]]. assert (o = p_output p) as -> by (apply E in Y; tauto).
      assert (feeds S (p_output p) t = true) by (apply feeds_iff; rewrite (D1 t Ht), <- (D1 s Hs); split; [exact K2|split; [exact X|now apply E1]]). congruence.
    - apply feeds_iff in F2 as [_ [X Y]]. assert (o = p_output p) as -> by (apply E in Y; tauto).
      assert (feeds S (p_output p) s = true) by (apply feeds_iff; rewrite (D1 s Hs), <- (D1 t Ht); split; [exact K1|split; [exact X|now apply E1]]). congruence.
  Qed.
  Lemma cross_unit o c u : In o (s_nodes S) -> s_kind S o = KOutput -> In u (p_links p) -> (c < List.length rs)%nat -> nth c rs [] = [u; p_sub p] ->
    val (map (fun cv => (fst cv, 1 / snd cv)) (cross_cols S rs (cross_domain_routes triv S) o)) (unit c) == bq (feeds S o u).
  Proof.
    intros Ho Hk Hu Lc Nc. unfold val. rewrite (cross_cols_sum S rs _ (unit c) o (fun _ => 0)).
    2:{ intros r Hr. apply (proj2 (cross_spec triv S W)) in Hr as [a [b [-> _]]]. eauto. }
    rewrite (cross_sum triv S o (fun i => 1 / s_conv S i * rsum rs (unit c) (fun q => bq (Nat.eqb (rfirst q) i))) W Ho Hk).
    rewrite (qsum_map_ext _ (fun i => 1 / s_conv S i * bq (Nat.eqb i u))).
    2:{ intros i _. rewrite rsum_unit by exact Lc. rewrite Nc. cbn [rfirst hd]. rewrite Nat.eqb_sym. reflexivity. }
    destruct (feeds S o u) eqn:F.
    - rewrite (qsum_unit Nat.eqb (fun i => 1 / s_conv S i) u).
      + rewrite (pi_conv _ _ _ PI u Hu). unfold bq. field.
      + apply Nat.eqb_eq.
      + apply NoDup_filter. exact (wf_nodes _ W).
      + apply filter_In. split; [|exact F]. apply (pi_nodes _ _ _ PI). unfold inside. tauto.
    - apply qsum_map_zero. intros i Hi. apply filter_In in Hi as [_ Hi]. destruct (Nat.eqb_spec i u); [subst; congruence|]. unfold bq. ring.
  Qed.

  Lemma carries_unit n c : is_flow_node (s_kind S n) = true -> (c < List.length rs)%nat ->
    val (map (fun c => (c, 1)) (node_cols S rs n)) (unit c) == bq (carries S n (nth c rs [])).
  Proof. intros Hk Hc. unfold val. rewrite node_cols_carries by exact Hk. now apply rsum_unit. Qed.
  Lemma carries_unit_neg n c : is_flow_node (s_kind S n) = true -> (c < List.length rs)%nat ->
    val (map (fun c => (c, - (1))) (node_cols S rs n)) (unit c) == - bq (carries S n (nth c rs [])).
  Proof.
    intros Hk Hc. rewrite <- (carries_unit n c Hk Hc). unfold val. rewrite !map_map. cbn [fst snd].
    rewrite (qsum_map_ext _ (fun k => - (1) * (1 * unit c k))) by (intros; ring). rewrite qsum_map_scale. ring.
  Qed.
  Lemma cols_unit q v c : (c < List.length rs)%nat -> val (map (fun c => (c, v)) (cols rs q)) (unit c) == v * bq (q (nth c rs [])).
  Proof. intros Hc. unfold val. rewrite cols_sum. rewrite rsum_unit by exact Hc. reflexivity. Qed.

  Lemma free a m : In a (s_nodes S) -> s_kind S a = KAggregated \/ s_kind S a = KVirtual -> In m (s_members S a) -> memb m [s; p_sub p] = memb m [t; p_sub p].
  Proof.
    intros Ha Hk Hm. assert (m <> s) by (intros ->; exact (pi_free _ _ _ PI a s Ha Hk Hs Hm)). assert (m <> t) by (intros ->; exact (pi_free _ _ _ PI a t Ha Hk Ht Hm)).
    cbn. destruct (Nat.eqb_spec m s); [congruence|]. destruct (Nat.eqb_spec m t); congruence.
  Qed.

  (** Only the rows of the steps themselves tell the steps apart. *)
  Lemma rows_alike P r : posed triv S d = Ok P -> In r (lp_rows P) ->
    (exists n, (n = s \/ n = t) /\ r_coef r = map (fun c => (c, 1)) (node_cols S rs n) /\ (r_type r, r_lb r, r_ub r) = flow_bounds (d_min d n) (d_max d n)) \/
    val (r_coef r) (unit c1) == val (r_coef r) (unit c2).
  Proof.
    intros HP Hr. apply posed_inv in HP. destruct step_kinds as [K1 [K2 K3]].
    destruct (pf_only _ _ _ _ HP r Hr) as [H|[H|[H|[H|H]]]]; clear HP Hr; fold rs in H.
    - destruct H as [n [l [Hn [Hk [Hl Hi]]]]]. unfold non_storage_rows in Hl.
      destruct (node_cols S rs n) as [|c cs] eqn:Ec; [discriminate|]. rewrite <- Ec in *. clear Ec c cs.
      destruct (flow_bounds (d_min d n) (d_max d n)) as [[ty lb] ub] eqn:Eb.
      destruct (set_row (map (fun c0 => (c0, 1)) (node_cols S rs n)) ty lb ub) as [r1|] eqn:E1; [|discriminate]. apply set_row_inv in E1 as [-> _].
      assert (In r [{| r_coef := map (fun c => (c, 1)) (node_cols S rs n); r_type := ty; r_lb := lb; r_ub := ub |}] ->
        (exists n, (n = s \/ n = t) /\ r_coef r = map (fun c => (c, 1)) (node_cols S rs n) /\ (r_type r, r_lb r, r_ub r) = flow_bounds (d_min d n) (d_max d n)) \/
        val (r_coef r) (unit c1) == val (r_coef r) (unit c2)) as R1.
      { intros [<-|[]]. destruct (Nat.eq_dec n s) as [->|Ns]; [left; exists s; cbn; now auto|]. destruct (Nat.eq_dec n t) as [->|Nt]; [left; exists t; cbn; now auto|].
        right. cbn [r_coef]. rewrite !carries_unit by assumption. rewrite N1, N2, same_carries by assumption. reflexivity. }
      destruct (in_cross (cross_domain_routes triv S) n) eqn:Ex.
      + destruct (set_row (_ ++ _) FX (Fin 0) (Fin 0)) as [r2|] eqn:E2; [|discriminate]. apply set_row_inv in E2 as [-> _]. injection Hl as <-.
        destruct Hi as [Hi|[<-|[]]]; [apply R1; now left|]. right. cbn [r_coef]. apply in_cross_iff in Ex as [Ho _]; [|exact W|exact Hn].
        assert (n <> s) by congruence. assert (n <> t) by congruence.
        rewrite !val_app, !carries_unit_neg by assumption. rewrite (cross_unit n c1 s Hn Ho Hs L1 N1), (cross_unit n c2 t Hn Ho Ht L2 N2).
        rewrite N1, N2, same_carries, same_feeds by assumption. reflexivity.
      + injection Hl as <-. now apply R1.
    - right. destruct H as [n [Hn [Hk Hl]]]. unfold storage_row in Hl. destruct (storage_bounds _ _ _ _) as [[ty lb] ub]. apply set_row_inv in Hl as [-> _].
      cbn [r_coef]. unfold val. rewrite !storage_row_value, !rsum_unit by assumption. rewrite N1, N2. cbn [rlast rfirst hd last].
      assert (forall u, In u (p_links p) -> memb u (s_inputs S n) = false) as M.
      { intros u Hu. destruct (membP u (s_inputs S n)) as [I|]; [|reflexivity]. exfalso.
        pose proof (proj2 (wf_inputs _ W u n (pi_nodes _ _ _ PI u (or_intror (or_intror (or_intror Hu))))) I) as Z. rewrite (pi_slots _ _ _ PI u) in Z; [discriminate|]. unfold inside. tauto. }
      rewrite (M s Hs), (M t Ht). reflexivity.
    - right. destruct H as [n [Hn [Hk Hl]]]. unfold virtual_row in Hl. destruct (virtual_bounds _ _ _ _ _) as [[ty lb] ub]. apply set_row_inv in Hl as [-> _].
      cbn [r_coef]. unfold val. rewrite !virtual_entries_value, !rsum_unit by assumption. rewrite N1, N2, !virtual_entry_sum. cbn [map qsum].
      assert (forall u, In u (p_links p) -> RouteLP_model.index_of u (s_members S n) = None) as M.
      { intros u Hu. pose proof (pi_free _ _ _ PI n u Hn (or_intror Hk) Hu) as F. induction (s_members S n) as [|m l IH]; [reflexivity|].
        cbn [RouteLP_model.index_of]. destruct (Nat.eqb_spec m u) as [->|]; [exfalso; apply F; now left|]. rewrite IH; [reflexivity|]. intros I. apply F. now right. }
      rewrite (M s Hs), (M t Ht). reflexivity.
    - right. destruct H as [n [l [Hn [Hk [_ [Hl Hi]]]]]]. unfold factor_rows in Hl. destruct (s_members S n) as [|m0 ms] eqn:Em; [discriminate|].
      destruct (factors_usable _ _); [|discriminate]. apply mapM_In_inv with (b := r) in Hl as [[m f] [E Hm]]; [|exact Hi]. apply set_row_inv in E as [-> _]. cbn [r_coef fst snd].
      rewrite !val_app, !cols_unit by assumption. rewrite N1, N2.
      rewrite (free n m0 Hn (or_introl Hk)) by (rewrite Em; now left). rewrite (free n m Hn (or_introl Hk)); [reflexivity|].
      rewrite Em. right. now apply in_combine_l in Hm.
    - right. destruct H as [n [Hn [Hk Hl]]]. unfold agg_row in Hl. destruct (flow_bounds (d_min d n) (d_max d n)) as [[ty lb] ub]. apply set_row_inv in Hl as [-> _].
      cbn [r_coef]. rewrite !isort_val. apply agg_matrix_val; [assumption..|]. intros m Hm. rewrite N1, N2. exact (free n m Hn (or_introl Hk) Hm).
  Qed.

  (** A cheaper step is used first. *)
  Lemma cheaper_first x : solved_optimally triv S d x -> d_cost d s < d_cost d t -> eps8 <= qabs (d_cost d s) \/ eps8 <= qabs (d_cost d t) ->
    0 < committed triv S x t -> exists m, d_max d s = Fin m /\ committed triv S x s == round8 m.
  Proof.
    intros [P [HP [HF HO]]] Hc Hr Hp. destruct step_kinds as [K1 [K2 K3]].
    assert (s <> t) as Nst by (intros ->; lra).
    assert (c1 <> c2) as Nc by (intros ->; rewrite N1 in N2; congruence).
    assert (forall u, In u (p_links p) -> In u (s_nodes S) /\ is_flow_node (s_kind S u) = true) as U.
    { intros u Hu. split; [apply (pi_nodes _ _ _ PI); unfold inside; tauto|]. destruct (pi_kinds _ _ _ PI) as [_ [_ [_ K4]]]. now rewrite (K4 u Hu). }
    assert (forall u, In u (p_links p) -> within (flow_bounds (Fin 0) (d_max d u)) (committed triv S x u)) as B.
    { intros u Hu. destruct (U u Hu) as [A1 A2]. rewrite <- (pi_min _ _ _ PI u Hu). exact (flow_row triv S d P x u W HP HF A1 A2). }
    pose proof (step_flow s c1 x Hs L1 N1) as F1. pose proof (step_flow t c2 x Ht L2 N2) as F2.
    destruct (room_above (d_max d s) _ (B s Hs)) as [H|[e [He A]]]; [exact H|]. exfalso.
    set (e' := qmin e (x c2)). assert (0 < e' /\ e' <= e /\ e' <= x c2) as [E1 [E2 E3]] by (unfold e'; qmm; rewrite F2 in Hp; lra).
    set (y := moved x e' c1 c2). 
    assert (y c1 == x c1 + e' /\ y c2 == x c2 - e' /\ forall k, k <> c1 -> k <> c2 -> y k == x k) as [Y1 [Y2 Y3]].
    { unfold y, moved, unit. rewrite !Nat.eqb_refl. destruct (Nat.eqb_spec c1 c2); [contradiction|]. destruct (Nat.eqb_spec c2 c1); [congruence|]. unfold bq.
      split; [ring|]. split; [ring|]. intros k A1 A2. destruct (Nat.eqb_spec k c1); [contradiction|]. destruct (Nat.eqb_spec k c2); [contradiction|]. ring. }
    assert (feasible P y) as FY.
    { destruct HF as [Hx HF]. split.
      - intros k Hk. destruct (Nat.eq_dec k c1) as [->|A1]; [rewrite Y1; specialize (Hx _ Hk); lra|].
        destruct (Nat.eq_dec k c2) as [->|A2]; [rewrite Y2; lra|]. rewrite (Y3 k A1 A2). now apply Hx.
      - intros r Hin. destruct (rows_alike P r HP Hin) as [[n [Hn [Ec Eb]]]|Same].
        + assert (In n (p_links p)) as Ln by (destruct Hn as [->| ->]; assumption). destruct (U n Ln) as [A1 A2].
          assert (committed triv S y n == row_value y r) as Ev.
          { unfold row_value. rewrite Ec, node_cols_carries by exact A2. now apply committed_flow. }
          unfold row_ok. assert (within (r_type r, r_lb r, r_ub r) (committed triv S y n)) as Wi; [|cbn in Wi; eapply bounds_ok_ext; [exact Ev|exact Wi]].
          rewrite Eb, (pi_min _ _ _ PI n Ln). destruct Hn as [->| ->].
          * apply (within_ext _ (committed triv S x s + e')); [rewrite (step_flow s c1 y Hs L1 N1), F1; lra|]. apply A. lra.
          * apply (within_ext _ (committed triv S x t - e')); [rewrite (step_flow t c2 y Ht L2 N2), F2; lra|]. apply room_below; [now apply B|exact Hp|].
            rewrite F2. lra.
        + unfold row_ok. eapply bounds_ok_ext; [|apply HF, Hin]. symmetry. unfold row_value. fold (val (r_coef r) x). fold (val (r_coef r) y). unfold y.
          rewrite val_moved, Same. ring. }
    specialize (HO y FY). revert HO. rewrite !(objective_rsum triv S d P) by assumption. fold rs.
    assert (forall f, rsum rs y f == rsum rs x f + e' * (rsum rs (unit c1) f - rsum rs (unit c2) f)) as RS.
    { intros f. unfold rsum, y, moved.
      rewrite (qsum_map_ext _ (fun c => f (snd c) * x (fst c) + e' * (f (snd c) * unit c1 (fst c) - f (snd c) * unit c2 (fst c)))) by (intros; ring).
      now rewrite qsum_map_plus, qsum_map_scale, qsum_map_minus. }
    rewrite RS, !rsum_unit by assumption. rewrite N1, N2.
    assert (forall u, In u (p_links p) -> path_cost S d [u; p_sub p] == d_cost d u) as PC.
    { intros u Hu. unfold path_cost. cbn [hd last filter]. rewrite !Nat.eqb_refl, !orb_true_r. cbn [orb map qsum]. unfold get_cost.
      rewrite !(pi_slots _ _ _ PI) by (unfold inside; tauto). destruct (U u Hu) as [_ ->]. rewrite K3. cbn [is_flow_node is_input is_output is_link orb].
      rewrite (pi_cost _ _ _ PI). ring. }
    rewrite (round8_Proper _ _ (PC s Hs)), (round8_Proper _ _ (PC t Ht)). pose proof (round8_lt _ _ Hc Hr) as R.
    intros HO. assert (e' * (round8 (d_cost d t) - round8 (d_cost d s)) <= 0) as Z by lra.
    assert (0 < e' * (round8 (d_cost d t) - round8 (d_cost d s))) by (apply Qmult_lt_0_compat; lra). lra.
  Qed.
End Steps.
