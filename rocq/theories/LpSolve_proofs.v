(** Lemmas for C83: the rows of the two problems in common terms. *)
From Verif Require Import Base Paths Sorting Routes_model Routes_spec Routes_proofs LP_model Sys_model
  RouteLP_model RouteLP_spec RouteLP_proofs RouteLP_flow EdgeLP_proofs LpSolve_model LpSolve_spec.
From Coq Require Import Sorting.Permutation.
Open Scope Q_scope.

Definition lval (z : nat -> Q) (coef : list (nat * Q)) : Q := qsum (map (fun c => snd c * z (fst c)) coef).
Lemma lval_app z a b : lval z (a ++ b) == lval z a + lval z b.
Proof. unfold lval. rewrite map_app. apply qsum_app. Qed.

Definition vcoef (S : sys) (rs : list (list nat)) (v : nat) : list (nat * Q) :=
  flat_map (fun c => match virtual_entry S v (snd c) with Some f => [(fst c, - f)] | None => [] end) (enumerate rs).
Definition fcoef (rs : list (list nat)) (m0 : nat) (nf : nat * Q) : list (nat * Q) :=
  map (fun c => (c, 1)) (cols rs (fun r => memb m0 r)) ++ map (fun c => (c, - snd nf)) (cols rs (fun r => memb (fst nf) r)).
Definition xcoef (S : sys) (rs cross : list (list nat)) (o : nat) : list (nat * Q) :=
  map (fun cv => (fst cv, 1 / snd cv)) (cross_cols S rs cross o).

Definition into (o : nat) (r : list nat) : Q := bq (Nat.eqb (rlast r) o).
Definition net_in (S : sys) (st : nat) (r : list nat) : Q := bq (memb (rlast r) (s_outputs S st)) - bq (memb (rfirst r) (s_inputs S st)).

(** What both problems ask of the amounts of the routes, with the bounds left open. *)
Record asks (triv : bool) (S : sys) (fs : nat -> list Q) (fb sb vb ab : nat -> Q -> Prop) (z : nat -> Q) : Prop := {
  as_nonneg : forall k, (k < length (routes triv S))%nat -> 0 <= z k;
  as_flow : forall n, In n (s_nodes S) -> is_flow_node (s_kind S n) = true ->
    fb n (rsum (routes triv S) z (fun r => bq (carries S n r)));
  as_cross : forall o, In o (s_nodes S) -> s_kind S o = KOutput -> in_cross (cross_domain_routes triv S) o = true ->
    lval z (xcoef S (routes triv S) (cross_domain_routes triv S) o) == rsum (routes triv S) z (into o);
  as_storage : forall st, In st (s_nodes S) -> s_kind S st = KStorage -> sb st (rsum (routes triv S) z (net_in S st));
  as_virtual : forall v, In v (s_nodes S) -> s_kind S v = KVirtual -> vb v (lval z (vcoef S (routes triv S) v));
  as_factor : forall a m0 ms nf, In a (s_nodes S) -> s_kind S a = KAggregated -> s_has_factors S a = true ->
    s_members S a = m0 :: ms -> In nf (combine ms (tl (factors_norm (fs a)))) -> lval z (fcoef (routes triv S) m0 nf) == 0;
  as_agg : forall a, In a (s_nodes S) -> s_kind S a = KAggregated -> ab a (lval z (agg_matrix S (routes triv S) a))
}.

Lemma asks_change triv S fs fs' fb sb vb ab (fb' sb' vb' ab' : nat -> Q -> Prop) z : asks triv S fs fb sb vb ab z ->
  (forall a, In a (s_nodes S) -> s_kind S a = KAggregated -> s_has_factors S a = true -> fs a = fs' a) ->
  (forall n v, In n (s_nodes S) -> is_flow_node (s_kind S n) = true -> fb n v -> fb' n v) ->
  (forall n v, In n (s_nodes S) -> s_kind S n = KStorage -> sb n v -> sb' n v) ->
  (forall n v, In n (s_nodes S) -> s_kind S n = KVirtual -> vb n v -> vb' n v) ->
  (forall n v, In n (s_nodes S) -> s_kind S n = KAggregated -> ab n v -> ab' n v) ->
  asks triv S fs' fb' sb' vb' ab' z.
Proof.
  intros A Ef Hf Hs Hv Ha. constructor.
  - exact (as_nonneg _ _ _ _ _ _ _ _ A).
  - intros n Hn Hk. apply Hf; auto. apply (as_flow _ _ _ _ _ _ _ _ A n Hn Hk).
  - exact (as_cross _ _ _ _ _ _ _ _ A).
  - intros n Hn Hk. apply Hs; auto. apply (as_storage _ _ _ _ _ _ _ _ A n Hn Hk).
  - intros n Hn Hk. apply Hv; auto. apply (as_virtual _ _ _ _ _ _ _ _ A n Hn Hk).
  - intros a m0 ms nf Hn Hk Hh E Hi. rewrite <- (Ef a Hn Hk Hh) in Hi. apply (as_factor _ _ _ _ _ _ _ _ A a m0 ms nf Hn Hk Hh E Hi).
  - intros n Hn Hk. apply Ha; auto. apply (as_agg _ _ _ _ _ _ _ _ A n Hn Hk).
Qed.

Definition ok3 (b : rtype * ext * ext) (v : Q) : Prop := let '(t, lb, ub) := b in bounds_ok t lb ub v.
Lemma ok3_ext b v w : v == w -> ok3 b v -> ok3 b w.
Proof. destruct b as [[t lb] ub]. apply bounds_ok_ext. Qed.

Lemma isort_lval z S rs a : lval z (isort (fun x y : nat * Q => Nat.leb (fst x) (fst y)) (agg_matrix S rs a)) == lval z (agg_matrix S rs a).
Proof. apply qsum_Permutation, Permutation_map. symmetry. apply isort_perm. Qed.
Lemma rev_lval z l : lval z (rev l) == lval z l.
Proof. apply qsum_Permutation, Permutation_map. symmetry. apply Permutation_rev. Qed.

(** ** The GLPK problem *)
Definition gflow (d : data) (n : nat) (v : Q) := ok3 (flow_bounds (d_min d n) (d_max d n)) v.
Definition gstore (d : data) (n : nat) (v : Q) := ok3 (storage_bounds (d_vol d n) (d_minvol d n) (d_maxvol d n) (d_days d)) v.
Definition gvirtual (d : data) (n : nat) (v : Q) :=
  ok3 (virtual_bounds (d_active d n) (d_vol d n) (d_minvol d n) (d_maxvol d n) (d_days d)) v.

Lemma set_row_ok coef t lb ub r z : set_row coef t lb ub = Ok r -> (row_ok z r <-> bounds_ok t lb ub (lval z coef)).
Proof. intros H. apply set_row_inv in H as [-> _]. reflexivity. Qed.

Lemma non_storage_rows_ok S d rs cross n l z : is_flow_node (s_kind S n) = true ->
  (in_cross cross n = true -> s_kind S n = KOutput) ->
  non_storage_rows S d rs cross n = Ok l ->
  ((forall r, In r l -> row_ok z r) <->
   gflow d n (rsum rs z (fun r => bq (carries S n r))) /\
   (in_cross cross n = true -> lval z (xcoef S rs cross n) == rsum rs z (into n))).
Proof.
  intros Hk Hx H. unfold non_storage_rows in H. pose proof (node_cols_carries S rs z n Hk) as HS.
  destruct (node_cols S rs n) as [|c0 cs] eqn:Ec; [discriminate|]. rewrite <- Ec in *. clear c0 cs Ec.
  unfold gflow. destruct (flow_bounds (d_min d n) (d_max d n)) as [[t lb] ub] eqn:Eb. cbn [ok3].
  destruct (set_row (map (fun c => (c, 1)) (node_cols S rs n)) t lb ub) as [r1|] eqn:E1; [|discriminate].
  pose proof (set_row_ok _ _ _ _ _ z E1) as R1.
  assert (row_ok z r1 <-> bounds_ok t lb ub (rsum rs z (fun r => bq (carries S n r)))) as R1'.
  { rewrite R1. unfold lval. split; apply bounds_ok_ext; [exact HS|symmetry; exact HS]. }
  destruct (in_cross cross n) eqn:Ex.
  - destruct (set_row (map (fun c => (c, - (1))) (node_cols S rs n) ++ _) FX (Fin 0) (Fin 0)) as [r2|] eqn:E2; [|discriminate].
    pose proof (set_row_ok _ _ _ _ _ z E2) as R2. cbn [bounds_ok] in R2. rewrite lval_app in R2.
    assert (lval z (map (fun c => (c, - (1))) (node_cols S rs n)) == - rsum rs z (into n)) as HM.
    { unfold node_cols. rewrite (Hx eq_refl). unfold lval. rewrite cols_sum. unfold into. ring. }
    rewrite HM in R2. fold (xcoef S rs cross n) in R2.
    injection H as <-. split.
    + intros H. split; [apply R1', H; now left|]. intros _.
      assert (row_ok z r2) as K by (apply H; right; now left). apply R2 in K. lra.
    + intros [H1 H2] r [<-|[<-|[]]]; [now apply R1'|]. apply R2. specialize (H2 eq_refl). lra.
  - injection H as <-. split.
    + intros H. split; [apply R1', H; now left|discriminate].
    + intros [H1 _] r [<-|[]]. now apply R1'.
Qed.

Lemma storage_row_ok S d rs st r z : storage_row S d rs st = Ok r -> (row_ok z r <-> gstore d st (rsum rs z (net_in S st))).
Proof.
  unfold storage_row, gstore. intros H.
  destruct (storage_bounds (d_vol d st) (d_minvol d st) (d_maxvol d st) (d_days d)) as [[t lb] ub]. cbn [ok3].
  rewrite (set_row_ok _ _ _ _ _ z H). unfold lval.
  split; apply bounds_ok_ext; rewrite storage_row_value; reflexivity.
Qed.

Lemma virtual_row_ok S d rs v r z : virtual_row S d rs v = Ok r -> (row_ok z r <-> gvirtual d v (lval z (vcoef S rs v))).
Proof.
  unfold virtual_row, gvirtual. intros H.
  destruct (virtual_bounds (d_active d v) (d_vol d v) (d_minvol d v) (d_maxvol d v) (d_days d)) as [[t lb] ub]. cbn [ok3].
  rewrite (set_row_ok _ _ _ _ _ z H). reflexivity.
Qed.

Lemma agg_row_ok S d rs a r z : agg_row S d rs a = Ok r -> (row_ok z r <-> gflow d a (lval z (agg_matrix S rs a))).
Proof.
  unfold agg_row, gflow. intros H.
  destruct (flow_bounds (d_min d a) (d_max d a)) as [[t lb] ub]. cbn [ok3].
  rewrite (set_row_ok _ _ _ _ _ z H). split; apply bounds_ok_ext; rewrite isort_lval; reflexivity.
Qed.

Lemma factor_rows_ok S d rs a l z : factor_rows S d rs a = Ok l ->
  ((forall r, In r l -> row_ok z r) <->
   forall m0 ms nf, s_members S a = m0 :: ms -> In nf (combine ms (tl (factors_norm (d_factors d a)))) -> lval z (fcoef rs m0 nf) == 0).
Proof.
  unfold factor_rows. destruct (s_members S a) as [|m0 ms]; [discriminate|].
  destruct (factors_usable (m0 :: ms) (d_factors d a)); [|discriminate]. intros H. split.
  - intros HR m0' ms' nf E Hi. injection E as <- <-.
    destruct (mapM_In _ _ _ H nf Hi) as [r [H1 H2]]. apply HR in H2. now apply (set_row_ok _ _ _ _ _ z H1) in H2.
  - intros HV r Hr. destruct (mapM_In_inv _ _ _ H r Hr) as [nf [H1 H2]].
    apply (set_row_ok _ _ _ _ _ z H1). cbn [bounds_ok]. now apply (HV m0 ms nf).
Qed.

Lemma in_cross_output triv S o : wf_sys S -> In o (s_nodes S) -> in_cross (cross_domain_routes triv S) o = true -> s_kind S o = KOutput.
Proof.
  intros W Ho H. apply existsb_exists in H as [r [H1 H2]]. apply (proj2 (cross_spec triv S W)) in H1 as [o' [i [-> [_ [K _]]]]].
  cbn in H2. apply Nat.eqb_eq in H2. now subst o'.
Qed.

Lemma glpk_asks triv S d P z : wf_sys S -> posed triv S d = Ok P ->
  (feasible P z <-> asks triv S (d_factors d) (gflow d) (gstore d) (gvirtual d) (gflow d) z).
Proof.
  intros W HP. apply posed_inv in HP. split.
  - intros [HN HF]. constructor.
    + intros k Hk. apply HN. now rewrite (pf_cols _ _ _ _ HP).
    + intros n Hn Hk. destruct (pf_flow _ _ _ _ HP n Hn Hk) as [l [Hl Hi]].
      apply (non_storage_rows_ok _ _ _ _ _ _ z Hk (in_cross_output triv S n W Hn) Hl). intros r Hr. now apply HF, Hi.
    + intros o Ho Hk Hx. destruct (pf_flow _ _ _ _ HP o Ho ltac:(now rewrite Hk)) as [l [Hl Hi]].
      apply (non_storage_rows_ok _ _ _ _ _ _ z ltac:(now rewrite Hk) (in_cross_output triv S o W Ho) Hl); [|exact Hx].
      intros r Hr. now apply HF, Hi.
    + intros st Hn Hk. destruct (pf_storage _ _ _ _ HP st Hn Hk) as [r [Hr Hi]].
      apply (storage_row_ok _ _ _ _ _ z Hr). now apply HF.
    + intros v Hn Hk. destruct (pf_virtual _ _ _ _ HP v Hn Hk) as [r [Hr Hi]].
      apply (virtual_row_ok _ _ _ _ _ z Hr). now apply HF.
    + intros a m0 ms nf Hn Hk Hh E Hi. destruct (pf_factor _ _ _ _ HP a Hn Hk Hh) as [l [Hl Hil]].
      apply (proj1 (factor_rows_ok _ _ _ _ _ z Hl)) with (m0 := m0) (ms := ms) (nf := nf); auto.
    + intros a Hn Hk. destruct (pf_agg _ _ _ _ HP a Hn Hk) as [r [Hr Hi]].
      apply (agg_row_ok _ _ _ _ _ z Hr). now apply HF.
  - intros A. split.
    + intros k Hk. apply (as_nonneg _ _ _ _ _ _ _ _ A). now rewrite <- (pf_cols _ _ _ _ HP).
    + intros r Hr. destruct (pf_only _ _ _ _ HP r Hr) as [[n [l [Hn [Hk [Hl Hi]]]]]|[[n [Hn [Hk H]]]|[[n [Hn [Hk H]]]|[[n [l [Hn [Hk [Hh [Hl Hi]]]]]]|[n [Hn [Hk H]]]]]]].
      * apply (proj2 (non_storage_rows_ok _ _ _ _ _ _ z Hk (in_cross_output triv S n W Hn) Hl)); [|exact Hi].
        split; [apply (as_flow _ _ _ _ _ _ _ _ A n Hn Hk)|]. intros Hx.
        apply (as_cross _ _ _ _ _ _ _ _ A n Hn (in_cross_output triv S n W Hn Hx) Hx).
      * apply (storage_row_ok _ _ _ _ _ z H). apply (as_storage _ _ _ _ _ _ _ _ A n Hn Hk).
      * apply (virtual_row_ok _ _ _ _ _ z H). apply (as_virtual _ _ _ _ _ _ _ _ A n Hn Hk).
      * apply (proj2 (factor_rows_ok _ _ _ _ _ z Hl)); [|exact Hi].
        intros m0 ms nf E Hi'. apply (as_factor _ _ _ _ _ _ _ _ A n m0 ms nf Hn Hk Hh E Hi').
      * apply (agg_row_ok _ _ _ _ _ z H). apply (as_agg _ _ _ _ _ _ _ _ A n Hn Hk).
Qed.

(** ** The lp_solve problem *)
Definition lflow (d : data) (n : nat) (v : Q) : Prop := ext_le_q (d_min d n) v /\ q_le_ext v (d_max d n).
Definition lstore (d : data) (n : nat) (v : Q) : Prop :=
  ext_le_q (volume_lb (d_vol d n) (d_minvol d n) (d_days d)) v /\ q_le_ext v (volume_ub (d_vol d n) (d_maxvol d n) (d_days d)).
Definition lvirtual (d : data) (n : nat) (v : Q) : Prop := if d_active d n then lstore d n v else True.
Definition lagg (c : setup_data) (n : nat) (v : Q) : Prop :=
  exists mn mx, q_min c n = Some mn /\ q_max c n = Some mx /\ ext_le_q mn v /\ q_le_ext v mx.

(** The column of every demand holds what its routes bring. *)
Definition closed (triv : bool) (S : sys) (z : nat -> Q) : Prop :=
  forall j o, In (j, o) (enumerate (demands S)) ->
    z (demand_col (routes triv S) j) == rsum (routes triv S) z (into o).

Lemma mapM_all {A B} (f : A -> result B) l bs (Q : B -> Prop) : mapM f l = Ok bs ->
  ((forall b, In b bs -> Q b) <-> (forall a, In a l -> exists b, f a = Ok b /\ Q b)).
Proof.
  intros H. split.
  - intros HQ a Ha. destruct (mapM_In _ _ _ H a Ha) as [b [H1 H2]]. eauto.
  - intros HQ b Hb. destruct (mapM_In_inv _ _ _ H b Hb) as [a [H1 H2]]. destruct (HQ a H2) as [b' [H3 H4]].
    congruence.
Qed.
Lemma concatR_all {A B} (f : A -> result (list B)) l bs (Q : B -> Prop) : concatR (mapM f l) = Ok bs ->
  ((forall b, In b bs -> Q b) <-> (forall a, In a l -> exists b, f a = Ok b /\ forall r, In r b -> Q r)).
Proof.
  intros H. destruct (concatR_mapM _ _ _ H) as [H1 H2]. split.
  - intros HQ a Ha. destruct (H1 a Ha) as [b [E I]]. exists b. split; [exact E|]. intros r Hr. now apply HQ, I.
  - intros HQ b Hb. destruct (H2 b Hb) as [a [b' [I [E I']]]]. destruct (HQ a I) as [b'' [E' Q']].
    rewrite E in E'. injection E' as <-. now apply Q'.
Qed.

Lemma set_lrow_ok coef lb ub r z : set_lrow coef lb ub = Ok r ->
  (row_ok z r <-> ext_le_q lb (lval z coef) /\ q_le_ext (lval z coef) ub).
Proof. unfold set_lrow. destruct (nodupb (map fst coef)); [|discriminate]. intros H. injection H as <-. reflexivity. Qed.

Lemma within_ext lb ub v w : v == w -> ext_le_q lb v /\ q_le_ext v ub -> ext_le_q lb w /\ q_le_ext w ub.
Proof. intros E. unfold ext_le_q, q_le_ext. destruct lb, ub; try tauto; rewrite E; tauto. Qed.
Lemma within_zero v : ext_le_q (Fin 0) v /\ q_le_ext v (Fin 0) <-> v == 0.
Proof. cbn. split; [intros [A B]; lra|intros ->; split; lra]. Qed.

Lemma supply_row_ok S d rs n r z : In n (supplys S) -> supply_row S d rs n = Ok r ->
  (row_ok z r <-> lflow d n (rsum rs z (fun r => bq (carries S n r)))).
Proof.
  intros Hn H. apply filter_In in Hn as [_ Hk]. unfold supply_row in H.
  set (cs := if is_input (s_kind S n) then _ else _) in H.
  assert (lval z (map (fun c => (c, 1)) cs) == rsum rs z (fun r => bq (carries S n r))) as HS.
  { subst cs. unfold lval, carries. destruct (s_kind S n); try discriminate; cbn [is_input]; rewrite cols_sum; ring. }
  destruct cs as [|c0 cs']; [discriminate|]. rewrite (set_lrow_ok _ _ _ _ z H).
  unfold lflow. split; apply within_ext; [exact HS|symmetry; exact HS].
Qed.

Lemma demand_row_ok rs jo r z : demand_row rs jo = Ok r ->
  (row_ok z r <-> z (demand_col rs (fst jo)) == rsum rs z (into (snd jo))).
Proof.
  unfold demand_row. destruct (cols rs (fun r => Nat.eqb (rlast r) (snd jo))) as [|c0 cs] eqn:E; [discriminate|].
  intros H. rewrite (set_lrow_ok _ _ _ _ z H), within_zero, lval_app, <- E.
  assert (lval z (map (fun c => (c, 1)) (cols rs (fun r => Nat.eqb (rlast r) (snd jo)))) == rsum rs z (into (snd jo))) as ->.
  { unfold lval. rewrite cols_sum. unfold into. ring. }
  unfold lval. cbn [map qsum fst snd]. split; intros K; lra.
Qed.

Lemma demand_bounds_ok d rs jo r z : demand_bounds d rs jo = Ok r -> (row_ok z r <-> lflow d (snd jo) (z (demand_col rs (fst jo)))).
Proof.
  unfold demand_bounds. intros H. rewrite (set_lrow_ok _ _ _ _ z H). unfold lflow, lval. cbn [map qsum fst snd].
  split; apply within_ext; ring.
Qed.

Lemma cross_row_ok S rs cross jo l z : cross_row S rs cross jo = Ok l ->
  ((forall r, In r l -> row_ok z r) <->
   (in_cross cross (snd jo) = true -> lval z (xcoef S rs cross (snd jo)) == z (demand_col rs (fst jo)))).
Proof.
  unfold cross_row. destruct (in_cross cross (snd jo)) eqn:E.
  - destruct (set_lrow _ (Fin 0) (Fin 0)) as [r|] eqn:ER; [|discriminate]. intros H. injection H as <-.
    pose proof (set_lrow_ok _ _ _ _ z ER) as K. rewrite within_zero, lval_app in K. fold (xcoef S rs cross (snd jo)) in K.
    change (lval z [(demand_col rs (fst jo), - (1))]) with (- (1) * z (demand_col rs (fst jo)) + 0) in K. split.
    + intros H _. assert (row_ok z r) as R by (apply H; now left). apply K in R. lra.
    + intros H r' [<-|[]]. apply K. specialize (H eq_refl). lra.
  - intros H. injection H as <-. split; [discriminate|]. intros _ r [].
Qed.

Lemma demands_In S o : In o (demands S) <-> In o (s_nodes S) /\ s_kind S o = KOutput.
Proof. unfold demands. rewrite filter_In. destruct (s_kind S o); cbn; intuition discriminate. Qed.

Lemma enumerate_In_ex {A} (l : list A) a : In a l -> exists k, In (k, a) (enumerate l).
Proof. intros H. destruct (In_nth_error l a H) as [k Hk]. exists k. now apply enumerate_In. Qed.

Lemma demands_NoDup S : wf_sys S -> NoDup (demands S).
Proof. intros W. apply NoDup_filter, (wf_nodes _ W). Qed.

Lemma qsum_enumerate {A} (l : list A) (f : A -> Q) : qsum (map (fun c => f (snd c)) (enumerate l)) == qsum (map f l).
Proof.
  unfold enumerate. generalize 0%nat. induction l as [|a l IH]; intros k; [reflexivity|].
  cbn [length seq combine map qsum snd]. now rewrite IH.
Qed.

Lemma storage_lrow_value triv S z st : wf_sys S -> closed triv S z ->
  lval z (map (fun c => (demand_col (routes triv S) c, 1))
            (map fst (filter (fun c => memb (snd c) (s_outputs S st)) (enumerate (demands S)))) ++
          map (fun c => (c, - (1))) (cols (routes triv S) (fun r => memb (rfirst r) (s_inputs S st))))
  == rsum (routes triv S) z (net_in S st).
Proof.
  intros W HC. rewrite lval_app. unfold lval at 2. rewrite cols_sum.
  unfold lval. rewrite !map_map. cbn [fst snd]. rewrite qsum_filter.
  rewrite (qsum_map_ext _ (fun c => bq (memb (snd c) (s_outputs S st)) * rsum (routes triv S) z (into (snd c)))).
  2:{ intros [j o] Hjo. cbn [fst snd]. rewrite (HC j o Hjo). ring. }
  rewrite (qsum_enumerate (demands S) (fun o => bq (memb o (s_outputs S st)) * rsum (routes triv S) z (into o))).
  rewrite (qsum_map_ext _ (fun o => rsum (routes triv S) z (fun r => bq (memb o (s_outputs S st)) * into o r))).
  2:{ intros o _. rewrite rsum_scale. reflexivity. }
  rewrite <- (rsum_sum (routes triv S) z (fun o r => bq (memb o (s_outputs S st)) * into o r)).
  setoid_replace (- (1) * rsum (routes triv S) z (fun r => bq (memb (rfirst r) (s_inputs S st)))) with
    (- rsum (routes triv S) z (fun r => bq (memb (rfirst r) (s_inputs S st)))) by ring.
  unfold net_in. rewrite rsum_minus. apply Qplus_comp; [|reflexivity].
  apply rsum_ext. intros r Hr. pose proof (routes_facts _ _ _ W Hr) as F.
  rewrite (qsum_map_ext _ (fun o => bq (Nat.eqb (rlast r) o) * bq (memb o (s_outputs S st)))) by (intros o _; unfold into; ring).
  rewrite (qsum_indicator (fun o => bq (memb o (s_outputs S st)))); [reflexivity|now apply demands_NoDup|].
  apply demands_In. split; [apply (rf_nodes _ _ F), last_in, (rf_ne _ _ F)|apply (rf_last _ _ F)].
Qed.

Lemma storage_lrow_ok triv S d st r z : wf_sys S -> closed triv S z -> storage_lrow S d (routes triv S) st = Ok r ->
  (row_ok z r <-> lstore d st (rsum (routes triv S) z (net_in S st))).
Proof.
  intros W HC H. unfold storage_lrow in H. rewrite (set_lrow_ok _ _ _ _ z H). unfold lstore.
  split; apply within_ext; rewrite (storage_lrow_value triv S z st W HC); reflexivity.
Qed.

Lemma virtual_lrow_ok S d rs v r z : virtual_lrow S d rs v = Ok r -> (row_ok z r <-> lvirtual d v (lval z (vcoef S rs v))).
Proof.
  unfold virtual_lrow, lvirtual. fold (vcoef S rs v). destruct (d_active d v); intros H; rewrite (set_lrow_ok _ _ _ _ z H).
  - reflexivity.
  - cbn. tauto.
Qed.

Lemma factor_lrows_ok S c rs a l z : factor_lrows S c rs a = Ok l ->
  ((forall r, In r l -> row_ok z r) <->
   forall m0 ms nf, s_members S a = m0 :: ms -> In nf (combine ms (tl (factors_norm (q_factors c a)))) -> lval z (fcoef rs m0 nf) == 0).
Proof.
  unfold factor_lrows. destruct (s_members S a) as [|m0 ms]; [discriminate|].
  destruct (Nat.eqb _ _ && _); [|discriminate]. intros H. split.
  - intros HR m0' ms' nf E Hi. injection E as <- <-.
    destruct (mapM_In _ _ _ H nf Hi) as [r [H1 H2]]. apply HR in H2. apply (set_lrow_ok _ _ _ _ z H1) in H2. now apply within_zero in H2.
  - intros HV r Hr. destruct (mapM_In_inv _ _ _ H r Hr) as [nf [H1 H2]].
    apply (set_lrow_ok _ _ _ _ z H1). apply within_zero. now apply (HV m0 ms nf).
Qed.

Lemma agg_lrows_ok S c rs a l z : agg_lrows S c rs a = Ok l ->
  ((forall r, In r l -> row_ok z r) <-> lagg c a (lval z (agg_matrix S rs a))).
Proof.
  unfold agg_lrows, lagg. destruct (limited c a) as [[|]|] eqn:E; [| |discriminate].
  - destruct (q_min c a) as [mn|]; [|discriminate]. destruct (q_max c a) as [mx|]; [|discriminate].
    destruct (set_lrow (rev (agg_matrix S rs a)) mn mx) as [r|] eqn:ER; [|discriminate]. intros H. injection H as <-.
    pose proof (set_lrow_ok _ _ _ _ z ER) as K. split.
    + intros H. exists mn, mx. split; [reflexivity|]. split; [reflexivity|].
      assert (row_ok z r) as R by (apply H; now left). apply K in R. revert R. apply within_ext, rev_lval.
    + intros [mn' [mx' [E1 [E2 H]]]] r' [<-|[]]. injection E1 as <-. injection E2 as <-. apply K.
      revert H. apply within_ext. symmetry. apply rev_lval.
  - intros H. injection H as <-. unfold limited in E. split.
    + intros _. destruct (q_min c a) as [[|?|]|]; try discriminate; destruct (q_max c a) as [[|?|]|]; try discriminate.
      exists NInf, PInf. cbn. tauto.
    + intros _ r [].
Qed.

Lemma lps_asks triv S c d L z : wf_sys S -> lposed triv S c d = Ok L ->
  (feasible L z <-> (forall j, (j < length (demands S))%nat -> 0 <= z (demand_col (routes triv S) j)) /\
     closed triv S z /\ asks triv S (q_factors c) (lflow d) (lstore d) (lvirtual d) (lagg c) z).
Proof.
  intros W HL. unfold lposed in HL.
  destruct (match s_nodes S with [] => true | _ => false end); [discriminate|].
  destruct (existsb _ (nodes_of S is_aggregated)); [discriminate|].
  destruct (mapM (limited c) (nodes_of S is_aggregated)) as [lim|]; [|discriminate]. cbn [bindR] in HL.
  destruct (match routes triv S with [] => true | _ => false end); [discriminate|].
  destruct (match supplys S ++ demands S with [] => true | _ => false end); [discriminate|].
  destruct (mapM (supply_row S d (routes triv S)) (supplys S)) as [r1|] eqn:E1; [|discriminate]. cbn [bindR] in HL.
  destruct (mapM (demand_row (routes triv S)) (enumerate (demands S))) as [r2|] eqn:E2; [|discriminate]. cbn [bindR] in HL.
  destruct (mapM (demand_bounds d (routes triv S)) (enumerate (demands S))) as [r3|] eqn:E3; [|discriminate]. cbn [bindR] in HL.
  destruct (concatR (mapM (cross_row S (routes triv S) (cross_domain_routes triv S)) (enumerate (demands S)))) as [r4|] eqn:E4; [|discriminate]. cbn [bindR] in HL.
  destruct (mapM (storage_lrow S d (routes triv S)) (nodes_of S is_storage)) as [r5|] eqn:E5; [|discriminate]. cbn [bindR] in HL.
  destruct (mapM (virtual_lrow S d (routes triv S)) (nodes_of S is_virtual)) as [r6|] eqn:E6; [|discriminate]. cbn [bindR] in HL.
  destruct (concatR (mapM (factor_lrows S c (routes triv S)) (filter (s_has_factors S) (nodes_of S is_aggregated)))) as [r7|] eqn:E7; [|discriminate]. cbn [bindR] in HL.
  destruct (concatR (mapM (agg_lrows S c (routes triv S)) (nodes_of S is_aggregated))) as [r8|] eqn:E8; [|discriminate]. cbn [bindR] in HL.
  injection HL as <-. unfold feasible. cbn [lp_ncols lp_rows].
  pose proof (mapM_all _ _ _ (row_ok z) E1) as M1. pose proof (mapM_all _ _ _ (row_ok z) E2) as M2.
  pose proof (mapM_all _ _ _ (row_ok z) E3) as M3. pose proof (concatR_all _ _ _ (row_ok z) E4) as M4.
  pose proof (mapM_all _ _ _ (row_ok z) E5) as M5. pose proof (mapM_all _ _ _ (row_ok z) E6) as M6.
  pose proof (concatR_all _ _ _ (row_ok z) E7) as M7. pose proof (concatR_all _ _ _ (row_ok z) E8) as M8.
  assert (forall n (p : kind -> bool), In n (nodes_of S p) <-> In n (s_nodes S) /\ p (s_kind S n) = true) as NO
    by (intros; unfold nodes_of; apply filter_In).
  assert (forall n, In n (nodes_of S is_storage) <-> In n (s_nodes S) /\ s_kind S n = KStorage) as NS
    by (intros n; rewrite NO; destruct (s_kind S n); cbn; intuition discriminate).
  assert (forall n, In n (nodes_of S is_virtual) <-> In n (s_nodes S) /\ s_kind S n = KVirtual) as NV
    by (intros n; rewrite NO; destruct (s_kind S n); cbn; intuition discriminate).
  assert (forall n, In n (nodes_of S is_aggregated) <-> In n (s_nodes S) /\ s_kind S n = KAggregated) as NA
    by (intros n; rewrite NO; destruct (s_kind S n); cbn; intuition discriminate).
  split.
  - intros [HN HF].
    assert (forall r, In r r1 -> row_ok z r) as F1 by (intros r Hr; apply HF; rewrite !in_app_iff; tauto).
    assert (forall r, In r r2 -> row_ok z r) as F2 by (intros r Hr; apply HF; rewrite !in_app_iff; tauto).
    assert (forall r, In r r3 -> row_ok z r) as F3 by (intros r Hr; apply HF; rewrite !in_app_iff; tauto).
    assert (forall r, In r r4 -> row_ok z r) as F4 by (intros r Hr; apply HF; rewrite !in_app_iff; tauto).
    assert (forall r, In r r5 -> row_ok z r) as F5 by (intros r Hr; apply HF; rewrite !in_app_iff; tauto).
    assert (forall r, In r r6 -> row_ok z r) as F6 by (intros r Hr; apply HF; rewrite !in_app_iff; tauto).
    assert (forall r, In r r7 -> row_ok z r) as F7 by (intros r Hr; apply HF; rewrite !in_app_iff; tauto).
    assert (forall r, In r r8 -> row_ok z r) as F8 by (intros r Hr; apply HF; rewrite !in_app_iff; tauto).
    clear HF. pose proof (proj1 M1 F1) as G1; clear F1; rename G1 into F1. pose proof (proj1 M2 F2) as G2; clear F2; rename G2 into F2. pose proof (proj1 M3 F3) as G3; clear F3; rename G3 into F3. pose proof (proj1 M4 F4) as G4; clear F4; rename G4 into F4. pose proof (proj1 M5 F5) as G5; clear F5; rename G5 into F5. pose proof (proj1 M6 F6) as G6; clear F6; rename G6 into F6. pose proof (proj1 M7 F7) as G7; clear F7; rename G7 into F7. pose proof (proj1 M8 F8) as G8; clear F8; rename G8 into F8.
    assert (closed triv S z) as HC.
    { intros j o Hjo. destruct (F2 _ Hjo) as [r [Hr K]]. now apply (demand_row_ok _ _ _ z Hr) in K. }
    split; [|split; [exact HC|]].
    { intros j Hj. apply HN. unfold demand_col. lia. }
    constructor.
    + intros k Hk. apply HN. lia.
    + intros n Hn Hk. destruct (s_kind S n) eqn:K; try discriminate.
      * destruct (F1 n) as [r [Hr R]]; [apply filter_In; rewrite K; auto|].
        apply (supply_row_ok S d (routes triv S) n r z); [|exact Hr|exact R]. apply filter_In. rewrite K. auto.
      * destruct (enumerate_In_ex (demands S) n) as [j Hj]; [apply demands_In; auto|].
        destruct (F3 _ Hj) as [r [Hr R]]. apply (demand_bounds_ok _ _ _ _ z Hr) in R. cbn [fst snd] in R.
        unfold lflow in *. revert R. apply within_ext. rewrite (HC j n Hj). apply rsum_ext. intros r' _. unfold into, carries.
        rewrite K. reflexivity.
      * destruct (F1 n) as [r [Hr R]]; [apply filter_In; rewrite K; auto|].
        apply (supply_row_ok S d (routes triv S) n r z); [|exact Hr|exact R]. apply filter_In. rewrite K. auto.
    + intros o Ho Hk Hx. destruct (enumerate_In_ex (demands S) o) as [j Hj]; [apply demands_In; auto|].
      destruct (F4 _ Hj) as [l [Hl R]]. rewrite (proj1 (cross_row_ok _ _ _ _ _ z Hl) R) by exact Hx. cbn [fst snd]. now apply HC.
    + intros st Hn Hk. destruct (F5 st) as [r [Hr R]]; [apply NS; auto|]. now apply (storage_lrow_ok _ _ _ _ _ z W HC Hr) in R.
    + intros st Hn Hk. destruct (F6 st) as [r [Hr R]]; [apply NV; auto|]. now apply (virtual_lrow_ok _ _ _ _ _ z Hr) in R.
    + intros a m0 ms nf Hn Hk Hh E Hi. destruct (F7 a) as [l [Hl R]]; [apply filter_In; split; [apply NA; auto|exact Hh]|].
      apply (proj1 (factor_lrows_ok _ _ _ _ _ z Hl) R m0 ms nf E Hi).
    + intros a Hn Hk. destruct (F8 a) as [l [Hl R]]; [apply NA; auto|]. now apply (agg_lrows_ok _ _ _ _ _ z Hl) in R.
  - intros [HD [HC A]]. split.
    { intros k Hk. destruct (Nat.ltb_spec k (length (routes triv S))) as [H|H]; [now apply (as_nonneg _ _ _ _ _ _ _ _ A)|].
      specialize (HD (k - length (routes triv S))%nat ltac:(lia)). unfold demand_col in HD.
      now replace (length (routes triv S) + (k - length (routes triv S)))%nat with k in HD by lia. }
    assert (forall r, In r r1 -> row_ok z r) as F1.
    { apply M1. intros n Hn. destruct (mapM_In _ _ _ E1 n Hn) as [r [Hr _]]. exists r. split; [exact Hr|].
      apply (supply_row_ok _ _ _ _ _ z Hn Hr). apply filter_In in Hn as [Hn Hk]. apply (as_flow _ _ _ _ _ _ _ _ A n Hn).
      destruct (s_kind S n); try discriminate; reflexivity. }
    assert (forall r, In r r2 -> row_ok z r) as F2.
    { apply M2. intros [j o] Hn. destruct (mapM_In _ _ _ E2 _ Hn) as [r [Hr _]]. exists r. split; [exact Hr|].
      apply (demand_row_ok _ _ _ z Hr). cbn [fst snd]. now apply HC. }
    assert (forall r, In r r3 -> row_ok z r) as F3.
    { apply M3. intros [j o] Hn. destruct (mapM_In _ _ _ E3 _ Hn) as [r [Hr _]]. exists r. split; [exact Hr|].
      apply (demand_bounds_ok _ _ _ _ z Hr). cbn [fst snd].
      pose proof (enumerate_snd _ _ _ Hn) as Ho. apply demands_In in Ho as [Ho K].
      pose proof (as_flow _ _ _ _ _ _ _ _ A o Ho ltac:(now rewrite K)) as R. unfold lflow in *. revert R. apply within_ext.
      rewrite (HC j o Hn). apply rsum_ext. intros r' _. unfold into, carries. rewrite K. reflexivity. }
    assert (forall r, In r r4 -> row_ok z r) as F4.
    { apply M4. intros [j o] Hn. destruct (concatR_mapM _ _ _ E4) as [X _]. destruct (X _ Hn) as [l [Hl _]]. exists l. split; [exact Hl|].
      apply (cross_row_ok _ _ _ _ _ z Hl). cbn [fst snd]. intros Hx. rewrite (HC j o Hn).
      pose proof (enumerate_snd _ _ _ Hn) as Ho. apply demands_In in Ho as [Ho K]. now apply (as_cross _ _ _ _ _ _ _ _ A o Ho K). }
    assert (forall r, In r r5 -> row_ok z r) as F5.
    { apply M5. intros n Hn. destruct (mapM_In _ _ _ E5 n Hn) as [r [Hr _]]. exists r. split; [exact Hr|].
      apply (storage_lrow_ok _ _ _ _ _ z W HC Hr). apply NS in Hn as [Hn Hk]. now apply (as_storage _ _ _ _ _ _ _ _ A n). }
    assert (forall r, In r r6 -> row_ok z r) as F6.
    { apply M6. intros n Hn. destruct (mapM_In _ _ _ E6 n Hn) as [r [Hr _]]. exists r. split; [exact Hr|].
      apply (virtual_lrow_ok _ _ _ _ _ z Hr). apply NV in Hn as [Hn Hk]. now apply (as_virtual _ _ _ _ _ _ _ _ A n). }
    assert (forall r, In r r7 -> row_ok z r) as F7.
    { apply M7. intros n Hn. destruct (concatR_mapM _ _ _ E7) as [X _]. destruct (X _ Hn) as [l [Hl _]]. exists l. split; [exact Hl|].
      apply (factor_lrows_ok _ _ _ _ _ z Hl). apply filter_In in Hn as [Hn Hh]. apply NA in Hn as [Hn Hk].
      intros m0 ms nf E Hi. now apply (as_factor _ _ _ _ _ _ _ _ A n m0 ms nf). }
    assert (forall r, In r r8 -> row_ok z r) as F8.
    { apply M8. intros n Hn. destruct (concatR_mapM _ _ _ E8) as [X _]. destruct (X _ Hn) as [l [Hl _]]. exists l. split; [exact Hl|].
      apply (agg_lrows_ok _ _ _ _ _ z Hl). apply NA in Hn as [Hn Hk]. now apply (as_agg _ _ _ _ _ _ _ _ A n). }
    intros r Hr. rewrite !in_app_iff in Hr. destruct Hr as [Hr|[Hr|[Hr|[Hr|[Hr|[Hr|[Hr|Hr]]]]]]]; auto.
Qed.
