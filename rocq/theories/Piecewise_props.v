(** C28: a PiecewiseLink uses its steps in the order of their costs. *)
From Verif Require Import Base Paths Sorting Routes_model LP_model Sys_model RouteLP_model RouteLP_spec RouteLP_proofs RouteLP_flow RouteLP_props LP_check LP_optimal
  EdgeLP_model EdgeLP_spec EdgeLP_proofs EdgeLP_limits EdgeLP_check EdgeLP_props Connect_model Connect_spec Connect_proofs Piecewise_model Piecewise_spec Piecewise_proofs.
Local Open Scope nat_scope.
Local Open Scope list_scope.
Local Open Scope Q_scope.

(** However the nodes of a model are connected and disconnected, the inside of a PiecewiseLink stays as it was built. *)
Theorem C28_inside : forall w p ops, distinct p -> (forall a b, In (a, b) (edges w) -> ~ inside p a /\ ~ inside p b) ->
  leaves_alone (new_piecewise w p) (p_self p) (inside p) ops -> piece_edges (edges (perform (new_piecewise w p) ops)) p.
Proof. exact piece_edges_kept. Qed.
Print Assumptions C28_inside.

(** At its maximum: exactly, unless the maximum is less than 1e-8, which the solver takes for zero. *)
Definition full (mx : ext) (v : Q) : Prop := exists m, mx = Fin m /\ (v == m \/ v == 0 /\ qabs m < eps8).

(** In every optimal answer, of two steps the dearer one carries water only when the cheaper one is full.  (Costs within 1e-8 of zero are
    zero for the solver.) *)
Theorem C28_order : forall triv S d p x s t, wf_sys S -> piecewise_in S d p -> solved_optimally triv S d x ->
  In s (p_links p) -> In t (p_links p) -> d_cost d s < d_cost d t -> eps8 <= qabs (d_cost d s) \/ eps8 <= qabs (d_cost d t) ->
  0 < committed triv S x t -> full (d_max d s) (committed triv S x s).
Proof.
  intros triv S d p x s t W PI O Hs Ht Hc Hr Hp.
  destruct (step_column triv S d p W PI s Hs) as [c1 [L1 N1]]. destruct (step_column triv S d p W PI t Ht) as [c2 [L2 N2]].
  destruct (cheaper_first triv S d p W PI s t c1 c2 Hs Ht L1 L2 N1 N2 x O Hc Hr Hp) as [m [Em Ev]]. exists m. split; [exact Em|].
  unfold round8 in Ev. destruct (qltbP (qabs m) eps8); [right|left]; auto.
Qed.
Print Assumptions C28_order.

(** Steps listed with increasing costs are filled one after the other. *)
Theorem C28_steps : forall triv S d p x i j s t, wf_sys S -> piecewise_in S d p -> solved_optimally triv S d x ->
  (forall i j s t, (i < j)%nat -> nth_error (p_links p) i = Some s -> nth_error (p_links p) j = Some t -> d_cost d s + eps8 * 2 <= d_cost d t) ->
  (i < j)%nat -> nth_error (p_links p) i = Some s -> nth_error (p_links p) j = Some t ->
  0 < committed triv S x t -> full (d_max d s) (committed triv S x s).
Proof.
  intros triv S d p x i j s t W PI O Inc Hij Hs Ht Hp. specialize (Inc i j s t Hij Hs Ht). apply nth_error_In in Hs, Ht.
  apply (C28_order triv S d p x s t W PI O Hs Ht); auto; [unfold eps8 in *; lra|].
  assert (forall q, qabs q == q /\ 0 <= q \/ qabs q == - q /\ q <= 0) as A by (intros q; unfold qabs; qifs; lra).
  destruct (Qlt_le_dec (qabs (d_cost d s)) eps8) as [L|L]; [right|now left]. pose proof (A (d_cost d s)). pose proof (A (d_cost d t)). unfold eps8 in *. lra.
Qed.
Print Assumptions C28_steps.

(** What comes in at the front leaves at the back, and is the sum over the steps. *)
Theorem C28_through : forall triv S d p x, wf_sys S -> piecewise_in S d p -> p_links p <> [] -> s_conv S (p_input p) = 1 -> solved triv S d x ->
  committed triv S x (p_output p) == qsum (map (committed triv S x) (p_links p)) /\
  committed triv S x (p_input p) == qsum (map (committed triv S x) (p_links p)).
Proof.
  intros triv S d p x W PI Ne Cv H. split; [eapply fed_steps; eauto|]. rewrite <- (steps_through triv S d p W PI x).
  symmetry. eapply left_steps; eauto.
Qed.
Print Assumptions C28_through.

(** With the edge solver, where it can be compared with the other. *)
Theorem C28_edge_order_partial : forall triv S d p P E y s t, comparable triv S -> ~ cyclic (inner_edge S) -> piecewise_in S d p ->
  posed triv S d = Ok P -> eposed triv S d = Ok E ->
  (forall r, In r (routes triv S) -> path_cost S d r == 0 \/ eps8 <= qabs (path_cost S d r)) ->
  feasible E y -> inner_only S y -> (forall z, feasible E z -> inner_only S z -> objective E y <= objective E z) ->
  In s (p_links p) -> In t (p_links p) -> d_cost d s < d_cost d t -> eps8 <= qabs (d_cost d s) \/ eps8 <= qabs (d_cost d t) ->
  0 < ecommitted S y t -> full (d_max d s) (ecommitted S y s).
Proof.
  intros triv S d p P E y s t C Ac PI HP HE Hc F I M Hs Ht Hl Hr Hp.
  destruct (optimal_to_route triv S d P E C Ac HP HE Hc y F I M) as [x [Ox [_ [Hn _]]]].
  destruct (C28_order triv S d p x s t (reg_wf _ (cmp_regular _ _ C)) PI) as [m [E1 E2]]; auto.
  - exists P. now split.
  - now rewrite Hn.
  - exists m. split; [exact E1|]. now rewrite <- (Hn s).
Qed.
Print Assumptions C28_edge_order_partial.

(** A network: an input (1), the PiecewiseLink (2, with nodes 3 to 7) and a demand (8). *)
Definition ex_piece : piecewise := Piecewise 2 3 4 5 [6; 7]%nat.
Definition ex_world : world := World (fun _ => 0%nat) (fun _ => Plain) [] (fun _ => false).
Definition ex_ops : list op := [Connect 1 2 None None; Connect 2 8 None None; Connect 1 8 None None; Disconnect 1 (Some 8) None false]%nat.
Definition piece_sys : sys := {|
  s_nodes := [1; 2; 3; 4; 5; 6; 7; 8]%nat;
  s_edges := edges (perform (new_piecewise ex_world ex_piece) ex_ops);
  s_name := fun n => n; s_fqn := fun n => n; s_domain := fun n => match n with 5 | 6 | 7 => 1 | _ => 0 end%nat;
  s_kind := fun n => match n with 1 | 4 | 6 | 7 => KInput | 3 | 5 | 8 => KOutput | _ => KOther end%nat;
  s_slot := fun _ => NoSlot; s_inputs := fun _ => []; s_outputs := fun _ => []; s_members := fun _ => []; s_vfactors := fun _ => [];
  s_has_factors := fun _ => false; s_weights := fun _ => None; s_conv := fun _ => 1 |}.
Definition piece_data (cost1 cost2 : Q) : data := {|
  d_cost := fun n => match n with 6%nat => cost1 | 7%nat => cost2 | _ => 0 end;
  d_min := fun n => match n with 8%nat => Fin 5 | _ => Fin 0 end;
  d_max := fun n => match n with 6%nat => Fin 3 | 8%nat => Fin 12 | _ => PInf end;
  d_factors := fun _ => []; d_minvol := fun _ => 0; d_maxvol := fun _ => Fin 0; d_vol := fun _ => 0; d_active := fun _ => true; d_days := 1 |}.

Lemma ex_leaves : leaves_alone (new_piecewise ex_world ex_piece) (p_self ex_piece) (inside ex_piece) ex_ops.
Proof.
  split.
  - intros o n Ho Hn H. unfold inside in H. cbn in H. cbn in Ho. repeat (destruct Ho as [<-|Ho]; [cbn in Hn; intuition (subst; discriminate)|]); contradiction.
  - intros n s a Hs Hi H. cbn in H. unfold inside in *. cbn in *.
    destruct (Nat.eqb_spec n 2); [contradiction|].
    assert (a = n) as -> by (destruct (Nat.eqb n 3 || _); cbn in H; tauto). tauto.
Qed.
Lemma ex_distinct : distinct ex_piece.
Proof. unfold distinct. cbn. repeat constructor; cbn; intuition discriminate. Qed.
Example ex_inside : piece_edges (edges (perform (new_piecewise ex_world ex_piece) ex_ops)) ex_piece.
Proof. apply C28_inside; [exact ex_distinct|intros a b []|exact ex_leaves]. Qed.
Lemma ex_wf : wf_sys piece_sys.
Proof.
  apply plain_wf; try reflexivity. assert (s_edges piece_sys = [(5, 4); (6, 5); (3, 6); (7, 5); (3, 7); (1, 3); (4, 8)]%nat) as -> by (vm_compute; reflexivity).
  repeat constructor; cbn; intuition discriminate.
Qed.
Lemma ex_piece_in c1 c2 : piecewise_in piece_sys (piece_data c1 c2) ex_piece.
Proof.
  constructor.
  - unfold inside. cbn. intuition.
  - cbn. repeat constructor; cbn; intuition discriminate.
  - cbn. intuition (subst; reflexivity).
  - reflexivity.
  - cbn. intuition (try discriminate; subst; reflexivity).
  - exact ex_inside.
  - cbn. intuition.
  - cbn. intuition (subst; reflexivity).
  - reflexivity.
  - reflexivity.
Qed.
Example ex_routes : routes false piece_sys = [[1; 3]; [4; 8]; [6; 5]; [7; 5]]%nat.
Proof. vm_compute. reflexivity. Qed.

(** 5 are wanted: 3 at a cost of 1 and the rest at a cost of 2. *)
Definition ex_answer (c : nat) : Q := nth c [5; 5; 3; 2] 0.
Example C28_example : solved_optimally false piece_sys (piece_data 1 2) ex_answer /\
  committed false piece_sys ex_answer 6%nat == 3 /\ committed false piece_sys ex_answer 7%nat == 2 /\ committed false piece_sys ex_answer 3%nat == 5.
Proof. split; [apply (solved_optimally_check_sound _ _ _ _ [0; 0; 0; 0; 0; -(2); -(1); 0; 2])|]; vm_compute; auto. Qed.
Example C28_example_order : full (Fin 3) (committed false piece_sys ex_answer 6%nat).
Proof.
  refine (C28_order false piece_sys (piece_data 1 2) ex_piece ex_answer 6%nat 7%nat ex_wf (ex_piece_in _ _) _ _ _ _ _ _); try (cbn; tauto); try reflexivity.
  - apply C28_example.
  - left. intros Z. vm_compute in Z. now elim Z.
Qed.

(** Costs are rounded, so that two steps dearer by less than 1e-8 are used in any order. *)
Theorem C28_tiny_costs_refuted : exists S d p x s t, wf_sys S /\ piecewise_in S d p /\ solved_optimally false S d x /\
  In s (p_links p) /\ In t (p_links p) /\ d_cost d s < d_cost d t /\ 0 < committed false S x t /\ committed false S x s == 0 /\ d_max d s = Fin 3.
Proof.
  exists piece_sys, (piece_data 0 (1 # 1000000000)), ex_piece, (fun c => nth c [5; 5; 0; 5] 0), 6%nat, 7%nat.
  split; [exact ex_wf|]. split; [apply ex_piece_in|]. split; [apply (solved_optimally_check_sound _ _ _ _ [0; 0; 0; 0; 0; 0; 0; 0; 0]); vm_compute; reflexivity|].
  cbn [p_links ex_piece In]. repeat split; try tauto; try (vm_compute; reflexivity).
Qed.
Print Assumptions C28_tiny_costs_refuted.
