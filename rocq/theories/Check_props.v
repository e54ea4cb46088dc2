(** C122: what Model.check refuses, and iteration over Model.nodes. *)
From Verif Require Import Base Routes_model Routes_spec Routes_proofs Check_model Check_spec.
From Verif Require Graph_model Graph_spec Graph_proofs Routes_props.
Local Open Scope nat_scope.
Local Open Scope list_scope.

Lemma next_at (L l : list nat) (p : nat) : next L (Iter p l) = match nth_error (if p =? 0 then L else l) p with Some n => (Some n, Iter (S p) (if p =? 0 then L else l)) | None => (None, Iter p (if p =? 0 then L else l)) end.
Proof. unfold next. cbn [position listed]. destruct p; reflexivity. Qed.

Lemma series_later (L : list nat) (graphs : list (list nat)) (p : nat) : 0 < p -> series graphs (Iter p L) = map (fun i => nth_error L (Nat.min (p + i) (length L))) (seq 0 (length graphs)) \/ length L < p.
Proof.
  revert p. induction graphs as [|g gs IH]; intros p P; [now left|]. destruct (Nat.ltb_spec (length L) p) as [H|H]; [now right|]. left.
  cbn [series length]. rewrite next_at. destruct p as [|p]; [lia|]. cbn [Nat.eqb]. cbn [seq map]. rewrite Nat.add_0_r, (Nat.min_l (S p)) by lia.
  destruct (nth_error L (S p)) eqn:E.
  - f_equal. assert (S p < length L) by (apply nth_error_Some; congruence). destruct (IH (S (S p)) ltac:(lia)) as [R|R]; [|lia]. rewrite R, <- seq_shift, map_map.
    apply map_ext. intros i. do 2 f_equal. lia.
  - apply nth_error_None in E. f_equal. destruct (IH (S p) ltac:(lia)) as [R|R]; [|lia]. rewrite R, <- seq_shift, map_map.
    apply map_ext. intros i. rewrite !Nat.min_r by lia. reflexivity.
Qed.

(** C122, iteration: an iterator over the nodes gives those that were in the model when it was first asked, each once and in order, then none
    for ever, whatever is added to the model or removed from it meanwhile. *)
Theorem C122_iteration (L : list nat) (graphs : list (list nat)) : L <> [] ->
  series (L :: graphs) new_iter = map (fun i => nth_error L i) (seq 0 (S (length graphs))).
Proof.
  intros H. cbn [series]. unfold new_iter. rewrite next_at. cbn [Nat.eqb]. destruct L as [|n l]; [now destruct H|]. cbn [nth_error seq map]. f_equal.
  destruct (series_later (n :: l) graphs 1 ltac:(lia)) as [R|R]; [|cbn in R; lia]. rewrite R, <- seq_shift, map_map. apply map_ext. intros i.
  destruct (Nat.le_gt_cases (S i) (length (n :: l))) as [C|C]; [rewrite Nat.min_l by exact C; reflexivity|].
  rewrite Nat.min_r by (cbn [length] in *; lia). transitivity (@None nat); [apply nth_error_None; lia|symmetry; apply nth_error_None; lia].
Qed.
Print Assumptions C122_iteration.

(** An iterator that found no nodes looks again when asked again. *)
Example iteration_example :
  series [[]; []; [4; 5]; [6]; [6]] new_iter = [None; None; Some 4; Some 5; None] /\ series [[1; 2; 3]; [2; 3]; [2]; []; [7]] new_iter = [Some 1; Some 2; Some 3; None; None].
Proof. split; reflexivity. Qed.

Lemma for_each_find (L : list nat) (raises : nat -> bool) (fuel p : nat) (l : list nat) : 0 < p -> p <= length l -> length l - p < fuel ->
  for_each fuel L raises (Iter p l) = find raises (skipn p l).
Proof.
  revert p. induction fuel as [|fuel IH]; intros p P Q F; [lia|]. cbn [for_each]. rewrite next_at. destruct p as [|p]; [lia|]. cbn [Nat.eqb].
  destruct (nth_error l (S p)) as [n|] eqn:E.
  - assert (S p < length l) by (apply nth_error_Some; congruence).
    assert (X : skipn (S p) l = n :: skipn (S (S p)) l)
      by (clear -E; revert p E; induction l as [|x l IH]; intros p E; [destruct p; discriminate|]; destruct p as [|p]; cbn [nth_error] in E; [destruct l; cbn in *; congruence|]; exact (IH p E)).
    rewrite X. cbn [find]. destruct (raises n); [reflexivity|]. apply IH; lia.
  - apply nth_error_None in E. rewrite skipn_all2 by exact E. reflexivity.
Qed.
Lemma for_each_new (L : list nat) (raises : nat -> bool) (fuel : nat) : length L < fuel -> for_each fuel L raises new_iter = find raises L.
Proof.
  intros F. destruct fuel as [|fuel]; [lia|]. cbn [for_each]. unfold new_iter. rewrite next_at. cbn [Nat.eqb]. destruct L as [|n l]; [reflexivity|]. cbn [nth_error find].
  destruct (raises n); [reflexivity|]. rewrite for_each_find by (cbn [length] in *; lia). reflexivity.
Qed.

Lemma shown_length (M : model) : length (shown M) <= length (n_nodes (m_net M)).
Proof. unfold shown. generalize (n_nodes (m_net M)). induction l as [|x l IH]; [apply le_n|]. cbn [filter length]. destruct (m_parent M x); cbn [length]; lia. Qed.
Lemma shown_In (M : model) (n : nat) : In n (shown M) <-> In n (n_nodes (m_net M)) /\ m_parent M n = None.
Proof. unfold shown. rewrite filter_In. destruct (m_parent M n); split; intros [A B]; split; try assumption; try discriminate; reflexivity. Qed.
Lemma costly_iff (M : model) (n : nat) : costly M n <-> In n (shown M) /\ check_raises M n = true.
Proof.
  rewrite shown_In. unfold costly, check_raises. rewrite andb_true_iff. split.
  - intros [A [B [V C]]]. repeat split; try assumption. destruct (m_cost M n) as [q| |p]; try reflexivity. apply negb_true_iff. destruct (qeqbP q 0) as [E|E]; [|reflexivity]. exfalso. exact (C q eq_refl E).
  - intros [[A B] [V C]]. repeat split; try assumption. intros q E. rewrite E in C. apply negb_true_iff in C. destruct (qeqbP q 0) as [X|X]; [discriminate|exact X].
Qed.

(** C122: Model.check passes exactly if no virtual storage has a cost and every node that must not be isolated is on a route; it warns exactly
    if there is an orphaned parameter. *)
Theorem C122_passes (triv : bool) (M : model) : wf_net (m_net M) ->
  forall w, check triv M = Passed w <->
    (forall n, ~ costly M n) /\ (forall n, In n (n_nodes (m_net M)) -> n_allow_isolated (m_net M) n = false -> on_route triv (m_net M) n) /\
    (w = true <-> exists p, orphan M p).
Proof.
  intros W w. unfold check. rewrite for_each_new by (pose proof (shown_length M); lia).
  assert (O : (match Graph_model.orphans (Graph_model.grun (m_ops M)) (m_isparam M) (m_referred M) with [] => false | _ => true end) = true <-> exists p, orphan M p).
  { split.
    - destruct (Graph_model.orphans _ _ _) as [|p l] eqn:E; [discriminate|]. intros _. exists p. apply Graph_proofs.orphans_spec. rewrite E. now left.
    - intros [p H]. apply Graph_proofs.orphans_spec in H. destruct (Graph_model.orphans _ _ _); [destruct H|reflexivity]. }
  pose proof (check_graph_spec triv (m_net M) W) as G. destruct (find (check_raises M) (shown M)) as [n|] eqn:F.
  - split; [discriminate|]. intros [A _]. exfalso. apply find_some in F. apply (A n). apply costly_iff. exact F.
  - assert (A : forall n, ~ costly M n).
    { intros n C. apply costly_iff in C as [C1 C2]. pose proof (find_none _ _ F n C1). congruence. }
    destruct (check_graph triv (m_net M)) eqn:K.
    + split.
      * intros E. assert (E1 : (match Graph_model.orphans (Graph_model.grun (m_ops M)) (m_isparam M) (m_referred M) with [] => false | _ => true end) = w) by congruence. rewrite <- E1. split; [exact A|]. split; [exact (proj1 G eq_refl)|exact O].
      * intros [_ [_ H]]. f_equal. destruct (match Graph_model.orphans _ _ _ with [] => false | _ => true end), w; try reflexivity; [symmetry; apply H, O; reflexivity|apply O, H; reflexivity].
    + split; [discriminate|]. intros [_ [B _]]. assert (false = true) by (apply G; exact B). discriminate.
Qed.
Print Assumptions C122_passes.

(** C122: which error: the first virtual storage with a cost, in the order of the nodes; otherwise, that of the graph. *)
Theorem C122_cost_error (triv : bool) (M : model) (n : nat) :
  check triv M = CostError n <-> exists before after, shown M = before ++ n :: after /\ costly M n /\ forall m, In m before -> ~ costly M m.
Proof.
  unfold check. rewrite for_each_new by (pose proof (shown_length M); lia).
  assert (C : forall m, In m (shown M) -> (costly M m <-> check_raises M m = true)) by (intros m I; rewrite costly_iff; tauto).
  assert (F : find (check_raises M) (shown M) = Some n <-> exists before after, shown M = before ++ n :: after /\ costly M n /\ forall m, In m before -> ~ costly M m).
  { revert C. generalize (shown M) as L. induction L as [|x L IH]; intros C; cbn [find].
    - split; [discriminate|]. intros [b [a [E _]]]. destruct b; discriminate.
    - destruct (check_raises M x) eqn:R.
      + split.
        * intros E. assert (x = n) as <- by congruence. exists [], L. split; [reflexivity|]. split; [apply C; [now left|exact R]|intros m []].
        * intros [[|y b] [a [E [E1 E2]]]]; [cbn in E; congruence|]. exfalso. cbn in E. assert (x = y) as <- by congruence. apply (E2 x); [now left|]. apply C; [now left|exact R].
      + rewrite IH by (intros m I; apply C; now right). split; intros [b [a [E [E1 E2]]]].
        * exists (x :: b), a. split; [cbn; now rewrite E|]. split; [exact E1|]. intros m [<-|I]; [|now apply E2]. intros X. apply C in X; [congruence|now left].
        * destruct b as [|y b]; cbn in E; [exfalso; assert (x = n) as -> by congruence; apply C in E1; [congruence|now left]|].
          exists b, a. split; [congruence|]. split; [exact E1|]. intros m I. apply E2. now right. }
  rewrite <- F. destruct (find (check_raises M) (shown M)) as [k|]; [split; intros; congruence|]. split; [|discriminate]. destruct (check_graph triv (m_net M)); discriminate.
Qed.
Print Assumptions C122_cost_error.

Lemma on_route_dec (triv : bool) (N : net) (n : nat) : wf_net N -> on_route triv N n \/ ~ on_route triv N n.
Proof.
  intros W. destruct (model_routes_spec triv N W) as [_ R]. destruct (in_dec Nat.eq_dec n (flat_map (fun r => r) (model_routes triv N))) as [I|I].
  - left. apply in_flat_map in I as [r [I1 I2]]. exists r. split; [exact I2|]. now apply R.
  - right. intros [r [I1 I2]]. apply I. apply in_flat_map. exists r. split; [now apply R|exact I1].
Qed.
Lemma stranded_dec (triv : bool) (N : net) (l : list nat) : wf_net N -> (forall n, In n l -> In n (n_nodes N)) ->
  (exists n, stranded triv N n) \/ forall n, In n l -> n_allow_isolated N n = false -> on_route triv N n.
Proof.
  intros W. induction l as [|x l IH]; intros I; [right; intros n []|]. destruct IH as [E|E]; [intros n H; apply I; now right|now left|].
  destruct (n_allow_isolated N x) eqn:A; [right; intros n [<-|H] B; [congruence|now apply E]|].
  destruct (on_route_dec triv N x W) as [R|R]; [right; intros n [<-|H] B; [exact R|now apply E]|]. left. exists x. split; [apply I; now left|now split].
Qed.

(** C122: the graph is refused exactly if no virtual storage has a cost and some node is stranded. *)
Theorem C122_structure_error (triv : bool) (M : model) : wf_net (m_net M) ->
  check triv M = StructureError <-> (forall n, ~ costly M n) /\ exists n, stranded triv (m_net M) n.
Proof.
  intros W. pose proof (C122_passes triv M W) as P. pose proof (C122_cost_error triv M) as C. split.
  - intros H. assert (A : forall n, ~ costly M n).
    { intros n X. unfold check in H. rewrite for_each_new in H by (pose proof (shown_length M); lia).
      apply costly_iff in X as [X1 X2]. destruct (find (check_raises M) (shown M)) as [m|] eqn:F; [discriminate|]. pose proof (find_none _ _ F n X1). congruence. }
    split; [exact A|]. destruct (stranded_dec triv (m_net M) (n_nodes (m_net M)) W (fun n h => h)) as [E|E]; [exact E|].
    exfalso. unfold check in H. destruct (for_each _ _ _ _); [discriminate|]. rewrite (proj2 (check_graph_spec triv (m_net M) W) E) in H. discriminate.
  - intros [A [n [N1 [N2 N3]]]]. destruct (check triv M) as [m| |w] eqn:E; [|reflexivity|].
    + exfalso. destruct (proj1 (C m) eq_refl) as [b [a [_ [X _]]]]. exact (A m X).
    + exfalso. destruct (proj1 (P w) eq_refl) as [_ [B _]]. exact (N3 (B n N1 N2)).
Qed.
Print Assumptions C122_structure_error.

(** The net of Routes_props.v with a virtual storage 7 and two parameters, the first of which the second depends on. *)
Definition ex_net7 : net := {|
  n_nodes := n_nodes Routes_props.ex_net ++ [7]; n_edges := n_edges Routes_props.ex_net; n_name := fun n => n; n_fqn := fun n => n;
  n_domain := n_domain Routes_props.ex_net; n_is_input := n_is_input Routes_props.ex_net; n_is_output := n_is_output Routes_props.ex_net;
  n_is_link := n_is_link Routes_props.ex_net; n_allow_isolated := fun n => 6 <=? n |}.
Definition ex (parent : option nat) (c : cost) (referred : list nat) : model :=
  Model ex_net7 (fun n => if n =? 7 then parent else None) (fun n => n =? 7) (fun n => if n =? 7 then c else Number 1)
    [Graph_model.New; Graph_model.New; Graph_model.ChildrenAdd 2 (Graph_model.IComp 1)] (fun _ => true) referred.
Example check_example :
  check false (ex None (Number 0) [2]) = Passed false /\ check false (ex None (Number 0) [1]) = Passed true /\ check false (ex None (Number 3) [2]) = CostError 7 /\
  check false (ex None (OfParameter 2) [2]) = CostError 7.
Proof. repeat split; reflexivity. Qed.
Example stranded_example :
  check false (Model {| n_nodes := [1; 2]; n_edges := []; n_name := fun n => n; n_fqn := fun n => n; n_domain := fun _ => 0; n_is_input := Nat.eqb 1;
    n_is_output := Nat.eqb 2; n_is_link := fun _ => false; n_allow_isolated := fun _ => false |} (fun _ => None) (fun _ => false) (fun _ => Number 1) [] (fun _ => true) []) = StructureError.
Proof. reflexivity. Qed.

(** C122, refuted: not every virtual storage with a cost is refused: those that are part of another node are not looked at. *)
Theorem C122_parts_refuted : exists (M : model) (n : nat), wf_net (m_net M) /\ In n (n_nodes (m_net M)) /\ m_virtual M n = true /\ m_cost M n = Number 3 /\ check false M = Passed false.
Proof.
  exists (ex (Some 6) (Number 3) [2]), 7. split; [|repeat split; try reflexivity; cbn; tauto].
  destruct Routes_props.C11_example_wf as [W1 [W2 W3]]. split; [|split].
  - cbn. repeat constructor; cbn; intuition discriminate.
  - exact W2.
  - intros a b H. destruct (W3 a b H) as [A B]. cbn [m_net ex ex_net7 n_nodes]. split; apply in_or_app; now left.
Qed.
Print Assumptions C122_parts_refuted.
