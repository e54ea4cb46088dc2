(** C27: PiecewiseLink; C32: prev_flow; C33: running again; C78: nodes that add up others. *)
From Verif Require Import Base Ring Calendar_spec LP_model Storage_model Periodic_model Nodes_model Nodes_spec Nodes_proofs Nodes_rerun Nodes_components.
From Verif Require Licences_model Thresholds_model.
Local Open Scope nat_scope.
Local Open Scope list_scope.
Local Open Scope Q_scope.

Definition steps_t := list (tstep * bounds * bounds * list (nat * Q)).
(** What the solver commits is for existing nodes. *)
Definition steps_ok (g : list node) (steps : steps_t) : Prop := Forall (fun s => commits_ok g (snd s)) steps.

Lemma step_of g (steps : steps_t) k t b0 b cs : steps_ok g steps -> nth_error steps k = Some (t, b0, b, cs) -> commits_ok g cs.
Proof. intros S H. unfold steps_ok in S. rewrite Forall_forall in S. exact (S _ (nth_error_In _ _ H)). Qed.

(** ** C27 *)
(** The flow of a PiecewiseLink at the end of every timestep is the sum of its steps' flows, given that the solver commits nothing to the
    link itself; and it is what its prev_flow is in the next timestep. *)
Theorem C27_flow g n ls (steps : steps_t) st k h :
  graph_ok g -> length st = length g -> is_class g n (Piecewise ls) -> (forall l, In l ls -> settled g n l) ->
  steps_ok g steps -> Forall (fun s => solved g n (snd s) == 0) steps ->
  nth_error (history g steps st) k = Some h ->
  flow (get h n) == qsum (map (fun l => flow (get h l)) ls).
Proof.
  intros G L [d [H K]] S C Z E. destruct (history_nth g steps st k h E) as [st0 [t [b0 [b [cs [A [-> [B [D F]]]]]]]]].
  pose proof (piecewise_step g b0 b t cs st0 n d ls G) as X. cbv zeta in X. rewrite X; try congruence; [|now apply (step_of g steps k t b0 b cs)|exact S].
  rewrite Forall_forall in Z. specialize (Z _ (nth_error_In _ _ A)). cbn in Z. rewrite Z. apply Qplus_0_l.
Qed.
Print Assumptions C27_flow.

(** With steps that are ordinary nodes, as in the constructor: the sum of what the solver gives them. *)
Theorem C27_solved g n ls (steps : steps_t) st k h t b0 b cs :
  graph_ok g -> length st = length g -> is_class g n (Piecewise ls) -> (forall l, In l ls -> is_class g l Plain) ->
  steps_ok g steps -> Forall (fun s => solved g n (snd s) == 0) steps ->
  nth_error (history g steps st) k = Some h -> nth_error steps k = Some (t, b0, b, cs) ->
  flow (get h n) == qsum (map (fun l => solved g l cs) ls).
Proof.
  intros G L C P O Z E EC. assert (forall l, In l ls -> settled g n l) as SE by (intros l Hl; right; exists Plain; split; [now apply P|easy]).
  rewrite (C27_flow g n ls steps st k h G L C SE O Z E).
  destruct (history_nth g steps st k h E) as [st0 [t' [b0' [b' [cs' [A [-> [B [D F]]]]]]]]]. assert (cs' = cs) as -> by congruence.
  apply qsum_ext. intros l Hl. destruct (P l Hl) as [d [H K]].
  apply (simple_step g b0' b' t' cs st0 l d G); [congruence|now apply (step_of g steps k t b0 b cs)|exact H|now rewrite K].
Qed.
Print Assumptions C27_solved.

Theorem C27_prev g n ls (steps : steps_t) st k h x :
  graph_ok g -> length st = length g -> is_class g n (Piecewise ls) -> (forall l, In l ls -> settled g n l) ->
  steps_ok g steps -> Forall (fun s => solved g n (snd s) == 0) steps ->
  nth_error (history g steps st) k = Some h -> nth_error (during g steps st) (S k) = Some x ->
  prev (get x n) == qsum (map (fun l => flow (get h l)) ls).
Proof.
  intros G L C SE O Z E X. rewrite <- (C27_flow g n ls steps st k h G L C SE O Z E). destruct C as [d [H K]].
  destruct (during_nth g steps st (S k) x X) as [st0 [t [b0 [b [cs [_ [-> [B [_ F]]]]]]]]]. specialize (F k eq_refl).
  assert (st0 = h) as -> by congruence. rewrite (during_prev g b0 t h n d H) by congruence.
  rewrite (history_prev g n d H) with (steps := steps) (st := st) (k := k); try easy; rewrite K; easy.
Qed.
Print Assumptions C27_prev.

(** Limits: the sums, infinite if one of the maxima is. *)
Theorem C27_limits mins maxs :
  piecewise_min mins == qsum mins
  /\ (forall qs, maxs = map Fin qs -> exists q, piecewise_max maxs = Fin q /\ q == qsum qs)
  /\ (In PInf maxs -> ~ In NInf maxs -> piecewise_max maxs = PInf).
Proof.
  split; [|split].
  - unfold piecewise_min. rewrite (fold_add_sum (fun x => x)). rewrite map_id. lra.
  - intros qs ->. unfold piecewise_max, ext_sum. assert (forall a, exists q, fold_left ext_add (map Fin qs) (Fin a) = Fin q /\ q == a + qsum qs) as X.
    { induction qs as [|x qs IH]; intros a; cbn; [exists a; split; [easy|lra]|]. destruct (IH (a + x)) as [q [E F]]. exists q. split; [easy|]. rewrite F. lra. }
    destruct (X 0) as [q [E F]]. exists q. split; [easy|]. rewrite F. lra.
  - intros H N. unfold piecewise_max, ext_sum.
    assert (forall l, ~ In NInf l -> fold_left ext_add l PInf = PInf) as X.
    { induction l as [|x l IH]; intros K; cbn; [easy|]. destruct x; cbn; try (apply IH; intros C; apply K; now right). exfalso. apply K. now left. }
    assert (forall l a, ~ In NInf l -> In PInf l -> fold_left ext_add l (Fin a) = PInf) as Y.
    { induction l as [|x l IH]; intros a K I'; [easy|]. cbn [fold_left]. destruct I' as [->|I']; [cbn; apply X; intros C; apply K; now right|].
      destruct x; [exfalso; apply K; now left| |]; cbn.
      - apply IH; [intros C; apply K; now right|easy].
      - apply X. intros C; apply K; now right. }
    now apply Y.
Qed.
Print Assumptions C27_limits.

(** ** C32 *)
(** For the nodes that remember: in timestep k+1 prev_flow is the flow reported at the end of timestep k. *)
Theorem C32_prev_flow g n d (steps : steps_t) b st k h x :
  nth_error g n = Some d -> length st = length g -> n_child d = false -> remembers (n_class d) ->
  let st0 := reset_all g b st in
  nth_error (history g steps st0) k = Some h -> nth_error (during g steps st0) (S k) = Some x ->
  prev (get x n) = flow (get h n).
Proof.
  intros H L C R st0 E X. destruct (reset_prev g b st n d H L C R) as [_ A]. fold st0 in A.
  assert (length st0 = length g) as L0 by (unfold st0; now rewrite reset_length).
  destruct (during_nth g steps st0 (S k) x X) as [s [t [b0 [b1 [cs [_ [-> [B [_ F]]]]]]]]]. specialize (F k eq_refl).
  assert (s = h) as -> by congruence. rewrite (during_prev g b0 t h n d H) by congruence.
  now apply (history_prev g n d H R steps st0 k h L0 A).
Qed.
Print Assumptions C32_prev_flow.

(** Also for nodes with a parent (which are not reset). *)
Theorem C32_prev_flow_child g n d (steps : steps_t) st k h x :
  nth_error g n = Some d -> length st = length g -> simple (n_class d) \/ (exists ls, n_class d = Piecewise ls) ->
  nth_error (history g steps st) k = Some h -> nth_error (during g steps st) (S k) = Some x ->
  prev (get x n) = flow (get h n).
Proof.
  intros H L C E X. destruct (during_nth g steps st (S k) x X) as [s [t [b0 [b1 [cs [_ [-> [B [_ F]]]]]]]]]. specialize (F k eq_refl).
  assert (s = h) as -> by congruence. rewrite (during_prev g b0 t h n d H) by congruence.
  apply (history_prev g n d H) with (steps := steps) (st := st) (k := k); try easy;
    (destruct C as [C|[ls C]]; [destruct (n_class d); easy|rewrite C; easy]).
Qed.
Print Assumptions C32_prev_flow_child.

(** In the first timestep it is 0: after a reset for nodes without a parent, after the setup for all. *)
Theorem C32_first g n d (steps : steps_t) b st x :
  nth_error g n = Some d -> length st = length g -> n_child d = false -> remembers (n_class d) ->
  nth_error (during g steps (reset_all g b st)) 0 = Some x -> prev (get x n) = 0.
Proof.
  intros H L C R X. destruct (during_nth _ _ _ _ _ X) as [s [t [b0 [b1 [cs [_ [-> [_ [F _]]]]]]]]]. rewrite (F eq_refl) in *.
  rewrite (during_prev g b0 t _ n d H) by (now rewrite reset_length). now apply (reset_prev g b st n d H L C R).
Qed.
Print Assumptions C32_first.
Theorem C32_first_run g n d (steps : steps_t) b x :
  nth_error g n = Some d -> nth_error (during g steps (reset_all g b (new_model g))) 0 = Some x -> prev (get x n) = 0.
Proof.
  intros H X. destruct (during_nth _ _ _ _ _ X) as [s [t [b0 [b1 [cs [_ [-> [_ [F _]]]]]]]]]. rewrite (F eq_refl) in *.
  destruct (all_new g) as [L U]. rewrite (during_prev g b0 t _ n d H) by (now rewrite reset_length). rewrite (reset_get g b _ n d H L).
  assert (get (new_model g) n = new_node (n_class d)) as ->.
  { unfold get, new_model. apply nth_error_nth. rewrite nth_error_map, H. reflexivity. }
  assert (prev (new_node (n_class d)) = 0) as P by (destruct (n_class d); try reflexivity; destruct v; reflexivity).
  destruct (n_child d); [exact P|]. destruct (n_class d); try reflexivity; cbn [reset_node].
  - now rewrite put_volume_prev.
  - destruct (agg_storage_reset _); reflexivity.
  - destruct v; cbn; now rewrite ?put_volume_prev.
Qed.
Print Assumptions C32_first_run.

(** What the reported flow is for ordinary nodes and storages. *)
Theorem C32_flow g n d (steps : steps_t) st k h t b0 b cs :
  graph_ok g -> length st = length g -> nth_error g n = Some d -> simple (n_class d) -> steps_ok g steps ->
  nth_error (history g steps st) k = Some h -> nth_error steps k = Some (t, b0, b, cs) -> flow (get h n) == solved g n cs.
Proof.
  intros G L H K O E EC. destruct (history_nth g steps st k h E) as [st0 [t' [b0' [b' [cs' [A [-> [B [D F]]]]]]]]]. assert (cs' = cs) as -> by congruence.
  apply (simple_step g b0' b' t' cs st0 n d G); [congruence|now apply (step_of g steps k t b0 b cs)|exact H|exact K].
Qed.
Print Assumptions C32_flow.

(** A seasonal storage: the flow of the last timestep if it was active in it, else prev_flow stays what it was. *)
Theorem C32_seasonal g n i ms c (steps : steps_t) st k h x y :
  length st = length g -> is_class g n (Virtual i ms (Seasonal c)) ->
  nth_error (history g steps st) k = Some h -> nth_error (during g steps st) k = Some y -> nth_error (during g steps st) (S k) = Some x ->
  prev (get x n) = if active (get y n) then flow (get h n) else prev (get y n).
Proof.
  intros L [d [H K]] E Y X. destruct (during_nth g steps st (S k) x X) as [s [t [b0 [b1 [cs [_ [-> [B [_ F]]]]]]]]]. specialize (F k eq_refl).
  assert (s = h) as -> by congruence. rewrite (during_prev g b0 t h n d H) by congruence.
  destruct (history_nth g steps st k h E) as [s1 [t1 [b01 [b11 [cs1 [A1 [-> [B1 [D1 F1]]]]]]]]].
  destruct (during_nth g steps st k y Y) as [s2 [t2 [b02 [b12 [cs2 [A2 [-> [B2 [D2 F2]]]]]]]]].
  assert (s2 = s1 /\ t2 = t1 /\ b02 = b01) as [-> [-> ->]].
  { split; [|split; congruence]. destruct k as [|k]; [rewrite D1, D2; easy|]. specialize (F1 k eq_refl). specialize (F2 k eq_refl). congruence. }
  rewrite (during_prev g b01 t1 s1 n d H) by congruence. apply (step_prev_seasonal g b01 b11 t1 cs1 s1 n d i ms c H); congruence.
Qed.
Print Assumptions C32_seasonal.

(** False for the nodes that add up others after they saved prev_flow (BreakLink, DelayNode, LossLink, AggregatedNode, AggregatedStorage),
    in every second timestep in which a member flows. *)
Definition quiet : bounds := Bounds (fun _ => PInf) (fun _ => 0) (fun _ => 0).
Definition day (i : nat) (y m d : Z) : tstep := TStep {| p_index := i; p_date := {| yr := y; mon := m; dom := d |} |} 1.
Theorem C32_compound_refuted : exists g (steps : steps_t) h x,
  graph_ok g /\ is_class g 3 (Late 0) /\ is_class g 4 (Aggregated [(0%nat, 1)]) /\ is_class g 5 (AggStorage [2%nat])
  /\ nth_error (history g steps (reset_all g quiet (new_model g))) 0 = Some h /\ nth_error (during g steps (reset_all g quiet (new_model g))) 1 = Some x
  /\ forall n, In n [3; 4; 5]%nat -> flow (get h n) == 5 /\ prev (get x n) == 0.
Proof.
  set (i := {| i_volume := Some 10; i_pc := None; i_max := MaxNumber 100 |}).
  exists [Node Plain true; Node (StoreOut 2) true; Node (Storage i) false; Node (Late 0) false; Node (Aggregated [(0%nat, 1)]) false; Node (AggStorage [2%nat]) false].
  exists [(day 0 2015 1 1, quiet, quiet, [(0%nat, 5); (1%nat, 5)]); (day 1 2015 1 2, quiet, quiet, [])]. eexists. eexists.
  assert (starts i) as SI by (exists 10, (Some (10 / 100)); split; reflexivity).
  split.
  { repeat constructor; try exact SI. exists i. split; [|exact SI]. left. now exists (Node (Storage i) false). }
  split; [now eexists; split|]. split; [now eexists; split|]. split; [now eexists; split|]. split; [reflexivity|]. split; [reflexivity|].
  intros n [<-|[<-|[<-|[]]]]; vm_compute; split; reflexivity.
Qed.
Print Assumptions C32_compound_refuted.

(** False for a seasonal storage: prev_flow of an inactive one is that of its last active timestep. *)
Theorem C32_seasonal_refuted : exists g (steps : steps_t) i c h x,
  is_class g 1 (Virtual i [(0%nat, 1)] (Seasonal c))
  /\ nth_error (history g steps (reset_all g quiet (new_model g))) 1 = Some h /\ nth_error (during g steps (reset_all g quiet (new_model g))) 2 = Some x
  /\ flow (get h 1) == 0 /\ prev (get x 1) == - (3).
Proof.
  set (i := {| i_volume := Some 50; i_pc := None; i_max := MaxNumber 100 |}).
  set (c := {| c_annual := {| c_reset_month := 1; c_reset_day := 1; c_to_initial := false; c_max_is_parameter := false |}; c_end_month := 6; c_end_day := 30 |}).
  exists [Node Plain false; Node (Virtual i [(0%nat, 1)] (Seasonal c)) false].
  exists [(day 0 2015 6 29, quiet, quiet, [(0%nat, 3)]); (day 1 2015 6 30, quiet, quiet, [(0%nat, 4)]); (day 2 2015 7 1, quiet, quiet, [(0%nat, 4)])].
  exists i, c. eexists. eexists. split; [now eexists; split|]. split; [reflexivity|]. split; [reflexivity|]. vm_compute. split; reflexivity.
Qed.
Print Assumptions C32_seasonal_refuted.

(** ** C78 *)
Theorem C78_aggregated g n ms (steps : steps_t) st k h :
  length st = length g -> is_class g n (Aggregated ms) -> (forall e, In e ms -> settled g n (fst e)) ->
  nth_error (history g steps st) k = Some h -> flow (get h n) == qsum (map (fun e => snd e * flow (get h (fst e))) ms).
Proof.
  intros L [d [H K]] S E. destruct (history_nth g steps st k h E) as [st0 [t [b0 [b [cs [A [-> [B [D F]]]]]]]]].
  apply (aggregated_step g b0 b t cs st0 n d ms); [congruence|exact H|exact K|exact S].
Qed.
Print Assumptions C78_aggregated.

Theorem C78_aggregated_storage g n ms (steps : steps_t) st k h :
  length st = length g -> is_class g n (AggStorage ms) -> (forall m, In m ms -> settled g n m) ->
  nth_error (history g steps st) k = Some h -> flow (get h n) == qsum (map (fun m => flow (get h m)) ms).
Proof.
  intros L [d [H K]] S E. destruct (history_nth g steps st k h E) as [st0 [t [b0 [b [cs [A [-> [B [D F]]]]]]]]].
  apply (aggstorage_step g b0 b t cs st0 n d ms); [congruence|exact H|exact K|exact S].
Qed.
Print Assumptions C78_aggregated_storage.

Theorem C78_virtual g n i ms v (steps : steps_t) st k h x :
  length st = length g -> is_class g n (Virtual i ms v) -> (forall e, In e ms -> settled g n (fst e)) ->
  nth_error (history g steps st) k = Some h -> nth_error (during g steps st) k = Some x -> active (get x n) = true ->
  flow (get h n) == - qsum (map (fun e => snd e * flow (get h (fst e))) ms).
Proof.
  intros L [d [H K]] SE E Y AC. destruct (history_nth g steps st k h E) as [s1 [t1 [b01 [b11 [cs1 [A1 [-> [B1 [D1 F1]]]]]]]]].
  destruct (during_nth g steps st k x Y) as [s2 [t2 [b02 [b12 [cs2 [A2 [-> [B2 [D2 F2]]]]]]]]].
  assert (s2 = s1 /\ t2 = t1 /\ b02 = b01) as [-> [-> ->]].
  { split; [|split; congruence]. destruct k as [|k]; [rewrite D1, D2; easy|]. specialize (F1 k eq_refl). specialize (F2 k eq_refl). congruence. }
  apply (virtual_step g b01 b11 t1 cs1 s1 n d i ms v); [congruence|exact H|exact K|exact SE|exact AC].
Qed.
Print Assumptions C78_virtual.

(** Storages other than seasonal ones are always active. *)
Theorem C78_always_active g n d i ms v b (steps : steps_t) st k x :
  nth_error g n = Some d -> n_class d = Virtual i ms v -> n_child d = false -> (forall c, v <> Seasonal c) -> length st = length g ->
  nth_error (during g steps (reset_all g b st)) k = Some x -> active (get x n) = true.
Proof.
  intros H K C NS L X. assert (remembers (n_class d)) as R by (rewrite K; destruct v; cbn; try easy; now apply (NS c)).
  destruct (reset_prev g b st n d H L C R) as [_ A].
  destruct (during_nth g steps _ k x X) as [s [t [b0 [b1 [cs [_ [-> [B [D F]]]]]]]]]. rewrite reset_length in B.
  assert (stays_active (n_class d) (get s n)) as AS.
  { destruct k as [|k]; [now rewrite D|]. apply (history_active g n d H steps (reset_all g b st) k s); [now rewrite reset_length|exact A|now apply F]. }
  destruct (step_active g b0 b1 t cs s n d H) as [Z _]; [congruence|exact AS|].
  unfold stays_active in Z. rewrite K in Z. destruct v; try exact Z. exfalso. now apply (NS c).
Qed.
Print Assumptions C78_always_active.

(** False if a member is a compound node that comes later in the graph (its flow is not yet added up). *)
Theorem C78_order_refuted : exists g (steps : steps_t) h,
  graph_ok g /\ is_class g 0 (Aggregated [(3%nat, 1)]) /\ is_class g 3 (Piecewise [1; 2]%nat)
  /\ nth_error (history g steps (reset_all g quiet (new_model g))) 0 = Some h
  /\ flow (get h 3) == 7 /\ flow (get h 0) == 0.
Proof.
  exists [Node (Aggregated [(3%nat, 1)]) false; Node Plain true; Node Plain true; Node (Piecewise [1; 2]%nat) false].
  exists [(day 0 2015 1 1, quiet, quiet, [(1%nat, 3); (2%nat, 4)])]. eexists.
  split; [repeat constructor|]. split; [now eexists; split|]. split; [now eexists; split|]. split; [reflexivity|]. vm_compute. split; reflexivity.
Qed.
Print Assumptions C78_order_refuted.

(** An example with most kinds of nodes. *)
Definition ex_i : initial := {| i_volume := Some 10; i_pc := None; i_max := MaxNumber 100 |}.
Definition ex_g : list node :=
  [Node (StoreOut 2) true; Node (StoreIn 2) true; Node (Storage ex_i) false; Node Plain true; Node Plain true; Node (Piecewise [3; 4]%nat) false;
   Node (Aggregated [(3%nat, 1); (5%nat, 2)]) false; Node (Virtual ex_i [(5%nat, 1)] Always) false].
Definition ex_steps : steps_t :=
  [(day 0 2015 1 1, quiet, quiet, [(0%nat, 4); (1%nat, 1); (3%nat, 2); (4%nat, 3)]); (day 1 2015 1 2, quiet, quiet, [(3%nat, 1)])].
Example nodes_example :
  let st0 := reset_all ex_g quiet (new_model ex_g) in
  map (fun h => map (fun n => (Qred (flow (get h n)), Qred (vol (get h n)))) [2; 5; 6; 7]%nat) (history ex_g ex_steps st0)
  = [[(3, 13); (5, 0); (12, 0); (- (5), 5)]; [(0, 13); (1, 0); (3, 0); (- (1), 4)]]
  /\ map (fun x => map (fun n => Qred (prev (get x n))) [2; 5; 6; 7]%nat) (during ex_g ex_steps st0) = [[0; 0; 0; 0]; [3; 5; 0; - (5)]].
Proof. vm_compute. split; reflexivity. Qed.

(** ** C33 *)
Lemma run_reached {M V} g (P : program M V) m v ts : forall w, reached g P m v w -> Forall (reached g P m v) (whole_steps g P ts w).
Proof. induction ts as [|t r IH]; intros w R; cbn; [constructor|]. constructor; [now constructor|]. apply IH. now constructor. Qed.
Lemma last_reached {M V} g (P : program M V) m v ts w : reached g P m v w -> reached g P m v (last (run g P ts w) w).
Proof.
  intros R. assert (Forall (reached g P m v) (run g P ts w)) as F by (apply run_reached; now constructor).
  destruct (run g P ts w) as [|x r]; [exact R|]. rewrite Forall_forall in F. apply F.
  rewrite (app_removelast_last w (l := x :: r)) at 2 by discriminate. apply in_or_app. right. left. reflexivity.
Qed.

(** All nodes (flows, volumes, memories of rolling storages, licence years and months), the components and their values are the same after
    every timestep of any two runs, whatever was run, stepped or reset before. *)
Theorem C33_rerun_partial {M V} g (P : program M V) m v ts w w' :
  graph_ok g -> fresh g P m v -> blind g P -> same_again g P ->
  reached g P m v w -> reached g P m v w' -> (forall t r, ts = t :: r -> p_index (ts_p t) = 0%nat) ->
  run g P ts w = run g P ts w'.
Proof. apply rerun. Qed.
Print Assumptions C33_rerun_partial.

(** run(); run() for a model with delays, rolling means, flow and deficit parameters, ratchets and licences. *)
Theorem C33_components_partial {V} g (ks : list (kind V)) values bds solve v ts :
  graph_ok g -> Forall (looks g) ks -> let P := components ks values bds solve in blind g P -> same_again g P ->
  (forall t r, ts = t :: r -> p_index (ts_p t) = 0%nat) ->
  let w := Whole (new_model g) (map c_setup ks) v in
  run g P ts (last (run g P ts w) w) = run g P ts w.
Proof.
  intros G L P B SA T w. apply (rerun g P (map c_setup ks) v); try easy.
  - now apply components_fresh.
  - apply last_reached. constructor.
  - constructor.
Qed.
Print Assumptions C33_components_partial.

(** An example: a storage and a node with an annual licence, over two years, in which the second run starts in a year other than the
    one remembered. *)
Definition lic_g : list node := [Node Plain false; Node (StoreIn 2) true; Node (Storage ex_i) false].
Definition lic_day (t : tstep) : Q := inject_Z (718896 + 400 * Z.of_nat (p_index (ts_p t))).
Definition lic_value (t : tstep) (ms : list memory) : Q := match ms with [MAnnual a] => Licences_model.annual_value a (lic_day t) | _ => 0 end.
Definition lic_P (n : nat) : program (list memory) unit :=
  components [KAnnualLicence 1000 n lic_day] (fun _ _ _ => tt) (fun _ => quiet) (fun t _ ms _ => [(n, lic_value t ms)]).
Definition lic_ts : list tstep := [day 0 2015 7 1; day 1 2016 8 4].
Definition lic_flows (n : nat) (ws : list (whole (list memory) unit)) : list Q := map (fun w => Qred (flow (get (w_nodes w) n))) ws.
Example rerun_example :
  let w := Whole (new_model lic_g) (map c_setup [KAnnualLicence (V := unit) 1000 0 lic_day]) tt in
  let first := run lic_g (lic_P 0) lic_ts w in
  lic_flows 0 (run lic_g (lic_P 0) lic_ts (last first w)) = lic_flows 0 first /\ map (qltb 0) (lic_flows 0 first) = [true; true]
  /\ graph_ok lic_g /\ Forall (looks lic_g) [KAnnualLicence (V := unit) 1000 0 lic_day] /\ blind lic_g (lic_P 0) /\ same_again lic_g (lic_P 0).
Proof.
  split; [vm_compute; reflexivity|]. split; [vm_compute; reflexivity|]. split.
  { repeat constructor. exists 10, (Some (10 / 100)). split; reflexivity. }
  split; [repeat constructor; now exists (Node Plain false)|]. split; [intros t a b m _ _; split; reflexivity|].
  intros n d H. destruct n as [|[|[|n]]]; cbn in H; try (injection H as <-; exact Logic.I). now destruct n.
Qed.

(** Not so for a seasonal storage: _last_active_year is not reset, so in the second run it is active from the start. *)
Definition season_i : initial := {| i_volume := Some 50; i_pc := None; i_max := MaxNumber 100 |}.
Definition season_c : seasonal_cfg :=
  {| c_annual := {| c_reset_month := 4; c_reset_day := 1; c_to_initial := false; c_max_is_parameter := false |}; c_end_month := 9; c_end_day := 30 |}.
Theorem C33_seasonal_refuted : exists g (P : program unit unit) ts,
  graph_ok g /\ fresh g P tt tt /\ blind g P /\ (forall t r, ts = t :: r -> p_index (ts_p t) = 0%nat)
  /\ exists i ms c, is_class g 1 (Virtual i ms (Seasonal c))
  /\ let w := Whole (new_model g) tt tt in let first := run g P ts w in let second := run g P ts (last first w) in
     vol (get (w_nodes (nth 0 first w)) 1) == 50 /\ vol (get (w_nodes (nth 0 second w)) 1) == 47.
Proof.
  exists [Node Plain false; Node (Virtual season_i [(0%nat, 1)] (Seasonal season_c)) false].
  exists {| p_reset := fun m => m; p_before := fun _ _ m => m; p_values := fun _ _ _ => tt; p_bounds := fun _ => Bounds (fun _ => Fin 100) (fun _ => 0) (fun _ => 0);
            p_solve := fun _ _ _ _ => [(0%nat, 3)]; p_after := fun _ _ m _ => m |}.
  exists [day 0 2015 1 15; day 1 2015 10 15].
  split. { repeat constructor. exists 50, (Some (50 / 100)). split; reflexivity. }
  split. { intros t a b [s [] []] [s' [] []] _ _ _ _ _ _. reflexivity. }
  split. { intros t a b m _ _. split; reflexivity. }
  split. { intros t r E. injection E as <- _. reflexivity. }
  exists season_i, [(0%nat, 1)], season_c. split; [now eexists; split|]. vm_compute. split; reflexivity.
Qed.
Print Assumptions C33_seasonal_refuted.

(** Not so for an annual licence on a node with a parent: its prev_flow is not reset, and the licence is charged for it. *)
Theorem C33_child_refuted : exists g ts,
  graph_ok g /\ (exists d, nth_error g 1 = Some d /\ n_child d = true) /\ blind g (lic_P 1) /\ same_again g (lic_P 1) /\ (forall t r, ts = t :: r -> p_index (ts_p t) = 0%nat)
  /\ let w := Whole (new_model g) (map c_setup [KAnnualLicence (V := unit) 1000 1 lic_day]) tt in
     let first := run g (lic_P 1) ts w in
     lic_flows 1 (run g (lic_P 1) ts (last first w)) <> lic_flows 1 first.
Proof.
  exists lic_g, lic_ts.
  split. { repeat constructor. exists 10, (Some (10 / 100)). split; reflexivity. }
  split. { now exists (Node (StoreIn 2) true). }
  split. { intros t a b m _ _. split; reflexivity. }
  split. { intros n d H. destruct n as [|[|[|n]]]; cbn in H; try (injection H as <-; exact Logic.I). now destruct n. }
  split. { intros t r E. injection E as <- _. reflexivity. }
  vm_compute. discriminate.
Qed.
Print Assumptions C33_child_refuted.

(** Not so for an aggregated storage of storages whose max_volume is a parameter: reset() takes the values of the last timestep of the run
    before (in the first run there are none yet), so its current_pc, on which control curves and costs depend, differs in the first timestep. *)
Definition param_i : initial := {| i_volume := Some 50; i_pc := Some (1 # 2); i_max := MaxParameter |}.
Definition agg_P : program unit Q :=
  {| p_reset := fun m => m; p_before := fun _ _ m => m; p_values := fun _ _ _ => 100; p_bounds := fun v => Bounds (fun _ => Fin v) (fun _ => 0) (fun _ => v);
     p_solve := fun _ st _ _ => [(2%nat, get_current_pc (pc (get st 1)))]; p_after := fun _ _ m _ => m |}.
Theorem C33_aggregated_storage_refuted : exists g ts,
  graph_ok g /\ fresh g agg_P tt 0 /\ blind g agg_P /\ is_class g 1 (AggStorage [0%nat]) /\ is_class g 0 (Storage param_i) /\ (forall t r, ts = t :: r -> p_index (ts_p t) = 0%nat)
  /\ let w := Whole (new_model g) tt 0 in let first := run g agg_P ts w in let second := run g agg_P ts (last first w) in
     flow (get (w_nodes (nth 0 first w)) 2) == 1 /\ flow (get (w_nodes (nth 0 second w)) 2) == 1 # 2.
Proof.
  exists [Node (Storage param_i) false; Node (AggStorage [0%nat]) false; Node Plain false], [day 0 2015 1 1].
  assert (starts param_i) as SP by (exists 50, (Some (1 # 2)); split; reflexivity).
  split. { repeat constructor; try exact SP. exists param_i. split; [|exact SP]. left. now eexists; split. }
  split. { intros t a b [s [] z] [s' [] z'] _ _ _ _ _ _. reflexivity. }
  split. { intros t a b m _ A. split; [reflexivity|]. intros v. cbn. destruct A as [_ [_ A]]. specialize (A 1%nat _ eq_refl). cbn in A.
           do 3 f_equal. change (pc (get a 1)) with (pc (with_prev (get a 1) 0)). rewrite A. reflexivity. }
  split; [now eexists; split|]. split; [now eexists; split|].
  split. { intros t r E. injection E as <- _. reflexivity. }
  vm_compute. split; reflexivity.
Qed.
Print Assumptions C33_aggregated_storage_refuted.

(** Not so for a monthly storage that resets in the first timestep to the value of a parameter: that of the run before. *)
Definition month_P : program unit Q :=
  {| p_reset := fun m => m; p_before := fun _ _ m => m; p_values := fun _ _ _ => 100; p_bounds := fun v => Bounds (fun _ => Fin v) (fun _ => 0) (fun _ => v);
     p_solve := fun _ _ _ _ => [(0%nat, 3)]; p_after := fun _ _ m _ => m |}.
Theorem C33_monthly_refuted : exists g ts,
  graph_ok g /\ fresh g month_P tt 0 /\ blind g month_P /\ is_class g 1 (Virtual param_i [(0%nat, 1)] (Monthly 1 1 false)) /\ (forall t r, ts = t :: r -> p_index (ts_p t) = 0%nat)
  /\ let w := Whole (new_model g) tt 0 in let first := run g month_P ts w in let second := run g month_P ts (last first w) in
     vol (get (w_nodes (nth 0 first w)) 1) == - (3) /\ vol (get (w_nodes (nth 0 second w)) 1) == 97.
Proof.
  exists [Node Plain false; Node (Virtual param_i [(0%nat, 1)] (Monthly 1 1 false)) false], [day 0 2015 1 1].
  split. { repeat constructor. exists 50, (Some (1 # 2)). split; reflexivity. }
  split. { intros t a b [s [] z] [s' [] z'] _ _ _ _ _ _. reflexivity. }
  split. { intros t a b m _ A. split; reflexivity. }
  split; [now eexists; split|].
  split. { intros t r E. injection E as <- _. reflexivity. }
  vm_compute. split; reflexivity.
Qed.
Print Assumptions C33_monthly_refuted.
