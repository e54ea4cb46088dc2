(** C119: the flows saved for the routes are those of the answers, scenario by scenario, and account for the nodes' flows. *)
From Verif Require Import Base Paths Routes_model LP_model Sys_model RouteLP_model RouteLP_spec RouteLP_proofs RouteLP_flow RouteLP_props Saved_model.
Local Open Scope nat_scope.
Local Open Scope list_scope.

Lemma nth_error_ext {A} (l m : list A) : (forall i, nth_error l i = nth_error m i) -> l = m.
Proof.
  revert m. induction l as [|a l IH]; intros [|b m] H; [reflexivity|discriminate (H 0)|discriminate (H 0)|].
  assert (E : Some a = Some b) by exact (H 0). f_equal; [congruence|]. apply IH. intros i. exact (H (S i)).
Qed.
Lemma replace_length {A} k (row : A) rows : length (replace_row k row rows) = length rows.
Proof. revert k. induction rows as [|r rows IH]; intros [|k]; cbn [replace_row length]; [reflexivity..|now rewrite IH]. Qed.
Lemma replace_nth {A} k (row : A) rows j : k < length rows -> nth_error (replace_row k row rows) j = if j =? k then Some row else nth_error rows j.
Proof.
  revert k j. induction rows as [|r rows IH]; intros k j H; cbn [length] in H; [lia|]. destruct k as [|k], j as [|j]; cbn [replace_row nth_error Nat.eqb]; try reflexivity.
  apply IH. lia.
Qed.

(** The state after the first [n] scenarios. *)
Lemma solve_saving triv S N answer rows nr flow n : length rows = N -> n <= N ->
  exists rows' flow', solve triv S n answer (State true (Some (PerScenario rows)) nr flow) = Some (State true (Some (PerScenario rows')) nr flow') /\
    length rows' = N /\
    (forall j, nth_error rows' j = if j <? n then Some (map (fun c => Some (answer j c)) (seq 0 nr)) else nth_error rows j) /\
    (forall m j, flow' m j = if j <? n then committed triv S (answer j) m else flow m j).
Proof.
  intros HL. induction n as [|n IH]; intros HN.
  - exists rows, flow. repeat split; [exact HL|..]; intros; destruct j; reflexivity.
  - destruct IH as [rows' [flow' [E [L [R F]]]]]; [lia|]. unfold solve in *. rewrite seq_S, fold_left_app, E. cbn [fold_left Nat.add]. unfold store. cbn [s_save s_array s_nroutes s_flow].
    assert (LT : n < length rows') by lia. rewrite (proj2 (Nat.ltb_lt _ _) LT). eexists. eexists. split; [reflexivity|]. split; [now rewrite replace_length|]. split.
    + intros j. rewrite replace_nth by exact LT. rewrite R. destruct (Nat.eqb_spec j n) as [->|NE].
      * now rewrite (proj2 (Nat.ltb_lt n (Datatypes.S n))) by lia.
      * destruct (Nat.ltb_spec j n), (Nat.ltb_spec j (Datatypes.S n)); try reflexivity; lia.
    + intros m j. rewrite F. destruct (Nat.eqb_spec j n) as [->|NE].
      * now rewrite (proj2 (Nat.ltb_lt n (Datatypes.S n))) by lia.
      * destruct (Nat.ltb_spec j n), (Nat.ltb_spec j (Datatypes.S n)); try reflexivity; lia.
Qed.

(** Every timestep of a run that was set up with saving: the solve succeeds, whatever was in the array before. *)
Fixpoint timesteps (triv : bool) (S : sys) (N : nat) (answers : list (nat -> nat -> Q)) (st : state) : option state :=
  match answers with
  | [] => Some st
  | a :: l => match solve triv S N a st with Some st' => timesteps triv S N l st' | None => None end
  end.
Lemma timesteps_saving triv S N answers : forall rows nr flow, length rows = N ->
  exists rows' flow', timesteps triv S N answers (State true (Some (PerScenario rows)) nr flow) = Some (State true (Some (PerScenario rows')) nr flow') /\ length rows' = N.
Proof.
  induction answers as [|a l IH]; intros rows nr flow H; [now exists rows, flow|]. cbn [timesteps].
  destruct (solve_saving triv S N a rows nr flow N H (Nat.le_refl _)) as [rows' [flow' [-> [L _]]]]. now apply IH.
Qed.

(** C119: with saving on at setup, after every timestep the recorder finds for each route and each scenario the flow that was the answer
    for this scenario, and the flows of the nodes of that scenario come from the same numbers. *)
Theorem C119_saved (triv : bool) (S : sys) (N : nat) (st : state) (before : list (nat -> nat -> Q)) (answer : nat -> nat -> Q) : s_save st = true ->
  exists st', timesteps triv S N (before ++ [answer]) (setup triv S N st) = Some st' /\
    transposed N st' = Some (map (fun c => map (fun k => Some (answer k c)) (seq 0 N)) (seq 0 (length (routes triv S)))) /\
    (forall n k, k < N -> s_flow st' n k = committed triv S (answer k) n).
Proof.
  intros E. unfold setup. rewrite E. set (nr := length (routes triv S)).
  destruct (timesteps_saving triv S N before (repeat (repeat None nr) N) nr (s_flow st)) as [rows1 [flow1 [T1 L1]]]; [apply repeat_length|].
  destruct (solve_saving triv S N answer rows1 nr flow1 N L1 (Nat.le_refl _)) as [rows2 [flow2 [T2 [L2 [R2 F2]]]]].
  exists (State true (Some (PerScenario rows2)) nr flow2). split; [|split].
  - revert T1. generalize (State true (Some (PerScenario (repeat (repeat None nr) N))) nr (s_flow st)). induction before as [|a l IH]; cbn [app timesteps]; intros s.
    + intros Es. assert (Es' : s = State true (Some (PerScenario rows1)) nr flow1) by congruence. rewrite Es', T2. reflexivity.
    + destruct (solve triv S N a s); [apply IH|discriminate].
  - unfold transposed. cbn [s_array s_nroutes]. f_equal. apply map_ext_in. intros c Hc. apply in_seq in Hc.
    assert (ER : rows2 = map (fun k => map (fun c => Some (answer k c)) (seq 0 nr)) (seq 0 N)).
    { apply nth_error_ext. intros j. rewrite R2, nth_error_map. destruct (Nat.ltb_spec j N) as [H|H].
      - rewrite (nth_error_nth' _ 0) by (rewrite seq_length; exact H). rewrite seq_nth by exact H. reflexivity.
      - rewrite (proj2 (nth_error_None rows1 j)) by lia. rewrite (proj2 (nth_error_None (seq 0 N) j)) by (rewrite seq_length; lia). reflexivity. }
    rewrite ER, map_map. apply map_ext. intros k. rewrite (nth_indep _ None (Some (answer k 0))) by (rewrite map_length, seq_length; lia).
    rewrite (map_nth (fun c => Some (answer k c)) (seq 0 nr) 0 c). rewrite seq_nth by lia. reflexivity.
  - intros n k Hk. cbn [s_flow]. rewrite F2. now rewrite (proj2 (Nat.ltb_lt _ _) Hk).
Qed.
Print Assumptions C119_saved.

(** The flow of a node (not a storage) that carries what passes through it is the sum of the flows of the routes it is on. *)
Theorem C119_accounts (triv : bool) (S : sys) (x : nat -> Q) (n : nat) : wf_sys S -> In n (s_nodes S) -> is_flow_node (s_kind S n) = true -> clean_at S n ->
  (committed triv S x n == qsum (map (fun k => if existsb (Nat.eqb n) (nth k (routes triv S) []) then x k else 0) (seq 0 (length (routes triv S)))))%Q.
Proof.
  intros W M1 M2 M3. rewrite (committed_memb triv S x n W (conj M1 (conj M2 M3))), rsum_seq. apply qsum_map_ext. intros k _. unfold memb.
  destruct (existsb (Nat.eqb n) (nth k (routes triv S) [])); unfold bq; ring.
Qed.
Print Assumptions C119_accounts.

(** Without saving the one row has the flows of the last scenario, and the nodes still get their own. *)
Theorem C119_not_saved (triv : bool) (S : sys) (N : nat) (st : state) (answer : nat -> nat -> Q) : s_save st = false -> 0 < N ->
  exists st', solve triv S N answer (setup triv S N st) = Some st' /\
    s_array st' = Some (Single (map (fun c => Some (answer (N - 1) c)) (seq 0 (length (routes triv S))))) /\
    (forall n k, k < N -> s_flow st' n k = committed triv S (answer k) n).
Proof.
  intros E HN. unfold setup. rewrite E. set (nr := length (routes triv S)).
  enough (X : forall n, 0 < n -> exists flow', solve triv S n answer (State false (Some (Single (repeat None nr))) nr (s_flow st)) =
      Some (State false (Some (Single (map (fun c => Some (answer (n - 1) c)) (seq 0 nr)))) nr flow') /\ (forall m j, j < n -> flow' m j = committed triv S (answer j) m)).
  { destruct (X N HN) as [flow' [X1 X2]]. eexists. split; [exact X1|]. split; [reflexivity|exact X2]. }
  intros n Hn. destruct n as [|n]; [lia|]. clear Hn. induction n as [|n IH].
  - eexists. split; [reflexivity|]. intros m j Hj. assert (j = 0) as -> by lia. reflexivity.
  - destruct IH as [flow' [X1 X2]]. unfold solve in *. rewrite seq_S, fold_left_app, X1. cbn [fold_left Nat.add]. unfold store. cbn [s_save s_array s_nroutes s_flow].
    eexists. split; [do 2 f_equal; cbn; rewrite Nat.sub_0_r; reflexivity|]. intros m j Hj. cbn beta. destruct (Nat.eqb_spec j (Datatypes.S n)) as [->|NE]; [reflexivity|]. apply X2. lia.
Qed.
Print Assumptions C119_not_saved.

(** Switching saving on or off between setup and a solve makes the solve raise: the array was made for the other case. *)
Theorem C119_switched (triv : bool) (S : sys) (N : nat) (st : state) (answer : nat -> nat -> Q) : 0 < N ->
  solve triv S N answer (set_save (negb (s_save st)) (setup triv S N st)) = None.
Proof.
  intros HN. destruct N as [|N]; [lia|]. unfold solve. cbn [seq fold_left].
  assert (E : store triv S 0 (answer 0) (set_save (negb (s_save st)) (setup triv S (Datatypes.S N) st)) = None) by (unfold store, set_save, setup; cbn [s_save s_array]; destruct (s_save st); reflexivity).
  rewrite E. induction (seq 1 N) as [|k l IH]; [reflexivity|exact IH].
Qed.
Print Assumptions C119_switched.

(** So creating a recorder with [routes_flows] after a run makes the next run raise in its first timestep: creating it switches saving on,
    nothing marks the model as changed (C65_late_component_refuted), and [Model.run] resets without a setup. *)
Theorem C119_late_recorder_refuted : exists (triv : bool) (S : sys) (N : nat) (st st' : state) (answer : nat -> nat -> Q),
  wf_sys S /\ solve triv S N answer (setup triv S N st) = Some st' /\ solve triv S N answer (set_save true st') = None.
Proof.
  destruct (C119_not_saved false ex_sys 2 (State false None 0 (fun _ _ => 0%Q)) (fun _ => ex_x) eq_refl) as [st' [E [A _]]]; [lia|].
  exists false, ex_sys, 2, (State false None 0 (fun _ _ => 0%Q)), st', (fun _ => ex_x). split; [exact ex_wf|]. split; [exact E|].
  unfold solve. cbn [seq fold_left]. unfold store at 2, set_save. cbn [s_save s_array]. rewrite A. reflexivity.
Qed.
Print Assumptions C119_late_recorder_refuted.

(** Two scenarios, the second with twice the flows: what is saved, and the flow of the river's link (6) in both. *)
Example saved_example :
  let st := State true None 0 (fun _ _ => 0%Q) in
  match solve false ex_sys 2 (fun k c => inject_Z (Z.of_nat (S k)) * ex_x c)%Q (setup false ex_sys 2 st) with
  | Some st' => option_map (map (map (option_map Qred))) (transposed 2 st') = Some [[Some 7; Some 14]; [Some 2; Some 4]; [Some 4; Some 8]; [Some 1; Some 2]; [Some 6; Some 12]; [Some 20; Some 40]]%Q /\
                Qred (s_flow st' 6 0) = 13%Q /\ Qred (s_flow st' 6 1) = 26%Q
  | None => False
  end.
Proof. vm_compute. repeat split. Qed.
