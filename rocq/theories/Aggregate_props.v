(** Aggregated parameters: C39. *)
From Verif Require Import Base LP_model Sorting Aggregate_model Aggregate_spec Aggregate_proofs.
Local Open Scope Q_scope.

(** In every scenario combination the named aggregate of the members' values in that combination. *)
Theorem C39_aggregate : forall user f n members, supported f = true -> members <> [] ->
  (forall vs, In vs members -> length vs = n) ->
  exists out, aggregate user f n members = Some out /\
  forall i, (i < n)%nat -> exists v, nth_error out i = Some (Fin v) /\ is_aggregate f (map (fun vs => nth i vs 0) members) v.
Proof. exact aggregate_spec. Qed.
Print Assumptions C39_aggregate.

(** The order of the members does not matter. *)
Theorem C39_order_irrelevant : forall user f n members members' out out' i v v', supported f = true -> members <> [] ->
  (forall vs, In vs members -> length vs = n) -> Permutation members members' ->
  aggregate user f n members = Some out -> aggregate user f n members' = Some out' -> (i < n)%nat ->
  nth_error out i = Some (Fin v) -> nth_error out' i = Some (Fin v') -> v == v'.
Proof.
  intros user f n members members' out out' i v v' Hf Hne Hm P E E' Hi N N'.
  destruct (aggregate_spec user f n members Hf Hne Hm) as [o [Eo Ho]]. rewrite E in Eo. injection Eo as <-.
  destruct (aggregate_spec user f n members' Hf) as [o' [Eo' Ho']].
  { intros ->. apply Hne. now apply Permutation_nil, Permutation_sym. }
  { intros vs Hv. apply Hm. now apply (Permutation_in _ (Permutation_sym P)). }
  rewrite E' in Eo'. injection Eo' as <-.
  destruct (Ho i Hi) as [w [W A]]. destruct (Ho' i Hi) as [w' [W' A']].
  rewrite N in W. rewrite N' in W'. injection W as <-. injection W' as <-.
  apply (aggregate_determined f (map (fun vs => nth i vs 0) members) (map (fun vs => nth i vs 0) members') v v'); auto.
  - now apply Permutation_map.
  - destruct members; [easy|discriminate].
Qed.
Print Assumptions C39_order_irrelevant.

(** The index version; values must fit a C int (they do: they are stored as such). *)
Theorem C39_index_aggregate : forall user f n members, index_supported f = true -> members <> [] ->
  (forall vs, In vs members -> length vs = n) ->
  (forall vs v, In vs members -> In v vs -> (int_min <= v <= int_max)%Z) ->
  exists out, aggregate_index user f n members = Some out /\
  forall i, (i < n)%nat -> exists v, nth_error out i = Some v /\ is_index_aggregate f (map (fun vs => nth i vs 0%Z) members) v.
Proof. exact aggregate_index_spec. Qed.
Print Assumptions C39_index_aggregate.

Theorem C39_index_order_irrelevant : forall user f n members members' out out' i v v', index_supported f = true -> members <> [] ->
  (forall vs, In vs members -> length vs = n) ->
  (forall vs v, In vs members -> In v vs -> (int_min <= v <= int_max)%Z) -> Permutation members members' ->
  aggregate_index user f n members = Some out -> aggregate_index user f n members' = Some out' -> (i < n)%nat ->
  nth_error out i = Some v -> nth_error out' i = Some v' -> v = v'.
Proof.
  intros user f n members members' out out' i v v' Hf Hne Hm Hr P E E' Hi N N'.
  destruct (aggregate_index_spec user f n members Hf Hne Hm Hr) as [o [Eo Ho]]. rewrite E in Eo. injection Eo as <-.
  destruct (aggregate_index_spec user f n members' Hf) as [o' [Eo' Ho']].
  { intros ->. apply Hne. now apply Permutation_nil, Permutation_sym. }
  { intros vs Hv. apply Hm. now apply (Permutation_in _ (Permutation_sym P)). }
  { intros vs x Hv. apply Hr. now apply (Permutation_in _ (Permutation_sym P)). }
  rewrite E' in Eo'. injection Eo' as <-.
  destruct (Ho i Hi) as [w [W A]]. destruct (Ho' i Hi) as [w' [W' A']].
  rewrite N in W. rewrite N' in W'. injection W as <-. injection W' as <-.
  apply (index_aggregate_determined f (map (fun vs => nth i vs 0%Z) members) (map (fun vs => nth i vs 0%Z) members') v v'); auto.
  now apply Permutation_map.
Qed.
Print Assumptions C39_index_order_irrelevant.

(** Which names are refused (ValueError) at the first timestep: any/all of values, mean/median of indices. *)
Theorem C39_refused : forall user zuser f n members zmembers,
  (aggregate user f n members = None <-> f = AAny \/ f = AAll) /\
  (aggregate_index zuser f n zmembers = None <-> f = AMean \/ f = AMedian).
Proof.
  intros. split; destruct f; cbn; split; intros H; try discriminate; auto; try (destruct H; discriminate); reflexivity.
Qed.
Print Assumptions C39_refused.

Example C39_example :
  aggregate qsum AMedian 2 [[1; 5]; [7; 2]; [3; 9]; [4; 4]] = Some [Fin ((3 + 4) / 2); Fin ((4 + 5) / 2)] /\
  aggregate qsum AMax 2 [[1; 5]; [7; 2]; [3; 9]] = Some [Fin 7; Fin 9] /\
  aggregate_index zsum AAll 3 [[1; 0; 2]; [3; 1; 1]]%Z = Some [1; 0; 1]%Z.
Proof. repeat split; reflexivity. Qed.
