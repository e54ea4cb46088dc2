(** C05, C06, C07: scenario combinations. *)
From Verif Require Import Base Scenario_model Scenario_spec Scenario_proofs.
From Coq Require Import Sorted.
Local Open Scope Z_scope.

(** C05.  [rs] are the selected members of each scenario. The combinations are exactly the tuples with
    one selected member per scenario, each once, lexicographically ordered (for whatever order the
    selected members are listed in), ids 0,1,2,..., as many as the product of the numbers selected. *)
Theorem C05_combinations_are_cartesian_product : forall c l,
  wf_coll c -> scenarios c <> [] -> user c = None -> get_combinations c = Some l ->
  exists rs, Forall2 (fun s r => scenario_range s = Some r) (scenarios c) rs /\
    (forall t, In t (map indices l) <-> Forall2 (@In Z) t rs) /\
    NoDup (map indices l) /\
    (forall R, Forall (StronglySorted R) rs -> StronglySorted (lex R) (map indices l)) /\
    map global_id l = seq 0 (length l) /\
    length l = nprod (map (@length Z) rs).
Proof. exact combinations_spec. Qed.
Print Assumptions C05_combinations_are_cartesian_product.

(** C05: the members selected are ensemble members, without repetition; all of them, ascending, when the
    scenario has no slice. *)
Theorem C05_selected_members_are_valid : forall sc l x,
  1 <= sc_size sc -> scenario_range sc = Some l -> In x l -> 0 <= x < sc_size sc.
Proof. exact scenario_range_valid. Qed.
Print Assumptions C05_selected_members_are_valid.

Theorem C05_unsliced_scenario_selects_all : forall sc,
  1 <= sc_size sc -> sc_slice sc = None ->
  scenario_range sc = Some (map Z.of_nat (seq 0 (Z.to_nat (sc_size sc)))).
Proof. exact scenario_range_all. Qed.
Print Assumptions C05_unsliced_scenario_selects_all.

(** C05: a slice selects what Python's slicing selects, in its order; a zero step is refused. *)
Theorem C05_slice_selects : forall n a b k, 1 <= n ->
  match scenario_range (Scenario n (Some (Slice a b k))) with
  | None => k = Some 0
  | Some l =>
      let k := match k with Some k => k | None => 1 end in
      k <> 0 /\ (forall x, In x l <-> sliced n a b k x) /\
      (0 < k -> StronglySorted Z.lt l) /\ (k < 0 -> StronglySorted Z.gt l)
  end.
Proof. exact scenario_range_slice. Qed.
Print Assumptions C05_slice_selects.

(** C06: an accepted array is simulated as given, with valid indices only. *)
Theorem C06_accepted_user_combinations_are_valid : forall c w rows c',
  scenarios c <> [] ->
  Forall (fun r => length r = w) rows -> set_user c (Some (Arr2 w rows)) = Some c' ->
  exists l, get_combinations c' = Some l /\ map indices l = rows /\ map global_id l = seq 0 (length rows) /\
    forall si, In si l -> Forall2 (fun x s => 0 <= x < sc_size s) (indices si) (scenarios c').
Proof. exact user_combinations_run. Qed.
Print Assumptions C06_accepted_user_combinations_are_valid.

(** C06: an array is refused only if it is invalid. *)
Theorem C06_refused_only_if_invalid : forall c w rows,
  Forall (fun r => length r = w) rows ->
  set_user c (Some (Arr2 w rows)) = None ->
  w <> length (scenarios c) \/ (rows = [] /\ scenarios c <> []) \/
  exists r, In r rows /\ ~ Forall2 (fun x s => 0 <= x < sc_size s) r (scenarios c).
Proof. exact set_user_rejects. Qed.
Print Assumptions C06_refused_only_if_invalid.

(** C06 does not survive adding a scenario afterwards: the combinations simulated then lack an index. *)
Theorem C06_adding_scenario_later_refuted :
  exists c w rows c' s l si,
    scenarios c <> [] /\ set_user c (Some (Arr2 w rows)) = Some c' /\
    get_combinations (add_scenario c' s) = Some l /\ In si l /\
    length (indices si) <> length (scenarios (add_scenario c' s)).
Proof.
  exists (Coll [Scenario 3 None] None), 1%nat, [[2];[0]], (Coll [Scenario 3 None] (Some [[2];[0]])),
         (Scenario 2 None), [SI 0 [2]; SI 1 [0]], (SI 0 [2]).
  repeat split; try reflexivity; try discriminate. now left.
Qed.
Print Assumptions C06_adding_scenario_later_refuted.

(** C07 holds without slices and user combinations. *)
Theorem C07_ravel_is_global_id_partial : forall c l si,
  wf_coll c -> user c = None -> Forall (fun s => sc_slice s = None) (scenarios c) ->
  get_combinations c = Some l -> In si l -> ravel_indices c (indices si) = Some (Z.of_nat (global_id si)).
Proof. exact ravel_without_slices. Qed.
Print Assumptions C07_ravel_is_global_id_partial.

(** C07 fails with a slice: combination with id 0 is mapped to 1, that with id 1 raises. *)
Theorem C07_ravel_with_slice_refuted :
  exists c l si sj,
    wf_coll c /\ get_combinations c = Some l /\ In si l /\ In sj l /\
    (exists k, ravel_indices c (indices si) = Some k /\ k <> Z.of_nat (global_id si)) /\
    ravel_indices c (indices sj) = None.
Proof.
  exists (Coll [Scenario 3 (Some (Slice (Some 1) None None))] None),
         [SI 0 [1]; SI 1 [2]], (SI 0 [1]), (SI 1 [2]).
  repeat split; try reflexivity.
  - repeat constructor; cbn; lia.
  - now left.
  - right; now left.
  - exists 1. split; [reflexivity|discriminate].
Qed.
Print Assumptions C07_ravel_with_slice_refuted.

(** Non-vacuity: two scenarios, one with a stepped slice. *)
Example scenario_example :
  let c := Coll [Scenario 5 (Some (Slice (Some 0) (Some (-1)) (Some 3))); Scenario 2 None] None in
  get_combinations c = Some [SI 0 [0;0]; SI 1 [0;1]; SI 2 [3;0]; SI 3 [3;1]] /\
  set_user c (Some (Arr2 2 [[4;1];[0;0]])) <> None /\
  set_user c (Some (Arr2 2 [[4;2]])) = None /\ set_user c (Some (Arr2 2 [[-1;0]])) = None.
Proof. vm_compute. repeat split; congruence. Qed.
Example ravel_example :
  let c := Coll [Scenario 2 None; Scenario 3 None] None in
  match get_combinations c with
  | Some l => map (fun s => ravel_indices c (indices s)) l = map Some [0;1;2;3;4;5]
  | None => False end.
Proof. vm_compute. reflexivity. Qed.
