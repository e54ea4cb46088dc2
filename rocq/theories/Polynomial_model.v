(** Polynomial1DParameter and Polynomial2DStorageParameter: /repo/pywr/parameters/_polynomial.pyx. *)
From Verif Require Import Base.
Local Open Scope Q_scope.
Local Open Scope list_scope.

(** What can be read for one scenario combination when the value is calculated: the value of the parameter, volume and
    proportional volume of the storage (get_current_pc), `_flow` of the node. *)
Record seen := Seen { v_parameter : Q; v_volume : Q; v_pc : Q; v_flow : Q }.

Inductive source := OfParameter | OfStorage (proportional : bool) | OfNode | OfOwnNode.

(** __init__, 36-59: which of `node`, `storage_node` and `parameter` are given; [None] is the ValueError of 52-53.  The order
    in which value() looks for them is that of 67-76. *)
Definition make_source (node storage parameter proportional : bool) : option source :=
  if Nat.ltb 1 (countb (fun b => b) [node; storage; parameter]) then None
  else Some (if parameter then OfParameter else if storage then OfStorage proportional else if node then OfNode else OfOwnNode).

(** 67-76.  [None]: nothing in pywr assigns Parameter._node (declared in _parameters.pxd:11), so that the last line reads
    the memory of an attribute of [None]. *)
Definition input_of (s : source) (v : seen) : option Q :=
  match s with
  | OfParameter => Some (v_parameter v)
  | OfStorage proportional => Some (if proportional then v_pc v else v_volume v)
  | OfNode => Some (v_flow v)
  | OfOwnNode => None
  end.

(** `x**i` for a C integer [i >= 0]. *)
Fixpoint power (x : Q) (i : nat) : Q := match i with O => 1 | S k => x * power x k end.

(** 79-84. *)
Definition poly1 (coefficients : list Q) (x : Q) : Q :=
  fold_left (fun y i => y + nth i coefficients 0 * power x i) (seq 0 (length coefficients)) 0.
Definition value1 (s : source) (coefficients : list Q) (scale offset : Q) (v : seen) : option Q :=
  option_map (fun x => poly1 coefficients (x * scale + offset)) (input_of s v).

(** 135-169.  The rows of the array all have the length of the first; other input is refused by numpy or the memory view. *)
Definition rectangular (coefficients : list (list Q)) : bool :=
  match coefficients with [] => true | r :: rs => forallb (fun r' => Nat.eqb (length r') (length r)) rs end.
Definition ncols (coefficients : list (list Q)) : nat := match coefficients with [] => 0 | r :: _ => length r end.
Definition poly2 (coefficients : list (list Q)) (x y : Q) : Q :=
  fold_left (fun z i => fold_left (fun z j => z + nth j (nth i coefficients []) 0 * power x i * power y j) (seq 0 (ncols coefficients)) z)
    (seq 0 (length coefficients)) 0.
Definition value2 (proportional : bool) (coefficients : list (list Q)) (storage_scale storage_offset parameter_scale parameter_offset : Q) (v : seen) : Q :=
  poly2 coefficients (storage_scale * (if proportional then v_pc v else v_volume v) + storage_offset) (parameter_scale * v_parameter v + parameter_offset).

(** ** A node's flow within a timestep

    Model.before (/repo/pywr/_model.pyx:839-848) calls `before` of the nodes, which sets `_flow` to zero
    (/repo/pywr/_core.pyx:475-479), and after that calculates the parameters; then the solver commits the flow, and
    `after` (491-492) copies it to `_prev_flow`. *)
Record node_state := NodeState { flow : Q; prev_flow : Q }.
Definition node_before (s : node_state) : node_state := NodeState 0 (prev_flow s).
Definition node_commit (f : Q) (s : node_state) : node_state := NodeState (flow s + f) (prev_flow s).
Definition node_after (s : node_state) : node_state := NodeState (flow s) (flow s).
Definition node_reset : node_state := NodeState 0 0.

(** The values calculated in each timestep for the flows that the solver finds. *)
Fixpoint run1 (s : source) (coefficients : list Q) (scale offset : Q) (n : node_state) (flows : list Q) : list (option Q) :=
  match flows with
  | [] => []
  | f :: r =>
      let n := node_before n in
      value1 s coefficients scale offset (Seen 0 0 0 (flow n)) :: run1 s coefficients scale offset (node_after (node_commit f n)) r
  end.
