(** Threshold parameters: /repo/pywr/parameters/_thresholds.pyx:19-359.

    In each timestep a scenario combination enters by the number compared, `_value_to_compare`, and the threshold
    (`_threshold_parameter.get_value` or `_threshold`).  Which number is compared: the storage's volume (150-151), the
    node's `prev_flow` (172-173), the parameter's value (306-307), or the recorder's entry of the timestep before
    (338-340).  NaN does not occur here (a comparison with NaN is false in C). *)
From Verif Require Import Base Ring.
Local Open Scope Q_scope.

(** Predicates, 8-18. *)
Inductive predicate := LT | GT | EQ | LE | GE.
Definition test (p : predicate) (x threshold : Q) : bool :=
  match p with
  | LT => qltb x threshold
  | GT => qltb threshold x
  | LE => qleb x threshold
  | GE => qleb threshold x
  | EQ => qeqb x threshold
  end.

(** What the class does in the timestep with `timestep.index == 0`: nothing special (AbstractThresholdParameter), the index
    is 0 (NodeThresholdParameter.index, 175-179), or `initial_value` (RecorderThresholdParameter.index, 342-353). *)
Inductive first_rule := AsUsual | Returns (v : Z).

Record config := { c_predicate : predicate; c_ratchet : bool; c_first : first_rule }.

(** reset, 71-73: all entries of `_triggered` are cleared. *)
Definition triggered_reset (triggered : list bool) : list bool := map (fun _ => false) triggered.

(** AbstractThresholdParameter.index, 90-119: the index and the new `_triggered`. *)
Definition base_index (c : config) (triggered : list bool) (id : nat) (x threshold : Q) : Z * list bool :=
  let tr := nth id triggered false in
  if c_ratchet c && tr then (if tr then 1%Z else 0%Z, triggered)
  else
    let ind := test (c_predicate c) x threshold in
    (if ind then 1%Z else 0%Z, upd triggered id (ind || tr)).

Definition threshold_index (c : config) (ts_index : nat) (triggered : list bool) (id : nat) (x threshold : Q) : Z * list bool :=
  match c_first c with
  | Returns v => if Nat.eqb ts_index 0 then (v, triggered) else base_index c triggered id x threshold
  | AsUsual => base_index c triggered id x threshold
  end.

(** IndexParameter.calc_values (/repo/pywr/parameters/_parameters.pyx:1213-1218): each combination in turn. *)
Fixpoint calc_indices (c : config) (ts_index : nat) (triggered : list bool) (id : nat) (inputs : list (Q * Q)) : list Z * list bool :=
  match inputs with
  | [] => ([], triggered)
  | (x, threshold) :: r =>
      let '(i, tr) := threshold_index c ts_index triggered id x threshold in
      let '(is, tr') := calc_indices c ts_index tr (S id) r in
      (i :: is, tr')
  end.

(** A run: the indices of each timestep.  [history]: for each timestep, for each combination, number and threshold. *)
Fixpoint threshold_run (c : config) (ts_index : nat) (triggered : list bool) (history : list (list (Q * Q))) : list (list Z) :=
  match history with
  | [] => []
  | inputs :: r => let '(is, tr) := calc_indices c ts_index triggered 0 inputs in is :: threshold_run c (S ts_index) tr r
  end.

(** value, 78-87: [None] is NaN. *)
Definition threshold_value (values : option (list Q)) (index : Z) : option Q :=
  match values with Some v => Some (nth (Z.to_nat index) v 0) | None => None end.

(** ** MultipleThresholdIndexParameter.index, 213-233, and MultipleThresholdParameterIndexParameter.index, 267-285;
    [x] is `node._prev_flow` or the value of the parameter. *)
Fixpoint multiple_loop (x : Q) (j : nat) (thresholds : list Q) (index : nat) : nat :=
  match thresholds with
  | [] => index
  | t :: r => if qleb t x then j else multiple_loop x (S j) r index
  end.
Definition multiple_index (x : Q) (thresholds : list Q) : nat := multiple_loop x 0 thresholds (length thresholds).
