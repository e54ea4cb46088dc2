(** The function "percentileofscore" of Aggregator: [pywr/recorders/_recorders.pyx] 133-134 (aggregate_1d) and 166-178 (aggregate_2d), with
    scipy.stats.percentileofscore of a list of numbers; NaN does not occur. *)
From Verif Require Import Base.
Local Open Scope Q_scope.
Local Open Scope list_scope.

Inductive kind := Rank | Strict | Weak | MeanKind.

(** scipy.stats.percentileofscore; of no data it is 100. *)
Definition of_score (k : kind) (score : Q) (l : list Q) : Q :=
  let n := length l in
  let left := countb (fun x => qltb x score) l in
  let right := countb (fun x => qleb x score) l in
  if Nat.eqb n 0 then 100
  else match k with
       | Rank => inject_Z (Z.of_nat (left + right + (if Nat.ltb left right then 1 else 0))) * (50 / inject_Z (Z.of_nat n))
       | Strict => inject_Z (Z.of_nat left) * (100 / inject_Z (Z.of_nat n))
       | Weak => inject_Z (Z.of_nat right) * (100 / inject_Z (Z.of_nat n))
       | MeanKind => inject_Z (Z.of_nat (left + right)) * (50 / inject_Z (Z.of_nat n))
       end.

(** 133-134; without NaN, [ignore_nan] makes a difference for an empty array only (NaN, which is left out here). *)
Definition score_1d (k : kind) (score : Q) (values : list Q) : Q := of_score k score values.

(** 166-178: along axis 0 every column, along axis 1 every row; any other axis is refused. [n]: the number of columns. *)
Definition score_2d (k : kind) (score : Q) (axis : nat) (n : nat) (rows : list (list Q)) : option (list Q) :=
  match axis with
  | O => Some (map (fun i => of_score k score (map (fun row => nth i row 0) rows)) (seq 0 n))
  | 1%nat => Some (map (of_score k score) rows)
  | _ => None
  end.
