(** Aggregated parameters: /repo/pywr/parameters/_parameters.pyx:1438-1682.

    A member enters by the array of values (one per scenario combination) it returns in the timestep,
    [get_all_values()]; [n] is the number of combinations.  C ints of the index version are unbounded here. *)
From Verif Require Import Base LP_model Sorting.
Local Open Scope Q_scope.

(** AggFuncs, 1410-1419. *)
Inductive agg_func := ASum | AMin | AMax | AMean | AProduct | ACustom | AAny | AAll | AMedian.

(** `for i in range(n): accum[i] = op(accum[i], values[i])` *)
Fixpoint accumulate {A V} (op : A -> V -> A) (accum : list A) (values : list V) : list A :=
  match accum, values with
  | a :: r, v :: w => op a v :: accumulate op r w
  | _, _ => accum
  end.
Definition over_members {A V} (op : A -> V -> A) (start : A) (n : nat) (members : list (list V)) : list A :=
  fold_left (accumulate op) members (repeat start n).

(** `values[i] > accum[i]` and `values[i] < accum[i]` with an infinite start value. *)
Definition max_step (a : ext) (v : Q) : ext :=
  match a with NInf => Fin v | Fin q => if qltb q v then Fin v else a | PInf => a end.
Definition min_step (a : ext) (v : Q) : ext :=
  match a with PInf => Fin v | Fin q => if qltb v q then Fin v else a | NInf => a end.

(** np.median: the middle of the sorted values, or the mean of the two in the middle. *)
Definition np_median (l : list Q) : Q :=
  let s := isort qleb l in
  let n := length s in
  if Nat.odd n then nth (n / 2) s 0 else (nth (n / 2 - 1) s 0 + nth (n / 2) s 0) / 2.

Definition column (i : nat) (members : list (list Q)) : list Q := map (fun vs => nth i vs 0) members.

(** AggregatedParameter.calc_values, 1503-1556.  [None]: ValueError.  [user] is the custom function. *)
Definition aggregate (user : list Q -> Q) (f : agg_func) (n : nat) (members : list (list Q)) : option (list ext) :=
  match f with
  | AProduct => Some (map Fin (over_members Qmult 1 n members))
  | ASum => Some (map Fin (over_members Qplus 0 n members))
  | AMax => Some (over_members max_step NInf n members)
  | AMin => Some (over_members min_step PInf n members)
  | AMean => Some (map (fun a => Fin (a / inject_Z (Z.of_nat (length members)))) (over_members Qplus 0 n members))
  | AMedian => Some (map (fun i => Fin (np_median (column i members))) (seq 0 n))
  | ACustom => Some (map (fun i => Fin (user (column i members))) (seq 0 n))
  | AAny | AAll => None
  end.

(** AggregatedIndexParameter.calc_values, 1624-1682, with INT_MIN and INT_MAX as start values. *)
Definition int_max : Z := 2147483647.
Definition int_min : Z := - 2147483648.
Definition zcolumn (i : nat) (members : list (list Z)) : list Z := map (fun vs => nth i vs 0%Z) members.
Definition aggregate_index (user : list Z -> Z) (f : agg_func) (n : nat) (members : list (list Z)) : option (list Z) :=
  match f with
  | AProduct => Some (over_members Z.mul 1%Z n members)
  | ASum => Some (over_members Z.add 0%Z n members)
  | AMax => Some (over_members (fun a v => if (a <? v)%Z then v else a) int_min n members)
  | AMin => Some (over_members (fun a v => if (v <? a)%Z then v else a) int_max n members)
  | AAny => Some (over_members (fun a v => if (v =? 0)%Z then a else 1%Z) 0%Z n members)
  | AAll => Some (over_members (fun a v => if (v =? 0)%Z then 0%Z else a) 1%Z n members)
  | ACustom => Some (map (fun i => user (zcolumn i members)) (seq 0 n))
  | AMean | AMedian => None
  end.
