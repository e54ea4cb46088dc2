(** Model of the scenario part of [pywr/_core.pyx] (lines 13-232). *)
From Verif Require Import Base.
Local Open Scope Z_scope.

(** A Python slice object. *)
Record pyslice := Slice { sl_start : option Z; sl_stop : option Z; sl_step : option Z }.

(** Python's [slice.indices(len)]; [None] is the ValueError for a zero step. *)
Definition slice_indices (s : pyslice) (len : Z) : option (Z * Z * Z) :=
  let step := match sl_step s with None => 1 | Some k => k end in
  if step =? 0 then None
  else
    let lower := if step <? 0 then -1 else 0 in
    let upper := if step <? 0 then len - 1 else len in
    let clip x := if x <? 0 then Z.max (x + len) lower else Z.min x upper in
    let start := match sl_start s with
                 | None => if step <? 0 then upper else lower
                 | Some x => clip x end in
    let stop := match sl_stop s with
                | None => if step <? 0 then lower else upper
                | Some x => clip x end in
    Some (start, stop, step).

(** Number of elements of [range(start, stop, step)], [step <> 0]. *)
Definition range_len (start stop step : Z) : Z :=
  if 0 <? step then (if start <? stop then (stop - start - 1) / step + 1 else 0)
  else (if stop <? start then (start - stop - 1) / (- step) + 1 else 0).

(** [list(range(start, stop, step))]. *)
Definition pyrange (start stop step : Z) : list Z :=
  map (fun i => start + Z.of_nat i * step) (seq 0 (Z.to_nat (range_len start stop step))).

(** A [Scenario]: _core.pyx:42-52.  A size below one is refused (None).
    Simplified: name and ensemble_names are left out. *)
Record scenario := Scenario { sc_size : Z; sc_slice : option pyslice }.

Definition mk_scenario (size : Z) (sl : option pyslice) : option scenario :=
  if size <? 1 then None else Some (Scenario size sl).

(** [range(scenario._size)[scenario.slice] if scenario.slice else range(scenario._size)]:
    _core.pyx:122-124.  [None]: ValueError for a zero step. *)
Definition scenario_range (sc : scenario) : option (list Z) :=
  match sc_slice sc with
  | None => Some (pyrange 0 (sc_size sc) 1)
  | Some sl =>
      match slice_indices sl (sc_size sc) with
      | None => None
      | Some (a, b, k) => Some (pyrange a b k)
      end
  end.

(** [itertools.product]: the rightmost factor varies fastest. *)
Fixpoint product {A} (ls : list (list A)) : list (list A) :=
  match ls with
  | [] => [[]]
  | l :: rest => flat_map (fun x => map (cons x) (product rest)) l
  end.

(** A [ScenarioIndex]: _core.pyx:232-235. *)
Record scenario_index := SI { global_id : nat; indices : list Z }.

(** [ScenarioCollection] state: the list of scenarios and [_user_combinations] (a 2-d array, by rows). *)
Record collection := Coll { scenarios : list scenario; user : option (list (list Z)) }.

Definition enumerate_si (l : list (list Z)) : list scenario_index :=
  map (fun p => SI (fst p) (snd p)) (combine (seq 0 (length l)) l).

(** All elements present, or none. *)
Fixpoint sequence {A} (l : list (option A)) : option (list A) :=
  match l with
  | [] => Some []
  | None :: _ => None
  | Some x :: r => match sequence r with None => None | Some s => Some (x :: s) end
  end.

(** _core.pyx:108-128 [get_combinations]; [None] is the ValueError of line 126 (or a zero slice step). *)
Definition get_combinations (c : collection) : option (list scenario_index) :=
  let combos :=
    match scenarios c with
    | [] => Some [SI 0 [0]]
    | _ =>
        match user c with
        | Some u => Some (enumerate_si u)
        | None =>
            match sequence (map scenario_range (scenarios c)) with
            | None => None
            | Some rs => Some (enumerate_si (product rs))
            end
        end
    end in
  match combos with
  | None => None
  | Some [] => None
  | Some l => Some l
  end.

(** What the user assigns to [user_combinations]: a 2-d array given by its row width and rows,
    or something of another dimension.  Simplified: conversion to int32 is the identity. *)
Inductive uarray := Arr2 (width : nat) (rows : list (list Z)) | ArrOther.

Definition col_max (j : nat) (rows : list (list Z)) : Z :=
  match rows with
  | [] => 0
  | r :: rs => fold_left (fun m r => Z.max m (nth j r 0)) rs (nth j r 0)
  end.
Definition col_min (j : nat) (rows : list (list Z)) : Z :=
  match rows with
  | [] => 0
  | r :: rs => fold_left (fun m r => Z.min m (nth j r 0)) rs (nth j r 0)
  end.

(** _core.pyx:137-154: the setter.  [None] = exception, the state is then unchanged. *)
Definition set_user (c : collection) (v : option uarray) : option collection :=
  match v with
  | None => Some (Coll (scenarios c) None)
  | Some ArrOther => None
  | Some (Arr2 w rows) =>
      if negb (Nat.eqb w (length (scenarios c))) then None
      else if (match rows with [] => negb (Nat.eqb w 0) | _ => false end) then None  (* numpy: max of an empty axis *)
      else if existsb (fun js => sc_size (snd js) <=? col_max (fst js) rows)
                 (combine (seq 0 w) (scenarios c)) then None
      else if existsb (fun j => col_min j rows <? 0) (seq 0 w) then None
      else Some (Coll (scenarios c) (Some rows))
  end.

(** _core.pyx:160-164 [add_scenario]. Simplified: adding the same object twice is not modelled. *)
Definition add_scenario (c : collection) (s : scenario) : collection :=
  Coll (scenarios c ++ [s]) (user c).

(** _core.pyx:181-188 [shape]. *)
Definition shape (c : collection) : option (list Z) :=
  match user c with
  | Some u => Some [Z.of_nat (length u)]
  | None =>
      match scenarios c with
      | [] => Some [1]
      | scs => sequence (map (fun s => option_map (fun l => Z.of_nat (length l)) (scenario_range s)) scs)
      end
  end.

(** numpy [ravel_multi_index] in C order; [None] = ValueError (length mismatch or out of bounds). *)
Fixpoint ravel_go (acc : Z) (idx shape : list Z) : option Z :=
  match idx, shape with
  | [], [] => Some acc
  | i :: idx', n :: shape' =>
      if (0 <=? i) && (i <? n) then ravel_go (acc * n + i) idx' shape' else None
  | _, _ => None
  end.

(** _core.pyx:202-208 [ravel_indices]. *)
Definition ravel_indices (c : collection) (idx : list Z) : option Z :=
  match idx with
  | [] => Some 0
  | _ => match shape c with None => None | Some sh => ravel_go 0 idx sh end
  end.
