(** StorageThresholdRecorder and NodeThresholdRecorder: /repo/pywr/recorders/_thresholds.pyx. *)
From Coq Require Import Ascii String.
From Verif Require Import Base Ring Thresholds_model.
Local Open Scope Q_scope.
Local Open Scope list_scope.

(** compare, 20-33: any number that is none of the other four compares for equality. *)
Definition of_number (n : Z) : predicate :=
  if (n =? 0)%Z then LT else if (n =? 1)%Z then GT else if (n =? 3)%Z then LE else if (n =? 4)%Z then GE else EQ.
Definition compare (x threshold : Q) (predicate : Z) : Z := if test (of_number predicate) x threshold then 1 else 0.

(** str.upper on ASCII letters. *)
Definition upper_char (c : ascii) : ascii :=
  let n := nat_of_ascii c in if (97 <=? n)%nat && (n <=? 122)%nat then ascii_of_nat (n - 32) else c.
Fixpoint upper (s : string) : string := match s with EmptyString => EmptyString | String c r => String (upper_char c) (upper r) end.

(** The dictionary of 11-17, its keys in upper case. *)
Definition lookup (s : string) : option Z :=
  if (String.eqb s "LT" || String.eqb s "<")%bool then Some 0%Z
  else if (String.eqb s "GT" || String.eqb s ">")%bool then Some 1%Z
  else if (String.eqb s "EQ" || String.eqb s "=")%bool then Some 2%Z
  else if (String.eqb s "LE" || String.eqb s "<=")%bool then Some 3%Z
  else if (String.eqb s "GE" || String.eqb s ">=")%bool then Some 4%Z
  else None.

(** What is given as [predicate], 56-60 and 101-105, and to a threshold parameter, /repo/pywr/parameters/_thresholds.pyx:55-60, which has a dictionary of the same
    names (11-17); [None]: a KeyError. *)
Inductive given := GNothing | GName (s : string) | GNumber (z : Z).
Definition chosen (g : given) : option Z :=
  match g with GNothing => Some 0%Z | GName s => lookup (upper s) | GNumber z => Some z end.

(** `_state`: setup 62-63 and reset 65-66; after 71-77 (volumes) and 116-122 (flows), in the order of the combinations; values 68-69. *)
Definition reset (ncomb : nat) : list Z := repeat 0%Z ncomb.
Fixpoint after_from (threshold : Q) (predicate : Z) (id : nat) (xs : list Q) (state : list Z) : list Z :=
  match xs with [] => state | x :: r => after_from threshold predicate (S id) r (upd state id (compare x threshold predicate)) end.
Definition after (threshold : Q) (predicate : Z) (xs : list Q) (state : list Z) : list Z := after_from threshold predicate 0 xs state.
Definition run (ncomb : nat) (threshold : Q) (predicate : Z) (history : list (list Q)) : list Z :=
  fold_left (fun state xs => after threshold predicate xs state) history (reset ncomb).
Definition values (state : list Z) : list Q := map inject_Z state.
