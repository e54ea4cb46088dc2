(** Model of the flows of the routes kept by the route-based solver: [pywr/solvers/cython_glpk.pyx] 457-466 (setup), 826-828 (the loop over
    the scenarios), 1068-1093 (after each scenario); [pywr/solvers/__init__.py] 140-157; [pywr/recorders/recorders.py] 331-333, 576-585, 672-678.

    GLPK's answer for each scenario is given.  New arrays are not initialised in the code; here they start with [None]. *)
From Verif Require Import Base Paths Routes_model LP_model Sys_model RouteLP_model.
Local Open Scope nat_scope.
Local Open Scope list_scope.

(** The array: one row, or one row for each scenario. *)
Inductive routes_array := Single (row : list (option Q)) | PerScenario (rows : list (list (option Q))).

(** The flag [save_routes_flows], the array (absent before the first setup), the number of routes when the problem was set up, and the
    flows committed: a node's flow in a scenario. *)
Record state := State { s_save : bool; s_array : option routes_array; s_nroutes : nat; s_flow : nat -> nat -> Q }.

(** 457-466. *)
Definition setup (triv : bool) (S : sys) (scenarios : nat) (st : state) : state :=
  let n := length (routes triv S) in
  State (s_save st) (Some (if s_save st then PerScenario (repeat (repeat None n) scenarios) else Single (repeat None n))) n (s_flow st).

(** Assignment of the flag: solvers/__init__.py 144-145; recorders.py 331-333 when a recorder with [routes_flows] is created. *)
Definition set_save (b : bool) (st : state) : state := State b (s_array st) (s_nroutes st) (s_flow st).

Fixpoint replace_row {A} (k : nat) (row : A) (rows : list A) : list A :=
  match rows, k with
  | [], _ => []
  | _ :: rs, O => row :: rs
  | r :: rs, S k => r :: replace_row k row rs
  end.

(** 1068-1093 for one scenario with the answer [x] (routes' flows); [None]: an exception.  Taking a row of the single row, or all rows as
    one row, is refused by the typed view. *)
Definition store (triv : bool) (S : sys) (k : nat) (x : nat -> Q) (st : state) : option state :=
  let row := map (fun c => Some (x c)) (seq 0 (s_nroutes st)) in
  let flow := fun n j => if j =? k then committed triv S x n else s_flow st n j in
  match s_save st, s_array st with
  | true, Some (PerScenario rows) => if k <? length rows then Some (State true (Some (PerScenario (replace_row k row rows))) (s_nroutes st) flow) else None
  | false, Some (Single _) => Some (State false (Some (Single row)) (s_nroutes st) flow)
  | _, _ => None
  end.

(** 826-828: the scenarios of a timestep in turn. *)
Definition solve (triv : bool) (S : sys) (scenarios : nat) (answer : nat -> nat -> Q) (st : state) : option state :=
  fold_left (fun r k => match r with Some s => store triv S k (answer k) s | None => None end) (seq 0 scenarios) (Some st).

(** What a recorder with [routes_flows] takes in [after], recorders.py 672-678: [routes_flows_array.T]: for each route the values of the
    scenarios.  A single row has the wrong size unless there is one scenario. *)
Definition transposed (scenarios : nat) (st : state) : option (list (list (option Q))) :=
  match s_array st with
  | Some (PerScenario rows) => Some (map (fun c => map (fun row => nth c row None) rows) (seq 0 (s_nroutes st)))
  | Some (Single row) => if scenarios =? 1 then Some (map (fun v => [v]) row) else None
  | None => None
  end.
