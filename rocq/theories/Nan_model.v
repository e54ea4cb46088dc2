(** What reaches GLPK when values are not numbers: /repo/pywr/solvers/cython_glpk.pyx 251-336 (calls with and without checks), 763-784 and
    789-819 (constant bounds and factors, in reset), 826-1031 (CythonGLPKSolver._solve_scenario up to the simplex), 1640-1855 (the same of
    CythonGLPKEdgeSolver), 90-95 (inf_to_dbl_max).
    Simplifications:
    - doubles are exact numbers, infinities or NaN; DBL_MAX, which GLPK takes for infinity, is infinity here;
    - the number of days of a timestep is positive;
    - of a row of factors there are the values only, of the order of the calls the kinds one after another as in the code;
    - errors within GLPK itself (the long jump of the checked calls) and the basis are not modelled; whether the simplex finds an optimum is given. *)
From Verif Require Import Base LP_model.
Local Open Scope nat_scope.
Local Open Scope list_scope.

(** A double; [None] is NaN. *)
Definition dbl := option ext.
Definition dneg (a : dbl) : dbl := match a with Some (Fin x) => Some (Fin (- x)) | Some NInf => Some PInf | Some PInf => Some NInf | None => None end.
Definition dadd (a b : dbl) : dbl :=
  match a, b with
  | Some (Fin x), Some (Fin y) => Some (Fin (x + y))
  | Some PInf, Some NInf => None
  | Some NInf, Some PInf => None
  | Some PInf, Some _ => Some PInf
  | Some NInf, Some _ => Some NInf
  | Some (Fin _), Some e => Some e
  | _, _ => None
  end.
(** Division by a positive number. *)
Definition ddiv (a : dbl) (d : Q) : dbl := match a with Some (Fin x) => Some (Fin (x / d)) | _ => a end.
(** `==` *)
Definition deqb (a b : dbl) : bool :=
  match a, b with
  | Some (Fin x), Some (Fin y) => qeqb x y
  | Some PInf, Some PInf => true
  | Some NInf, Some NInf => true
  | _, _ => false
  end.
(** `max(a, 0.0)` of Cython is `0.0 > a ? 0.0 : a`. *)
Definition dmax0 (a : dbl) : dbl :=
  match a with
  | Some (Fin x) => if qltb x 0 then Some (Fin 0) else a
  | Some NInf => Some (Fin 0)
  | _ => a
  end.
(** `if abs(a) < 1e-8: a = 0.0` *)
Definition dsnap (a : dbl) : dbl := match a with Some (Fin x) => Some (Fin (round8 x)) | _ => a end.

(** A storage in a scenario: get_max_volume, get_min_volume, _volume, and active (of a virtual storage). *)
Record store := Store { st_max : dbl; st_min : dbl; st_volume : dbl; st_active : bool }.

(** What the solver reads for a scenario: for each route (edge) the costs that are added up, halved if [true] (links of the edge solver);
    the values of the rows of dynamic factors; bounds of flows of nodes, and of aggregated nodes; storages. *)
Record reading := Reading {
  r_costs : list (list (bool * dbl));
  r_factors : list (list dbl);
  r_nodes : list (dbl * dbl);
  r_aggregated : list (dbl * dbl);
  r_storages : list store;
  r_virtual : list store;
  r_days : Q }.

Inductive call := ObjCoef (x : dbl) | MatRow (l : list dbl) | RowBnds (lb ub : dbl) | Simplex.

Definition halved (c : bool * dbl) : dbl := if fst c then ddiv (snd c) 2 else snd c.
Definition cost_sum (l : list (bool * dbl)) : dbl := fold_left (fun acc c => dadd acc (halved c)) l (Some (Fin 0)).
(** 886-897; costs of edges are not rounded (1717-1721). *)
Definition obj_call (edges : bool) (l : list (bool * dbl)) : call := ObjCoef (if edges then cost_sum l else dsnap (cost_sum l)).
(** 931-961 *)
Definition flow_call (b : dbl * dbl) : call := RowBnds (dsnap (fst b)) (dsnap (snd b)).
(** 966-988 *)
Definition store_call (days : Q) (s : store) : call :=
  if deqb (st_max s) (st_min s) then RowBnds (Some (Fin 0)) (Some (Fin 0))
  else RowBnds (dsnap (ddiv (dneg (dmax0 (dadd (st_volume s) (dneg (st_min s))))) days))
               (dsnap (ddiv (dmax0 (dadd (st_max s) (dneg (st_volume s)))) days)).
(** 991-1019 *)
Definition virtual_call (days : Q) (s : store) : call :=
  if deqb (st_max s) (st_min s) then RowBnds (Some (Fin 0)) (Some (Fin 0))
  else if negb (st_active s) then RowBnds (Some NInf) (Some PInf)
  else store_call days s.

Definition scenario_calls (edges : bool) (r : reading) : list call :=
  map (obj_call edges) (r_costs r) ++ map MatRow (r_factors r) ++ map flow_call (r_nodes r) ++ map flow_call (r_aggregated r) ++
  map (store_call (r_days r)) (r_storages r) ++ map (virtual_call (r_days r)) (r_virtual r) ++ [Simplex].

Definition is_nan (a : dbl) : bool := match a with None => true | Some _ => false end.
(** 286-336: what the checked calls refuse. *)
Definition refused (c : call) : bool :=
  match c with
  | ObjCoef x => is_nan x
  | MatRow l => (List.length l =? 0) || existsb is_nan l
  | RowBnds lb ub => is_nan lb || is_nan ub
  | Simplex => false
  end.
(** The calls that GLPK gets; [false]: a GLPKError was raised. *)
Fixpoint post (unsafe : bool) (cs : list call) : list call * bool :=
  match cs with
  | [] => ([], true)
  | c :: r => if negb unsafe && refused c then ([], false) else let (l, b) := post unsafe r in (c :: l, b)
  end.

(** 763-819: the constant bounds and factors are checked in [reset] even if the unsafe calls are wanted. *)
Definition reset_calls (nodes : list (dbl * dbl)) (factors : list (list dbl)) : list call * bool := post false (map flow_call nodes ++ map MatRow factors).

(** 825-831 and 1047-1058, 1098-1101: the scenarios one after another; [optimal k]: the simplex finds an optimum in scenario [k].
    The result: the scenarios whose flows are committed, and whether no exception was raised. *)
Fixpoint solve (edges unsafe : bool) (optimal : nat -> bool) (k : nat) (rs : list reading) : list nat * bool :=
  match rs with
  | [] => ([], true)
  | r :: rest =>
      if snd (post unsafe (scenario_calls edges r))
      then if optimal k then let (l, b) := solve edges unsafe optimal (S k) rest in (k :: l, b) else ([], false)
      else ([], false)
  end.
