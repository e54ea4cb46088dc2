(** Which solver a model uses, and with which options: /repo/pywr/solvers/__init__.py:17-35 (_parse_env_kwarg), 82-107, 176-194, 214-239, 291-302,
    318-320, 346-352, 361-379; /repo/pywr/_model.pyx:74-75, 95-111 (Model.__init__), 343-367 (load_from_dict);
    /repo/pywr/solvers/cython_glpk.pyx:56-62, 153-172, 379-386, 1140-1146 (constructors); /repo/pywr/solvers/cython_lpsolve.pyx:144-146.
    Strings are ASCII. *)
From Coq Require Import Strings.Ascii Strings.String.
From Verif Require Import Base Documents_model.
Local Open Scope string_scope.
Local Open Scope nat_scope.
Local Open Scope list_scope.

(** `str.lower` *)
Definition lower_char (c : ascii) : ascii :=
  let n := nat_of_ascii c in if (65 <=? n) && (n <=? 90) then ascii_of_nat (n + 32) else c.
Fixpoint lower (s : string) : string := match s with EmptyString => EmptyString | String c s => String (lower_char c) (lower s) end.

(** Values of options as they come from JSON or the user, and their truth (`bint`). *)
Inductive optval := VNone | VBool (b : bool) | VNum (q : Q) | VText (s : string).
Definition truth (v : optval) : bool :=
  match v with VNone => false | VBool b => b | VNum q => negb (qeqb q 0) | VText s => negb (String.eqb s "") end.

Inductive solver_class := Glpk | GlpkEdge | LpSolve | Null.
(** `cls.name` *)
Definition class_name (c : solver_class) : string :=
  match c with Glpk => "glpk" | GlpkEdge => "glpk-edge" | LpSolve => "lpsolve" | Null => "null" end.
(** `solver_registry` at the end of solvers/__init__.py: what was built, in this order, and the null solver. *)
Definition registry (glpk lpsolve : bool) : list solver_class :=
  (if glpk then [Glpk; GlpkEdge] else []) ++ (if lpsolve then [LpSolve] else []) ++ [Null].

Inductive fail := UnknownSolver | UnexpectedKeyword (k : string) | BadMessageLevel | NoName.
Inductive res A := Done (a : A) | Raise (e : fail).
Arguments Done {A}. Arguments Raise {A}.

(** Model.__init__ 95-110: the loop has no break, so the last class of that name is taken. *)
Definition choose (reg : list solver_class) (env : dict string) (name : option string) : res solver_class :=
  let name := match name with Some n => Some n | None => get "PYWR_SOLVER" env end in
  match name with
  | Some n => match fold_left (fun acc c => if String.eqb (lower n) (lower (class_name c)) then Some c else acc) reg None with
              | Some c => Done c
              | None => Raise UnknownSolver
              end
  | None => Done (hd Null reg)
  end.

(** _parse_env_kwarg with type bool *)
Definition parse_env_bool (env : dict string) (env_name : string) (keyword : string) (kwargs : dict optval) : dict optval :=
  match get keyword kwargs with
  | Some _ => kwargs
  | None => match get env_name env with
            | Some v => put keyword (VBool (String.eqb v "1" || String.eqb (lower v) "true")) kwargs
            | None => kwargs
            end
  end.
Definition glpk_kwargs (env : dict string) (kwargs : dict optval) : dict optval :=
  let kwargs := parse_env_bool env "PYWR_SOLVER_GLPK_FIXED_FLOWS_ONCE" "set_fixed_flows_once" kwargs in
  let kwargs := parse_env_bool env "PYWR_SOLVER_GLPK_FIXED_COSTS_ONCE" "set_fixed_costs_once" kwargs in
  let kwargs := parse_env_bool env "PYWR_SOLVER_GLPK_FIXED_FACTORS_ONCE" "set_fixed_factors_once" kwargs in
  parse_env_bool env "PYWR_SOLVER_GLPK_UNSAFE_API" "use_unsafe_api" kwargs.

(** The attributes of a solver; those a class has not are false. *)
Record solver := Solver { s_class : solver_class; use_presolve : bool; save_routes_flows : bool; retry_solve : bool;
  fixed_flows : bool; fixed_costs : bool; fixed_factors : bool; unsafe_api : bool }.

Definition bool_arg (k : string) (kwargs : dict optval) : bool := match get k kwargs with Some v => truth v | None => false end.
Definition glpk_args : list string :=
  ["use_presolve"; "time_limit"; "iteration_limit"; "message_level"; "save_routes_flows"; "retry_solve";
   "set_fixed_flows_once"; "set_fixed_costs_once"; "set_fixed_factors_once"; "use_unsafe_api"]%string.
Definition known (k : string) (names : list string) : bool := existsb (String.eqb k) names.
(** Python's check of keywords *)
Definition accept {A} (names : list string) (kwargs : dict optval) (r : res A) : res A :=
  match find (fun kv => negb (known (fst kv) names)) kwargs with Some kv => Raise (UnexpectedKeyword (fst kv)) | None => r end.
Definition level_ok (v : option optval) : bool :=
  match v with
  | None => true
  | Some (VText s) => known s ["off"; "error"; "normal"; "all"; "debug"]%string
  | Some _ => false
  end.

(** The class called with `solver_args` as keywords. *)
Definition construct (env : dict string) (c : solver_class) (args : dict optval) : res solver :=
  match c with
  | Null => Done (Solver Null false false false false false false false)
  | LpSolve => accept ["save_routes_flows"]%string args (Done (Solver LpSolve false (bool_arg "save_routes_flows" args) false false false false false))
  | _ =>
      let k := glpk_kwargs env args in
      accept glpk_args k (
        if level_ok (get "message_level" k)
        then Done (Solver c (bool_arg "use_presolve" k) (match c with Glpk => bool_arg "save_routes_flows" k | _ => false end) (bool_arg "retry_solve" k)
                     (bool_arg "set_fixed_flows_once" k) (bool_arg "set_fixed_costs_once" k) (bool_arg "set_fixed_factors_once" k) (bool_arg "use_unsafe_api" k))
        else Raise BadMessageLevel)
  end.

(** Model(solver=name, solver_args=args) *)
Definition make_solver (reg : list solver_class) (env : dict string) (name : option string) (args : dict optval) : res solver :=
  match choose reg env name with Done c => construct env c args | Raise e => Raise e end.

(** load_from_dict without a model to append to: the document's "solver" item has a name and the options. *)
Fixpoint del {V} (k : string) (d : dict V) : dict V :=
  match d with [] => [] | (k', v) :: d => if String.eqb k' k then d else (k', v) :: del k d end.
Definition load_solver (reg : list solver_class) (env : dict string) (doc : option (dict optval)) (name : option string) (args : dict optval) : res solver :=
  match name, doc with
  | None, Some d =>
      match get "name" d with
      | Some (VText n) => make_solver reg env (Some n) (del "name" d)
      | Some VNone => make_solver reg env None (del "name" d)
      | _ => Raise NoName
      end
  | _, _ => make_solver reg env name args
  end.

(** The property `settings` *)
Definition settings (s : solver) : dict bool :=
  match s_class s with
  | Glpk => [("use_presolve", use_presolve s); ("save_routes_flows", save_routes_flows s); ("retry_solve", retry_solve s);
             ("set_fixed_flows_once", fixed_flows s); ("set_fixed_costs_once", fixed_costs s); ("set_fixed_factors_once", fixed_factors s)]%string
  | GlpkEdge => [("use_presolve", use_presolve s); ("retry_solve", retry_solve s);
             ("set_fixed_flows_once", fixed_flows s); ("set_fixed_costs_once", fixed_costs s); ("set_fixed_factors_once", fixed_factors s)]%string
  | LpSolve => [("save_routes_flows", save_routes_flows s)]%string
  | Null => []
  end.
