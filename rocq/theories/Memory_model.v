(** What the GLPK solvers remember from one solve to the next: /repo/pywr/solvers/cython_glpk.pyx:173-186 (presolve), 197-233 (bases),
    738-739, 758-759, 821-831, 1025-1063 (route solver), 1550-1551, 1570-1571, 1634-1644, 1849-1886 (edge solver).

    GLPK itself is any function of the problem as posed, the starting basis and whether it presolves. *)
From Verif Require Import Base Ring.
Local Open Scope nat_scope.
Local Open Scope list_scope.

Section Memory.
Variables problem basis answer : Type.
(** [glp_adv_basis], [glp_std_basis], and [glp_simplex] with what it leaves as basis; [None]: not solved to optimality. *)
Variables (adv std : problem -> basis) (simplex : problem -> basis -> bool -> option answer * basis).
(** The solver's attributes `use_presolve` and `retry_solve`. *)
Variables (use_presolve retry : bool).

(** Bases by global id ([None]: not initialised, `np.empty`). *)
Record memory := Memory { bases : list (option basis); first : bool; presolved : bool }.
Definition memory_setup (nscenarios : nat) : memory := Memory (repeat None nscenarios) true false.
Definition memory_reset (m : memory) : memory := Memory (bases m) true (presolved m).

Inductive outcome A := Solved (a : A) | NotSolved | Uninitialised.
Arguments Solved {A}. Arguments NotSolved {A}. Arguments Uninitialised {A}.

(** One scenario: basis set, solved, solved again from the standard basis if that failed, basis saved. *)
Definition solve_scenario (presolve : bool) (m : memory) (s : nat) (P : problem) : outcome (answer * memory) :=
  match (if first m then Some (adv P) else match nth_error (bases m) s with Some b => b | None => None end) with
  | None => Uninitialised
  | Some b =>
      let r := simplex P b presolve in
      let r := match fst r with Some _ => r | None => if retry then simplex P (std P) presolve else r end in
      match r with
      | (Some a, b) => Solved (a, Memory (upd (bases m) s (Some b)) (first m) (presolved m))
      | (None, _) => NotSolved
      end
  end.

(** The scenarios [s], [s + 1], ...: the problem of each comes from its number and what was found for it so far, latest first. *)
Variable pose : nat -> list answer -> problem.
Fixpoint solve_scenarios (presolve : bool) (m : memory) (s : nat) (found : list (list answer)) : outcome (list (list answer) * memory) :=
  match found with
  | [] => Solved ([], m)
  | h :: found =>
      match solve_scenario presolve m s (pose s h) with
      | Solved (a, m) =>
          match solve_scenarios presolve m (S s) found with
          | Solved (found, m) => Solved ((a :: h) :: found, m)
          | NotSolved => NotSolved
          | Uninitialised => Uninitialised
          end
      | NotSolved => NotSolved
      | Uninitialised => Uninitialised
      end
  end.

(** solve: one timestep. *)
Definition solve (m : memory) (found : list (list answer)) : outcome (list (list answer) * memory) :=
  let presolve := use_presolve && negb (presolved m) in
  let m := Memory (bases m) (first m) (presolved m || presolve) in
  match solve_scenarios presolve m 0 found with
  | Solved (found, m) => Solved (found, Memory (bases m) false (presolved m))
  | NotSolved => NotSolved
  | Uninitialised => Uninitialised
  end.

(** [T] timesteps. *)
Fixpoint solve_steps (T : nat) (m : memory) (found : list (list answer)) : outcome (list (list answer) * memory) :=
  match T with
  | 0 => Solved (found, m)
  | S T => match solve m found with
           | Solved (found, m) => solve_steps T m found
           | NotSolved => NotSolved
           | Uninitialised => Uninitialised
           end
  end.

(** A run: reset, then [T] timesteps. *)
Definition solver_run (m : memory) (T : nat) : outcome (list (list answer) * memory) :=
  solve_steps T (memory_reset m) (repeat [] (length (bases m))).

(** * The specification: a scenario alone *)

(** The answers of a scenario, latest first, and its basis, if GLPK were called for this scenario only, at first from the advanced basis
    of its own problem and then from its own last basis. *)
Definition attempt (P : problem) (b : basis) (presolve : bool) : option (answer * basis) :=
  match simplex P b presolve with
  | (Some a, b') => Some (a, b')
  | (None, _) => if retry then match simplex P (std P) presolve with (Some a, b') => Some (a, b') | (None, _) => None end else None
  end.
Fixpoint alone (presolve : bool) (s T : nat) : option (list answer * option basis) :=
  match T with
  | 0 => Some ([], None)
  | S T =>
      match alone presolve s T with
      | None => None
      | Some (h, b) =>
          let P := pose s h in
          match attempt P (match b with Some b => b | None => adv P end) (presolve && match T with 0 => true | _ => false end) with
          | Some (a, b) => Some (a :: h, Some b)
          | None => None
          end
      end
  end.
End Memory.
Arguments Solved {A}. Arguments NotSolved {A}. Arguments Uninitialised {A}.
Arguments bases {basis}. Arguments first {basis}. Arguments presolved {basis}. Arguments Memory {basis}.
Arguments memory_setup {basis}. Arguments memory_reset {basis}.
