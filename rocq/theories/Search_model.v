(** What optimisers are given: the bounds of the variables, the initial candidates and the model they are tried on.
    /repo/pywr/optimisation/platypus.py 34-82 (PlatypusWrapper.__init__, _make_variables), 157-240 (PywrRandomGenerator),
    /repo/pywr/optimisation/pygmo.py 55-76 (get_bounds), /repo/pywr/optimisation/__init__.py 8-24, 43-123 (the cache of models).
    Simplifications:
    - of a variable parameter there are its name, sizes, bounds and present values; the bounds of doubles may be infinite;
    - given candidates are lists of numbers (numpy takes a single number like a list of one); numbers for integers are cut off;
    - assigning a list of the wrong length to `solution.variables[:]` is left to platypus: here the list is the result. *)
From Coq Require Import Strings.String QArith.Qround.
From Verif Require Import Base LP_model Documents_model Optimisation_model.
Local Open Scope string_scope.
Local Open Scope nat_scope.
Local Open Scope list_scope.

Record var := Var {
  v_name : string;
  v_doubles : nat; v_integers : nat;                          (* double_size, integer_size *)
  v_lower : option (list ext); v_upper : option (list ext);   (* get_double_lower_bounds(), get_double_upper_bounds(); None as in a ControlCurveParameter without bounds *)
  v_ilower : list Z; v_iupper : list Z;
  v_now : list Q; v_inow : list Z }.                          (* get_double_variables(), get_integer_variables() *)

(** `platypus.Real(lower[i], upper[i])` for [i] in [range(n)]; [None]: IndexError *)
Fixpoint reals (n : nat) (lower upper : list ext) : option (list (ext * ext)) :=
  match n with
  | O => Some []
  | S n => match lower, upper with
           | l :: lower, u :: upper => option_map (cons (l, u)) (reals n lower upper)
           | _, _ => None
           end
  end.
Definition integers_as_reals (l : list Z) : list ext := map (fun z => Fin (inject_Z z)) l.

(** 62-82 [_make_variables]: [problem.types], one for each variable. *)
Definition types_of (v : var) : option (list (ext * ext)) :=
  match (if 0 <? v_doubles v then match v_lower v, v_upper v with Some l, Some u => reals (v_doubles v) l u | _, _ => None end else Some []),
        (if 0 <? v_integers v then reals (v_integers v) (integers_as_reals (v_ilower v)) (integers_as_reals (v_iupper v)) else Some []) with
  | Some a, Some b => Some (a ++ b)
  | _, _ => None
  end.
Fixpoint make_variables (vars : list var) : option (list (ext * ext)) :=
  match vars with
  | [] => Some []
  | v :: r => match types_of v, make_variables r with Some a, Some b => Some (a ++ b) | _, _ => None end
  end.

(** 37-57: the number of variables and their types; [None]: ValueError (also from [cache_variable_parameters]) or as above. *)
Definition number (vars : list var) : nat := fold_right (fun v n => v_doubles v + v_integers v + n) 0 vars.
Definition platypus_problem (vars : list var) (objectives : nat) : option (nat * list (ext * ext)) :=
  if existsb (fun v => v_doubles v + v_integers v <=? 0) vars then None
  else if List.length vars <? 1 then None
  else if objectives <? 1 then None
  else option_map (pair (number vars)) (make_variables vars).

(** pygmo.py 55-76 [get_bounds]; [None]: ValueError.  numpy concatenates neither nothing nor None. *)
Definition parts_of (v : var) : list (option (list ext) * option (list ext)) :=
  (if 0 <? v_doubles v then [(v_lower v, v_upper v)] else []) ++
  (if 0 <? v_integers v then [(Some (integers_as_reals (v_ilower v)), Some (integers_as_reals (v_iupper v)))] else []).
Fixpoint join (l : list (option (list ext))) : option (list ext) :=
  match l with
  | [] => Some []
  | x :: r => match x, join r with Some a, Some b => Some (a ++ b) | _, _ => None end
  end.
Definition concatenate (l : list (option (list ext))) : option (list ext) := match l with [] => None | _ => join l end.
Definition pygmo_bounds (vars : list var) : option (list ext * list ext) :=
  let parts := flat_map parts_of vars in
  match concatenate (map fst parts), concatenate (map snd parts) with
  | Some l, Some u => if List.length l =? List.length u then Some (l, u) else None
  | _, _ => None
  end.

(** * PywrRandomGenerator *)

(** `<` of doubles; numpy's clip is the lesser of [hi] and the greater of [x] and [lo]. *)
Definition eltb (a b : ext) : bool :=
  match a, b with
  | NInf, NInf => false | NInf, _ => true
  | Fin x, Fin y => qltb x y
  | Fin _, PInf => true
  | _, _ => false
  end.
Definition clip (lo hi : ext) (x : ext) : ext :=
  let y := if eltb x lo then lo else x in if eltb hi y then hi else y.
(** numpy's broadcasting of one axis: equal lengths, or one of them 1. *)
Definition broadcast2 {A B} (l : list A) (m : list B) : option (list (A * B)) :=
  if List.length l =? List.length m then Some (combine l m)
  else match l, m with
       | [a], _ => Some (map (fun b => (a, b)) m)
       | _, [b] => Some (map (fun a => (a, b)) l)
       | _, _ => None
       end.
Definition clip_all (values lower upper : list ext) : option (list ext) :=
  match broadcast2 values lower with
  | None => None
  | Some vl => match broadcast2 vl upper with None => None | Some vlu => Some (map (fun t => clip (snd (fst t)) (snd t) (fst (fst t))) vlu) end
  end.
(** `np.array(..., dtype=np.int32)` *)
Definition cut (q : Q) : Z := if qltb q 0 then (- Qfloor (- q))%Z else Qfloor q.

(** A given candidate: for each name "doubles" and "integers", if they are there. *)
Record given_values := Given { g_doubles : option (list Q); g_integers : option (list Q) }.
Definition given := dict given_values.

(** 218-237: its variables; [None]: KeyError or ValueError. *)
Definition given_one (g : given) (v : var) : option (list ext) :=
  match (if 0 <? v_doubles v
         then match get (v_name v) g with
              | Some gv => match g_doubles gv, v_lower v, v_upper v with Some x, Some l, Some u => clip_all (map Fin x) l u | _, _, _ => None end
              | None => None
              end
         else Some []),
        (if 0 <? v_integers v
         then match get (v_name v) g with
              | Some gv => match g_integers gv with
                           | Some x => clip_all (integers_as_reals (map cut x)) (integers_as_reals (v_ilower v)) (integers_as_reals (v_iupper v))
                           | None => None
                           end
              | None => None
              end
         else Some []) with
  | Some a, Some b => Some (a ++ b)
  | _, _ => None
  end.
Fixpoint given_solution (g : given) (vars : list var) : option (list ext) :=
  match vars with
  | [] => Some []
  | v :: r => match given_one g v, given_solution g r with Some a, Some b => Some (a ++ b) | _, _ => None end
  end.
(** 196-209 *)
Definition present_values (vars : list var) : list ext :=
  flat_map (fun v => (if 0 <? v_doubles v then map Fin (v_now v) else []) ++ (if 0 <? v_integers v then integers_as_reals (v_inow v) else [])) vars.

Inductive candidate := Solution (l : list ext) | Random | Failed.
Record generator := Generator { g_wrapper : bool; g_use_current : bool; g_solutions : option (list given); g_generated : bool; g_pointer : nat }.
Definition new_generator (wrapper use_current : bool) (solutions : option (list given)) : generator := Generator wrapper use_current solutions false 0.

(** 191-240 [generate], with the variables as they are at that time; an exception leaves the generator as it is. *)
Definition generate (g : generator) (vars : list var) : candidate * generator :=
  if g_wrapper g then
    if g_use_current g && negb (g_generated g)
    then (Solution (present_values vars), Generator (g_wrapper g) (g_use_current g) (g_solutions g) true (g_pointer g))
    else match g_solutions g with
         | Some l => match nth_error l (g_pointer g) with
                     | Some s => match given_solution s vars with
                                 | Some x => (Solution x, Generator (g_wrapper g) (g_use_current g) (g_solutions g) (g_generated g) (S (g_pointer g)))
                                 | None => (Failed, g)
                                 end
                     | None => (Random, g)
                     end
         | None => (Random, g)
         end
  else (Random, g).
Fixpoint generated (g : generator) (calls : list (list var)) : list candidate :=
  match calls with [] => [] | vars :: r => let (c, g') := generate g vars in c :: generated g' r end.

(** * MODEL_CACHE *)

(** A process: models by uid, and how many were made.  [builds]: whether loading and setting up the next model works. *)
Record process := Process { cache : list (nat * nat); made : nat }.
Inductive use := Access (uid : nat) (builds : bool) | Clear.
Definition find_model (uid : nat) (p : process) : option nat := option_map snd (find (fun x => Nat.eqb (fst x) uid) (cache p)).
(** 73-91 [_cached] and 118-123; the model given, if any. *)
Definition access (p : process) (u : use) : option nat * process :=
  match u with
  | Clear => (None, Process [] (made p))
  | Access uid builds =>
      match find_model uid p with
      | Some m => (Some m, p)
      | None => if builds then (Some (made p), Process ((uid, made p) :: cache p) (S (made p))) else (None, Process (cache p) (S (made p)))
      end
  end.
Fixpoint uses (p : process) (l : list use) : list (option nat) * process :=
  match l with [] => ([], p) | u :: r => let (m, p1) := access p u in let (ms, p2) := uses p1 r in (m :: ms, p2) end.
