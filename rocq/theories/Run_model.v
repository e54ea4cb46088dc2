(** Model of the order of calls in a run: [pywr/_model.pyx] 584-682 (step, run), 684-746 (setup), 748-823 (reset), 825-872 (before, after,
    finish), 883-904 (flatten_component_tree), and [pywr/model.py] (MultiModel).

    What the hooks compute is not modelled here; a hook may raise an exception. *)
From Verif Require Import Base.
Local Open Scope nat_scope.
Local Open Scope list_scope.

(** Calls of a list of hooks one after the other; the call that raises is the last. *)
Fixpoint attempt {E : Type} (raises : E -> bool) (calls : list E) : list E * bool :=
  match calls with
  | [] => ([], true)
  | e :: es => if raises e then ([e], false) else let (t, ok) := attempt raises es in (e :: t, ok)
  end.

(** Nodes and components are numbers. *)
Inductive call :=
| SetupNode (n : nat) | SetupComponent (c : nat) | SetupSolver | Cyclic
| ResetNode (n : nat) | ResetComponent (c : nat) | ResetSolver
| BeforeNode (t n : nat) | BeforeComponent (t c : nat) | CalcValues (t c : nat) | Solve (t : nat)
| AfterNode (t n : nat) | AfterComponent (t c : nat)
| FinishNode (n : nat) | FinishComponent (c : nat).

(** A model: [graph.nodes()], the visible ones among them, the components in the order of [flatten_component_tree] ([None]: there are cycles),
    the flattened list kept from the last time, the flags [model.dirty] and [model.timestepper.dirty], the parameters among the components. *)
Record model := Model {
  m_nodes : list nat; m_visible : list nat; m_tree : option (list nat); m_flat : list nat; m_dirty : bool; m_tdirty : bool; m_parameter : nat -> bool }.

(** reset, 748-823 ([length_changed] is always false here: [Timestepper.setup] has called [Timestepper.reset]). *)
Definition reset_calls (m : model) (flat : list nat) : list call :=
  map ResetNode (m_visible m) ++ map ResetComponent flat ++ [ResetSolver].

(** setup, 684-746; [Cyclic] stands for the exception raised in [flatten_component_tree] 891-896. *)
Definition setup_calls (m : model) : list call :=
  map SetupNode (m_nodes m) ++
  match m_tree m with
  | None => [Cyclic]
  | Some flat => map SetupComponent flat ++ [SetupSolver] ++ reset_calls m flat
  end.

(** _step, 633-638: before 825-849, solve, after 851-860. *)
Definition step_calls (m : model) (flat : list nat) (t : nat) : list call :=
  map (BeforeNode t) (m_nodes m) ++ map (BeforeComponent t) flat ++ map (CalcValues t) (filter (m_parameter m) flat) ++
  [Solve t] ++ map (AfterNode t) (m_nodes m) ++ map (AfterComponent t) flat.

(** finish, 862-872. *)
Definition finish_calls (m : model) (flat : list nat) : list call := map FinishNode (m_nodes m) ++ map FinishComponent flat.

(** Exceptions: those of the hooks; [Cyclic] always raises. *)
Definition raising (raises : call -> bool) (e : call) : bool := match e with Cyclic => true | _ => raises e end.

(** The flattened list after setup or reset started: [flatten_component_tree(rebuild=True)] runs after the nodes' setup; with cycles it leaves
    an empty list behind (885-896). *)
Definition flat_after_setup (raises : call -> bool) (m : model) : list nat :=
  if snd (attempt (raising raises) (map SetupNode (m_nodes m))) then match m_tree m with Some flat => flat | None => [] end else m_flat m.

Inductive result := Done | Raised | NothingToRun.

(** run, 640-682, over [T] timesteps: calls made, result, and the model afterwards.  [timestepper.dirty] is cleared at the beginning of setup
    (695), [model.dirty] at its end (736). *)
Definition run (raises : call -> bool) (T : nat) (m : model) : list call * result * model :=
  let flat := if m_dirty m || m_tdirty m then flat_after_setup raises m else m_flat m in
  let start := attempt (raising raises) (if m_dirty m || m_tdirty m then setup_calls m else reset_calls m (m_flat m)) in
  let steps := if snd start then attempt (raising raises) (flat_map (step_calls m flat) (seq 0 T)) else ([], false) in
  let finish := attempt (raising raises) (finish_calls m flat) in
  (fst start ++ fst steps ++ fst finish,
   if snd start && snd steps && snd finish then if T =? 0 then NothingToRun else Done else Raised,
   Model (m_nodes m) (m_visible m) (m_tree m) flat (if snd start then false else m_dirty m) false (m_parameter m)).

(** _component.pyx 84-91: a component created later is in the graph, but the model is not marked dirty. *)
Definition add_component (c : nat) (parameter : bool) (m : model) : model :=
  Model (m_nodes m) (m_visible m) (option_map (cons c) (m_tree m)) (m_flat m) (m_dirty m) (m_tdirty m)
        (fun d => if d =? c then parameter else m_parameter m d).
(** nodes.py 188-196. *)
Definition add_node (n : nat) (visible : bool) (m : model) : model :=
  Model (m_nodes m ++ [n]) (if visible then m_visible m ++ [n] else m_visible m) (m_tree m) (m_flat m) true (m_tdirty m) (m_parameter m).

(** timestepper.py 112-150: setting start, end or delta. *)
Definition change_time (m : model) : model := Model (m_nodes m) (m_visible m) (m_tree m) (m_flat m) (m_dirty m) true (m_parameter m).

(** ** MultiModel *)

Inductive multi_call :=
| MSetup (k : nat) | MScenarios | MReset (k : nat) | MBefore (k t : nat) | MSolve (k t : nat) | MAfter (k t : nat) | MSync (t : nat) | MFinish (k : nat).

(** A sub-model: dates of its timesteps, flags, sizes and combinations of its scenarios. *)
Record submodel := Submodel { s_dates : list Z; s_dirty : bool; s_sizes : list nat; s_combinations : list (list nat) }.

(** model.py 228-237. *)
Definition multi_step (K t : nat) : list multi_call := flat_map (fun k => [MBefore k t; MSolve k t; MAfter k t]) (seq 0 K).

(** model.py 255: one round of [zip]: the next element of every iterator, if none is exhausted (and there is one at all). *)
Fixpoint heads {A} (ls : list (list A)) : option (list A * list (list A)) :=
  match ls with
  | [] => Some ([], [])
  | [] :: _ => None
  | (x :: l) :: ls => match heads ls with Some (xs, rest) => Some (x :: xs, l :: rest) | None => None end
  end.
Fixpoint rounds (fuel K t : nat) (ls : list (list Z)) : list multi_call :=
  match fuel with
  | O => []
  | S fuel =>
      match heads ls with
      | Some (x :: xs, rest) =>
          (* 256-262: every date is compared with the first *)
          if forallb (fun y => (y =? x)%Z) (x :: xs) then multi_step K t ++ rounds fuel K (S t) rest else [MSync t]
      | _ => []
      end
  end.

(** model.py 190-205: sizes and combinations are compared with those of the first model. *)
Definition eqb_list {A} (eqb : A -> A -> bool) : list A -> list A -> bool :=
  fix go l1 l2 := match l1, l2 with [], [] => true | a :: l1, b :: l2 => eqb a b && go l1 l2 | _, _ => false end.
Definition scenarios_consistent (ms : list submodel) : bool :=
  match ms with
  | [] => true
  | m0 :: _ => forallb (fun m => eqb_list Nat.eqb (s_sizes m) (s_sizes m0)) ms &&
               forallb (fun m => eqb_list (eqb_list Nat.eqb) (s_combinations m) (s_combinations m0)) ms
  end.

Definition multi_raising (ms : list submodel) (raises : multi_call -> bool) (e : multi_call) : bool :=
  match e with MSync _ => true | MScenarios => negb (scenarios_consistent ms) | _ => raises e end.

(** model.py 239-271, with 168-172 (dirty) and 207-226 (setup, reset). *)
Definition multi_run (raises : multi_call -> bool) (ms : list submodel) : list multi_call * bool :=
  let K := List.length ms in
  let start := attempt (multi_raising ms raises)
    (if existsb s_dirty ms then map MSetup (seq 0 K) ++ [MScenarios] else map MReset (seq 0 K)) in
  let steps := if snd start
               then attempt (multi_raising ms raises) (rounds (match ms with [] => 0 | m :: _ => List.length (s_dates m) end) K 0 (map s_dates ms))
               else ([], false) in
  let finish := attempt (multi_raising ms raises) (map MFinish (seq 0 K)) in
  (fst start ++ fst steps ++ fst finish, snd start && snd steps && snd finish).
