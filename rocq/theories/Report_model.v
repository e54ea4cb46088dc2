(** ProgressRecorder, /repo/pywr/recorders/progress.py:8-64, and AssertionRecorder, /repo/pywr/recorders/recorders.py:38-110. *)
From Verif Require Import Base.
Local Open Scope nat_scope.
Local Open Scope list_scope.

(** * ProgressRecorder *)

(** `int((timestep + 1) / total_timesteps * 100)`, with exact division. *)
Definition progress (total idx : nat) : Z := (Z.of_nat (S idx) * 100 / Z.of_nat total)%Z.

(** [last] is last_progress, [since] last_timestep.  A message: the percentage and the timesteps done since the last message (whose
    number times that of the scenarios, divided by the time taken, is the speed; none is given below 1 %). *)
Notation report := (Z * option nat)%type.
Record progress_state := Progress { last : Z; since : nat }.
Definition progress_reset : progress_state := Progress (-1) 0.
Definition progress_after (total : nat) (s : progress_state) (idx : nat) : progress_state * list report :=
  let p := progress total idx in
  if (last s <? p)%Z then (Progress p idx, [(p, if (1 <=? p)%Z then Some (idx - since s) else None)]) else (s, []).

(** The messages of the timesteps [idx ... idx + n - 1]. *)
Fixpoint progress_steps (total : nat) (s : progress_state) (idx n : nat) : progress_state * list report :=
  match n with
  | 0 => (s, [])
  | S n => let (s, m) := progress_after total s idx in let (s, ms) := progress_steps total s (S idx) n in (s, m ++ ms)
  end.
Definition reports (total n : nat) : list report := snd (progress_steps total progress_reset 0 n).

(** JupyterProgressRecorder.finish: whether the bar is shown as a success. *)
Definition bar_success (total n : nat) : bool :=
  match rev (reports total n) with (p, _) :: _ => (100 <=? p)%Z | [] => false end.

(** * AssertionRecorder *)

Section Assertion.
Local Open Scope Q_scope.
(** `np.testing.assert_allclose(value, expected)`. *)
Definition allclose (value expected : Q) : bool := qleb (qabs (value - expected)) ((1 # 10000000) * qabs expected).

(** What is expected: a function (used if given), data, or nothing. *)
Record expectation := Expect { e_func : option (nat -> nat -> Q); e_data : option (nat -> nat -> Q) }.
Inductive verdict := Passed | Mismatch (timestep scenario : nat) | NoExpectation.

Fixpoint assert_scenarios (e : expectation) (value : nat -> Q) (t : nat) (scenarios : list nat) : verdict :=
  match scenarios with
  | [] => Passed
  | s :: scenarios =>
      match (match e_func e, e_data e with Some f, _ => Some (f t s) | None, Some d => Some (d t s) | None, None => None end) with
      | None => NoExpectation
      | Some x => if allclose (value s) x then assert_scenarios e value t scenarios else Mismatch t s
      end
  end.
(** The timesteps [t], [t + 1], ...: the count of calls and the verdict. *)
Fixpoint assert_steps (e : expectation) (scenarios : list nat) (count t : nat) (values : list (nat -> Q)) : nat * verdict :=
  match values with
  | [] => (count, Passed)
  | v :: values =>
      match assert_scenarios e v t scenarios with
      | Passed => assert_steps e scenarios (S count) (S t) values
      | bad => (S count, bad)
      end
  end.
End Assertion.

(** finish: `sys.exc_info()` is a tuple of three, which is true even if there is no exception ([failed]).  The result: whether "never
    called" is raised. *)
Definition exc_info (failed : bool) : list (option unit) := if failed then [Some tt; Some tt; Some tt] else [None; None; None].
Definition assert_finish (failed : bool) (count : nat) : bool :=
  match exc_info failed with _ :: _ => false | [] => count =? 0 end.
