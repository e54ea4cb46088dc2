(** What a profile should be, said without a profiler: the calls are put into segments; within a segment the clock is read before the
    first call and twice after each one (at the end of its time and at the start of the next). *)
From Verif Require Import Base Run_model Profile_model.
Local Open Scope nat_scope.
Local Open Scope list_scope.

(** The entries of the segments, each given with the number of calls made before it, the first reading of the first one being number [k]. *)
Fixpoint entries_of (clock : nat -> nat -> Q) (k : nat) (segments : list (nat * list call)) : list entry :=
  match segments with
  | [] => []
  | (c, s) :: r =>
      map (fun j => Entry (nth j s Cyclic) (clock (c + j + 1) (k + 2 * j + 1) - clock (c + j) (k + 2 * j))) (seq 0 (length s)) ++
      entries_of clock (k + 2 * length s + 1) r
  end.
(** Between the setup of the components and the reset of the nodes there is the call of the solver's setup. *)
Definition setup_segments (m : model) (flat : list nat) : list (nat * list call) :=
  let n := length (m_nodes m) in let f := length flat in let v := length (m_visible m) in
  [(0, map SetupNode (m_nodes m)); (n, map SetupComponent flat); (n + f + 1, map ResetNode (m_visible m)); (n + f + 1 + v, map ResetComponent flat)].
