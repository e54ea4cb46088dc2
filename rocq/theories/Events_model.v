(** Model of [EventRecorder] ([pywr/recorders/events.py]). *)
From Verif Require Import Base Ring.
Local Open Scope nat_scope.

(** 6-13 [Event]: scenario, index of the first timestep, index of the timestep that ends it, tracked values. *)
Record event := Event { e_scenario : nat; e_start : nat; e_end : nat; e_values : list Q }.

(** 78-81 [reset]: the events recorded, and the open event of each scenario (start and tracked values). *)
Record state := State { s_events : list event; s_current : list (option (nat * list Q)) }.

Definition reset (ncomb : nat) : state := State [] (repeat None ncomb).

(** 89-94: what makes a scenario triggered.  An index is taken as it is; values of a parameter or a recorder go through
    [np.array(..., dtype=int)], which truncates towards zero. *)
Definition truncate (q : Q) : Z := Z.quot (Qnum q) (Z.pos (Qden q)).
Definition index_triggered (i : Z) : bool := negb (i =? 0)%Z.
Definition value_triggered (q : Q) : bool := negb (truncate q =? 0)%Z.

(** 100-147, body of the loop over the scenarios, for scenario [id] in the timestep with index [t];
    [minimum] is [minimum_event_length] and [value] the tracked parameter's value. *)
Definition after_one (minimum t id : nat) (triggered : bool) (value : Q) (s : state) : state :=
  match nth id (s_current s) None with
  | Some (start, values) =>
      if triggered then State (s_events s) (upd (s_current s) id (Some (start, values ++ [value])))
      else
        State (if minimum <=? t - start then s_events s ++ [Event id start t values] else s_events s)
              (upd (s_current s) id None)
  | None =>
      if triggered then State (s_events s) (upd (s_current s) id (Some (t, [value])))
      else State (s_events s) (upd (s_current s) id None)
  end.

(** 83-147 [after]: [row] holds for each scenario whether it is triggered, and the tracked value. *)
Definition after (minimum t : nat) (row : list (bool * Q)) (s : state) : state :=
  fold_left (fun s id => after_one minimum t id (fst (nth id row (false, 0%Q))) (snd (nth id row (false, 0%Q))) s)
            (seq 0 (length (s_current s))) s.

(** 149-159 [finish]; [t] is the index of [timestepper.current], the number of timesteps after a complete run. *)
Definition finish_one (t id : nat) (s : state) : state :=
  match nth id (s_current s) None with
  | Some (start, values) => State (s_events s ++ [Event id start t values]) (upd (s_current s) id None)
  | None => s
  end.
Definition finish (t : nat) (s : state) : state :=
  fold_left (fun s id => finish_one t id s) (seq 0 (length (s_current s))) s.

(** The timesteps from index [t] on. *)
Fixpoint steps (minimum t : nat) (history : list (list (bool * Q))) (s : state) : state :=
  match history with
  | [] => s
  | row :: r => steps minimum (S t) r (after minimum t row s)
  end.

(** 65-66: a minimum below 1 is refused. *)
Definition run (minimum ncomb : nat) (history : list (list (bool * Q))) : option (list event) :=
  if minimum <? 1 then None
  else Some (s_events (finish (length history) (steps minimum 0 history (reset ncomb)))).
