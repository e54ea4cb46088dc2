(** Model of [EventDurationRecorder] and [EventStatisticRecorder] ([pywr/recorders/events.py] 208-361). *)
From Verif Require Import Base Ring Events_model.
Local Open Scope nat_scope.
Local Open Scope list_scope.

(** Aggregation functions of pandas by name, for a group that is not empty ([Series.aggregate], [DataFrameGroupBy.agg]). *)
Inductive pandas_func := PSum | PMean | PMin | PMax | PCount | PCustom (f : list Q -> Q).
Definition qlength {A} (l : list A) : Q := inject_Z (Z.of_nat (length l)).
Definition pandas_agg (f : pandas_func) (l : list Q) : Q :=
  match f with
  | PSum => fold_left Qplus l 0%Q
  | PMean => (fold_left Qplus l 0 / qlength l)%Q
  | PMin => fold_left qmin (tl l) (hd 0%Q l)
  | PMax => fold_left qmax (tl l) (hd 0%Q l)
  | PCount => qlength l
  | PCustom g => g l
  end.

(** 258-262 and 350-354: group by scenario, aggregate each group and enter it under its scenario; scenarios without rows keep their NaN. *)
Definition group_values (f : pandas_func) (ncomb : nat) (rows : list (nat * Q)) : list (option Q) :=
  fold_left (fun values id => upd values id (Some (pandas_agg f (map snd (filter (fun r => Nat.eqb (fst r) id) rows)))))
            (nodup Nat.eq_dec (map fst rows)) (repeat None ncomb).

(** 245-262 EventDurationRecorder.finish; [time] gives the second in which a timestep begins, [dt.days] is the floor of whole days. *)
Definition duration_days (time : nat -> Z) (e : event) : Z := ((time (e_end e) - time (e_start e)) / 86400)%Z.
Definition durations (f : pandas_func) (time : nat -> Z) (ncomb : nat) (events : list event) : list (option Q) :=
  group_values f ncomb (map (fun e => (e_scenario e, inject_Z (duration_days time e))) events).

(** 332-354 EventStatisticRecorder.finish; [f_event] is event_agg_func. *)
Definition statistics (f_event f : pandas_func) (ncomb : nat) (events : list event) : list (option Q) :=
  group_values f ncomb (map (fun e => (e_scenario e, pandas_agg f_event (e_values e))) events).

(** The events of a model that is not the first one of a MultiModel: [zip] of the timesteppers (model.py:254) stops at the first timestepper that is
    at its end, so that [timestepper.current] of the later ones still is the last timestep when [finish] is called. *)
Definition run_later_model (minimum ncomb : nat) (history : list (list (bool * Q))) : option (list event) :=
  if minimum <? 1 then None
  else Some (s_events (finish (length history - 1) (steps minimum 0 history (reset ncomb)))).
