(** Model of the functions that recorders aggregate with: the class Aggregator and the keywords of the constructors that say which one is used
    (/repo/pywr/recorders/_recorders.pyx:8-33, 79-110, 218-239, 599-609, 832-845, 1107-1116, 1263-1276, 1378-1387, 1449-1458, 1512-1521, 1558-1575,
    1953-1965, 2076-2086; /repo/pywr/recorders/events.py:58-64, 231-239, 308-317).
    What an aggregator computes is in Aggregator_model.v; which keywords a class takes at all is in RecLoad_model.v.
    Simplifications:
    - the functions given by a user are numbered; arguments of percentiles are numbers;
    - the warnings about deprecated keywords are left out; `lower` is that of ASCII texts;
    - in a dictionary the entry "func" is a text, if there is one. *)
From Coq Require Import Strings.Ascii Strings.String.
From Verif Require Import Base Documents_model.
From Verif Require Hash_model.
Local Open Scope string_scope.
Local Open Scope list_scope.

(** AggFuncs, 8-20 *)
Inductive ftype := Sum | Min | Max | Mean | Median | Product | Custom | Percentile | PercentileOfScore | CountNonzero.

(** _agg_func_lookup, 21-32 *)
Definition lookup : dict ftype :=
  [("sum", Sum); ("min", Min); ("max", Max); ("mean", Mean); ("median", Median); ("product", Product); ("custom", Custom);
   ("percentile", Percentile); ("percentileofscore", PercentileOfScore); ("count_nonzero", CountNonzero)].

(** _agg_func_lookup_reverse, 33 *)
Definition reverse (f : ftype) : string :=
  match f with
  | Sum => "sum" | Min => "min" | Max => "max" | Mean => "mean" | Median => "median" | Product => "product" | Custom => "custom"
  | Percentile => "percentile" | PercentileOfScore => "percentileofscore" | CountNonzero => "count_nonzero"
  end.

(** What is given for a function: a text, a dictionary, a callable, or something else, such as None. *)
Inductive given := Text (s : string) | Dict (func : option string) (args : list Q) (kwargs : dict Q) | Callable (g : nat) | Other.

Record aggregator := Aggregator { a_func : ftype; a_user : option nat; a_args : list Q; a_kwargs : dict Q }.

Inductive error := KeyError | ValueError.
Inductive result (A : Type) := Ok (a : A) | Err (e : error).
Arguments Ok {A}. Arguments Err {A}.

(** The setter of `func`, 91-110: the aggregator afterwards, and the exception if there is one; `_user_func` is cleared before anything is looked at. *)
Definition set_func (a : aggregator) (v : given) : aggregator * option error :=
  let cleared := Aggregator (a_func a) None (a_args a) (a_kwargs a) in
  match v with
  | Text s => match get (Hash_model.lower s) lookup with
              | Some f => (Aggregator f None [] [], None)
              | None => (cleared, Some KeyError)
              end
  | Dict (Some s) args kwargs => match get s lookup with
                                 | Some f => (Aggregator f None args kwargs, None)
                                 | None => (cleared, Some KeyError)
                                 end
  | Dict None _ _ => (cleared, Some KeyError)
  | Callable g => (Aggregator Custom (Some g) [] [], None)
  | Other => (cleared, Some ValueError)
  end.

(** __init__, 82-83: a new object holds zeros, and the first function is SUM. *)
Definition construct (v : given) : result aggregator :=
  match set_func (Aggregator Sum None [] []) v with (a, None) => Ok a | (_, Some e) => Err e end.

(** The getter of `func`, 86-89 *)
Definition get_func (a : aggregator) : given :=
  match a_func a with
  | Custom => match a_user a with Some g => Callable g | None => Other end
  | f => Text (reverse f)
  end.

(** ** Constructors of recorders *)

(** Classes that take the same keywords: other recorders have no function but that over scenarios. *)
Inductive family :=
| Plain          (* Recorder, 218-233 *)
| Array          (* 599-604, 1107-1112, 1378-1383, 1449-1454, 1512-1517 *)
| Annual         (* 1953-1961, 2076-2082 *)
| FlowCurve      (* 832-845 *)
| StorageCurve   (* 1263-1275 *)
| Rolling        (* 1558-1571 *)
| Event          (* events.py:58-62 *)
| EventDuration  (* events.py:231-236 *)
| EventStatistic (* events.py:308-315 *).

Definition has {V} (k : string) (d : dict V) : bool := match get k d with Some _ => true | None => false end.
Definition or_else {V} (k : string) (d : dict V) (v : V) : V := match get k d with Some w => w | None => v end.

(** The function over time that is given; [None]: there is none. *)
Definition renamed (old : string) (kwargs : dict given) : result (option given) :=
  match get old kwargs with
  | Some v => if has "temporal_agg_func" kwargs then Err ValueError else Ok (Some v)
  | None => Ok (Some (or_else "temporal_agg_func" kwargs (Text "mean")))
  end.
Definition time_given (c : family) (kwargs : dict given) : result (option given) :=
  match c with
  | Plain | Event | EventDuration | EventStatistic => Ok None
  | Array => Ok (Some (or_else "temporal_agg_func" kwargs (Text "mean")))
  | Annual => Ok (Some (or_else "temporal_agg_func" kwargs (Text "sum")))
  | FlowCurve => renamed "fdc_agg_func" kwargs
  | StorageCurve => renamed "sdc_agg_func" kwargs
  | Rolling => Ok (Some (if has "agg_func" kwargs && negb (has "temporal_agg_func" kwargs) then or_else "agg_func" kwargs Other
                         else or_else "temporal_agg_func" kwargs (Text "mean")))
  end.

(** The functions given for the values of an event and for the events of a scenario; these are passed to pandas as they are. *)
Definition event_given (c : family) (kwargs : dict given) : option given :=
  match c with
  | Event => match get "event_agg_func" kwargs with Some v => Some v | None => get "agg_func" kwargs end
  | EventStatistic => Some (or_else "event_agg_func" kwargs (or_else "agg_func" kwargs (Text "mean")))
  | _ => None
  end.
Definition recorder_given (c : family) (kwargs : dict given) : option given :=
  match c with
  | EventDuration | EventStatistic => Some (or_else "recorder_agg_func" kwargs (or_else "agg_func" kwargs (Text "mean")))
  | _ => None
  end.

Record settings := Settings { over_time : option aggregator; over_scenarios : aggregator; over_values : option given; over_events : option given }.

(** The constructors: the aggregator over scenarios is made by that of the base (233), before the one over time. *)
Definition make (c : family) (kwargs : dict given) : result settings :=
  match time_given c kwargs with
  | Err e => Err e
  | Ok t => match construct (or_else "agg_func" kwargs (Text "mean")) with
            | Err e => Err e
            | Ok s => match t with
                      | None => Ok (Settings None s (event_given c kwargs) (recorder_given c kwargs))
                      | Some v => match construct v with
                                  | Err e => Err e
                                  | Ok a => Ok (Settings (Some a) s (event_given c kwargs) (recorder_given c kwargs))
                                  end
                      end
            end
  end.
