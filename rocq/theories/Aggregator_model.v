(** Aggregation of recorded values over time, scenarios and recorders: [pywr/recorders/_recorders.pyx] 9-184, 333-335, 358-446.

    A double is [Some q] or [None] for NaN; infinities do not occur in the data. *)
From Verif Require Import Base LP_model Sorting Aggregate_model Series_model.
Local Open Scope Q_scope.
Local Open Scope list_scope.

Definition double := option Q.
Definition is_nan (d : double) : bool := match d with None => true | Some _ => false end.

(** AggFuncs, 9-32, without percentileofscore. *)
Inductive func := FSum | FMin | FMax | FMean | FMedian | FProduct | FPercentile (p : Q) | FCountNonzero | FCustom (g : list double -> option double).

(** The numpy functions for numbers only; [None] is an exception, [Some None] is NaN (mean and median of nothing). *)
Definition np_numbers (f : func) (l : list Q) : option double :=
  match f with
  | FSum => Some (Some (fold_left Qplus l 0))
  | FProduct => Some (Some (fold_left Qmult l 1))
  | FMin => match l with [] => None | x :: r => Some (Some (fold_left qmin r x)) end
  | FMax => match l with [] => None | x :: r => Some (Some (fold_left qmax r x)) end
  | FMean => match l with [] => Some None | _ => Some (Some (fold_left Qplus l 0 / inject_Z (Z.of_nat (length l)))) end
  | FMedian => match l with [] => Some None | _ => Some (Some (np_median l)) end
  | FPercentile p => option_map Some (np_percentile l p)
  | FCountNonzero => Some (Some (inject_Z (Z.of_nat (countb (fun x => negb (qeqb x 0)) l))))
  | FCustom g => g (map Some l)
  end.
Fixpoint numbers (l : list double) : list Q := match l with [] => [] | Some q :: r => q :: numbers r | None :: r => numbers r end.
(** With a NaN among the data: NaN, except that [count_nonzero] counts it. *)
Definition np_apply (f : func) (l : list double) : option double :=
  if existsb is_nan l then
    match f with
    | FCountNonzero => Some (Some (inject_Z (Z.of_nat (countb (fun d => match d with None => true | Some x => negb (qeqb x 0) end) l))))
    | FCustom g => g l
    | FPercentile p => if qltb p 0 || qltb 100 p then None else Some None
    | _ => Some None
    end
  else np_numbers f (numbers l).

(** 109-140 aggregate_1d. *)
Definition aggregate_1d (f : func) (ignore_nan : bool) (data : list double) : option double :=
  if ignore_nan then match numbers data with [] => Some None | l => np_apply f (map Some l) end
  else np_apply f data.

(** 142-184 aggregate_2d with axis=0, the only axis used; [n] is the number of columns.  With [ignore_nan] line 149 selects with a two dimensional mask,
    which gives a one dimensional array, and assigns it to the two dimensional memory view [values]: a ValueError whatever the data.
    A custom function is taken to act on each column by itself. *)
Definition column (i : nat) (rows : list (list double)) : list double := map (fun row => nth i row None) rows.
Fixpoint all_some {A} (l : list (option A)) : option (list A) :=
  match l with [] => Some [] | Some x :: r => option_map (cons x) (all_some r) | None :: _ => None end.
Definition aggregate_2d (f : func) (ignore_nan : bool) (n : nat) (rows : list (list double)) : option (list double) :=
  if ignore_nan then None else all_some (map (fun i => np_apply f (column i rows)) (seq 0 n)).

(** 333-335 [aggregated_value] of a recorder with a series: temporal function [g], scenario function [f]. *)
Definition series_value (g f : func) (ignore_nan : bool) (n : nat) (rows : list (list double)) : option double :=
  match aggregate_2d g ignore_nan n rows with None => None | Some values => aggregate_1d f ignore_nan values end.

(** ** AggregatedRecorder *)

(** What was given as [agg_func] or [recorder_agg_func]. *)
Inductive given := GNothing | GName (f : func) | GCallable (g : list double -> option double).
Record aggregated := Aggregated { a_recorder_func : func; a_user : option (list double -> option double) }.

(** 380-393 __init__: [kwargs.pop('recorder_agg_func', kwargs.get('agg_func'))]; neither given is a ValueError. *)
Definition make_aggregated (recorder_agg_func agg_func : given) : option aggregated :=
  match (match recorder_agg_func with GNothing => agg_func | x => x end) with
  | GNothing => None
  | GName f => Some (Aggregated f None)
  | GCallable g => Some (Aggregated (FCustom g) (Some g))
  end.

(** A double with infinities, for the start values -inf and inf. *)
Definition xdouble := option ext.
Definition of_double (d : double) : xdouble := option_map Fin d.

(** 402-439 values for scenario [i]; [members] are the values of each recorder.  Comparisons with NaN are false; anything but the five names
    calls [self.recorder_agg_func], which is None (TypeError) unless a callable was given. *)
Definition nan_max (acc : ext) (d : double) : ext := match d with None => acc | Some v => max_step acc v end.
Definition nan_min (acc : ext) (d : double) : ext := match d with None => acc | Some v => min_step acc v end.
Definition nan_op (op : Q -> Q -> Q) (acc d : double) : double := match acc, d with Some a, Some b => Some (op a b) | _, _ => None end.
Definition aggregated_one (r : aggregated) (members : list (list double)) (i : nat) : option xdouble :=
  let l := map (fun vs => nth i vs None) members in
  match a_recorder_func r with
  | FProduct => Some (of_double (fold_left (nan_op Qmult) l (Some 1)))
  | FSum => Some (of_double (fold_left (nan_op Qplus) l (Some 0)))
  | FMax => Some (Some (fold_left nan_max l NInf))
  | FMin => Some (Some (fold_left nan_min l PInf))
  | FMean => Some (of_double (option_map (fun s => s / inject_Z (Z.of_nat (length members))) (fold_left (nan_op Qplus) l (Some 0))))
  | _ => match a_user r with None => None | Some g => option_map of_double (g l) end
  end.
(** 405: [assert(len(self.recorders))]. *)
Definition aggregated_values (r : aggregated) (n : nat) (members : list (list double)) : option (list xdouble) :=
  match members with [] => None | _ => all_some (map (aggregated_one r members) (seq 0 n)) end.
