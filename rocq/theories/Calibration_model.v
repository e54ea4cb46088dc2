(** Recorders comparing simulated with observed flows: [pywr/recorders/calibration.py].

    [observed] is the DataFrame after [align_and_resample_dataframe] (rows are timesteps, no missing values) and [modelled] the recorder's data, rows
    by timestep, columns by scenario combination.  Square roots are real numbers. *)
From Coq Require Import Reals Qreals.
From Verif Require Import Base LP_model Aggregator_model.
Local Open Scope Q_scope.
Local Open Scope list_scope.

Definition number_of {A} (l : list A) : Q := inject_Z (Z.of_nat (length l)).
(** numpy's mean over a column of numbers (there is at least one timestep). *)
Definition mean (l : list Q) : Q := qsum l / number_of l.
Definition sq (x : Q) : Q := x * x.

(** ** The metrics for one column: pairs of observed and modelled flow *)
Definition pairs := list (Q * Q).
Definition errors (l : pairs) : list Q := map (fun p => fst p - snd p) l.
Definition observed_of (l : pairs) : list Q := map fst l.
(** 59-65 MeanSquareErrorNodeRecorder *)
Definition mse (l : pairs) : Q := mean (map sq (errors l)).
(** 49-55 MeanAbsoluteErrorNodeRecorder *)
Definition mae (l : pairs) : Q := mean (map qabs (errors l)).
(** 39-45 RootMeanSquaredErrorNodeRecorder *)
Definition rmse (l : pairs) : R := sqrt (Q2R (mse l)).
(** 69-75 PercentBiasNodeRecorder; [None]: division by zero gives NaN or an infinity *)
Definition pbias (l : pairs) : option Q := if qeqb (qsum (observed_of l)) 0 then None else Some (qsum (errors l) * 100 / qsum (observed_of l)).
(** np.std(obs, axis=0), the square root of this (ddof=0) *)
Definition variance (l : list Q) : Q := mean (map (fun x => sq (x - mean l)) l).
(** 79-85 RMSEStandardDeviationRatioNodeRecorder *)
Definition rsr (l : pairs) : option R := if qeqb (variance (observed_of l)) 0 then None else Some (rmse l / sqrt (Q2R (variance (observed_of l))))%R.
(** 89-98 NashSutcliffeEfficiencyNodeRecorder *)
Definition nse (l : pairs) : option Q :=
  let m := mean (observed_of l) in
  let below := qsum (map (fun x => sq (x - m)) (observed_of l)) in
  if qeqb below 0 then None else Some (1 - qsum (map sq (errors l)) / below).

(** ** Columns

    [obs - mod], a DataFrame minus an array of two dimensions: pandas wants the same shape, or an array with one column (or one row), which is repeated;
    any other shape is a ValueError.  The array with one row is left out. *)
Definition col (i : nat) (rows : list (list Q)) : list Q := map (fun row => nth i row 0) rows.
Definition subtract_columns (observed modelled : list (list Q)) (c n : nat) : option (list pairs) :=
  if Nat.eqb c n then Some (map (fun i => combine (col i observed) (col i modelled)) (seq 0 c))
  else if Nat.eqb n 1 then Some (map (fun i => combine (col i observed) (col 0 modelled)) (seq 0 c))
  else None.
(** values(): reductions of a DataFrame along axis 0 are a pandas Series. *)
Inductive returned A := Series (l : list A) | Memory (l : list A).
Arguments Series {A}. Arguments Memory {A}.
Definition metric {A} (f : pairs -> A) (observed modelled : list (list Q)) (c n : nat) : option (returned A) :=
  option_map (fun ps => Series (map f ps)) (subtract_columns observed modelled c n).
(** _recorders.pyx 333-335: [cdef double[:\] values = self.values()]; a Series has no buffer (TypeError), numpy's arrays and memory views do. *)
Definition as_memory {A} (r : returned A) : option (list A) := match r with Series _ => None | Memory l => Some l end.
Definition aggregated_metric (f : pairs -> Q) (g : func) (observed modelled : list (list Q)) (c n : nat) : option double :=
  match metric f observed modelled c n with
  | None => None
  | Some r => match as_memory r with None => None | Some l => aggregate_1d g false (map Some l) end
  end.
