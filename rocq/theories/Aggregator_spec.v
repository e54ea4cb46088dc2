(** The named aggregates of a list of numbers. *)
From Verif Require Import Base Aggregate_spec Series_spec Aggregator_model.
Local Open Scope Q_scope.

Definition aggregates (f : func) (l : list Q) (v : Q) : Prop :=
  match f with
  | FSum => v == qsum l
  | FProduct => v == qprod l
  | FMin => is_min l v
  | FMax => is_max l v
  | FMean => is_mean l v
  | FMedian => is_median l v
  | FPercentile p => is_percentile l p v
  | FCountNonzero => v == inject_Z (Z.of_nat (length (filter (fun x => negb (qeqb x 0)) l)))
  | FCustom _ => False
  end.
(** A function that has a name and, for a percentile, a valid argument. *)
Definition named (f : func) : Prop := match f with FCustom _ => False | FPercentile p => 0 <= p <= 100 | _ => True end.
