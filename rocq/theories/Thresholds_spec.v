(** What a threshold means. *)
From Verif Require Import Base Thresholds_model.
Local Open Scope Q_scope.

Definition holds (p : predicate) (x threshold : Q) : Prop :=
  match p with
  | LT => x < threshold
  | GT => threshold < x
  | LE => x <= threshold
  | GE => threshold <= x
  | EQ => x == threshold
  end.

(** The predicate holds in timestep [t] for scenario [i]. *)
Definition holds_at (p : predicate) (history : list (list (Q * Q))) (t i : nat) : Prop :=
  let '(x, threshold) := nth i (nth t history []) (0, 0) in holds p x threshold.

(** Index reported in timestep [t] for scenario [i]. *)
Definition index_at (out : list (list Z)) (t i : nat) : Z := nth i (nth t out []) 0%Z.
