(** Polynomials by Horner's rule. *)
From Verif Require Import Base.
Local Open Scope Q_scope.

Fixpoint horner (x : Q) (coefficients : list Q) : Q :=
  match coefficients with [] => 0 | c :: r => c + x * horner x r end.
