(** What a user expects of bounds. *)
From Verif Require Import Base LP_model.

(** The bounds last set; [None]: no bound. *)
Definition setting : Type := option Q * option Q.

(** An assignment to one of the bounds. *)
Inductive assignment := Lower (v : option Q) | Upper (v : option Q).

Definition in_order (s : setting) : Prop := match s with (Some l, Some u) => l <= u | _ => True end.

Definition assigned (s : setting) (a : assignment) : setting :=
  match a with Lower v => (v, snd s) | Upper v => (fst s, v) end.

(** The value is a number within the bounds. *)
Definition inside (s : setting) (value : option ext) : Prop :=
  match value with
  | None => False
  | Some v =>
      match fst s with None => True | Some l => match v with NInf => False | Fin q => l <= q | PInf => True end end /\
      match snd s with None => True | Some u => match v with NInf => True | Fin q => q <= u | PInf => False end end
  end.

(** A platypus constraint holds. *)
Definition holds_ge (v b : option ext) : Prop :=
  match v, b with Some (Fin x), Some (Fin y) => y <= x | Some PInf, Some _ => True | Some _, Some NInf => True | _, _ => False end.
Definition holds_le (v b : option ext) : Prop :=
  match v, b with Some (Fin x), Some (Fin y) => x <= y | Some NInf, Some _ => True | Some _, Some PInf => True | _, _ => False end.
