(** What optimisers should be given. *)
From Coq Require Import Strings.String.
From Verif Require Import Base LP_model Documents_model Search_model.
Local Open Scope nat_scope.
Local Open Scope list_scope.

(** A candidate is one number for each real, then each integer, of each variable parameter. *)
Definition size (v : var) : nat := v_doubles v + v_integers v.
Definition total (vars : list var) : nat := list_sum (map size vars).

(** [l] has for every number of every parameter something that [R] allows, at its place. *)
Definition placed {A} (vars : list var) (R : var -> nat -> A -> Prop) (l : list A) : Prop :=
  List.length l = total vars /\
  forall before v after i, vars = before ++ v :: after -> i < size v -> exists a, nth_error l (total before + i) = Some a /\ R v i a.

(** The bounds of the [i]th number of a parameter. *)
Inductive bounds_of (v : var) : nat -> ext * ext -> Prop :=
| BoundsReal i l u lo hi : i < v_doubles v -> v_lower v = Some l -> v_upper v = Some u ->
    nth_error l i = Some lo -> nth_error u i = Some hi -> bounds_of v i (lo, hi)
| BoundsInteger i lo hi : i < v_integers v -> nth_error (v_ilower v) i = Some lo -> nth_error (v_iupper v) i = Some hi ->
    bounds_of v (v_doubles v + i) (Fin (inject_Z lo), Fin (inject_Z hi)).

(** A parameter has at least (exactly) the bounds it needs. *)
Definition bounded_by (R : nat -> nat -> Prop) (v : var) : Prop :=
  (v_doubles v > 0 -> exists l u, v_lower v = Some l /\ v_upper v = Some u /\ R (v_doubles v) (List.length l) /\ R (v_doubles v) (List.length u)) /\
  (v_integers v > 0 -> R (v_integers v) (List.length (v_ilower v)) /\ R (v_integers v) (List.length (v_iupper v))).

(** Order of doubles without NaN. *)
Definition ele (a b : ext) : Prop :=
  match a, b with NInf, _ => True | _, PInf => True | Fin x, Fin y => (x <= y)%Q | _, _ => False end.
Definition nearest (lo hi x y : ext) : Prop :=
  (ele lo x /\ ele x hi /\ y = x) \/ (ele x lo /\ y = lo) \/ (ele hi x /\ y = hi).
Definition towards_zero (q : Q) (z : Z) : Prop :=
  (0 <= q /\ inject_Z z <= q /\ q < inject_Z z + 1)%Q \/ (q <= 0 /\ q <= inject_Z z /\ inject_Z z - 1 < q)%Q.

(** One value may be given for all. *)
Definition value_at {A} (l : list A) (i : nat) (a : A) : Prop := l = [a] \/ nth_error l i = Some a.
Inductive given_at (g : given) (v : var) : nat -> ext -> Prop :=
| GivenReal i gv l x : i < v_doubles v -> get (v_name v) g = Some gv -> g_doubles gv = Some l -> value_at l i x -> given_at g v i (Fin x)
| GivenInteger i gv l x z : i < v_integers v -> get (v_name v) g = Some gv -> g_integers gv = Some l -> value_at l i x -> towards_zero x z ->
    given_at g v (v_doubles v + i) (Fin (inject_Z z)).
(** What a given candidate must have. *)
Definition enough {A} (n : nat) (l : list A) : Prop := List.length l = 1 \/ List.length l = n.
Definition gives (g : given) (v : var) : Prop :=
  exists gv, get (v_name v) g = Some gv /\
    (v_doubles v > 0 -> exists l, g_doubles gv = Some l /\ enough (v_doubles v) l) /\
    (v_integers v > 0 -> exists l, g_integers gv = Some l /\ enough (v_integers v) l).

Inductive now_at (v : var) : nat -> ext -> Prop :=
| NowReal i x : i < v_doubles v -> nth_error (v_now v) i = Some x -> now_at v i (Fin x)
| NowInteger i z : i < v_integers v -> nth_error (v_inow v) i = Some z -> now_at v (v_doubles v + i) (Fin (inject_Z z)).

(** Given candidates in their order, one that fails again and again, then random ones. *)
Inductive in_order : list given -> list (list var) -> list candidate -> Prop :=
| OrderEnd s : in_order s [] []
| OrderGiven g s vars calls x l : given_solution g vars = Some x -> in_order s calls l -> in_order (g :: s) (vars :: calls) (Solution x :: l)
| OrderFailed g s vars calls l : given_solution g vars = None -> in_order (g :: s) calls l -> in_order (g :: s) (vars :: calls) (Failed :: l)
| OrderRandom vars calls l : in_order [] calls l -> in_order [] (vars :: calls) (Random :: l).
