(** Model of [BisectionSearchModel.run] ([pywr/utils/bisect.py]).

    The loop is written over an arbitrary kind of number, so that it can be read with exact arithmetic and with IEEE doubles. *)
From Verif Require Import Base.
From Coq Require Import Floats.SpecFloat.

(** What the loop does with numbers: sum, difference, division by two, comparisons and minus infinity. *)
Record arithmetic := Arithmetic {
  num : Type;
  add : num -> num -> num;
  sub : num -> num -> num;
  half : num -> num;
  gtb : num -> num -> bool;
  geb : num -> num -> bool;
  zero : num;
  neg_inf : num;
  is_neg_inf : num -> bool
}.

(** Why [run] raised: 56-82 and 107-112. *)
Inductive failure := NoEpsilon | NoParameter | WrongSize | EmptyRange | EpsilonNotPositive | NothingFeasible.

(** [Ends v l]: the call returned, the best value was [v] and [l] are the values simulated, in order. *)
Inductive outcome (N : Type) := Raises (why : failure) (simulated : list N) | Ends (best : N) (simulated : list N).
Arguments Raises {N}. Arguments Ends {N}.

Section Search.
  Variable A : arithmetic.
  Notation N := (num A).
  (** 97-99: whether all constraints hold after a simulation with this value (the simulation and [is_feasible]). *)
  Variable feasible : N -> bool.
  Variable epsilon : N.

  (** [max(best_feasible, current_value)] of line 102. *)
  Definition py_max (a b : N) : N := if gtb A b a then b else a.

  (** 88-105, the loop; [None] when the fuel is used up while the loop condition still holds.  The values simulated are
      collected in reverse order. *)
  Fixpoint loop (fuel : nat) (min_value max_value best : N) (simulated : list N) : option (N * N * N * list N) :=
    if gtb A (sub A max_value min_value) epsilon then
      match fuel with
      | O => None
      | S fuel =>
          let current := half A (add A max_value min_value) in
          if feasible current then loop fuel current max_value (py_max best current) (current :: simulated)
          else loop fuel min_value current best (current :: simulated)
      end
    else Some (min_value, max_value, best, simulated).

  (** 107-125. *)
  Definition conclude (error_on_infeasible : bool) (r : N * N * N * list N) : outcome N :=
    let '(min_value, max_value, best, simulated) := r in
    if is_neg_inf A best then
      if error_on_infeasible then Raises NothingFeasible (rev simulated)
      else Ends min_value (rev (min_value :: simulated))
    else Ends best (rev (best :: simulated)).
End Search.

(** 53-82 and the whole of [run]; [parameter] holds double_size, integer_size and the two bounds. *)
Definition run (A : arithmetic) (feasible : num A -> bool) (epsilon : option (num A))
    (parameter : option (nat * nat * num A * num A)) (error_on_infeasible : bool) (fuel : nat) : option (outcome (num A)) :=
  match epsilon with
  | None => Some (Raises NoEpsilon [])
  | Some eps =>
      match parameter with
      | None => Some (Raises NoParameter [])
      | Some (dsize, isize, lo, hi) =>
          if negb (dsize =? 1)%nat || negb (isize =? 0)%nat then Some (Raises WrongSize [])
          else if geb A lo hi then Some (Raises EmptyRange [])
          else if geb A (zero A) eps then Some (Raises EpsilonNotPositive [])
          else
            match loop A feasible eps fuel lo hi (neg_inf A) [] with
            | None => None
            | Some r => Some (conclude A error_on_infeasible r)
            end
      end
  end.

(** ** Exact numbers with infinities and NaN *)

Inductive xnum := XNaN | XNeg | Xq (q : Q) | XPos.

Definition xadd (a b : xnum) : xnum :=
  match a, b with
  | XNaN, _ | _, XNaN => XNaN
  | XPos, XNeg | XNeg, XPos => XNaN
  | XPos, _ | _, XPos => XPos
  | XNeg, _ | _, XNeg => XNeg
  | Xq x, Xq y => Xq (x + y)
  end.
Definition xopp (a : xnum) : xnum := match a with XNaN => XNaN | XNeg => XPos | XPos => XNeg | Xq q => Xq (- q) end.
Definition xhalf (a : xnum) : xnum := match a with Xq q => Xq (q / 2) | _ => a end.
(** Every comparison with NaN is false. *)
Definition xgtb (a b : xnum) : bool :=
  match a, b with
  | XNaN, _ | _, XNaN => false
  | XNeg, _ => false
  | _, XPos => false
  | XPos, _ => true
  | Xq _, XNeg => true
  | Xq x, Xq y => qltb y x
  end.
Definition xgeb (a b : xnum) : bool :=
  match a, b with
  | XNaN, _ | _, XNaN => false
  | XPos, _ => true
  | _, XNeg => true
  | _, XPos => false
  | XNeg, _ => false
  | Xq x, Xq y => qleb y x
  end.
Definition exact : arithmetic :=
  Arithmetic xnum xadd (fun a b => xadd a (xopp b)) xhalf xgtb xgeb (Xq 0) XNeg (fun a => match a with XNeg => true | _ => false end).

(** ** IEEE doubles (Coq's specification of binary64, round to nearest even) *)

Definition fgtb (a b : spec_float) : bool := SFltb b a.
Definition fgeb (a b : spec_float) : bool := SFleb b a.
Definition two : spec_float := S754_finite false 1 1.
Definition double : arithmetic :=
  Arithmetic spec_float (SFadd 53 1024) (SFsub 53 1024) (fun a => SFdiv 53 1024 a two) fgtb fgeb (S754_zero false)
    (S754_infinity true) (fun a => match a with S754_infinity true => true | _ => false end).
