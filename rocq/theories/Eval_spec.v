(** What a parameter made out of other parameters means, in one timestep and one scenario combination. *)
From Verif Require Import Base LP_model Graph_model Aggregate_model Aggregate_spec ControlCurves_spec Eval_model.
Local Open Scope Q_scope.
Local Open Scope list_scope.

(** Equal numbers, same index. *)
Definition same (e e' : entry) : Prop := fst e == fst e' /\ snd e = snd e'.

(** The parameters an expression mentions. *)
Definition mentions (k : cls) : list nat := match ctor_of k with Some c => ctor_reads c | None => [] end.

(** The value of an expression, given the values of what it mentions, in the same order. *)
Definition larger (a b v : Q) : Prop := (v == a \/ v == b) /\ a <= v /\ b <= v.
Definition smaller (a b v : Q) : Prop := (v == a \/ v == b) /\ v <= a /\ v <= b.

(** Python's [l[z]]. *)
Definition item {A} (l : list A) (z : Z) (x : A) : Prop :=
  (0 <= z)%Z /\ nth_error l (Z.to_nat z) = Some x \/ (z < 0)%Z /\ nth_error (rev l) (Z.to_nat (- z - 1)) = Some x.

Definition only_number (e : entry) (P : Q -> Prop) : Prop := P (fst e) /\ snd e = None.
Definition whole_number (e : entry) (P : Z -> Prop) : Prop := exists z, P z /\ fst e == inject_Z z /\ snd e = Some z.

Definition value_rule (k : cls) (i : nat) (xs : list Q) (zs : list (option Z)) (e : entry) : Prop :=
  match k, xs with
  | Given f, [] => exists e', f i = Some e' /\ same e e'
  | Division _ _, [x; y] => only_number e (fun v => ~ y == 0 /\ v * y == x)
  | Negative _, [x] => only_number e (fun v => v + x == 0)
  | Max _ t, [x] => only_number e (larger x t)
  | NegativeMax _ t, [x] => only_number e (larger (- x) t)
  | Min _ t, [x] => only_number e (smaller x t)
  | NegativeMin _ t, [x] => only_number e (smaller (- x) t)
  | Offset _ o, [x] => only_number e (fun v => v - x == o)
  | Scaled s _, [x] => only_number e (fun v => v == s * x)
  | Apply1 f _, [x] => only_number e (fun v => exists v', f x = Some v' /\ v == v')
  | Apply2 f _ _, [x; y] => only_number e (fun v => exists v', f x y = Some v' /\ v == v')
  | Aggregated user f _, _ :: _ => only_number e (fun v => (f = ACustom /\ v == user xs) \/ is_aggregate f xs v)
  | AggregatedIndex user f _, _ :: _ =>
      whole_number e (fun z => exists l, zs = map Some l /\ ((f = ACustom /\ z = user l) \/ is_index_aggregate f l z))
  | IndexedArray _ _, _ :: vs => only_number e (fun v => exists z rest v', zs = Some z :: rest /\ item vs z v' /\ v == v')
  | ScenarioWrapper member _, vs => only_number e (fun v => exists v', nth_error vs (member i) = Some v' /\ v == v')
  | ControlCurveIndex pc _, curves => whole_number e (fun z => (0 <= z)%Z /\ in_band curves (pc i) (Z.to_nat z))
  | ControlCurveValues pc _ values, curves =>
      only_number e (fun v => exists b v', in_band curves (pc i) b /\ length values = S (length curves) /\ nth_error values b = Some v' /\ v == v')
  | ControlCurveParameters pc ccs ps, _ =>
      only_number e (fun v => exists b v', in_band (firstn (length ccs) xs) (pc i) b /\ length ps = S (length ccs) /\
        nth_error (skipn (length ccs) xs) b = Some v' /\ v == v')
  | _, _ => False
  end.

(** A C int. *)
Definition fits (z : option Z) : Prop := match z with Some z => (- 2147483648 <= z <= 2147483647)%Z | None => True end.

(** Component [c] of the program [ks] means [e] in combination [i]. *)
Inductive means (ks : list cls) (i : nat) : nat -> entry -> Prop :=
| Means c k es e : nth_error ks (c - 1) = Some k -> Forall2 (means ks i) (mentions k) es ->
    value_rule k i (map fst es) (map snd es) e -> fits (snd e) -> means ks i c e.

(** Parameters are made before they are used. *)
Definition made_before (ks : list cls) : Prop :=
  forall c k p, nth_error ks (c - 1) = Some k -> In p (mentions k) -> (1 <= p < c)%nat.

(** Functions do not tell equal numbers apart. *)
Definition agree {A} (R : A -> A -> Prop) (a b : option A) : Prop :=
  match a, b with Some x, Some y => R x y | None, None => True | _, _ => False end.
Definition functions_of_numbers (ks : list cls) : Prop := forall k, In k ks ->
  match k with
  | Apply1 f _ => forall x x', x == x' -> agree Qeq (f x) (f x')
  | Apply2 f _ _ => forall x x' y y', x == x' -> y == y' -> agree Qeq (f x y) (f x' y')
  | Aggregated user _ _ => forall l l', Forall2 Qeq l l' -> user l == user l'
  | _ => True
  end.
