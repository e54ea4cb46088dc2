(** What the named aggregates of a list of numbers are. *)
From Verif Require Import Base Aggregate_model.
Local Open Scope Q_scope.

Fixpoint qprod (l : list Q) : Q := match l with [] => 1 | x :: r => x * qprod r end.
Definition is_max (l : list Q) (m : Q) : Prop := In m l /\ forall x, In x l -> x <= m.
Definition is_min (l : list Q) (m : Q) : Prop := In m l /\ forall x, In x l -> m <= x.
Definition is_mean (l : list Q) (m : Q) : Prop := m * inject_Z (Z.of_nat (length l)) == qsum l.

(** [v] has rank [k] (from 0) in [l]: at most [k] members are smaller, more than [k] are not larger. *)
Definition has_rank (l : list Q) (k : nat) (v : Q) : Prop :=
  In v l /\ (countb (fun x => qltb x v) l <= k)%nat /\ (k < countb (fun x => qleb x v) l)%nat.
(** Half way between the lower and the upper middle member. *)
Definition is_median (l : list Q) (m : Q) : Prop :=
  exists a b, has_rank l ((length l - 1) / 2) a /\ has_rank l (length l / 2) b /\ m + m == a + b.

(** The aggregate named by [f] (only the named ones of AggregatedParameter). *)
Definition is_aggregate (f : agg_func) (l : list Q) (v : Q) : Prop :=
  match f with
  | ASum => v == qsum l
  | AProduct => v == qprod l
  | AMin => is_min l v
  | AMax => is_max l v
  | AMean => is_mean l v
  | AMedian => is_median l v
  | _ => False
  end.

Fixpoint zsum (l : list Z) : Z := match l with [] => 0%Z | x :: r => (x + zsum r)%Z end.
Fixpoint zprod (l : list Z) : Z := match l with [] => 1%Z | x :: r => (x * zprod r)%Z end.
Definition is_index_aggregate (f : agg_func) (l : list Z) (v : Z) : Prop :=
  match f with
  | ASum => v = zsum l
  | AProduct => v = zprod l
  | AMin => In v l /\ forall x, In x l -> (v <= x)%Z
  | AMax => In v l /\ forall x, In x l -> (x <= v)%Z
  | AAny => (v = 1%Z /\ exists x, In x l /\ x <> 0%Z) \/ (v = 0%Z /\ forall x, In x l -> x = 0%Z)
  | AAll => (v = 1%Z /\ forall x, In x l -> x <> 0%Z) \/ (v = 0%Z /\ exists x, In x l /\ x = 0%Z)
  | _ => False
  end.
