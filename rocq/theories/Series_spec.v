(** Percentiles and last values, without reference to how they are computed. *)
From Verif Require Import Base Aggregate_spec.
Local Open Scope Q_scope.

(** [v] is the [p]-th percentile of [l]: with the values ranked from 0 (smallest) to n-1 (largest), the position [p] per cent of the way lies
    between the ranks [k] and [k+1], and [v] lies as far between their values as the position does between the ranks. *)
Definition is_percentile (l : list Q) (p v : Q) : Prop :=
  exists k a b, let h := inject_Z (Z.of_nat (length l - 1)) * p / 100 in
    inject_Z (Z.of_nat k) <= h /\ h < inject_Z (Z.of_nat k) + 1 /\
    has_rank l k a /\ has_rank l (Nat.min (k + 1) (length l - 1)) b /\
    v == a + (h - inject_Z (Z.of_nat k)) * (b - a).

(** The last entry written for row [r]. *)
Fixpoint last_for {A} (r : nat) (run : list (nat * A)) : option A :=
  match run with
  | [] => None
  | (t, x) :: l => match last_for r l with Some y => Some y | None => if Nat.eqb t r then Some x else None end
  end.

(** How far the actual value is outside of the range given by the targets, as a share of the target. *)
Definition relative_excess (actual lower upper : Q) : Q :=
  if qltb upper actual then (actual - upper) / upper else if qltb actual lower then (lower - actual) / lower else 0.

(** [v] is the number a recorder of this kind should keep. *)
From Verif Require Import LP_model Recorders_model Series_model.
Definition shows (k : series) (s : seen) (v : Q) : Prop :=
  match k with
  | NodeFlow factor => v == factor * n_flow s
  | NodeDeficit => match n_max s with Fin q => n_flow s + v == q | _ => False end
  | SuppliedRatio => match n_max s with Fin q => (q == 0 -> v == 1) /\ (~ q == 0 -> v * q == n_flow s) | _ => v == 0 end
  | CurtailmentRatio => match n_max s with Fin q => (q == 0 -> v == 0) /\ (~ q == 0 -> v * q == q - n_flow s) | _ => v == 1 end
  | NodeCost => v == n_cost s
  | StorageVolume => v == s_volume s
  | StorageProportion => v == s_pc s
  | NormalisedStorage => (s_pc s < p_value s -> v * p_value s == s_pc s - p_value s) /\ (p_value s <= s_pc s -> v * (1 - p_value s) == s_pc s - p_value s)
  | StorageLevel => v == s_level s
  | StorageArea => v == s_area s
  | ParameterValue => v == p_value s
  end.
