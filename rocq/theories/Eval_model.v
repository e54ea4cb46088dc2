(** One evaluation of all parameters of a model: the loop of Model.before (/repo/pywr/_model.pyx:844-848) over the flattened component
    graph, and `calc_values` of the parameters that are made out of other parameters
    (/repo/pywr/parameters/_parameters.pyx:1186-1225, 1261-1313, 1438-1907, _control_curves.pyx:307-365, 367-524, parameters.py:102-121,
    359-415).

    A component is a number, 1, 2, ... in order of construction (Graph_model.v).  Its arrays `__values` and, for an IndexParameter,
    `__indices` have one entry per scenario combination; the two are kept together here, [None] stands for "not an IndexParameter".
    Doubles are rationals.  An exception ends the loop: [None].  So does an index that does not fit a C int (undefined in C). *)
From Verif Require Import Base LP_model Ring Scenario_model ScenarioParams_model Graph_model Aggregate_model ControlCurves_model.
Local Open Scope Q_scope.
Local Open Scope list_scope.

Notation entry := (Q * option Z)%type.
Notation arrays := (nat -> list entry).

(** A constructor call; the arguments that are parameters are the numbers of components made before. *)
Inductive cls :=
| Given (f : nat -> option entry)                    (* any class that reads no other parameter: what it calculates for combination i *)
| Division (a b : nat)
| Negative (a : nat)
| Max (a : nat) (threshold : Q)
| NegativeMax (a : nat) (threshold : Q)
| Min (a : nat) (threshold : Q)
| NegativeMin (a : nat) (threshold : Q)
| Offset (a : nat) (offset : Q)
| Scaled (scale : Q) (profile : nat)                 (* ScaledProfileParameter *)
| Apply1 (f : Q -> option Q) (a : nat)               (* a function of one value: Polynomial1D, Interpolated, PiecewiseIntegral *)
| Apply2 (f : Q -> Q -> option Q) (a b : nat)        (* of two values: InterpolatedQuadrature *)
| Aggregated (user : list Q -> Q) (f : agg_func) (ps : list nat)
| AggregatedIndex (user : list Z -> Z) (f : agg_func) (ps : list nat)
| IndexedArray (ix : nat) (ps : list nat)
| ScenarioWrapper (member : nat -> nat) (ps : list nat)       (* `indices[_scenario_index]` of combination i *)
| ControlCurveIndex (pc : nat -> Q) (ccs : list nat)          (* [pc i]: `get_current_pc` of the storage *)
| ControlCurveValues (pc : nat -> Q) (ccs : list nat) (values : list Q)
| ControlCurveParameters (pc : nat -> Q) (ccs ps : list nat).

(** The constructor as Graph_model.v knows it: which dependencies it declares. *)
Definition ctor_of (k : cls) : option ctor :=
  match k with
  | Given _ => None
  | Division a b => Some (CDivision a b)
  | Negative a | Max a _ | NegativeMax a _ | Min a _ | NegativeMin a _ | Offset a _ | Apply1 _ a => Some (COne a)
  | Scaled _ a => Some (CScaledProfile a)
  | Apply2 _ a b => Some (CTwo a b)
  | Aggregated _ _ ps | AggregatedIndex _ _ ps => Some (CAggregated ps)
  | IndexedArray ix ps => Some (CIndexedArray ix ps)
  | ScenarioWrapper _ ps => Some (CScenarioWrapper ps)
  | ControlCurveIndex _ ccs | ControlCurveValues _ ccs _ => Some (CControlCurve ccs [])
  | ControlCurveParameters _ ccs ps => Some (CControlCurve ccs ps)
  end.

Definition no_entry : entry := (0, None).
(** `p.get_value(scenario_index)`, `p.__values[i]` and `p.get_index(scenario_index)`. *)
Definition value_at (w : arrays) (i p : nat) : Q := fst (nth i (w p) no_entry).
Definition index_at (w : arrays) (i p : nat) : option Z := snd (nth i (w p) no_entry).

(** `for i in range(n): self.__values[i] = ...` *)
Definition each (n : nat) (f : nat -> option entry) : option (list entry) := sequence (map f (seq 0 n)).
Definition number (v : Q) : option entry := Some (v, None).
Definition int_entry (z : Z) : entry := (inject_Z z, Some z).

(** `calc_values`.  Division 1727-1732 (ZeroDivisionError), Negative 1757-1762, Max 1787-1792, NegativeMax 1803-1808, Min 1829-1834,
    NegativeMin 1845-1850, Offset 1883-1888, ScaledProfile.value parameters.py:110-112, Aggregated 1503-1556, AggregatedIndex 1624-1682
    (both refuse to have no member, 1499-1501 and 1619-1622, and AggregatedIndex members that are no IndexParameter),
    IndexedArray.value 1296-1301 (it also asserts an IndexParameter, 1281), ScenarioWrapper.value parameters.py:399-406,
    ControlCurveIndex.index 345-364 with IndexParameter.value 1195-1198, ControlCurve.value 501-524 with the check of the number of
    values or parameters in 413-432. *)
Definition calc (n : nat) (k : cls) (w : arrays) : option (list entry) :=
  match k with
  | Given f => each n f
  | Division a b => each n (fun i => if qeqb (value_at w i b) 0 then None else number (value_at w i a / value_at w i b))
  | Negative a => each n (fun i => number (- value_at w i a))
  | Max a t => each n (fun i => number (qmax (value_at w i a) t))
  | NegativeMax a t => each n (fun i => number (qmax (- value_at w i a) t))
  | Min a t => each n (fun i => number (qmin (value_at w i a) t))
  | NegativeMin a t => each n (fun i => number (qmin (- value_at w i a) t))
  | Offset a o => each n (fun i => number (value_at w i a + o))
  | Scaled s a => each n (fun i => number (s * value_at w i a))
  | Apply1 f a => each n (fun i => bindo (f (value_at w i a)) number)
  | Apply2 f a b => each n (fun i => bindo (f (value_at w i a) (value_at w i b)) number)
  | Aggregated user f ps =>
      match ps with
      | [] => None
      | _ => bindo (aggregate user f n (map (fun p => map fst (w p)) ps))
                   (fun l => sequence (map (fun x => match x with Fin v => number v | _ => None end) l))
      end
  | AggregatedIndex user f ps =>
      match ps with
      | [] => None
      | _ => bindo (sequence (map (fun p => sequence (map snd (w p))) ps))
                   (fun members => option_map (map int_entry) (aggregate_index user f n members))
      end
  | IndexedArray ix ps =>
      each n (fun i => bindo (index_at w i ix) (fun z => bindo (at_z ps z) (fun p => number (value_at w i p))))
  | ScenarioWrapper member ps =>
      each n (fun i => bindo (nth_error ps (member i)) (fun p => number (value_at w i p)))
  | ControlCurveIndex pc ccs =>
      each n (fun i => Some (int_entry (Z.of_nat (curve_index (pc i) (map (value_at w i) ccs)))))
  | ControlCurveValues pc ccs values =>
      if Nat.eqb (length values) (length ccs + 1)
      then each n (fun i => number (curve_value values (pc i) (map (value_at w i) ccs))) else None
  | ControlCurveParameters pc ccs ps =>
      if Nat.eqb (length ps) (length ccs + 1)
      then each n (fun i => number (curve_value (map (value_at w i) ps) (pc i) (map (value_at w i) ccs))) else None
  end.

(** `__indices` is an array of C ints. *)
Definition fitsb (z : option Z) : bool :=
  match z with Some z => (int_min <=? z)%Z && (z <=? int_max)%Z | None => true end.
Definition calc_values (n : nat) (k : cls) (w : arrays) : option (list entry) :=
  bindo (calc n k w) (fun out => if forallb (fun e => fitsb (snd e)) out then Some out else None).

(** `for component in self.flatten_component_tree(rebuild=False): component.calc_values(timestep)` *)
Definition set_array (w : arrays) (c : nat) (out : list entry) : arrays := fun d => if Nat.eqb d c then out else w d.
Fixpoint pass (n : nat) (ks : list cls) (order : list nat) (w : arrays) : option arrays :=
  match order with
  | [] => Some w
  | c :: r =>
      bindo (nth_error ks (c - 1)) (fun k =>
      bindo (calc_values n k w) (fun out => pass n ks r (set_array w c out)))
  end.

(** The order the model finds for components made by these constructor calls. *)
Definition order_of (ks : list cls) : option (list nat) :=
  snd (mrun (mhistory (map EOp (build_ops (map ctor_of ks))))).
