(** Parameters given to components after their construction: the setters of attributes that hold parameters and the methods that add or remove one.

    /repo/pywr/parameters/_parameters.pyx:1488-1494, 1608-1614 (add, remove), 1698-1725 (DivisionParameter); parameters/_hydropower.pyx:135-168, recorders/_hydropower.pyx:118-124, 223-229;
    /repo/pywr/parameter_property.py; parameters/_control_curves.pyx:48-68, 322-343; parameters/_thresholds.pyx:117-132; recorders/recorders.py:345-381, recorders/_tables_recorders.pyx:142-179.

    The calls they make are those of the component graph of Graph_model.v.  Numbers among control curves have been made parameters; anything else that is not a component is [IOther].
    Components are numbered in order of creation, from 1. *)
From Verif Require Import Base Paths Graph_model.
Local Open Scope nat_scope.
Local Open Scope list_scope.

(** How an attribute is written.
    - [Strict]: `if old is not None: …remove(old)`, then the new one is added (DivisionParameter; threshold of the threshold parameters);
    - [Truthy]: the same with `if old:` (parameter_property: InterpolatedParameter, InterpolatedQuadratureParameter; HydropowerTargetParameter, HydropowerRecorder, TotalHydroEnergyRecorder);
    - [Curves]: every old one is removed, every new one added (control_curves);
    - [Members]: written by add and remove (AggregatedParameter, AggregatedIndexParameter);
    - [Recorded]: written by _add_parameter and _remove_parameter (TablesRecorder, TablesRecorder2);
    - [Plain]: an attribute without a setter that the constructor has declared (NegativeParameter, Max-, Min-, OffsetParameter: `cdef public Parameter parameter`; IndexedArrayParameter.params;
      parameters of control curve parameters; ScaledProfileParameter.profile; ScenarioWrapperParameter.parameters; ParameterThresholdParameter.param; EventRecorder.threshold). *)
Inductive style := Strict | Truthy | Curves | Members | Recorded | Plain.
Record slot := Slot { s_style : style; s_items : list item }.
(** The calls made so far, and what the attributes of each component hold. *)
Record rstate := RS { r_ops : list gop; r_slots : list (list slot) }.

Definition here (s : rstate) (c : nat) : list slot := match c with O => [] | S k => nth k (r_slots s) [] end.

Definition add_op (st : style) (c : nat) (it : item) : gop :=
  match st, it with
  | Curves, IComp d | Members, IComp d => ParentsAdd d (IComp c)
  | _, it => ChildrenAdd c it
  end.
Definition remove_op (st : style) (c d : nat) : gop :=
  match st with
  | Curves | Members => ParentsRemove d (IComp c)
  | _ => ChildrenRemove c (IComp d)
  end.

(** The old ones are removed one by one; `remove_edge` raises when there is no such edge, and [true] says so. *)
Fixpoint remove_all (st : style) (ops : list gop) (c : nat) (old : list item) : list gop * bool :=
  match old with
  | [] => (ops, false)
  | IOther :: old => remove_all st ops c old
  | IComp d :: old => if has_edge (grun ops) d c then remove_all st (ops ++ [remove_op st c d]) c old else (ops, true)
  end.

Definition upd_nth {A} (i : nat) (x : A) (l : list A) : list A := firstn i l ++ x :: skipn (S i) l.
Definition set_slot (s : rstate) (ops : list gop) (c i : nat) (sl : slot) : rstate := RS ops (upd_nth (c - 1) (upd_nth i sl (here s c)) (r_slots s)).

(** An AggregatedParameter without members has length 0, so `if old:` takes it for nothing. *)
Definition falsy (s : rstate) (it : item) : bool :=
  match it with
  | IOther => false
  | IComp d => match here s d with [Slot Members []] => true | _ => false end
  end.

Definition item_eqb (a b : item) : bool := match a, b with IComp x, IComp y => Nat.eqb x y | _, _ => false end.
(** `list.remove`; [None]: ValueError. *)
Fixpoint remove_first (it : item) (l : list item) : option (list item) :=
  match l with [] => None | x :: l => if item_eqb x it then Some l else option_map (cons x) (remove_first it l) end.
(** TablesRecorder looks for the last one; [None]: KeyError. *)
Definition remove_last (it : item) (l : list item) : option (list item) := option_map (@rev item) (remove_first it (rev l)).

Inductive act :=
| Create (slots : list slot)                       (* a constructor *)
| Assign (c i : nat) (v : list item)               (* attribute [i] of [c] *)
| Append (c i : nat) (d : nat)
| Drop (c i : nat) (d : nat).

(** The state afterwards, and whether an exception was raised. *)
Definition rstep (s : rstate) (a : act) : rstate * bool :=
  match a with
  | Create slots =>
      let c := S (List.length (r_slots s)) in
      (RS (r_ops s ++ New :: flat_map (fun sl => map (add_op (s_style sl) c) (s_items sl)) slots) (r_slots s ++ [slots]), false)
  | Assign c i v =>
      match nth_error (here s c) i with
      | None => (s, true)
      | Some (Slot st old) =>
          match st with
          | Strict | Curves | Truthy =>
              let old := match st with Truthy => filter (fun it => negb (falsy s it)) old | _ => old end in
              let (ops, raised) := remove_all st (r_ops s) c old in
              if raised then (RS ops (r_slots s), true) else (set_slot s (ops ++ map (add_op st c) v) c i (Slot st v), false)
          | Members | Recorded | Plain => (set_slot s (r_ops s) c i (Slot st v), false)
          end
      end
  | Append c i d =>
      match nth_error (here s c) i with
      | Some (Slot Members old) => (set_slot s (r_ops s ++ [add_op Members c (IComp d)]) c i (Slot Members (old ++ [IComp d])), false)
      | Some (Slot Recorded old) => (set_slot s (r_ops s ++ [add_op Recorded c (IComp d)]) c i (Slot Recorded (old ++ [IComp d])), false)
      | _ => (s, true)
      end
  | Drop c i d =>
      match nth_error (here s c) i with
      | Some (Slot st old) =>
          match match st with Members => remove_first (IComp d) old | Recorded => remove_last (IComp d) old | _ => None end with
          | None => (s, true)
          | Some kept =>
              let (ops, raised) := remove_all st (r_ops s) c [IComp d] in
              (set_slot s ops c i (Slot st kept), raised)
          end
      | None => (s, true)
      end
  end.
