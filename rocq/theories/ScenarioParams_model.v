(** Parameters whose value depends on a scenario: parameters/_parameters.pyx 192-270, 305-335, 338-485, 515-612, 798-910, 1228-1258 and
    parameters/parameters.py 359-405.

    The scenarios of a model are objects; here each has a number ([ids], in the order of the model), next to what
    Scenario_model.v says about it. *)
From Verif Require Import Base Ring Scenario_model.
Local Open Scope Z_scope.
Local Open Scope list_scope.

(** Indexing of a memory view or a list from Python or Cython code without directives (setup.py:8-11): negative numbers count from
    the end, everything else out of range is an IndexError ([None]). *)
Definition wrap (len : nat) (z : Z) : option nat :=
  let z := if z <? 0 then z + Z.of_nat len else z in
  if (0 <=? z) && (z <? Z.of_nat len) then Some (Z.to_nat z) else None.
Definition at_z {A} (l : list A) (z : Z) : option A :=
  match wrap (length l) z with Some n => nth_error l n | None => None end.
Definition bindo {A B} (m : option A) (f : A -> option B) : option B := match m with Some a => f a | None => None end.

(** [get_scenario_index]: _core.pyx:156-158, the place of the object in the list; ValueError if it is not there. *)
Fixpoint get_scenario_index (ids : list nat) (id : nat) : option Z :=
  match ids with
  | [] => None
  | x :: r => if Nat.eqb x id then Some 0 else option_map Z.succ (get_scenario_index r id)
  end.

(** What the parameters use of a timestep: [index], [month], [week_index], [dayofyear_index]. *)
Record timestep := Timestep { t_index : Z; t_month : Z; t_week : Z; t_day : Z }.

(** The parameters with one index into a table.  [Q] stands for the double or int values. *)
Inductive param :=
| ConstantScenario (values : list Q)                                  (* 515-546 and, with integers, 1228-1258 *)
| ArrayIndexedScenario (values : list (list Q))                       (* 305-335: by timestep, then by member *)
| MonthlyFactors (values : list Q) (factors : list (list Q))          (* 549-590: factors by member, then by month *)
| MonthlyProfile (values : list (list Q))                             (* 798-830 *)
| WeeklyProfile (values : list (list Q))                              (* 832-868 *)
| DailyProfile (values : list (list Q))                               (* 870-908 *)
| Wrapper (children : list (list Q)).                                 (* parameters.py 359-405: what [get_value] of every child gives, by global id *)

(** All rows as long as the first: what numpy calls two dimensional. *)
Definition width (m : list (list Q)) : Z := match m with [] => 0 | r :: _ => Z.of_nat (length r) end.

(** The checks of the constructors; [size] is the size of the scenario.  525, 318-320, 563-569, 813-818, 850-855, 888-893,
    parameters.py 381-384. *)
Definition accepted (size : Z) (p : param) : bool :=
  match p with
  | ConstantScenario values => size =? Z.of_nat (length values)
  | ArrayIndexedScenario values => size =? width values
  | MonthlyFactors _ factors => (Z.of_nat (length factors) =? size) && (width factors =? 12)
  | MonthlyProfile values => (size =? Z.of_nat (length values)) && (width values =? 12)
  | WeeklyProfile values => (size =? Z.of_nat (length values)) && (width values =? 52)
  | DailyProfile values => (size =? Z.of_nat (length values)) && (width values =? 366)
  | Wrapper children => size =? Z.of_nat (length children)
  end.

(** [value(ts, scenario_index)] with the index found by [setup]. *)
Definition value (p : param) (position : Z) (t : timestep) (si : scenario_index) : option Q :=
  bindo (at_z (indices si) position) (fun i =>
  match p with
  | ConstantScenario values => at_z values i
  | ArrayIndexedScenario values => bindo (at_z values (t_index t)) (fun row => at_z row i)
  | MonthlyFactors values factors =>
      bindo (at_z values (t_index t)) (fun v => bindo (at_z factors i) (fun row => bindo (at_z row (t_month t - 1)) (fun f => Some (v * f)%Q)))
  | MonthlyProfile values => bindo (at_z values i) (fun row => at_z row (t_month t - 1))
  | WeeklyProfile values => bindo (at_z values i) (fun row => at_z row (t_week t))
  | DailyProfile values => bindo (at_z values i) (fun row => at_z row (t_day t))
  | Wrapper children => bindo (at_z children i) (fun child => at_z child (Z.of_nat (global_id si)))
  end).

(** Construction, [setup] and [value]: [None] if one of them raises. *)
Definition run_param (c : collection) (ids : list nat) (id : nat) (p : param) (t : timestep) (si : scenario_index) : option Q :=
  bindo (get_scenario_index ids id) (fun position =>
  bindo (nth_error (scenarios c) (Z.to_nat position)) (fun sc =>
  if accepted (sc_size sc) p then value p position t si else None)).

(** ** DataFrameParameter and TablesArrayParameter *)

(** [sorted(list(set(...)))]. *)
Fixpoint insert (x : Z) (l : list Z) : list Z :=
  match l with
  | [] => [x]
  | y :: r => if x <? y then x :: l else if x =? y then l else y :: insert x r
  end.
Definition sorted_set (l : list Z) : list Z := fold_right insert [] l.

(** The columns to load, 231-242 and 393-403: from the user's combinations; else from the slice, taken with its own [stop] for the
    length (a TypeError without, a ValueError below zero); else [Some None], all of them. *)
Definition wanted (c : collection) (position : Z) (sc : scenario) : option (option (list Z)) :=
  match user c with
  | Some ((_ :: _) as u) => option_map (fun l => Some (sorted_set l)) (sequence (map (fun row => at_z row position) u))
  | _ =>
      match sc_slice sc with
      | None => Some None
      | Some sl =>
          match sl_stop sl with
          | None => None
          | Some stop => if stop <? 0 then None
                         else match slice_indices sl stop with
                              | None => None
                              | Some (a, b, k) => Some (Some (pyrange a b k))
                              end
          end
      end
  end.

(** 229 and 244-246: the look-up from the member to the column loaded; [size], out of range, where there is none. *)
Fixpoint fill (n : Z) (wanted : list Z) (ids : list Z) : option (list Z) :=
  match wanted with
  | [] => Some ids
  | i :: r => match wrap (length ids) i with Some j => fill (n + 1) r (upd ids j n) | None => None end
  end.
Definition lookup_ids (size : Z) (wanted : list Z) : option (list Z) := fill 0 wanted (repeat size (Z.to_nat size)).

(** The columns of a row; an IndexError if one is not there. *)
Definition columns (wanted : list Z) (row : list Q) : option (list Q) := sequence (map (at_z row) wanted).

(** [_values] and [_scenario_ids] after [setup]. *)
Record table := Table { t_values : list (list Q); t_ids : option (list Z) }.

(** DataFrameParameter.setup, 212-249, after the resampling, which gives one row for every timestep (or an error); [frame] is that
    data, not without columns. *)
Definition setup_dataframe (c : collection) (position : Z) (sc : scenario) (frame : list (list Q)) : option table :=
  if (1 <? width frame) && negb (sc_size sc =? width frame) then None
  else match wanted c position sc with
       | None => None
       | Some None => Some (Table frame None)
       | Some (Some w) =>
           match lookup_ids (sc_size sc) w, sequence (map (columns w) frame) with
           | Some ids, Some values => Some (Table values (Some ids))
           | _, _ => None
           end
       end.

(** TablesArrayParameter.setup, 360-424, [steps] being the number of timesteps: when only some columns are loaded, only the rows of
    the timesteps are.  Simplified: the checks for finite values are left out. *)
Definition setup_tables (c : collection) (position : Z) (sc : scenario) (steps : nat) (node : list (list Q)) : option table :=
  if (width node <? sc_size sc) || Nat.ltb (length node) steps then None
  else match wanted c position sc with
       | None => None
       | Some None => Some (Table node None)
       | Some (Some w) =>
           match lookup_ids (sc_size sc) w, sequence (map (columns w) (firstn steps node)) with
           | Some ids, Some values => Some (Table values (Some ids))
           | _, _ => None
           end
       end.

(** 251-263 and 426-440. *)
Definition table_value (tb : table) (offset : Z) (position : Z) (t : timestep) (si : scenario_index) : option Q :=
  let i := Z.min (Z.max (t_index t + offset) 0) (Z.of_nat (length (t_values tb)) - 1) in
  bindo (at_z (indices si) position) (fun j =>
  bindo (match t_ids tb with Some ids => at_z ids j | None => Some j end) (fun j =>
  bindo (at_z (t_values tb) i) (fun row => at_z row j))).
