(** What data frames of results should show. *)
From Coq Require Import Strings.String.
From Verif Require Import Base Documents_model Scenario_model Frames_model.
Local Open Scope string_scope.
Local Open Scope nat_scope.
Local Open Scope list_scope.

(** Row [i] of a frame has the value [v] in a column called [l]. *)
Definition shows {R L A} (f : frame R L A) (i : nat) (l : L) (v : A) : Prop :=
  exists j row, nth_error (f_columns f) j = Some l /\ nth_error (f_cells f) i = Some row /\ nth_error row j = Some v.

(** Member [i] of a scenario is called [l]; the members of a combination are called [ls]. *)
Definition member (s : named) (i : Z) (l : label) : Prop :=
  match n_ensemble s with None => l = Number i | Some names => nth_error names (Z.to_nat i) = Some l end.
Inductive called : list named -> list Z -> list label -> Prop :=
| CallNone : called [] [] []
| CallNext s ss i idx l ls : member s i l -> called ss idx ls -> called (s :: ss) (i :: idx) (l :: ls).

(** Scenarios as constructors and setters leave them. *)
Record ready (ss : list named) (user : option (list (list Z))) : Prop := {
  r_some : ss <> [];
  r_sizes : Forall (fun s => 1 <= sc_size (n_scenario s))%Z ss;
  r_names : Forall (fun s => match n_ensemble s with None => True | Some l => Z.of_nat (List.length l) = sc_size (n_scenario s) end) ss;
  r_user : match user with None => True | Some u => Forall (fun row => Forall2 (fun i s => 0 <= i < sc_size (n_scenario s))%Z row ss) u end }.
(** No two members of a scenario have the same name. *)
Definition distinct (ss : list named) : Prop := Forall (fun s => match n_ensemble s with None => True | Some l => NoDup l end) ss.

(** The combinations a file tells of: those of its table of combinations, or the product of what its table of slices leaves of the scenarios. *)
Definition told (t : tables) : option (list (list Z)) :=
  match t_combinations t with
  | Some rows => sequence (map (fun row => sequence (map (fun s => get (fst s) row) (t_scenarios t))) rows)
  | None =>
      option_map product (sequence (map (fun s =>
        scenario_range (Scenario (snd s) (match t_slices t with
                                          | None => None
                                          | Some sl => option_map (fun x => Slice (Some (fst (fst x))) (Some (snd (fst x))) (Some (snd x))) (get (fst s) sl)
                                          end))) (t_scenarios t)))
  end.
