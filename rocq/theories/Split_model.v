(** MultiSplitLink, nodes.py 890-1015, and RiverSplit and RiverSplitWithGauge, domains/river.py 108-232: the nodes they consist of and
    the factors of the aggregated node. *)
From Verif Require Import Base LP_model Connect_model Piecewise_model.
Local Open Scope nat_scope.
Local Open Scope list_scope.

(** The node itself, its Output and Input, the Output inside, the sublinks of the steps, for each extra slot the sublink and the Output
    and the Input made for it (968-990), and the aggregated node (999-1012).  Output and Inputs of the extra slots: 971-981. *)
Record extra_slot := Extra { x_link : nat; x_output : nat; x_input : nat }.
Record split := MultiSplit { sp_self : nat; sp_output : nat; sp_input : nat; sp_sub : nat; sp_steps : list nat; sp_slots : list extra_slot; sp_agg : nat }.
Definition sublinks (p : split) : list nat := sp_steps p ++ map x_link (sp_slots p).

(** What the constructor adds to the graph: that of PiecewiseLink with the additional sublinks (962-964), then 983-984; the slots 1007-1015.
    The aggregated node is on no edge. *)
Definition new_split (w : world) (p : split) (names : list slot) : world :=
  let w1 := new_piecewise w (Piecewise (sp_self p) (sp_output p) (sp_input p) (sp_sub p) (sublinks p)) in
  let k := fun n => if Nat.eqb n (sp_self p) then Split names (sp_input p) (map x_input (sp_slots p)) (sp_output p)
                    else if Nat.eqb n (sp_agg p) then Bare
                    else if existsb (Nat.eqb n) (map x_output (sp_slots p) ++ map x_input (sp_slots p)) then Plain else kind_of w1 n in
  fold_left (fun w x => add_edge (add_edge w (x_output x, x_input x)) (x_link x, x_output x)) (sp_slots p)
    (World (model_of w1) k (edges w1) (dirty w1)).

(** [self.sublinks[n - 1:]], 1004: without steps that is [self.sublinks[-1:]]. *)
Definition from_last_step (p : split) : list nat :=
  match List.length (sp_steps p) with
  | 0 => skipn (List.length (sublinks p) - 1) (sublinks p)
  | S k => skipn k (sublinks p)
  end.
(** 1002-1010: members and factors of the aggregated node. *)
Definition agg_pairs (p : split) (factors : list (option Q)) : list (nat * Q) :=
  flat_map (fun rn => match fst rn with Some r => [(snd rn, r)] | None => [] end) (combine factors (from_last_step p)).

(** 948-960, 986-991 and 999-1001: the constructor raises ValueError unless these hold; [None] for what is not given. *)
Definition split_accepted {A B C} (nsteps : nat) (extra : Z) (names : option (list A)) (costs : option (list B)) (max_flows : option (list C))
    (factors : option (list (option Q))) : bool :=
  let is_long {X} (n : Z) (l : option (list X)) := match l with None => true | Some l => Z.eqb (Z.of_nat (List.length l)) n end in
  (1 <=? extra)%Z && is_long (extra + 1)%Z names && is_long (Z.of_nat nsteps) costs && is_long (Z.of_nat nsteps) max_flows && is_long (extra + 1)%Z factors.
