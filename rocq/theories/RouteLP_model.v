(** CythonGLPKSolver: the problem posed and the flows committed
    (/repo/pywr/solvers/cython_glpk.pyx:388-755 setup, 757-819 reset, 836-1095 _solve_scenario). *)
From Verif Require Import Base Paths Sorting Routes_model LP_model Sys_model.
Open Scope Q_scope.

Definition enumerate {A} (l : list A) : list (nat * A) := combine (seq 0 (length l)) l.

(** [n for n, route in enumerate(routes) if p(route)] *)
Definition cols (rs : list (list nat)) (p : list nat -> bool) : list nat :=
  map fst (filter (fun c => p (snd c)) (enumerate rs)).

(** route[0], route[-1]; routes are never empty. *)
Definition rfirst (r : list nat) : nat := hd 0%nat r.
Definition rlast (r : list nat) : nat := last r 0%nat.

Definition routes (triv : bool) (S : sys) : list (list nat) := model_routes triv (net_of S).

(** Lines 425-426: routes of two nodes, from an output to an input, in different domains. *)
Definition cross_domain_routes (triv : bool) (S : sys) : list (list nat) :=
  match find_all_routes triv (net_of S) (ByClass (fun n => is_output (s_kind S n)))
          (ByClass (fun n => is_input (s_kind S n))) None (Some 2%nat) Different with
  | Some l => l
  | None => []
  end.

(** Lines 519-526: columns of the row of a non-storage node. *)
Definition node_cols (S : sys) (rs : list (list nat)) (n : nat) : list nat :=
  match s_kind S n with
  | KInput => cols rs (fun r => Nat.eqb (rfirst r) n)
  | KOutput => cols rs (fun r => Nat.eqb (rlast r) n)
  | _ => cols rs (fun r => memb n r)
  end.

(** Lines 474-487: the lookup for an output: its columns in the other domains with conversion factors. *)
Definition cross_cols (S : sys) (rs cross : list (list nat)) (o : nat) : list (nat * Q) :=
  flat_map (fun r => match r with
                     | [o'; i] => if Nat.eqb o' o
                                  then map (fun c => (c, s_conv S i)) (cols rs (fun r => Nat.eqb (rfirst r) i))
                                  else []
                     | _ => []
                     end) cross.

Definition in_cross (cross : list (list nat)) (o : nat) : bool :=
  existsb (fun r => Nat.eqb (rfirst r) o) cross.

(** Lines 515-575 with the bounds of 929-946: the row of a non-storage node, and its cross-domain row. *)
Definition non_storage_rows (S : sys) (d : data) (rs cross : list (list nat)) (n : nat) : result (list row) :=
  let cs := node_cols S rs n in
  match cs with
  | [] => Err (NotOnRoute n)
  | _ =>
      let '(t, lb, ub) := flow_bounds (d_min d n) (d_max d n) in
      match set_row (map (fun c => (c, 1)) cs) t lb ub with
      | Err e => Err e
      | Ok r1 =>
          if in_cross cross n then
            match set_row (map (fun c => (c, - (1))) cs ++
                           map (fun cv => (fst cv, 1 / snd cv)) (cross_cols S rs cross n)) FX (Fin 0) (Fin 0) with
            | Err e => Err e
            | Ok r2 => Ok [r1; r2]
            end
          else Ok [r1]
      end
  end.

(** Lines 580-601, bounds 965-988. *)
Definition storage_row (S : sys) (d : data) (rs : list (list nat)) (st : nat) : result row :=
  let cols_output := cols rs (fun r => memb (rlast r) (s_outputs S st) && negb (memb (rfirst r) (s_inputs S st))) in
  let cols_input := cols rs (fun r => memb (rfirst r) (s_inputs S st) && negb (memb (rlast r) (s_outputs S st))) in
  let '(t, lb, ub) := storage_bounds (d_vol d st) (d_minvol d st) (d_maxvol d st) (d_days d) in
  set_row (map (fun c => (c, 1)) cols_output ++ map (fun c => (c, - (1))) cols_input) t lb ub.

(** storage.nodes.index(node): position of the first match. *)
Fixpoint index_of (n : nat) (l : list nat) : option nat :=
  match l with
  | [] => None
  | m :: r => if Nat.eqb m n then Some 0%nat
              else match index_of n r with Some i => Some (Datatypes.S i) | None => None end
  end.

(** Lines 612-622: the entry of one route, [None] if the route meets no node of the store. *)
Definition virtual_entry (S : sys) (v : nat) (r : list nat) : option Q :=
  fold_left (fun acc n => match index_of n (s_members S v) with
                          | None => acc
                          | Some i => let f := nth i (s_vfactors S v) 0 in
                                      match acc with Some a => Some (a + f) | None => Some f end
                          end) r None.

(** Lines 606-635, bounds 991-1019. *)
Definition virtual_row (S : sys) (d : data) (rs : list (list nat)) (v : nat) : result row :=
  let entries := flat_map (fun c => match virtual_entry S v (snd c) with
                                    | Some f => [(fst c, - f)]
                                    | None => []
                                    end) (enumerate rs) in
  let '(t, lb, ub) := virtual_bounds (d_active d v) (d_vol d v) (d_minvol d v) (d_maxvol d v) (d_days d) in
  set_row entries t lb ub.

(** Lines 641-673, values 907-925: one row for each member after the first. *)
Definition factor_rows (S : sys) (d : data) (rs : list (list nat)) (a : nat) : result (list row) :=
  match s_members S a with
  | [] => Err (BadFactors a)
  | m0 :: ms =>
      if factors_usable (m0 :: ms) (d_factors d a) then
      mapM (fun nf =>
              set_row (map (fun c => (c, 1)) (cols rs (fun r => memb m0 r)) ++
                       map (fun c => (c, - snd nf)) (cols rs (fun r => memb (fst nf) r)))
                      FX (Fin 0) (Fin 0))
           (combine ms (tl (factors_norm (d_factors d a))))
      else Err (BadFactors a)
  end.

(** matrix[n] = w, a dictionary: a later assignment replaces an earlier one. *)
Definition dict_set (m : list (nat * Q)) (k : nat) (v : Q) : list (nat * Q) :=
  (k, v) :: filter (fun e => negb (Nat.eqb (fst e) k)) m.

(** Lines 684-690. *)
Definition agg_matrix (S : sys) (rs : list (list nat)) (a : nat) : list (nat * Q) :=
  fold_left (fun m nw =>
    fold_left (fun m c => if memb (fst nw) (snd c) then dict_set m (fst c) (snd nw) else m) (enumerate rs) m)
    (combine (s_members S a) (weights_of S a)) [].

(** Lines 676-706, bounds 948-961. *)
Definition agg_row (S : sys) (d : data) (rs : list (list nat)) (a : nat) : result row :=
  let '(t, lb, ub) := flow_bounds (d_min d a) (d_max d a) in
  set_row (isort (fun x y => Nat.leb (fst x) (fst y)) (agg_matrix S rs a)) t lb ub.

(** Lines 709-719 and 890-905: cost of a column. *)
Definition route_cost_nodes (S : sys) (r : list nat) : list nat :=
  [rfirst r] ++ filter (fun n => is_link (s_kind S n)) (interior r) ++ [rlast r].

Definition route_cost (S : sys) (d : data) (r : list nat) : Q :=
  round8 (fold_left (fun c n => c + get_cost S d n) (route_cost_nodes S r) 0).

Definition concatR {A} (r : result (list (list A))) : result (list A) :=
  match r with Ok l => Ok (concat l) | Err e => Err e end.

Definition bindR {A B} (r : result A) (f : A -> result B) : result B :=
  match r with Ok a => f a | Err e => Err e end.

(** The whole problem of one timestep and scenario. *)
Definition posed (triv : bool) (S : sys) (d : data) : result lp :=
  let rs := routes triv S in
  let cross := cross_domain_routes triv S in
  let non_storages := of_kind S is_flow_node in
  let storages := of_kind S is_storage in
  let virtuals := of_kind S is_virtual in
  let aggregated := of_kind S is_aggregated in
  if match all_nodes S with [] => true | _ => false end then Err ModelEmpty
  else if match rs with [] => true | _ => false end then Err NoRoutes
  else if match non_storages with [] => true | _ => false end then Err NoNonStorage
  else
    bindR (concatR (mapM (non_storage_rows S d rs cross) non_storages)) (fun r1 =>
    bindR (mapM (storage_row S d rs) storages) (fun r2 =>
    bindR (mapM (virtual_row S d rs) virtuals) (fun r3 =>
    bindR (concatR (mapM (factor_rows S d rs) (filter (s_has_factors S) aggregated))) (fun r4 =>
    bindR (mapM (agg_row S d rs) aggregated) (fun r5 =>
    Ok {| lp_ncols := length rs;
          lp_rows := r1 ++ r2 ++ r3 ++ r4 ++ r5;
          lp_obj := fun c => route_cost S d (nth c rs []) |}))))).

(** "collect the total flow via each node", lines 1077-1088 (node ids replaced by the nodes). *)
Definition node_flows (triv : bool) (S : sys) (x : nat -> Q) : nat -> Q :=
  fold_left (fun nf c =>
      let flow := x (fst c) in
      let r := snd c in
      if qeqb flow 0 then nf
      else fold_left (fun nf m =>
             if Nat.eqb (fst m) 0 || Nat.eqb (fst m) (length r - 1) || is_link (s_kind S (snd m))
             then add nf (snd m) flow else nf) (enumerate r) nf)
    (enumerate (routes triv S)) (fun _ => 0).

(** The flows the nodes report at the end of the solve of one scenario. *)
Definition committed (triv : bool) (S : sys) (x : nat -> Q) : nat -> Q :=
  commit_all_nodes S (node_flows triv S x).
