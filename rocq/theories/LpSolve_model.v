(** CythonLPSolveSolver: the problem posed and the flows committed
    (/repo/pywr/solvers/cython_lpsolve.pyx:148-471 setup, 482-598 _solve_scenario).

    lp_solve itself is not modelled: a solved timestep is any vector that satisfies the rows and the bounds
    of the columns ([feasible]), or any cheapest one.  Simplified: bounds of a column are written as a row
    with that column alone; a row whose lower bound is above its upper bound cannot be met (lp_solve gets
    them as a right hand side and a range, lines 69-88); a row in which a column is named twice, whose
    meaning lp_solve does not document, counts as a problem that can't be posed. *)
From Verif Require Import Base Paths Sorting Routes_model LP_model Sys_model RouteLP_model.
Open Scope Q_scope.

(** What setup() reads of the aggregated nodes, once: `has_fixed_factors`, the factors, `min_flow` and
    `max_flow`; [None] for a limit that is a Parameter. *)
Record setup_data := {
  q_fixed : nat -> bool;
  q_factors : nat -> list Q;
  q_min : nat -> option ext;
  q_max : nat -> option ext
}.

(** Lines 179-183: in the order of the graph, not sorted by name. *)
Definition supplys (S : sys) : list nat := filter (fun n => is_input (s_kind S n) || is_link (s_kind S n)) (s_nodes S).
Definition demands (S : sys) : list nat := filter (fun n => is_output (s_kind S n)) (s_nodes S).
Definition nodes_of (S : sys) (p : kind -> bool) : list nat := filter (fun n => p (s_kind S n)) (s_nodes S).

(** The column of the j-th demand comes after those of the routes (229-230). *)
Definition demand_col (rs : list (list nat)) (j : nat) : nat := (length rs + j)%nat.

(** add_constraintex and set_row_bnds (69-88); a row without entries has the value 0. *)
Definition set_lrow (coef : list (nat * Q)) (lb ub : ext) : result row :=
  if nodupb (map fst coef) then Ok {| r_coef := coef; r_type := DB; r_lb := lb; r_ub := ub |} else Err GlpkError.

(** Lines 258-278, bounds 524-527. *)
Definition supply_row (S : sys) (d : data) (rs : list (list nat)) (n : nat) : result row :=
  let cs := if is_input (s_kind S n) then cols rs (fun r => Nat.eqb (rfirst r) n) else cols rs (fun r => memb n r) in
  match cs with
  | [] => Err (NotOnRoute n)
  | _ => set_lrow (map (fun c => (c, 1)) cs) (d_min d n) (d_max d n)
  end.

(** Lines 287-302: the routes that end at a demand add up to its column. *)
Definition demand_row (rs : list (list nat)) (jo : nat * nat) : result row :=
  match cols rs (fun r => Nat.eqb (rlast r) (snd jo)) with
  | [] => Err (NotOnRoute (snd jo))
  | cs => set_lrow (map (fun c => (c, 1)) cs ++ [(demand_col rs (fst jo), - (1))]) (Fin 0) (Fin 0)
  end.

(** Lines 530-534: set_bounds on the column of a demand. *)
Definition demand_bounds (d : data) (rs : list (list nat)) (jo : nat * nat) : result row :=
  set_lrow [(demand_col rs (fst jo), 1)] (d_min d (snd jo)) (d_max d (snd jo)).

(** Lines 304-319, with the lookup of 235-247, which is that of the GLPK solver. *)
Definition cross_row (S : sys) (rs cross : list (list nat)) (jo : nat * nat) : result (list row) :=
  if in_cross cross (snd jo) then
    match set_lrow (map (fun cv => (fst cv, 1 / snd cv)) (cross_cols S rs cross (snd jo)) ++
                    [(demand_col rs (fst jo), - (1))]) (Fin 0) (Fin 0) with
    | Ok r => Ok [r]
    | Err e => Err e
    end
  else Ok [].

(** Lines 541-549: [None] for an upper bound of minus infinity does not occur; unlike in the GLPK solver the
    room above the volume may be negative. *)
Definition volume_lb (vol mn days : Q) : ext := Fin (- qmax (vol - mn) 0 / days).
Definition volume_ub (vol : Q) (mx : ext) (days : Q) : ext :=
  match mx with Fin m => Fin ((m - vol) / days) | e => e end.

(** Lines 325-338, bounds 541-549: outputs by the columns of the demands, inputs by those of the routes. *)
Definition storage_lrow (S : sys) (d : data) (rs : list (list nat)) (st : nat) : result row :=
  let cols_output := map fst (filter (fun c => memb (snd c) (s_outputs S st)) (enumerate (demands S))) in
  let cols_input := cols rs (fun r => memb (rfirst r) (s_inputs S st)) in
  set_lrow (map (fun c => (demand_col rs c, 1)) cols_output ++ map (fun c => (c, - (1))) cols_input)
    (volume_lb (d_vol d st) (d_minvol d st) (d_days d)) (volume_ub (d_vol d st) (d_maxvol d st) (d_days d)).

(** Lines 343-367, bounds 552-562. *)
Definition virtual_lrow (S : sys) (d : data) (rs : list (list nat)) (v : nat) : result row :=
  let entries := flat_map (fun c => match virtual_entry S v (snd c) with
                                    | Some f => [(fst c, - f)]
                                    | None => []
                                    end) (enumerate rs) in
  if d_active d v
  then set_lrow entries (volume_lb (d_vol d v) (d_minvol d v) (d_days d)) (volume_ub (d_vol d v) (d_maxvol d v) (d_days d))
  else set_lrow entries NInf PInf.

(** Lines 373-405: the assertion on the number of factors and the division by each of them included. *)
Definition factor_lrows (S : sys) (c : setup_data) (rs : list (list nat)) (a : nat) : result (list row) :=
  match s_members S a with
  | [] => Err (BadFactors a)
  | m0 :: ms =>
      if Nat.eqb (length (s_members S a)) (length (q_factors c a)) && forallb (fun f => negb (qeqb f 0)) (q_factors c a)
      then mapM (fun nf =>
             set_lrow (map (fun k => (k, 1)) (cols rs (fun r => memb m0 r)) ++
                       map (fun k => (k, - snd nf)) (cols rs (fun r => memb (fst nf) r))) (Fin 0) (Fin 0))
             (combine ms (tl (factors_norm (q_factors c a))))
      else Err (BadFactors a)
  end.

(** Lines 198-200: nodes with a limit; comparing a Parameter with a number is a TypeError. *)
Definition limited (c : setup_data) (a : nat) : result bool :=
  match q_min c a, q_max c a with
  | Some NInf, Some PInf => Ok false
  | Some _, Some _ => Ok true
  | Some NInf, None => Err (BadFactors a)
  | Some _, None => Ok true
  | None, _ => Err (BadFactors a)
  end.

(** Lines 412-443; a limit that is a Parameter fails here at the latest. *)
Definition agg_lrows (S : sys) (c : setup_data) (rs : list (list nat)) (a : nat) : result (list row) :=
  match limited c a with
  | Err e => Err e
  | Ok false => Ok []
  | Ok true =>
      match q_min c a, q_max c a with
      | Some mn, Some mx =>
          match set_lrow (rev (agg_matrix S rs a)) mn mx with Ok r => Ok [r] | Err e => Err e end
      | _, _ => Err (BadFactors a)
      end
  end.

(** Lines 514-519: cost of the column of a route, without its demand. *)
Definition route_lcost (S : sys) (d : data) (r : list nat) : Q :=
  fold_left (fun c n => c + get_cost S d n) (filter (fun n => is_link (s_kind S n)) (interior r)) (get_cost S d (rfirst r)).

Definition lobj (S : sys) (d : data) (rs : list (list nat)) (c : nat) : Q :=
  if Nat.ltb c (length rs) then route_lcost S d (nth c rs [])
  else get_cost S d (nth (c - length rs) (demands S) 0%nat).

Definition lposed (triv : bool) (S : sys) (c : setup_data) (d : data) : result lp :=
  let rs := routes triv S in
  let cross := cross_domain_routes triv S in
  let dems := enumerate (demands S) in
  let aggregated := nodes_of S is_aggregated in
  if match s_nodes S with [] => true | _ => false end then Err ModelEmpty
  else if existsb (fun a => s_has_factors S a && negb (q_fixed c a)) aggregated then Err (BadFactors 0)
  else bindR (mapM (limited c) aggregated) (fun _ =>
  if match rs with [] => true | _ => false end then Err NoRoutes
  else if match supplys S ++ demands S with [] => true | _ => false end then Err NoNonStorage
  else
    bindR (mapM (supply_row S d rs) (supplys S)) (fun r1 =>
    bindR (mapM (demand_row rs) dems) (fun r2 =>
    bindR (mapM (demand_bounds d rs) dems) (fun r3 =>
    bindR (concatR (mapM (cross_row S rs cross) dems)) (fun r4 =>
    bindR (mapM (storage_lrow S d rs) (nodes_of S is_storage)) (fun r5 =>
    bindR (mapM (virtual_lrow S d rs) (nodes_of S is_virtual)) (fun r6 =>
    bindR (concatR (mapM (factor_lrows S c rs) (filter (s_has_factors S) aggregated))) (fun r7 =>
    bindR (concatR (mapM (agg_lrows S c rs) aggregated)) (fun r8 =>
    Ok {| lp_ncols := (length rs + length (demands S))%nat;
          lp_rows := r1 ++ r2 ++ r3 ++ r4 ++ r5 ++ r6 ++ r7 ++ r8;
          lp_obj := lobj S d rs |}))))))))).

(** Lines 586-595: every route commits its flow to its first and its last node and to the links between. *)
Definition lcommit_route (S : sys) (fl : nat -> Q) (r : list nat) (v : Q) : nat -> Q :=
  fold_left (fun fl n => commit S fl n v) (filter (fun n => is_link (s_kind S n)) (interior r))
    (commit S (commit S fl (rfirst r) v) (rlast r) v).

(** The flows the nodes report; only the columns of the routes are read (575-584). *)
Definition lcommitted (triv : bool) (S : sys) (z : nat -> Q) : nat -> Q :=
  fold_left (fun fl c => lcommit_route S fl (snd c) (z (fst c))) (enumerate (routes triv S)) (fun _ => 0).
