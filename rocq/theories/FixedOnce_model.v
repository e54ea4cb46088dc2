(** The GLPK problem as it is kept between calls, and the options set_fixed_flows_once, set_fixed_costs_once and
    set_fixed_factors_once (/repo/pywr/solvers/cython_glpk.pyx: CythonGLPKSolver setup 388-755, reset 757-819,
    _solve_scenario 836-1020; CythonGLPKEdgeSolver setup 1148-1567, reset 1569-1630, _solve_scenario 1649-1836).
    RouteLP_model.v and EdgeLP_model.v say what problem belongs to the data of one timestep and scenario; here it is built
    once and then altered row by row.  Doubles are exact, so that the order in which costs are added does not matter. *)
From Verif Require Import Base Paths Sorting Routes_model LP_model Sys_model RouteLP_model EdgeLP_model.
Open Scope Q_scope.

Record options := Options { o_flows : bool; o_costs : bool; o_factors : bool }.
Inductive which := ByRoutes | ByEdges.

(** An attribute of a node is a number or a Parameter.  [constant]: what get_constant_value gives if is_constant is set
    (_parameters.pyx 48, 83-88, 154, 165; _activation_functions.pyx 27-37); [value]: what get_value gives at the moment in a
    scenario. *)
Inductive attr (A : Type) := Literal (v : A) | Param (constant : option A) (value : nat -> A).
Arguments Literal {A} _.
Arguments Param {A} _ _.

(** get_cost, get_min_flow, get_max_flow: _core.pyx 559-564, 612-617, 675-680. *)
Definition get {A} (a : attr A) (si : nat) : A := match a with Literal v => v | Param _ f => f si end.
(** get_constant_min_flow 603-609, get_constant_max_flow 666-672: [None] for NaN. *)
Definition constant {A} (a : attr A) : option A := match a with Literal v => Some v | Param c _ => c end.
Definition is_constant {A} (a : attr A) : bool := match constant a with Some _ => true | None => false end.
Definition is_literal {A} (a : attr A) : bool := match a with Literal _ => true | Param _ _ => false end.

(** What the attributes are at some moment; factors given as numbers become ConstantParameters (_core.pyx 790-796), that is
    [Param (Some f) (fun _ => f)]. *)
Record world := World {
  w_min : nat -> attr ext;
  w_max : nat -> attr ext;
  w_cost : nat -> attr Q;
  w_factors : nat -> list (attr Q);
  w_rest : nat -> data                 (* the remaining data in a scenario *)
}.
Definition data_of (w : world) (si : nat) : data := {|
  d_cost := fun n => get (w_cost w n) si;
  d_min := fun n => get (w_min w n) si;
  d_max := fun n => get (w_max w n) si;
  d_factors := fun a => map (fun p => get p si) (w_factors w a);
  d_minvol := d_minvol (w_rest w si); d_maxvol := d_maxvol (w_rest w si); d_vol := d_vol (w_rest w si);
  d_active := d_active (w_rest w si); d_days := d_days (w_rest w si) |}.

(** has_fixed_cost: _core.pyx 554-557, 954-957, 988-991, 1088-1091.  (Nodes without the property count as dynamic, 501-504; they
    are on no route and no edge.) *)
Definition has_fixed_cost (S : sys) (w : world) (n : nat) : bool :=
  match s_slot S n with InputOf st | OutputOf st => is_literal (w_cost w st) | NoSlot => is_literal (w_cost w n) end.
(** has_constant_flows: 654-658. *)
Definition has_constant_flows (w : world) (n : nat) : bool := is_constant (w_max w n) && is_constant (w_min w n).
(** has_constant_factors: 809-812. *)
Definition has_constant_factors (w : world) (a : nat) : bool := forallb is_constant (w_factors w a).
(** get_constant_factors: 913-919.  A parameter that is not constant raises NotImplementedError (_parameters.pyx 83-88). *)
Fixpoint constants (l : list (attr Q)) : option (list Q) :=
  match l with
  | [] => Some []
  | a :: r => match constant a, constants r with Some q, Some s => Some (q :: s) | _, _ => None end
  end.

(** ** The columns and entries found in setup *)
Definition coefs := list (nat * Q).
(** set_mat_row_safe, 321-336. *)
Definition entries (c : coefs) : result coefs :=
  if nodupb (map fst c) && match c with [] => false | _ => true end then Ok c else Err GlpkError.
Definition ones (cs : list nat) : coefs := map (fun c => (c, 1)) cs.
Definition minus_ones (cs : list nat) : coefs := map (fun c => (c, - (1))) cs.
Definition named (f : nat -> result coefs) (n : nat) : result (nat * coefs) := bindR (f n) (fun c => Ok (n, c)).

(** An aggregated node with factors: its columns for the first and for the other members. *)
Definition factored : Type := nat * (list nat * list (list nat)).
Record plan := Plan {
  p_ncols : nat;
  p_flow : list (nat * coefs);
  p_fixed : list coefs;                (* cross-domain rows, mass balances of the edge solver *)
  p_storage : list (nat * coefs);
  p_virtual : list (nat * coefs);
  p_factor : list factored;
  p_agg : list (nat * coefs)
}.

(** 641-648, 1456-1478; no rows can be added for fewer than two members. *)
Definition factor_cols (S : sys) (columns : nat -> list nat) (a : nat) : result factored :=
  match s_members S a with
  | m0 :: m1 :: ms => Ok (a, (columns m0, map columns (m1 :: ms)))
  | _ => Err (BadFactors a)
  end.

(** 388-706. *)
Definition route_flow_entries (S : sys) (rs : list (list nat)) (n : nat) : result coefs :=
  match node_cols S rs n with [] => Err (NotOnRoute n) | cs => entries (ones cs) end.
Definition route_cross_entries (S : sys) (rs cross : list (list nat)) (n : nat) : result coefs :=
  entries (minus_ones (node_cols S rs n) ++ map (fun cv => (fst cv, 1 / snd cv)) (cross_cols S rs cross n)).
Definition route_storage_entries (S : sys) (rs : list (list nat)) (st : nat) : result coefs :=
  entries (ones (cols rs (fun r => memb (rlast r) (s_outputs S st) && negb (memb (rfirst r) (s_inputs S st)))) ++
           minus_ones (cols rs (fun r => memb (rfirst r) (s_inputs S st) && negb (memb (rlast r) (s_outputs S st))))).
Definition route_virtual_entries (S : sys) (rs : list (list nat)) (v : nat) : result coefs :=
  entries (flat_map (fun c => match virtual_entry S v (snd c) with Some f => [(fst c, - f)] | None => [] end) (enumerate rs)).
Definition route_agg_entries (S : sys) (rs : list (list nat)) (a : nat) : result coefs :=
  entries (isort (fun x y => Nat.leb (fst x) (fst y)) (agg_matrix S rs a)).
Definition route_plan (triv : bool) (S : sys) : result plan :=
  let rs := routes triv S in
  let cross := cross_domain_routes triv S in
  let non_storages := of_kind S is_flow_node in
  let aggregated := of_kind S is_aggregated in
  if match all_nodes S with [] => true | _ => false end then Err ModelEmpty
  else if match rs with [] => true | _ => false end then Err NoRoutes
  else if match non_storages with [] => true | _ => false end then Err NoNonStorage
  else
    bindR (mapM (named (route_flow_entries S rs)) non_storages) (fun flow =>
    bindR (mapM (route_cross_entries S rs cross) (filter (in_cross cross) non_storages)) (fun fixed =>
    bindR (mapM (named (route_storage_entries S rs)) (of_kind S is_storage)) (fun storage =>
    bindR (mapM (named (route_virtual_entries S rs)) (of_kind S is_virtual)) (fun virtual =>
    bindR (mapM (factor_cols S (fun m => cols rs (fun r => memb m r))) (filter (s_has_factors S) aggregated)) (fun factor =>
    bindR (mapM (named (route_agg_entries S rs)) aggregated) (fun agg =>
    Ok (Plan (length rs) flow fixed storage virtual factor agg))))))).

(** 1148-1537. *)
Definition edge_flow_entries (S : sys) (n : nat) : result coefs := bindR (ecols_checked S n) (fun cs => entries (ones cs)).
Definition edge_cross_entries (S : sys) (cross : list (list nat)) (n : nat) : result coefs :=
  entries (minus_ones (node_ecols S n) ++ map (fun cv => (fst cv, 1 / snd cv)) (cross_ecols S cross n)).
Definition edge_balance_entries (S : sys) (n : nat) : result coefs := entries (ones (in_edges S n) ++ minus_ones (out_edges S n)).
Definition edge_storage_entries (S : sys) (st : nat) : result coefs :=
  entries (ones (flat_map (in_edges S) (s_outputs S st)) ++ minus_ones (flat_map (out_edges S) (s_inputs S st))).
Definition edge_virtual_entries (S : sys) (v : nat) : result coefs := entries (map (fun e => (fst e, - snd e)) (virtual_dict S v)).
Definition edge_agg_entries (S : sys) (a : nat) : result coefs :=
  entries (isort (fun x y => Nat.leb (fst x) (fst y)) (edge_agg_matrix S a)).
Definition edge_plan (triv : bool) (S : sys) : result plan :=
  let cross := cross_domain_routes triv S in
  let non_storages := of_kind S is_flow_node in
  let aggregated := of_kind S is_aggregated in
  if match all_nodes S, s_edges S with [], _ | _, [] => true | _, _ => false end then Err ModelEmpty
  else if match non_storages with [] => true | _ => false end then Err NoNonStorage
  else
    bindR (mapM (named (edge_flow_entries S)) non_storages) (fun flow =>
    bindR (mapM (edge_cross_entries S cross) (filter (in_cross cross) non_storages)) (fun crossed =>
    bindR (mapM (edge_balance_entries S) (of_kind S is_link)) (fun balance =>
    bindR (mapM (named (edge_storage_entries S)) (of_kind S is_storage)) (fun storage =>
    bindR (mapM (named (edge_virtual_entries S)) (of_kind S is_virtual)) (fun virtual =>
    bindR (mapM (factor_cols S (node_ecols S)) (filter (s_has_factors S) aggregated)) (fun factor =>
    bindR (mapM (named (edge_agg_entries S)) aggregated) (fun agg =>
    Ok (Plan (length (s_edges S)) flow (crossed ++ balance) storage virtual factor agg)))))))).

Definition plan_of (s : which) (triv : bool) (S : sys) : result plan :=
  match s with ByRoutes => route_plan triv S | ByEdges => edge_plan triv S end.

(** ** The GLPK problem *)
Definition limits : Type := rtype * ext * ext.
Definition with_limits (b : limits) (c : coefs) : row := {| r_coef := c; r_type := fst (fst b); r_lb := snd (fst b); r_ub := snd b |}.
Definition zero_limits : limits := (FX, Fin 0, Fin 0).
(** What glp_add_rows makes. *)
Definition no_limits : limits := (FR, Fin 0, Fin 0).

Fixpoint update (i : nat) (g : row -> row) (l : list row) : list row :=
  match l, i with
  | [], _ => []
  | r :: l, O => g r :: l
  | r :: l, Datatypes.S i => r :: update i g l
  end.
(** glp_set_row_bnds, glp_set_mat_row. *)
Definition set_bounds (i : nat) (b : limits) : list row -> list row := update i (fun r => with_limits b (r_coef r)).
Definition set_entries (i : nat) (c : coefs) : list row -> list row := update i (fun r => with_limits (r_type r, r_lb r, r_ub r) c).

Record solver := Solver {
  v_ncols : nat;
  v_rows : list row;
  v_obj : nat -> Q;
  v_node_costs : nat -> Q;                       (* node_costs_arr *)
  v_edge_fixed : nat -> Q;                       (* edge_fixed_cost_arr *)
  v_dynamic_cost : list nat;                     (* nodes_with_dynamic_cost *)
  v_constant_flow : list (nat * nat);            (* row and node: non_storages_with_constant_bounds *)
  v_dynamic_flow : list (nat * nat);
  v_constant_factor : list (nat * factored);     (* first row and node: aggregated_with_constant_factors *)
  v_dynamic_factor : list (nat * factored);
  v_storage : list (nat * nat);
  v_virtual : list (nat * nat);
  v_agg : list (nat * nat)
}.

(** `row = glp_add_rows(self.prob, len(agg_node.nodes)-1)`, 644, 1462. *)
Fixpoint placed (row : nat) (l : list factored) : list (nat * factored) :=
  match l with [] => [] | f :: r => (row, f) :: placed (row + length (snd (snd f))) r end.
Definition rows_from (row : nat) (l : list (nat * coefs)) : list (nat * nat) :=
  map (fun c => (row + fst c, fst (snd c))%nat) (enumerate l).

(** The array of costs of the nodes: 508-511; it is new and not filled ([mem]). *)
Definition fixed_node_costs (S : sys) (w : world) (nodes : list nat) (mem : nat -> Q) : nat -> Q :=
  fold_left (fun arr n k => if Nat.eqb k n then get_cost S (data_of w 0) n else arr k) nodes mem.
(** 1269-1290 and 1693-1712: the costs of nodes added to the edges they touch. *)
Definition add_edge_costs (S : sys) (d : data) (nodes : list nat) (arr : nat -> Q) : nat -> Q :=
  fold_left (fun arr n =>
      let cost := if is_link (s_kind S n) then get_cost S d n / 2 else get_cost S d n in
      let arr := fold_left (fun arr c => add arr c cost) (in_edges S n) arr in
      fold_left (fun arr c => add arr c cost) (out_edges S n) arr) nodes arr.

(** setup: the options decide which nodes are left for every solve (498-511, 546-550, 669-673; 1267-1290, 1333-1337, 1495-1499). *)
Definition setup (s : which) (o : options) (triv : bool) (S : sys) (w : world) (mem : nat -> Q) : result solver :=
  bindR (plan_of s triv S) (fun p =>
  let rows := map (fun nc => with_limits zero_limits (snd nc)) (p_flow p) ++ map (with_limits zero_limits) (p_fixed p) ++
              map (fun nc => with_limits no_limits (snd nc)) (p_storage p) ++ map (fun nc => with_limits no_limits (snd nc)) (p_virtual p) ++
              flat_map (fun f => map (fun _ => with_limits zero_limits []) (snd (snd f))) (p_factor p) ++
              map (fun nc => with_limits zero_limits (snd nc)) (p_agg p) in
  let idx_storage := (length (p_flow p) + length (p_fixed p))%nat in
  let idx_virtual := (idx_storage + length (p_storage p))%nat in
  let idx_factor := (idx_virtual + length (p_virtual p))%nat in
  let idx_agg := (idx_factor + length (flat_map (fun f => snd (snd f)) (p_factor p)))%nat in
  let fixed_cost n := o_costs o && has_fixed_cost S w n in
  let constant_flow rn := o_flows o && has_constant_flows w (snd rn) in
  let constant_factor rf := o_factors o && has_constant_factors w (fst (snd rf)) in
  Ok {| v_ncols := p_ncols p; v_rows := rows; v_obj := fun _ => 0;
        v_node_costs := fixed_node_costs S w (filter fixed_cost (all_nodes S)) mem;
        v_edge_fixed := add_edge_costs S (data_of w 0) (filter fixed_cost (all_nodes S)) (fun _ => 0);
        v_dynamic_cost := filter (fun n => negb (fixed_cost n)) (all_nodes S);
        v_constant_flow := filter constant_flow (rows_from 0 (p_flow p));
        v_dynamic_flow := filter (fun rn => negb (constant_flow rn)) (rows_from 0 (p_flow p));
        v_constant_factor := filter constant_factor (placed idx_factor (p_factor p));
        v_dynamic_factor := filter (fun rf => negb (constant_factor rf)) (placed idx_factor (p_factor p));
        v_storage := rows_from idx_storage (p_storage p);
        v_virtual := rows_from idx_virtual (p_virtual p);
        v_agg := rows_from idx_agg (p_agg p) |}).

(** The rows of an aggregated node with factors [fs]: 793-813, 913-925. *)
Definition factor_entries (S : sys) (fs : list Q) (f : factored) : result (list coefs) :=
  if factors_usable (s_members S (fst f)) fs
  then mapM (fun cf => entries (ones (fst (snd f)) ++ map (fun c => (c, - snd cf)) (fst cf))) (combine (snd (snd f)) (tl (factors_norm fs)))
  else Err (BadFactors (fst f)).
Definition set_factors (S : sys) (fs : list Q) (rf : nat * factored) (rows : list row) : result (list row) :=
  bindR (factor_entries S fs (snd rf)) (fun es =>
  Ok (fold_left (fun rows ke => set_entries (fst rf + fst ke) (snd ke) rows) (enumerate es) rows)).

Definition with_rows (v : solver) (rows : list row) : solver :=
  Solver (v_ncols v) rows (v_obj v) (v_node_costs v) (v_edge_fixed v) (v_dynamic_cost v) (v_constant_flow v) (v_dynamic_flow v)
    (v_constant_factor v) (v_dynamic_factor v) (v_storage v) (v_virtual v) (v_agg v).

(** reset, 757-819 and 1569-1630.  A bound that is not constant any more is NaN and refused (767-778, 307-318). *)
Definition reset (S : sys) (w : world) (v : solver) : result solver :=
  let flows := fold_left (fun acc rn => bindR acc (fun rows =>
      match constant (w_min w (snd rn)), constant (w_max w (snd rn)) with
      | Some mn, Some mx => Ok (set_bounds (fst rn) (flow_bounds mn mx) rows)
      | _, _ => Err GlpkError
      end)) (v_constant_flow v) (Ok (v_rows v)) in
  let factors := fold_left (fun acc rf => bindR acc (fun rows =>
      match constants (w_factors w (fst (snd rf))) with
      | Some fs => set_factors S fs rf rows
      | None => Err (BadFactors (fst (snd rf)))
      end)) (v_constant_factor v) flows in
  bindR factors (fun rows => Ok (with_rows v rows)).

(** _solve_scenario up to the call of the simplex, 886-1020 and 1690-1836. *)
Definition solve (s : which) (triv : bool) (S : sys) (w : world) (si : nat) (v : solver) : result solver :=
  let d := data_of w si in
  let node_costs := match s with
                    | ByRoutes => fold_left (fun arr n k => if Nat.eqb k n then get_cost S d n else arr k) (v_dynamic_cost v) (v_node_costs v)
                    | ByEdges => v_node_costs v
                    end in
  let obj := match s with
             | ByRoutes => fun c => round8 (fold_left (fun cost n => cost + node_costs n) (route_cost_nodes S (nth c (routes triv S) [])) 0)
             | ByEdges => add_edge_costs S d (v_dynamic_cost v) (v_edge_fixed v)
             end in
  let factors := fold_left (fun acc rf => bindR acc (set_factors S (d_factors d (fst (snd rf))) rf)) (v_dynamic_factor v) (Ok (v_rows v)) in
  bindR factors (fun rows =>
  let rows := fold_left (fun rows rn => set_bounds (fst rn) (flow_bounds (d_min d (snd rn)) (d_max d (snd rn))) rows) (v_dynamic_flow v) rows in
  let rows := fold_left (fun rows rn => set_bounds (fst rn) (flow_bounds (d_min d (snd rn)) (d_max d (snd rn))) rows) (v_agg v) rows in
  let rows := fold_left (fun rows rn => set_bounds (fst rn)
      (storage_bounds (d_vol d (snd rn)) (d_minvol d (snd rn)) (d_maxvol d (snd rn)) (d_days d)) rows) (v_storage v) rows in
  let rows := fold_left (fun rows rn => set_bounds (fst rn)
      (virtual_bounds (d_active d (snd rn)) (d_vol d (snd rn)) (d_minvol d (snd rn)) (d_maxvol d (snd rn)) (d_days d)) rows) (v_virtual v) rows in
  Ok (Solver (v_ncols v) rows obj node_costs (v_edge_fixed v) (v_dynamic_cost v) (v_constant_flow v) (v_dynamic_flow v)
        (v_constant_factor v) (v_dynamic_factor v) (v_storage v) (v_virtual v) (v_agg v))).

Definition problem (v : solver) : lp := {| lp_ncols := v_ncols v; lp_rows := v_rows v; lp_obj := v_obj v |}.

(** ** Histories: model.setup calls solver.setup and then reset (_model.pyx 731-732); a run or a reset of a model that is not dirty
    calls reset (637-650); then every timestep solves every scenario. *)
Record pass := Pass {
  h_setup : option (nat -> Q);         (* [Some mem]: with a set-up *)
  h_start : world;
  h_solves : list (world * nat)
}.

Fixpoint solves (s : which) (triv : bool) (S : sys) (l : list (world * nat)) (v : solver) : result (solver * list lp) :=
  match l with
  | [] => Ok (v, [])
  | (w, si) :: l => bindR (solve s triv S w si v) (fun v1 =>
      bindR (solves s triv S l v1) (fun r => Ok (fst r, problem v1 :: snd r)))
  end.
Definition start (s : which) (o : options) (triv : bool) (S : sys) (h : pass) (v : option solver) : result solver :=
  match h_setup h, v with
  | Some mem, _ => bindR (setup s o triv S (h_start h) mem) (reset S (h_start h))
  | None, Some v => reset S (h_start h) v
  | None, None => Err ModelEmpty
  end.
(** The problems given to the simplex, one after the other. *)
Fixpoint run (s : which) (o : options) (triv : bool) (S : sys) (l : list pass) (v : option solver) : result (list lp) :=
  match l with
  | [] => Ok []
  | h :: l => bindR (start s o triv S h v) (fun v1 =>
      bindR (solves s triv S (h_solves h) v1) (fun r =>
      bindR (run s o triv S l (Some (fst r))) (fun rest => Ok (snd r ++ rest))))
  end.
