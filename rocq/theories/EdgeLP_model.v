(** CythonGLPKEdgeSolver: the problem posed and the flows committed
    (/repo/pywr/solvers/cython_glpk.pyx:1148-1567 setup, 1569-1630 reset, 1649-1918 _solve_scenario).
    One column for each edge of the graph.  As in RouteLP_model.v a division by a zero conversion factor
    (ZeroDivisionError, line 1349) is not followed, and `storage.factors[i]` (line 1436) exists for every member. *)
From Verif Require Import Base Paths Sorting Routes_model LP_model Sys_model RouteLP_model.
Open Scope Q_scope.

(** [n for n, edge in enumerate(edges) if p(edge)] *)
Definition ecols (S : sys) (p : nat * nat -> bool) : list nat :=
  map fst (filter (fun c => p (snd c)) (enumerate (s_edges S))).

(** "ignoring cross domain edges", lines 1232-1236. *)
Definition same_domain (S : sys) (e : nat * nat) : bool := Nat.eqb (s_domain S (fst e)) (s_domain S (snd e)).
Definition in_edges (S : sys) (n : nat) : list nat := ecols S (fun e => same_domain S e && Nat.eqb (snd e) n).
Definition out_edges (S : sys) (n : nat) : list nat := ecols S (fun e => same_domain S e && Nat.eqb (fst e) n).

(** `if isinstance(node, BaseOutput): in_edges else: out_edges` (lines 1299-1311, 1429-1432, 1465-1474, 1513-1516). *)
Definition node_ecols (S : sys) (n : nat) : list nat :=
  match s_kind S n with KOutput => in_edges S n | _ => out_edges S n end.

(** Lines 1239-1252. *)
Definition cross_ecols (S : sys) (cross : list (list nat)) (o : nat) : list (nat * Q) :=
  flat_map (fun r => match r with
                     | [o'; i] => if Nat.eqb o' o then map (fun c => (c, s_conv S i)) (out_edges S i) else []
                     | _ => []
                     end) cross.

(** Lines 1299-1315: an input with upstream or an output with downstream edges, a node without columns. *)
Definition ecols_checked (S : sys) (n : nat) : result (list nat) :=
  let bad := match s_kind S n with
             | KInput => match in_edges S n with [] => false | _ => true end
             | KOutput => match out_edges S n with [] => false | _ => true end
             | _ => false
             end in
  if bad then Err (BadEdge n)
  else match node_ecols S n with [] => Err (NotOnRoute n) | cs => Ok cs end.

(** Lines 1292-1361 with the bounds of 1744-1759. *)
Definition edge_non_storage_rows (S : sys) (d : data) (cross : list (list nat)) (n : nat) : result (list row) :=
  bindR (ecols_checked S n) (fun cs =>
  let '(t, lb, ub) := flow_bounds (d_min d n) (d_max d n) in
  bindR (set_row (map (fun c => (c, 1)) cs) t lb ub) (fun r1 =>
  if in_cross cross n then
    bindR (set_row (map (fun c => (c, - (1))) cs ++
                    map (fun cv => (fst cv, 1 / snd cv)) (cross_ecols S cross n)) FX (Fin 0) (Fin 0)) (fun r2 =>
    Ok [r1; r2])
  else Ok [r1])).

(** Lines 1363-1388: mass balance of a link. *)
Definition balance_row (S : sys) (n : nat) : result row :=
  set_row (map (fun c => (c, 1)) (in_edges S n) ++ map (fun c => (c, - (1))) (out_edges S n)) FX (Fin 0) (Fin 0).

(** Lines 1390-1419, bounds 1781-1806. *)
Definition edge_storage_row (S : sys) (d : data) (st : nat) : result row :=
  let '(t, lb, ub) := storage_bounds (d_vol d st) (d_minvol d st) (d_maxvol d st) (d_days d) in
  set_row (map (fun c => (c, 1)) (flat_map (in_edges S) (s_outputs S st)) ++
           map (fun c => (c, - (1))) (flat_map (out_edges S) (s_inputs S st))) t lb ub.

(** `cols[n] += f` with `cols[n] = f` on KeyError. *)
Fixpoint dict_add (m : list (nat * Q)) (k : nat) (v : Q) : list (nat * Q) :=
  match m with
  | [] => [(k, v)]
  | (k', v') :: r => if Nat.eqb k' k then (k', v' + v) :: r else (k', v') :: dict_add r k v
  end.

(** Lines 1425-1438. *)
Definition virtual_dict (S : sys) (v : nat) : list (nat * Q) :=
  fold_left (fun m nf => fold_left (fun m c => dict_add m c (snd nf)) (node_ecols S (fst nf)) m)
    (combine (s_members S v) (s_vfactors S v)) [].

(** Lines 1421-1454, bounds 1808-1836. *)
Definition edge_virtual_row (S : sys) (d : data) (v : nat) : result row :=
  let '(t, lb, ub) := virtual_bounds (d_active d v) (d_vol d v) (d_minvol d v) (d_maxvol d v) (d_days d) in
  set_row (map (fun e => (fst e, - snd e)) (virtual_dict S v)) t lb ub.

(** Lines 1456-1499, values 1719-1740. *)
Definition edge_factor_rows (S : sys) (d : data) (a : nat) : result (list row) :=
  match s_members S a with
  | [] => Err (BadFactors a)
  | m0 :: ms =>
      if factors_usable (m0 :: ms) (d_factors d a) then
      mapM (fun nf =>
              set_row (map (fun c => (c, 1)) (node_ecols S m0) ++
                       map (fun c => (c, - snd nf)) (node_ecols S (fst nf)))
                      FX (Fin 0) (Fin 0))
           (combine ms (tl (factors_norm (d_factors d a))))
      else Err (BadFactors a)
  end.

(** Lines 1511-1519. *)
Definition edge_agg_matrix (S : sys) (a : nat) : list (nat * Q) :=
  fold_left (fun m nw => fold_left (fun m c => dict_set m c (snd nw)) (node_ecols S (fst nw)) m)
    (combine (s_members S a) (weights_of S a)) [].

(** Lines 1501-1537, bounds 1761-1774. *)
Definition edge_agg_row (S : sys) (d : data) (a : nat) : result row :=
  let '(t, lb, ub) := flow_bounds (d_min d a) (d_max d a) in
  set_row (isort (fun x y => Nat.leb (fst x) (fst y)) (edge_agg_matrix S a)) t lb ub.

(** Lines 1690-1712: the costs of the edges; half of the cost of a link on each side. *)
Definition edge_costs (S : sys) (d : data) : nat -> Q :=
  fold_left (fun arr n =>
      let cost := if is_link (s_kind S n) then get_cost S d n / 2 else get_cost S d n in
      let arr := fold_left (fun arr c => add arr c cost) (in_edges S n) arr in
      fold_left (fun arr c => add arr c cost) (out_edges S n) arr)
    (all_nodes S) (fun _ => 0).

(** The whole problem of one timestep and scenario. *)
Definition eposed (triv : bool) (S : sys) (d : data) : result lp :=
  let cross := cross_domain_routes triv S in
  let non_storages := of_kind S is_flow_node in
  let links := of_kind S is_link in
  let storages := of_kind S is_storage in
  let virtuals := of_kind S is_virtual in
  let aggregated := of_kind S is_aggregated in
  if match all_nodes S, s_edges S with [], _ | _, [] => true | _, _ => false end then Err ModelEmpty
  else if match non_storages with [] => true | _ => false end then Err NoNonStorage
  else
    bindR (concatR (mapM (edge_non_storage_rows S d cross) non_storages)) (fun r1 =>
    bindR (mapM (balance_row S) links) (fun r2 =>
    bindR (mapM (edge_storage_row S d) storages) (fun r3 =>
    bindR (mapM (edge_virtual_row S d) virtuals) (fun r4 =>
    bindR (concatR (mapM (edge_factor_rows S d) (filter (s_has_factors S) aggregated))) (fun r5 =>
    bindR (mapM (edge_agg_row S d) aggregated) (fun r6 =>
    Ok {| lp_ncols := length (s_edges S);
          lp_rows := r1 ++ r2 ++ r3 ++ r4 ++ r5 ++ r6;
          lp_obj := edge_costs S d |})))))).

(** "collect the total flow via each node", lines 1894-1910: of every edge, also those between domains. *)
Definition edge_node_flows (S : sys) (y : nat -> Q) : nat -> Q :=
  fold_left (fun nf c =>
      let flow := y (fst c) in
      if qeqb flow 0 then nf
      else fold_left (fun nf n => add nf n (if is_link (s_kind S n) then flow / 2 else flow))
             [fst (snd c); snd (snd c)] nf)
    (enumerate (s_edges S)) (fun _ => 0).

(** Lines 1913-1916. *)
Definition ecommitted (S : sys) (y : nat -> Q) : nat -> Q := commit_all_nodes S (edge_node_flows S y).
