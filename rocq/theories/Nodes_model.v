(** The life cycle of the nodes of a model, one scenario combination: _core.pyx 461-492 (AbstractNode), 762-776 (AggregatedNode), 942-1004
    (StorageInput, StorageOutput), 1289-1361 (Storage), 1384-1427 (AggregatedStorage), 1458-1536 (VirtualStorage, RollingVirtualStorage);
    nodes.py 626-757 (annual, seasonal and monthly storages), 843-887 (PiecewiseLink), 1168-1171, 1236-1239, 1361-1364 (BreakLink, DelayNode,
    LossLink); _model.pyx 617-622, 748-775, 825-860.

    All methods work on each combination on its own.  Nodes are numbered in the order of [graph.nodes()].  Where the code raises the state
    is left as it is; the theorems are about runs that do not raise. *)
From Verif Require Import Base Ring LP_model Storage_model Periodic_model.
Local Open Scope nat_scope.
Local Open Scope list_scope.
Local Open Scope Q_scope.

Inductive variety :=
| Always                                                     (* VirtualStorage *)
| Rolling (steps : nat) (utilisation : Q)                    (* timesteps, _initial_utilisation *)
| Annual (c : annual_cfg)
| Seasonal (c : seasonal_cfg)
| Monthly (months initial_months : Z) (to_initial : bool).

Inductive class :=
| Plain                                                      (* Input, Output, Link and other nodes that only take what is committed *)
| StoreIn (parent : nat) | StoreOut (parent : nat)           (* StorageInput, StorageOutput *)
| Storage (i : initial)
| Piecewise (sublinks : list nat)                            (* PiecewiseLink, MultiSplitLink *)
| Late (child : nat)                                         (* BreakLink: link; DelayNode: input; LossLink: net *)
| Aggregated (members : list (nat * Q))                      (* AggregatedNode, with weights (1 if there are none) *)
| AggStorage (members : list nat)
| Virtual (i : initial) (members : list (nat * Q)) (v : variety).   (* with factors *)

Record node := Node { n_class : class; n_child : bool }.     (* does it have a parent? *)

Record nstate := NState { flow : Q; prev : Q; vol : Q; pc : option Q; mem : list Q; ptr : nat; season : seasonal; monthcount : monthly }.

Definition with_flow (s : nstate) (x : Q) := NState x (prev s) (vol s) (pc s) (mem s) (ptr s) (season s) (monthcount s).
Definition with_prev (s : nstate) (x : Q) := NState (flow s) x (vol s) (pc s) (mem s) (ptr s) (season s) (monthcount s).
Definition with_vol (s : nstate) (v : Q) (p : option Q) := NState (flow s) (prev s) v p (mem s) (ptr s) (season s) (monthcount s).
Definition with_mem (s : nstate) (m : list Q) (p : nat) := NState (flow s) (prev s) (vol s) (pc s) m p (season s) (monthcount s).
Definition with_season (s : nstate) (e : seasonal) := NState (flow s) (prev s) (vol s) (pc s) (mem s) (ptr s) e (monthcount s).
Definition with_month (s : nstate) (m : monthly) := NState (flow s) (prev s) (vol s) (pc s) (mem s) (ptr s) (season s) m.

(** Whether a virtual storage is active: set by the seasonal ones, else true (_core.pyx 1462-1466). *)
Definition active (s : nstate) : bool := a_active (e_annual (season s)).

(** Before [setup] has been called there is nothing; a number outside of the graph. *)
Definition blank : nstate := NState 0 0 0 (Some 0) [] 0 seasonal_new (monthly_reset 0).
Definition state := list nstate.
Definition get (st : state) (n : nat) : nstate := nth n st blank.

(** A timestep: index and date, and its length in days.  What [get_max_volume] and [get_min_volume] give, and the value of a max_volume
    parameter. *)
Record tstep := TStep { ts_p : pts; ts_days : Q }.
Record bounds := Bounds { b_max : nat -> ext; b_min : nat -> Q; b_now : nat -> Q }.

Definition put_volume (s : nstate) (r : option (Q * option Q)) : nstate := match r with Some (v, p) => with_vol s v p | None => s end.

(** [before]: 475-479, and nodes.py 630-656, 694-719, 748-757. *)
Definition before_node (c : class) (n : nat) (b : bounds) (t : tstep) (s : nstate) : nstate :=
  let s := with_flow s 0 in
  match c with
  | Virtual i _ (Annual cfg) =>
      let '(a, r) := annual_before cfg (e_annual (season s)) (ts_p t) in
      let s := with_season s {| e_annual := a; e_last_active_year := e_last_active_year (season s) |} in
      match r with Some use => put_volume s (reset_storage_only i (b_now b n) use) | None => s end
  | Virtual i _ (Seasonal cfg) =>
      let '(e, r) := seasonal_before cfg (season s) (ts_p t) in
      let s := with_season s e in
      match r with Some use => put_volume s (reset_storage_only i (b_now b n) use) | None => s end
  | Virtual i _ (Monthly months _ to_initial) =>
      let '(m, r) := monthly_before months (monthcount s) (Calendar_spec.mon (p_date (ts_p t))) in
      let s := with_month s m in
      if r then put_volume s (reset_storage_only i (b_now b n) to_initial) else s
  | _ => s
  end.

(** [reset]: 468-473, 1289-1292, 1384-1399 (which does not touch the flows), 1464-1466, 1517-1520; nodes.py 626-628, 743-746. *)
Definition initials (g : list node) (members : list nat) : list initial :=
  flat_map (fun m => match nth_error g m with Some {| n_class := Storage i |} | Some {| n_class := Virtual i _ _ |} => [i] | _ => [] end) members.
Definition reset_node (g : list node) (c : class) (b : bounds) (s : nstate) : nstate :=
  let zero := with_prev (with_flow s 0) 0 in
  match c with
  | Storage i => put_volume zero (reset_storage_only i 0 true)
  | AggStorage members =>
      match agg_storage_reset (initials g members) with
      | Some v => with_vol s v (ratio v (ext_sum (map (b_max b) members)))
      | None => s
      end
  | Virtual i _ v =>
      let s := with_season (put_volume zero (reset_storage_only i 0 true)) {| e_annual := {| a_last_reset_year := a_last_reset_year (e_annual (season s)); a_active := true |};
                                                                               e_last_active_year := e_last_active_year (season s) |} in
      match v with
      | Always => s
      | Rolling n u => with_mem s (repeat u (n - 1)) 0
      | Annual _ | Seasonal _ => with_season s (seasonal_reset (season s))
      | Monthly _ initial_months _ => with_month s (monthly_reset initial_months)
      end
  | _ => zero
  end.

(** What a new model has after [setup] and before [reset]: 461-465 and the constructors. *)
Definition new_node (c : class) : nstate :=
  match c with
  | Virtual _ _ (Rolling n u) => NState 0 0 0 (Some 0) (repeat u (n - 1)) 0 seasonal_new (monthly_reset 0)
  | Virtual _ _ (Monthly _ initial_months _) => NState 0 0 0 (Some 0) [] 0 seasonal_new (monthly_reset initial_months)
  | _ => blank
  end.

(** [commit]: 481-483, 943-945, 977-979. *)
Definition add_flow (st : state) (n : nat) (x : Q) : state := upd st n (with_flow (get st n) (flow (get st n) + x)).
Definition class_of (g : list node) (n : nat) : class := match nth_error g n with Some d => n_class d | None => Plain end.
Definition commit (g : list node) (st : state) (e : nat * Q) : state :=
  let st' := add_flow st (fst e) (snd e) in
  match class_of g (fst e) with
  | StoreIn p => add_flow st' p (- snd e)
  | StoreOut p => add_flow st' p (snd e)
  | _ => st'
  end.

Definition store_after (b : bounds) (n : nat) (days : Q) (adj : option Q) (s : nstate) : nstate :=
  with_vol (with_prev s (flow s)) (volume_after (vol s) (flow s) days (b_max b n) (b_min b n) adj) (pc_after (vol s) (flow s) days (b_max b n) (b_min b n) adj).
Definition virtual_flow (st : state) (members : list (nat * Q)) : Q := fold_left (fun acc e => acc - snd e * flow (get st (fst e))) members 0.

(** [after] of the node number [n]. *)
Definition after_node (c : class) (n : nat) (b : bounds) (days : Q) (st : state) : nstate :=
  let s := get st n in
  match c with
  | Plain | StoreIn _ | StoreOut _ => with_prev s (flow s)
  | Storage _ => store_after b n days None s
  | Piecewise sublinks =>
      let s := with_flow s (fold_left (fun acc l => acc + flow (get st l)) sublinks (flow s)) in with_prev s (flow s)
  | Late child => let s := with_prev s (flow s) in with_flow s (flow s + flow (get st child))
  | Aggregated members => with_flow (with_prev s (flow s)) (fold_left (fun acc e => acc + flow (get st (fst e)) * snd e) members 0)
  | AggStorage members =>
      let s := with_prev s (flow s) in
      let ms := map (fun m => {| m_flow := flow (get st m); m_max := b_max b m; m_min := b_min b m |}) members in
      let v := agg_storage_after (vol s) ms days in
      with_vol (with_flow s (agg_storage_flow ms)) v (ratio v (ext_sum (map m_max ms)))
  | Virtual _ members (Rolling k _) =>
      let s := if active s then store_after b n days (Some (nth (ptr s) (mem s) 0)) (with_flow s (virtual_flow st members)) else s in
      with_mem s (upd (mem s) (ptr s) (- flow s * days)) ((ptr s + 1) mod (k - 1))
  | Virtual _ members _ => if active s then store_after b n days None (with_flow s (virtual_flow st members)) else s
  end.

(** A method of all nodes, one after the other in the order of the graph. *)
Fixpoint in_turn (f : nat -> class -> state -> nstate) (g : list node) (n : nat) (st : state) : state :=
  match g with
  | [] => st
  | d :: r => in_turn f r (S n) (upd st n (f n (n_class d) st))
  end.
Definition before_all (g : list node) (b : bounds) (t : tstep) (st : state) : state := in_turn (fun n c st => before_node c n b t (get st n)) g 0 st.
Definition after_all (g : list node) (b : bounds) (days : Q) (st : state) : state := in_turn (fun n c st => after_node c n b days st) g 0 st.
(** [Model.reset], 767-780, goes over [self.nodes]: the nodes with a parent are left out. *)
Fixpoint reset_turn (g : list node) (b : bounds) (r : list node) (n : nat) (st : state) : state :=
  match r with
  | [] => st
  | d :: r => reset_turn g b r (S n) (if n_child d then st else upd st n (reset_node g (n_class d) b (get st n)))
  end.
Definition reset_all (g : list node) (b : bounds) (st : state) : state := reset_turn g b g 0 st.
Definition new_model (g : list node) : state := map (fun d => new_node (n_class d)) g.

(** The nodes in one timestep, [commits] being what the solver commits; [b0] the volumes as they are in [before], [b] in [after]. *)
Definition node_step (g : list node) (b0 b : bounds) (t : tstep) (commits : list (nat * Q)) (st : state) : state :=
  after_all g b (ts_days t) (fold_left (commit g) commits (before_all g b0 t st)).

(** The states at the end of every timestep. *)
Fixpoint history (g : list node) (steps : list (tstep * bounds * bounds * list (nat * Q))) (st : state) : list state :=
  match steps with
  | [] => []
  | (t, b0, b, cs) :: r => let st' := node_step g b0 b t cs st in st' :: history g r st'
  end.
(** The states that parameters and the solver see: after [before], in the order of the timesteps. *)
Fixpoint during (g : list node) (steps : list (tstep * bounds * bounds * list (nat * Q))) (st : state) : list state :=
  match steps with
  | [] => []
  | (t, b0, b, cs) :: r => before_all g b0 t st :: during g r (node_step g b0 b t cs st)
  end.

(** PiecewiseLink.get_min_flow and get_max_flow, nodes.py 830-834. *)
Definition piecewise_min (mins : list Q) : Q := fold_left Qplus mins 0.
Definition piecewise_max (maxs : list ext) : ext := ext_sum maxs.
