(** Pictures of models: schematics (/repo/pywr/notebook/__init__.py:171-234, 291-364), Sankey diagrams (notebook/sankey.py:6-74) and
    series made comparable (notebook/figures.py:17-56).

    Not modelled: the Javascript that draws, CSS classes and positions, get_node_attr (237-291, see Schematic_model.v), the plots of figures.py. *)
From Coq Require Import Strings.Ascii Strings.String.
From Verif Require Import Base Documents_model.
Local Open Scope string_scope.
Local Open Scope nat_scope.
Local Open Scope list_scope.

(** `names.index(n)`; [None] is ValueError. *)
Fixpoint index_of (n : string) (l : list string) : option nat :=
  match l with [] => None | m :: l => if String.eqb m n then Some 0 else option_map S (index_of n l) end.

(** A list of results, or the first exception. *)
Fixpoint all_of {A} (l : list (option A)) : option (list A) :=
  match l with
  | [] => Some []
  | None :: _ => None
  | Some a :: l => option_map (cons a) (all_of l)
  end.

Record picture := { shown : list string; links : list (nat * nat) }.

(** * pywr_model_to_d3_json, __init__.py:171-234 *)

(** A node of `model.graph`: its place in `graph.nodes()` is its identity.  `parent` and `virtual` as in _core.pyx:342-349. *)
Record vnode := { v_name : string; v_parent : option nat; v_virtual : bool }.
Record vgraph := { v_nodes : list vnode; v_edges : list (nat * nat) }.

Section Model.
Variable g : vgraph.
Definition no_node : vnode := {| v_name := ""; v_parent := None; v_virtual := true |}.
Definition node_at (i : nat) : vnode := nth i (v_nodes g) no_node.

(** Lines 181-186. *)
Definition is_shown (v : vnode) : bool := match v_parent v with None => negb (v_virtual v) | Some _ => false end.
Definition node_names : list string := map v_name (filter is_shown (v_nodes g)).

(** Lines 192-196: one step up only. *)
Definition up (i : nat) : nat := match v_parent (node_at i) with Some p => p | None => i end.

(** Lines 198-204; an edge inside a node is no link. *)
Definition model_link (e : nat * nat) : list (option (nat * nat)) :=
  let s := up (fst e) in let t := up (snd e) in
  if Nat.eqb s t then []
  else [match index_of (v_name (node_at s)) node_names, index_of (v_name (node_at t)) node_names with
        | Some a, Some b => Some (a, b)
        | _, _ => None
        end].

Definition draw_model : option picture :=
  option_map (fun l => {| shown := node_names; links := l |}) (all_of (flat_map model_link (v_edges g))).
End Model.

(** * pywr_json_to_d3_json, __init__.py:291-352 *)

Record jnode := { j_name : string; j_type : string; j_attrs : list (string * json) }.
Record jmodel := { j_nodes : list jnode; j_edges : list (string * string); j_parameters : option (dict string) }.

Section Json.
(** `node_classes[node["type"].lower()]` exists. *)
Variable registered : string -> bool.
(** `get_parameter_from_registry`; [None] is TypeError. *)
Variable parameter_class : string -> option string.
(** `str` of a number, a string or None. *)
Variable str : json -> string.

(** `.lower()` *)
Definition lower_ascii (c : ascii) : ascii :=
  let n := nat_of_ascii c in if (65 <=? n) && (n <=? 90) then ascii_of_nat (n + 32) else c.
Fixpoint lower (s : string) : string := match s with EmptyString => EmptyString | String c s => String (lower_ascii c) (lower s) end.

(** Lines 309-315. *)
Definition skipped_types : list string :=
  ["annualvirtualstorage"; "virtualstorage"; "aggregatednode"; "aggregatedstorage"; "seasonalvirtualstorage"].
Definition skipped (n : jnode) : bool := existsb (String.eqb (lower (j_type n))) skipped_types.

(** Lines 325-346: an attribute of a node; the parameters of the document are given with their types.  Exceptions: a list is not hashable
    (line 337), the document has no parameters, the type of a parameter is unknown.  A dictionary without type is shown as it is. *)
Definition attribute (params : option (dict string)) (v : json) : option string :=
  match v with
  | JDict d => match get "type" d with
               | Some (JString t) => parameter_class t
               | _ => Some (str v)
               end
  | JList _ => None
  | JString s => match params with
                 | None => None
                 | Some ps => match get s ps with
                              | Some t => option_map (fun c => append s (append " - " c)) (parameter_class t)
                              | None => Some s
                              end
                 end
  | _ => match params with None => None | Some _ => Some (str v) end
  end.
Definition attributes_of (params : option (dict string)) (n : jnode) : option (list (string * string)) :=
  all_of (map (fun a => option_map (pair (fst a)) (attribute params (snd a))) (("name", JString (j_name n)) :: j_attrs n)).

(** Lines 305-350 for one node: [None] is an exception. *)
Definition json_node (attrs : bool) (params : option (dict string)) (n : jnode) : option (string * list (string * string)) :=
  if registered (lower (j_type n))
  then if attrs then option_map (pair (j_name n)) (attributes_of params n) else Some (j_name n, [])
  else None.

Definition json_nodes (attrs : bool) (m : jmodel) : option (list (string * list (string * string))) :=
  all_of (map (json_node attrs (j_parameters m)) (filter (fun n => negb (skipped n)) (j_nodes m))).

(** Lines 352-360. *)
Definition json_link (names : list string) (e : string * string) : option (nat * nat) :=
  match index_of (fst e) names, index_of (snd e) names with Some a, Some b => Some (a, b) | _, _ => None end.

Definition draw_json (attrs : bool) (m : jmodel) : option (picture * list (list (string * string))) :=
  match json_nodes attrs m with
  | None => None
  | Some ns =>
      option_map (fun l => ({| shown := map fst ns; links := l |}, map snd ns)) (all_of (map (json_link (map fst ns)) (j_edges m)))
  end.
End Json.

(** * routes_to_sankey_links, sankey.py:6-74 *)

Section Sankey.
(** `callback_func(start, end, flow) is not None`, `rename_func(name, is_start)`. *)
Variable callback : option (string -> string -> Q -> bool).
Variable rename : option (string -> bool -> string).
Variable ignore_circular : bool.
Variable threshold : Q.

Definition renamed (n : string) (b : bool) : string := match rename with Some f => f n b | None => n end.
Definition asked (r : string * string * Q) : bool := match callback with Some f => f (fst (fst r)) (snd (fst r)) (snd r) | None => true end.

(** `sources[start][end] += flow` of a defaultdict of defaultdicts of 0.0. *)
Definition add_flow (a b : string) (f : Q) (d : dict (dict Q)) : dict (dict Q) :=
  let inner := match get a d with Some i => i | None => [] end in
  put a (put b (match get b inner with Some v => v | None => 0%Q end + f)%Q inner) d.

(** Lines 48-66. *)
Definition route_step (d : dict (dict Q)) (r : string * string * Q) : dict (dict Q) :=
  if asked r
  then let a := renamed (fst (fst r)) true in
       let b := renamed (snd (fst r)) false in
       if ignore_circular && String.eqb a b then d else add_flow a b (snd r) d
  else d.

(** Lines 68-74. *)
Definition sankey (routes : list (string * string * Q)) : list (string * string * Q) :=
  flat_map (fun s => flat_map (fun t => if qltb (snd t) threshold then [] else [(fst s, fst t, snd t)]) (snd s))
    (fold_left route_step routes []).
End Sankey.

(** Lines 18-42: the flows of a file are an array of timesteps, routes and scenarios (one axis of scenarios).  The slices pick positions;
    aggregators take the values along an axis.  `scenario_agg_func` is popped from the keyword "scenario_slice", which is no longer there:
    it is always `np.mean`. *)
Definition np_mean (l : list Q) : Q := (qsum l / inject_Z (Z.of_nat (List.length l)))%Q.
Record sankey_kwargs := {
  time_slice : option (list nat);
  time_agg_func : list Q -> Q;
  scenario_slice : option (list nat);
  scenario_agg_func : list Q -> Q }.

Definition sliced {A} (d : A) (s : option (list nat)) (l : list A) : list A :=
  match s with None => l | Some ps => map (fun p => nth p l d) ps end.
Definition route_flows (k : sankey_kwargs) (nroutes nscenarios : nat) (flows : list (list (list Q))) : list Q :=
  let over_time := map (fun r => map (fun c => time_agg_func k (map (fun row => nth c (nth r row []) 0%Q)
                                                               (sliced [] (time_slice k) flows))) (seq 0 nscenarios)) (seq 0 nroutes) in
  map (fun row => np_mean (sliced 0%Q (scenario_slice k) row)) over_time.

(** * align_series, figures.py:17-56: series of values by date, dates increasing *)

Definition on_date (d : Z) (s : list (Z * Q)) : option Q := option_map snd (find (fun x => Z.eqb (fst x) d) s).
(** `pandas.concat([A, B], join="inner", axis=1)`. *)
Definition inner_join (a b : list (Z * Q)) : list (Z * (Q * Q)) :=
  flat_map (fun x => match on_date (fst x) b with Some v => [(fst x, (snd x, v))] | None => [] end) a.
(** Without a common date, `df.index[0]` raises IndexError.  `if start or end`: dates, so given ones count. *)
Definition align_series (a b : list (Z * Q)) (start end_ : option Z) : option (list (Z * Q) * list (Z * Q)) :=
  match inner_join a b with
  | [] => None
  | (_ :: _) as j =>
      let in_range (x : Z * (Q * Q)) :=
        match start with Some s => Z.leb s (fst x) | None => true end && match end_ with Some e => Z.leb (fst x) e | None => true end in
      let j := filter in_range j in
      Some (map (fun x => (fst x, fst (snd x))) j, map (fun x => (fst x, snd (snd x))) j)
  end.
