(** Model of reading documents: [pywr/_model.pyx] 202-268 (loads, includes), 270-304 (load), 372-393 and 404-410 (parts of load_from_dict);
    [pywr/model.py] 33-165 (MultiModel.load, load_from_dict). *)
From Verif Require Import Base.
From Coq Require Export Strings.String.
Local Open Scope nat_scope.
Local Open Scope list_scope.

(** Dictionaries in order of insertion. *)
Definition dict (V : Type) := list (string * V).
Fixpoint get {V} (k : string) (d : dict V) : option V :=
  match d with [] => None | (k', v) :: d => if String.eqb k' k then Some v else get k d end.
Fixpoint put {V} (k : string) (v : V) (d : dict V) : dict V :=
  match d with [] => [(k, v)] | (k', v') :: d => if String.eqb k' k then (k, v) :: d else (k', v') :: put k v d end.
Definition update {V} (d e : dict V) : dict V := fold_left (fun d kv => put (fst kv) (snd kv) d) e d.

(** JSON values. *)
Inductive json := JNull | JNumber (q : Q) | JString (s : string) | JList (l : list json) | JDict (d : list (string * json)).
Definition document := dict json.

(** _model.pyx 250-268 [_load_json_include]: lists are extended, dictionaries updated; [None] is an exception. *)
Definition merge_item (data : document) (kv : string * json) : option document :=
  let (k, v) := kv in
  match v with
  | JList l => match get k data with
               | None => Some (put k v data)
               | Some (JList l0) => Some (put k (JList (l0 ++ l)) data)
               | Some _ => None
               end
  | JDict d => match get k data with
               | None => Some (put k v data)
               | Some (JDict d0) => Some (put k (JDict (update d0 d)) data)
               | Some _ => None
               end
  | _ => None
  end.
Definition merge (include data : document) : option document :=
  fold_left (fun o kv => match o with Some data => merge_item data kv | None => None end) include (Some data).

(** The loop over includes is in Includes_model.v. *)

(** _model.pyx 404-408: the nodes of a document, by name. *)
Definition nodes_to_load {N} (nodes : list (string * N)) : dict N := fold_left (fun d kv => put (fst kv) (snd kv) d) nodes [].

(** ** MultiModel *)

(** What a sub-model's own document says about the time and the solver. *)
Record time := Time { t_start : Z; t_end : Z; t_delta : Z }.
Record subdocument := SubDocument { d_time : option time; d_solver : option string }.
Record loaded := Loaded { l_time : time; l_solver : option string }.
(** _model.pyx 350-393 for a sub-model.  Without a timestepper section, start and end are [None] and the [Timestepper] cannot be made. *)
Definition load_model (doc : subdocument) (solver : option string) : option loaded :=
  match d_time doc with
  | None => None
  | Some t => Some (Loaded t (match solver with Some s => Some s | None => d_solver doc end))
  end.

(** An entry of [data["models"]]; [filename] is given as the document it leads to. *)
Record definition := Definition_ { e_name : string; e_filename : option subdocument; e_data : option subdocument; e_solver : option string }.

(** model.py 159-161: start and end are set; [timestepper.timestep] is a new attribute, [delta] stays. *)
Definition set_time (t : time) (m : loaded) : loaded := Loaded (Time (t_start t) (t_end t) (t_delta (l_time m))) (l_solver m).

(** model.py 121-163; the outer [None] is an exception. *)
Definition load_sub (t : time) (solver : option string) (e : definition) : option loaded :=
  let solver' := match e_solver e with Some s => Some s | None => solver end in
  match e_filename e, e_data e with
  | Some _, Some _ => None
  | Some doc, None => option_map (set_time t) (load_model doc solver')
  | None, Some doc => option_map (set_time t) (load_model doc solver')
  | None, None => None
  end.
Definition multi_load_from_dict (t : option time) (es : list definition) (solver : option string) : option (dict loaded) :=
  match t with
  | None => None
  | Some t => fold_left (fun o e => match o with
                                    | None => None
                                    | Some ms => match load_sub t solver e with Some m => Some (put (e_name e) m ms) | None => None end
                                    end) es (Some [])
  end.
(** model.py 91: the solver is not passed on. *)
Definition multi_load (t : option time) (es : list definition) (solver : option string) : option (dict loaded) := multi_load_from_dict t es None.
