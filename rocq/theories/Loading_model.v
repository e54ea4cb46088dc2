(** Loading parameters and recorders from a model document: [load_parameter], [load_recorder] and the part of
    [Model.load_from_dict] that calls them.

    What the documents say is reduced to which data is given by name, by a number or by a nested definition; which of the data
    are given to [load_parameter] and which to [load_recorder] is decided by the class of the parent, so the kind stands in the
    data.  Everything else a class does while it loads its data is one bit: whether it goes through. *)
From Verif Require Import Base.
From Coq Require Export Strings.String.
Local Close Scope string_scope.
Local Open Scope nat_scope.
Local Open Scope list_scope.

(** [P]: parameters, [R]: recorders. *)
Inductive kind := P | R.
Definition kind_eqb (a b : kind) : bool := match a, b with P, P | R, R => true | _, _ => false end.

(** The data of one parameter or recorder.
    - [Literal]: a number or null (_parameters.pyx 2312-2314).
    - [Ref k n]: a string (_parameters.pyx 2294-2311, _recorders.pyx 2214-2235).
    - [Untyped k]: a dictionary without the key "type" (_parameters.pyx 2319-2323, _recorders.pyx 2238).
    - [Inline k typ name good children]: a dictionary with the key "type"; [typ] is the name of the class in lower case, [name]
      the entry "name", [children] the data the class's [load] gives to [load_parameter] or [load_recorder], in that order, and
      [good] says whether the class is known and its [load] goes through once the children are loaded. *)
Inductive data :=
| Literal
| Ref (k : kind) (name : string)
| Untyped (k : kind)
| Inline (k : kind) (typ : string) (name : option string) (good : bool) (children : list data).

(** What the loaders return: a number, or the component created as the [id]-th. *)
Inductive value := Number | Obj (id : nat).

(** A component: its place in [model.component_graph], its kind, its name, what it was made from, and what its children were. *)
Record object := Object { o_id : nat; o_kind : kind; o_name : option string; o_data : data; o_children : list value }.

(** [to_load]: the dictionaries [model._parameters_to_load] and [model._recorders_to_load], in the order of insertion, together;
    [objects]: the components in the order of their creation. *)
Record state := State { to_load : list ((kind * string) * data); objects : list object }.

(** [Failed]: an exception; [Stuck]: the fuel given to the functions below was too small. *)
Inductive result (A : Type) := Ok (a : A) (s : state) | Failed | Stuck.
Arguments Ok {A} a s. Arguments Failed {A}. Arguments Stuck {A}.
Definition bind {A B} (m : result A) (f : A -> state -> result B) : result B :=
  match m with Ok a s => f a s | Failed => Failed | Stuck => Stuck end.

(** The name a component gets: a parameter without a name has none (_parameters.pyx 2325-2328, 2342-2345), a recorder without a
    name is called after its class (_recorders.pyx 224-226). *)
Definition own_name (k : kind) (typ : string) (name : option string) : option string :=
  match k with P => name | R => Some (match name with Some n => n | None => typ end) end.

Definition named (n : string) (o : object) : bool := match o_name o with Some m => String.eqb m n | None => false end.

(** [model.parameters[name]] and [for rec in model.recorders: if rec.name == name]: _model.pyx 131-137, 1022-1027, _recorders.pyx
    2217-2221. *)
Definition lookup (k : kind) (n : string) (l : list object) : option object :=
  find (fun o => kind_eqb (o_kind o) k && named n o) l.

(** [dict.pop(name)]. *)
Fixpoint take (k : kind) (n : string) (l : list ((kind * string) * data)) : option (data * list ((kind * string) * data)) :=
  match l with
  | [] => None
  | e :: r => if kind_eqb (fst (fst e)) k && String.eqb (snd (fst e)) n then Some (snd e, r)
              else match take k n r with Some (d, r') => Some (d, e :: r') | None => None end
  end.

(** The construction of the component and the setting of its name, which is refused when any component has it (_component.pyx
    84-102).  Parameters are put in the graph first and named afterwards (_parameters.pyx 2335, 2342-2344); as a refusal ends
    the whole load, the difference is not seen. *)
Definition build (k : kind) (typ : string) (name : option string) (d : data) (children : list value) (s : state) : result value :=
  let n := own_name k typ name in
  if match n with Some n => existsb (named n) (objects s) | None => false end then Failed
  else Ok (Obj (List.length (objects s)))
          (State (to_load s) (objects s ++ [Object (List.length (objects s)) k n d children])).

(** [load_parameter(model, data)] (_parameters.pyx 2292-2346) and [load_recorder(model, data)] (_recorders.pyx 2211-2255), with
    [rec] for the call on the data taken out of the dictionary of definitions. *)
Fixpoint load_with (rec : data -> state -> result value) (d : data) (s : state) : result value :=
  match d with
  | Literal => Ok Number s
  | Untyped P => Ok Number s
  | Untyped R => Failed
  | Ref k n =>
      match lookup k n (objects s) with
      | Some o => Ok (Obj (o_id o)) s
      | None => match take k n (to_load s) with
                | None => Failed
                | Some (d', rest) => rec d' (State rest (objects s))
                end
      end
  | Inline k typ name good children =>
      bind ((fix load_list (l : list data) (s : state) : result (list value) :=
               match l with
               | [] => Ok [] s
               | c :: r => bind (load_with rec c s) (fun v s1 => bind (load_list r s1) (fun vs s2 => Ok (v :: vs) s2))
               end) children s)
           (fun vs s' => if good then build k typ name d vs s' else Failed)
  end.
Fixpoint load (fuel : nat) : data -> state -> result value :=
  match fuel with
  | O => load_with (fun _ _ => Stuck)
  | S fuel => load_with (load fuel)
  end.
Fixpoint load_list (fuel : nat) (l : list data) (s : state) : result (list value) :=
  match l with
  | [] => Ok [] s
  | c :: r => bind (load fuel c s) (fun v s1 => bind (load_list fuel r s1) (fun vs s2 => Ok (v :: vs) s2))
  end.

(** [dict.popitem()] of the dictionary of one kind: the entry inserted last. *)
Fixpoint take_first (k : kind) (l : list ((kind * string) * data)) : option ((string * data) * list ((kind * string) * data)) :=
  match l with
  | [] => None
  | e :: r => if kind_eqb (fst (fst e)) k then Some ((snd (fst e), snd e), r)
              else match take_first k r with Some (x, r') => Some (x, e :: r') | None => None end
  end.
Definition popitem (k : kind) (l : list ((kind * string) * data)) : option ((string * data) * list ((kind * string) * data)) :=
  match take_first k (rev l) with Some (x, r) => Some (x, rev r) | None => None end.

(** [load_components(...)]: _model.pyx 424-449.  A recorder whose name is taken by a recorder already there is not loaded
    (_recorders.pyx 2217-2221 with the name given as third argument); a parameter which turns out to be a number is an error. *)
Fixpoint load_all (fuel : nat) (k : kind) (s : state) : result unit :=
  match fuel with
  | O => match popitem k (to_load s) with None => Ok tt s | Some _ => Stuck end
  | S fuel' =>
      match popitem k (to_load s) with
      | None => Ok tt s
      | Some ((n, d), rest) =>
          let s1 := State rest (objects s) in
          match k, lookup R n (objects s) with
          | R, Some _ => load_all fuel' k s1
          | _, _ => bind (load fuel' d s1)
                         (fun v s2 => match k, v with P, Number => Failed | _, _ => load_all fuel' k s2 end)
          end
      end
  end.

(** The document: the sections "parameters" and "recorders" as the JSON parser gives them, and for every node the data of its
    parameter attributes in the order of [finalise_load] (nodes.py 78-88). *)
Record document := Document { d_parameters : list (string * data); d_recorders : list (string * data); d_nodes : list (list data) }.

(** [collect_components]: _model.pyx 414-418.  Writing the name into a number or a string raises an exception. *)
Definition put_name (k : kind) (e : string * data) : option ((kind * string) * data) :=
  match snd e with
  | Inline _ typ _ good children => Some ((k, fst e), Inline k typ (Some (fst e)) good children)
  | Untyped _ => Some ((k, fst e), Untyped k)
  | Literal | Ref _ _ => None
  end.
Fixpoint collect (k : kind) (l : list (string * data)) : option (list ((kind * string) * data)) :=
  match l with
  | [] => Some []
  | e :: r => match put_name k e, collect k r with Some x, Some y => Some (x :: y) | _, _ => None end
  end.

Fixpoint load_nodes (l : list (list data)) (s : state) : result (list (list value)) :=
  match l with
  | [] => Ok [] s
  | ds :: r => bind (load_list 0 ds s) (fun vs s1 => bind (load_nodes r s1) (fun vss s2 => Ok (vs :: vss) s2))
  end.

(** _model.pyx 420-453: the recorders, then the parameters, then the nodes. *)
Definition load_document (doc : document) : result (list (list value)) :=
  match collect P (d_parameters doc), collect R (d_recorders doc) with
  | Some ps, Some rs =>
      let s := State (ps ++ rs) [] in
      let fuel := List.length (ps ++ rs) in
      bind (load_all fuel R s) (fun _ s1 => bind (load_all fuel P s1) (fun _ s2 => load_nodes (d_nodes doc) s2))
  | _, _ => Failed
  end.
