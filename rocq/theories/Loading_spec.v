(** What it means that a document has been loaded faithfully, and which documents can be. *)
From Verif Require Import Base Sorting Loading_model.
Local Close Scope string_scope.
Local Open Scope nat_scope.
Local Open Scope list_scope.

(** All the typed dictionaries in a piece of data, itself included. *)
Fixpoint dictionaries (d : data) : list data :=
  match d with
  | Inline _ _ _ _ children => d :: flat_map dictionaries children
  | _ => []
  end.

(** The references in a piece of data, at any depth. *)
Fixpoint references (d : data) : list (kind * string) :=
  match d with
  | Ref k n => [(k, n)]
  | Inline _ _ _ _ children => flat_map references children
  | _ => []
  end.

(** The name the component made from a dictionary has. *)
Definition name_of (d : data) : list string :=
  match d with
  | Inline P _ (Some n) _ _ => [n]
  | Inline R typ name _ _ => [match name with Some n => n | None => typ end]
  | _ => []
  end.

(** Every dictionary of the data, at any depth, can be loaded by its class; no recorder is given by an untyped dictionary. *)
Fixpoint sound (d : data) : bool :=
  match d with
  | Inline _ _ _ good children => good && forallb sound children
  | Untyped R => false
  | _ => true
  end.

(** A definition as it counts: under its own name and in the kind of its section. *)
Definition definition (k : kind) (e : string * data) : (kind * string) * data :=
  match snd e with
  | Inline _ typ _ good children => ((k, fst e), Inline k typ (Some (fst e)) good children)
  | d => ((k, fst e), d)
  end.
Definition definitions (doc : document) : list ((kind * string) * data) :=
  map (definition P) (d_parameters doc) ++ map (definition R) (d_recorders doc).

(** All definitions are typed dictionaries. *)
Definition typed (doc : document) : Prop :=
  Forall (fun e => exists k typ name good children, snd e = Inline k typ name good children) (d_parameters doc ++ d_recorders doc).
(** The keys of a JSON object are distinct. *)
Definition keyed (doc : document) : Prop := NoDup (map fst (d_parameters doc)) /\ NoDup (map fst (d_recorders doc)).

(** All the data of the document. *)
Definition all_data (doc : document) : list data := map snd (definitions doc) ++ List.concat (d_nodes doc).

(** The recorders not defined in the section "recorders" but in the middle of other data. *)
Definition nested (d : data) : list data := match d with Inline _ _ _ _ children => flat_map dictionaries children | _ => [] end.
Definition nested_recorders (doc : document) : list data :=
  filter (fun d => match d with Inline R _ _ _ _ => true | _ => false end)
         (flat_map (fun e => nested (snd e)) (definitions doc)).
(** None of them has the name of a definition in the section "recorders". *)
Definition apart (doc : document) : Prop :=
  forall d n, In d (nested_recorders doc) -> In n (name_of d) -> ~ In n (map fst (d_recorders doc)).

(** What the data stands for among the components [l]. *)
Definition denotes (l : list object) (d : data) (v : value) : Prop :=
  match d, v with
  | Literal, Number | Untyped P, Number => True
  | Ref k n, Obj i => exists o, nth_error l i = Some o /\ o_kind o = k /\ o_name o = Some n
  | Inline k typ name _ _, Obj i => exists o, nth_error l i = Some o /\ o_data o = d
  | _, _ => False
  end.

(** A component is what its data says: its kind, its name, and its children, which were all there before it. *)
Definition faithful (l : list object) (i : nat) (o : object) : Prop :=
  o_id o = i /\
  match o_data o with
  | Inline k typ name _ children =>
      o_kind o = k /\ o_name o = nth_error (name_of (o_data o)) 0 /\
      Forall2 (denotes (firstn i l)) children (o_children o)
  | _ => False
  end.

(** The references can be put in an order: what a definition refers to comes before it. *)
Definition acyclic (doc : document) : Prop :=
  exists rank : kind * string -> nat,
    forall e r, In e (definitions doc) -> In r (references (snd e)) -> rank r < rank (fst e).
(** Whatever is referred to is defined, or a dictionary somewhere in the document has that name. *)
Definition defined (doc : document) : Prop :=
  forall d r, In d (all_data doc) -> In r (references d) -> In r (map fst (definitions doc)).
(** No two components get the same name. *)
Definition distinct (doc : document) : Prop := NoDup (flat_map name_of (flat_map dictionaries (all_data doc))).
