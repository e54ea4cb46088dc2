(** Files and what they add to a document, without reference to how they are read. *)
From Coq Require Import Strings.Ascii Strings.String.
From Verif Require Import Base Documents_model.
Local Open Scope string_scope.
Local Open Scope nat_scope.
Local Open Scope list_scope.

Fixpoint has (c : ascii) (s : string) : Prop := match s with EmptyString => False | String a r => a = c \/ has c r end.
(** [e] written in any case. *)
Definition letters_alike (a b : ascii) : Prop := a = b \/ exists n, 65 <= n <= 90 /\ nat_of_ascii a = n /\ nat_of_ascii b = n + 32.
Fixpoint alike (s t : string) : Prop :=
  match s, t with EmptyString, EmptyString => True | String a s, String b t => letters_alike a b /\ alike s t | _, _ => False end.
(** The file's name, after its directory, is [stem] and [e]; the stem is not all dots. *)
Definition ends_in (f e : string) : Prop := exists dir stem e', f = (dir ++ stem ++ e')%string /\ (dir = "" \/ exists d, dir = (d ++ "/")%string) /\
  ~ has "/" stem /\ (exists c, has c stem /\ c <> "."%char) /\ alike e' e.

(** The list, the dictionary under a key; nothing there counts as empty. *)
Definition entries (k : string) (d : document) : dict json := match get k d with Some (JDict e) => e | _ => [] end.
(** JSON objects: keys are different, also those of the dictionaries in it. *)
Definition well_formed (d : document) : Prop := NoDup (map fst d) /\ forall k, NoDup (map fst (entries k d)).
(** Values that can not be merged: neither lists nor dictionaries, and those where there is something of another kind. *)
Definition same_kind (v w : json) : Prop := match v, w with JList _, JList _ | JDict _, JDict _ => True | _, _ => False end.
Definition unsuitable (data : document) (k : string) (v : json) : Prop := ~ same_kind v v \/ exists w, get k data = Some w /\ ~ same_kind v w.
(** What is said last about [n]: by the last of the documents that say something about it, or else by what there was before. *)
Definition said_last (docs : list (dict json)) (before : dict json) (n : string) (v : option json) : Prop :=
  (exists l1 d l2, docs = l1 ++ d :: l2 /\ v <> None /\ get n d = v /\ forall e, In e l2 -> get n e = None) \/
  (v = get n before /\ forall e, In e docs -> get n e = None).
