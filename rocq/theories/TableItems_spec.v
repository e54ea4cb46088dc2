(** What recorders of HDF files ought to write where; independent of how they find it out. *)
From Coq Require Import Strings.Ascii Strings.String.
From Verif Require Import Base TableItems_model.
Local Open Scope string_scope.
Local Open Scope nat_scope.
Local Open Scope list_scope.

(** * Paths *)

(** A name that can be a part of a path. *)
Definition plain (s : string) : Prop := s <> "" /\ forall a b, s <> (a ++ "/" ++ b)%string.
Fixpoint text (g : list string) : string := match g with [] => "" | p :: g => ("/" ++ p ++ text g)%string end.
(** [denotes s g]: the text [s] is the path with the parts [g]; a single slash is the root. *)
Definition denotes (s : string) (g : list string) : Prop := Forall plain g /\ (g = [] /\ s = "/" \/ g <> [] /\ s = text g).
(** With underscores in place of slashes. *)
Definition underscored (s t : string) : Prop :=
  String.length t = String.length s /\ forall i, String.get i t = match String.get i s with Some "/"%char => Some "_"%char | o => o end.

(** [p] is [q] or a group above it. *)
Definition within (p q : list string) : Prop := exists r, q = p ++ r.
Fixpoint apart (ps : list (list string)) : Prop :=
  match ps with [] => True | p :: ps => Forall (fun q => ~ within p q /\ ~ within q p) ps /\ apart ps end.

(** * What is wanted *)

Section World.
Variable node : string -> option nat.
Variable par : string -> option nat.
Variable name_of : nat -> option string.
(** The group for what has no path of its own. *)
Variable g0 : list string.

Inductive wanted_node : item -> list string * nat -> Prop :=
| node_by_name s n : plain s -> String.length s <> 2 -> node s = Some n -> wanted_node (IText s) (g0 ++ [s], n)
| node_name_at w g s n : g <> [] -> denotes w g -> node s = Some n -> wanted_node (ISeq [AText w; AText s]) (g, n)
| node_at w g n : g <> [] -> denotes w g -> wanted_node (ISeq [AText w; AObj n]) (g, n).
Inductive wanted_par : item -> list string * nat -> Prop :=
| par_by_name s n s' t : String.length s <> 2 -> par s = Some n -> name_of n = Some s' -> s' <> "" -> underscored s' t -> wanted_par (IText s) (g0 ++ [t], n)
| par_itself n s t : name_of n = Some s -> s <> "" -> underscored s t -> wanted_par (IObj n) (g0 ++ [t], n)
| par_name_at w g s n s' : g <> [] -> denotes w g -> par s = Some n -> name_of n = Some s' -> s' <> "" -> wanted_par (ISeq [AText w; AText s]) (g, n)
| par_at w g n s : g <> [] -> denotes w g -> name_of n = Some s -> s <> "" -> wanted_par (ISeq [AText w; AObj n]) (g, n).
End World.

(** * Where the arrays are *)

(** What is recorded of what: one array at the path, or a group there with an array for each quantity. *)
Definition quantities (c : class) (s : sort) : list (list string * string) :=
  let own := match s with
             | Storage => ["max_volume"; "volume"; "min_volume"]
             | Flow => ["max_flow"; "flow"; "min_flow"]
             | Index => ["parameter_index"]
             | Value => ["parameter"]
             end in
  match c with
  | First => [([], match s with Storage => "volume" | Flow => "flow" | Index => "parameter-index" | Value => "parameter" end)]
  | Second => map (fun a => ([a], a)) own
  end.
Definition cells (c : class) (sort_of : nat -> sort) (items : list (list string * nat)) : list (list string) :=
  flat_map (fun pw => map (fun ca => fst pw ++ fst ca) (quantities c (sort_of (snd pw)))) items.
Definition maybe {A} (o : option A) : list A := match o with Some a => [a] | None => [] end.
(** The last place of those at which the thing [w] is to be recorded. *)
Definition last_place (items : list (list string * nat)) (w : nat) (p : list string) : Prop :=
  exists before after, items = before ++ (p, w) :: after /\ ~ In w (map snd after).
