(** What a schematic shows of a node: its table of attributes (/repo/pywr/notebook/__init__.py:237-291) and its classes for styling (365-380).
    Names are text; the attributes are given as `inspect.getmembers` yields them, routines left out. *)
From Coq Require Import Strings.Ascii Strings.String.
From Verif Require Import Base.
Local Open Scope string_scope.
Local Open Scope nat_scope.
Local Open Scope list_scope.

(** The value of an attribute: a component with its name and type, a list with the text of each element (`str`), or anything else with its text. *)
Inductive value := VNone | VComponent (name : option string) (type : string) | VList (items : list string) | VOther (text : string).

Definition lower_char (c : ascii) : ascii :=
  let n := nat_of_ascii c in if (65 <=? n) && (n <=? 90) then ascii_of_nat (n + 32) else c.
Fixpoint lower (s : string) : string := match s with EmptyString => EmptyString | String c s => String (lower_char c) (lower s) end.
(** `startswith("_")` *)
Definition private (s : string) : bool := match s with String c _ => Ascii.eqb c "_"%char | EmptyString => false end.
(** 254-269 *)
Definition attrs_to_skip : list string :=
  ["component_attrs"; "components"; "color"; "model"; "input"; "output"; "inputs"; "outputs"; "sub_domain"; "sub_output"; "sublinks"; "visible";
   "fully_qualified_name"; "allow_isolated"].
(** `replace("[", "").replace("]", "")` *)
Fixpoint no_brackets (s : string) : string :=
  match s with
  | EmptyString => EmptyString
  | String c s => if Ascii.eqb c "["%char || Ascii.eqb c "]"%char then no_brackets s else String c (no_brackets s)
  end.
(** 273-286 *)
Definition shown (v : value) : string :=
  match v with
  | VNone => "None"
  | VComponent name type => match name with
                            | None | Some EmptyString => type
                            | Some n => n ++ " - " ++ type
                            end
  | VList items => fold_left (fun s x => (s ++ no_brackets x)%string) items ""
  | VOther text => text
  end%string.
(** 245-291 *)
Fixpoint get_node_attr (attrs : list (string * value)) : list (string * string) :=
  match attrs with
  | [] => []
  | (name, v) :: r =>
      if private name then get_node_attr r
      else if match v with VNone => true | _ => false end || existsb (String.eqb (lower name)) attrs_to_skip then get_node_attr r
      else (name, shown v) :: get_node_attr r
  end.

(** 369-377: the classes from a class on; [bases] are its bases that are subclasses of Node and not Node itself, and [None] stands for a loop that does not end. *)
Fixpoint climb (bases : nat -> list nat) (fuel : nat) (cls : nat) (classes : list nat) : option (list nat) :=
  match fuel with
  | O => None
  | S fuel =>
      let classes := classes ++ bases cls in
      if Nat.eqb (last classes cls) cls then Some classes else climb bases fuel (last classes cls) classes
  end.
(** 367-380 *)
Definition class_tree (bases : nat -> list nat) (name : nat -> string) (fuel cls : nat) : option (list string) :=
  option_map (fun classes => map (fun c => lower (name c)) (rev classes)) (climb bases fuel cls [cls]).
