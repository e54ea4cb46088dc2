(** What the recorders of HDF files write where: TablesRecorder (/repo/pywr/recorders/recorders.py:251-636) and TablesRecorder2
    (/repo/pywr/recorders/_tables_recorders.pyx:37-560).
    Simplifications:
    - nodes and parameters are numbered; which are in the model, by which names, and of which sort they are is arbitrary;
    - a file is the list of its arrays and tables by their paths; groups are there if something is in them.  Paths that do not begin with a slash or
      have empty parts are refused (PyTables refuses most of them, not all);
    - the values of all combinations of scenarios at one time are one row, of any type; those of TablesRecorder2 are written at once
      (area Tables: later, through its buffers);
    - the four dictionaries by sort of TablesRecorder2 are one: a thing is of one sort;
    - of the tables, only the indices in that of the times are modelled; attributes, filters and the opening of files are not. *)
From Coq Require Import Strings.Ascii Strings.String.
From Verif Require Import Base Ring.
Local Open Scope string_scope.
Local Open Scope nat_scope.
Local Open Scope list_scope.

Fixpoint all_some {A B} (f : A -> option B) (l : list A) : option (list B) :=
  match l with
  | [] => Some []
  | a :: l => match f a, all_some f l with Some b, Some r => Some (b :: r) | _, _ => None end
  end.

(** * Where things go *)

(** What there may be in the lists "nodes" and "parameters": names, nodes or parameters, sequences of such things or None. *)
Inductive atom := AText (s : string) | AObj (w : nat) | ANone.
Inductive item := IText (s : string) | IObj (w : nat) | ISeq (l : list atom).

(** `where, x = item`; [None]: TypeError or ValueError *)
Definition unpack (i : item) : option (atom * atom) :=
  match i with
  | IText (String a (String b EmptyString)) => Some (AText (String a EmptyString), AText (String b EmptyString))
  | ISeq [a; b] => Some (a, b)
  | _ => None
  end.
(** `.replace("//", "/")` *)
Fixpoint single_slashes (s : string) : string :=
  match s with
  | EmptyString => EmptyString
  | String a r =>
      match r with
      | String b r' => if Ascii.eqb a "/" && Ascii.eqb b "/" then String "/" (single_slashes r') else String a (single_slashes r)
      | EmptyString => String a EmptyString
      end
  end.
(** `.replace("/", "_")` *)
Fixpoint no_slashes (s : string) : string :=
  match s with EmptyString => EmptyString | String a r => String (if Ascii.eqb a "/" then "_"%char else a) (no_slashes r) end.

Section World.
(** The nodes of the model in order; those by name; what load_parameter gives for a name; the names of things. *)
Variable all_nodes : list nat.
Variable node : string -> option nat.
Variable par : string -> option nat.
Variable name_of : nat -> option string.

(** setup, recorders.py:433-448, _tables_recorders.pyx:218-233: one entry of "nodes" *)
Definition node_item (base : string) (i : item) : option (string * nat) :=
  match (match unpack i with
         | Some (AText w, n) => Some (w, n)
         | Some _ => None (* `where.replace` *)
         | None => match i with IText s => Some ((base ++ "/" ++ s)%string, AText s) | _ => None (* `self.where + "/" + node` *) end
         end) with
  | Some (w, AText s) => option_map (pair (single_slashes w)) (node s)
  | Some (w, AObj n) => Some (single_slashes w, n)
  | _ => None
  end.
(** 427-431: all nodes if none are given *)
Definition node_items (base : string) (nodes : option (list item)) : option (list (string * nat)) :=
  match nodes with
  | None => all_some (fun n => option_map (fun s => (single_slashes (base ++ "/" ++ s)%string, n)) (name_of n)) all_nodes
  | Some l => all_some (node_item base) l
  end.
(** _add_parameter, recorders.py:344-369, _tables_recorders.pyx:140-165 *)
Definition par_item (base : string) (i : item) : option (string * nat) :=
  let (w, p) := match unpack i with
                | Some wp => (fst wp, Some (snd wp))
                | None => (ANone, match i with IText s => Some (AText s) | IObj n => Some (AObj n) | ISeq _ => None end)
                end in
  match (match p with Some (AText s) => par s | Some (AObj n) => Some n | _ => None end) with
  | None => None
  | Some n =>
      match name_of n with
      | None | Some EmptyString => None
      | Some s => match w with
                  | ANone => Some (single_slashes (base ++ "/" ++ no_slashes s)%string, n)
                  | AText w => Some (single_slashes w, n)
                  | AObj _ => None
                  end
      end
  end.
(** setup, 450-451: the parameters come after the nodes *)
Definition all_items (base : string) (nodes : option (list item)) (pars : list item) : option (list (string * nat)) :=
  match node_items base nodes, all_some (par_item base) pars with Some l, Some m => Some (l ++ m) | _, _ => None end.
End World.

(** * Paths *)

(** `split("/")` *)
Fixpoint parts (s : string) : list string :=
  match s with
  | EmptyString => [EmptyString]
  | String a r => if Ascii.eqb a "/" then EmptyString :: parts r else match parts r with p :: ps => String a p :: ps | [] => [String a EmptyString] end
  end.
Definition nonempty (s : string) : bool := match s with EmptyString => false | _ => true end.
Definition path := list string.
(** Of an array or table. *)
Definition path_of (s : string) : option path :=
  match parts s with
  | EmptyString :: p :: ps => if forallb nonempty (p :: ps) then Some (p :: ps) else None
  | _ => None
  end.
(** Of a group: `if group_name == "": group_name = "/"` *)
Definition group_of (s : string) : option path := if String.eqb s "" || String.eqb s "/" then Some [] else path_of s.

Inductive class := First | Second.
Inductive sort := Storage | Flow | Index | Value.
(** _node_attribute: recorders.py:391-406, _tables_recorders.pyx:189-204; the names below the path and what is in the array *)
Definition columns (c : class) (s : sort) : list (path * string) :=
  match c, s with
  | First, Storage => [([], "volume")]
  | First, Flow => [([], "flow")]
  | First, Index => [([], "parameter-index")]
  | First, Value => [([], "parameter")]
  | Second, Storage => [(["max_volume"], "max_volume"); (["volume"], "volume"); (["min_volume"], "min_volume")]
  | Second, Flow => [(["max_flow"], "max_flow"); (["flow"], "flow"); (["min_flow"], "min_flow")]
  | Second, Index => [(["parameter_index"], "parameter_index")]
  | Second, Value => [(["parameter"], "parameter")]
  end.
Definition place_of (c : class) (s : string) : option path := match c with First => path_of s | Second => group_of s end.

(** What a recorder records where. *)
Definition collected (c : class) (all_nodes : list nat) (node par : string -> option nat) (name_of : nat -> option string)
    (base : string) (nodes : option (list item)) (pars : list item) : option (list (path * nat)) :=
  match all_items all_nodes node par name_of base nodes pars with
  | Some l => all_some (fun sw => option_map (fun p => (p, snd sw)) (place_of c (fst sw))) l
  | None => None
  end.

(** * Files *)

Definition path_eqb (p q : path) : bool := if list_eq_dec string_dec p q then true else false.
Fixpoint starts (p q : path) : bool :=
  match p, q with
  | [], _ => true
  | a :: p, b :: q => String.eqb a b && starts p q
  | _, [] => false
  end.
Section File.
Context {A : Type}.
Variable fill : A. (* of a new CArray: zero *)
Inductive content := Arr (rows : list A) | Times (idx : list nat) | Tab.
Definition file := list (path * content).
Fixpoint at_path (p : path) (f : file) : option content :=
  match f with [] => None | (q, x) :: f => if path_eqb p q then Some x else at_path p f end.
Fixpoint set_path (p : path) (x : content) (f : file) : file :=
  match f with [] => [] | (q, y) :: f => if path_eqb p q then (q, x) :: f else (q, y) :: set_path p x f end.
(** create_carray, create_table with createparents: not over or beneath anything that is there, and not where a group is *)
Definition create (p : path) (x : content) (f : file) : option file :=
  if existsb (fun qx => starts p (fst qx) || starts (fst qx) p) f then None else Some (f ++ [(p, x)]).
(** remove_node, whose NoSuchNodeError is caught; a group is not removed *)
Definition remove (p : path) (f : file) : option file :=
  match at_path p f with
  | Some _ => Some (filter (fun qx => negb (path_eqb p (fst qx))) f)
  | None => if existsb (fun qx => starts p (fst qx)) f then None else Some f
  end.
(** `array[idx, :] = row` *)
Definition write (p : path) (idx : nat) (row : A) (f : file) : option file :=
  match at_path p f with
  | Some (Arr l) => if idx <? List.length l then Some (set_path p (Arr (upd l idx row)) f) else None
  | _ => None
  end.

Fixpoint steps {B S} (g : B -> S -> option S) (l : list B) (s : S) : option S :=
  match l with [] => Some s | b :: l => match g b s with Some s => steps g l s | None => None end end.

Variable c : class.
Variable sort_of : nat -> sort.
(** setup: recorders.py:455-492, _tables_recorders.pyx:266-318; [n] timesteps; [scenarios]: None if no table is wanted *)
Definition new_arrays (n : nat) (pw : path * nat) : file -> option file :=
  steps (fun ca => create (fst pw ++ fst ca) (Arr (repeat fill n))) (columns c (sort_of (snd pw))).
Definition create_all (l : list path) : file -> option file := steps (fun p => create p Tab) l.
Definition setup (n : nat) (items : list (path * nat)) (scenarios : option path) (f : file) : option file :=
  match steps (new_arrays n) items f with
  | Some f => match scenarios with Some p => create p Tab f | None => Some f end
  | None => None
  end.
(** reset: `self._arrays[node] = get_node(where)`, recorders.py:553-555; the later one of two replaces the earlier *)
Fixpoint put_handle (w : nat) (p : path) (l : list (nat * path)) : list (nat * path) :=
  match l with [] => [(w, p)] | (w', p') :: l => if Nat.eqb w w' then (w', p) :: l else (w', p') :: put_handle w p l end.
Definition handles (items : list (path * nat)) : list (nat * path) := fold_left (fun h pw => put_handle (snd pw) (fst pw) h) items [].
(** reset: the tables of the times and of the routes and the array of the routes are made again, 557-620 *)
Definition renew (px : path * content) (f : file) : option file :=
  match remove (fst px) f with Some f => create (fst px) (snd px) f | None => None end.
Definition reset (times : option path) (others : list path) (f : file) : option file :=
  match (match times with Some p => renew (p, Times []) f | None => Some f end) with
  | Some f => steps (fun p => renew (p, Tab)) others f
  | None => None
  end.
(** after: recorders.py:639-685, _tables_recorders.pyx:509-569, in the timestep [idx]; [v]: what is recorded *)
Definition after (times : option path) (h : list (nat * path)) (v : nat -> nat -> string -> A) (idx : nat) (f : file) : option file :=
  match (match times with
         | Some p => match at_path p f with Some (Times l) => Some (set_path p (Times (l ++ [idx])) f) | _ => None end
         | None => Some f
         end) with
  | Some f => steps (fun wp => steps (fun ca => write (snd wp ++ fst ca) idx (v idx (fst wp) (snd ca))) (columns c (sort_of (fst wp)))) h f
  | None => None
  end.
(** A run of the model. *)
Definition run (items : list (path * nat)) (times : option path) (others : list path) (v : nat -> nat -> string -> A) (n : nat) (f : file) : option file :=
  match reset times others f with Some f => steps (after times (handles items) v) (seq 0 n) f | None => None end.
End File.
