(** What TablesRecorder and CSVRecorder write: /repo/pywr/recorders/recorders.py:113-225 and 231-727.

    Paths of the file are absolute, a sequence of names.  Groups exist where an array or table is below them.  PyTables refuses the
    empty name and others ([refused]); it refuses to create something where there is something already (an array, a table or a group)
    and to use an array or table as a group.  Not modelled: attributes, compression, the arrays and the table of the routes. *)
From Coq Require Import Ascii String.
From Verif Require Import Base Ring.
Local Open Scope nat_scope.
Local Open Scope list_scope.

Notation name := (list ascii).
Definition str (s : string) : name := list_ascii_of_string s.
Definition slash : ascii := "/"%char.
Definition is_slash (c : ascii) : bool := if ascii_dec c slash then true else false.
Definition name_eqb (a b : name) : bool := if list_eq_dec ascii_dec a b then true else false.
Definition path := list name.
Definition path_eqb (a b : path) : bool := if list_eq_dec (list_eq_dec ascii_dec) a b then true else false.

(** `where.replace("//", "/")`. *)
Fixpoint replace2 (s : name) : name :=
  match s with
  | [] => []
  | a :: t => match t with
              | [] => [a]
              | b :: r => if is_slash a && is_slash b then slash :: replace2 r else a :: replace2 t
              end
  end.
(** `name.replace("/", "_")`. *)
Definition underscored (s : name) : name := map (fun c => if is_slash c then "_"%char else c) s.

(** `where.split("/")`: never empty. *)
Fixpoint split (s : name) : list name :=
  match s with
  | [] => [[]]
  | a :: t => if is_slash a then [] :: split t
              else match split t with w :: ws => (a :: w) :: ws | [] => [[a]] end
  end.

Section Recorder.
(** Names that PyTables refuses besides the empty one. *)
Variable refused : name -> bool.

(** `group_name, node_name = where.rsplit("/", 1)` with the group's path split by PyTables: everything after the first "/".  A path that
    does not begin with "/" is refused by `rsplit` if it has none, else when the node is got back in `reset`. *)
Definition path_of (w : name) : option path :=
  match split w with
  | [] :: p => if forallb (fun n => negb (name_eqb n []) && negb (refused n)) p then match p with [] => None | _ => Some p end else None
  | _ => None
  end.

(** * What is to be recorded: setup, recorders.py:425-452, and _add_parameter, 332-356 *)

(** An entry of `nodes` or `parameters`: a string, an object (a node or parameter), or a pair of a path and one of these. *)
Inductive item := Named (n : name) | Object (o : nat) | At (w : name) (n : name) | ObjectAt (w : name) (o : nat).

(** `where, node = n` takes a string of two characters apart. *)
Definition unpack (i : item) : item := match i with Named [a; b] => At [a] [b] | _ => i end.

(** A node: the default path is made from the entry itself, so it has to be a string.  [find] is the look-up by name. *)
Definition node_item (where_ : name) (find : name -> option nat) (i : item) : option (name * nat) :=
  match unpack i with
  | Named n => option_map (pair (replace2 (where_ ++ [slash] ++ n))) (find n)
  | Object _ => None
  | At w n => option_map (pair (replace2 w)) (find n)
  | ObjectAt w o => Some (replace2 w, o)
  end.

(** A parameter: the default path is made from its name, without "/".  It must have one. *)
Definition parameter_item (where_ : name) (find : name -> option nat) (name_of : nat -> name) (i : item) : option (name * nat) :=
  let at_default o := if name_eqb (name_of o) [] then None else Some (replace2 (where_ ++ [slash] ++ underscored (name_of o)), o) in
  let at_path w o := if name_eqb (name_of o) [] then None else Some (replace2 w, o) in
  match unpack i with
  | Named n => match find n with Some o => at_default o | None => None end
  | Object o => at_default o
  | At w n => match find n with Some o => at_path w o | None => None end
  | ObjectAt w o => at_path w o
  end.

(** * The file *)

Context {A : Type}.
Inductive leaf := Array (rows : list A) | Time (indices : list nat) | Other.
Definition file := list (path * leaf).
Definition look (f : file) (p : path) : option leaf := option_map snd (find (fun e => path_eqb (fst e) p) f).
Definition put (f : file) (p : path) (l : leaf) : file := map (fun e => if path_eqb (fst e) p then (p, l) else e) f.

Fixpoint prefix (a b : path) : bool :=
  match a, b with [] , _ => true | x :: a, y :: b => name_eqb x y && prefix a b | _, [] => false end.
(** [create_carray], [create_table] with `createparents`. *)
Definition create (f : file) (p : path) (l : leaf) : option file :=
  if existsb (fun e => prefix (fst e) p || prefix p (fst e)) f then None else Some (f ++ [(p, l)]).
(** [remove_node], not recursive; nothing happens where there is nothing. *)
Definition remove (f : file) (p : path) : option file :=
  match look f p with
  | Some _ => Some (filter (fun e => negb (path_eqb (fst e) p)) f)
  | None => if existsb (fun e => prefix p (fst e)) f then None else Some f
  end.

(** * setup, reset, after *)

(** The tables of the scenarios: the one asked for and, beside it, the one of the user's combinations or slices, if any. *)
Record options := Options { o_time : option name; o_scenarios : option name; o_beside : option name }.

Fixpoint create_arrays (f : file) (zeros : list A) (items : list (name * nat)) : option file :=
  match items with
  | [] => Some f
  | (w, _) :: items =>
      match path_of w with
      | None => None
      | Some p => match create f p (Array zeros) with Some f => create_arrays f zeros items | None => None end
      end
  end.

Definition create_at (f : file) (w : option name) (l : leaf) : option file :=
  match w with
  | None => Some f
  | Some w => match path_of w with Some p => create f p l | None => None end
  end.
Definition beside (w x : name) : name :=
  match rev (split w) with _ :: group => concat (map (fun n => n ++ [slash]) (rev group)) ++ x | [] => x end.

Definition results_setup (o : options) (zeros : list A) (items : list (name * nat)) : option file :=
  match create_arrays [] zeros items with
  | None => None
  | Some f =>
      match create_at f (o_scenarios o) Other with
      | None => None
      | Some f => create_at f (match o_scenarios o, o_beside o with Some w, Some x => Some (beside w x) | _, _ => None end) Other
      end
  end.

(** `self._arrays[node] = ...`: one entry per object. *)
Fixpoint set_array (arrays : list (nat * path)) (o : nat) (p : path) : list (nat * path) :=
  match arrays with
  | [] => [(o, p)]
  | (o', p') :: arrays => if o' =? o then (o, p) :: arrays else (o', p') :: set_array arrays o p
  end.
Fixpoint get_arrays (f : file) (items : list (name * nat)) (arrays : list (nat * path)) : option (list (nat * path)) :=
  match items with
  | [] => Some arrays
  | (w, o) :: items =>
      match path_of w with
      | None => None
      | Some p => match look f p with Some _ => get_arrays f items (set_array arrays o p) | None => None end
      end
  end.

Definition results_reset (o : options) (items : list (name * nat)) (f : file) : option (file * list (nat * path)) :=
  match get_arrays f items [] with
  | None => None
  | Some arrays =>
      match o_time o with
      | None => Some (f, arrays)
      | Some w => match path_of w with
                  | None => None
                  | Some p => match remove f p with
                              | None => None
                              | Some f => option_map (fun f => (f, arrays)) (create f p (Time []))
                              end
                  end
      end
  end.

(** The row that is written for an object: by its type, in this order. *)
Inductive kind := KStorage | KNode | KIndexParameter | KParameter | KUnknown.
Record readings := Readings { volume : nat -> A; flow : nat -> A; index : nat -> A; value : nat -> A }.
Definition reading (kind_of : nat -> kind) (r : readings) (o : nat) : option A :=
  match kind_of o with
  | KStorage => Some (volume r o)
  | KNode => Some (flow r o)
  | KIndexParameter => Some (index r o)
  | KParameter => Some (value r o)
  | KUnknown => None
  end.

Definition write_row (f : file) (p : path) (idx : nat) (v : A) : option file :=
  match look f p with Some (Array rows) => Some (put f p (Array (upd rows idx v))) | _ => None end.
Fixpoint write_rows (kind_of : nat -> kind) (r : readings) (f : file) (idx : nat) (arrays : list (nat * path)) : option file :=
  match arrays with
  | [] => Some f
  | (o, p) :: arrays =>
      match reading kind_of r o with
      | None => None
      | Some v => match write_row f p idx v with Some f => write_rows kind_of r f idx arrays | None => None end
      end
  end.
Definition results_after (o : options) (kind_of : nat -> kind) (f : file) (arrays : list (nat * path)) (idx : nat) (r : readings) : option file :=
  match (match o_time o with
         | None => Some f
         | Some w => match path_of w with
                     | Some p => match look f p with Some (Time l) => Some (put f p (Time (l ++ [idx]))) | _ => None end
                     | None => None
                     end
         end) with
  | None => None
  | Some f => write_rows kind_of r f idx arrays
  end.

Fixpoint results_steps (o : options) (kind_of : nat -> kind) (f : file) (arrays : list (nat * path)) (idx : nat) (rs : list readings) : option file :=
  match rs with
  | [] => Some f
  | r :: rs => match results_after o kind_of f arrays idx r with Some f => results_steps o kind_of f arrays (S idx) rs | None => None end
  end.

(** A run on a file that has been set up, with the readings of its timesteps. *)
Definition results_run (o : options) (kind_of : nat -> kind) (items : list (name * nat)) (f : file) (rs : list readings) : option file :=
  match results_reset o items f with
  | None => None
  | Some (f, arrays) => results_steps o kind_of f arrays 0 rs
  end.
Definition results (o : options) (kind_of : nat -> kind) (zero : A) (items : list (name * nat)) (rs : list readings) : option file :=
  match results_setup o (repeat zero (List.length rs)) items with
  | None => None
  | Some f => results_run o kind_of items f rs
  end.

(** * CSVRecorder *)

(** The header and one line per timestep, written afresh in every run; [None]: a name that is not of the model. *)
Definition csv_names (nodes : option (list name)) (sorted : list name) : list name := match nodes with None => sorted | Some l => l end.
Fixpoint csv_line (find : name -> option nat) (kind_of : nat -> kind) (r : readings) (names : list name) : option (list A) :=
  match names with
  | [] => Some []
  | n :: names =>
      match find n with
      | None => None
      | Some o => match kind_of o with
                  | KStorage => option_map (cons (volume r o)) (csv_line find kind_of r names)
                  | KNode => option_map (cons (flow r o)) (csv_line find kind_of r names)
                  | _ => None
                  end
      end
  end.
Fixpoint csv_lines (find : name -> option nat) (kind_of : nat -> kind) (names : list name) (rs : list readings) : option (list (list A)) :=
  match rs with
  | [] => Some []
  | r :: rs => match csv_line find kind_of r names with
               | Some l => option_map (cons l) (csv_lines find kind_of names rs)
               | None => None
               end
  end.
End Recorder.
