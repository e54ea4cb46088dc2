(** Data for parameters from files, tables and the document: /repo/pywr/dataframe_tools.py:159-314 (load_dataframe, read_dataframe),
    /repo/pywr/parameters/_parameters.pyx:125-145 (Parameter.load), 180-189 (ConstantParameter.load), 218-223, 268-278
    (DataFrameParameter), 2276-2290 (get_parameter_from_registry), 2315-2323 (load_parameter), 2349-2385 (load_parameter_values);
    /repo/pywr/recorders/_recorders.pyx:1084-1101, 2236-2251; /repo/pywr/_model.pyx:398-405.

    What pandas does is modelled as documented: selecting by label gives the one matching row or column, or all of them if there
    are several, and KeyError if there are none.  Not modelled: parts of the labels of a MultiIndex, dates matched by a part of
    their text, numbers given as text, NaN, files that change while they are read. *)
From Coq Require Import Strings.Ascii Strings.String.
From Verif Require Import Base Documents_model.
Local Open Scope string_scope.
Local Open Scope nat_scope.
Local Open Scope list_scope.

(** * Labels *)

Inductive atom := Text (s : string) | Num (q : Q).
(** Labels of a MultiIndex have several parts, others one. *)
Definition label := list atom.
Definition atom_eqb (a b : atom) : bool :=
  match a, b with Text s, Text t => String.eqb s t | Num p, Num q => qeqb p q | _, _ => false end.
Fixpoint label_eqb (a b : label) : bool :=
  match a, b with
  | [], [] => true
  | x :: a, y :: b => atom_eqb x y && label_eqb a b
  | _, _ => false
  end.

(** The places of a label. *)
Fixpoint places_from (n : nat) (l : label) (ls : list label) : list nat :=
  match ls with [] => [] | x :: ls => if label_eqb x l then n :: places_from (S n) l ls else places_from (S n) l ls end.
Definition places := places_from 0.
(** The places of the labels of a list, in its order; [None] (KeyError) if one is missing. *)
Fixpoint places_all (wanted ls : list label) : option (list nat) :=
  match wanted with
  | [] => Some []
  | l :: wanted => match places l ls, places_all wanted ls with
                   | (_ :: _) as p, Some r => Some (p ++ r)
                   | _, _ => None
                   end
  end.
Definition pick {A} (d : A) (ps : list nat) (l : list A) : list A := map (fun i => nth i l d) ps.

(** * Data *)

(** [dated]: the index is a DatetimeIndex.  [cells]: row by row. *)
Inductive data :=
| Frame (dated : bool) (rows cols : list label) (cells : list (list Q))
| Series (dated : bool) (labels : list label) (values : list Q)
| Scalar (v : Q).

(** `df[column]`, dataframe_tools.py:182-186.  [None]: an exception. *)
Definition by_column (c : label) (df : data) : option data :=
  match df with
  | Frame d rows cols cells =>
      match places c cols with
      | [] => None
      | [j] => Some (Series d rows (map (fun r => nth j r 0%Q) cells))
      | js => Some (Frame d rows (pick [] js cols) (map (pick 0%Q js) cells))
      end
  | Series d ls vs =>
      match places c ls with
      | [] => None
      | [i] => Some (Scalar (nth i vs 0%Q))
      | is => Some (Series d (pick [] is ls) (pick 0%Q is vs))
      end
  | Scalar _ => None
  end.
(** `df[columns]`, 188-194: of a series the values with these labels. *)
Definition by_columns (cs : list label) (df : data) : option data :=
  match df with
  | Frame d rows cols cells =>
      match places_all cs cols with
      | None => None
      | Some js => Some (Frame d rows (pick [] js cols) (map (pick 0%Q js) cells))
      end
  | Series d ls vs =>
      match places_all cs ls with
      | None => None
      | Some is => Some (Series d (pick [] is ls) (pick 0%Q is vs))
      end
  | Scalar _ => None
  end.
(** `df.loc[index]`, 196-200. *)
Definition by_index (r : label) (df : data) : option data :=
  match df with
  | Frame d rows cols cells =>
      match places r rows with
      | [] => None
      | [i] => Some (Series false cols (nth i cells []))
      | is => Some (Frame d (pick [] is rows) cols (pick [] is cells))
      end
  | Series d ls vs =>
      match places r ls with
      | [] => None
      | [i] => Some (Scalar (nth i vs 0%Q))
      | is => Some (Series d (pick [] is ls) (pick 0%Q is vs))
      end
  | Scalar _ => None
  end.
(** `df.loc[indexes, :]`, 202-206: a series has too many indexers (IndexingError), a number no `loc`. *)
Definition by_indexes (rs : list label) (df : data) : option data :=
  match df with
  | Frame d rows cols cells =>
      match places_all rs rows with
      | None => None
      | Some is => Some (Frame d (pick [] is rows) cols (pick [] is cells))
      end
  | _ => None
  end.

(** The four keys. *)
Record selection := { s_column : option label; s_columns : option (list label); s_index : option label; s_indexes : option (list label) }.
Definition step {A} (by_ : A -> data -> option data) (o : option A) (df : option data) : option data :=
  match o, df with None, _ => df | Some a, Some df => by_ a df | Some _, None => None end.
(** 181-206 *)
Definition select (s : selection) (df : data) : option data :=
  step by_indexes (s_indexes s) (step by_index (s_index s) (step by_columns (s_columns s) (step by_column (s_column s) (Some df)))).

(** * The document *)

Definition pop (k : string) (d : dict json) : dict json := filter (fun kv => negb (String.eqb (fst kv) k)) d.
(** `data.pop(k, None)`: null is the same as nothing. *)
Definition given (k : string) (d : dict json) : option json :=
  match get k d with Some JNull => None | o => o end.
Definition present (k : string) (d : dict json) : bool := match get k d with Some _ => true | None => false end.
Definition truthy (o : option json) : bool :=
  match o with
  | None | Some JNull => false
  | Some (JNumber q) => negb (qeqb q 0)
  | Some (JString s) => negb (String.eqb s "")
  | Some (JList l) => match l with [] => false | _ => true end
  | Some (JDict l) => match l with [] => false | _ => true end
  end.

Definition to_atom (j : json) : option atom := match j with JString s => Some (Text s) | JNumber q => Some (Num q) | _ => None end.
Fixpoint all_some {A B} (f : A -> option B) (l : list A) : option (list B) :=
  match l with
  | [] => Some []
  | x :: l => match f x, all_some f l with Some y, Some r => Some (y :: r) | _, _ => None end
  end.
(** A list becomes a tuple (160-168). *)
Definition to_label (j : json) : option label :=
  match j with JList l => all_some to_atom l | _ => option_map (fun a => [a]) (to_atom j) end.
Definition to_labels (j : json) : option (list label) :=
  match j with JList l => all_some (fun j => option_map (fun a => [a]) (to_atom j)) l | _ => None end.
(** Outer [None]: something that cannot be a label (no such label: KeyError; or not hashable: TypeError). *)
Definition optional {B} (f : json -> option B) (o : option json) : option (option B) :=
  match o with None => Some None | Some j => option_map Some (f j) end.
Definition to_selection (d : dict json) : option selection :=
  match optional to_label (given "column" d), optional to_labels (given "columns" d),
        optional to_label (given "index" d), optional to_labels (given "indexes" d) with
  | Some a, Some b, Some c, Some e => Some {| s_column := a; s_columns := b; s_index := c; s_indexes := e |}
  | _, _, _, _ => None
  end.
Definition selection_keys := ["column"; "columns"; "index"; "indexes"].
Definition pop_all (ks : list string) (d : dict json) : dict json := fold_left (fun d k => pop k d) ks d.

(** * Reading *)

Inductive reader := Csv | Excel | Hdf | Embedded | Rds.
(** What happens outside: a checksum is compared, a file or the embedded data is read. *)
Inductive event := Check (url algorithm hash : string) | Read (r : reader) (source : json) (kwargs : dict json).

(** An outcome: what happened on the way, and the result with what is left of the document's entry, or [None] for an exception. *)
Definition outcome (A : Type) := (list event * option (A * dict json))%type.

(** `url.endswith(suffix)` *)
Definition ends_with (suffix s : string) : bool :=
  let n := String.length s in let m := String.length suffix in (m <=? n) && String.eqb (substring (n - m) m s) suffix.
(** 248-258 *)
Definition by_extension (url : string) : option reader :=
  if existsb (fun e => ends_with e url) [".xls"; ".xlsx"] then Some Excel
  else if existsb (fun e => ends_with e url) [".csv"; ".gz"] then Some Csv
  else if existsb (fun e => ends_with e url) [".hdf"; ".hdf5"; ".h5"] then Some Hdf
  else if existsb (fun e => ends_with e url) [".rds"; ".Rds"; ".rdata"; ".RData"] then Some Rds
  else None.
(** 245-247, 269-300; "dict" for a file fails as there is no embedded data. *)
Definition by_filetype (j : json) : option reader :=
  match j with
  | JString s => if String.eqb s "csv" then Some Csv else if String.eqb s "excel" then Some Excel
                 else if String.eqb s "hdf" then Some Hdf else if String.eqb s "rds" then Some Rds else None
  | _ => None
  end.
(** `os.path.isabs`, `os.path.join` *)
Definition is_abs (url : string) : bool := match url with String c _ => Ascii.eqb c "/"%char | EmptyString => false end.
Definition join (path url : string) : string :=
  if String.eqb path "" || ends_with "/" path then (path ++ url)%string else (path ++ "/" ++ url)%string.

Section World.
(** `model.path`, `model.tables`, whether a file has a checksum (C68), what is read ([None]: an exception; the bit: the index is of
    dtype "object"), and whether the frequency of dates is known or can be inferred. *)
Variable path : option string.
Variable tables : dict data.
Variable matches : string -> string -> string -> bool.
Variable read : reader -> json -> dict json -> option (data * bool).
Variable frequency : list label -> bool.

Definition resolve (url : string) : string :=
  match path with Some p => if is_abs url then url else join p url | None => url end.

(** 240-243; [false]: an exception. *)
Fixpoint check_all (url : string) (sums : list (string * json)) : list event * bool :=
  match sums with
  | [] => ([], true)
  | (algorithm, JString hash) :: sums =>
      if matches url algorithm hash then let (es, ok) := check_all url sums in (Check url algorithm hash :: es, ok)
      else ([Check url algorithm hash], false)
  | _ => ([], false)
  end.

(** 269-297: what the reader is called with, and what is left of the entry afterwards.  `pyreadr.read_r` takes no arguments: the
    entries used afterwards are given instead. *)
Definition arguments (r : reader) (d : dict json) : dict json * dict json :=
  match r with
  | Csv | Excel | Hdf => (d, match r with Hdf => pop "key" d | _ => d end)
  | Embedded => (d, pop "parse_dates" d)
  | Rds => (filter (fun kv => existsb (String.eqb (fst kv)) ["key"; "parse_dates"; "index_col"]) d, pop_all ["key"; "parse_dates"; "index_col"] d)
  end.
(** 267-314 *)
Definition read_with (r : reader) (source : json) (d : dict json) : outcome data :=
  let (kwargs, left_) := arguments r (pop "comment" d) in
  ([Read r source kwargs],
   match read r source kwargs with
   | None => None
   | Some (df, object_) => if object_ && truthy (get "parse_dates" left_) then None else Some (df, [])
   end).

(** read_dataframe *)
Definition read_dataframe (d : dict json) : outcome data :=
  match given "url" d with
  | Some (JString url) =>
      let url := resolve url in
      let d := pop "url" d in
      match (match get "checksum" d with None => Some [] | Some (JDict sums) => Some sums | Some _ => None end) with
      | None => ([], None)
      | Some sums =>
          let (es, ok) := check_all url sums in
          if negb ok then (es, None) else
          let d := pop "checksum" d in
          match (match get "filetype" d with Some t => by_filetype t | None => by_extension url end) with
          | None => (es, None)
          | Some r => let (es', res) := read_with r (JString url) (pop "filetype" d) in (es ++ es', res)
          end
      end
  | Some _ => ([], None)
  | None =>
      let d := pop "url" d in
      match given "data" d with
      | None => ([], None)
      | Some source =>
          if present "filetype" d || present "checksum" d then ([], None) else read_with Embedded source (pop "data" d)
      end
  end.

(** 208-221 *)
Definition check_dates (df : data) : option data :=
  match df with
  | Frame true rows _ _ => if frequency rows then Some df else None
  | Series true ls _ => if frequency ls then Some df else None
  | _ => Some df
  end.

(** load_dataframe *)
Definition load_dataframe (d : dict json) : outcome data :=
  let rest := pop_all selection_keys d in
  let finish (df : data) := match to_selection d with None => None | Some s => match select s df with None => None | Some df => check_dates df end end in
  match given "table" rest with
  | Some (JString name) =>
      ([], match get name tables with
           | None => None
           | Some df => match finish df with None => None | Some df => Some (df, pop "table" rest) end
           end)
  | Some _ => ([], None)
  | None =>
      match read_dataframe (pop "table" rest) with
      | (es, None) => (es, None)
      | (es, Some (df, rest)) => (es, match finish df with None => None | Some df => Some (df, rest) end)
      end
  end.

(** * Arrays *)

(** `shape` and the values in C order *)
Record array := Array { shape : list nat; flat : list Q }.
Definition squeeze (a : array) : array := Array (filter (fun n => negb (n =? 1)) (shape a)) (flat a).
Definition values_of (df : data) : array :=
  match df with
  | Frame _ rows cols cells => Array [List.length rows; List.length cols] (List.concat cells)
  | Series _ ls vs => Array [List.length ls] vs
  | Scalar v => Array [] [v]
  end.
(** `np.array(..., np.float64)`: numbers, or lists of arrays of the same shape. *)
Fixpoint shape_eqb (a b : list nat) : bool :=
  match a, b with [], [] => true | x :: a, y :: b => (x =? y) && shape_eqb a b | _, _ => false end.
Fixpoint to_array (j : json) : option array :=
  match j with
  | JNumber q => Some (Array [] [q])
  | JList l =>
      match (fix all (l : list json) : option (list array) :=
               match l with
               | [] => Some []
               | j :: l => match to_array j, all l with Some a, Some r => Some (a :: r) | _, _ => None end
               end) l with
      | None => None
      | Some [] => Some (Array [0] [])
      | Some (a :: r) =>
          if forallb (fun b => shape_eqb (shape b) (shape a)) r
          then Some (Array (S (List.length r) :: shape a) (List.concat (map flat (a :: r)))) else None
      end
  | _ => None
  end.

(** load_parameter_values with the default keys, _parameters.pyx:2349-2385 *)
Definition load_parameter_values (d : dict json) : outcome array :=
  match get "values" d with
  | Some j => ([], option_map (fun a => (a, pop "values" d)) (to_array j))
  | None =>
      if present "url" d || present "table" d then
        let (es, res) := load_dataframe d in (es, option_map (fun r => (squeeze (values_of (fst r)), snd r)) res)
      else ([], None)
  end.
(** `float(array)` *)
Definition to_float (a : array) : option Q := match flat a with [q] => Some q | _ => None end.

(** load_parameter for a dictionary without "type", 2315-2323 *)
Definition load_untyped (d : dict json) : list event * option Q :=
  let (es, res) := load_parameter_values (pop "tags" d) in
  (es, match res with Some (a, _) => to_float a | None => None end).

(** * Loading three kinds of parameters *)

(** What the class is called with besides the model, and the comment, tags and name that [Component.__init__] gets. *)
Record made := Made { m_values : array; m_kwargs : dict json; m_name : option json; m_comment : option json }.
(** `cls.load`; [d] is without "type" and "name" (2331-2335).  [None]: an exception. *)
(** Parameter.load without a scenario, 125-145. *)
Definition load_array_parameter (d : dict json) : list event * option made :=
  let (es, res) := load_parameter_values (pop "scenario" d) in
  (es, match res with
       | None => None
       | Some (a, rest) => Some (Made a (pop_all ["values"; "url"; "name"; "comment"] rest) (get "name" rest) None)
       end).
(** ConstantParameter.load, 180-187: the entries left are keyword arguments. *)
Definition load_constant_parameter (d : dict json) : list event * option made :=
  match get "value" d with
  | Some j => ([], match j with
                   | JNumber q => let rest := pop "value" d in Some (Made (Array [] [q]) (pop_all ["name"; "comment"] rest) (get "name" rest) (get "comment" rest))
                   | _ => None
                   end)
  | None =>
      let (es, res) := load_parameter_values d in
      (es, match res with
           | None => None
           | Some (a, rest) => match to_float a with
                               | None => None
                               | Some q => Some (Made (Array [] [q]) (pop_all ["name"; "comment"] rest) (get "name" rest) (get "comment" rest))
                               end
           end)
  end.
(** DataFrameParameter.load and __init__, 218-223 and 268-278, without a scenario: `super().__init__(model, *kwargs)` passes the keys
    of the entries left as positional arguments: name, comment, tags. *)
Definition load_dataframe_parameter (d : dict json) : list event * option (data * option string * option string) :=
  let (es, res) := load_dataframe (pop_all ["scenario"; "timestep_offset"] d) in
  (es, match res with
       | None => None
       | Some (df, rest) =>
           match map fst rest with
           | [] => Some (df, None, None)
           | [a] => Some (df, Some a, None)
           | [a; b] | [a; b; _] => Some (df, Some a, Some b)
           | _ => None
           end
       end).

(** FlowDurationCurveDeviationRecorder.load, _recorders.pyx:1092-1099: the target of one side. *)
Definition load_target (percentiles : json) (d : dict json) : outcome array := load_parameter_values (put "indexes" percentiles d).

(** load_from_dict: the section "tables", _model.pyx:398-405, one table after the other; on an exception those before it remain. *)
End World.

Section Tables.
Variable path : option string.
Variable matches : string -> string -> string -> bool.
Variable read : reader -> json -> dict json -> option (data * bool).
Variable frequency : list label -> bool.
Fixpoint load_tables (entries : list (string * dict json)) (tables : dict data) : option (dict data) :=
  match entries with
  | [] => Some tables
  | (name, d) :: entries =>
      match snd (load_dataframe path tables matches read frequency d) with
      | None => None
      | Some (df, _) => load_tables entries (put name df tables)
      end
  end.
End Tables.

(** * Names of classes *)

Definition lower_ascii (c : ascii) : ascii :=
  let n := nat_of_ascii c in if (65 <=? n) && (n <=? 90) then ascii_of_nat (n + 32) else c.
Fixpoint lower (s : string) : string := match s with EmptyString => EmptyString | String c s => String (lower_ascii c) (lower s) end.
(** `s.replace(word, "")`: every occurrence, from the left. *)
Fixpoint replace_empty (fuel : nat) (word s : string) : string :=
  match fuel with
  | O => s
  | S fuel => match s with
              | EmptyString => EmptyString
              | String c r => if prefix word s then replace_empty fuel word (substring (String.length word) (String.length s) s)
                              else String c (replace_empty fuel word r)
              end
  end.
(** `register`: the key is the name of the class in lower case, the class the value. *)
Definition register (name : string) (reg : dict string) : dict string := put (lower name) name reg.
(** get_parameter_from_registry: the result of `key.replace` (2283) is not used. *)
Definition parameter_class (reg : dict string) (typ : string) : option string :=
  let key := lower typ in
  match get key reg with
  | Some c => Some c
  | None => if ends_with "parameter" key then get key reg else get (key ++ "parameter")%string reg
  end.
(** load_recorder, 2238-2251 *)
Definition recorder_class (reg : dict string) (typ : string) : option string :=
  let key := lower typ in
  match get key reg with
  | Some c => Some c
  | None => if ends_with "recorder" key then get (replace_empty (String.length key) "recorder" key) reg else get (key ++ "recorder")%string reg
  end.
