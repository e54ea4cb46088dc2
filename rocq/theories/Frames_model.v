(** Data frames of results: /repo/pywr/_core.pyx:55-73 (names of ensembles), 190-200 (multiindex), /repo/pywr/recorders/_recorders.pyx:635-645, 1138-1148, 2034-2045 and alike (to_dataframe),
    /repo/pywr/_model.pyx:874-882, 1086-1099 (Model.to_dataframe, ModelResult.to_dataframe), /repo/pywr/recorders/recorders.py:409-520 (the tables of scenarios in the file), 650-730 (rows of the arrays,
    generate_dataframes), /repo/pywr/recorders/_tables_recorders.pyx:279-380, 640-683.

    pandas and numpy as documented: a frame needs as many labels as there are rows and columns, reshape keeps the order of the values (C order).  Not modelled: types of values. *)
From Coq Require Import Strings.Ascii Strings.String.
From Verif Require Import Base Documents_model Scenario_model.
Local Open Scope string_scope.
Local Open Scope nat_scope.
Local Open Scope list_scope.

(** * Names of ensembles *)

Inductive label := Number (z : Z) | Text (s : string).
Record named := Named { n_name : string; n_scenario : scenario; n_ensemble : option (list label) }.
(** 62-65 *)
Definition ensemble_names (s : named) : list label :=
  match n_ensemble s with None => map (fun i => Number (Z.of_nat i)) (seq 0 (Z.to_nat (sc_size (n_scenario s)))) | Some l => l end.
(** The constructor and the setter, 67-73; [None]: ValueError. *)
Definition mk_named (name : string) (size : Z) (sl : option pyslice) (names : option (list label)) : option named :=
  match mk_scenario size sl, names with
  | None, _ => None
  | Some sc, Some l => if Z.of_nat (List.length l) =? size then Some (Named name sc names) else None
  | Some sc, None => Some (Named name sc None)
  end%Z.

Definition collection_of (ss : list named) (user : option (list (list Z))) : collection := Coll (map n_scenario ss) user.
(** `[ensemble_names[n][i] for n, i in enumerate(scenario_index.indices)]` *)
Definition labels (ss : list named) (idx : list Z) : list label :=
  map (fun p => nth (Z.to_nat (snd p)) (ensemble_names (fst p)) (Text "")) (combine ss idx).
(** multiindex, 190-200 *)
Definition multiindex (ss : list named) (user : option (list (list Z))) : option (list (list label)) :=
  match ss with
  | [] => Some [[Number 0]]
  | _ => option_map (map (fun si => labels ss (indices si))) (get_combinations (collection_of ss user))
  end.

(** * Frames *)

Record frame (R L A : Type) := Frame { f_index : list R; f_columns : list L; f_cells : list (list A) }.
Arguments Frame {R L A}. Arguments f_index {R L A}. Arguments f_columns {R L A}. Arguments f_cells {R L A}.
(** `pandas.DataFrame(data, index, columns)`; [None]: ValueError, the shapes differ. *)
Definition mk_frame {R L A} (index : list R) (columns : list L) (cells : list (list A)) : option (frame R L A) :=
  if (List.length cells =? List.length index) && forallb (fun row => List.length row =? List.length columns) cells then Some (Frame index columns cells) else None.

(** to_dataframe: a row of [data] per label of [index], a value per combination. *)
Definition to_dataframe {R A} (ss : list named) (user : option (list (list Z))) (index : list R) (data : list (list A)) : option (frame R (list label) A) :=
  match multiindex ss user with None => None | Some columns => mk_frame index columns data end.

(** * Arrays of the file *)

Inductive nd (A : Type) := Cell (a : A) | Arr (l : list (nd A)).
Arguments Cell {A}. Arguments Arr {A}.
Definition size_of (sh : list nat) : nat := fold_right Nat.mul 1 sh.
Fixpoint chunks {A} (n size : nat) (l : list A) : list (list A) :=
  match n with 0 => [] | S n => firstn size l :: chunks n size (skipn size l) end.
(** `np.reshape(values, shape)`; [None]: ValueError. *)
Fixpoint reshape {A} (sh : list nat) (l : list A) : option (nd A) :=
  match sh with
  | [] => match l with [a] => Some (Cell a) | _ => None end
  | n :: sh => if List.length l =? n * size_of sh then option_map Arr (sequence (map (reshape sh) (chunks n (size_of sh) l))) else None
  end.
(** `data.reshape((-1,))` *)
Fixpoint flatten {A} (x : nd A) : list A := match x with Cell a => [a] | Arr l => flat_map flatten l end.

(** One array of a file: its path, and a row per timestep. *)
Definition array (A : Type) : Type := list string * list (nd A).
(** The rows that `after` writes (recorders.py:658-679): the values of all combinations in the shape of the scenarios. *)
Definition write_array {A} (ss : list named) (user : option (list (list Z))) (data : list (list A)) : option (list (nd A)) :=
  match shape (collection_of ss user) with
  | None => None
  | Some sh => sequence (map (reshape (map Z.to_nat sh)) data)
  end.
(** The flows of the routes, 673-679: for each route the values of all combinations. *)
Definition write_routes {A} (ss : list named) (user : option (list (list Z))) (routes : nat) (data : list (list A)) : option (list (nd A)) :=
  match shape (collection_of ss user) with
  | None => None
  | Some sh => sequence (map (reshape (routes :: map Z.to_nat sh)) data)
  end.

(** * Tables of the scenarios *)

Record tables := Tables { t_scenarios : list (string * Z); t_combinations : option (list (dict Z)); t_slices : option (list (string * (Z * Z * Z))) }.
(** 498-509: by the names of the scenarios. *)
Definition combination_row (ss : list named) (comb : list Z) : dict Z := fold_left (fun d p => put (n_name (fst p)) (snd p) d) (combine ss comb) [].
(** 527-536; [None]: TypeError, a bound of the slice is None. *)
Definition slice_row (s : named) : option (list (string * (Z * Z * Z))) :=
  match sc_slice (n_scenario s) with
  | None => Some []
  | Some sl => match sl_start sl, sl_stop sl with
               | Some a, Some b => Some [(n_name s, (a, b, match sl_step sl with Some k => if (k =? 0)%Z then 1%Z else k | None => 1%Z end))]
               | _, _ => None
               end
  end.
(** recorders.py:477-537 *)
Definition write_tables (ss : list named) (user : option (list (list Z))) : option tables :=
  let scs := map (fun s => (n_name s, sc_size (n_scenario s))) ss in
  match user with
  | Some u => Some (Tables scs (Some (map (combination_row ss) u)) None)
  | None =>
      if existsb (fun s => match sc_slice (n_scenario s) with Some _ => true | None => false end) ss
      then option_map (fun l => Tables scs None (Some (List.concat l))) (sequence (map slice_row ss))
      else Some (Tables scs None None)
  end.

(** * generate_dataframes *)

(** 712-719: every member of every scenario; a MultiIndex cannot be made of nothing (ValueError). *)
Definition product_columns (t : tables) : option (list (list Z)) :=
  match t_scenarios t with
  | [] => None
  | l => Some (product (map (fun p => map Z.of_nat (seq 0 (Z.to_nat (snd p)))) l))
  end.
(** `pandas.to_datetime({year, month, day})` of the table of the time *)
Definition date : Type := (Z * Z * Z)%type.
(** 721-726; the name is the last part of the path ([full]: TablesRecorder2, its last two parts). *)
Definition array_name (full : bool) (path : list string) : string :=
  match rev path with
  | [] => ""
  | [n] => if full then ("/." ++ n)%string else n                            (* the name of the root is "/" *)
  | n :: g :: _ => if full then (g ++ "." ++ n)%string else n
  end.
Definition frame_of {A} (index : list date) (t : tables) (rows : list (nd A)) : option (frame date (list Z) A) :=
  match product_columns t with None => None | Some columns => mk_frame index columns (map flatten rows) end.
(** What the loop yields, until one cannot be made. *)
Fixpoint generate {A} (full : bool) (index : list date) (t : tables) (arrays : list (array A)) : list (string * frame date (list Z) A) * bool :=
  match arrays with
  | [] => ([], true)
  | (path, rows) :: arrays =>
      match frame_of index t rows with
      | None => ([], false)
      | Some f => let (l, ok) := generate full index t arrays in ((array_name full path, f) :: l, ok)
      end
  end.

(** * Model.to_dataframe *)

Section Concat.
Context {R L A : Type}.
Variable eqb : R -> R -> bool.
(** The row with this label. *)
Fixpoint row_at (r : R) (index : list R) (cells : list (list A)) : option (list A) :=
  match index, cells with
  | x :: index, row :: cells => if eqb x r then Some row else row_at r index cells
  | _, _ => None
  end.
(** `pandas.concat(dfs, axis=1)` with the rows [union]: missing values (None here) where a frame does not have the row.  [None]: there is nothing to concatenate. *)
Definition row_of (union_row : R) (f : frame R L A) : list (option A) :=
  match row_at union_row (f_index f) (f_cells f) with Some row => map Some row | None => map (fun _ => None) (f_columns f) end.
Definition concat_frames (union : list R) (dfs : list (string * frame R L A)) : option (frame R (string * L) (option A)) :=
  match dfs with
  | [] => None
  | _ => Some (Frame union (flat_map (fun p => map (pair (fst p)) (f_columns (snd p))) dfs) (map (fun r => flat_map (fun p => row_of r (snd p)) dfs) union))
  end.
(** `{r.name: r.to_dataframe() for r in self.recorders}` *)
Definition model_frame (union : list R) (recorders : list (string * frame R L A)) : option (frame R (string * L) (option A)) :=
  concat_frames union (fold_left (fun d p => put (fst p) (snd p) d) recorders []).
End Concat.

(** * ModelResult.to_dataframe *)

(** Simplification: values are of any type, dictionaries apart. *)
Section Result.
Context {V : Type}.
Definition flattened (prefix : string) (d : dict V) (into : dict V) : dict V := fold_left (fun acc p => put (prefix ++ "." ++ fst p)%string (snd p) acc) d into.
Definition result_rows (plain : dict V) (settings stats : dict V) : dict V := flattened "solver_stats" stats (flattened "solver_settings" settings plain).
End Result.
