(** The buffered writing of TablesRecorder2: /repo/pywr/recorders/_tables_recorders.pyx:249-262 (setup), 380-424 (reset), 500-584
    (after, flush_buffer, finish).

    Every recorded quantity (flow, volume, their limits, parameter values and indices) is written in the same way, so this is the
    model of one array of the file.  A row, one per timestep, holds the values of all scenario combinations: any type [A]. *)
From Verif Require Import Base Ring.
Local Open Scope nat_scope.
Local Open Scope list_scope.

(** setup: the number of timesteps kept in memory.  [per_item] is `buffer_size * 1024 * 1024 / 8 / 3 // len(items)`, [combinations]
    the product of the scenario shape, [len] the number of timesteps. *)
Inductive buffering := Timesteps (b : Z) | Size (per_item : Z) | Unbuffered.
Definition buffer_steps (how : buffering) (combinations : Z) (len : nat) : Z :=
  match how with
  | Timesteps b => Z.min b (Z.of_nat len)
  | Size per_item => Z.min (Z.max 1 (per_item / combinations)) (Z.of_nat len)
  | Unbuffered => 1
  end%Z.

Section Array.
Context {A : Type}.

(** The array of the file and the buffer ([None] if a single timestep is to be kept). *)
Record tables := Tables { t_file : list A; t_buffer : option (list A); t_steps : nat }.

(** reset: new buffers, `np.empty`: their contents [junk] may be anything. *)
Definition tables_reset (t : tables) (junk : list A) : tables :=
  Tables (t_file t) (if 1 <? t_steps t then Some junk else None) (t_steps t).

(** `array[start:start + length rows] = rows`. *)
Fixpoint write (file : list A) (start : nat) (rows : list A) : list A :=
  match rows with [] => file | r :: rows => write (upd file start r) (S start) rows end.

(** flush_buffer(idx, num_timesteps) with [last = idx + 1]: rows [last - num .. last - 1].  [None]: a negative start (it can only
    come with an empty selection of rows). *)
Definition flush (t : tables) (last num : nat) : option tables :=
  match t_buffer t with
  | None => Some t
  | Some buffer => if last <? num then None else Some (Tables (write (t_file t) (last - num) (firstn num buffer)) (t_buffer t) (t_steps t))
  end.

(** after in timestep [idx] with the row [v]. *)
Definition tables_after (t : tables) (idx : nat) (v : A) : option tables :=
  match t_buffer t with
  | None => Some (Tables (upd (t_file t) idx v) None (t_steps t))
  | Some buffer =>
      let t := Tables (t_file t) (Some (upd buffer (idx mod t_steps t) v)) (t_steps t) in
      if (1 <? t_steps t) && (S idx mod t_steps t =? 0) then flush t (S idx) (t_steps t) else Some t
  end.

(** finish with the index of timestepper.current ([None]: there is no current timestep, AttributeError) and the number of timesteps. *)
Definition tables_finish (t : tables) (current : option nat) (len : nat) : option tables :=
  if 1 <? t_steps t then
    match current with
    | None => None
    | Some idx =>
        let residual := idx mod t_steps t in
        if 0 <? residual then flush t idx residual
        else if t_steps t =? len then flush t idx (t_steps t) else Some t
    end
  else Some t.

(** The timesteps [idx], [idx + 1], ... with these rows. *)
Fixpoint tables_steps (t : tables) (idx : nat) (rows : list A) : option tables :=
  match rows with
  | [] => Some t
  | v :: rows => match tables_after t idx v with Some t => tables_steps t (S idx) rows | None => None end
  end.

(** From reset to finish: the timesteps of [rows] were completed, [current] is the timestep then. *)
Definition tables_run (file junk : list A) (steps : nat) (rows : list A) (current : option nat) (len : nat) : option (list A) :=
  match tables_steps (tables_reset (Tables file None steps) junk) 0 rows with
  | None => None
  | Some t => option_map t_file (tables_finish t current len)
  end.
End Array.
