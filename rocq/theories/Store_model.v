(** The file of a table recorder: H5Store, /repo/pywr/h5tools.py:5-62, as TablesRecorder uses it (/repo/pywr/recorders/recorders.py:421-428, 545-551, 679-685,
    699) and TablesRecorder2 (/repo/pywr/recorders/_tables_recorders.pyx:217-224, 379-385, 616-637).
    Handles are numbered in the order of their opening, and [w_open] holds those open on the one path in question with their modes.
    Simplifications: the file exists and can be opened; what the recorder writes between opening and the end of setup() does not raise; an object that nothing
    refers to is deleted at once, as CPython does. Which handles can be open together is PyTables' rule (tables.open_file), assumed as in [compatible]. *)
From Verif Require Import Base.

Inductive mode := MR | MPlus | MA | MW.
Record world := { w_open : list (nat * mode); w_next : nat }.
(** What the recorder was given: a path, or an open tables.File. *)
Inductive source := Path | File (h : nat).
(** h5tools.py:15-49: `file` and `_opened`. *)
Record store := { st_file : nat; st_opened : bool }.

(** tables.open_file: a mode asked for beside one that is open. *)
Definition compatible (m o : mode) : bool :=
  match m, o with
  | MR, MR => true
  | MR, _ => false
  | (MA | MPlus), MR => false
  | (MA | MPlus), _ => true
  | MW, _ => false
  end.
Definition is_open (h : nat) (w : world) : bool := existsb (fun p => Nat.eqb (fst p) h) (w_open w).
Definition close (h : nat) (w : world) : world :=
  {| w_open := filter (fun p => negb (Nat.eqb (fst p) h)) (w_open w); w_next := w_next w |}.

(** h5tools.py:15-54; [None] is an exception (of open_file, or of the assertion in line 47). *)
Definition new_store (src : source) (m : mode) (w : world) : option (store * world) :=
  match src with
  | Path => if forallb (fun p => compatible m (snd p)) (w_open w)
            then Some ({| st_file := w_next w; st_opened := true |}, {| w_open := (w_next w, m) :: w_open w; w_next := S (w_next w) |})
            else None
  | File h => if is_open h w then Some ({| st_file := h; st_opened := false |}, w) else None
  end.
(** h5tools.py:60-62 `__del__`; of no store at all for [None]. *)
Definition drop (s : option store) (w : world) : world :=
  match s with
  | Some s => if st_opened s && is_open (st_file s) w then close (st_file s) w else w
  | None => w
  end.

(** What happens to the recorder, and its user closing a handle of their own. *)
Inductive event := Setup | Reset | Finish | UserClose (h : nat).
(** One event: `h5store`, the world, and whether it went without an exception. The new store is made before the old one is let go. *)
Definition handle (src : source) (m : mode) (e : event) (s : option store) (w : world) : option store * world * bool :=
  match e with
  | Setup => match new_store src m w with
             | Some (n, w1) => (None, drop (Some n) (drop s w1), true)
             | None => (s, w, false)
             end
  | Reset => match new_store src MPlus w with
             | Some (n, w1) => (Some n, drop s w1, true)
             | None => (s, w, false)
             end
  | Finish => (None, drop s w, true)
  | UserClose h => (s, close h w, true)
  end.
Fixpoint history (src : source) (m : mode) (es : list event) (s : option store) (w : world) : option store * world * list bool :=
  match es with
  | [] => (s, w, [])
  | e :: r => let '(s1, w1, ok) := handle src m e s w in let '(s2, w2, oks) := history src m r s1 w1 in (s2, w2, ok :: oks)
  end.
