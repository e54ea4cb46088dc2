(** Model of [pywr/hashes.py] 7-47 and [pywr/_model.pyx] 72, 927-928.

    The digest of an algorithm is an arbitrary function of the bytes (an argument of the definitions below); hexadecimal digests are strings.
    Reading a file cannot fail half-way. *)
From Verif Require Import Base.
From Coq Require Export Strings.String Strings.Ascii.
Local Open Scope nat_scope.
Local Open Scope list_scope.

Definition contents := list nat.
(** The files, by path. *)
Definition disk := string -> option contents.

(** hashes.py 11-13: [fh.read(chunk_size)] until it returns no bytes.  Bytes fed to [h.update], given the bytes not read yet; a negative
    [chunk_size] ([None] here) reads everything. *)
Definition read (chunk_size : option nat) (rest : contents) : contents * contents :=
  match chunk_size with None => (rest, []) | Some k => (firstn k rest, skipn k rest) end.
Fixpoint update_loop (fuel : nat) (chunk_size : option nat) (rest fed : contents) : contents :=
  match fuel with
  | O => fed
  | S fuel => let (chunk, rest') := read chunk_size rest in
              match chunk with [] => fed | _ => update_loop fuel chunk_size rest' (fed ++ chunk) end
  end.
(** hashes.py 7-15; [hexdigest] of all bytes fed (updating with one part after the other is the same as with both at once). *)
Definition compute_hash (digest : string -> contents -> string) (d : disk) (filename algorithm : string) (chunk_size : option nat) : option string :=
  match d filename with
  | None => None
  | Some data => Some (digest algorithm (update_loop (S (List.length data)) chunk_size data []))
  end.

(** [str.lower] on ASCII text. *)
Definition lower_char (c : ascii) : ascii :=
  let n := nat_of_ascii c in if (65 <=? n) && (n <=? 90) then ascii_of_nat (n + 32) else c.
Fixpoint lower (s : string) : string := match s with EmptyString => EmptyString | String c s => String (lower_char c) (lower s) end.

(** [cache[(filename, algorithm)]]. *)
Definition cache := list ((string * string) * string).
Definition cache_get (key : string * string) (c : cache) : option string :=
  option_map snd (find (fun e => String.eqb (fst (fst e)) (fst key) && String.eqb (snd (fst e)) (snd key)) c).

(** The cache of a new model. *)
Definition fresh : cache := [].

Inductive outcome := Accepted | Mismatch | Missing.

(** hashes.py 18-46. *)
Definition check_hash (digest : string -> contents -> string) (d : disk) (filename hash : string) (algorithm : string) (chunk_size : option nat) (c : option cache)
  : outcome * option cache :=
  let compute :=
    match compute_hash digest d filename algorithm chunk_size with
    | None => (Missing, c)
    | Some actual =>
        if negb (String.eqb (lower hash) (lower actual)) then (Mismatch, c)
        else (Accepted, option_map (cons ((filename, algorithm), actual)) c)
    end in
  match c with
  | None => compute
  | Some l => match cache_get (filename, algorithm) l with
              | Some h => if String.eqb (lower h) (lower hash) then (Accepted, c) else (Mismatch, c)
              | None => compute
              end
  end.

(** A model's checks ([Model.check_hash], whose cache starts empty) between changes of files by anyone. *)
Inductive event := Change (filename : string) (data : option contents) | Check (filename hash algorithm : string) (chunk_size : option nat).
Definition set_file (f : string) (data : option contents) (d : disk) : disk := fun g => if String.eqb g f then data else d g.
Definition happen (digest : string -> contents -> string) (e : event) (s : disk * cache) : outcome * (disk * cache) :=
  let (d, c) := s in
  match e with
  | Change f data => (Accepted, (set_file f data d, c))
  | Check f h a k => let (r, c') := check_hash digest d f h a k (Some c) in (r, (d, match c' with Some c' => c' | None => c end))
  end.
Definition run (digest : string -> contents -> string) (es : list event) (s : disk * cache) : disk * cache := fold_left (fun s e => snd (happen digest e s)) es s.
