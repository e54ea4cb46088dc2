(** Reading the documents that a document includes: [pywr/_model.pyx] 218-268 (_load_includes, _load_py_include, _load_json_include), 202-212 and
    287-304 (loads, load), 345 (load_from_dict).
    Simplifications:
    - names of files are taken as they are: joined with the directory of the document (line 236) they name other files in the same way;
    - a python file runs without an exception or not; what else it does (it may register classes, say) is not modelled. *)
From Coq Require Import Strings.Ascii Strings.String.
From Verif Require Import Base Documents_model.
Local Open Scope string_scope.
Local Open Scope nat_scope.
Local Open Scope list_scope.

(** * os.path.splitext *)

Fixpoint hasb (c : ascii) (s : string) : bool := match s with EmptyString => false | String a r => Ascii.eqb a c || hasb c r end.
(** What follows the last slash. *)
Fixpoint base_name (s : string) : string :=
  match s with EmptyString => EmptyString | String a r => if hasb "/" r then base_name r else if Ascii.eqb a "/" then r else s end.
(** Dots at the beginning of the name begin no extension. *)
Fixpoint strip_dots (s : string) : string := match s with String a r => if Ascii.eqb a "." then strip_dots r else s | EmptyString => EmptyString end.
Fixpoint from_last_dot (s : string) : option string :=
  match s with
  | EmptyString => None
  | String a r => match from_last_dot r with Some x => Some x | None => if Ascii.eqb a "." then Some s else None end
  end.
Definition extension (s : string) : string := match from_last_dot (strip_dots (base_name s)) with Some x => x | None => EmptyString end.
(** `.lower()`, for ASCII *)
Definition lower_char (a : ascii) : ascii := let n := nat_of_ascii a in if (65 <=? n) && (n <=? 90) then ascii_of_nat (n + 32) else a.
Fixpoint lower (s : string) : string := match s with EmptyString => EmptyString | String a r => String (lower_char a) (lower r) end.

(** * Includes *)

(** JSON documents on the disk, by name, and which python files run without an exception. *)
Definition files := string -> option document.
Definition scripts := string -> bool.

(** What is merged for a file: the document, nothing for a python file; [None]: an exception (233-243). *)
Definition read_include (runs : scripts) (fs : files) (filename : string) : option document :=
  let ext := lower (extension filename) in
  if String.eqb ext ".json" then fs filename
  else if String.eqb ext ".py" then (if runs filename then Some [] else None)
  else None.

Inductive outcome := Ok (d : document) | Error | Unfinished.

(** _model.pyx 218-243 [_load_includes]: a loop over [data["includes"]] by position, because the list grows if an included document has
    includes itself.  [inc]: what is merged for a file. *)
Fixpoint load_includes (fuel pos : nat) (inc : files) (data : document) : outcome :=
  match get "includes" data with
  | None => Ok data
  | Some (JList l) =>
      match nth_error l pos with
      | None => Ok data
      | Some (JString filename) =>
          match inc filename with
          | None => Error
          | Some include =>
              match merge include data with
              | None => Error
              | Some data' => match fuel with O => Unfinished | S fuel => load_includes fuel (S pos) inc data' end
              end
          end
      | Some _ => Error
      end
  | Some _ => Error
  end.

Definition bind (o : outcome) (f : document -> outcome) : outcome := match o with Ok d => f d | Error => Error | Unfinished => Unfinished end.
(** The document from which [load_from_dict] builds the model, for [Model.load] with a dictionary (304 and 345)... *)
Definition load_dict (fuel : nat) (runs : scripts) (fs : files) (data : document) : outcome := load_includes fuel 0 (read_include runs fs) data.
(** ...and with a file (287-292, 202-212: includes are read in [loads] and again in [load_from_dict]). *)
Definition load_file (fuel : nat) (runs : scripts) (fs : files) (data : document) : outcome :=
  bind (load_includes fuel 0 (read_include runs fs) data) (load_includes fuel 0 (read_include runs fs)).
