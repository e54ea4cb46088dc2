(** Model of the names that recorders have which are given none: [pywr/recorders/_recorders.pyx] 224-226 (Recorder), 459-463 (NodeRecorder),
    480-484 (StorageRecorder), 511-515 (ParameterRecorder), 548-552 (IndexParameterRecorder); `name` as checked in [pywr/_component.pyx] 97-102 (Names_model.v).
    The other classes leave the name to one of these. `lower` is that of ASCII texts. *)
From Coq Require Import Strings.Ascii Strings.String.
From Verif Require Import Base Names_model.
From Verif Require Hash_model.
Local Open Scope string_scope.
Local Open Scope list_scope.

(** What a recorder is on: nothing, a node or storage, or a parameter, whose name may be None; objects are numbered. *)
Inductive target := OnNothing | OnNode (id : nat) (name : string) | OnParameter (id : nat) (name : option string).

(** `"{}".format(name)` *)
Definition formatted (name : option string) : string := match name with Some s => s | None => "None" end.

Record recorder := Recorder { r_class : string; r_target : target; r_name : option string }.

Definition recorder_name (r : recorder) : string :=
  match r_name r with
  | Some n => n
  | None => match r_target r with
            | OnNothing => Hash_model.lower (r_class r)
            | OnNode _ n => Hash_model.lower (r_class r) ++ "." ++ n
            | OnParameter _ p => Hash_model.lower (r_class r) ++ "." ++ formatted p
            end
  end%string.

(** Recorders made one after the other: whether each was made, and the components of the model afterwards. *)
Fixpoint create_all (recs : list recorder) (l : list component) : list bool * list component :=
  match recs with
  | [] => ([], l)
  | r :: rest => let '(made, l1) := create_component (Some (recorder_name r)) true l in
                 let '(all, l2) := create_all rest l1 in (made :: all, l2)
  end.
