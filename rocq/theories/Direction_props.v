(** C126: objectives are optimised in the direction that is asked for. *)
From Coq Require Import Strings.String.
From Verif Require Import Base LP_model Constraints_model Documents_model Pygmo_model Direction_model.
Local Open Scope string_scope.
Local Open Scope list_scope.

Definition means_maximise (s : string) : Prop := s = "maximise" \/ s = "maximize" \/ s = "max".
Definition means_minimise (s : string) : Prop := s = "minimise" \/ s = "minimize" \/ s = "min".

(** C126: the six spellings are accepted and read back as "maximise" and "minimise", None as None; anything else is refused and changes nothing. *)
Theorem C126_spellings : forall d,
  (forall s, means_maximise s -> exists e, set_objective (Some s) d = (e, true) /\ get_objective e = Some "maximise")
  /\ (forall s, means_minimise s -> exists e, set_objective (Some s) d = (e, true) /\ get_objective e = Some "minimise")
  /\ (exists e, set_objective None d = (e, true) /\ get_objective e = None)
  /\ (forall s, ~ means_maximise s -> ~ means_minimise s -> set_objective (Some s) d = (d, false)).
Proof.
  intros d. split; [|split; [|split]].
  - intros s [-> |[-> | ->]]; eexists; split; reflexivity.
  - intros s [-> |[-> | ->]]; eexists; split; reflexivity.
  - eexists; split; reflexivity.
  - intros s N M. cbn [set_objective]. unfold directions. cbn [get].
    repeat (match goal with |- context [String.eqb ?a s] => destruct (String.eqb_spec a s) as [<-|] end;
      [exfalso; first [apply N; unfold means_maximise; tauto|apply M; unfold means_minimise; tauto]|]).
    reflexivity.
Qed.
Print Assumptions C126_spellings.

(** What is read can be set again and changes nothing. *)
Theorem C126_read_back : forall d e, set_objective (get_objective d) e = (d, true).
Proof. intros [] e; reflexivity. Qed.
Print Assumptions C126_read_back.

(** Values of opposite signs. *)
Inductive opposite : option ext -> option ext -> Prop :=
| opp_fin x y : x + y == 0 -> opposite (Some (Fin x)) (Some (Fin y))
| opp_pinf : opposite (Some PInf) (Some NInf)
| opp_ninf : opposite (Some NInf) (Some PInf)
| opp_nan : opposite None None.
(** A number to be minimised stands for a value that is to be optimised as a text says. *)
Definition stands_for (text : option string) (value entry : option ext) : Prop :=
  exists s, text = Some s /\ (means_minimise s /\ entry = value \/ means_maximise s /\ opposite value entry).
Definition text_of (g : option string * bounds * option ext) : option string := fst (fst g).

(** C126: an optimiser is given one number to minimise for each recorder made with a direction, in the order of the recorders: the value of one that is to
    be minimised, and its negative for one that is to be maximised. *)
Theorem C126_optimised : forall given rs, Forall2 (fun g r => made g = Some r) given rs ->
  Forall2 (fun g e => stands_for (text_of g) (snd g) e) (filter (fun g => match text_of g with None => false | Some _ => true end) given) (objectives rs).
Proof.
  intros given rs H. unfold objectives, objectives_of. induction H as [|[[text b] x] r given rs M _ IH]; [constructor|].
  unfold made in M. destruct text as [s|].
  - cbn [filter text_of fst]. unfold text_of in *. cbn [fst] in *.
    destruct (set_objective (Some s) NoDirection) as [d ok] eqn:E. destruct ok; [|discriminate]. assert (R : r = Recorder (objective_flag d) b x) by congruence. subst r. clear M.
    assert (D : means_maximise s /\ d = Maximise \/ means_minimise s /\ d = Minimise).
    { cbn [set_objective] in E. unfold directions in E. cbn [get] in E. unfold means_maximise, means_minimise.
      repeat (match type of E with context [String.eqb ?a s] => destruct (String.eqb_spec a s) as [<-|] end;
        [assert (d = Maximise \/ d = Minimise) by (injection E as <-; auto); injection E as <-; tauto|]). discriminate. }
    destruct D as [[Hs ->]|[Hs ->]]; cbn [filter r_objective objective_flag get_objective String.eqb Ascii.eqb Bool.eqb map]; constructor; try exact IH;
      cbn [r_value snd]; exists s; (split; [reflexivity|]).
    + right. split; [exact Hs|]. destruct x as [[|q|]|]; cbn; constructor. ring.
    + left. split; [exact Hs|]. reflexivity.
  - cbn [filter text_of fst]. cbn in M. assert (R : r = Recorder None b x) by congruence. subst r. exact IH.
Qed.
Print Assumptions C126_optimised.

(** One whose text is none of these is not made. *)
Theorem C126_not_made : forall s b x, ~ means_maximise s -> ~ means_minimise s -> made (Some s, b, x) = None.
Proof. intros s b x N M. unfold made. rewrite (proj2 (proj2 (proj2 (C126_spellings NoDirection))) s N M). reflexivity. Qed.
Print Assumptions C126_not_made.

Example optimised_example :
  exists rs, Forall2 (fun g r => made g = Some r)
    [(Some "min", Bounds NInf PInf, Some (Fin 3)); (None, Bounds NInf PInf, Some (Fin 4)); (Some "maximize", Bounds NInf PInf, Some (Fin 5))] rs
  /\ objectives rs = [Some (Fin 3); Some (Fin (-5))] /\ made (Some "Max", Bounds NInf PInf, None) = None.
Proof. eexists. split; [repeat (constructor; [reflexivity|]); constructor|]. split; reflexivity. Qed.
