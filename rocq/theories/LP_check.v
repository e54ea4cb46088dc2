(** Boolean test of feasibility, used by the examples and the counterexamples. *)
From Verif Require Import Base LP_model Sys_model RouteLP_model RouteLP_spec.
Open Scope Q_scope.

Definition ext_le_qb (e : ext) (q : Q) : bool := match e with NInf => true | Fin a => qleb a q | PInf => false end.
Definition q_le_extb (q : Q) (e : ext) : bool := match e with NInf => false | Fin a => qleb q a | PInf => true end.
Definition bounds_okb (t : rtype) (lb ub : ext) (v : Q) : bool :=
  match t with
  | FR => true
  | LO => ext_le_qb lb v
  | UP => q_le_extb v ub
  | DB => ext_le_qb lb v && q_le_extb v ub
  | FX => match lb with Fin q => qeqb v q | _ => false end
  end.
Definition feasible_check (P : lp) (x : nat -> Q) : bool :=
  forallb (fun c => qleb 0 (x c)) (seq 0 (lp_ncols P)) &&
  forallb (fun r => bounds_okb (r_type r) (r_lb r) (r_ub r) (row_value x r)) (lp_rows P).
Definition solved_check (triv : bool) (S : sys) (d : data) (x : nat -> Q) : bool :=
  match posed triv S d with Ok P => feasible_check P x | Err _ => false end.

Lemma bounds_okb_sound t lb ub v : bounds_okb t lb ub v = true -> bounds_ok t lb ub v.
Proof.
  unfold bounds_okb, bounds_ok, ext_le_qb, q_le_extb, ext_le_q, q_le_ext.
  destruct t, lb as [|a|], ub as [|b|]; try discriminate; try tauto; cbn [andb];
    repeat (match goal with |- context [qleb ?a ?b] => destruct (qlebP a b) | |- context [qeqb ?a ?b] => destruct (qeqbP a b) end);
    cbn [andb]; try discriminate; tauto.
Qed.

Lemma feasible_check_sound P x : feasible_check P x = true -> feasible P x.
Proof.
  unfold feasible_check. rewrite andb_true_iff, !forallb_forall. intros [H1 H2]. split.
  - intros c Hc. specialize (H1 c). destruct (qlebP 0 (x c)); [assumption|]. discriminate H1. apply in_seq. lia.
  - intros r Hr. apply bounds_okb_sound. now apply H2.
Qed.

Lemma solved_check_sound triv S d x : solved_check triv S d x = true -> solved triv S d x.
Proof.
  unfold solved_check. destruct (posed triv S d) as [P|] eqn:E; [|discriminate]. intros H. exists P. split; [exact E|].
  now apply feasible_check_sound.
Qed.

(** Boolean form of [wf_sys] for finite examples whose slots are listed for the nodes up to [b]. *)
Definition list_eqb (a b : list nat) : bool := if list_eq_dec Nat.eq_dec a b then true else false.
