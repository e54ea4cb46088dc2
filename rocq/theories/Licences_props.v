(** Properties C45, C46: licences. *)
From Verif Require Import Base Calendar_spec Licences_model Licences_spec Licences_proofs.
From Coq Require Import Qround.
Local Open Scope Q_scope.

(** ** C45.  A node that takes no more than the licence offers takes no more than the amount in a calendar year, if the
    first timestep of the year starts at midnight (or is the first of the run). *)
Theorem C45_never_exceeded : forall amount licence y pre s post,
  let steps := pre ++ s :: post in
  consecutive steps -> starts_in y s -> Forall (fun q => s_time q < year_start y) pre ->
  (pre = [] \/ exists n : Z, s_time s == inject_Z n) ->
  complies steps (annual_run amount (annual_reset amount licence) 0 steps) ->
  year_volume y steps <= amount.
Proof.
  intros amount licence y pre s post steps C S F M K. unfold steps in *. clear steps.
  destruct pre as [|x pre].
  - cbn [app] in *. apply (volume_first_year amount y s post (annual_reset amount licence)); [reflexivity|exact C|exact S|exact K].
  - destruct M as [M|[n M]]; [discriminate|].
    destruct (exists_last (l := x :: pre) ltac:(discriminate)) as [pre' [q E]]. rewrite E in *. rewrite <- app_assoc in *.
    cbn [app] in *. apply (volume_from_before amount y post s pre' q (annual_reset amount licence) 0 C F S); [|exact K].
    rewrite M, Qfloor_Z. reflexivity.
Qed.
Print Assumptions C45_never_exceeded.

(** With timesteps of whole days: every year in which a timestep starts. *)
Theorem C45_whole_days : forall amount licence y steps,
  consecutive steps -> (forall s, In s steps -> exists n : Z, s_time s == inject_Z n) ->
  (exists s, In s steps /\ starts_in y s) ->
  complies steps (annual_run amount (annual_reset amount licence) 0 steps) ->
  year_volume y steps <= amount.
Proof.
  intros amount licence y steps C W [x [I S]] K.
  destruct (first_in_year y steps x C I S) as [pre [s [post [-> [S' F]]]]].
  apply (C45_never_exceeded amount licence y pre s post C S' F); [right|exact K].
  apply W. apply in_or_app. right. left. reflexivity.
Qed.
Print Assumptions C45_whole_days.

(** Nothing is carried over: from the start of a year on, the offers do not depend on what happened in the years before. *)
Theorem C45_not_carried_over : forall amount licence licence' y pre pre' s post,
  s_time s == year_start y -> pre <> [] -> pre' <> [] ->
  Forall (fun q => s_time q < year_start y) pre -> Forall (fun q => s_time q < year_start y) pre' ->
  Forall2 Qeq
    (skipn (length pre) (annual_run amount (annual_reset amount licence) 0 (pre ++ s :: post)))
    (skipn (length pre') (annual_run amount (annual_reset amount licence') 0 (pre' ++ s :: post))).
Proof.
  intros amount licence licence' y pre pre' s post T N N' F F'. rewrite !annual_run_app.
  rewrite <- (annual_run_length amount pre (annual_reset amount licence) 0) at 1.
  rewrite <- (annual_run_length amount pre' (annual_reset amount licence') 0) at 1.
  rewrite !skipn_app, !skipn_all, !Nat.sub_diag. cbn [app]. rewrite !skipn_O.
  apply (fresh_year amount y s post); [exact T| |]; apply annual_state_year; assumption.
Qed.
Print Assumptions C45_not_carried_over.

(** Timesteps of 18 hours, the first from 31 December 2015 18:00: the half day of it in 2016 is not charged. *)
Definition c45_steps : list step :=
  {| s_time := inject_Z (day_number (Date 2015 12 31)) + (3#4); s_days := 3#4; s_flow := 366 |} ::
  map (fun k => {| s_time := inject_Z (day_number (Date 2016 1 1)) + (1#2) + (3#4) * inject_Z (Z.of_nat k); s_days := 3#4; s_flow := 9#10 |}) (seq 0 290).
Fixpoint consecutiveb (steps : list step) : bool :=
  match steps with
  | s :: ((s' :: _) as r) => qltb 0 (s_days s) && qeqb (s_time s') (s_time s + s_days s) && consecutiveb r
  | [s] => qltb 0 (s_days s)
  | [] => true
  end.
Lemma consecutiveb_ok steps : consecutiveb steps = true -> consecutive steps.
Proof.
  induction steps as [|s [|s' r] IH]; cbn [consecutiveb consecutive]; intros H; [exact I| |].
  - destruct (qltbP 0 (s_days s)); [assumption|discriminate].
  - apply andb_prop in H. destruct H as [H H2]. apply andb_prop in H. destruct H as [H H1].
    destruct (qltbP 0 (s_days s)); [|discriminate]. destruct (qeqbP (s_time s') (s_time s + s_days s)); [|discriminate].
    split; [assumption|split; [assumption|apply IH; exact H2]].
Qed.
Fixpoint compliesb (steps : list step) (offered : list Q) : bool :=
  match steps, offered with
  | s :: r, v :: w => qleb 0 (s_flow s) && qleb (s_flow s) v && compliesb r w
  | [], [] => true
  | _, _ => false
  end.
Lemma compliesb_ok : forall steps offered, compliesb steps offered = true -> complies steps offered.
Proof.
  induction steps as [|s r IH]; intros [|v w] H; cbn in H; try discriminate; [constructor|].
  apply andb_prop in H. destruct H as [H H2]. apply andb_prop in H. destruct H as [H H1].
  destruct (qlebP 0 (s_flow s)); [|discriminate]. destruct (qlebP (s_flow s) v); [|discriminate].
  constructor; [split; assumption|apply IH; exact H2].
Qed.

Theorem C45_part_days_refuted : exists amount licence y steps,
  consecutive steps /\ (exists s, In s steps /\ starts_in y s) /\
  complies steps (annual_run amount (annual_reset amount licence) 0 steps) /\
  amount < year_volume y steps.
Proof.
  exists 366, {| l_remaining := 0; l_prev_year := None |}, 2016%Z, c45_steps.
  split; [apply consecutiveb_ok; vm_compute; reflexivity|]. split; [|split].
  - eexists. split; [right; left; reflexivity|]. vm_compute. split; [discriminate|reflexivity].
  - apply compliesb_ok. vm_compute. reflexivity.
  - vm_compute. reflexivity.
Qed.
Print Assumptions C45_part_days_refuted.

(** Weekly timesteps over a year's end: the licence is used up each year. *)
Definition weekly_steps : list step :=
  [{| s_time := inject_Z (day_number (Date 2014 12 29)); s_days := 7; s_flow := 10 |};
   {| s_time := inject_Z (day_number (Date 2015 1 5)); s_days := 355; s_flow := 0 |};
   {| s_time := inject_Z (day_number (Date 2015 12 26)); s_days := 6; s_flow := 30 |};
   {| s_time := inject_Z (day_number (Date 2016 1 1)); s_days := 1; s_flow := 1 |}].
Example C45_example :
  complies weekly_steps (annual_run 366 (annual_reset 366 {| l_remaining := 0; l_prev_year := None |}) 0 weekly_steps) /\
  consecutive weekly_steps /\ year_volume 2015 weekly_steps == 220 /\
  map Qred (annual_run 366 (annual_reset 366 {| l_remaining := 0; l_prev_year := None |}) 0 weekly_steps) = [122; 326 # 361; 163 # 3; 1].
Proof.
  split; [apply compliesb_ok; vm_compute; reflexivity|]. split; [apply consecutiveb_ok; vm_compute; reflexivity|].
  split; vm_compute; reflexivity.
Qed.

(** ** C46.  Storage licence: always between 0 and the amount. *)
Theorem C46_storage_licence : forall amount steps, 0 <= amount ->
  (forall s, In s steps -> 0 <= s_flow s /\ 0 <= s_days s) ->
  forall v, In v (storage_run (storage_reset amount) steps) -> 0 <= storage_value v <= amount.
Proof. intros amount steps A F v H. refine (storage_run_bounds amount steps _ A _ F v H). unfold storage_reset. lra. Qed.
Print Assumptions C46_storage_licence.

(** Annual licence: never above the amount. *)
Theorem C46_annual_not_above : forall amount licence steps, 0 <= amount ->
  (forall s, In s steps -> 0 <= s_flow s /\ 0 <= s_days s) ->
  forall v, In v (annual_remaining amount (annual_reset amount licence) 0 steps) -> v <= amount.
Proof.
  intros amount licence steps A F. apply annual_remaining_le; [exact A|cbn; lra|lra|exact F].
Qed.
Print Assumptions C46_annual_not_above.

(** Annual licence with timesteps of at most a day: never negative, nor is the value offered, whatever the flows are. *)
Theorem C46_annual_short_steps_partial : forall amount licence steps, 0 <= amount -> consecutive steps ->
  (forall s, In s steps -> s_days s <= 1) ->
  forall v, In v (annual_remaining amount (annual_reset amount licence) 0 steps) \/
            In v (annual_run amount (annual_reset amount licence) 0 steps) -> 0 <= v.
Proof.
  intros amount licence steps A C D. destruct steps as [|s steps]; [intros v [[]|[]]|].
  assert (forall v, In v (annual_remaining amount (annual_reset amount licence) 0 (s :: steps)) -> 0 <= v) as R.
  { apply annual_remaining_pos; [exact A| |exact (short_steps_carry amount _ A C D)|exact C].
    apply before_pos; [exact A|]. intros _. lra. }
  intros v [H|H]; [exact (R v H)|]. exact (annual_run_pos amount _ _ _ R v H).
Qed.
Print Assumptions C46_annual_short_steps_partial.

(** Longer timesteps: never negative as long as no flow carried into a year amounts to more than the licence. *)
Theorem C46_annual_long_steps_partial : forall amount licence steps, 0 <= amount -> consecutive steps ->
  (forall s, In s steps -> 0 <= s_flow s) ->
  (forall s y, In s steps -> s_time s < year_start y -> s_flow s * days_in y s <= amount) ->
  forall v, In v (annual_remaining amount (annual_reset amount licence) 0 steps) \/
            In v (annual_run amount (annual_reset amount licence) 0 steps) -> 0 <= v.
Proof.
  intros amount licence steps A C P D. destruct steps as [|s steps]; [intros v [[]|[]]|].
  assert (forall v, In v (annual_remaining amount (annual_reset amount licence) 0 (s :: steps)) -> 0 <= v) as R.
  { apply annual_remaining_pos; [exact A| |exact (carried_counts amount _ C P D)|exact C].
    apply before_pos; [exact A|]. intros _. lra. }
  intros v [H|H]; [exact (R v H)|]. exact (annual_run_pos amount _ _ _ R v H).
Qed.
Print Assumptions C46_annual_long_steps_partial.

(** A week from 31 December, within what the licence offers on that day: the value offered afterwards is negative. *)
Theorem C46_carried_flow_refuted : exists amount licence a b,
  0 <= amount /\ consecutive [a; b] /\ 0 <= s_flow b /\
  (let offered := annual_run amount (annual_reset amount licence) 0 [a; b] in
   0 <= s_flow a <= nth 0 offered 0 /\ nth 1 offered 0 < 0).
Proof.
  exists 360, {| l_remaining := 0; l_prev_year := None |},
    {| s_time := inject_Z (day_number (Date 2014 12 31)); s_days := 7; s_flow := 360 |},
    {| s_time := inject_Z (day_number (Date 2015 1 7)); s_days := 7; s_flow := 0 |}.
  split; [discriminate|]. split; [apply consecutiveb_ok; vm_compute; reflexivity|]. split; [discriminate|].
  split; [split; vm_compute; discriminate|vm_compute; reflexivity].
Qed.
Print Assumptions C46_carried_flow_refuted.

Example C46_example : map Qred (annual_remaining 366 (annual_reset 366 {| l_remaining := 0; l_prev_year := None |}) 0 weekly_steps)
  = [366; 296; 326; 326; 326; 146; 366; 365].
Proof. vm_compute. reflexivity. Qed.

(** ** C123.  A node that takes no more than a storage licence offers takes no more than the amount in the whole run, with timesteps of at most a
    day. *)
Definition taken (steps : list step) : Q := qsum (map (fun s => s_flow s * s_days s) steps).
Lemma storage_taken (e : Q) : forall steps remaining, 0 <= e -> 0 <= remaining -> (forall s, In s steps -> 0 <= s_days s <= 1) ->
  Forall2 (fun s v => 0 <= s_flow s <= v + e) steps (storage_offers remaining steps) -> taken steps <= remaining + e * inject_Z (Z.of_nat (length steps)).
Proof.
  induction steps as [|s r IH]; intros rem E R D F.
  - unfold taken. cbn. assert (e * inject_Z 0 == 0) by (change (inject_Z 0) with 0; ring). lra.
  - cbn [storage_offers] in F. inversion F as [|? ? ? ? [N1 N2] F']; subst. unfold storage_value in N2. destruct (D s (or_introl eq_refl)) as [D0 D1].
    assert (N : inject_Z (Z.of_nat (length (s :: r))) == 1 + inject_Z (Z.of_nat (length r))).
    { cbn [length]. rewrite Nat2Z.inj_succ. unfold Z.succ. rewrite inject_Z_plus. change (inject_Z 1) with 1. ring. }
    rewrite N. unfold taken in *. cbn [map qsum].
    assert (P : 0 <= s_flow s * s_days s) by (apply Qmult_le_0_compat; lra).
    assert (U : s_flow s * s_days s <= rem + e).
    { apply Qle_trans with ((rem + e) * 1); [|lra]. apply Qle_trans with ((rem + e) * s_days s); [apply Qmult_le_compat_r; lra|].
      rewrite (Qmult_comm (rem + e) (s_days s)), (Qmult_comm (rem + e) 1). apply Qmult_le_compat_r; lra. }
    assert (R1 : 0 <= storage_after rem (s_flow s) (s_days s)) by (unfold storage_after; cbv zeta; qif; lra).
    specialize (IH (storage_after rem (s_flow s) (s_days s)) E R1 (fun x i => D x (or_intror i)) F').
    rewrite Qmult_plus_distr_r. unfold storage_after in IH. cbv zeta in IH. revert IH. qif; intros IH; lra.
Qed.
Theorem C123_daily : forall amount steps, 0 <= amount -> (forall s, In s steps -> 0 <= s_days s <= 1) ->
  complies steps (storage_offers (storage_reset amount) steps) -> taken steps <= amount.
Proof.
  intros amount steps A D K. apply Qle_trans with (amount + 0 * inject_Z (Z.of_nat (length steps))); [|lra]. apply storage_taken; [lra|exact A|exact D|].
  unfold storage_reset in K. unfold complies in K. revert K. generalize (storage_offers amount steps). clear. induction steps as [|s r IH]; intros l K; inversion K; subst; constructor; [lra|]. now apply IH.
Qed.
Print Assumptions C123_daily.

Definition days_of_flow (l : list (Q * Q)) : list step := map (fun p => {| s_time := 0; s_days := fst p; s_flow := snd p |}) l.
(** Eight units: three are taken, then five, then none is left. *)
Example C123_example : let steps := days_of_flow [(1, 3); (1, 5); (1, 0)] in
  storage_offers (storage_reset 8) steps = [8; 5; 0] /\ complies steps (storage_offers (storage_reset 8) steps) /\ taken steps == 8.
Proof. split; [reflexivity|]. split; [|reflexivity]. apply compliesb_ok. vm_compute. reflexivity. Qed.

(** With longer timesteps it is exceeded: the whole rest is offered as the flow of every day of the timestep. *)
Theorem C123_weekly_refuted : exists amount steps, 0 <= amount /\ complies steps (storage_offers (storage_reset amount) steps) /\ (forall s, In s steps -> 0 < s_days s) /\
  7 * amount <= taken steps /\ 0 < amount.
Proof.
  exists 10, (days_of_flow [(7, 10)]). split; [lra|]. split; [apply compliesb_ok; vm_compute; reflexivity|]. split; [intros s [<-|[]]; reflexivity|]. split; [vm_compute; discriminate|lra].
Qed.
Print Assumptions C123_weekly_refuted.
