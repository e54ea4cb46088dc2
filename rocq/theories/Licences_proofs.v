From Verif Require Import Base Calendar_spec Calendar_proofs Licences_model Licences_spec.
From Coq Require Import Qround.
Local Open Scope Q_scope.

(** ** Dates of timesteps *)
Lemma floor_bounds t : inject_Z (Qfloor t) <= t /\ t < inject_Z (Qfloor t) + 1.
Proof.
  split; [apply Qfloor_le|]. pose proof (Qlt_floor t) as H. rewrite inject_Z_plus in H. exact H.
Qed.

Lemma starts_in_floor y s : starts_in y s -> (jan1 y <= Qfloor (s_time s) < jan1 (y + 1))%Z.
Proof.
  intros [A B]. unfold year_start in *. destruct (floor_bounds (s_time s)) as [F1 F2]. split.
  - apply Z.lt_succ_r. rewrite Zlt_Qlt. unfold Z.succ. rewrite inject_Z_plus. change (inject_Z 1) with 1. lra.
  - rewrite Zlt_Qlt. lra.
Qed.

Lemma step_year_starts y s : starts_in y s -> step_year (s_time s) = y.
Proof. intros H. unfold step_year, date_of; cbn [yr]. apply year_of_unique, starts_in_floor, H. Qed.

Lemma step_doy_starts y s : starts_in y s -> (step_doy (s_time s) = Qfloor (s_time s) - jan1 y + 1)%Z.
Proof.
  intros H. pose proof (day_number_date_of (Qfloor (s_time s))) as D. unfold day_number in D.
  change (yr (date_of (Qfloor (s_time s)))) with (step_year (s_time s)) in D. rewrite (step_year_starts y s H) in D.
  unfold step_doy. lia.
Qed.

Lemma starts_in_year s : starts_in (step_year (s_time s)) s.
Proof.
  unfold starts_in, year_start, step_year, date_of; cbn [yr].
  destruct (year_of_spec (Qfloor (s_time s))) as [A B]. destruct (floor_bounds (s_time s)) as [F1 F2]. split.
  - rewrite Zle_Qle in A. lra.
  - assert (Qfloor (s_time s) + 1 <= jan1 (year_of (Qfloor (s_time s)) + 1))%Z as C by lia.
    rewrite Zle_Qle, inject_Z_plus in C. change (inject_Z 1) with 1 in C. lra.
Qed.

Lemma starts_in_unique y z s : starts_in y s -> starts_in z s -> y = z.
Proof. intros A B. rewrite <- (step_year_starts y s A). apply step_year_starts, B. Qed.

Lemma year_start_step y : year_start y + 365 <= year_start (y + 1).
Proof.
  unfold year_start. rewrite jan1_succ, inject_Z_plus. pose proof (year_days_bounds y) as H.
  assert (inject_Z 365 <= inject_Z (year_days y)) by (rewrite <- Zle_Qle; lia). change (inject_Z 365) with 365 in *. lra.
Qed.

(** The value offered is the rest of the licence spread over the days left. *)
Definition days_left (y : Z) (t : Q) : Q := year_start (y + 1) - inject_Z (Qfloor t).

Lemma days_left_bound y s : starts_in y s -> 1 <= days_left y (s_time s) /\ year_start (y + 1) - s_time s <= days_left y (s_time s).
Proof.
  intros H. destruct (starts_in_floor y s H) as [A B]. unfold days_left, year_start. destruct (floor_bounds (s_time s)) as [F1 F2].
  split; [|lra]. assert (Qfloor (s_time s) + 1 <= jan1 (y + 1))%Z as C by lia.
  rewrite Zle_Qle, inject_Z_plus in C. change (inject_Z 1) with 1 in C. lra.
Qed.

Lemma annual_value_left y st s : starts_in y s -> annual_value st (s_time s) * days_left y (s_time s) == l_remaining st.
Proof.
  intros H. pose proof (days_left_bound y s H) as [L _].
  unfold annual_value. rewrite (step_year_starts y s H), (step_doy_starts y s H). pose proof (jan1_succ y) as J. unfold year_days in J.
  set (n := (365 + (if gleapb y then 1 else 0))%Z). assert (jan1 (y + 1) = jan1 y + n)%Z as N by (subst n; destruct (gleapb y); lia).
  assert (days_left y (s_time s) == inject_Z (n - (Qfloor (s_time s) - jan1 y + 1 - 1))) as E.
  { unfold days_left, year_start. rewrite N. unfold Z.sub. repeat rewrite ?inject_Z_plus, ?inject_Z_opp.
    change (inject_Z 1) with 1. ring. }
  destruct (Z.eqb_spec (Qfloor (s_time s) - jan1 y + 1) n) as [D|D].
  - rewrite E. replace (n - _)%Z with 1%Z by lia. change (inject_Z 1) with 1. ring.
  - rewrite <- E. field. lra.
Qed.

Lemma annual_before_same amount st p y s : starts_in y s -> l_prev_year st = Some y -> annual_before amount st p (s_time s) = st.
Proof. intros H E. unfold annual_before. rewrite E, (step_year_starts y s H), Z.eqb_refl. reflexivity. Qed.

Lemma annual_before_new amount st p y s : starts_in y s -> l_prev_year st <> Some y ->
  l_remaining (annual_before amount st p (s_time s)) == amount - (inject_Z (Qfloor (s_time s)) - year_start y) * p /\
  l_prev_year (annual_before amount st p (s_time s)) = Some y.
Proof.
  intros H E.
  assert (annual_before amount st p (s_time s) =
          {| l_remaining := amount - inject_Z (step_doy (s_time s) - 1) * p; l_prev_year := Some y |}) as ->.
  { unfold annual_before. rewrite (step_year_starts y s H). destruct (l_prev_year st) as [z|]; [|reflexivity].
    destruct (Z.eqb_spec z y); [subst; congruence|reflexivity]. }
  cbn [l_remaining l_prev_year]. split; [|reflexivity]. rewrite (step_doy_starts y s H). unfold year_start, Z.sub.
  repeat rewrite ?inject_Z_plus, ?inject_Z_opp. change (inject_Z 1) with 1. ring.
Qed.

Lemma annual_before_year amount st p s : l_prev_year (annual_before amount st p (s_time s)) = Some (step_year (s_time s)).
Proof.
  unfold annual_before. destruct (l_prev_year st) as [z|] eqn:E; [|reflexivity].
  destruct (Z.eqb_spec z (step_year (s_time s))); [subst; exact E|reflexivity].
Qed.

(** ** Volumes *)
Lemma year_volume_cons y s r : year_volume y (s :: r) == s_flow s * days_in y s + year_volume y r.
Proof. unfold year_volume. cbn [map]. apply qsum_cons. Qed.

Lemma consecutive_tail s r : consecutive (s :: r) -> consecutive r.
Proof. destruct r; cbn; tauto. Qed.
Lemma consecutive_pos s r : consecutive (s :: r) -> 0 < s_days s.
Proof. destruct r; cbn; tauto. Qed.

Lemma volume_after_year y r : forall s, consecutive (s :: r) -> year_start (y + 1) <= s_time s -> year_volume y (s :: r) == 0.
Proof.
  induction r as [|s' r IH]; intros s C H; rewrite year_volume_cons.
  - assert (days_in y s == 0) as -> by (unfold days_in; pose proof (year_start_step y); clear -H H0; qmm).
    unfold year_volume; cbn. ring.
  - cbn [consecutive] in C. destruct C as [C1 [C2 C3]]. rewrite (IH s' C3) by lra.
    assert (days_in y s == 0) as -> by (unfold days_in; pose proof (year_start_step y); clear -H H0; qmm). ring.
Qed.

Lemma complies_tail amount st p s r : complies (s :: r) (annual_run amount st p (s :: r)) ->
  complies r (annual_run amount (annual_after (annual_before amount st p (s_time s)) (s_flow s) (s_days s)) (s_flow s) r).
Proof. intros K. cbn [annual_run] in K. cbv zeta in K. inversion K as [|? ? ? ? K1 K2]. exact K2. Qed.

(** One timestep that starts in the year. *)
Lemma one_step amount y st p s r : 0 < s_days s -> starts_in y s -> l_prev_year st = Some y ->
  complies (s :: r) (annual_run amount st p (s :: r)) ->
  0 <= s_flow s /\ 0 <= s_flow s * days_in y s <= l_remaining st /\
  complies r (annual_run amount (annual_after st (s_flow s) (s_days s)) (s_flow s) r).
Proof.
  intros P S E K. cbn [annual_run] in K. cbv zeta in K. rewrite (annual_before_same amount st p y s S E) in K.
  inversion K as [|? ? ? ? K1 K2]. destruct K1 as [K0 K1]. clear K. split; [exact K0|]. split; [|exact K2]. clear K2.
  pose proof (annual_value_left y st s S) as V. pose proof (days_left_bound y s S) as [L1 L2].
  set (left := days_left y (s_time s)) in *. clearbody left.
  assert (0 <= days_in y s <= left) as D.
  { unfold days_in. destruct S as [S1 S2]. clear -S1 S2 L1 L2 P. set (e := year_start (y + 1)) in *. set (b := year_start y) in *.
    clearbody e b. split; qmm. }
  set (d := days_in y s) in *. clearbody d. rewrite <- V.
  assert (s_flow s * d <= s_flow s * left) by (rewrite (Qmult_comm _ d), (Qmult_comm _ left); apply Qmult_le_compat_r; lra).
  assert (s_flow s * left <= annual_value st (s_time s) * left) by (apply Qmult_le_compat_r; lra).
  assert (0 <= s_flow s * d) by (apply Qmult_le_0_compat; lra). lra.
Qed.

(** Within a year, starting from [remaining] after before(). *)
Lemma volume_in_year amount y r : forall s st p, consecutive (s :: r) -> starts_in y s -> l_prev_year st = Some y ->
  complies (s :: r) (annual_run amount st p (s :: r)) -> year_volume y (s :: r) <= l_remaining st.
Proof.
  induction r as [|s' r IH]; intros s st p C S E K; destruct (one_step amount y st p s _ (consecutive_pos _ _ C) S E K) as [K0 [K1 K2]];
    rewrite year_volume_cons.
  - unfold year_volume; cbn [map qsum]. lra.
  - cbn [consecutive] in C. destruct C as [C1 [C2 C3]]. destruct (Qlt_le_dec (s_time s') (year_start (y + 1))) as [G|G].
    + assert (starts_in y s') as S' by (destruct S; split; lra).
      specialize (IH s' (annual_after st (s_flow s) (s_days s)) (s_flow s) C3 S' E K2).
      assert (days_in y s == s_days s) as Ed.
      { unfold days_in. destruct S as [S1 S2]. clear -S1 S2 C1 C2 G. set (e := year_start (y + 1)) in *. set (b := year_start y) in *.
        clearbody e b. qmm. }
      rewrite Ed in *. cbn [annual_after l_remaining] in IH. unfold storage_after in IH. cbv zeta in IH.
      destruct (qltbP (l_remaining st - s_flow s * s_days s) 0); lra.
    + rewrite (volume_after_year y r s' C3 G). lra.
Qed.

(** From a timestep before the year. *)
Lemma volume_from_before amount y post s : forall pre q st p, consecutive (pre ++ q :: s :: post) ->
  Forall (fun x => s_time x < year_start y) (pre ++ [q]) -> starts_in y s ->
  s_time s == inject_Z (Qfloor (s_time s)) ->
  complies (pre ++ q :: s :: post) (annual_run amount st p (pre ++ q :: s :: post)) ->
  year_volume y (pre ++ q :: s :: post) <= amount.
Proof.
  induction pre as [|x pre IH]; intros q st p C F S M K.
  - cbn [app] in *. inversion F as [|? ? Fq _]; subst. cbn [consecutive] in C. destruct C as [C1 [C2 C3]].
    pose proof (complies_tail _ _ _ _ _ K) as K2. clear K. set (st1 := annual_after _ _ _) in K2.
    assert (l_prev_year st1 <> Some y) as N.
    { subst st1. cbn [annual_after l_prev_year]. rewrite annual_before_year. intros G. injection G as G.
      pose proof (starts_in_year q) as Sq. rewrite G in Sq. destruct Sq as [Sq _]. lra. }
    destruct (annual_before_new amount st1 (s_flow q) y s S N) as [R Y].
    assert (year_volume y (s :: post) <= l_remaining (annual_before amount st1 (s_flow q) (s_time s))) as V.
    { apply (volume_in_year amount y post s _ (s_flow q) C3 S Y). cbn [annual_run] in K2 |- *.
      rewrite (annual_before_same amount _ _ y s S Y). exact K2. }
    rewrite year_volume_cons.
    assert (days_in y q == s_time s - year_start y) as -> by (unfold days_in; destruct S as [S1 S2]; clear -Fq C1 C2 S1 S2; qmm).
    rewrite R, <- M in V. lra.
  - cbn [app] in *. inversion F as [|? ? Fx F']; subst. pose proof (complies_tail _ _ _ _ _ K) as K2. clear K.
    rewrite year_volume_cons. specialize (IH q _ _ (consecutive_tail _ _ C) F' S M K2).
    assert (days_in y x == 0) as ->; [|lra].
    assert (s_time x + s_days x < year_start y) as G.
    { destruct pre as [|z pre]; cbn [app consecutive] in C, F'; inversion F'; subst; destruct C as [_ [C2 _]]; lra. }
    unfold days_in. pose proof (year_start_step y) as Y. clear -G Y Fx. qmm.
Qed.

Lemma volume_first_year amount y s post st : l_remaining st == amount -> consecutive (s :: post) -> starts_in y s ->
  complies (s :: post) (annual_run amount st 0 (s :: post)) -> year_volume y (s :: post) <= amount.
Proof.
  intros E C S K. set (st1 := annual_before amount st 0 (s_time s)).
  assert (l_prev_year st1 = Some y /\ l_remaining st1 == amount) as [Y R].
  { subst st1. split; [rewrite annual_before_year, (step_year_starts y s S); reflexivity|].
    destruct (l_prev_year st) as [z|] eqn:Z; [destruct (Z.eq_dec z y) as [->|N]|].
    - rewrite (annual_before_same amount st 0 y s S Z). exact E.
    - destruct (annual_before_new amount st 0 y s S) as [A _]; [congruence|]. rewrite A. ring.
    - destruct (annual_before_new amount st 0 y s S) as [A _]; [congruence|]. rewrite A. ring. }
  rewrite <- R. apply (volume_in_year amount y post s st1 0 C S Y). cbn [annual_run] in K |- *.
  rewrite (annual_before_same amount st1 0 y s S Y). exact K.
Qed.

(** ** Bounds of the remaining amount *)
Lemma storage_after_bounds amount r f d : 0 <= amount -> r <= amount -> 0 <= f * d -> 0 <= storage_after r f d <= amount.
Proof. intros A R F. unfold storage_after. cbv zeta. destruct (qltbP (r - f * d) 0); split; lra. Qed.

Lemma storage_run_bounds amount : forall steps r, 0 <= amount -> 0 <= r <= amount ->
  (forall s, In s steps -> 0 <= s_flow s /\ 0 <= s_days s) -> forall v, In v (storage_run r steps) -> 0 <= v <= amount.
Proof.
  induction steps as [|s steps IH]; intros r A R F v H; cbn in H; [tauto|].
  assert (0 <= storage_after r (s_flow s) (s_days s) <= amount) as B.
  { apply storage_after_bounds; [lra|lra|]. destruct (F s (or_introl eq_refl)). apply Qmult_le_0_compat; lra. }
  destruct H as [<-|H]; [exact B|]. apply (IH _ A B) in H; auto. intros; apply F; right; assumption.
Qed.

Lemma step_doy_pos t : (0 <= step_doy t - 1)%Z.
Proof. unfold step_doy. pose proof (day_of_year_range _ (date_of_valid (Qfloor t))). lia. Qed.

Lemma annual_remaining_le amount : forall steps st p, 0 <= amount -> l_remaining st <= amount -> 0 <= p ->
  (forall s, In s steps -> 0 <= s_flow s /\ 0 <= s_days s) -> forall v, In v (annual_remaining amount st p steps) -> v <= amount.
Proof.
  induction steps as [|s steps IH]; intros st p A R P F v H; cbn in H; [tauto|].
  destruct (F s (or_introl eq_refl)) as [F1 F2].
  assert (l_remaining (annual_before amount st p (s_time s)) <= amount) as B.
  { assert (0 <= inject_Z (step_doy (s_time s) - 1) * p) by
      (apply Qmult_le_0_compat; [change 0 with (inject_Z 0); rewrite <- Zle_Qle; apply step_doy_pos|exact P]).
    unfold annual_before. destruct (l_prev_year st); [destruct (_ =? _)%Z|]; cbn [l_remaining]; lra. }
  assert (0 <= s_flow s * s_days s) as G by (apply Qmult_le_0_compat; lra).
  destruct H as [<-|[<-|H]]; [exact B| |].
  - destruct (storage_after_bounds amount _ _ _ A B G). assumption.
  - refine (IH _ _ A _ F1 _ v H); [|intros; apply F; right; assumption].
    cbn [annual_after l_remaining]. destruct (storage_after_bounds amount _ _ _ A B G). assumption.
Qed.

(** Never negative if the flow carried into a year is within the amount. *)
Fixpoint carry_counted (amount : Q) (steps : list step) : Prop :=
  match steps with
  | s :: ((s' :: _) as r) =>
      (s_time s < year_start (step_year (s_time s')) ->
       (inject_Z (Qfloor (s_time s')) - year_start (step_year (s_time s'))) * s_flow s <= amount) /\ carry_counted amount r
  | _ => True
  end.

Lemma before_pos amount st p s : 0 <= l_remaining st ->
  (l_prev_year st <> Some (step_year (s_time s)) ->
   (inject_Z (Qfloor (s_time s)) - year_start (step_year (s_time s))) * p <= amount) ->
  0 <= l_remaining (annual_before amount st p (s_time s)).
Proof.
  intros R H. pose proof (starts_in_year s) as S. destruct (l_prev_year st) as [z|] eqn:E; [destruct (Z.eq_dec z (step_year (s_time s))) as [Q|N]|].
  - rewrite (annual_before_same amount st p _ s S) by congruence. exact R.
  - destruct (annual_before_new amount st p _ s S) as [-> _]; [congruence|]. apply Qle_minus_iff in H; [|congruence]. lra.
  - destruct (annual_before_new amount st p _ s S) as [-> _]; [congruence|]. apply Qle_minus_iff in H; [|congruence]. lra.
Qed.

Lemma annual_remaining_pos amount : forall steps s st p, 0 <= l_remaining st ->
  0 <= l_remaining (annual_before amount st p (s_time s)) -> carry_counted amount (s :: steps) -> consecutive (s :: steps) ->
  forall v, In v (annual_remaining amount st p (s :: steps)) -> 0 <= v.
Proof.
  induction steps as [|s' steps IH]; intros s st p R B C T v H; cbn [annual_remaining] in H; cbv zeta in H;
    set (st1 := annual_before amount st p (s_time s)) in *;
    (assert (0 <= l_remaining (annual_after st1 (s_flow s) (s_days s))) as R2
       by (cbn [annual_after l_remaining]; unfold storage_after; cbv zeta; destruct (qltbP (l_remaining st1 - s_flow s * s_days s) 0); lra)).
  - destruct H as [<-|[<-|[]]]; assumption.
  - destruct H as [<-|[<-|H]]; [assumption|assumption|]. destruct C as [C1 C2]. cbn [consecutive] in T. destruct T as [T1 [T2 T3]].
    refine (IH s' _ (s_flow s) R2 _ C2 T3 v H). apply (before_pos amount _ (s_flow s) s' R2).
    intros N. apply C1. subst st1. cbn [annual_after l_prev_year] in N. rewrite annual_before_year in N.
    pose proof (starts_in_year s) as S. pose proof (starts_in_year s') as S'.
    destruct (Qlt_le_dec (s_time s) (year_start (step_year (s_time s')))) as [G|G]; [exact G|exfalso].
    assert (starts_in (step_year (s_time s')) s) as S2 by (destruct S'; split; lra).
    apply N. f_equal. exact (starts_in_unique _ _ s S S2).
Qed.

Lemma short_steps_carry amount : forall steps, 0 <= amount -> consecutive steps -> (forall s, In s steps -> s_days s <= 1) ->
  carry_counted amount steps.
Proof.
  induction steps as [|s [|s' r] IH]; intros A C D; cbn [carry_counted]; [exact I|exact I|].
  cbn [consecutive] in C. destruct C as [C1 [C2 C3]]. split; [|apply IH; [exact A|exact C3|intros; apply D; right; assumption]].
  intros L. pose proof (starts_in_year s') as S. pose proof (starts_in_floor _ s' S) as [F1 F2].
  pose proof (D s (or_introl eq_refl)) as D1.
  assert (Qfloor (s_time s') < jan1 (step_year (s_time s')) + 1)%Z as G.
  { rewrite Zlt_Qlt, inject_Z_plus. change (inject_Z 1) with 1. pose proof (Qfloor_le (s_time s')).
    change (inject_Z (jan1 (step_year (s_time s')))) with (year_start (step_year (s_time s'))). lra. }
  assert (Qfloor (s_time s') = jan1 (step_year (s_time s'))) as -> by lia.
  unfold year_start. lra.
Qed.

(** The timesteps before a year, the first one in it, and the others. *)
Lemma consecutive_later : forall r s x, consecutive (s :: r) -> In x r -> s_time s < s_time x.
Proof.
  induction r as [|s' r IH]; intros s x C H; [destruct H|]. cbn [consecutive] in C. destruct C as [C1 [C2 C3]].
  destruct H as [<-|H]; [lra|]. specialize (IH s' x C3 H). lra.
Qed.

Lemma first_in_year y : forall steps x, consecutive steps -> In x steps -> starts_in y x ->
  exists pre s post, steps = pre ++ s :: post /\ starts_in y s /\ Forall (fun q => s_time q < year_start y) pre.
Proof.
  induction steps as [|s r IH]; intros x C H S; [destruct H|].
  destruct (Qlt_le_dec (s_time s) (year_start y)) as [G|G].
  - destruct H as [->|H]; [destruct S; lra|]. destruct (IH x (consecutive_tail _ _ C) H S) as [pre [s' [post [E [S' F]]]]].
    exists (s :: pre), s', post. split; [cbn; rewrite E; reflexivity|]. split; [exact S'|constructor; assumption].
  - exists [], s, r. split; [reflexivity|]. split; [|constructor].
    destruct H as [->|H]; [exact S|]. pose proof (consecutive_later r s x C H). destruct S. split; lra.
Qed.

(** Offers depend on the state up to equality of rationals. *)
Lemma annual_run_compat amount : forall steps st st' p p', l_remaining st == l_remaining st' -> l_prev_year st = l_prev_year st' -> p == p' ->
  Forall2 Qeq (annual_run amount st p steps) (annual_run amount st' p' steps).
Proof.
  induction steps as [|s r IH]; intros st st' p p' R Y P; cbn [annual_run]; [constructor|]. cbv zeta.
  assert (l_remaining (annual_before amount st p (s_time s)) == l_remaining (annual_before amount st' p' (s_time s)) /\
          l_prev_year (annual_before amount st p (s_time s)) = l_prev_year (annual_before amount st' p' (s_time s))) as [R1 Y1].
  { unfold annual_before. rewrite <- Y. destruct (l_prev_year st) as [z|] eqn:Ez; [destruct (z =? _)%Z|]; cbn [l_remaining l_prev_year];
      (split; [|congruence]); rewrite ?P; try reflexivity; exact R. }
  constructor.
  - unfold annual_value. destruct (_ =? _)%Z; [exact R1|]. rewrite R1. reflexivity.
  - apply IH; [|exact Y1|reflexivity]. cbn [annual_after l_remaining]. unfold storage_after. cbv zeta.
    destruct (qltbP (l_remaining (annual_before amount st p (s_time s)) - s_flow s * s_days s) 0) as [Q|Q];
    destruct (qltbP (l_remaining (annual_before amount st' p' (s_time s)) - s_flow s * s_days s) 0) as [Q'|Q']; try reflexivity; lra.
Qed.

Fixpoint annual_state (amount : Q) (st : annual) (p : Q) (steps : list step) : annual * Q :=
  match steps with
  | [] => (st, p)
  | s :: r => annual_state amount (annual_after (annual_before amount st p (s_time s)) (s_flow s) (s_days s)) (s_flow s) r
  end.

Lemma annual_run_app amount : forall pre post st p,
  annual_run amount st p (pre ++ post) =
  annual_run amount st p pre ++ annual_run amount (fst (annual_state amount st p pre)) (snd (annual_state amount st p pre)) post.
Proof. induction pre as [|s r IH]; intros post st p; cbn [app annual_run annual_state]; [reflexivity|]. cbv zeta. rewrite IH. reflexivity. Qed.

Lemma annual_state_year amount y : forall pre st p, pre <> [] -> Forall (fun q => s_time q < year_start y) pre ->
  l_prev_year (fst (annual_state amount st p pre)) <> Some y.
Proof.
  induction pre as [|s r IH]; intros st p N F; [congruence|]. inversion F as [|? ? F1 F2]; subst. cbn [annual_state].
  destruct r as [|s' r]; [|apply IH; [discriminate|exact F2]]. cbn [annual_state fst annual_after l_prev_year].
  rewrite annual_before_year. intros G. injection G as G. pose proof (starts_in_year s) as S. rewrite G in S. destruct S. lra.
Qed.

Lemma annual_run_length amount : forall steps st p, length (annual_run amount st p steps) = length steps.
Proof. induction steps as [|s r IH]; intros; cbn [annual_run length]; cbv zeta; cbn [length]; [reflexivity|]. now rewrite IH. Qed.

Lemma fresh_year amount y s post st st' p p' : s_time s == year_start y -> l_prev_year st <> Some y -> l_prev_year st' <> Some y ->
  Forall2 Qeq (annual_run amount st p (s :: post)) (annual_run amount st' p' (s :: post)).
Proof.
  intros T N N'. assert (starts_in y s) as S by (pose proof (year_start_step y); split; lra).
  assert (inject_Z (Qfloor (s_time s)) - year_start y == 0) as Z.
  { unfold year_start. rewrite T. unfold year_start. rewrite Qfloor_Z. ring. }
  destruct (annual_before_new amount st p y s S N) as [R Y]. destruct (annual_before_new amount st' p' y s S N') as [R' Y'].
  assert (l_remaining (annual_before amount st p (s_time s)) == l_remaining (annual_before amount st' p' (s_time s))) as E
    by (rewrite R, R', Z; ring).
  pose proof (annual_run_compat amount (s :: post) (annual_before amount st p (s_time s)) (annual_before amount st' p' (s_time s)) 0 0 E
                ltac:(congruence) ltac:(reflexivity)) as H.
  cbn [annual_run] in H |- *. cbv zeta in H |- *. rewrite (annual_before_same amount _ 0 y s S Y), (annual_before_same amount _ 0 y s S Y') in H.
  exact H.
Qed.

Lemma annual_run_pos amount : forall steps st p,
  (forall v, In v (annual_remaining amount st p steps) -> 0 <= v) -> forall v, In v (annual_run amount st p steps) -> 0 <= v.
Proof.
  induction steps as [|s r IH]; intros st p H v I; cbn [annual_run] in I; [destruct I|]. cbv zeta in I.
  destruct I as [<-|I].
  - pose proof (starts_in_year s) as S. pose proof (annual_value_left _ (annual_before amount st p (s_time s)) s S) as V.
    destruct (days_left_bound _ s S) as [L _]. assert (0 <= l_remaining (annual_before amount st p (s_time s))) as R.
    { apply H. cbn [annual_remaining]. cbv zeta. left. reflexivity. }
    apply Qmult_lt_0_le_reg_r with (days_left (step_year (s_time s)) (s_time s)); lra.
  - refine (IH _ _ _ v I). intros w W. apply H. cbn [annual_remaining]. cbv zeta. right. right. exact W.
Qed.

Lemma carried_counts amount : forall steps, consecutive steps -> (forall s, In s steps -> 0 <= s_flow s) ->
  (forall s y, In s steps -> s_time s < year_start y -> s_flow s * days_in y s <= amount) -> carry_counted amount steps.
Proof.
  induction steps as [|s [|s' r] IH]; intros C P D; cbn [carry_counted]; [exact I|exact I|].
  cbn [consecutive] in C. destruct C as [C1 [C2 C3]].
  split; [|apply IH; [exact C3|intros; apply P; right; assumption|intros; apply D; [right|]; assumption]].
  intros L. pose proof (starts_in_year s') as S. set (y := step_year (s_time s')) in *.
  specialize (D s y (or_introl eq_refl) L). specialize (P s (or_introl eq_refl)).
  assert (days_in y s == s_time s' - year_start y) as E.
  { unfold days_in. destruct S as [S1 S2]. clear -S1 S2 C1 C2 L. set (e := year_start (y + 1)) in *. set (b := year_start y) in *.
    clearbody e b. qmm. }
  rewrite E in D. pose proof (Qfloor_le (s_time s')) as F.
  assert ((inject_Z (Qfloor (s_time s')) - year_start y) * s_flow s <= (s_time s' - year_start y) * s_flow s)
    by (apply Qmult_le_compat_r; lra). lra.
Qed.
