(** C127: annual licences that are read as prices. *)
From Coq Require Import Reals Qreals Qround Lra.
From Verif Require Import Base Calendar_spec Calendar_proofs LP_model Licences_model Licences_spec Licences_proofs Scaled_model.
Local Open Scope Q_scope.

(** Days of a year, and days left in it at a timestep, its own day included. *)
Definition length_of (y : Z) : Q := year_start (y + 1) - year_start y.
Definition left_at (y : Z) (s : step) : Q := year_start (y + 1) - inject_Z (Qfloor (s_time s)).

Lemma length_days y : length_of y == inject_Z (365 + (if gleapb y then 1 else 0)).
Proof.
  unfold length_of, year_start. rewrite jan1_succ, inject_Z_plus. unfold year_days. destruct (gleapb y).
  - change (365 + 1)%Z with 366%Z. ring.
  - change (365 + 0)%Z with 365%Z. ring.
Qed.
Lemma length_pos y : 365 <= length_of y.
Proof. unfold length_of. pose proof (year_start_step y). lra. Qed.
Lemma left_pos y s : starts_in y s -> 1 <= left_at y s <= length_of y.
Proof.
  intros H. pose proof (days_left_bound y s H) as [L _]. split; [exact L|]. destruct (starts_in_floor y s H) as [A _].
  unfold left_at, length_of, year_start. rewrite Zle_Qle in A. lra.
Qed.

Lemma over_of a l r : a * l == r -> 0 < l -> a == r / l.
Proof. intros <- L. field. lra. Qed.
Lemma div_pos a b : 0 < a -> 0 < b -> 0 < a / b.
Proof. intros A B. apply Qlt_shift_div_l; lra. Qed.
Lemma zero_over r l : r == 0 -> 0 < l -> r / l == 0.
Proof. intros -> L. field. lra. Qed.
Lemma zero_of x q r : 0 < q -> x * q == r -> r == 0 -> x == 0.
Proof. intros. nra. Qed.
Lemma pos_of x q r : 0 < q -> x * q == r -> 0 < r -> 0 < x.
Proof. intros. nra. Qed.
Lemma times_over a b : ~ b == 0 -> a / b * b == a.
Proof. intros. field. assumption. Qed.
Lemma less_over a b l : a < b -> 0 < l -> a / l < b / l.
Proof. intros A L. apply Qlt_shift_div_l; [exact L|]. field_simplify; lra. Qed.

(** C127: the ratio is that of what is left for each day left of the year to what there was for each day of the year. *)
Theorem C127_ratio : forall amount st y s, 0 < amount -> starts_in y s ->
  exists x, ratio amount st (s_time s) = Some (Fin x) /\ x * (amount / length_of y) == l_remaining st / left_at y s.
Proof.
  intros amount st y s A H. pose proof (annual_value_left y st s H) as V. change (days_left y (s_time s)) with (left_at y s) in V.
  destruct (left_pos y s H) as [L _]. pose proof (length_pos y) as N.
  assert (W : annual_value st (s_time s) == l_remaining st / left_at y s) by (apply over_of; [exact V|apply (Qlt_le_trans _ 1); [reflexivity|exact L]]).
  unfold ratio. rewrite (step_year_starts y s H).
  assert (E : amount / inject_Z (365 + (if gleapb y then 1 else 0)) == amount / length_of y) by (rewrite (length_days y); reflexivity).
  set (e := amount / inject_Z (365 + (if gleapb y then 1 else 0))) in *.
  assert (P : 0 < amount / length_of y) by (apply div_pos; [assumption|apply (Qlt_le_trans _ 365); [reflexivity|exact N]]).
  unfold divide. destruct (qeqbP e 0) as [Z|Z]; [exfalso; rewrite <- E, Z in P; discriminate P|]. eexists. split; [reflexivity|]. rewrite <- W, <- E. apply times_over. exact Z.
Qed.
Print Assumptions C127_ratio.

(** C127: the hyperbola is the value divided by the ratio; with nothing left it is infinite. *)
Theorem C127_hyperbola : forall amount value st y s, 0 < amount -> 0 < value -> starts_in y s ->
  (l_remaining st == 0 -> hyperbola_value amount value st (s_time s) = Some PInf)
  /\ (0 < l_remaining st -> exists v, hyperbola_value amount value st (s_time s) = Some (Fin v) /\ 0 < v
        /\ v * (l_remaining st / left_at y s) == value * (amount / length_of y)).
Proof.
  intros amount value st y s A V H. destruct (C127_ratio amount st y s A H) as (x & E & X). destruct (left_pos y s H) as [L _]. pose proof (length_pos y) as N.
  assert (P : 0 < amount / length_of y) by (apply div_pos; [assumption|apply (Qlt_le_trans _ 365); [reflexivity|exact N]]). unfold hyperbola_value. rewrite E. unfold divide. split.
  - intros R. assert (R0 : l_remaining st / left_at y s == 0) by (apply zero_over; [exact R|apply (Qlt_le_trans _ 1); [reflexivity|exact L]]). assert (x == 0) by (exact (zero_of _ _ _ P X R0)).
    destruct (qeqbP x 0); [|contradiction]. destruct (qeqbP value 0); [exfalso; lra|]. destruct (qltbP 0 value); [reflexivity|contradiction].
  - intros R. assert (R0 : 0 < l_remaining st / left_at y s) by (apply div_pos; [assumption|apply (Qlt_le_trans _ 1); [reflexivity|exact L]]). assert (X0 : 0 < x) by (exact (pos_of _ _ _ P X R0)).
    destruct (qeqbP x 0); [exfalso; lra|]. eexists. split; [reflexivity|]. split; [apply div_pos; assumption|]. rewrite <- X. rewrite Qmult_assoc. rewrite times_over by assumption. reflexivity.
Qed.
Print Assumptions C127_hyperbola.

(** C127: the exponential is the greatest value exactly if nothing is left, and positive and below it otherwise; it falls with what is left. *)
Theorem C127_exponential : forall amount max_value k st y s, 0 < amount -> 0 < max_value -> 0 < k -> starts_in y s ->
  exists x v, ratio amount st (s_time s) = Some (Fin x) /\ exponential_value amount max_value k st (s_time s) = Some v
    /\ v = (Q2R max_value * exp (- (Q2R x / Q2R k)))%R
    /\ (l_remaining st == 0 -> v = Q2R max_value) /\ (0 < l_remaining st -> (0 < v < Q2R max_value)%R).
Proof.
  intros amount max_value k st y s A M K H. destruct (C127_ratio amount st y s A H) as (x & E & X). destruct (left_pos y s H) as [L _]. pose proof (length_pos y) as N.
  assert (P : 0 < amount / length_of y) by (apply div_pos; [assumption|apply (Qlt_le_trans _ 365); [reflexivity|exact N]]). unfold exponential_value. rewrite E.
  destruct (qeqbP k 0); [exfalso; lra|]. eexists x, _. split; [reflexivity|]. split; [reflexivity|].
  assert (Km : (0 < Q2R k)%R) by (rewrite <- RMicromega.Q2R_0; apply Qlt_Rlt, K).
  assert (Mm : (0 < Q2R max_value)%R) by (rewrite <- RMicromega.Q2R_0; apply Qlt_Rlt, M).
  assert (D : Q2R (- x / k) = (- (Q2R x / Q2R k))%R) by (rewrite Q2R_div by exact n; rewrite Q2R_opp; field; apply Rgt_not_eq, Km).
  rewrite D. split; [reflexivity|]. split.
  - intros R. assert (R0 : l_remaining st / left_at y s == 0) by (apply zero_over; [exact R|apply (Qlt_le_trans _ 1); [reflexivity|exact L]]). assert (X0 : x == 0) by (exact (zero_of _ _ _ P X R0)).
    rewrite (Qeq_eqR _ _ X0), RMicromega.Q2R_0. replace (- (0 / Q2R k))%R with 0%R by (field; apply Rgt_not_eq, Km). rewrite exp_0. ring.
  - intros R. assert (R0 : 0 < l_remaining st / left_at y s) by (apply div_pos; [assumption|apply (Qlt_le_trans _ 1); [reflexivity|exact L]]). assert (X0 : 0 < x) by (exact (pos_of _ _ _ P X R0)).
    assert (Xm : (0 < Q2R x)%R) by (rewrite <- RMicromega.Q2R_0; apply Qlt_Rlt, X0).
    assert (Y : (- (Q2R x / Q2R k) < 0)%R). { apply Ropp_lt_gt_0_contravar. apply Rdiv_lt_0_compat; assumption. }
    pose proof (exp_pos (- (Q2R x / Q2R k))) as G. apply exp_increasing in Y. rewrite exp_0 in Y. split.
    + apply Rmult_lt_0_compat; assumption.
    + rewrite <- (Rmult_1_r (Q2R max_value)) at 2. apply Rmult_lt_compat_l; assumption.
Qed.
Print Assumptions C127_exponential.

(** C127: of two states on one day the one with more left has the lower price, both ways. *)
Theorem C127_cheaper : forall amount value k st st' y s, 0 < amount -> 0 < value -> 0 < k -> starts_in y s -> 0 < l_remaining st < l_remaining st' ->
  (exists v v', hyperbola_value amount value st (s_time s) = Some (Fin v) /\ hyperbola_value amount value st' (s_time s) = Some (Fin v') /\ v' < v)
  /\ (exists v v', exponential_value amount value k st (s_time s) = Some v /\ exponential_value amount value k st' (s_time s) = Some v' /\ (v' < v)%R).
Proof.
  intros amount value k st st' y s A V K H [R1 R2]. destruct (left_pos y s H) as [L _]. pose proof (length_pos y) as N.
  assert (P : 0 < amount / length_of y) by (apply div_pos; [assumption|apply (Qlt_le_trans _ 365); [reflexivity|exact N]]).
  assert (R3 : l_remaining st / left_at y s < l_remaining st' / left_at y s) by (apply less_over; [exact R2|apply (Qlt_le_trans _ 1); [reflexivity|exact L]]).
  assert (R0 : 0 < l_remaining st / left_at y s) by (apply div_pos; [assumption|apply (Qlt_le_trans _ 1); [reflexivity|exact L]]). split.
  - destruct (C127_hyperbola amount value st y s A V H) as [_ B]. destruct (B R1) as (v & E & Pv & Q1).
    destruct (C127_hyperbola amount value st' y s A V H) as [_ B']. destruct (B' ltac:(lra)) as (v' & E' & Pv' & Q1').
    exists v, v'. split; [exact E|]. split; [exact E'|]. nra.
  - destruct (C127_exponential amount value k st y s A V K H) as (x & v & Ex & E & Ev & _).
    destruct (C127_exponential amount value k st' y s A V K H) as (x' & v' & Ex' & E' & Ev' & _).
    exists v, v'. split; [exact E|]. split; [exact E'|]. rewrite Ev, Ev'.
    destruct (C127_ratio amount st y s A H) as (z & Ez & Z1). destruct (C127_ratio amount st' y s A H) as (z' & Ez' & Z1').
    assert (z = x) by congruence. assert (z' = x') by congruence. subst z z'. assert (XX : x < x') by nra. apply Qlt_Rlt in XX.
    assert (Km : (0 < Q2R k)%R) by (rewrite <- RMicromega.Q2R_0; apply Qlt_Rlt, K).
    assert (Mm : (0 < Q2R value)%R) by (rewrite <- RMicromega.Q2R_0; apply Qlt_Rlt, V).
    apply Rmult_lt_compat_l; [exact Mm|]. apply exp_increasing. apply Ropp_lt_contravar. apply Rmult_lt_compat_r; [apply Rinv_0_lt_compat, Km|exact XX].
Qed.
Print Assumptions C127_cheaper.

(** A licence used evenly: daily timesteps from the first of January, in each of which the flow is the share of its day. *)
Definition evenly (amount : Q) (steps : list step) : Prop :=
  consecutive steps /\ Forall (fun s => s_days s == 1 /\ s_flow s == amount / length_of (step_year (s_time s))) steps
  /\ match steps with [] => True | s :: _ => exists y, s_time s == year_start y end.

Definition good (amount : Q) (st : annual) (p : Q) (s : step) : Prop :=
  (exists n : Z, s_time s == inject_Z n) /\ forall y, starts_in y s -> l_remaining (annual_before amount st p (s_time s)) == amount * left_at y s / length_of y.
Lemma floor_of t n : t == inject_Z n -> Qfloor t = n.
Proof. intros ->. apply Qfloor_Z. Qed.
Lemma first_of_year amount st p s y : s_time s == year_start y -> l_prev_year st <> Some y \/ l_remaining st == amount -> good amount st p s.
Proof.
  intros T D. split; [exists (jan1 y); exact T|]. intros z Z.
  assert (Y : starts_in y s). { unfold starts_in. pose proof (year_start_step y). lra. }
  rewrite (starts_in_unique z y s Z Y). unfold left_at. rewrite (floor_of _ _ T). fold (year_start y). fold (length_of y). pose proof (length_pos y).
  assert (X : amount * length_of y / length_of y == amount) by (field; lra). rewrite X.
  assert (C : l_prev_year st = Some y \/ l_prev_year st <> Some y).
  { destruct (l_prev_year st) as [u|]; [|right; discriminate]. destruct (Z.eq_dec u y); [left; congruence|right; congruence]. }
  destruct C as [C|C].
  - destruct D as [D|D]; [contradiction|]. rewrite (annual_before_same amount st p y s Y C). exact D.
  - destruct (annual_before_new amount st p y s Y C) as [R _]. rewrite R, (floor_of _ _ T). fold (year_start y). ring.
Qed.
Lemma next_good amount st p s s' : 0 < amount -> good amount st p s -> s_days s == 1 -> s_flow s == amount / length_of (step_year (s_time s)) ->
  s_time s' == s_time s + s_days s -> good amount (annual_after (annual_before amount st p (s_time s)) (s_flow s) (s_days s)) (s_flow s) s'.
Proof.
  intros A [[n T] G] D F T'. set (y := step_year (s_time s)) in *. pose proof (starts_in_year s) as Y. fold y in Y. specialize (G y Y).
  assert (T2 : s_time s' == inject_Z (n + 1)). { rewrite T', D, T, inject_Z_plus. reflexivity. }
  pose proof (annual_before_year amount st p s) as PY. fold y in PY. set (st1 := annual_before amount st p (s_time s)) in *.
  assert (N1 : (jan1 y <= n < jan1 (y + 1))%Z). { destruct (starts_in_floor y s Y) as [B1 B2]. rewrite (floor_of _ _ T) in B1, B2. lia. }
  pose proof (length_pos y) as N.
  destruct (Z_lt_dec (n + 1) (jan1 (y + 1))) as [C|C].
  - assert (Y' : starts_in y s').
    { unfold starts_in, year_start. rewrite T2. rewrite <- Zle_Qle, <- Zlt_Qlt. lia. }
    split; [exists (n + 1)%Z; exact T2|]. intros z Z. rewrite (starts_in_unique z y s' Z Y').
    rewrite (annual_before_same amount _ (s_flow s) y s' Y') by exact PY. cbn [annual_after l_remaining].
    assert (L' : left_at y s' == left_at y s - 1). { unfold left_at. rewrite (floor_of _ _ T2), (floor_of _ _ T), inject_Z_plus. change (inject_Z 1) with 1. ring. }
    destruct (left_pos y s' Y') as [LP _].
    assert (V : l_remaining st1 - s_flow s * s_days s == amount * left_at y s' / length_of y). { rewrite G, F, D, L'. field. lra. }
    assert (V0 : 0 <= amount * left_at y s' / length_of y). { apply Qle_shift_div_l; [lra|]. nra. }
    unfold storage_after. cbv zeta. destruct (qltbP (l_remaining st1 - s_flow s * s_days s) 0); [exfalso; lra|]. exact V.
  - apply (first_of_year amount _ _ s' (y + 1)).
    + unfold year_start. rewrite T2. replace (n + 1)%Z with (jan1 (y + 1)) by lia. reflexivity.
    + left. cbn [annual_after l_prev_year]. rewrite PY. intros E. assert (y = y + 1)%Z by congruence. lia.
Qed.
Lemma good_run amount : 0 < amount -> forall steps st p, consecutive steps ->
  Forall (fun s => s_days s == 1 /\ s_flow s == amount / length_of (step_year (s_time s))) steps ->
  match steps with [] => True | s :: _ => good amount st p s end ->
  Forall (fun o => exists x, o = Some (Fin x) /\ x == 1) (licence_run (ratio amount) amount st p steps).
Proof.
  intros A. induction steps as [|s r IH]; intros st p C F G; cbn [licence_run]; [constructor|]. inversion F as [|? ? [D Fl] F']; subst. constructor.
  - pose proof (starts_in_year s) as Y. destruct (C127_ratio amount (annual_before amount st p (s_time s)) _ s A Y) as (x & E & X).
    exists x. split; [exact E|]. rewrite (proj2 G _ Y) in X. set (y := step_year (s_time s)) in *. destruct (left_pos y s Y) as [L _]. pose proof (length_pos y) as N.
    assert (P : 0 < amount / length_of y) by (apply div_pos; [assumption|apply (Qlt_le_trans _ 365); [reflexivity|exact N]]).
    assert (X2 : x * (amount / length_of y) == 1 * (amount / length_of y)). { rewrite X. field. lra. }
    apply Qmult_inj_r in X2; [exact X2|lra].
  - destruct r as [|s' r]; [constructor|]. destruct C as (_ & T & C). apply IH; [exact C|exact F'|]. apply next_good; assumption.
Qed.
Lemma run_map {A B} (f : annual -> Q -> A) (g : A -> B) amount : forall steps st p,
  licence_run (fun s t => g (f s t)) amount st p steps = map g (licence_run f amount st p steps).
Proof. induction steps as [|s r IH]; intros st p; cbn; [reflexivity|]. rewrite IH. reflexivity. Qed.

(** C127: while the licence is used evenly, from a first of January on and over any number of years, the ratio is 1, and so the hyperbola is its value and the
    exponential e^(-1/k) of its greatest value. *)
Theorem C127_on_track : forall amount st p steps, 0 < amount -> evenly amount steps ->
  (match steps with [] => True | s :: _ => l_prev_year st <> Some (step_year (s_time s)) \/ l_remaining st == amount end) ->
  Forall (fun o => exists x, o = Some (Fin x) /\ x == 1) (licence_run (ratio amount) amount st p steps)
  /\ (forall value, Forall (fun o => exists v, o = Some (Fin v) /\ v == value) (licence_run (hyperbola_value amount value) amount st p steps))
  /\ (forall m k, 0 < k -> Forall (fun o => o = Some (Q2R m * exp (- / Q2R k))%R) (licence_run (exponential_value amount m k) amount st p steps)).
Proof.
  intros amount st p steps A (C & F & T) I.
  assert (R : Forall (fun o => exists x, o = Some (Fin x) /\ x == 1) (licence_run (ratio amount) amount st p steps)).
  { apply good_run; [exact A|exact C|exact F|]. destruct steps as [|s r]; [exact Logic.I|]. destruct T as [y T]. apply (first_of_year amount st p s y T).
    assert (Y : starts_in y s). { unfold starts_in. pose proof (year_start_step y). lra. } rewrite (step_year_starts y s Y) in I. exact I. }
  split; [exact R|]. split.
  - intros value. change (hyperbola_value amount value) with (fun s t => match ratio amount s t with None => None | Some (Fin x) => divide value x | Some _ => Some (Fin 0) end).
    rewrite (run_map (ratio amount) (fun o => match o with None => None | Some (Fin x) => divide value x | Some _ => Some (Fin 0) end)).
    apply Forall_map. refine (Forall_impl _ _ R). intros o (x & -> & X). unfold divide. destruct (qeqbP x 0); [exfalso; lra|].
    eexists. split; [reflexivity|]. rewrite X. field.
  - intros m k K. change (exponential_value amount m k) with (fun s t => match ratio amount s t with Some (Fin x) => if qeqb k 0 then None else Some (Q2R m * exp (Q2R (- x / k)))%R | _ => None end).
    rewrite (run_map (ratio amount) (fun o => match o with Some (Fin x) => if qeqb k 0 then None else Some (Q2R m * exp (Q2R (- x / k)))%R | _ => None end)).
    apply Forall_map. refine (Forall_impl _ _ R). intros o (x & -> & X). destruct (qeqbP k 0) as [Z|Z]; [exfalso; lra|].
    assert (E : - x / k == - (/ k)) by (rewrite X; field; exact Z). rewrite (Qeq_eqR _ _ E), Q2R_opp, (Q2R_inv _ Z). reflexivity.
Qed.
Print Assumptions C127_on_track.

(** What timesteps have used. *)
Definition used (steps : list step) : Q := qsum (map (fun s => s_flow s * s_days s) steps).

Lemma used_tail amount y : 0 < amount -> forall a st p s b, l_prev_year st = Some y -> Forall (starts_in y) (a ++ s :: b) ->
  Forall (fun s => 0 <= s_flow s * s_days s) (a ++ s :: b) -> used a <= l_remaining st ->
  exists x, nth_error (licence_run (ratio amount) amount st p (a ++ s :: b)) (length a) = Some (Some (Fin x))
    /\ x * (amount / length_of y) == (l_remaining st - used a) / left_at y s.
Proof.
  intros A. induction a as [|s0 a IH]; intros st p s b Y S F U.
  - cbn [app length licence_run nth_error]. apply Forall_inv in S. rewrite (annual_before_same amount st p y s S Y).
    destruct (C127_ratio amount st y s A S) as (x & E & X). exists x. split; [rewrite E; reflexivity|]. rewrite X. unfold used. cbn [map qsum fold_right].
    apply Qdiv_comp; [ring|reflexivity].
  - cbn [app length licence_run nth_error] in *. inversion S as [|? ? S0 S']; subst. inversion F as [|? ? F0 F']; subst.
    rewrite (annual_before_same amount st p y s0 S0 Y).
    assert (UU : used (s0 :: a) == s_flow s0 * s_days s0 + used a) by reflexivity.
    assert (N : 0 <= used a).
    { apply Forall_app in F'. destruct F' as [F' _]. clear -F'. unfold used. induction F' as [|h t H _ IH]; [apply Qle_refl|]. change (0 <= s_flow h * s_days h + qsum (map (fun s => s_flow s * s_days s) t)). lra. }
    assert (R : l_remaining (annual_after st (s_flow s0) (s_days s0)) == l_remaining st - s_flow s0 * s_days s0).
    { cbn [annual_after l_remaining]. unfold storage_after. cbv zeta. destruct (qltbP (l_remaining st - s_flow s0 * s_days s0) 0); [exfalso; rewrite UU in U; lra|reflexivity]. }
    destruct (IH (annual_after st (s_flow s0) (s_days s0)) (s_flow s0) s b Y S' F') as (x & E & X); [rewrite R; rewrite UU in U; lra|].
    exists x. split; [exact E|]. rewrite X. apply Qdiv_comp; [rewrite R, UU; ring|reflexivity].
Qed.
(** C127: in a year that begins with a timestep, and as long as the licence lasts, the ratio in a timestep is that of the amount less what the timesteps of
    the year before it have used, for each day left, to the amount for each day of the year: nothing else matters. *)
Theorem C127_used : forall amount st p y a s b, 0 < amount -> l_prev_year st <> Some y -> Forall (starts_in y) (a ++ s :: b) ->
  match a ++ s :: b with [] => True | s0 :: _ => s_time s0 == year_start y end ->
  Forall (fun s => 0 <= s_flow s * s_days s) (a ++ s :: b) -> used a <= amount ->
  exists x, nth_error (licence_run (ratio amount) amount st p (a ++ s :: b)) (length a) = Some (Some (Fin x))
    /\ x * (amount / length_of y) == (amount - used a) / left_at y s.
Proof.
  intros amount st p y a s b A Y S T F U.
  assert (H : exists st1, l_prev_year st1 = Some y /\ l_remaining st1 == amount
    /\ licence_run (ratio amount) amount st p (a ++ s :: b) = licence_run (ratio amount) amount st1 p (a ++ s :: b)).
  { destruct (a ++ s :: b) as [|s0 r] eqn:E; [destruct a; discriminate|]. inversion S as [|? ? S0 S']; subst.
    exists (annual_before amount st p (s_time s0)). destruct (annual_before_new amount st p y s0 S0 Y) as [R _].
    pose proof (annual_before_year amount st p s0) as PY. rewrite (step_year_starts y s0 S0) in PY. split; [exact PY|]. split.
    - rewrite R, (floor_of _ _ T). fold (year_start y). ring.
    - cbn [licence_run]. rewrite (annual_before_same amount (annual_before amount st p (s_time s0)) p y s0 S0 PY). reflexivity. }
  destruct H as (st1 & Y1 & R1 & E1). rewrite E1.
  destruct (used_tail amount y A a st1 p s b Y1 S F) as (x & E & X); [rewrite R1; exact U|]. exists x. split; [exact E|]. rewrite X, R1. reflexivity.
Qed.
Print Assumptions C127_used.

(** Two days of January 2015 with a licence of 365: on track, and after taking twice the share on the first day. *)
Definition january (flow : Q) : list step :=
  [{| s_time := year_start 2015; s_days := 1; s_flow := flow |}; {| s_time := year_start 2015 + 1; s_days := 1; s_flow := 1 |}].
Example scaled_example : evenly 365 (january 1)
  /\ licence_run (fun s t => match hyperbola_value 365 10 s t with Some (Fin v) => Qred v | _ => 0 end) 365 {| l_remaining := 365; l_prev_year := None |} 0 (january 1) = [10; 10]
  /\ licence_run (fun s t => match hyperbola_value 365 10 s t with Some (Fin v) => Qred v | _ => 0 end) 365 {| l_remaining := 365; l_prev_year := None |} 0 (january 2) = [10; 3640 # 363].
Proof.
  split; [|vm_compute; split; reflexivity]. split; [|split].
  - cbn. repeat split; try reflexivity; lra.
  - repeat constructor; vm_compute; reflexivity.
  - exists 2015%Z. reflexivity.
Qed.

(** The documented limit of the hyperbola is infinity; with a negative value it is minus infinity, and with the value 0 it is not a number. *)
Theorem C127_negative_refuted : exists amount st s, 0 < amount /\ l_remaining st == 0 /\
  hyperbola_value amount (-1) st (s_time s) = Some NInf /\ hyperbola_value amount 0 st (s_time s) = None.
Proof.
  exists 365, {| l_remaining := 0; l_prev_year := Some 2015%Z |}, {| s_time := year_start 2015; s_days := 1; s_flow := 0 |}.
  vm_compute. repeat split; reflexivity.
Qed.
Print Assumptions C127_negative_refuted.
(** Nor is anything a number if the licence is of nothing. *)
Theorem C127_nothing_refuted : exists st s, l_remaining st == 0 /\ forall value k,
  hyperbola_value 0 value st (s_time s) = None /\ exponential_value 0 value k st (s_time s) = None.
Proof.
  exists {| l_remaining := 0; l_prev_year := Some 2015%Z |}, {| s_time := year_start 2015; s_days := 1; s_flow := 0 |}. split; [reflexivity|].
  intros value k. assert (E : ratio 0 {| l_remaining := 0; l_prev_year := Some 2015%Z |} (year_start 2015) = None) by (vm_compute; reflexivity).
  unfold hyperbola_value, exponential_value. cbn [s_time]. rewrite E. split; reflexivity.
Qed.
Print Assumptions C127_nothing_refuted.
