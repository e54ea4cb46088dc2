From Verif Require Import Base Calendar_spec Calendar_model Profiles_model Profiles_proofs Weighted_model Weighted_proofs.
Local Open Scope Q_scope.
Local Open Scope list_scope.

(** C95: on every date the value is the mean of what the profiles would return on that date, weighted with the maximum volumes. *)
Theorem C95_weighted : forall ws profiles d vs, length ws = length profiles -> forallb profile_ok profiles = true -> valid_date d ->
  map (fun p => profile_value p d) profiles = map Some vs -> ~ qsum ws == 0 ->
  exists daily v, reset (map VNumber ws) profiles = Some daily /\ value daily d = Some v /\
    v * qsum ws == qsum (map (fun wv => fst wv * snd wv) (combine ws vs)).
Proof.
  intros ws profiles d vs L O V E NZ. destruct (values_daily profiles d vs V E) as (ls & El & ->).
  destruct (totals_spec ws profiles 0 (repeat 0 366) (day d) L O (repeat_length _ _) (day_lt d V) ls El) as (T & B & HT & HB & Q1 & Q2).
  unfold reset. rewrite HT. eexists. exists (nth (day d) B 0 / T). split; [reflexivity|].
  assert (TN : ~ T == 0) by (rewrite Q1; intros H; apply NZ; lra). split.
  - unfold value. fold (day d). pose proof (day_lt d V).
    rewrite nth_indep with (d' := (fun a => if qeqb T 0 then None else Some (a / T)) 0) by (rewrite map_length; lia).
    rewrite (map_nth (fun a => if qeqb T 0 then None else Some (a / T))). destruct (qeqbP T 0); [contradiction|reflexivity].
  - assert (QT : qsum ws == T) by lra. rewrite QT. unfold Qdiv. rewrite <- Qmult_assoc, (Qmult_comm (/ T)), Qmult_inv_r, Qmult_1_r by auto. rewrite Q2.
    rewrite nth_repeat. rewrite Qplus_0_l.
    assert (G : forall ws ls, qsum (map (fun wl => fst wl * nth (day d) (snd wl) 0) (combine ws ls)) ==
                              qsum (map (fun wv => fst wv * snd wv) (combine ws (map (fun l => nth (day d) l 0) ls)))).
    { clear. induction ws; intros [|l ls]; cbn; try reflexivity. now rewrite IHws. }
    apply G.
Qed.
Print Assumptions C95_weighted.

(** Hence it is between the smallest and the greatest of them. *)
Theorem C95_between : forall ws profiles d vs lo hi daily v, length ws = length profiles -> forallb profile_ok profiles = true -> valid_date d ->
  map (fun p => profile_value p d) profiles = map Some vs -> (forall w, In w ws -> 0 <= w) -> 0 < qsum ws ->
  (forall x, In x vs -> lo <= x <= hi) -> reset (map VNumber ws) profiles = Some daily -> value daily d = Some v -> lo <= v <= hi.
Proof.
  intros ws profiles d vs lo hi daily v L O V E P S B R W.
  destruct (C95_weighted ws profiles d vs L O V E) as (daily' & v' & R' & W' & M); [lra|].
  rewrite R in R'. injection R' as <-. rewrite W in W'. injection W' as <-.
  assert (Lv : length vs = length ws) by (rewrite L; apply (f_equal (@length _)) in E; rewrite !map_length in E; auto).
  assert (G : forall ws vs, length vs = length ws -> (forall w, In w ws -> 0 <= w) -> (forall x, In x vs -> lo <= x <= hi) ->
    lo * qsum ws <= qsum (map (fun wv => fst wv * snd wv) (combine ws vs)) <= hi * qsum ws).
  { clear. induction ws as [|w ws IH]; intros [|x vs] Lv P B; try discriminate Lv; cbn -[Qmult]; [lra|].
    destruct (IH vs) as [I1 I2]; [now injection Lv|intros; apply P; now right|intros; apply B; now right|].
    assert (0 <= w) by (apply P; now left). destruct (B x (or_introl eq_refl)).
    assert (0 <= w * (x - lo)) by (apply Qmult_le_0_compat; lra). assert (0 <= w * (hi - x)) by (apply Qmult_le_0_compat; lra). lra. }
  destruct (G ws vs Lv P B) as [G1 G2]. rewrite <- M in G1, G2.
  split; apply Qmult_le_r with (z := qsum ws); auto.
Qed.
Print Assumptions C95_between.

(** Accepted are storages whose maximum volume is a number, with constant, daily and monthly profiles. *)
Theorem C95_accepted : forall storages profiles, (exists daily, reset storages profiles = Some daily) <->
  forall i v p, nth_error storages i = Some v -> nth_error profiles i = Some p -> (exists q, v = VNumber q) /\ p <> POther.
Proof.
  intros. rewrite <- (accepted_spec storages profiles 0 (repeat 0 366)). unfold reset.
  destruct (totals (combine storages profiles) 0 (repeat 0 366)) as [[T B]|]; split; intros [x H]; eauto; discriminate H.
Qed.
Print Assumptions C95_accepted.

(** A maximum volume that is a constant parameter, which the code means to accept, is refused. *)
Theorem C95_constant_volume_refuted : exists q p, profile_ok p = true /\ reset [VConstant q] [p] = None /\ exists daily, reset [VNumber q] [p] = Some daily.
Proof. exists 10, (PConstant 1). split; [reflexivity|]. split; [reflexivity|]. eexists. reflexivity. Qed.
Print Assumptions C95_constant_volume_refuted.

(** A storage without a profile is left out without notice. *)
Theorem C95_lengths_refuted : exists ws extra profiles daily, extra <> [] /\
  reset (map VNumber (ws ++ extra)) profiles = Some daily /\ reset (map VNumber ws) profiles = Some daily.
Proof. exists [1], [3], [PConstant (1 # 2)]. eexists. split; [discriminate|]. split; reflexivity. Qed.
Print Assumptions C95_lengths_refuted.

(** Volumes 10 and 30; 0.5 all year and a monthly profile with 0.9 in March: on the 1st of March (3 * 0.9 + 0.5) / 4. *)
Example C95_example :
  option_map (fun daily => option_map Qred (value daily (Date 2015 3 1)))
    (reset [VNumber 10; VNumber 30] [PConstant (1 # 2); PMonthly None [1#10; 2#10; 9#10; 4#10; 0; 0; 0; 0; 0; 0; 0; 0]]) = Some (Some (4 # 5)).
Proof. vm_compute. reflexivity. Qed.
