(** C98: harmonic series and discount factors. *)
From Coq Require Import Reals Qpower.
From Verif Require Import Base Calendar_spec Harmonic_model.
Local Open Scope R_scope.
Local Open Scope list_scope.

(** ** The mathematical series *)

(** mean + sum over n = 1, 2, ... of A_n cos (2 pi n t / 365 + phi_n). *)
Definition series (mean : R) (amps phases : list R) (t : Z) : R :=
  mean + fold_right Rplus 0 (map (fun n => nth n amps 0 * cos (2 * PI * INR (n + 1) * IZR t / 365 + nth n phases 0)) (seq 0 (length amps))).
Definition total (amps : list R) : R := fold_right Rplus 0 (map Rabs amps).

Lemma fold_Rplus_map_ext A (f g : A -> R) l : (forall x, In x l -> f x = g x) -> fold_right Rplus 0 (map f l) = fold_right Rplus 0 (map g l).
Proof. induction l as [|x l IH]; intros H; [reflexivity|]. cbn. rewrite IH, (H x); auto; intros; [now left|apply H; now right]. Qed.

Lemma loop_sum doy : forall amps phases n val, length amps = length phases ->
  harmonic_loop doy n amps phases val =
  val + fold_right Rplus 0 (map (fun k => nth k amps 0 * cos (2 * PI * INR (n + k + 1) * IZR doy / 365 + nth k phases 0)) (seq 0 (length amps))).
Proof.
  induction amps as [|a amps IH]; intros phases n val L; [cbn; ring|].
  destruct phases as [|f phases]; [discriminate L|]. cbn [harmonic_loop length seq map fold_right nth].
  rewrite IH by (cbn [length] in L; congruence). rewrite <- seq_shift, map_map. rewrite Rplus_assoc. f_equal.
  f_equal.
  - f_equal. f_equal. f_equal. replace (n + 0 + 1)%nat with (S n) by lia. rewrite S_INR. unfold Rdiv. ring.
  - apply fold_Rplus_map_ext. intros k _. cbn [nth]. replace (n + S k + 1)%nat with (S n + k + 1)%nat by lia. reflexivity.
Qed.

Lemma loop_series doy amps phases mean : length amps = length phases -> harmonic_loop doy 0 amps phases mean = series mean amps phases doy.
Proof. intros L. rewrite loop_sum by exact L. reflexivity. Qed.

(** What is kept is the value of the timestep it is kept for. *)
Definition fresh (h : harmonic) (calls : list (Z * Z)) : Prop :=
  h_index h = (-1)%Z \/ exists doy, h_cached h = series (h_mean h) (h_amps h) (h_phases h) (doy - 1) /\
    forall i d, In (i, d) calls -> i = h_index h -> d = doy.

(** C98: amplitudes and phases must be equally many.  Within a run, whatever the order of timesteps and scenarios, each value
    is that of the series at the day of the year, the first of January being day 0. *)
Theorem C98_series : forall mean amps phases h calls,
  harmonic_init mean amps phases = Some h ->
  (forall i d, In (i, d) calls -> (0 <= i)%Z) ->
  (forall i d e, In (i, d) calls -> In (i, e) calls -> d = e) ->
  harmonic_values (harmonic_reset h) calls = map (fun '(_, doy) => series mean amps phases (doy - 1)) calls.
Proof.
  intros mean amps phases h calls H P U. unfold harmonic_init in H.
  destruct (Nat.eqb_spec (length amps) (length phases)) as [L|L]; [|discriminate]. injection H as <-.
  unfold harmonic_reset. cbn [h_mean h_amps h_phases].
  assert (K : forall calls h, h_mean h = mean -> h_amps h = amps -> h_phases h = phases -> fresh h calls ->
     (forall i d, In (i, d) calls -> (0 <= i)%Z) -> (forall i d e, In (i, d) calls -> In (i, e) calls -> d = e) ->
     harmonic_values h calls = map (fun '(_, doy) => series mean amps phases (doy - 1)) calls).
  { clear P U calls. induction calls as [|[i doy] calls IH]; intros h E1 E2 E3 F P U; [reflexivity|].
    cbn [harmonic_values map]. unfold harmonic_value. destruct (Z.eqb_spec i (h_index h)) as [E|E].
    - destruct F as [F|[d [F1 F2]]]; [pose proof (P i doy (or_introl eq_refl)); lia|].
      f_equal; [rewrite F1, E1, E2, E3; now rewrite (F2 i doy (or_introl eq_refl) E)|].
      apply IH; [exact E1|exact E2|exact E3| | |].
      + right. exists d. split; [exact F1|]. intros i' d' I. apply F2. now right.
      + intros i' d' I. apply (P i' d'). now right.
      + intros i' d' e' I J. apply (U i' d' e'); now right.
    - rewrite E1, E2, E3, (loop_series _ _ _ _ L). f_equal. apply IH; try reflexivity.
      + right. cbn [h_index h_cached h_mean h_amps h_phases]. exists doy. split; [reflexivity|].
        intros i' d' I ->. apply (U i d' doy); [now right|now left].
      + intros i' d' I. apply (P i' d'). now right.
      + intros i' d' e' I J. apply (U i' d' e'); now right. }
  apply K; try reflexivity; [|exact P|exact U]. left. reflexivity.
Qed.
Print Assumptions C98_series.

Theorem C98_accepted : forall mean amps phases, harmonic_init mean amps phases <> None <-> length amps = length phases.
Proof.
  intros. unfold harmonic_init. destruct (Nat.eqb_spec (length amps) (length phases)); split; congruence.
Qed.
Print Assumptions C98_accepted.

(** C98: the series stays within the sum of the amplitudes around its mean. *)
Theorem C98_range : forall mean amps phases t, Rabs (series mean amps phases t - mean) <= total amps.
Proof.
  intros mean amps phases t. unfold series, total.
  replace (mean + fold_right Rplus 0 (map (fun n => nth n amps 0 * cos (2 * PI * INR (n + 1) * IZR t / 365 + nth n phases 0)) (seq 0 (length amps))) - mean)
    with (fold_right Rplus 0 (map (fun n => nth n amps 0 * cos (2 * PI * INR (n + 1) * IZR t / 365 + nth n phases 0)) (seq 0 (length amps)))) by ring.
  assert (K : forall (g : nat -> R) l s, (forall n, Rabs (g n) <= 1) ->
     Rabs (fold_right Rplus 0 (map (fun n => nth (n - s) l 0 * g n) (seq s (length l)))) <= fold_right Rplus 0 (map Rabs l)).
  { intros g l s B. revert s. induction l as [|a l IH]; intros s; [cbn; rewrite Rabs_R0; apply Rle_refl|].
    cbn [length seq map fold_right]. rewrite Nat.sub_diag. cbn [nth].
    eapply Rle_trans; [apply Rabs_triang|]. apply Rplus_le_compat.
    - rewrite Rabs_mult. rewrite <- (Rmult_1_r (Rabs a)) at 2. apply Rmult_le_compat_l; [apply Rabs_pos|apply B].
    - erewrite fold_Rplus_map_ext; [apply (IH (S s))|]. intros n I. apply in_seq in I. cbn beta.
      replace (n - s)%nat with (S (n - S s)) by lia. reflexivity. }
  erewrite fold_Rplus_map_ext; [apply (K (fun n => cos (2 * PI * INR (n + 1) * IZR t / 365 + nth n phases 0)) amps 0%nat)|].
  - intros n. apply Rabs_le. apply COS_bound.
  - intros n _. cbn beta. now rewrite Nat.sub_0_r.
Qed.
Print Assumptions C98_range.

(** C98: the series has a period of 365 days; the last day of a leap year has the value of the first of January, and the
    value at a date after February is that of the day before it in a common year. *)
Theorem C98_period : forall mean amps phases t, series mean amps phases (t + 365) = series mean amps phases t.
Proof.
  intros mean amps phases t. unfold series. f_equal. apply fold_Rplus_map_ext. intros n _. f_equal.
  rewrite plus_IZR. replace (2 * PI * INR (n + 1) * (IZR t + 365) / 365 + nth n phases 0)
    with ((2 * PI * INR (n + 1) * IZR t / 365 + nth n phases 0) + 2 * INR (n + 1) * PI) by field.
  apply cos_period.
Qed.
Print Assumptions C98_period.

Theorem C98_leap_shift : forall y z m d, gleapb y = true -> gleapb z = false -> (3 <= m <= 12)%Z ->
  (1 <= d <= month_days false m)%Z ->
  day_of_year (Date y m d) = (day_of_year (Date z m d) + 1)%Z.
Proof.
  intros y z m d Y Z M D. unfold day_of_year. cbn [yr mon dom]. rewrite Y, Z.
  assert (m = 3 \/ m = 4 \/ m = 5 \/ m = 6 \/ m = 7 \/ m = 8 \/ m = 9 \/ m = 10 \/ m = 11 \/ m = 12)%Z as C by lia.
  clear - C. repeat (destruct C as [->|C]; [vm_compute days_before; lia|]). rewrite C. vm_compute days_before. lia.
Qed.
Print Assumptions C98_leap_shift.

(** C98: the optimisation variables are the mean, the amplitudes and the phases, in this order; new ones count from the
    next reset on. *)
Theorem C98_variables : forall mean amps phases h values,
  harmonic_init mean amps phases = Some h ->
  harmonic_get h = mean :: amps ++ phases /\
  (length values = (1 + 2 * length amps)%nat <-> harmonic_set h values <> None) /\
  forall k, harmonic_set h values = Some k -> harmonic_get k = values /\
    exists m a f, values = m :: a ++ f /\ length a = length f /\ harmonic_init m a f = Some (harmonic_reset k).
Proof.
  intros mean amps phases h values H. unfold harmonic_init in H.
  destruct (Nat.eqb_spec (length amps) (length phases)) as [L|L]; [|discriminate]. injection H as <-.
  split; [reflexivity|]. unfold harmonic_set. cbn [h_amps h_phases h_cached h_index]. destruct values as [|m rest].
  - split; [split; [intros E; cbn in E; lia|congruence]|discriminate].
  - cbn [length]. destruct (Nat.eqb_spec (length (firstn (length amps) rest)) (length amps)) as [A|A]; cbn [andb].
    + destruct (Nat.eqb_spec (length (skipn (length amps) rest)) (length phases)) as [B|B].
      * split; [split; [discriminate|]; intros _; rewrite <- (firstn_skipn (length amps) rest), app_length; lia|].
        intros k E. injection E as <-. unfold harmonic_get. cbn [h_mean h_amps h_phases]. split; [now rewrite firstn_skipn|].
        exists m, (firstn (length amps) rest), (skipn (length amps) rest). split; [now rewrite firstn_skipn|]. split; [congruence|].
        unfold harmonic_init, harmonic_reset. cbn [h_mean h_amps h_phases]. rewrite A, B, L, Nat.eqb_refl. reflexivity.
      * split; [split; [intros E; exfalso; apply B; rewrite skipn_length; lia|congruence]|discriminate].
    + split; [split; [intros E; exfalso; apply A; rewrite firstn_length; lia|congruence]|discriminate].
Qed.
Print Assumptions C98_variables.

(** C98, refuted: variables set between two values of the same timestep do not show in the second one. *)
Theorem C98_set_shows_refuted : exists h values k, harmonic_init 1 [] [] = Some h /\
  harmonic_set (fst (harmonic_value h 0 1)) values = Some k /\
  snd (harmonic_value k 0 1) = 1 /\ h_mean k = 2.
Proof.
  exists (Harmonic 1 [] [] 0 (-1)%Z), [2], (Harmonic 2 [] [] 1 0%Z). repeat split.
Qed.
Print Assumptions C98_set_shows_refuted.

(** ** Discount factors *)
Local Open Scope Q_scope.

(** C98: with a rate above -1, the factor is one in the base year and each year the one of the year before divided by one
    plus the rate; it is positive, so this determines it for all years. *)
Theorem C98_discount : forall rate base, - (1) < rate ->
  exists f : Z -> Q, (forall year, discount rate base year = Some (f year)) /\
    f base == 1 /\ (forall year, f (year + 1)%Z * (1 + rate) == f year) /\ (forall year, 0 < f year).
Proof.
  intros rate base H. exists (fun year => 1 / Qpower (1 + rate) (year - base)). assert (N : ~ 1 + rate == 0) by lra.
  split; [|split; [|split]].
  - intros year. unfold discount. destruct (qeqbP (1 + rate) 0); [contradiction|reflexivity].
  - rewrite Z.sub_diag. reflexivity.
  - intros year. replace (year + 1 - base)%Z with ((year - base) + 1)%Z by lia. rewrite Qpower_plus by exact N.
    change (Qpower (1 + rate) 1) with (1 + rate). field. split; [apply Qpower_not_0; exact N|exact N].
  - intros year. unfold Qdiv. rewrite Qmult_1_l. apply Qinv_lt_0_compat. apply Qpower_0_lt. lra.
Qed.
Print Assumptions C98_discount.

(** C98: with a positive rate, later years count less. *)
Theorem C98_discount_falls : forall rate base y z a b, 0 < rate -> (y < z)%Z ->
  discount rate base y = Some a -> discount rate base z = Some b -> b < a.
Proof.
  intros rate base y z a b Hr L A B. destruct (C98_discount rate base ltac:(lra)) as [f [F1 [_ [F2 F3]]]].
  rewrite F1 in A, B. injection A as <-. injection B as <-.
  replace z with (y + Z.of_nat (S (Z.to_nat (z - y - 1))))%Z by lia.
  induction (Z.to_nat (z - y - 1)) as [|n IH].
  - specialize (F2 y). pose proof (F3 (y + 1)%Z). change (y + Z.of_nat 1)%Z with (y + 1)%Z. nra.
  - specialize (F2 (y + Z.of_nat (S n))%Z). pose proof (F3 (y + Z.of_nat (S n) + 1)%Z).
    replace (y + Z.of_nat (S (S n)))%Z with (y + Z.of_nat (S n) + 1)%Z by lia. nra.
Qed.
Print Assumptions C98_discount_falls.

Example C98_discount_example : map (fun y => option_map Qred (discount (1 # 4) 2015 y)) [2014; 2015; 2016; 2017]%Z
  = [Some (5 # 4); Some 1; Some (4 # 5); Some (16 # 25)].
Proof. reflexivity. Qed.

Example C98_series_example : (series 3 [2] [0] 0 = 5)%R /\
  match harmonic_init 3 [2%R] [0%R] with
  | Some h => harmonic_values (harmonic_reset h) [(0, 1); (0, 1); (1, 2)]%Z = [5%R; 5%R; series 3 [2%R] [0%R] 1]
  | None => False
  end.
Proof.
  assert (E : (series 3 [2] [0] 0 = 5)%R).
  { unfold series. cbn [length seq map fold_right nth Nat.add]. replace (2 * PI * INR 1 * 0 / 365 + 0)%R with 0%R by (unfold Rdiv; ring).
    rewrite cos_0. ring. }
  split; [exact E|]. destruct (harmonic_init 3 [2%R] [0%R]) as [h|] eqn:H; [|discriminate H].
  rewrite (C98_series _ _ _ _ [(0, 1); (0, 1); (1, 2)]%Z H).
  - cbn [map]. rewrite <- E. reflexivity.
  - intros i d I. cbn in I. destruct I as [I|[I|[I|[]]]]; injection I as <- <-; lia.
  - intros i d e I J. cbn in I, J.
    destruct I as [I|[I|[I|[]]]]; injection I as <- <-; destruct J as [J|[J|[J|[]]]]; injection J; intros; lia.
Qed.
