From Verif Require Import Base Calendar_spec Calendar_model Calendar_proofs Profiles_model Profiles_proofs Weighted_model.
Local Open Scope Q_scope.
Local Open Scope list_scope.

Definition day (d : date) : nat := Z.to_nat (dayofyear_index (is_leap_year (yr d)) (day_of_year d)).

Lemma month_blocks : forallb (fun m => forallb (fun k => 
   Nat.eqb (nth (Z.to_nat (leap_position m k)) (flat_map (fun mth => repeat mth (Z.to_nat (month_days true (Z.of_nat mth + 1)))) (seq 0 12)) 99%nat) (Z.to_nat (m - 1)))
   (map (fun k => Z.of_nat k + 1)%Z (seq 0 (Z.to_nat (month_days true m))))) (map (fun m => Z.of_nat m + 1)%Z (seq 0 12)) = true.
Proof. vm_compute. reflexivity. Qed.

Lemma Some_inj {A} (a b : A) : Some a = Some b -> a = b.
Proof. now intros [= ->]. Qed.
Lemma flat_map_repeat_map (f : nat -> Q) (n : nat -> nat) l : flat_map (fun m => repeat (f m) (n m)) l = map f (flat_map (fun m => repeat m (n m)) l).
Proof.
  induction l as [|m l IH]; simpl; [reflexivity|]. rewrite map_app, <- IH. f_equal.
  induction (n m); simpl; [reflexivity|]. now f_equal.
Qed.

Lemma blocks_at m k : (1 <= m <= 12)%Z -> (1 <= k <= month_days true m)%Z ->
  nth (Z.to_nat (leap_position m k)) (flat_map (fun mth => repeat mth (Z.to_nat (month_days true (Z.of_nat mth + 1)))) (seq 0 12)) 99%nat = Z.to_nat (m - 1).
Proof.
  intros Hm Hk. pose proof month_blocks as H. rewrite forallb_forall in H.
  assert (I : In m (map (fun m => Z.of_nat m + 1)%Z (seq 0 12))).
  { apply in_map_iff. exists (Z.to_nat (m - 1)). split; [lia|]. apply in_seq. lia. }
  specialize (H m I). rewrite forallb_forall in H.
  assert (J : In k (map (fun k => Z.of_nat k + 1)%Z (seq 0 (Z.to_nat (month_days true m))))).
  { apply in_map_iff. exists (Z.to_nat (k - 1)). split; [lia|]. apply in_seq. lia. }
  specialize (H k J). now apply Nat.eqb_eq in H.
Qed.

Lemma daily_length p l : profile_ok p = true -> daily_of p = Some l -> length l = 366%nat.
Proof.
  destruct p as [q|values|dy values|]; cbn [profile_ok daily_of]; intros O E; try discriminate E; apply Some_inj in E; subst l.
  - apply repeat_length.
  - now apply Nat.eqb_eq in O.
  - destruct dy as [dy|]; cbn [monthly_daily_values]; [apply interp_values_length|].
    rewrite (flat_map_repeat_map (fun m => nth m values 0)), map_length. reflexivity.
Qed.

Lemma month_days_leap b m : (1 <= m <= 12)%Z -> (month_days b m <= month_days true m)%Z.
Proof. intros H. apply month_cases in H. repeat destruct H as [->|H]; try (subst m); destruct b; vm_compute; discriminate. Qed.

Lemma day_lt d : valid_date d -> (day d < 366)%nat.
Proof.
  intros V. unfold day. fold (day_index d). rewrite day_index_position by auto. destruct V as [Hm Hd].
  pose proof (leap_position_range _ _ _ Hm Hd). lia.
Qed.

Lemma daily_value p l d : valid_date d -> daily_of p = Some l -> profile_value p d = Some (nth (day d) l 0).
Proof.
  intros V. destruct p as [q|values|dy values|]; cbn [daily_of profile_value]; intros E; try discriminate E; apply Some_inj in E; subst l.
  - f_equal. symmetry. pose proof (day_lt d V). rewrite nth_indep with (d' := q) by (rewrite repeat_length; lia). apply nth_repeat.
  - reflexivity.
  - f_equal. destruct dy as [dy|]; cbn [monthly_value monthly_daily_values]; [reflexivity|].
    rewrite (flat_map_repeat_map (fun m => nth m values 0)).
    pose proof (day_lt d V) as L.
    assert (N : nth (day d) (flat_map (fun mth => repeat mth (Z.to_nat (month_days true (Z.of_nat mth + 1)))) (seq 0 12)) 99%nat = Z.to_nat (mon d - 1)).
    { unfold day. fold (day_index d). rewrite day_index_position by auto. destruct V as [Hm Hd]. apply blocks_at; auto.
      pose proof (month_days_leap (gleapb (yr d)) _ Hm). lia. }
    assert (Lb : length (flat_map (fun mth => repeat mth (Z.to_nat (month_days true (Z.of_nat mth + 1)))) (seq 0 12)) = 366%nat) by reflexivity.
    revert N Lb. generalize (flat_map (fun mth => repeat mth (Z.to_nat (month_days true (Z.of_nat mth + 1)))) (seq 0 12)). intros X N Lb.
    rewrite (nth_indep (map (fun m => nth m values 0) X) 0 (nth 99 values 0)) by (rewrite map_length; lia).
    now rewrite (map_nth (fun m => nth m values 0)), N.
Qed.

(** The totals, entry by entry. *)
Lemma totals_spec : forall ws profiles total absolute i, length ws = length profiles -> forallb profile_ok profiles = true ->
  length absolute = 366%nat -> (i < 366)%nat ->
  forall ls, map daily_of profiles = map Some ls ->
  exists total' absolute', totals (combine (map VNumber ws) profiles) total absolute = Some (total', absolute') /\ length absolute' = 366%nat /\
    total' == total + qsum ws /\ nth i absolute' 0 == nth i absolute 0 + qsum (map (fun wl => fst wl * nth i (snd wl) 0) (combine ws ls)).
Proof.
  induction ws as [|w ws IH]; intros [|p profiles] total absolute i L O A Hi ls E; try discriminate L; destruct ls as [|l ls]; try discriminate E.
  - exists total, absolute. cbn. repeat split; auto; lra.
  - cbn [map] in E. injection E as El E. cbn [forallb] in O. apply Bool.andb_true_iff in O. destruct O as [Op O].
    cbn [map combine totals volume_of]. rewrite El. pose proof (daily_length p l Op El) as Ll.
    destruct (IH profiles (total + w) (map (fun ab => fst ab + snd ab * w) (combine absolute l)) i) with (ls := ls) as (T & B & HT & HB & Q1 & Q2); auto.
    { rewrite map_length, combine_length. lia. }
    exists T, B. split; [exact HT|]. split; [exact HB|]. split.
    + rewrite Q1. cbn [qsum]. lra.
    + rewrite Q2. rewrite nth_indep with (d' := (fun ab => fst ab + snd ab * w) (0, 0)) by (rewrite map_length, combine_length; lia).
      rewrite (map_nth (fun ab => fst ab + snd ab * w)), combine_nth by lia. cbn [map combine qsum fst snd]. lra.
Qed.

Lemma values_daily profiles d vs : valid_date d -> map (fun p => profile_value p d) profiles = map Some vs ->
  exists ls, map daily_of profiles = map Some ls /\ vs = map (fun l => nth (day d) l 0) ls.
Proof.
  intros V. revert vs. induction profiles as [|p profiles IH]; intros [|v vs] E; try discriminate E.
  - exists []. split; reflexivity.
  - cbn [map] in E. injection E as Ev E. destruct (IH vs E) as (ls & H1 & ->).
    destruct (daily_of p) as [l|] eqn:D.
    + exists (l :: ls). cbn [map]. rewrite D, H1. rewrite (daily_value p l d V D) in Ev. injection Ev as <-. split; reflexivity.
    + exfalso. destruct p; discriminate.
Qed.

Lemma accepted_spec : forall storages profiles total absolute,
  (exists r, totals (combine storages profiles) total absolute = Some r) <->
  forall i v p, nth_error storages i = Some v -> nth_error profiles i = Some p -> (exists q, v = VNumber q) /\ p <> POther.
Proof.
  induction storages as [|v vs IH]; intros [|p ps] total absolute; cbn [combine totals].
  - split; [intros _ [|]; discriminate|eauto].
  - split; [intros _ [|]; discriminate|eauto].
  - split; [intros _ [|] ? ? ? H; discriminate H|eauto].
  - assert (K : (forall i v' p', nth_error (v :: vs) i = Some v' -> nth_error (p :: ps) i = Some p' -> (exists q, v' = VNumber q) /\ p' <> POther) <->
      ((exists q, v = VNumber q) /\ p <> POther) /\ forall i v' p', nth_error vs i = Some v' -> nth_error ps i = Some p' -> (exists q, v' = VNumber q) /\ p' <> POther).
    { split.
      - intros H. split; [exact (H 0%nat v p eq_refl eq_refl)|]. intros i. exact (H (S i)).
      - intros [H1 H2] [|i] v' p' A B; cbn in A, B; [injection A as <-; injection B as <-; exact H1|eauto]. }
    rewrite K. destruct v as [q|q|]; cbn [volume_of].
    + destruct (daily_of p) as [l|] eqn:D.
      * rewrite IH. assert (p <> POther) by (intros ->; discriminate). intuition eauto.
      * assert (p = POther) by (destruct p; discriminate || reflexivity). split; [intros [r H0]; discriminate H0|intros [[_ H0] _]; contradiction].
    + split; [intros [r H0]; discriminate H0|intros [[[x H0] _] _]; discriminate H0].
    + split; [intros [r H0]; discriminate H0|intros [[[x H0] _] _]; discriminate H0].
Qed.
