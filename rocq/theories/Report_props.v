(** C102: messages about the progress, and assertions on parameters. *)
From Coq Require Import Sorting.Sorted.
From Verif Require Import Base Report_model.
Local Open Scope nat_scope.
Local Open Scope list_scope.

Lemma progress_mono total i j : 0 < total -> i <= j -> (progress total i <= progress total j)%Z.
Proof. intros T L. unfold progress. apply Z.div_le_mono; lia. Qed.

Lemma progress_bound total i : 0 < total -> i < total -> (0 <= progress total i <= 100)%Z.
Proof.
  intros T L. unfold progress. split; [apply Z.div_pos; lia|]. apply Z.div_le_upper_bound; lia.
Qed.

Lemma progress_end total : 0 < total -> progress total (total - 1) = 100%Z.
Proof. intros T. unfold progress. replace (S (total - 1)) with total by lia. rewrite Z.mul_comm. apply Z.div_mul. lia. Qed.

(** The percentages are those of the timesteps that exceed all before; the steps between messages add up. *)
Lemma steps_reports total : forall n s idx, 0 < total -> idx + n <= total -> (idx = 0 -> (last s < 0)%Z) -> (0 < idx -> last s = progress total (idx - 1)) ->
  let (s', ms) := progress_steps total s idx n in
  (0 < n -> last s' = progress total (idx + n - 1)) /\ (n = 0 -> s' = s) /\
  Forall (fun m => (last s < fst m <= 100)%Z) ms /\ StronglySorted (fun a b => (fst a < fst b)%Z) ms /\
  (forall p, In p (map fst ms) <-> (last s < p)%Z /\ exists i, idx <= i < idx + n /\ progress total i = p).
Proof.
  induction n as [|n IH]; intros s idx T L H0 HS; cbn [progress_steps].
  - split; [lia|]. split; [reflexivity|]. split; [constructor|]. split; [constructor|]. intros p. split; [intros []|intros [_ [i [X _]]]; lia].
  - unfold progress_after. cbv zeta. pose proof (progress_bound total idx T ltac:(lia)) as PB.
    assert (GE : (last s <= progress total idx)%Z).
    { destruct idx as [|idx]; [specialize (H0 eq_refl); lia|]. rewrite HS by lia. apply progress_mono; lia. }
    assert (K : exists s1 m, (if (last s <? progress total idx)%Z then (Progress (progress total idx) idx, [(progress total idx, if (1 <=? progress total idx)%Z then Some (idx - since s) else None)]) else (s, [])) = (s1, m) /\
      last s1 = progress total idx /\ (forall p, In p (map fst m) <-> p = progress total idx /\ (last s < p)%Z) /\ (length m <= 1)).
    { destruct (Z.ltb_spec (last s) (progress total idx)) as [C|C].
      - do 2 eexists. split; [reflexivity|]. cbn [last map fst length]. split; [reflexivity|]. split; [|lia]. intros p. cbn. split; [intros [<-|[]]; split; [reflexivity|lia]|intros [-> _]; now left].
      - exists s, []. split; [reflexivity|]. cbn [map length]. split; [lia|]. split; [|lia]. intros p. split; [intros []|intros [-> X]; lia]. }
    destruct K as [s1 [m [-> [L1 [M1 M2]]]]].
    specialize (IH s1 (S idx) T ltac:(lia) ltac:(lia)). assert (X : 0 < S idx -> last s1 = progress total (S idx - 1)) by (intros _; rewrite L1; f_equal; lia). specialize (IH X).
    destruct (progress_steps total s1 (S idx) n) as [s' ms]. destruct IH as [I1 [I2 [I3 [I4 I5]]]].
    split; [|split; [lia|split; [|split]]].
    + intros _. destruct n as [|n]; [rewrite (I2 eq_refl), L1; f_equal; lia|]. rewrite I1 by lia. f_equal. lia.
    + apply Forall_app. split.
      * apply Forall_forall. intros [p o] I. assert (J : In p (map fst m)) by (apply in_map_iff; now exists (p, o)). apply M1 in J. cbn [fst]. lia.
      * apply Forall_forall. intros x I. apply (proj1 (Forall_forall _ _) I3) in I. lia.
    + destruct m as [|[p o] [|]]; cbn [length] in M2; [exact I4| |lia]. cbn [app]. constructor; [exact I4|].
      apply Forall_forall. intros x I. apply (proj1 (Forall_forall _ _) I3) in I. cbn [fst].
      destruct (proj1 (M1 p) (or_introl eq_refl)) as [-> _]. lia.
    + intros p. rewrite map_app, in_app_iff, M1, I5, L1. split.
      * intros [[-> C]|[C [i [R E]]]]; [split; [exact C|exists idx; split; [lia|reflexivity]]|]. split; [lia|]. exists i. split; [lia|exact E].
      * intros [C [i [R E]]]. destruct (Nat.eq_dec i idx) as [->|N]; [left; split; [now symmetry|exact C]|].
        destruct (Z_lt_le_dec (progress total idx) p) as [D|D]; [right; split; [exact D|exists i; split; [lia|exact E]]|].
        left. split; [|exact C]. pose proof (progress_mono total idx i T ltac:(lia)). lia.
Qed.

(** C102: the percentages reported in the first [n] timesteps of [total] increase strictly, are between 0 and 100, and are exactly those
    of the timesteps. *)
Theorem C102_progress : forall total n, 0 < total -> n <= total ->
  StronglySorted Z.lt (map fst (reports total n)) /\
  (forall p, In p (map fst (reports total n)) -> (0 <= p <= 100)%Z) /\
  (forall p, In p (map fst (reports total n)) <-> exists i, i < n /\ (p * Z.of_nat total <= Z.of_nat (i + 1) * 100 < (p + 1) * Z.of_nat total)%Z).
Proof.
  intros total n T L. unfold reports. pose proof (steps_reports total n progress_reset 0 T ltac:(lia) ltac:(cbn; lia) ltac:(lia)) as H.
  destruct (progress_steps total progress_reset 0 n) as [s ms]. cbn [snd]. destruct H as [_ [_ [H1 [H2 H3]]]].
  assert (R : forall p, In p (map fst ms) <-> exists i, i < n /\ progress total i = p).
  { intros p. rewrite H3. cbn [progress_reset last]. split; [intros [_ [i [X Y]]]; exists i; split; [lia|exact Y]|].
    intros [i [X Y]]. pose proof (progress_bound total i T ltac:(lia)). split; [lia|]. exists i. split; [lia|exact Y]. }
  split; [|split].
  - clear -H2. induction H2 as [|m ms S IH F]; cbn [map]; constructor; [exact IH|]. apply Forall_forall. intros x I. apply in_map_iff in I as [m' [<- I]].
    apply (proj1 (Forall_forall _ _) F _ I).
  - intros p I. apply R in I as [i [X <-]]. apply progress_bound; lia.
  - intros p. rewrite R. split; intros [i [X Y]]; exists i; (split; [exact X|]).
    + rewrite <- Y. unfold progress. replace (S i) with (i + 1) by lia.
      pose proof (Z.div_mod (Z.of_nat (i + 1) * 100) (Z.of_nat total) ltac:(lia)). pose proof (Z.mod_pos_bound (Z.of_nat (i + 1) * 100) (Z.of_nat total) ltac:(lia)). nia.
    + unfold progress. replace (S i) with (i + 1) by lia. symmetry. apply (Z.div_unique_pos _ _ _ (Z.of_nat (i + 1) * 100 - p * Z.of_nat total)); lia.
Qed.
Print Assumptions C102_progress.

(** C102: a run is reported as complete exactly if it is. *)
Theorem C102_complete : forall total n, 0 < total -> n <= total -> bar_success total n = true <-> n = total.
Proof.
  intros total n T L. pose proof (C102_progress total n T L) as [S [B R]]. unfold bar_success. split.
  - destruct (rev (reports total n)) as [|[p o] r] eqn:E; [discriminate|]. intros C. apply Z.leb_le in C.
    assert (I : In p (map fst (reports total n))).
    { apply in_map_iff. exists (p, o). split; [reflexivity|]. apply in_rev. rewrite E. now left. }
    pose proof (B p I). apply R in I as [i [X [Y Z]]]. nia.
  - intros ->. assert (I : In 100%Z (map fst (reports total total))).
    { apply R. exists (total - 1). split; [lia|]. replace (total - 1 + 1) with total by lia. lia. }
    destruct (rev (reports total total)) as [|[p o] r] eqn:E.
    + apply (f_equal (@rev _)) in E. rewrite rev_involutive in E. rewrite E in I. destruct I.
    + apply Z.leb_le. apply (f_equal (@rev _)) in E. rewrite rev_involutive in E. cbn [rev] in E. rewrite E in S, I. rewrite map_app in S, I. cbn [map fst] in S, I.
      apply in_app_or in I as [I|[->|[]]]; [|lia]. assert (K : forall l x y, StronglySorted Z.lt (l ++ [y]) -> In x l -> (x < y)%Z).
      { induction l as [|a l IH]; intros x y H J; [destruct J|]. cbn in H. inversion H as [|? ? H1 H2]; subst. destruct J as [->|J]; [|exact (IH x y H1 J)].
        apply (proj1 (Forall_forall _ _) H2). apply in_or_app. right. now left. }
      pose proof (K _ _ _ S I). lia.
Qed.
Print Assumptions C102_complete.

(** C102: an assertion passes exactly if in every timestep and scenario the value is the expected one, up to one part in ten million;
    otherwise the first timestep, and in it the first scenario, that is not as expected is named. *)
Theorem C102_assertion : forall e scenarios values f,
  (e_func e = Some f \/ e_func e = None /\ e_data e = Some f) ->
  let good t s v := (qabs (v s - f t s) <= (1 # 10000000) * qabs (f t s))%Q in
  forall v, snd (assert_steps e scenarios 0 0 values) = v ->
  match v with
  | Passed => forall t w s, nth_error values t = Some w -> In s scenarios -> good t s w
  | Mismatch t s => exists w before after, nth_error values t = Some w /\ scenarios = before ++ s :: after /\ ~ good t s w /\
      (forall s', In s' before -> good t s' w) /\ (forall t' w' s', t' < t -> nth_error values t' = Some w' -> In s' scenarios -> good t' s' w')
  | NoExpectation => False
  end.
Proof.
  intros e scenarios values f HF good.
  assert (EX : forall t s, match e_func e, e_data e with Some f, _ => Some (f t s) | None, Some d => Some (d t s) | None, None => None end = Some (f t s)).
  { intros t s. destruct HF as [->|[-> ->]]; reflexivity. }
  assert (SC : forall w t l, match assert_scenarios e w t l with
    | Passed => forall s, In s l -> good t s w
    | Mismatch t' s => t' = t /\ exists before after, l = before ++ s :: after /\ ~ good t s w /\ forall s', In s' before -> good t s' w
    | NoExpectation => False end).
  { intros w t. induction l as [|s l IH]; cbn [assert_scenarios]; [intros s []|]. rewrite EX. unfold allclose.
    destruct (qlebP (qabs (w s - f t s)) ((1 # 10000000) * qabs (f t s))) as [G|G].
    - destruct (assert_scenarios e w t l) as [|t' s'|]; [intros s' [<-|I]; [exact G|apply IH; exact I]| |exact IH].
      destruct IH as [-> [b [a [-> [N K]]]]]. split; [reflexivity|]. exists (s :: b), a. split; [reflexivity|]. split; [exact N|]. intros s'' [<-|I]; [exact G|apply K; exact I].
    - split; [reflexivity|]. exists [], l. split; [reflexivity|]. split; [exact G|intros s' []]. }
  assert (ST : forall vs count t0, match snd (assert_steps e scenarios count t0 vs) with
    | Passed => forall t w s, nth_error vs t = Some w -> In s scenarios -> good (t0 + t) s w
    | Mismatch t s => exists k w before after, t = t0 + k /\ nth_error vs k = Some w /\ scenarios = before ++ s :: after /\ ~ good t s w /\
        (forall s', In s' before -> good t s' w) /\ (forall t' w' s', t' < k -> nth_error vs t' = Some w' -> In s' scenarios -> good (t0 + t') s' w')
    | NoExpectation => False end).
  { induction vs as [|w vs IH]; intros count t0; cbn [assert_steps].
    - cbn [snd]. intros [|t] w s; discriminate.
    - specialize (SC w t0 scenarios). destruct (assert_scenarios e w t0 scenarios) as [|t' s'|].
      + specialize (IH (S count) (S t0)). destruct (snd (assert_steps e scenarios (S count) (S t0) vs)) as [|t' s'|].
        * intros [|t] w' s N I; [cbn in N; injection N as <-; rewrite Nat.add_0_r; apply SC; exact I|]. replace (t0 + S t) with (S t0 + t) by lia. apply (IH t w' s N I).
        * destruct IH as [k [w' [b [a [E [N [ES [NG [K1 K2]]]]]]]]]. exists (S k), w', b, a. split; [lia|]. split; [exact N|]. split; [exact ES|]. split; [exact NG|]. split; [exact K1|].
          intros [|t''] w'' s'' LT N' I; [cbn in N'; injection N' as <-; rewrite Nat.add_0_r; apply SC; exact I|]. replace (t0 + S t'') with (S t0 + t'') by lia. apply (K2 t'' w'' s'' ltac:(lia) N' I).
        * exact IH.
      + cbn [snd]. destruct SC as [-> [b [a [E [NG K]]]]]. exists 0, w, b, a. split; [lia|]. split; [reflexivity|]. split; [exact E|]. split; [exact NG|]. split; [exact K|]. intros t' w' s'' LT. lia.
      + destruct SC. }
  intros v <-. specialize (ST values 0 0). destruct (snd (assert_steps e scenarios 0 0 values)) as [|t s|].
  - exact ST.
  - destruct ST as [k [w [b [a [-> [N [E [NG [K1 K2]]]]]]]]]. exists w, b, a. repeat split; assumption.
  - exact ST.
Qed.
Print Assumptions C102_assertion.

(** C102 fails for assertions that were never evaluated: `finish` is to complain about them unless there is an exception already, but
    it never does. *)
Theorem C102_never_called_refuted : forall failed count, assert_finish failed count = false.
Proof. intros [|] count; reflexivity. Qed.
Print Assumptions C102_never_called_refuted.

(** C102 fails without an expectation: there is no message but a name error in the first timestep. *)
Theorem C102_no_expectation_refuted : forall scenarios values w s, snd (assert_steps (Expect None None) (s :: scenarios) 0 0 (w :: values)) = NoExpectation.
Proof. reflexivity. Qed.
Print Assumptions C102_no_expectation_refuted.

Example C102_example :
  map fst (reports 7 7) = [14; 28; 42; 57; 71; 85; 100]%Z /\ reports 250 6 = [(0, None); (1, Some 2%nat); (2, Some 2%nat)]%Z /\
  map fst (reports 7 4) = [14; 28; 42; 57]%Z /\
  snd (assert_steps (Expect (Some (fun t s => inject_Z (Z.of_nat (t + s)))) None) [0; 1] 0 0
    [(fun s => inject_Z (Z.of_nat s)); (fun s => inject_Z (Z.of_nat s))]) = Mismatch 1 0.
Proof. vm_compute. repeat split. Qed.
