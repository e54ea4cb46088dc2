From Verif Require Import Base Calendar_spec Periodic_model Periodic_spec.
Local Open Scope Z_scope.

Lemma at_or_past_iff t m d : at_or_past t m d = true <-> day_le (m, d) (md t).
Proof. unfold at_or_past, day_le, md. cbn [fst snd]. lia. Qed.
Lemma past_iff t m d : past t m d = true <-> day_lt (m, d) (md t).
Proof. unfold past, day_lt, md. cbn [fst snd]. lia. Qed.

Lemma year_is_iff o y : year_is o y = true <-> o = Some y.
Proof.
  unfold year_is. destruct o as [z|]; [|split; discriminate]. split; [intros H; f_equal; lia|intros H; injection H as ->; lia].
Qed.

Definition run_from (k : nat) (l : list date) : list pts :=
  map (fun id => {| p_index := fst id; p_date := snd id |}) (combine (seq k (length l)) l).

Lemma run_from_cons k t l : run_from k (t :: l) = {| p_index := k; p_date := t |} :: run_from (S k) l.
Proof. reflexivity. Qed.

(** ** Annual *)
Definition reset_day (c : annual_cfg) : day := (c_reset_month c, c_reset_day c).

Record ainv (r : day) (P : list date) (s : annual) : Prop := {
  ai_1 : forall y, a_last_reset_year s = Some y -> exists t, In t P /\ yr t = y /\ day_le r (md t);
  ai_2 : forall t, In t P -> day_le r (md t) -> exists y, a_last_reset_year s = Some y /\ yr t <= y }.

Lemma ainv_year r P s y : ainv r P s -> (forall t, In t P -> yr t <= y) ->
  a_last_reset_year s = Some y <-> exists t, In t P /\ yr t = y /\ day_le r (md t).
Proof.
  intros I Hy. split; [apply (ai_1 _ _ _ I)|]. intros [t [H1 [H2 H3]]].
  destruct (ai_2 _ _ _ I t H1 H3) as [z [Hz Hle]]. destruct (ai_1 _ _ _ I z Hz) as [u [U1 [U2 _]]].
  specialize (Hy u U1). rewrite Hz. f_equal. lia.
Qed.

Lemma annual_step c s P t : ainv (reset_day c) P s -> (forall u, In u P -> yr u <= yr t) ->
  let '(s', e) := annual_before c s {| p_index := length P; p_date := t |} in
  (e <> None <-> day_le (reset_day c) (md t) /\ (forall u, In u P -> yr u = yr t -> ~ day_le (reset_day c) (md u)) /\
                 (P = [] -> ~ day_lt (reset_day c) (md t))) /\
  (forall b, e = Some b -> b = if Nat.eqb (length P) 0 && c_max_is_parameter c then true else c_to_initial c) /\
  (e <> None -> a_active s' = true) /\
  ainv (reset_day c) (P ++ [t]) s' /\
  (a_last_reset_year s' = Some (yr t) <-> (exists u, In u (P ++ [t]) /\ yr u = yr t /\ day_le (reset_day c) (md u))) /\
  (e = None -> a_active s' = a_active s).
Proof.
  intros I Hy. pose proof (ainv_year _ _ _ (yr t) I Hy) as HY.
  pose proof (at_or_past_iff t (c_reset_month c) (c_reset_day c)) as HA.
  pose proof (past_iff t (c_reset_month c) (c_reset_day c)) as HP. fold (reset_day c) in HA, HP.
  unfold annual_before. cbn [p_date p_index].
  set (z := Nat.eqb (length P) 0).
  assert (z = true <-> P = []) as Hz.
  { unfold z. rewrite Nat.eqb_eq. destruct P; cbn; split; try discriminate; reflexivity. }
  assert (forall s', (a_last_reset_year s' = Some (yr t) \/ (a_last_reset_year s' = a_last_reset_year s /\ ~ day_le (reset_day c) (md t))) ->
            (a_last_reset_year s' = Some (yr t) -> (exists u, In u (P ++ [t]) /\ yr u = yr t /\ day_le (reset_day c) (md u))) ->
            ainv (reset_day c) (P ++ [t]) s' /\
            (a_last_reset_year s' = Some (yr t) <-> (exists u, In u (P ++ [t]) /\ yr u = yr t /\ day_le (reset_day c) (md u)))) as Hnew.
  { intros s' Hs Hex.
    assert (ainv (reset_day c) (P ++ [t]) s') as I'.
    { constructor.
      - intros y E. destruct Hs as [Hs|[Hs _]].
        + rewrite Hs in E. injection E as <-. now apply Hex.
        + rewrite Hs in E. destruct (ai_1 _ _ _ I y E) as [u [U1 U2]]. exists u. split; [apply in_app_iff; now left|exact U2].
      - intros u Hu Hd. destruct Hs as [Hs|[Hs Hn]].
        + exists (yr t). split; [exact Hs|]. apply in_app_iff in Hu as [Hu|[<-|[]]]; [auto|lia].
        + apply in_app_iff in Hu as [Hu|[<-|[]]]; [|contradiction]. rewrite Hs. now apply (ai_2 _ _ _ I). }
    split; [exact I'|]. apply ainv_year; [exact I'|]. intros u Hu. apply in_app_iff in Hu as [Hu|[<-|[]]]; [auto|lia]. }
  destruct (z && past t (c_reset_month c) (c_reset_day c)) eqn:E1.
  - (* first timestep after the reset date *)
    apply andb_true_iff in E1 as [E1 E2]. apply HP in E2. apply Hz in E1.
    rewrite (proj2 (year_is_iff (Some (yr t)) (yr t)) eq_refl). cbn [negb andb].
    split; [split; [congruence|intros [_ [_ H]]; exfalso; apply (H E1 E2)]|]. split; [discriminate|]. split; [congruence|].
    assert (day_le (reset_day c) (md t)) as Hle by (unfold day_lt, day_le in *; lia).
    destruct (Hnew {| a_last_reset_year := Some (yr t); a_active := a_active s |}) as [N1 N2].
    + now left.
    + intros _. exists t. rewrite in_app_iff. split; [right; now left|]. split; [reflexivity|exact Hle].
    + split; [exact N1|]. split; [exact N2|reflexivity].
  - assert (P = [] -> ~ day_lt (reset_day c) (md t)) as HN.
    { intros HE H. apply HP in H. apply Hz in HE. rewrite HE, H in E1. discriminate. }
    destruct (year_is (a_last_reset_year s) (yr t)) eqn:EY; cbn [negb andb].
    + apply year_is_iff in EY. pose proof (proj1 HY EY) as [u [U1 [U2 U3]]].
      split; [split; [congruence|intros [_ [H _]]; exfalso; eapply H; eauto]|]. split; [discriminate|]. split; [congruence|].
      destruct (Hnew {| a_last_reset_year := a_last_reset_year s; a_active := a_active s |}) as [N1 N2].
      * now left.
      * intros _. exists u. rewrite in_app_iff. auto.
      * split; [exact N1|]. split; [exact N2|reflexivity].
    + destruct (at_or_past t (c_reset_month c) (c_reset_day c)) eqn:EA.
      * pose proof (proj1 HA eq_refl) as Hle.
        split; [split; [intros _|discriminate]|].
        { split; [exact Hle|]. split; [|exact HN]. intros u U1 U2 U3. assert (a_last_reset_year s = Some (yr t)) as C by (apply HY; eauto).
          apply year_is_iff in C. congruence. }
        split; [intros b Eb; injection Eb as <-; reflexivity|]. split; [reflexivity|].
        destruct (Hnew {| a_last_reset_year := Some (yr t); a_active := true |}) as [N1 N2].
        -- now left.
        -- intros _. exists t. rewrite in_app_iff. split; [right; now left|]. split; [reflexivity|exact Hle].
        -- split; [exact N1|]. split; [exact N2|discriminate].
      * assert (~ day_le (reset_day c) (md t)) as Hn by (intros H; apply HA in H; discriminate).
        split; [split; [congruence|intros [H _]; contradiction]|]. split; [discriminate|]. split; [congruence|].
        destruct (Hnew {| a_last_reset_year := a_last_reset_year s; a_active := a_active s |}) as [N1 N2].
        -- right. split; [reflexivity|exact Hn].
        -- cbn [a_last_reset_year]. intros C. apply HY in C as [u [U1 U2]]. exists u. rewrite in_app_iff. auto.
        -- split; [exact N1|]. split; [exact N2|reflexivity].
Qed.

Lemma ascending_tail t l : ascending (t :: l) -> ascending l.
Proof. destruct l; cbn; tauto. Qed.

Lemma ascending_years t l : ascending (t :: l) -> forall u, In u l -> yr t <= yr u.
Proof.
  revert t. induction l as [|b l IH]; intros t H u Hu; [contradiction|]. cbn in H. destruct H as [H1 H2].
  assert (yr t <= yr b) by (unfold date_lt in H1; lia). destruct Hu as [<-|Hu]; [assumption|]. specialize (IH b H2 u Hu). lia.
Qed.

Lemma annual_run_spec c : forall l P s, ainv (reset_day c) P s -> (forall u v, In u P -> In v l -> yr u <= yr v) -> ascending l ->
  forall i, (i < length l)%nat ->
  exists t e, nth_error l i = Some t /\ nth_error (annual_run c s (run_from (length P) l)) i = Some e /\
    (e <> None <-> day_le (reset_day c) (md t) /\
       (forall u, In u (P ++ firstn i l) -> yr u = yr t -> ~ day_le (reset_day c) (md u)) /\
       (P ++ firstn i l = [] -> ~ day_lt (reset_day c) (md t))) /\
    (forall b, e = Some b -> b = if Nat.eqb (length P + i) 0 && c_max_is_parameter c then true else c_to_initial c).
Proof.
  induction l as [|t l IH]; intros P s I HP Ha i Hi; [cbn in Hi; lia|].
  rewrite run_from_cons. cbn [annual_run].
  pose proof (annual_step c s P t I (fun u Hu => HP u t Hu (or_introl eq_refl))) as H.
  destruct (annual_before c s {| p_index := length P; p_date := t |}) as [s' e]. destruct H as [H1 [H2 [_ [H4 _]]]].
  destruct i as [|i].
  - exists t, e. cbn [nth_error firstn]. rewrite app_nil_r, Nat.add_0_r. auto.
  - cbn [nth_error firstn]. specialize (IH (P ++ [t]) s' H4).
    rewrite app_length in IH. cbn [length] in IH. replace (length P + 1)%nat with (S (length P)) in IH by lia.
    destruct (IH) with (i := i) as [t' [e' [E1 [E2 [E3 E4]]]]].
    + intros u v Hu Hv. apply in_app_iff in Hu as [Hu|[<-|[]]]; [apply HP; [exact Hu|now right]|]. eapply ascending_years; eauto.
    + eapply ascending_tail; eauto.
    + cbn in Hi. lia.
    + exists t', e'. rewrite <- app_assoc in E3. cbn [app] in E3. replace (length P + S i)%nat with (S (length P) + i)%nat by lia. auto.
Qed.

Lemma nth_firstn {A} (l : list A) : forall i x, In x (firstn i l) <-> exists j, (j < i)%nat /\ nth_error l j = Some x.
Proof.
  induction l as [|a l IH]; intros i x.
  - rewrite firstn_nil. split; [contradiction|]. intros [[|j] [_ H]]; discriminate.
  - destruct i as [|i]; cbn [firstn].
    + split; [contradiction|]. intros [j [H _]]. lia.
    + cbn [In]. rewrite IH. split.
      * intros [->|[j [H1 H2]]]; [exists 0%nat; split; [lia|reflexivity]|exists (S j); split; [lia|exact H2]].
      * intros [[|j] [H1 H2]]; cbn in H2; [injection H2 as ->; now left|right; exists j; split; [lia|exact H2]].
Qed.

Lemma annual_reset_when c l : ascending l -> forall i, (i < length l)%nat ->
  exists t e, nth_error l i = Some t /\ nth_error (annual_run c annual_reset (run_of l)) i = Some e /\
    (e <> None <-> first_on_or_after (reset_day c) l i /\ (i = 0%nat -> ~ day_lt (reset_day c) (md t))) /\
    (forall b, e = Some b -> b = if Nat.eqb i 0 && c_max_is_parameter c then true else c_to_initial c).
Proof.
  intros Ha i Hi.
  destruct (annual_run_spec c l [] annual_reset) with (i := i) as [t [e [E1 [E2 [E3 E4]]]]]; try assumption.
  - constructor; [discriminate|intros u []].
  - intros u v [].
  - exists t, e. split; [exact E1|]. split; [exact E2|]. cbn [app length Nat.add] in *. split; [|exact E4]. rewrite E3. split.
    + intros [A [B C]]. split.
      * exists t. split; [exact E1|]. split; [exact A|]. intros j u Hj Hu. apply B, nth_firstn. eauto.
      * intros ->. apply C. reflexivity.
    + intros [[t' [A1 [A2 A3]]] C]. rewrite E1 in A1. injection A1 as <-. split; [exact A2|]. split.
      * intros u Hu. apply nth_firstn in Hu as [j [Hj Hu]]. eauto.
      * intros H. apply C. destruct i; [reflexivity|]. destruct l; [cbn in Hi; lia|]. discriminate.
Qed.

(** ** Monthly *)
Lemma monthly_spec k : 1 <= k -> forall ms s, 0 <= m_count s < k \/ m_last_month s = None /\ -1 <= m_count s < k ->
  forall i, (i < length ms)%nat ->
  exists b, nth_error (monthly_run k s ms) i = Some b /\
    (b = true <->
      ((exists m, nth_error ms i = Some m /\
         match i with O => m_last_month s <> Some m | S j => nth_error ms j <> Some m end) /\
       0 < m_count s + month_changes (m_last_month s) ms i /\
       (m_count s + month_changes (m_last_month s) ms i) mod k = 0)).
Proof.
  intros Hk. induction ms as [|m ms IH]; intros s Hs i Hi; [cbn in Hi; lia|]. cbn [monthly_run].
  unfold monthly_before. destruct (year_is (m_last_month s) m) eqn:E.
  - apply year_is_iff in E. destruct i as [|i].
    + exists false. split; [reflexivity|]. split; [discriminate|]. intros [[m' [H1 H2]] _]. cbn in H1. injection H1 as <-. contradiction.
    + cbn [nth_error]. destruct (IH s Hs i) as [b [B1 B2]]; [cbn in Hi; lia|]. exists b. split; [exact B1|]. rewrite B2.
      cbn [month_changes]. rewrite E, Z.eqb_refl, Z.add_0_l.
      destruct i as [|i]; [|reflexivity]. split.
      * intros [[m' [H1 H2]] H3]. split; [|exact H3]. exists m'. split; [exact H1|]. cbn. exact H2.
      * intros [[m' [H1 H2]] H3]. split; [|exact H3]. exists m'. split; [exact H1|]. cbn in H2. exact H2.
  - assert (m_last_month s <> Some m) as En by (intros H; apply year_is_iff in H; congruence).
    assert (match m_last_month s with Some p => if p =? m then 0 else 1 | None => 1 end = 1) as Ec.
    { destruct (m_last_month s) as [p|]; [|reflexivity]. destruct (Z.eqb_spec p m); [congruence|reflexivity]. }
    set (s' := if m_count s + 1 =? k then {| m_count := 0; m_last_month := Some m |} else {| m_count := m_count s + 1; m_last_month := Some m |}).
    assert ((if m_count s + 1 =? k then ({| m_count := 0; m_last_month := Some m |}, true) else ({| m_count := m_count s + 1; m_last_month := Some m |}, false))
            = (s', m_count s + 1 =? k)) as -> by (unfold s'; destruct (m_count s + 1 =? k); reflexivity).
    assert (m_count s' = if m_count s + 1 =? k then 0 else m_count s + 1) as Hc by (unfold s'; destruct (_ =? k); reflexivity).
    assert (m_last_month s' = Some m) as Hl by (unfold s'; destruct (_ =? k); reflexivity). clearbody s'.
    assert (0 <= m_count s' < k) as Hs'. { rewrite Hc. destruct (Z.eqb_spec (m_count s + 1) k); lia. }
    destruct i as [|i].
    + exists (m_count s + 1 =? k). split; [reflexivity|]. cbn [month_changes]. rewrite Ec, Z.add_0_r.
      split.
      * intros H. assert (m_count s + 1 = k) as H' by lia. split; [exists m; split; [reflexivity|exact En]|]. split; [lia|]. rewrite H'. apply Z_mod_same_full.
      * intros [_ [H1 H2]]. apply Z.eqb_eq. apply Z.mod_divide in H2; [|lia]. destruct H2 as [q Hq].
        assert (m_count s + 1 <= k) as Hle by lia. assert (0 < q) by nia. assert (k <= q * k) by nia. lia.
    + cbn [nth_error]. destruct (IH s' (or_introl Hs') i) as [b [B1 B2]]; [cbn in Hi; lia|]. exists b. split; [exact B1|]. rewrite B2.
      cbn [month_changes]. rewrite Ec, Hl.
      assert ((exists m0, nth_error ms i = Some m0 /\ match i with O => Some m <> Some m0 | S j => nth_error ms j <> Some m0 end) <->
              (exists m0, nth_error ms i = Some m0 /\ nth_error (m :: ms) i <> Some m0)) as HX by (destruct i; reflexivity).
      rewrite HX. clear HX B2.
      assert (0 <= month_changes (Some m) ms i) as Hmc.
      { clear. revert m i. induction ms as [|a ms IH]; intros m i; [destruct i; cbn; lia|]. cbn [month_changes].
        destruct i as [|i]; [destruct (m =? a); lia|]. specialize (IH a i). destruct (m =? a); lia. }
      set (x := month_changes (Some m) ms i) in *. rewrite Hc. destruct (Z.eqb_spec (m_count s + 1) k) as [Ek|Ek].
      * replace (m_count s + (1 + x)) with (x + 1 * k) by lia. rewrite Z_mod_plus_full.
        split; intros [H1 [H2 H3]]; (split; [exact H1|]; split; [|exact H3]); [lia|].
        (* x must be positive: the month changes at i *)
        destruct H1 as [m0 [G1 G2]].
        assert (forall (l : list Z) p j q, nth_error l j = Some q -> nth_error (p :: l) j <> Some q -> 0 < month_changes (Some p) l j) as L.
        { clear. induction l as [|a l IH]; intros p j q A B; [destruct j; discriminate|]. cbn [month_changes]. destruct j as [|j].
          - cbn in A, B. injection A as ->. destruct (Z.eqb_spec p q); [congruence|lia].
          - cbn [nth_error] in A, B. specialize (IH a j q A B). destruct (p =? a); lia. }
        eapply L; eauto.
      * replace (m_count s + 1 + x) with (m_count s + (1 + x)) by lia. reflexivity.
Qed.

Lemma monthly_when k init ms : 1 <= k -> 0 <= init <= k -> forall i, (i < length ms)%nat ->
  exists b, nth_error (monthly_run k (monthly_reset init) ms) i = Some b /\
    (b = true <-> new_month ms i /\ 0 < init - 1 + month_changes None ms i /\ (init - 1 + month_changes None ms i) mod k = 0).
Proof.
  intros Hk Hin i Hi. destruct (monthly_spec k Hk ms (monthly_reset init)) with (i := i) as [b [B1 B2]]; [right; cbn; split; [reflexivity|lia]|exact Hi|].
  exists b. split; [exact B1|]. rewrite B2. cbn [monthly_reset m_count m_last_month].
  assert ((exists m, nth_error ms i = Some m /\ match i with O => None <> Some m | S j => nth_error ms j <> Some m end) <-> new_month ms i) as ->; [|reflexivity].
  unfold new_month. split.
  - intros [m [H1 H2]]. exists m. split; [exact H1|]. destruct i as [|i]; [now left|]. right.
    destruct (nth_error ms i) as [p|] eqn:E; [|apply nth_error_None in E; lia]. exists i, p. repeat split; auto. congruence.
  - intros [m [H1 H2]]. exists m. split; [exact H1|]. destruct i as [|i]; [discriminate|].
    destruct H2 as [H2|[j [p [Ej [Ep Hp]]]]]; [discriminate|]. injection Ej as ->. rewrite Ep. congruence.
Qed.

(** Month changes grow one at a time. *)
Lemma month_changes_step ms : forall prev i, (S i < length ms)%nat ->
  (month_changes prev ms (S i) = month_changes prev ms i + 1 /\ (exists m p, nth_error ms (S i) = Some m /\ nth_error ms i = Some p /\ p <> m)) \/
  month_changes prev ms (S i) = month_changes prev ms i.
Proof.
  induction ms as [|a ms IH]; intros prev i Hi; [cbn in Hi; lia|].
  destruct ms as [|b ms]; [cbn in Hi; lia|]. destruct i as [|i].
  - cbn [month_changes nth_error]. destruct (Z.eqb_spec a b) as [E|E]; [right; lia|]. left. split; [lia|]. eauto 6.
  - cbn [month_changes]. specialize (IH (Some a) i ltac:(cbn in *; lia)). cbn [month_changes] in IH.
    destruct IH as [[H1 H2]|H]; [left|right].
    + split; [|exact H2]. destruct prev as [p|]; lia.
    + destruct prev as [p|]; lia.
Qed.

(** ** Seasonal *)
Record sinv (r e : day) (t : date) (s : seasonal) : Prop := {
  si_reset : a_last_reset_year (e_annual s) = Some (yr t) <-> day_le r (md t);
  si_reset_le : forall y, a_last_reset_year (e_annual s) = Some y -> y <= yr t;
  si_active_year : e_last_active_year s = Some (yr t) <-> day_le e (md t);
  si_active_le : forall y, e_last_active_year s = Some y -> y <= yr t;
  si_active : a_active (e_annual s) = true <-> in_season r e (md t) }.

Definition end_day (c : seasonal_cfg) : day := (c_end_month c, c_end_day c).

Lemma opt_year (o : option Z) (y : Z) : {o = Some y} + {o <> Some y}.
Proof. destruct o as [z|]; [|right; discriminate]. destruct (Z.eq_dec z y); [left; congruence|right; congruence]. Qed.

(** The propositional core of a step: A/B the new date is on or after the two days, A0/B0 the old one, N same year,
    RE/ER the order of the two days, P the old season flag. *)
Lemma season_logic (A B A0 B0 N RE ER P : Prop) :
  (A \/ ~ A) -> (B \/ ~ B) -> (A0 \/ ~ A0) -> (B0 \/ ~ B0) -> (N \/ ~ N) ->
  (P <-> (RE /\ A0 /\ ~ B0) \/ (ER /\ (A0 \/ ~ B0))) ->
  (ER -> A -> N /\ B0) -> (RE \/ ER) -> (N -> A0 -> A) -> (N -> B0 -> B) -> (RE -> B0 -> A0) -> (RE -> ~ ER) ->
  (~ N -> A0 /\ B0) ->
  let Q := (RE /\ A /\ ~ B) \/ (ER /\ (A \/ ~ B)) in
  (B /\ ~ (N /\ B0) -> ~ Q) /\
  (~ (B /\ ~ (N /\ B0)) -> A /\ ~ (N /\ A0) -> Q) /\
  (~ (B /\ ~ (N /\ B0)) -> ~ (A /\ ~ (N /\ A0)) -> (P <-> Q)).
Proof. intros DA DB DA0 DB0 DN. cbv zeta. destruct DN as [DN|DN].
  - intros H1 H2 H3 H4 H5 H6 H7 _. destruct DA, DB, DA0, DB0; destruct H3; tauto.
  - intros H1 H2 H3 _ _ H6 H7 H8. destruct (H8 DN) as [X Y]. destruct DA, DB; destruct H3; tauto.
Qed.

Lemma seasonal_step c s t u k : sinv (reset_day (c_annual c)) (end_day c) t s ->
  fine_step (reset_day (c_annual c)) (end_day c) t u ->
  day_lt (reset_day (c_annual c)) (end_day c) \/ day_lt (end_day c) (reset_day (c_annual c)) ->
  sinv (reset_day (c_annual c)) (end_day c) u (fst (seasonal_before c s {| p_index := S k; p_date := u |})).
Proof.
  intros [I1 I2 I3 I4 I5] [Hlt [HA HB]] Hne.
  unfold seasonal_before, annual_before. cbn [p_index p_date Nat.eqb andb].
  pose proof (at_or_past_iff u (c_reset_month (c_annual c)) (c_reset_day (c_annual c))) as E1.
  pose proof (at_or_past_iff u (c_end_month c) (c_end_day c)) as E2.
  fold (reset_day (c_annual c)) in E1. fold (end_day c) in E2.
  revert I1 I2 I3 I4 I5 HA HB Hne E1 E2. generalize (reset_day (c_annual c)) as r, (end_day c) as e.
  intros r e I1 I2 I3 I4 I5 HA HB Hne E1 E2.
  destruct (e_annual s) as [lr act] eqn:Es. cbn [a_last_reset_year a_active] in *.
  set (la := e_last_active_year s) in *.
  assert (date_lt t u) as Hlt' by exact Hlt. unfold date_lt in Hlt'.
  assert (yr t <= yr u) as Hy by lia.
  (* what the two memories say about the new year *)
  assert (lr = Some (yr u) <-> yr t = yr u /\ day_le r (md t)) as L1.
  { split.
    - intros H. pose proof (I2 _ H). assert (yr t = yr u) as E by lia. split; [exact E|]. apply I1. congruence.
    - intros [H1 H2]. rewrite <- H1. now apply I1. }
  assert (la = Some (yr u) <-> yr t = yr u /\ day_le e (md t)) as L2.
  { split.
    - intros H. pose proof (I4 _ H). assert (yr t = yr u) as E by lia. split; [exact E|]. apply I3. congruence.
    - intros [H1 H2]. rewrite <- H1. now apply I3. }
  assert (yr t = yr u -> day_lt (md t) (md u)) as Hmd. { intros E. unfold day_lt, md. cbn [fst snd]. lia. }
  assert (forall y, lr = Some y -> y <= yr u) as I2' by (intros y C; specialize (I2 y C); clear - I2 Hy; lia).
  assert (forall y, la = Some y -> y <= yr u) as I4' by (intros y C; specialize (I4 y C); clear - I4 Hy; lia).
  assert (yr t = yr u -> day_le r (md t) -> day_le r (md u)) as M1.
  { intros E C. specialize (Hmd E). unfold day_lt, day_le in *. lia. }
  assert (yr t = yr u -> day_le e (md t) -> day_le e (md u)) as M2.
  { intros E C. specialize (Hmd E). unfold day_lt, day_le in *. lia. }
  assert (forall d, in_season r e d <-> (day_lt r e /\ day_le r d /\ ~ day_le e d) \/ (day_lt e r /\ (day_le r d \/ ~ day_le e d))) as IS.
  { intros d. unfold in_season. assert (day_lt d e <-> ~ day_le e d) as -> by (unfold day_lt, day_le; lia). reflexivity. }
  assert (day_lt r e -> day_le e (md t) -> day_le r (md t)) as RE by (unfold day_lt, day_le; lia).
  assert (day_lt r e -> ~ day_lt e r) as NE by (unfold day_lt; lia).
  assert (yr t < yr u \/ yr t = yr u) as HN by lia.
  rewrite IS in I5.
  assert (forall o, year_is o (yr u) = true <-> o = Some (yr u)) as YI by (intros o; apply year_is_iff).
  pose proof (YI lr) as Y1. pose proof (YI la) as Y2. clear YI.
  set (A := day_le r (md u)) in *. set (B := day_le e (md u)) in *.
  set (A0 := day_le r (md t)) in *. set (B0 := day_le e (md t)) in *.
  assert (A \/ ~ A) as DA by (unfold A, day_le; lia). assert (B \/ ~ B) as DB by (unfold B, day_le; lia).
  assert (A0 \/ ~ A0) as DA0 by (unfold A0, day_le; lia). assert (B0 \/ ~ B0) as DB0 by (unfold B0, day_le; lia).
  set (RE_ := day_lt r e) in *. set (ER_ := day_lt e r) in *.
  set (N := yr t = yr u) in *. 
  set (b1 := year_is lr (yr u)) in *. set (b2 := year_is la (yr u)) in *.
  set (b3 := at_or_past u (c_reset_month _) _) in *. set (b4 := at_or_past u (c_end_month c) _) in *.
  assert (~ N -> A0 /\ B0) as HA' by (intros C; apply HA; destruct HN as [HN|HN]; [exact HN|contradiction]).
  assert (lr = Some (yr u) -> A) as LA. { intros C. apply L1 in C as [C D]. exact (M1 C D). }
  assert (la = Some (yr u) -> B) as LB. { intros C. apply L2 in C as [C D]. exact (M2 C D). }
  assert (N \/ ~ N) as DN by (unfold N; clear; lia).
  assert (forall x, Some (yr u) = Some x -> x <= yr u) as SU by (intros x C; injection C as <-; clear; lia).
  destruct (season_logic A B A0 B0 N RE_ ER_ (act = true) DA DB DA0 DB0 DN I5 HB Hne M1 M2 RE NE HA') as [S1 [S2 S3]].
  assert (b1 = true <-> N /\ A0) as Z1 by (rewrite Y1; exact L1).
  assert (b2 = true <-> N /\ B0) as Z2 by (rewrite Y2; exact L2).
  assert (forall (b : bool) (X : Prop), (b = true <-> X) -> b = false -> ~ X) as NB.
  { clear. intros b X H1 H2 H3. apply H1 in H3. congruence. }
  pose proof (NB _ _ Z1) as W1. pose proof (NB _ _ Z2) as W2. pose proof (NB _ _ E1) as W3. pose proof (NB _ _ E2) as W4.
  assert (day_le r (md u) = A) as QA by reflexivity. assert (day_le e (md u) = B) as QB by reflexivity.
  clearbody A B A0 B0 N RE_ ER_ b1 b2 b3 b4 la.
  specialize (IS (md u)). rewrite QA, QB in IS.
  clear - QA QB Y1 Y2 Z1 Z2 W1 W2 W3 W4 E1 E2 LA LB I2' I4' SU S1 S2 S3 IS.
  destruct b2; cbn [negb].
  - (* season already ended this year *)
    pose proof (proj1 Z2 eq_refl) as HB0. pose proof (proj1 Y2 eq_refl) as HLA.
    assert (~ (B /\ ~ (N /\ B0))) as K by tauto. specialize (S2 K). specialize (S3 K).
    destruct b1; cbn [negb andb].
    + pose proof (proj1 Z1 eq_refl) as HA0. pose proof (proj1 Y1 eq_refl) as HLR.
      constructor; cbn [fst e_annual a_last_reset_year a_active e_last_active_year]; rewrite ?QA, ?QB; [tauto|auto|clear - LB E2 W2 W4 HLA; tauto|auto|]. rewrite IS. apply S3. tauto.
    + specialize (W1 eq_refl). destruct b3.
      * pose proof (proj1 E1 eq_refl) as HA. constructor; cbn [fst e_annual a_last_reset_year a_active e_last_active_year]; rewrite ?QA, ?QB; [first [tauto|split; [auto|intros _; reflexivity]]|auto|tauto|auto|]. rewrite IS. split; [intros _; apply S2; tauto|reflexivity].
      * specialize (W3 eq_refl). constructor; cbn [fst e_annual a_last_reset_year a_active e_last_active_year]; rewrite ?QA, ?QB; [first [tauto|split; [auto|intros _; reflexivity]]|auto|tauto|auto|]. rewrite IS. apply S3. tauto.
  - specialize (W2 eq_refl). destruct b4.
    + pose proof (proj1 E2 eq_refl) as HB. assert (~ (RE_ /\ A /\ ~ B \/ ER_ /\ (A \/ ~ B))) as K by (apply S1; tauto). clear S1 S2 S3.
      destruct b1; cbn [negb andb]; [pose proof (proj1 Y1 eq_refl) as HLR|specialize (W1 eq_refl); destruct b3; [pose proof (proj1 E1 eq_refl) as HA|specialize (W3 eq_refl)]];
      (constructor; cbn [fst e_annual a_last_reset_year a_active e_last_active_year]; rewrite ?QA, ?QB; [tauto|auto|tauto|auto|rewrite IS; split; [discriminate|clear - K; tauto]]).
    + specialize (W4 eq_refl). assert (~ (B /\ ~ (N /\ B0))) as K by tauto. specialize (S2 K). specialize (S3 K).
      assert (la = Some (yr u) <-> B) as HX by tauto.
      destruct b1; cbn [negb andb]; [pose proof (proj1 Y1 eq_refl) as HLR; pose proof (proj1 Z1 eq_refl)|specialize (W1 eq_refl); destruct b3; [pose proof (proj1 E1 eq_refl) as HA|specialize (W3 eq_refl)]].
      * constructor; cbn [fst e_annual a_last_reset_year a_active e_last_active_year]; rewrite ?QA, ?QB; [tauto|auto|exact HX|auto|]. rewrite IS. apply S3. tauto.
      * constructor; cbn [fst e_annual a_last_reset_year a_active e_last_active_year]; rewrite ?QA, ?QB; [tauto|auto|exact HX|auto|]. rewrite IS. split; [intros _; apply S2; tauto|reflexivity].
      * constructor; cbn [fst e_annual a_last_reset_year a_active e_last_active_year]; rewrite ?QA, ?QB; [tauto|auto|exact HX|auto|]. rewrite IS. apply S3. tauto.
Qed.

Lemma seasonal_first c t :
  let r := reset_day (c_annual c) in let e := end_day c in
  day_lt r e \/ day_lt e r ->
  in_season r e (md t) \/ (day_lt r e /\ day_lt (md t) r) ->
  sinv r e t (fst (seasonal_before c seasonal_new {| p_index := 0; p_date := t |})).
Proof.
  cbv zeta. unfold seasonal_before, annual_before, seasonal_new, annual_reset.
  cbn [p_index p_date Nat.eqb andb e_annual a_last_reset_year a_active e_last_active_year year_is negb].
  pose proof (at_or_past_iff t (c_reset_month (c_annual c)) (c_reset_day (c_annual c))) as HA.
  pose proof (past_iff t (c_reset_month (c_annual c)) (c_reset_day (c_annual c))) as HP.
  assert ((c_end_month c <? c_reset_month (c_annual c)) || (c_end_month c =? c_reset_month (c_annual c)) && (c_end_day c <=? c_reset_day (c_annual c)) = true
          <-> day_le (end_day c) (reset_day (c_annual c))) as H1 by (unfold day_le, end_day, reset_day; cbn [fst snd]; lia).
  assert ((c_reset_month (c_annual c) <? c_end_month c) || (c_end_month c =? c_reset_month (c_annual c)) && (c_reset_day (c_annual c) <=? c_end_day c) = true
          <-> day_le (reset_day (c_annual c)) (end_day c)) as H2 by (unfold day_le, end_day, reset_day; cbn [fst snd]; lia).
  fold (reset_day (c_annual c)) in HA, HP. revert H1 H2 HA HP.
  generalize (reset_day (c_annual c)) as r, (end_day c) as e.
  set (b1 := at_or_past _ _ _). set (b2 := past _ _ _). set (b3 := _ || _). set (b4 := _ || _). clearbody b1 b2 b3 b4.
  intros r e H1 H2 HA HP Hne Hin. unfold in_season in Hin.
  assert (day_lt r (md t) -> day_le r (md t)) as T1 by (clear; unfold day_lt, day_le; lia).
  assert (forall y, Some (yr t) = Some y -> y <= yr t) as SU by (clear; intros y C; injection C as <-; lia).
  assert (forall y, @None Z = Some y -> y <= yr t) as SN by discriminate.
  assert (year_is (Some (yr t)) (yr t) = true) as YY by (apply year_is_iff; reflexivity).
  assert (day_lt r e -> ~ day_le e r /\ day_le r e) as O1 by (clear; unfold day_lt, day_le; lia).
  assert (day_lt e r -> ~ day_le r e /\ day_le e r) as O2 by (clear; unfold day_lt, day_le; lia).
  assert (day_lt (md t) e <-> ~ day_le e (md t)) as O3 by (clear; unfold day_lt, day_le; lia).
  assert (day_lt (md t) r <-> ~ day_le r (md t)) as O4 by (clear; unfold day_lt, day_le; lia).
  assert (day_lt r e -> ~ day_le r (md t) -> ~ day_le e (md t)) as O5 by (clear; unfold day_lt, day_le; lia).
  assert (day_lt e r -> day_le r (md t) -> day_le e (md t)) as O6 by (clear; unfold day_lt, day_le; lia).
  assert (day_lt r e -> ~ day_lt e r) as O7 by (clear; unfold day_lt; lia).
  assert (in_season r e (md t) <-> (day_lt r e /\ day_le r (md t) /\ ~ day_le e (md t)) \/ (day_lt e r /\ (day_le r (md t) \/ ~ day_le e (md t)))) as IS.
  { unfold in_season. rewrite O3. reflexivity. }
  rewrite O3, O4 in Hin.
  assert (b2 = true -> b1 = true) as B21 by (intros C; apply HA, T1, HP, C).
  assert (forall (b : bool) (X : Prop), (b = true <-> X) -> b = false -> ~ X) as NB.
  { clear. intros b X A1 A2 A3. apply A1 in A3. congruence. }
  pose proof (NB _ _ H1) as N1. pose proof (NB _ _ H2) as N2. pose proof (NB _ _ HA) as N3.
  destruct b1.
  - pose proof (proj1 HA eq_refl) as A. clear HA N3.
    assert ((if b2 then Some (yr t) else None) = Some (yr t) \/ (if b2 then Some (yr t) else None) = None) as [E|E] by (destruct b2; auto);
      rewrite E; rewrite ?YY; cbn [negb andb a_last_reset_year year_is]; rewrite ?Z.eqb_refl; cbn [negb andb a_last_reset_year year_is]; rewrite ?Z.eqb_refl.
    all: destruct Hne as [Hne|Hne]; [destruct (O1 Hne) as [X Y]|destruct (O2 Hne) as [X Y]].
    all: (destruct b3; [pose proof (proj1 H1 eq_refl) as Z; try contradiction|pose proof (N1 eq_refl) as Z; try contradiction]).
    all: constructor; cbn [fst e_annual a_last_reset_year a_active e_last_active_year]; auto.
    all: try (split; [intros _; exact A|reflexivity]).
    all: try (split; [discriminate|]).
    all: try (split; [intros _|reflexivity]).
    all: try rewrite IS.
    all: clear - Hin A Hne O7 O6; tauto.
  - pose proof (N3 eq_refl) as A. assert (b2 = false) as E by (destruct b2; [specialize (B21 eq_refl); discriminate|reflexivity]). rewrite E.
    cbn [year_is negb andb a_last_reset_year].
    destruct Hne as [Hne|Hne]; [destruct (O1 Hne) as [X Y]|destruct (O2 Hne) as [X Y]].
    all: (destruct b4; [pose proof (proj1 H2 eq_refl) as Z; try contradiction|pose proof (N2 eq_refl) as Z; try contradiction]).
    all: constructor; cbn [fst e_annual a_last_reset_year a_active e_last_active_year]; auto.
    all: try rewrite IS.
    all: (split; [try discriminate|try reflexivity]; intros).
    all: clear - Hin A Hne O7 O5 H; tauto.
Qed.

Lemma seasonal_run_from c : forall l t s k, sinv (reset_day (c_annual c)) (end_day c) t s ->
  day_lt (reset_day (c_annual c)) (end_day c) \/ day_lt (end_day c) (reset_day (c_annual c)) ->
  fine (reset_day (c_annual c)) (end_day c) (t :: l) ->
  forall i u, nth_error l i = Some u ->
  exists b, nth_error (fst (seasonal_run c s (run_from (S k) l))) i = Some b /\
    (b = true <-> in_season (reset_day (c_annual c)) (end_day c) (md u)).
Proof.
  induction l as [|a l IH]; intros t s k I Hne Hf i u Hi; [destruct i; discriminate|].
  destruct Hf as [Hs Hf]. rewrite run_from_cons. cbn [seasonal_run].
  pose proof (seasonal_step c s t a k I Hs Hne) as I'.
  destruct (seasonal_before c s {| p_index := S k; p_date := a |}) as [s' ev]. cbn [fst] in I'.
  specialize (IH a s' (S k) I' Hne Hf).
  destruct (seasonal_run c s' (run_from (S (S k)) l)) as [bs s'']. cbn [fst] in *.
  destruct i as [|i]; cbn [nth_error] in *.
  - injection Hi as <-. exists (a_active (e_annual s')). split; [reflexivity|apply (si_active _ _ _ _ I')].
  - now apply IH.
Qed.

Lemma seasonal_run_spec c t l :
  let r := reset_day (c_annual c) in let e := end_day c in
  day_lt r e \/ day_lt e r ->
  in_season r e (md t) \/ (day_lt r e /\ day_lt (md t) r) ->
  fine r e (t :: l) ->
  forall i u, nth_error (t :: l) i = Some u ->
  exists b, nth_error (fst (seasonal_run c seasonal_new (run_of (t :: l)))) i = Some b /\ (b = true <-> in_season r e (md u)).
Proof.
  cbv zeta. intros Hne H0 Hf i u Hi. change (run_of (t :: l)) with (run_from 0 (t :: l)). rewrite run_from_cons. cbn [seasonal_run].
  pose proof (seasonal_first c t Hne H0) as I.
  destruct (seasonal_before c seasonal_new {| p_index := 0; p_date := t |}) as [s' ev]. cbn [fst] in I.
  pose proof (seasonal_run_from c l t s' 0 I Hne Hf) as IH.
  destruct (seasonal_run c s' (run_from 1 l)) as [bs s'']. cbn [fst] in *.
  destruct i as [|i]; cbn [nth_error] in *.
  - injection Hi as <-. exists (a_active (e_annual s')). split; [reflexivity|apply (si_active _ _ _ _ I)].
  - now apply IH.
Qed.

(** ** Daily timesteps *)
Lemma month_days_pos lp m : 1 <= m <= 12 -> 28 <= month_days lp m <= 31.
Proof.
  intros H. assert (m = 1 \/ m = 2 \/ m = 3 \/ m = 4 \/ m = 5 \/ m = 6 \/ m = 7 \/ m = 8 \/ m = 9 \/ m = 10 \/ m = 11 \/ m = 12) as C by lia.
  destruct lp; repeat (destruct C as [->|C]; [cbn; lia|]); subst; cbn; lia.
Qed.

Lemma month_days_leap lp m : 1 <= m <= 12 -> month_days false m <= month_days lp m.
Proof.
  intros H. destruct lp; [|lia].
  assert (m = 1 \/ m = 2 \/ m = 3 \/ m = 4 \/ m = 5 \/ m = 6 \/ m = 7 \/ m = 8 \/ m = 9 \/ m = 10 \/ m = 11 \/ m = 12) as C by lia.
  repeat (destruct C as [->|C]; [cbn; lia|]); subst; cbn; lia.
Qed.

Lemma valid_tomorrow d : valid_date d -> valid_date (tomorrow d).
Proof.
  unfold valid_date, tomorrow. intros [H1 H2].
  destruct (Z.ltb_spec (dom d) (month_days (gleapb (yr d)) (mon d))); [cbn [yr mon dom]; lia|].
  destruct (Z.ltb_spec (mon d) 12); cbn [yr mon dom].
  - pose proof (month_days_pos (gleapb (yr d)) (mon d + 1)). lia.
  - pose proof (month_days_pos (gleapb (yr d + 1)) 1). lia.
Qed.

Lemma tomorrow_fine r e d : valid_date d -> every_year r -> every_year e -> fine_step r e d (tomorrow d).
Proof.
  intros [V1 V2] [R1 R2] [E1 E2]. unfold fine_step, date_lt, tomorrow, day_le, day_lt, md.
  pose proof (month_days_leap (gleapb (yr d))) as ML.
  destruct (Z.ltb_spec (dom d) (month_days (gleapb (yr d)) (mon d))) as [H|H]; [cbn [yr mon dom fst snd]; lia|].
  pose proof (ML (fst r) R1) as M1. pose proof (ML (fst e) E1) as M2.
  destruct (Z.ltb_spec (mon d) 12) as [H3|H3]; cbn [yr mon dom fst snd].
  - split; [lia|]. split; [lia|]. intros C0 C. split; [reflexivity|].
    destruct (Z.eq_dec (fst e) (mon d)) as [X|X]; [rewrite X in M2, E2; lia|lia].
  - assert (mon d = 12) as X by lia. rewrite X in *. split; [lia|]. split; [|lia]. intros _.
    split; [destruct (Z.eq_dec (fst r) 12) as [Y|Y]; [rewrite Y in M1, R2; lia|lia]
           |destruct (Z.eq_dec (fst e) 12) as [Y|Y]; [rewrite Y in M2, E2; lia|lia]].
Qed.

Lemma daily_fine r e : every_year r -> every_year e -> forall n d, valid_date d -> fine r e (daily d n).
Proof.
  intros R E. induction n as [|n IH]; intros d V; [exact I|]. cbn [daily]. destruct n as [|n]; [exact I|].
  cbn [daily]. split; [now apply tomorrow_fine|]. apply (IH (tomorrow d)). now apply valid_tomorrow.
Qed.

(** ** More on month changes *)
Lemma month_changes_stop ms : forall prev i, (S i < length ms)%nat ->
  month_changes prev ms (S i) = month_changes prev ms i + 1 /\ new_month ms (S i) \/
  month_changes prev ms (S i) = month_changes prev ms i /\ ~ new_month ms (S i).
Proof.
  induction ms as [|a ms IH]; intros prev i Hi; [cbn in Hi; lia|].
  destruct ms as [|b ms]; [cbn in Hi; lia|]. destruct i as [|i].
  - cbn [month_changes]. destruct (Z.eqb_spec a b) as [E|E].
    + right. split; [lia|]. intros [m [H1 [H2|[j [p [Ej [Ep Hp]]]]]]]; [discriminate|]. injection Ej as <-. cbn in H1, Ep. congruence.
    + left. split; [lia|]. exists b. split; [reflexivity|]. right. exists 0%nat, a. auto.
  - specialize (IH (Some a) i ltac:(cbn in *; lia)).
    assert (new_month (a :: b :: ms) (S (S i)) <-> new_month (b :: ms) (S i)) as HN.
    { unfold new_month. cbn [nth_error]. split; intros [m [H1 [H2|[j [p [Ej [Ep Hp]]]]]]]; try discriminate; exists m; (split; [exact H1|]); right.
      - injection Ej as <-. exists i, p. auto.
      - injection Ej as <-. exists (S i), p. auto. }
    rewrite HN. cbn [month_changes] in *. destruct IH as [[H1 H2]|[H1 H2]]; [left|right]; (split; [|exact H2]); destruct prev; lia.
Qed.

Lemma month_changes_mono ms prev : forall j i, (i <= j)%nat -> (j < length ms)%nat -> month_changes prev ms i <= month_changes prev ms j.
Proof.
  induction j as [|j IH]; intros i Hi Hj; [replace i with 0%nat by lia; lia|].
  destruct (Nat.eq_dec i (S j)) as [->|Hne]; [lia|]. specialize (IH i ltac:(lia) ltac:(lia)).
  destruct (month_changes_stop ms prev j Hj) as [[H _]|[H _]]; lia.
Qed.

Lemma month_changes_hit ms prev v : forall j i, (i <= j)%nat -> (j < length ms)%nat ->
  month_changes prev ms i < v <= month_changes prev ms j ->
  exists m, (i < m <= j)%nat /\ new_month ms m /\ month_changes prev ms m = v.
Proof.
  induction j as [|j IH]; intros i Hi Hj Hv; [replace i with 0%nat in Hv by lia; lia|].
  destruct (Nat.eq_dec i (S j)) as [->|Hne]; [lia|].
  destruct (month_changes_stop ms prev j Hj) as [[H H']|[H _]].
  - destruct (Z.eq_dec v (month_changes prev ms (S j))) as [E|E].
    + exists (S j). split; [lia|]. split; [exact H'|congruence].
    + destruct (IH i ltac:(lia) ltac:(lia) ltac:(lia)) as [m [M1 M2]]. exists m. split; [lia|exact M2].
  - destruct (IH i ltac:(lia) ltac:(lia) ltac:(lia)) as [m [M1 M2]]. exists m. split; [lia|exact M2].
Qed.

Lemma monthly_between k init ms i j : 1 <= k -> 0 <= init <= k -> (i < j)%nat ->
  nth_error (monthly_run k (monthly_reset init) ms) i = Some true ->
  nth_error (monthly_run k (monthly_reset init) ms) j = Some true ->
  (forall m, (i < m < j)%nat -> nth_error (monthly_run k (monthly_reset init) ms) m = Some false) ->
  month_changes None ms j = month_changes None ms i + k.
Proof.
  intros Hk Hin Hij Hi Hj Hb.
  assert (length (monthly_run k (monthly_reset init) ms) = length ms) as HL.
  { clear. generalize (monthly_reset init). induction ms as [|a l IH]; intros s; [reflexivity|]. cbn [monthly_run].
    destruct (monthly_before k s a). cbn [length]. now rewrite IH. }
  assert (j < length ms)%nat as Lj by (rewrite <- HL; apply nth_error_Some; congruence).
  destruct (monthly_when k init ms Hk Hin i ltac:(lia)) as [b [B1 B2]]. rewrite Hi in B1. injection B1 as <-. destruct (proj1 B2 eq_refl) as [Ni [Pi Mi]].
  destruct (monthly_when k init ms Hk Hin j Lj) as [b [B1 B3]]. rewrite Hj in B1. injection B1 as <-. destruct (proj1 B3 eq_refl) as [Nj [Pj Mj]].
  assert (month_changes None ms i < month_changes None ms j) as Hlt.
  { destruct j as [|j]; [lia|]. pose proof (month_changes_mono ms None j i ltac:(lia) ltac:(lia)).
    destruct (month_changes_stop ms None j Lj) as [[G _]|[_ G]]; [lia|contradiction]. }
  set (a := month_changes None ms i) in *. set (c := month_changes None ms j) in *.
  apply Z.mod_divide in Mi; [|lia]. apply Z.mod_divide in Mj; [|lia]. destruct Mi as [p Hp], Mj as [q Hq].
  assert (q >= p + 1) as Hpq by nia.
  destruct (Z.eq_dec q (p + 1)) as [->|Hne]; [lia|].
  assert (a + k < c) as Hbig by nia.
  destruct (month_changes_hit ms None (a + k) j i ltac:(lia) Lj) as [m [Hm [Nm Vm]]]; [fold a c; lia|].
  assert (m <> j) as Hmj by (intros ->; fold c in Vm; lia).
  specialize (Hb m ltac:(lia)). destruct (monthly_when k init ms Hk Hin m ltac:(lia)) as [b [B1 B4]].
  rewrite Hb in B1. injection B1 as <-. assert (false = true) as C; [|discriminate]. apply B4. split; [exact Nm|]. rewrite Vm. split; [lia|].
  replace (init - 1 + (a + k)) with ((p + 1) * k) by lia. apply Z_mod_mult.
Qed.

Lemma month_number_eq a b : 1 <= mon a <= 12 -> 1 <= mon b <= 12 -> month_number a <= month_number b <= month_number a + 1 ->
  mon a = mon b <-> month_number a = month_number b.
Proof. unfold month_number. intros A B C. lia. Qed.

Lemma month_changes_calendar l : forall t0, (forall t, In t (t0 :: l) -> 1 <= mon t <= 12) -> no_month_skipped (t0 :: l) ->
  forall i t, nth_error l i = Some t -> month_changes (Some (mon t0)) (map mon l) i = month_number t - month_number t0.
Proof.
  induction l as [|a l IH]; intros t0 Hv Hs i t Hi; [destruct i; discriminate|]. destruct Hs as [H1 H2]. cbn [map month_changes].
  pose proof (month_number_eq t0 a (Hv t0 (or_introl eq_refl)) (Hv a (or_intror (or_introl eq_refl))) H1) as HE.
  assert ((if mon t0 =? mon a then 0 else 1) = month_number a - month_number t0) as ->.
  { destruct (Z.eqb_spec (mon t0) (mon a)) as [E|E]; [apply HE in E; lia|]. assert (month_number t0 <> month_number a) by tauto. lia. }
  destruct i as [|i]; cbn [nth_error] in Hi; [injection Hi as <-; lia|].
  rewrite (IH a (fun t H => Hv t (or_intror H)) H2 i t Hi). lia.
Qed.

Lemma monthly_calendar k init l t0 : 1 <= k -> 0 <= init <= k ->
  (forall t, In t (t0 :: l) -> 1 <= mon t <= 12) -> no_month_skipped (t0 :: l) ->
  forall i t, nth_error (t0 :: l) i = Some t ->
  exists b, nth_error (monthly_run k (monthly_reset init) (map mon (t0 :: l))) i = Some b /\
    (b = true <-> (i = 0%nat \/ exists p, nth_error (t0 :: l) (i - 1) = Some p /\ month_number p < month_number t) /\
                  0 < init + (month_number t - month_number t0) /\ (init + (month_number t - month_number t0)) mod k = 0).
Proof.
  intros Hk Hin Hv Hs i t Hi.
  assert (i < length (t0 :: l))%nat as Li by (apply nth_error_Some; congruence).
  destruct (monthly_when k init (map mon (t0 :: l)) Hk Hin i) as [b [B1 B2]]; [rewrite map_length; exact Li|].
  exists b. split; [exact B1|]. rewrite B2.
  assert (month_changes None (map mon (t0 :: l)) i = 1 + (month_number t - month_number t0)) as ->.
  { cbn [map month_changes]. destruct i as [|i]; cbn [nth_error] in Hi; [injection Hi as <-; lia|]. now rewrite (month_changes_calendar l t0 Hv Hs i t Hi). }
  replace (init - 1 + (1 + (month_number t - month_number t0))) with (init + (month_number t - month_number t0)) by lia.
  assert (new_month (map mon (t0 :: l)) i <-> (i = 0%nat \/ exists p, nth_error (t0 :: l) (i - 1) = Some p /\ month_number p < month_number t)) as ->; [|reflexivity].
  assert (forall j p, i = S j -> nth_error (t0 :: l) j = Some p -> (mon p = mon t <-> month_number p = month_number t) /\ month_number p <= month_number t) as HC.
  { intros j p -> Hp. clear - Hv Hs Hi Hp. revert t0 Hv Hs j Hi Hp. induction l as [|a l IH]; intros t0 Hv Hs j Hi Hp; [destruct j; discriminate|].
    destruct Hs as [H1 H2]. destruct j as [|j].
    - cbn in Hi, Hp. injection Hi as <-. injection Hp as <-. split; [|lia]. apply month_number_eq; [apply Hv; now left|apply Hv; right; now left|exact H1].
    - apply (IH a (fun t H => Hv t (or_intror H)) H2 j); assumption. }
  unfold new_month. split.
  - intros [m [H1 [H2|[j [p [Ej [Ep Hp]]]]]]]; [now left|]. right. rewrite nth_error_map, Hi in H1. injection H1 as <-.
    rewrite nth_error_map in Ep. destruct (nth_error (t0 :: l) j) as [q|] eqn:Eq; [|discriminate]. injection Ep as <-.
    exists q. replace (i - 1)%nat with j by lia. split; [exact Eq|]. destruct (HC j q Ej Eq) as [G1 G2].
    assert (month_number q <> month_number t) by tauto. lia.
  - intros H. exists (mon t). rewrite nth_error_map, Hi. split; [reflexivity|]. destruct H as [H|[p [H1 H2]]]; [now left|].
    destruct i as [|i]; [now left|]. right. replace (S i - 1)%nat with i in H1 by lia. exists i, (mon p). rewrite nth_error_map, H1. split; [reflexivity|]. split; [reflexivity|].
    destruct (HC i p eq_refl H1) as [G1 G2]. intros C. apply G1 in C. lia.
Qed.

(** ** Annual: consequences *)
Lemma annual_once c l i j : ascending l -> (i < j)%nat ->
  forall a b ti tj, nth_error (annual_run c annual_reset (run_of l)) i = Some (Some a) ->
  nth_error (annual_run c annual_reset (run_of l)) j = Some (Some b) ->
  nth_error l i = Some ti -> nth_error l j = Some tj -> yr ti <> yr tj.
Proof.
  intros Ha Hij a b ti tj Hi Hj Ti Tj E.
  destruct (annual_reset_when c l Ha i) as [t [e [E1 [E2 [E3 _]]]]]; [apply nth_error_Some; congruence|].
  destruct (annual_reset_when c l Ha j) as [u [f [F1 [F2 [F3 _]]]]]; [apply nth_error_Some; congruence|].
  rewrite Hi in E2. injection E2 as <-. rewrite Hj in F2. injection F2 as <-.
  destruct (proj1 E3 ltac:(discriminate)) as [[x [X1 [X2 _]]] _]. destruct (proj1 F3 ltac:(discriminate)) as [[y [Y1 [_ Y3]]] _].
  rewrite X1 in Ti. injection Ti as ->. rewrite Y1 in Tj. injection Tj as ->. eapply Y3; eauto.
Qed.

Lemma first_reaching r l y : (exists i t, nth_error l i = Some t /\ yr t = y /\ day_le r (md t)) ->
  exists i t, nth_error l i = Some t /\ yr t = y /\ first_on_or_after r l i.
Proof.
  intros [i [t [H1 [H2 H3]]]]. revert t H1 H2 H3. induction i as [i IH] using lt_wf_ind. intros t H1 H2 H3.
  assert ((exists j u, (j < i)%nat /\ nth_error l j = Some u /\ yr u = y /\ day_le r (md u)) \/
          (forall j u, (j < i)%nat -> nth_error l j = Some u -> yr u = y -> ~ day_le r (md u))) as [[j [u [J1 [J2 [J3 J4]]]]]|Hn].
  { clear IH. induction i as [|i IHi] in |- *; [right; intros; lia|].
    destruct IHi as [[j [u [J1 J2]]]|Hn]; [left; exists j, u; split; [lia|exact J2]|].
    destruct (nth_error l i) as [u|] eqn:E.
    - assert ((yr u = y /\ day_le r (md u)) \/ ~ (yr u = y /\ day_le r (md u))) as [D|D] by (unfold day_le; lia).
      + left. exists i, u. split; [lia|]. split; [exact E|exact D].
      + right. intros j v Hj Hv Hy Hd. destruct (Nat.eq_dec j i) as [->|Hne]; [rewrite E in Hv; injection Hv as <-; tauto|]. apply (Hn j v ltac:(lia) Hv Hy Hd).
    - right. intros j v Hj Hv. destruct (Nat.eq_dec j i) as [->|Hne]; [congruence|]. apply (Hn j v ltac:(lia) Hv). }
  - eapply IH; eauto.
  - exists i, t. split; [exact H1|]. split; [exact H2|]. exists t. split; [exact H1|]. split; [exact H3|]. intros j u Hj Hu Hy. eapply Hn; eauto. congruence.
Qed.

Lemma annual_every c l y : ascending l ->
  (exists i t, nth_error l i = Some t /\ yr t = y /\ day_le (reset_day c) (md t)) ->
  (forall t, nth_error l 0 = Some t -> yr t = y -> ~ day_lt (reset_day c) (md t)) ->
  exists i t a, nth_error l i = Some t /\ yr t = y /\ nth_error (annual_run c annual_reset (run_of l)) i = Some (Some a).
Proof.
  intros Ha Hex H0. destruct (first_reaching _ l y Hex) as [i [t [H1 [H2 H3]]]].
  destruct (annual_reset_when c l Ha i) as [u [e [E1 [E2 [E3 _]]]]]; [apply nth_error_Some; congruence|].
  rewrite H1 in E1. injection E1 as <-. destruct e as [a|].
  - exists i, t, a. auto.
  - assert (@None bool <> None); [|congruence]. apply E3. split; [exact H3|]. intros ->. now apply H0.
Qed.

Lemma daily_length : forall n d, length (daily d n) = n.
Proof. induction n; intros; cbn; auto. Qed.

Lemma daily_nth : forall n d i t, nth_error (daily d n) i = Some t -> nth_error (daily d n) (S i) = Some (tomorrow t) \/ S i = n.
Proof.
  induction n as [|n IH]; intros d i t H; [destruct i; discriminate|]. cbn [daily nth_error] in *. destruct i as [|i]; cbn [nth_error] in H.
  - injection H as <-. destruct n as [|n]; [now right|now left].
  - destruct (IH _ _ _ H) as [G|G]; [now left|right; lia].
Qed.

Lemma daily_valid : forall n d, valid_date d -> forall t, In t (daily d n) -> valid_date t.
Proof.
  induction n as [|n IH]; intros d V t H; [contradiction|]. destruct H as [<-|H]; [exact V|]. eapply IH; [|exact H]. now apply valid_tomorrow.
Qed.

Lemma daily_ascending : forall n d, valid_date d -> ascending (daily d n).
Proof.
  induction n as [|n IH]; intros d V; [exact I|]. cbn [daily]. destruct n as [|n]; [exact I|].
  split; [apply (tomorrow_fine (1, 1) (1, 1) d V); cbv; intuition congruence|]. apply (IH (tomorrow d)). now apply valid_tomorrow.
Qed.

Lemma ascending_lt l : ascending l -> forall i j a b, (i < j)%nat -> nth_error l i = Some a -> nth_error l j = Some b -> date_lt a b.
Proof.
  induction l as [|x l IH]; intros H i j a b Hij Ha Hb; [destruct i; discriminate|].
  assert (forall m b, nth_error l m = Some b -> date_lt x b) as HX.
  { clear - H. revert x H. induction l as [|y l IH]; intros x H m b Hb; [destruct m; discriminate|]. destruct H as [H1 H2].
    destruct m as [|m]; cbn in Hb; [injection Hb as <-; exact H1|]. specialize (IH y H2 m b Hb). unfold date_lt in *. lia. }
  destruct j as [|j]; [lia|]. destruct i as [|i]; cbn in Ha, Hb.
  - injection Ha as <-. eapply HX; eauto.
  - eapply (IH (ascending_tail _ _ H) i j); eauto. lia.
Qed.

Lemma annual_daily c d n i t : valid_date d -> every_year (reset_day c) -> nth_error (daily d n) i = Some t ->
  (exists a, nth_error (annual_run c annual_reset (run_of (daily d n))) i = Some (Some a)) <-> md t = reset_day c.
Proof.
  intros V Hr Ht. pose proof (daily_ascending n d V) as Ha.
  destruct (annual_reset_when c _ Ha i) as [u [e [E1 [E2 [E3 _]]]]]; [apply nth_error_Some; congruence|].
  rewrite Ht in E1. injection E1 as <-. rewrite E2.
  assert ((exists a, Some e = Some (Some a)) <-> e <> None) as ->.
  { destruct e as [a|]; split; [discriminate|eauto|intros [a C]; discriminate|congruence]. }
  rewrite E3. revert Hr. generalize (reset_day c) as r. intros r Hr. clear E3 E2 e. split.
  - intros [[x [X1 [X2 X3]]] X4]. rewrite Ht in X1. injection X1 as <-.
    assert (~ day_lt r (md t)) as Hnl.
    { destruct i as [|i]; [now apply X4|]. intros C.
      destruct (nth_error (daily d n) i) as [p|] eqn:Ep; [|apply nth_error_None in Ep; assert (S i < length (daily d n))%nat by (apply nth_error_Some; congruence); lia].
      destruct (daily_nth _ _ _ _ Ep) as [Q|Q]; [|assert (S i < length (daily d n))%nat by (apply nth_error_Some; congruence); rewrite daily_length in *; lia].
      rewrite Ht in Q. injection Q as ->. assert (valid_date p) as [V1 V2] by (eapply daily_valid; [exact V|eapply nth_error_In; eauto]).
      pose proof (X3 i p ltac:(lia) Ep) as Y. destruct Hr as [R1 R2]. pose proof (month_days_leap (gleapb (yr p)) (fst r) R1) as M.
      unfold tomorrow in C, Y. destruct (Z.ltb_spec (dom p) (month_days (gleapb (yr p)) (mon p))) as [L|L].
      - cbn [yr] in Y. apply (Y eq_refl). unfold day_lt, day_le, md in *. cbn [yr mon dom fst snd] in *. lia.
      - destruct (Z.ltb_spec (mon p) 12) as [L2|L2].
        + cbn [yr] in Y. apply (Y eq_refl). unfold day_lt, day_le, md in *. cbn [yr mon dom fst snd] in *.
          destruct (Z.eq_dec (fst r) (mon p)) as [G|G]; [rewrite G in *; lia|lia].
        + unfold day_lt, md in C. cbn [yr mon dom fst snd] in C. lia. }
    destruct r as [rm rd]. unfold day_le, day_lt, md in *. cbn [fst snd] in *. f_equal; lia.
  - intros E. split.
    + exists t. split; [exact Ht|]. split; [unfold day_le; rewrite E; lia|]. intros j u Hj Hu Hy C.
      pose proof (ascending_lt _ Ha j i u t Hj Hu Ht) as L. unfold date_lt in L. rewrite <- E in C. unfold day_le, md in C. cbn [fst snd] in C. lia.
    + intros _. unfold day_lt. rewrite E. lia.
Qed.
