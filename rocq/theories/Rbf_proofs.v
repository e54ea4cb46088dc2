(** Lemmas on daily, weekly and interpolated annual profiles. *)
From Verif Require Import Base Calendar_spec Calendar_model Calendar_proofs Ring Profiles_model Profiles_proofs Rbf_model Rbf_spec.
Local Open Scope Z_scope.
Local Open Scope list_scope.

(** ** Increasing lists *)
Definition apart (k : Z) (l : list Z) : Prop :=
  forall i j a b, (i < j)%nat -> nth_error l i = Some a -> nth_error l j = Some b -> k < b - a.

Lemma apart_tail k a l : apart k (a :: l) -> apart k l.
Proof. intros H i j x y L A B. exact (H (S i) (S j) x y ltac:(lia) A B). Qed.

Lemma apart_cons k a b l : 0 <= k -> k < b - a -> apart k (b :: l) -> apart k (a :: b :: l).
Proof.
  intros K G H i j x y L A B. destruct j as [|j]; [lia|]. cbn in B. destruct i as [|i]; cbn in A.
  - injection A as <-. destruct j as [|j]; cbn in B; [now injection B as <-|].
    pose proof (H 0%nat (S j) b y ltac:(lia) eq_refl B). lia.
  - exact (H i j x y ltac:(lia) A B).
Qed.

Lemma diffs_apart k l : 0 <= k -> existsb (fun x => x <=? k) (diffs l) = false <-> apart k l.
Proof.
  intros K. induction l as [|a l IH]; [split; [intros _ i j x y L A; now destruct i|reflexivity]|].
  destruct l as [|b l].
  - split; [|reflexivity]. intros _ i j x y L A B. destruct j as [|[|j]]; [lia|discriminate B|discriminate B].
  - change (diffs (a :: b :: l)) with ((b - a) :: diffs (b :: l)). cbn [existsb]. rewrite orb_false_iff, IH, Z.leb_gt.
    split.
    + intros [G H]. now apply apart_cons.
    + intros H. split; [exact (H 0%nat 1%nat a b ltac:(lia) eq_refl eq_refl)|now apply apart_tail in H].
Qed.

Lemma existsb_false A (f : A -> bool) l : existsb f l = false <-> forall x, In x l -> f x = false.
Proof.
  split.
  - intros H x I. destruct (f x) eqn:E; [|reflexivity]. enough (existsb f l = true) by congruence. apply existsb_exists. eauto.
  - intros H. destruct (existsb f l) eqn:E; [|reflexivity]. apply existsb_exists in E as [x [I F]]. rewrite (H x I) in F. discriminate.
Qed.

Lemma set_days_spec days r : set_days days = Some r <-> r = days /\ good_days days.
Proof.
  unfold set_days, good_days. destruct days as [|v0 t].
  - split; [discriminate|]. intros [_ [H _]]. discriminate H.
  - destruct (Z.eqb_spec v0 1) as [->|N]; cbn [negb].
    2: { split; [discriminate|]. intros [_ [H _]]. cbn in H. injection H as H. contradiction. }
    destruct (Nat.ltb_spec (length (1 :: t)) 3) as [L|L].
    { split; [discriminate|]. intros [_ [_ [H _]]]. cbn [length] in *. lia. }
    destruct (existsb (fun x => x <=? 0) (diffs (1 :: t))) eqn:D.
    { split; [discriminate|]. intros [_ [_ [_ [H _]]]].
      enough (existsb (fun x => x <=? 0) (diffs (1 :: t)) = false) by congruence.
      apply (diffs_apart 0); [lia|]. intros i j a b LT A B. specialize (H i j a b LT A B). lia. }
    apply (proj1 (diffs_apart 0 _ ltac:(lia))) in D.
    destruct (existsb (fun v => (v <? 0) || (365 <? v)) (1 :: t)) eqn:E.
    { split; [discriminate|]. intros [_ [_ [_ [_ H]]]]. apply existsb_exists in E as [x [I F]]. specialize (H x I).
      apply orb_true_iff in F as [F|F]; apply Z.ltb_lt in F; lia. }
    rewrite existsb_false in E. split.
    + intros H. injection H as <-. split; [reflexivity|]. split; [reflexivity|]. split; [exact L|]. split.
      * intros i j a b LT A B. specialize (D i j a b LT A B). lia.
      * intros a I. pose proof (E a I) as F. apply orb_false_iff in F as [_ F]. apply Z.ltb_ge in F. split; [|exact F].
        apply In_nth_error in I as [i I]. destruct i as [|i]; [cbn in I; injection I as <-; lia|].
        pose proof (D 0%nat (S i) 1 a ltac:(lia) eq_refl I). lia.
    + intros [-> _]. reflexivity.
Qed.

(** ** The points given to scipy *)
Lemma last_nth_error A (l : list A) d : l <> [] -> nth_error l (length l - 1) = Some (last l d).
Proof.
  intros N. destruct (exists_last N) as [t [x ->]]. rewrite last_last, app_length, nth_error_app2 by (cbn; lia).
  cbn [length]. replace (length t + 1 - 1 - length t)%nat with 0%nat by lia. reflexivity.
Qed.

Lemma rbf_x_nth days i : (i < length days)%nat -> nth_error (rbf_x days) (S i) = nth_error days i.
Proof. intros H. unfold rbf_x. cbn [nth_error]. now rewrite nth_error_app1. Qed.
Lemma rbf_y_nth values i : (i < length values)%nat -> nth_error (rbf_y values) (S i) = nth_error values i.
Proof. intros H. unfold rbf_y. cbn [nth_error]. now rewrite nth_error_app1. Qed.

Lemma good_last days : good_days days -> In (last days 0) days /\ 1 < last days 0 <= 365.
Proof.
  intros [F [L [I R]]]. assert (N : days <> []) by (intros ->; cbn in L; lia).
  pose proof (last_nth_error _ days 0 N) as E. split; [now apply nth_error_In in E|].
  pose proof (I 0%nat (length days - 1)%nat 1 _ ltac:(lia) F E). pose proof (R _ (nth_error_In _ _ E)). lia.
Qed.

Lemma good_second days : good_days days -> nth_error days 1 = Some (nth 1 days 0) /\ 1 < nth 1 days 0.
Proof.
  intros [F [L [I R]]]. assert (E : nth_error days 1 = Some (nth 1 days 0)) by (apply nth_error_nth'; lia).
  split; [exact E|]. exact (I 0%nat 1%nat _ _ ltac:(lia) F E).
Qed.

Lemma rbf_x_apart days : good_days days -> apart 0 (rbf_x days).
Proof.
  intros G. pose proof (good_last days G) as [IL RL]. pose proof (good_second days G) as [ES RS].
  destruct G as [F [L [I R]]]. unfold rbf_x. intros i j a b LT A B.
  assert (P : forall n x, nth_error (days ++ [366; 366 + nth 1 days 0 - 1]) n = Some x ->
     ((n < length days)%nat /\ nth_error days n = Some x) \/ (n = length days /\ x = 366) \/ (n = (length days + 1)%nat /\ x = 366 + nth 1 days 0 - 1)).
  { intros n x H. destruct (Nat.lt_ge_cases n (length days)) as [C|C]; [rewrite nth_error_app1 in H by exact C; now left|].
    rewrite nth_error_app2 in H by exact C. right. destruct (n - length days)%nat as [|[|k]] eqn:K; cbn [nth_error] in H.
    - left. split; [lia|congruence].
    - right. split; [lia|congruence].
    - destruct k; discriminate H. }
  destruct j as [|j]; [lia|]. cbn in B. apply P in B. destruct i as [|i]; cbn in A.
  - injection A as <-. destruct B as [[_ B]|[[_ ->]|[_ ->]]]; [|lia|lia]. pose proof (R b (nth_error_In _ _ B)). lia.
  - apply P in A. destruct A as [[A1 A]|[[A1 ->]|[A1 ->]]], B as [[B1 B]|[[B1 ->]|[B1 ->]]]; try lia.
    + specialize (I i j a b ltac:(lia) A B). lia.
    + pose proof (R a (nth_error_In _ _ A)). lia.
    + pose proof (R a (nth_error_In _ _ A)). lia.
Qed.

(** ** Looking up a date *)
Lemma daily_value_position stored d : valid_date d ->
  daily_value stored d = nth_error stored (Z.to_nat (leap_position (mon d) (dom d))).
Proof. intros V. unfold daily_value. fold (day_index d). now rewrite (day_index_position d V). Qed.

Lemma position_range d : valid_date d -> 0 <= leap_position (mon d) (dom d) <= 365.
Proof. intros [Hm Hd]. exact (leap_position_range _ _ _ Hm Hd). Qed.

Lemma weekly_value_position stored d : valid_date d ->
  weekly_value stored d = nth_error stored (Z.to_nat (Z.min 51 (leap_position (mon d) (dom d) / 7))).
Proof.
  intros V. unfold weekly_value. fold (day_index d). rewrite (day_index_position d V). unfold week_index.
  pose proof (position_range d V) as R. set (p := leap_position (mon d) (dom d)) in *. clearbody p. do 2 f_equal.
  destruct (Z.leb_spec 364 p) as [C|C]; [rewrite Z.min_l; [reflexivity|apply Z.div_le_lower_bound; lia]|].
  rewrite Z.min_r; [reflexivity|]. apply Z.lt_succ_r. apply Z.div_lt_upper_bound; lia.
Qed.

Lemma rbf_value_common fit p d : valid_date d ->
  rbf_value (rbf_reset fit p) d =
  Some (clamp (b_min p) (b_max p) (fit (rbf_x (b_days p)) (rbf_y (b_values p)) (common_day d))).
Proof.
  intros V. unfold rbf_value. fold (day_index d). rewrite (day_index_position d V). pose proof (position_range d V) as R.
  destruct V as [Hm Hd]. cbn [rbf_reset b_interp].
  destruct (spread_inv (fun i => clamp (b_min p) (b_max p) (fit (rbf_x (b_days p)) (rbf_y (b_values p)) (Z.of_nat i + 1))) 365 ltac:(lia)) as [L E].
  erewrite nth_error_nth' by (rewrite L; lia). f_equal. rewrite E; [|lia|unfold src; destruct (Nat.leb_spec (Z.to_nat (leap_position (mon d) (dom d))) 58); lia].
  unfold common_day. now rewrite (src_position _ _ _ Hm Hd).
Qed.

Lemma common_day_range d : valid_date d -> 1 <= common_day d <= 365.
Proof.
  intros V. pose proof (position_range d V) as R. destruct V as [Hm Hd]. unfold common_day.
  rewrite <- (src_position _ _ _ Hm Hd). unfold src.
  destruct (Nat.leb_spec (Z.to_nat (leap_position (mon d) (dom d))) 58); lia.
Qed.

(** ** Bounds on days *)
Lemma explicit_spec lower upper days l u :
  bounds_init (Explicit lower upper) days = Some (l, u) ->
  l = lower /\ u = upper /\ (forall x, In x lower -> 1 < x) /\ (forall x, In x upper -> x <= 365) /\
  (length lower = length upper -> forall i x y, nth_error upper i = Some x -> nth_error lower (S i) = Some y -> x < y).
Proof.
  cbn [bounds_init]. destruct (existsb (fun x => x <=? 1) lower) eqn:A; [discriminate|].
  destruct (existsb (fun x => 365 <? x) upper) eqn:B; [discriminate|].
  destruct (existsb (fun '(l2, u1) => l2 <=? u1) (combine (tl lower) (removelast upper))) eqn:C; [discriminate|].
  intros H. injection H as <- <-. split; [reflexivity|]. split; [reflexivity|]. rewrite existsb_false in A, B, C. repeat split.
  - intros x I. specialize (A x I). now apply Z.leb_gt in A.
  - intros x I. specialize (B x I). now apply Z.ltb_ge in B.
  - intros E i x y X Y. enough (I : In (y, x) (combine (tl lower) (removelast upper))) by (specialize (C _ I); now apply Z.leb_gt in C).
    clear A B C. revert upper i E X Y. destruct lower as [|l0 lower]; [intros upper i _ _ Y; now destruct i|]. cbn [tl].
    induction lower as [|l1 lower IH] in l0 |- *; intros upper i E X Y; [destruct i; discriminate Y|].
    destruct upper as [|u0 [|u1 upper]]; [discriminate E|discriminate E|]. change (removelast (u0 :: u1 :: upper)) with (u0 :: removelast (u1 :: upper)).
    cbn [combine]. destruct i as [|i].
    + cbn in X, Y. injection X as ->. injection Y as ->. now left.
    + right. cbn in X. change (nth_error (l1 :: lower) (S i) = Some y) in Y. apply (IH l1 (u1 :: upper) i); [|exact X|exact Y].
      cbn [length] in *. lia.
Qed.

(** Values between bounds that do not overlap are good days. *)
Lemma between_good lower upper values :
  (2 <= length values)%nat -> within lower upper values ->
  (forall x, In x lower -> 1 < x) -> (forall x, In x upper -> x <= 365) ->
  (forall i x y, nth_error upper i = Some x -> nth_error lower (S i) = Some y -> x < y) ->
  good_days (1 :: values).
Proof.
  intros N [L1 [L2 W]] A B C. 
  assert (T : forall i v, nth_error values i = Some v -> exists l u, nth_error lower i = Some l /\ nth_error upper i = Some u /\ l <= v <= u).
  { intros i v E. assert (i < length values)%nat by (apply nth_error_Some; congruence).
    destruct (nth_error lower i) as [l|] eqn:EL; [|apply nth_error_None in EL; lia].
    destruct (nth_error upper i) as [u|] eqn:EU; [|apply nth_error_None in EU; lia]. exists l, u. split; [reflexivity|]. split; [reflexivity|]. exact (W i v l u E EL EU). }
  assert (I : apart 0 (1 :: values)).
  { apply (diffs_apart 0); [lia|].
    assert (D : forall vs m, (forall i v w, nth_error (m :: vs) i = Some v -> nth_error (m :: vs) (S i) = Some w -> v < w) -> existsb (fun x => x <=? 0) (diffs (m :: vs)) = false).
    { induction vs as [|v vs IH]; intros m H; [reflexivity|]. change (diffs (m :: v :: vs)) with ((v - m) :: diffs (v :: vs)).
      cbn [existsb]. apply orb_false_iff. split; [apply Z.leb_gt; specialize (H 0%nat m v eq_refl eq_refl); lia|].
      apply IH. intros i x y X Y. exact (H (S i) x y X Y). }
    apply D. intros i v w V Wn. cbn in Wn. destruct (T i w Wn) as [l [u [E1 [E2 E3]]]].
    pose proof (A l (nth_error_In _ _ E1)). destruct i as [|i]; [cbn in V; injection V as <-; lia|]. cbn in V.
    destruct (T i v V) as [l' [u' [F1 [F2 F3]]]]. specialize (C i u' l F2 E1). lia. }
  split; [reflexivity|]. split; [cbn [length]; lia|]. split.
  - intros i j a b LT X Y. specialize (I i j a b LT X Y). lia.
  - intros a J. destruct J as [<-|J]; [lia|]. apply In_nth_error in J as [i J]. destruct (T i a J) as [l [u [E1 [E2 E3]]]].
    pose proof (A l (nth_error_In _ _ E1)). pose proof (B u (nth_error_In _ _ E2)). lia.
Qed.
