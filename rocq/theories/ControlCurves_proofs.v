(** Lemmas on control curves. *)
From Coq Require Import Permutation.
From Verif Require Import Base ControlCurves_model ControlCurves_spec.
Local Open Scope Q_scope.

Lemma in_band_cons c r pc k : pc < c -> in_band r pc k -> in_band (c :: r) pc (S k).
Proof.
  intros Hc [H1 [H2 H3]]. repeat split.
  - cbn. lia.
  - intros j Hj. destruct j as [|j]; cbn; [exact Hc|]. apply H2. lia.
  - intros H. cbn in *. apply H3. lia.
Qed.

Lemma in_band_nil pc : in_band [] pc 0.
Proof. split; [reflexivity|]. split; [intros j Hj; lia|cbn; lia]. Qed.

Lemma in_band_here c r pc : c <= pc -> in_band (c :: r) pc 0.
Proof. intros H. split; [cbn; lia|]. split; [intros j Hj; lia|intros _; exact H]. Qed.

Lemma index_loop_band pc curves : forall j,
  exists k, index_loop pc j curves (j + length curves) = (j + k)%nat /\ in_band curves pc k.
Proof.
  induction curves as [|c r IH]; intros j; cbn [index_loop length].
  - exists 0%nat. split; [lia|apply in_band_nil].
  - destruct (qlebP c pc) as [H|H].
    + exists 0%nat. split; [lia|now apply in_band_here].
    + destruct (IH (S j)) as [k [E B]]. exists (S k).
      split; [replace (j + S (length r))%nat with (S j + length r)%nat by lia; rewrite E; lia|].
      apply in_band_cons; [lra|exact B].
Qed.

Lemma curve_index_band pc curves : in_band curves pc (curve_index pc curves).
Proof. destruct (index_loop_band pc curves 0) as [k [E B]]. unfold curve_index. cbn in E. now rewrite E. Qed.

Lemma in_band_unique curves pc i k : in_band curves pc i -> in_band curves pc k -> i = k.
Proof.
  intros [A1 [A2 A3]] [B1 [B2 B3]]. destruct (Nat.lt_trichotomy i k) as [H|[H|H]]; [|exact H|].
  - assert (nth i curves 0 <= pc) by (apply A3; lia). assert (pc < nth i curves 0) by now apply B2. lra.
  - assert (nth k curves 0 <= pc) by (apply B3; lia). assert (pc < nth k curves 0) by now apply A2. lra.
Qed.

Lemma in_band_mono curves pc pc' i i' : pc <= pc' -> in_band curves pc i -> in_band curves pc' i' -> (i' <= i)%nat.
Proof.
  intros H [A1 [A2 A3]] [B1 [B2 B3]]. destruct (Nat.le_gt_cases i' i) as [L|L]; [exact L|].
  assert (nth i curves 0 <= pc) by (apply A3; lia). assert (pc' < nth i curves 0) by now apply B2. lra.
Qed.

Lemma non_increasing_tail c r : non_increasing (c :: r) -> non_increasing r.
Proof. intros H i Hi. apply (H (S i)). cbn. lia. Qed.
Lemma decreasing_tail c r : decreasing (c :: r) -> decreasing r.
Proof. intros H i Hi. apply (H (S i)). cbn. lia. Qed.
Lemma non_decreasing_tail c r : non_decreasing (c :: r) -> non_decreasing r.
Proof. intros H i Hi. apply (H (S i)). cbn. lia. Qed.

Lemma non_increasing_le l i k : non_increasing l -> (i <= k)%nat -> (k < length l)%nat -> nth k l 0 <= nth i l 0.
Proof.
  intros H Hik. induction Hik as [|k Hik IH]; intros Hk; [lra|].
  specialize (IH ltac:(lia)). specialize (H k Hk). lra.
Qed.
Lemma non_decreasing_le l i k : non_decreasing l -> (i <= k)%nat -> (k < length l)%nat -> nth i l 0 <= nth k l 0.
Proof.
  intros H Hik. induction Hik as [|k Hik IH]; intros Hk; [lra|].
  specialize (IH ltac:(lia)). specialize (H k Hk). lra.
Qed.
Lemma decreasing_non_increasing l : decreasing l -> non_increasing l.
Proof. intros H i Hi. specialize (H i Hi). lra. Qed.
Lemma decreasing_lt l i k : decreasing l -> (i < k)%nat -> (k < length l)%nat -> nth k l 0 < nth i l 0.
Proof.
  intros H Hik Hk. pose proof (non_increasing_le l (S i) k (decreasing_non_increasing l H) Hik Hk).
  specialize (H i ltac:(lia)). lra.
Qed.

Lemma in_band_count curves pc i : non_increasing curves -> in_band curves pc i ->
  i = countb (fun c => qltb pc c) curves.
Proof.
  revert i. induction curves as [|c r IH]; intros i Hn [H1 [H2 H3]]; unfold countb; cbn [filter].
  - cbn in *. lia.
  - destruct i as [|i].
    + assert (c <= pc) as Hc by (apply H3; cbn; lia).
      destruct (qltbP pc c) as [L|L]; [lra|].
      symmetry. change (countb (fun c0 => qltb pc c0) r = 0%nat). clear IH H1 H2 H3.
      unfold countb. rewrite (proj2 (length_zero_iff_nil _)); [reflexivity|].
      destruct (filter (fun c0 => qltb pc c0) r) as [|d f] eqn:F; [reflexivity|exfalso].
      assert (In d (filter (fun c0 => qltb pc c0) r)) as Hd by (rewrite F; now left).
      apply filter_In in Hd as [Hd Hl]. destruct (qltbP pc d) as [K|K]; [|discriminate].
      apply In_nth with (d := 0) in Hd as [n [Hn' E]].
      pose proof (non_increasing_le (c :: r) 0 (S n) Hn ltac:(lia) ltac:(cbn; lia)) as Hle. cbn in Hle. rewrite E in Hle. lra.
    + assert (pc < c) as Hc by (apply (H2 0%nat); lia).
      destruct (qltbP pc c) as [L|L]; [|lra]. cbn [length].
      assert (i = countb (fun c0 => qltb pc c0) r) as E; [|now rewrite E at 1].
      apply IH; [now apply non_increasing_tail in Hn|]. repeat split.
      * cbn in H1. lia.
      * intros j Hj. apply (H2 (S j)). lia.
      * intros Hi. apply H3. cbn. lia.
Qed.

Lemma value_loop_band values pc curves : forall j, length values = (j + length curves + 1)%nat ->
  exists k, value_loop values pc j curves = nth (j + k) values 0 /\ in_band curves pc k.
Proof.
  induction curves as [|c r IH]; intros j Hl; cbn [value_loop length] in *.
  - exists 0%nat. split; [unfold from_end; f_equal; lia|apply in_band_nil].
  - destruct (qlebP c pc) as [H|H].
    + exists 0%nat. split; [f_equal; lia|now apply in_band_here].
    + destruct (IH (S j) ltac:(lia)) as [k [E B]]. exists (S k).
      split; [rewrite E; f_equal; lia|]. apply in_band_cons; [lra|exact B].
Qed.

(** ** Interpolation *)
Lemma nth_app_last (l : list Q) x d : nth (length l) (l ++ [x]) d = x.
Proof. rewrite app_nth2 by lia. now rewrite Nat.sub_diag. Qed.

Lemma weight_on_line x0 y0 x1 y1 x : x1 < x0 ->
  on_line x0 y0 x1 y1 x (y0 * ((x - x1) / (x0 - x1)) + y1 * (1 - (x - x1) / (x0 - x1))).
Proof. intros H. unfold on_line. field. lra. Qed.

Lemma on_line_ext x0 y0 x1 y1 x v x0' y0' x1' y1' : x0 == x0' -> y0 == y0' -> x1 == x1' -> y1 == y1' ->
  on_line x0 y0 x1 y1 x v -> on_line x0' y0' x1' y1' x v.
Proof. intros A B C D. unfold on_line. now rewrite A, B, C, D. Qed.

Lemma interp_loop_line values pc curves : forall cc_prev j k,
  decreasing (cc_prev :: curves ++ [0]) ->
  length values = (j + length curves + 2)%nat -> (k <= length curves)%nat ->
  nth (S k) (cc_prev :: curves ++ [0]) 0 <= pc -> pc <= nth k (cc_prev :: curves ++ [0]) 0 ->
  on_line (nth k (cc_prev :: curves ++ [0]) 0) (nth (j + k) values 0)
          (nth (S k) (cc_prev :: curves ++ [0]) 0) (nth (j + S k) values 0) pc
          (interp_loop values pc cc_prev j curves).
Proof.
  induction curves as [|c r IH]; intros p j k Hd Hl Hk Hlo Hhi.
  - cbn in Hk. assert (k = 0)%nat by lia. subst k. cbn [app nth] in *. cbn [interp_loop length] in *.
    assert (0 < p) as Hp by (specialize (Hd 0%nat ltac:(cbn; lia)); cbn in Hd; exact Hd).
    destruct (qeqbP (p - 0) 0) as [E|E]; [lra|]. cbv zeta.
    unfold from_end. replace (length values - 2)%nat with (j + 0)%nat by lia. replace (length values - 1)%nat with (j + 1)%nat by lia.
    now apply weight_on_line.
  - cbn [interp_loop]. cbn [length] in *.
    assert (c < p) as Hp by (specialize (Hd 0%nat ltac:(cbn; lia)); cbn in Hd; exact Hd).
    destruct (qlebP c pc) as [H|H].
    + destruct (qeqbP (p - c) 0) as [E|E]; [lra|]. cbv zeta.
      destruct k as [|[|k]].
      * cbn [app nth] in *. rewrite Nat.add_0_r. now apply weight_on_line.
      * cbn [app nth] in *. assert (pc == c) as Ec by lra.
        unfold on_line. rewrite Ec. field. lra.
      * exfalso.
        assert (nth (S (S k)) (p :: (c :: r) ++ [0]) 0 < nth 1 (p :: (c :: r) ++ [0]) 0) as L.
        { apply decreasing_lt; [exact Hd|lia|]. cbn. rewrite app_length. cbn. lia. }
        cbn [app nth] in *. lra.
    + destruct k as [|k]; [cbn [app nth] in *; lra|].
      replace (j + S k)%nat with (S j + k)%nat by lia. replace (j + S (S k))%nat with (S j + S k)%nat by lia.
      apply (IH c (S j) k); [exact (decreasing_tail _ _ Hd)|lia|lia|exact Hlo|exact Hhi].
Qed.

Lemma curve_interpolated_line values pc curves k :
  decreasing (1 :: curves ++ [0]) -> length values = (length curves + 2)%nat -> (k <= length curves)%nat ->
  nth (S k) (1 :: curves ++ [0]) 0 <= pc -> pc <= nth k (1 :: curves ++ [0]) 0 ->
  on_line (nth k (1 :: curves ++ [0]) 0) (nth k values 0) (nth (S k) (1 :: curves ++ [0]) 0) (nth (S k) values 0) pc
          (curve_interpolated values pc curves).
Proof. intros Hd Hl Hk H1 H2. exact (interp_loop_line values pc curves 1 0 k Hd Hl Hk H1 H2). Qed.

Lemma on_line_between x0 y0 x1 y1 x v : x1 < x0 -> x1 <= x <= x0 -> on_line x0 y0 x1 y1 x v -> between y0 y1 v.
Proof.
  intros H [H1 H2] L. unfold on_line in L. unfold between.
  destruct (Qlt_le_dec y0 y1) as [C|C]; [left|right]; split.
  - apply (Qmult_le_r _ _ (x0 - x1)); [lra|]. rewrite L.
    assert (0 <= (y1 - y0) * (x0 - x)) by (apply Qmult_le_0_compat; lra). lra.
  - apply (Qmult_le_r _ _ (x0 - x1)); [lra|]. rewrite L.
    assert (0 <= (y1 - y0) * (x - x1)) by (apply Qmult_le_0_compat; lra). lra.
  - apply (Qmult_le_r _ _ (x0 - x1)); [lra|]. rewrite L.
    assert (0 <= (y0 - y1) * (x - x1)) by (apply Qmult_le_0_compat; lra). lra.
  - apply (Qmult_le_r _ _ (x0 - x1)); [lra|]. rewrite L.
    assert (0 <= (y0 - y1) * (x0 - x)) by (apply Qmult_le_0_compat; lra). lra.
Qed.

Lemma on_line_top x0 y0 x1 y1 v : x1 < x0 -> on_line x0 y0 x1 y1 x0 v -> v == y0.
Proof. intros H L. unfold on_line in L. apply (Qmult_inj_r _ _ (x0 - x1)); [lra|]. rewrite L. ring. Qed.
Lemma on_line_foot x0 y0 x1 y1 v : x1 < x0 -> on_line x0 y0 x1 y1 x1 v -> v == y1.
Proof. intros H L. unfold on_line in L. apply (Qmult_inj_r _ _ (x0 - x1)); [lra|]. rewrite L. ring. Qed.

Lemma on_line_slope x0 y0 x1 y1 a b v w : x1 < x0 -> on_line x0 y0 x1 y1 a v -> on_line x0 y0 x1 y1 b w ->
  (w - v) * (x0 - x1) == (y0 - y1) * (b - a).
Proof. unfold on_line. intros H A B. setoid_replace ((w - v) * (x0 - x1)) with (w * (x0 - x1) - v * (x0 - x1)) by ring.
  rewrite A, B. ring. Qed.

(** every level in [0, 1] lies in a band *)
Lemma band_exists pc curves : 0 <= pc <= 1 -> exists k, (k <= length curves)%nat /\ in_band curves pc k /\
  nth (S k) (1 :: curves ++ [0]) 0 <= pc /\ pc <= nth k (1 :: curves ++ [0]) 0.
Proof.
  intros [H0 H1]. exists (curve_index pc curves). pose proof (curve_index_band pc curves) as B.
  set (k := curve_index pc curves) in *. clearbody k. split; [apply B|]. split; [exact B|]. destruct B as [A1 [A2 A3]].
  split.
  - cbn [nth]. destruct (Nat.lt_ge_cases k (length curves)) as [L|L].
    + rewrite app_nth1 by exact L. now apply A3.
    + assert (k = length curves) by lia. subst k. now rewrite nth_app_last.
  - destruct k as [|k]; cbn [nth]; [exact H1|]. rewrite app_nth1 by lia. specialize (A2 k ltac:(lia)). lra.
Qed.

Lemma positions_lt curves k : decreasing (1 :: curves ++ [0]) -> (k <= length curves)%nat ->
  nth (S k) (1 :: curves ++ [0]) 0 < nth k (1 :: curves ++ [0]) 0.
Proof. intros H Hk. apply H. cbn. rewrite app_length. cbn. lia. Qed.

(** ** [_interpolate] *)
Lemma interpolate_line pos lower upper lv uv : lower < upper -> lower <= pos <= upper ->
  on_line upper uv lower lv pos (interpolate pos lower upper lv uv).
Proof.
  intros H [H1 H2]. unfold interpolate.
  destruct (qltbP pos lower); [lra|]. destruct (qltbP upper pos); [lra|]. destruct (qeqbP upper lower); [lra|].
  unfold on_line. field. lra.
Qed.

Lemma piecewise_loop_line values minimum pc curves : forall cc_prev j k ncc, ncc = (j + length curves)%nat ->
  decreasing (cc_prev :: curves ++ [minimum]) -> in_band curves pc k ->
  nth (S k) (cc_prev :: curves ++ [minimum]) 0 <= pc -> pc <= nth k (cc_prev :: curves ++ [minimum]) 0 ->
  on_line (nth k (cc_prev :: curves ++ [minimum]) 0) (fst (nth (j + k) values (0, 0)))
          (nth (S k) (cc_prev :: curves ++ [minimum]) 0) (snd (nth (j + k) values (0, 0))) pc
          (piecewise_loop values minimum pc cc_prev j curves ncc).
Proof.
  induction curves as [|c r IH]; intros p j k ncc Hn Hd B Hlo Hhi.
  - destruct B as [B _]. cbn in B. assert (k = 0)%nat by lia. subst k. cbn [app nth piecewise_loop length] in *.
    rewrite Nat.add_0_r in *. subst ncc. apply interpolate_line; [|lra].
    specialize (Hd 0%nat ltac:(cbn; lia)); cbn in Hd; exact Hd.
  - cbn [piecewise_loop length] in *.
    assert (c < p) as Hp by (specialize (Hd 0%nat ltac:(cbn; lia)); cbn in Hd; exact Hd).
    destruct (qlebP c pc) as [H|H].
    + assert (k = 0)%nat as Hk.
      { apply (in_band_unique (c :: r) pc k 0 B). now apply in_band_here. }
      subst k. cbn [app nth] in *. rewrite Nat.add_0_r. apply interpolate_line; lra.
    + destruct k as [|k].
      { exfalso. destruct B as [_ [_ B]]. apply H. apply (B ltac:(cbn; lia)). }
      replace (j + S k)%nat with (S j + k)%nat by lia.
      apply (IH c (S j) k ncc); [lia|exact (decreasing_tail _ _ Hd)| |exact Hlo|exact Hhi].
      destruct B as [B1 [B2 B3]]. repeat split.
      * cbn in B1. lia.
      * intros i Hi. apply (B2 (S i)). lia.
      * intros Hi. apply B3. cbn. lia.
Qed.

(** ** Piecewise integral *)
Fixpoint area (x prev : Q) (xs ys : list Q) : Q :=
  match xs, ys with
  | xi :: xr, yi :: yr => yi * qmax 0 (qmin x xi - prev) + area x xi xr yr
  | _, _ => 0
  end.

Lemma diffs_ok_sorted xs : diffs_ok xs = true -> non_decreasing xs.
Proof.
  induction xs as [|a r IH]; intros H; [intros i Hi; cbn in Hi; lia|].
  destruct r as [|b r]; [intros i Hi; cbn in Hi; lia|].
  change (diffs_ok (a :: b :: r)) with (negb (qltb (b - a) 0) && diffs_ok (b :: r)) in H.
  apply andb_true_iff in H as [H1 H2]. destruct (qltbP (b - a) 0) as [L|L]; [discriminate|].
  intros [|i] Hi; [cbn; lra|]. apply (IH H2 i). cbn in *. lia.
Qed.

Lemma area_before x : forall xs prev ys, non_decreasing (prev :: xs) -> x <= prev -> area x prev xs ys == 0.
Proof.
  induction xs as [|xi xr IH]; intros prev ys Hs Hx; [reflexivity|]. destruct ys as [|yi yr]; [reflexivity|]. cbn [area].
  assert (prev <= xi) as Hp by (specialize (Hs 0%nat ltac:(cbn; lia)); cbn in Hs; exact Hs).
  rewrite IH; [|exact (non_decreasing_tail _ _ Hs)|lra].
  pose proof (qmin_l x xi). assert (qmax 0 (qmin x xi - prev) == 0) as ->; [|ring].
  unfold qmax. destruct (qlebP 0 (qmin x xi - prev)); lra.
Qed.

Lemma integral_loop_area x : forall xs prev acc ys, non_decreasing (prev :: xs) ->
  integral_loop x prev acc xs ys == acc + area x prev xs ys.
Proof.
  induction xs as [|xi xr IH]; intros prev acc ys Hs; [cbn; ring|]. destruct ys as [|yi yr]; [cbn; ring|].
  assert (prev <= xi) as Hp by (specialize (Hs 0%nat ltac:(cbn; lia)); cbn in Hs; exact Hs).
  pose proof (non_decreasing_tail _ _ Hs) as Hs'. cbn [integral_loop area]. cbv zeta.
  assert (qmin x xi == if qltb x xi then x else xi) as Em.
  { unfold qmin. destruct (qltbP x xi), (qlebP x xi); lra. }
  set (dx := if qltb x xi then x - prev else xi - prev).
  assert (dx == qmin x xi - prev) as Ed by (unfold dx; rewrite Em; destruct (qltb x xi); reflexivity).
  destruct (qltbP dx 0) as [L|L].
  - assert (x < prev) as Hx by (unfold dx in L; destruct (qltbP x xi); lra).
    rewrite (area_before x xr xi yr Hs') by lra.
    assert (qmax 0 (qmin x xi - prev) == 0) as ->; [|ring].
    unfold qmax. destruct (qlebP 0 (qmin x xi - prev)); lra.
  - rewrite (IH _ _ yr Hs'). assert (qmax 0 (qmin x xi - prev) == dx) as ->; [|ring].
    unfold qmax. destruct (qlebP 0 (qmin x xi - prev)); lra.
Qed.

Lemma area_piece : forall xs prev ys i a b, non_decreasing (prev :: xs) -> length ys = length xs -> (i < length xs)%nat ->
  nth i (prev :: xs) 0 <= a -> a <= b -> b <= nth i xs 0 -> area b prev xs ys - area a prev xs ys == nth i ys 0 * (b - a).
Proof.
  induction xs as [|xi xr IH]; intros prev ys i a b Hs Hl Hi H1 H2 H3; [cbn in Hi; lia|].
  destruct ys as [|yi yr]; [discriminate|]. cbn [area].
  assert (prev <= xi) as Hp by (specialize (Hs 0%nat ltac:(cbn; lia)); cbn in Hs; exact Hs).
  pose proof (non_decreasing_tail _ _ Hs) as Hs'.
  destruct i as [|i].
  - cbn [nth] in *. rewrite (area_before b), (area_before a) by (try exact Hs'; lra).
    assert (qmax 0 (qmin a xi - prev) == a - prev) as -> by (clear - H1 H2 H3 Hp; qmm).
    assert (qmax 0 (qmin b xi - prev) == b - prev) as -> by (clear - H1 H2 H3 Hp; qmm). ring.
  - cbn [length] in *. change (nth (S i) (prev :: xi :: xr) 0) with (nth i (xi :: xr) 0) in H1.
    assert (xi <= nth i (xi :: xr) 0) as Hx.
    { apply (non_decreasing_le (xi :: xr) 0 i Hs'); [lia|cbn; lia]. }
    cbn [nth] in H3 |- *. rewrite <- (IH xi yr i a b Hs' ltac:(lia) ltac:(lia) H1 H2 H3).
    assert (qmin a xi == xi) as -> by (unfold qmin; destruct (qlebP a xi); lra).
    assert (qmin b xi == xi) as -> by (unfold qmin; destruct (qlebP b xi); lra). ring.
Qed.

Lemma last_cons_cons {A} (a b : A) l d : last (a :: b :: l) d = last (b :: l) d.
Proof. reflexivity. Qed.

Lemma last_nth (l : list Q) d : last l d = nth (length l - 1) l d.
Proof.
  induction l as [|a l IH]; [reflexivity|]. destruct l as [|b l]; [reflexivity|].
  rewrite last_cons_cons, IH. cbn [length]. rewrite Nat.sub_0_r || idtac. cbn. now rewrite Nat.sub_0_r.
Qed.

Lemma area_after : forall xs prev ys a b, non_decreasing (prev :: xs) ->
  last (prev :: xs) 0 <= a -> a <= b -> area b prev xs ys == area a prev xs ys.
Proof.
  induction xs as [|xi xr IH]; intros prev ys a b Hs Ha Hab; [reflexivity|]. destruct ys as [|yi yr]; [reflexivity|]. cbn [area].
  pose proof (non_decreasing_tail _ _ Hs) as Hs'. rewrite last_cons_cons in Ha.
  rewrite (IH xi yr a b Hs' Ha Hab).
  assert (xi <= last (xi :: xr) 0) as Hx.
  { rewrite last_nth. apply (non_decreasing_le (xi :: xr) 0 _ Hs'); cbn; lia. }
  assert (qmin a xi == xi) as -> by (unfold qmin; destruct (qlebP a xi); lra).
  assert (qmin b xi == xi) as -> by (unfold qmin; destruct (qlebP b xi); lra). reflexivity.
Qed.

Lemma sorted_from_zero xs : non_decreasing xs -> (forall x, In x xs -> 0 <= x) -> non_decreasing (0 :: xs).
Proof.
  intros Hs H [|i] Hi; [|apply Hs; cbn in *; lia]. cbn. destruct xs as [|x r]; [cbn in Hi; lia|]. cbn. apply H. now left.
Qed.

Lemma integral_meets xs ys : integral_setup xs ys = true -> (forall x, In x xs -> 0 <= x) ->
  integral_of_steps xs ys (integral xs ys).
Proof.
  intros H0 Hx. apply andb_true_iff in H0 as [Hl Hd]. apply Nat.eqb_eq in Hl. apply diffs_ok_sorted in Hd.
  pose proof (sorted_from_zero xs Hd Hx) as Hs.
  assert (forall x, integral xs ys x == area x 0 xs ys) as E.
  { intros x. unfold integral. rewrite integral_loop_area by exact Hs. ring. }
  repeat split.
  - intros x Hx0. rewrite E. now apply area_before.
  - intros i a b Hi H1 H2 H3. rewrite !E. now apply area_piece.
  - intros a b H1 H2. rewrite !E. now apply area_after.
Qed.

(** The three clauses determine the function. *)
Lemma steps_increment xs ys F G : non_decreasing (0 :: xs) -> length ys = length xs ->
  integral_of_steps xs ys F -> integral_of_steps xs ys G -> forall x, F x == G x.
Proof.
  intros Hs Hl [F1 [F2 F3]] [G1 [G2 G3]].
  assert (forall i, (i <= length xs)%nat -> F (nth i (0 :: xs) 0) == G (nth i (0 :: xs) 0)) as HN.
  { induction i as [|i IH]; intros Hi.
    - cbn. rewrite F1, G1 by lra. reflexivity.
    - specialize (IH ltac:(lia)).
      assert (nth i (0 :: xs) 0 <= nth i xs 0) as Hle by (apply (Hs i); cbn; lia).
      specialize (F2 i (nth i (0 :: xs) 0) (nth i xs 0) ltac:(lia) ltac:(lra) Hle ltac:(lra)).
      specialize (G2 i (nth i (0 :: xs) 0) (nth i xs 0) ltac:(lia) ltac:(lra) Hle ltac:(lra)).
      change (nth (S i) (0 :: xs) 0) with (nth i xs 0). lra. }
  intros x. destruct (Qlt_le_dec 0 x) as [Hx|Hx]; [|rewrite F1, G1 by exact Hx; reflexivity].
  destruct (Qlt_le_dec x (last (0 :: xs) 0)) as [L|L].
  - (* x lies in some piece *)
    assert (exists i, (i < length xs)%nat /\ nth i (0 :: xs) 0 <= x /\ x <= nth i xs 0) as [i [Hi [L1 L2]]].
    { rewrite last_nth in L. cbn [length] in L. rewrite Nat.sub_succ, Nat.sub_0_r in L.
      assert (forall n, (n <= length xs)%nat -> x < nth n (0 :: xs) 0 ->
                exists i, (i < length xs)%nat /\ nth i (0 :: xs) 0 <= x /\ x <= nth i xs 0) as HH.
      { induction n as [|n IHn]; intros Hn Hlt; [cbn in Hlt; lra|].
        destruct (Qlt_le_dec x (nth n (0 :: xs) 0)) as [C|C]; [apply IHn; [lia|exact C]|].
        exists n. split; [lia|]. split; [exact C|]. cbn [nth] in Hlt. lra. }
      exact (HH (length xs) ltac:(lia) L). }
    pose proof (HN i ltac:(lia)) as EN.
    pose proof (F2 i (nth i (0 :: xs) 0) x Hi ltac:(lra) L1 L2) as A.
    pose proof (G2 i (nth i (0 :: xs) 0) x Hi ltac:(lra) L1 L2) as B. lra.
  - rewrite (F3 (last (0 :: xs) 0) x) by lra. rewrite (G3 (last (0 :: xs) 0) x) by lra.
    rewrite last_nth. cbn [length]. rewrite Nat.sub_succ, Nat.sub_0_r. apply HN. lia.
Qed.

Lemma area_mono_gen : forall xs prev ys a b (m M : Q), non_decreasing (prev :: xs) ->
  0 <= M -> m <= 0 -> (forall y, In y ys -> m <= y <= M) -> a <= b ->
  m * qmax 0 (qmin b (last (prev :: xs) 0) - qmax a prev) <= area b prev xs ys - area a prev xs ys
    <= M * qmax 0 (qmin b (last (prev :: xs) 0) - qmax a prev).
Proof.
  induction xs as [|xi xr IH]; intros prev ys a b m M Hs HM Hm Hy Hab.
  - cbn [area last].
    assert (0 <= qmax 0 (qmin b prev - qmax a prev)) by apply qmax_l.
    assert (0 <= M * qmax 0 (qmin b prev - qmax a prev)) by (apply Qmult_le_0_compat; lra).
    assert (0 <= (- m) * qmax 0 (qmin b prev - qmax a prev)) by (apply Qmult_le_0_compat; lra). lra.
  - pose proof (non_decreasing_tail _ _ Hs) as Hs'.
    assert (prev <= xi) as Hp by (specialize (Hs 0%nat ltac:(cbn; lia)); cbn in Hs; exact Hs).
    assert (xi <= last (xi :: xr) 0) as Hx.
    { rewrite last_nth. apply (non_decreasing_le (xi :: xr) 0 _ Hs'); cbn; lia. }
    rewrite last_cons_cons. set (z := last (xi :: xr) 0) in *.
    destruct ys as [|yi yr].
    { cbn [area]. assert (0 <= qmax 0 (qmin b z - qmax a prev)) by apply qmax_l.
      assert (0 <= M * qmax 0 (qmin b z - qmax a prev)) by (apply Qmult_le_0_compat; lra).
      assert (0 <= (- m) * qmax 0 (qmin b z - qmax a prev)) by (apply Qmult_le_0_compat; lra). lra. }
    cbn [area]. specialize (IH xi yr a b m M Hs' HM Hm (fun y Hin => Hy y (or_intror Hin)) Hab).
    fold z in IH. pose proof (Hy yi (or_introl eq_refl)) as Hyi.
    set (u := qmax 0 (qmin b xi - prev) - qmax 0 (qmin a xi - prev)).
    assert (0 <= u) as Hu by (unfold u; clear - Hp Hx Hab; qmm).
    assert (qmax 0 (qmin b z - qmax a prev) == u + qmax 0 (qmin b z - qmax a xi)) as ->
      by (unfold u; clear - Hp Hx Hab; qmm).
    assert (0 <= (yi - m) * u) by (apply Qmult_le_0_compat; lra).
    assert (0 <= (M - yi) * u) by (apply Qmult_le_0_compat; lra).
    assert (yi * qmax 0 (qmin b xi - prev) - yi * qmax 0 (qmin a xi - prev) == yi * u) as E by (unfold u; ring).
    lra.
Qed.

(** ** Weighted average *)
Lemma fold_plus {A} (f : A -> Q) l : forall z, fold_left (fun t m => t + f m) l z == z + qsum (map f l).
Proof. induction l as [|x l IH]; intros z; cbn; [ring|]. rewrite IH. ring. Qed.
