(** Control curves and the piecewise integral: C40, C41, C42. *)
From Verif Require Import Base ControlCurves_model ControlCurves_spec ControlCurves_proofs.
Local Open Scope Q_scope.

(** ** C40: the index is the band of the storage level. *)
Theorem C40_index_is_band : forall curves pc i, curve_index pc curves = i <-> in_band curves pc i.
Proof.
  intros curves pc i. split.
  - intros <-. apply curve_index_band.
  - intros B. exact (in_band_unique curves pc _ _ (curve_index_band pc curves) B).
Qed.
Print Assumptions C40_index_is_band.

(** More storage never gives a higher index (whether or not the curves are sorted). *)
Theorem C40_index_falls_with_storage : forall curves pc pc', pc <= pc' ->
  (curve_index pc' curves <= curve_index pc curves)%nat.
Proof.
  intros curves pc pc' H. exact (in_band_mono curves pc pc' _ _ H (curve_index_band pc curves) (curve_index_band pc' curves)).
Qed.
Print Assumptions C40_index_falls_with_storage.

(** With curves sorted highest to lowest: the number of curves above the storage level. *)
Theorem C40_index_counts_curves_above : forall curves pc, non_increasing curves ->
  curve_index pc curves = countb (fun c => qltb pc c) curves.
Proof. intros curves pc H. exact (in_band_count curves pc _ H (curve_index_band pc curves)). Qed.
Print Assumptions C40_index_counts_curves_above.

(** ControlCurveParameter as constructed returns the value of that same band. *)
Theorem C40_value_of_band : forall curves given values pc, curve_parameter_init curves given = Some values ->
  curve_value values pc curves = nth (curve_index pc curves) values 0 /\ (curve_index pc curves < length values)%nat.
Proof.
  intros curves given values pc H.
  assert (length values = (0 + length curves + 1)%nat) as Hl.
  { unfold curve_parameter_init in H. destruct given as [v|].
    - destruct (Nat.eqb_spec (length v) (length curves + 1)) as [E|E]; [|discriminate]. now injection H as <-.
    - injection H as <-. now rewrite map_length, seq_length. }
  destruct (value_loop_band values pc curves 0 Hl) as [k [E B]].
  pose proof (in_band_unique curves pc _ _ (curve_index_band pc curves) B) as ->.
  split; [exact E|]. destruct B as [B _]. lia.
Qed.
Print Assumptions C40_value_of_band.

(** Default values: the index itself. *)
Theorem C40_default_values : forall curves values pc, curve_parameter_init curves None = Some values ->
  curve_value values pc curves = inject_Z (Z.of_nat (curve_index pc curves)).
Proof.
  intros curves values pc H. destruct (C40_value_of_band curves None values pc H) as [-> L].
  injection H as <-. rewrite map_length, seq_length in L.
  rewrite (nth_error_nth _ _ 0 (nth_error_seq_map (fun k => inject_Z (Z.of_nat k)) _ _ L)). reflexivity.
Qed.
Print Assumptions C40_default_values.

(** Re-assigning the curves of a constructed parameter is not checked against the values: with fewer curves than values
    the last value is returned for the lowest band, not the one the index names. *)
Theorem C40_reassigned_curves_refuted : exists curves given values curves' pc,
  curve_parameter_init curves given = Some values /\
  ~ curve_value values pc curves' == nth (curve_index pc curves') values 0.
Proof.
  exists [8 # 10; 5 # 10], (Some [1; 2; 3]), [1; 2; 3], [8 # 10], (1 # 10).
  split; [reflexivity|]. vm_compute. discriminate.
Qed.
Print Assumptions C40_reassigned_curves_refuted.

Example C40_example :
  map (fun pc => curve_index pc [8 # 10; 5 # 10; 2 # 10]) [1; 8 # 10; 79 # 100; 5 # 10; 3 # 10; 2 # 10; 1 # 10; 0] =
  [0; 0; 1; 1; 2; 2; 3; 3]%nat.
Proof. reflexivity. Qed.

(** ** C41: interpolation between control curves. *)
(** With positions 1 > curve_0 > ... > curve_n-1 > 0 and one value per position: on each band the straight line. *)
Theorem C41_on_the_line : forall curves values pc k,
  decreasing (1 :: curves ++ [0]) -> length values = (length curves + 2)%nat -> (k <= length curves)%nat ->
  nth (S k) (1 :: curves ++ [0]) 0 <= pc <= nth k (1 :: curves ++ [0]) 0 ->
  on_line (nth k (1 :: curves ++ [0]) 0) (nth k values 0) (nth (S k) (1 :: curves ++ [0]) 0) (nth (S k) values 0)
          pc (curve_interpolated values pc curves).
Proof. intros curves values pc k Hd Hl Hk [H1 H2]. now apply curve_interpolated_line. Qed.
Print Assumptions C41_on_the_line.

(** Exact at full (k = 0), at every curve and at empty (k = number of curves + 1). *)
Theorem C41_exact_at_curves : forall curves values k,
  decreasing (1 :: curves ++ [0]) -> length values = (length curves + 2)%nat -> (k <= length curves + 1)%nat ->
  curve_interpolated values (nth k (1 :: curves ++ [0]) 0) curves == nth k values 0.
Proof.
  intros curves values k Hd Hl Hk. destruct (Nat.eq_dec k (length curves + 1)) as [E|E].
  - subst k. replace (length curves + 1)%nat with (S (length curves)) by lia.
    pose proof (positions_lt curves (length curves) Hd ltac:(lia)) as L.
    apply (on_line_foot _ (nth (length curves) values 0) _ _ _ L). apply curve_interpolated_line; [exact Hd|exact Hl|lia|lra|lra].
  - pose proof (positions_lt curves k Hd ltac:(lia)) as L.
    apply (on_line_top _ _ _ (nth (S k) values 0) _ L). apply curve_interpolated_line; [exact Hd|exact Hl|lia|lra|lra].
Qed.
Print Assumptions C41_exact_at_curves.

(** Always between the two values of the band that contains the level. *)
Theorem C41_between_band_values : forall curves values pc, decreasing (1 :: curves ++ [0]) ->
  length values = (length curves + 2)%nat -> 0 <= pc <= 1 ->
  exists k, in_band curves pc k /\ between (nth k values 0) (nth (S k) values 0) (curve_interpolated values pc curves).
Proof.
  intros curves values pc Hd Hl Hpc. destruct (band_exists pc curves Hpc) as [k [Hk [B [H1 H2]]]].
  exists k. split; [exact B|].
  apply (on_line_between _ _ _ _ pc _ (positions_lt curves k Hd Hk) (conj H1 H2)).
  now apply curve_interpolated_line.
Qed.
Print Assumptions C41_between_band_values.

(** Monotone in storage if the values are, in either direction. *)
Theorem C41_monotone : forall curves values pc pc', decreasing (1 :: curves ++ [0]) ->
  length values = (length curves + 2)%nat -> 0 <= pc -> pc <= pc' -> pc' <= 1 ->
  (non_increasing values -> curve_interpolated values pc curves <= curve_interpolated values pc' curves) /\
  (non_decreasing values -> curve_interpolated values pc' curves <= curve_interpolated values pc curves).
Proof.
  intros curves values pc pc' Hd Hl H0 H1 H2.
  destruct (band_exists pc curves ltac:(lra)) as [k [Hk [B [A1 A2]]]].
  destruct (band_exists pc' curves ltac:(lra)) as [k' [Hk' [B' [A1' A2']]]].
  pose proof (in_band_mono curves pc pc' k k' H1 B B') as Hkk.
  pose proof (curve_interpolated_line values pc curves k Hd Hl Hk A1 A2) as L.
  pose proof (curve_interpolated_line values pc' curves k' Hd Hl Hk' A1' A2') as L'.
  pose proof (positions_lt curves k Hd Hk) as P. pose proof (positions_lt curves k' Hd Hk') as P'.
  set (v := curve_interpolated values pc curves) in *. set (v' := curve_interpolated values pc' curves) in *. clearbody v v'.
  destruct (Nat.eq_dec k k') as [E|E].
  - subst k'. pose proof (on_line_slope _ _ _ _ _ _ _ _ P L L') as Sl.
    set (x0 := nth k (1 :: curves ++ [0]) 0) in *. set (x1 := nth (S k) (1 :: curves ++ [0]) 0) in *. clearbody x0 x1.
    split; intros Hv; specialize (Hv k ltac:(lia)).
    + assert (0 <= (nth k values 0 - nth (S k) values 0) * (pc' - pc)) as G by (apply Qmult_le_0_compat; lra).
      apply (Qmult_le_r _ _ (x0 - x1)); [lra|]. lra.
    + assert (0 <= (nth (S k) values 0 - nth k values 0) * (pc' - pc)) as G by (apply Qmult_le_0_compat; lra).
      apply (Qmult_le_r _ _ (x0 - x1)); [lra|]. lra.
  - pose proof (on_line_between _ _ _ _ _ _ P (conj A1 A2) L) as M. pose proof (on_line_between _ _ _ _ _ _ P' (conj A1' A2') L') as M'.
    unfold between in M, M'. split; intros Hv.
    + pose proof (non_increasing_le values (S k') k Hv ltac:(lia) ltac:(lia)).
      pose proof (Hv k ltac:(lia)). pose proof (Hv k' ltac:(lia)). lra.
    + pose proof (non_decreasing_le values (S k') k Hv ltac:(lia) ltac:(lia)).
      pose proof (Hv k ltac:(lia)). pose proof (Hv k' ltac:(lia)). lra.
Qed.
Print Assumptions C41_monotone.

(** ControlCurvePiecewiseInterpolatedParameter: in each band the straight line between that band's own pair of values. *)
Theorem C41_piecewise_on_the_line : forall curves values minimum maximum pc k,
  decreasing (maximum :: curves ++ [minimum]) -> in_band curves pc k -> minimum <= pc <= maximum ->
  on_line (nth k (maximum :: curves ++ [minimum]) 0) (fst (nth k values (0, 0)))
          (nth (S k) (maximum :: curves ++ [minimum]) 0) (snd (nth k values (0, 0)))
          pc (curve_piecewise values minimum maximum pc curves).
Proof.
  intros curves values minimum maximum pc k Hd B [H1 H2].
  apply (piecewise_loop_line values minimum pc curves maximum 0 k (length curves) eq_refl Hd B).
  - cbn [nth]. destruct B as [B1 [B2 B3]]. destruct (Nat.lt_ge_cases k (length curves)) as [L|L].
    + rewrite app_nth1 by exact L. now apply B3.
    + replace k with (length curves) by lia. now rewrite nth_app_last.
  - destruct B as [B1 [B2 B3]]. destruct k as [|k]; cbn [nth]; [exact H2|]. rewrite app_nth1 by lia. specialize (B2 k ltac:(lia)). lra.
Qed.
Print Assumptions C41_piecewise_on_the_line.

(** Outside [minimum, maximum] the end values are held. *)
Theorem C41_piecewise_ends : forall curves values minimum maximum pc,
  decreasing (maximum :: curves ++ [minimum]) ->
  (maximum < pc -> curve_piecewise values minimum maximum pc curves = fst (nth 0 values (0, 0))) /\
  (pc < minimum -> curve_piecewise values minimum maximum pc curves = snd (nth (length curves) values (0, 0))).
Proof.
  intros curves values minimum maximum pc Hd. split; intros H; unfold curve_piecewise.
  - destruct curves as [|c r]; cbn [piecewise_loop length].
    + assert (minimum < maximum) by (specialize (Hd 0%nat ltac:(cbn; lia)); exact Hd).
      unfold interpolate. destruct (qltbP pc minimum); [lra|]. destruct (qltbP maximum pc); [reflexivity|lra].
    + assert (c < maximum) by (specialize (Hd 0%nat ltac:(cbn; lia)); exact Hd).
      destruct (qlebP c pc); [|lra].
      unfold interpolate. destruct (qltbP pc c); [lra|]. destruct (qltbP maximum pc); [reflexivity|lra].
  - assert (forall r p j, decreasing (p :: r ++ [minimum]) ->
      piecewise_loop values minimum pc p j r (length curves) = snd (nth (length curves) values (0, 0))) as HH; [|apply HH; exact Hd].
    clear Hd. induction r as [|c r IH]; intros p j Hd; cbn [piecewise_loop].
    + unfold interpolate. destruct (qltbP pc minimum); [reflexivity|lra].
    + assert (minimum < c) as Hc.
      { pose proof (decreasing_lt (p :: (c :: r) ++ [minimum]) 1 (S (S (length r))) Hd ltac:(lia)
                      ltac:(cbn; rewrite app_length; cbn; lia)) as G.
        cbn [app nth] in G. rewrite nth_app_last in G. exact G. }
      destruct (qlebP c pc); [lra|]. apply IH. exact (decreasing_tail _ _ Hd).
Qed.
Print Assumptions C41_piecewise_ends.

(** Curves need not be distinct from 0, 1 or each other for the code to return; but with a repeated curve the value that
    sits between the two is skipped: a level exactly at the doubled curve gives the first one's value. *)
Example C41_repeated_curve : exists curves values k, non_increasing (1 :: curves ++ [0]) /\
  length values = (length curves + 2)%nat /\ (k <= length curves + 1)%nat /\
  ~ curve_interpolated values (nth k (1 :: curves ++ [0]) 0) curves == nth k values 0.
Proof.
  exists [1 # 2; 1 # 2], [10; 6; 4; 0], 2%nat. split.
  - intros i Hi. cbn in Hi. destruct i as [|[|[|i]]]; try lia; vm_compute; discriminate.
  - split; [reflexivity|]. split; [cbn; lia|]. vm_compute. discriminate.
Qed.

Example C41_example :
  map (fun pc => Qred (curve_interpolated [0; -5; -10; -20] pc [1 # 2; 3 # 10])) [1; 3 # 4; 1 # 2; 4 # 10; 3 # 10; 15 # 100; 0] =
  [0; -5 # 2; -5; -15 # 2; -10; -15; -20] /\ decreasing (1 :: [1 # 2; 3 # 10] ++ [0]).
Proof. split; [reflexivity|]. intros i Hi. cbn in Hi. destruct i as [|[|[|i]]]; try lia; reflexivity. Qed.

(** ** C42: the piecewise integral. *)
Theorem C42_is_the_integral : forall xs ys, integral_setup xs ys = true -> (forall x, In x xs -> 0 <= x) ->
  integral_of_steps xs ys (integral xs ys).
Proof. exact integral_meets. Qed.
Print Assumptions C42_is_the_integral.

(** Nothing else is: the three clauses of the specification determine the function. *)
Theorem C42_only_the_integral : forall xs ys F, integral_setup xs ys = true -> (forall x, In x xs -> 0 <= x) ->
  integral_of_steps xs ys F -> forall x, F x == integral xs ys x.
Proof.
  intros xs ys F H Hx HF. pose proof (integral_meets xs ys H Hx) as HI.
  apply andb_true_iff in H as [Hl Hd]. apply Nat.eqb_eq in Hl. apply diffs_ok_sorted in Hd.
  exact (steps_increment xs ys F _ (sorted_from_zero xs Hd Hx) (eq_sym Hl) HF HI).
Qed.
Print Assumptions C42_only_the_integral.

(** Continuous, with the largest rate as slope bound; non-decreasing for non-negative rates. *)
Theorem C42_continuous : forall xs ys m M a b, integral_setup xs ys = true -> (forall x, In x xs -> 0 <= x) ->
  m <= 0 -> 0 <= M -> (forall y, In y ys -> m <= y <= M) -> a <= b ->
  m * (b - a) <= integral xs ys b - integral xs ys a <= M * (b - a).
Proof.
  intros xs ys m M a b H Hx Hm HM Hy Hab.
  apply andb_true_iff in H as [Hl Hd]. apply diffs_ok_sorted in Hd.
  pose proof (sorted_from_zero xs Hd Hx) as Hs. unfold integral. rewrite !integral_loop_area by exact Hs.
  pose proof (area_mono_gen xs 0 ys a b m M Hs HM Hm Hy Hab) as G.
  set (u := qmax 0 (qmin b (last (0 :: xs) 0) - qmax a 0)) in *.
  assert (0 <= u) by apply qmax_l.
  assert (u <= b - a) by (unfold u; apply qmax_lub; [lra|]; pose proof (qmin_l b (last (0 :: xs) 0)); pose proof (qmax_l a 0); lra).
  assert (0 <= M * (b - a - u)) by (apply Qmult_le_0_compat; lra).
  assert (0 <= (- m) * (b - a - u)) by (apply Qmult_le_0_compat; lra). lra.
Qed.
Print Assumptions C42_continuous.

Theorem C42_non_decreasing : forall xs ys a b, integral_setup xs ys = true -> (forall x, In x xs -> 0 <= x) ->
  (forall y, In y ys -> 0 <= y) -> a <= b -> integral xs ys a <= integral xs ys b.
Proof.
  intros xs ys a b H Hx Hy Hab.
  assert (exists M, 0 <= M /\ forall y, In y ys -> 0 <= y <= M) as [M [HM HB]].
  { clear - Hy. induction ys as [|y r IH]; [exists 0; split; [lra|intros y []]|].
    destruct IH as [M [HM HB]]; [intros z Hz; apply Hy; now right|].
    exists (qmax y M). split; [pose proof (qmax_r y M); lra|].
    intros z [->|Hz]; [split; [apply Hy; now left|apply qmax_l]|]. specialize (HB z Hz). pose proof (qmax_r y M). lra. }
  pose proof (C42_continuous xs ys 0 M a b H Hx ltac:(lra) HM HB Hab) as G. lra.
Qed.
Print Assumptions C42_non_decreasing.

(** A negative breakpoint passes set-up and stops the loop before anything is added. *)
Theorem C42_negative_breakpoint_refuted : exists xs ys x, integral_setup xs ys = true /\
  integral xs ys x == 0 /\ 0 < x /\ (forall y, In y ys -> 0 < y) /\ x == last xs 0.
Proof.
  exists [-1; 2], [5; 3], 2. split; [reflexivity|]. split; [reflexivity|]. split; [reflexivity|].
  split; [|reflexivity]. intros y [<-|[<-|[]]]; reflexivity.
Qed.
Print Assumptions C42_negative_breakpoint_refuted.

Example C42_example : map (fun x => Qred (integral [2; 5; 6] [1; 3; 2] x)) [-1; 0; 1; 2; 3; 5; 11 # 2; 6; 9] =
  [0; 0; 1; 2; 5; 11; 12; 13; 13].
Proof. reflexivity. Qed.
