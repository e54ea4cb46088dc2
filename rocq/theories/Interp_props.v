(** C91: interpolated parameters and the aquifer. *)
From Coq Require Import Sorting.Permutation Sorting.Sorted.
From Verif Require Import Base LP_model Sorting Aggregator_proofs Physics_model Interp_model Interp_spec Interp_proofs.
Local Open Scope Q_scope.
Local Open Scope list_scope.

(** Lists of the same length, at least two points at different places, and not both "raise" and "extrapolate". *)
Definition well_given (o : options) (xs ys : list Q) : Prop :=
  length xs = length ys /\ (2 <= length xs)%nat /\ different_x (combine xs ys) /\ ~ (o_bounds_error o = true /\ o_fill o = FillExtrapolate).

Lemma well_sorted o xs ys : well_given o xs ys -> exists l, make_interp o xs ys = Some l /\ strict l /\ l <> [] /\ (2 <= length l)%nat /\ (forall x, In x l <-> In x (combine xs ys)).
Proof.
  intros (L & L2 & D & N). rewrite (make_interp_total o xs ys L L2 N). eexists. split; [reflexivity|]. split; [now apply isort_strict|].
  assert (length (isort by_x (combine xs ys)) = length xs) as Ll by (rewrite <- (Permutation_length (isort_perm by_x _)), combine_length; lia).
  split; [intros E; rewrite E in Ll; cbn in Ll; lia|]. split; [lia|]. intros x. apply isort_In.
Qed.

(** C91: between two neighbouring points the value divides theirs in proportion; in particular it is the given value at each point. *)
Theorem C91_linear : forall o xs ys p q v, well_given o xs ys -> neighbours (combine xs ys) p q -> fst p <= v <= fst q ->
  exists w, interpolate o xs ys v = Some (Some w) /\ divides p q v w.
Proof.
  intros o xs ys p q v W Nb V. destruct (well_sorted o xs ys W) as (l & M & S & Ne & _ & I). unfold interpolate. rewrite M.
  assert (neighbours l p q) as Nl by (apply (neighbours_perm (combine xs ys)); [intros x; symmetry; apply I|exact Nb]).
  exists (on_segments l v). split; [|now apply on_segments_spec]. apply call_within; auto. apply within_ends; auto. exists p, q. destruct Nl as (A & B & _). auto.
Qed.
Print Assumptions C91_linear.

(** C91: every value within the points has neighbours around it, so C91_linear covers all of them. *)
Theorem C91_covered : forall o xs ys v, well_given o xs ys -> within (combine xs ys) v -> exists p q, neighbours (combine xs ys) p q /\ fst p <= v <= fst q.
Proof.
  intros o xs ys v W V. destruct (well_sorted o xs ys W) as (l & M & S & Ne & L & I).
  assert (within l v) as Vl by (destruct V as (p & q & A & B & C); exists p, q; split; [now apply I|]; split; [now apply I|exact C]).
  apply (within_ends l v S Ne) in Vl. destruct (has_neighbours l v S L Vl) as (p & q & Nb & B). exists p, q. split; [|exact B]. now apply (neighbours_perm l).
Qed.
Print Assumptions C91_covered.

Lemma interpolated_within o xs ys v : well_given o xs ys -> within (combine xs ys) v ->
  exists p q w, neighbours (combine xs ys) p q /\ interpolate o xs ys v = Some (Some w) /\ divides p q v w.
Proof.
  intros W V. destruct (C91_covered o xs ys v W V) as (p & q & Nb & B). destruct (C91_linear o xs ys p q v W Nb B) as (w & H & D). now exists p, q, w.
Qed.

(** C91: the order in which the points are given does not matter, for values within or outside. *)
Theorem C91_order : forall o xs ys xs' ys' v, well_given o xs ys -> length xs' = length ys' -> Permutation (combine xs ys) (combine xs' ys') ->
  interpolate o xs' ys' v = interpolate o xs ys v.
Proof.
  intros o xs ys xs' ys' v (L & L2 & D & N) L' P. assert (length xs' = length xs) as E by (apply Permutation_length in P; rewrite !combine_length in P; lia).
  unfold interpolate. rewrite !make_interp_total by (auto; lia). f_equal.
  assert (isort by_x (combine xs' ys') = isort by_x (combine xs ys)) as ->; [|reflexivity]. apply strict_perm_eq.
  - apply isort_strict. now apply (different_perm (combine xs ys)).
  - now apply isort_strict.
  - intros x. rewrite !isort_In. split; apply Permutation_in; [now symmetry|exact P].
Qed.
Print Assumptions C91_order.

(** C91: outside the points the default is an error; with [bounds_error=False] the given value of that side, or NaN if none is given. *)
Theorem C91_outside : forall o xs ys v, well_given o xs ys -> ~ within (combine xs ys) v ->
  (o_bounds_error o = true -> interpolate o xs ys v = None) /\
  (o_bounds_error o = false -> o_fill o = FillNan -> interpolate o xs ys v = Some None) /\
  (forall a b, o_bounds_error o = false -> o_fill o = FillPair a b ->
     ((forall p, In p (combine xs ys) -> v < fst p) -> interpolate o xs ys v = Some (Some a)) /\
     ((forall p, In p (combine xs ys) -> fst p < v) -> interpolate o xs ys v = Some (Some b))) /\
  o_bounds_error (with_defaults None (Some (o_fill o))) = true.
Proof.
  intros o xs ys v W NV. destruct (well_sorted o xs ys W) as (l & M & S & Ne & L & I). unfold interpolate. rewrite M.
  assert (~ (first_x l <= v <= last_x l)) as Out.
  { intros H. apply (within_ends l v S Ne) in H. apply NV. destruct H as (p & q & A & B & C). exists p, q. split; [now apply I|]. split; [now apply I|exact C]. }
  unfold call_interp. destruct (qltbP v (first_x l)) as [A|A]; [|destruct (qltbP (last_x l) v) as [B|B]; [|exfalso; apply Out; lra]].
  - split; [intros ->; reflexivity|]. split; [intros -> ->; reflexivity|]. split; [|reflexivity]. intros a b -> ->. split; [reflexivity|]. intros H. exfalso.
    destruct (first_in l Ne) as [p [Ip Ep]]. specialize (H p (proj1 (I p) Ip)). rewrite Ep in H. lra.
  - split; [intros ->; reflexivity|]. split; [intros -> ->; reflexivity|]. split; [|reflexivity]. intros a b -> ->. split; [|reflexivity]. intros H. exfalso.
    pose proof (last_in l (0, 0) Ne) as Il. specialize (H _ (proj1 (I _) Il)). unfold last_x in B. lra.
Qed.
Print Assumptions C91_outside.

Lemma different_inj pts p q : different_x pts -> In p pts -> In q pts -> fst p == fst q -> p = q.
Proof.
  unfold different_x. induction 1 as [|a l F D IH]; [intros []|]. rewrite Forall_forall in F. intros [<-|Hp] [<-|Hq] E; auto.
  - exfalso. exact (F q Hq E).
  - exfalso. apply (F p Hp). now symmetry.
Qed.

(** C91: through rising points the interpolation rises. *)
Theorem C91_rises : forall o xs ys v v', well_given o xs ys -> increasing (combine xs ys) -> within (combine xs ys) v -> within (combine xs ys) v' -> v <= v' ->
  exists w w', interpolate o xs ys v = Some (Some w) /\ interpolate o xs ys v' = Some (Some w') /\ w <= w' /\ (v < v' -> w < w').
Proof.
  intros o xs ys v v' W Inc V V' L. pose proof W as (_ & _ & Df & _).
  destruct (interpolated_within o xs ys v W V) as (p & q & w & Nb & H & D). destruct (interpolated_within o xs ys v' W V') as (p' & q' & w' & Nb' & H' & D').
  exists w, w'. split; [exact H|]. split; [exact H'|]. destruct Nb as (Ip & Iq & Lt & Nb). destruct Nb' as (Ip' & Iq' & Lt' & Nb').
  pose proof (Inc p q Ip Iq Lt) as M. pose proof (Inc p' q' Ip' Iq' Lt') as M'.
  pose proof (divides_between p q v w Lt M D) as B. pose proof (divides_between p' q' v' w' Lt' M' D') as B'.
  destruct D as [[D1 D2] D]. destruct D' as [[D1' D2'] D'].
  assert (forall a b, In a (combine xs ys) -> In b (combine xs ys) -> fst a <= fst b -> snd a <= snd b) as Mono.
  { intros a b Ia Ib Hab. apply Qle_lt_or_eq in Hab as [Hab|Hab]; [apply Qlt_le_weak; now apply Inc|]. rewrite (different_inj _ a b Df Ia Ib Hab). apply Qle_refl. }
  destruct (Nb p' Ip') as [C|C].
  - destruct (Nb' p Ip) as [C'|C'].
    + assert (p = p') as <- by (apply (different_inj _ _ _ Df Ip Ip'); lra).
      assert (q = q') as <-.
      { apply (different_inj _ _ _ Df Iq Iq'). destruct (Nb' q Iq) as [E|E]; [lra|]. destruct (Nb q' Iq') as [E'|E']; lra. }
      split; [|intros L']; [apply (Qmult_le_r _ _ (fst q - fst p))|apply (Qmult_lt_r _ _ (fst q - fst p))]; try lra; rewrite D, D'; nra.
    + assert (p = q') as <- by (apply (different_inj _ _ _ Df Ip Iq'); lra).
      assert (w == snd p) as -> by (apply (Qmult_inj_r _ _ (fst q - fst p)); [lra|]; rewrite D; assert (v == fst p) as -> by lra; ring).
      assert (w' == snd p) as -> by (apply (Qmult_inj_r _ _ (fst p - fst p')); [lra|]; rewrite D'; assert (v' == fst p) as -> by lra; ring). split; [apply Qle_refl|intros; lra].
  - pose proof (Mono q p' Iq Ip' C) as Mq. split; [lra|]. intros L'. destruct (Qlt_le_dec w w') as [G|G]; [exact G|]. exfalso.
    assert (w == snd q) as E by lra. assert (w' == snd p') as E' by lra. rewrite E in D. rewrite E' in D'.
    assert (v == fst q) by (assert ((snd q - snd p) * (fst q - v) == 0) as Z by nra; apply Qmult_integral in Z as [Z|Z]; lra).
    assert (v' == fst p') by (assert ((snd q' - snd p') * (v' - fst p') == 0) as Z by nra; apply Qmult_integral in Z as [Z|Z]; lra).
    assert (fst q < fst p') as F by lra. specialize (Inc q p' Iq Ip' F). lra.
Qed.
Print Assumptions C91_rises.

(** C91: the value that is interpolated: this timestep's value of the parameter, the current volume, or the flow of the timestep before, of the scenario
    combination asked for. *)
Theorem C91_source : forall o xs ys value volume prev_flow i,
  interpolated_value OfParameter o xs ys (State value volume prev_flow) i = interpolate o xs ys (value i) /\
  interpolated_value OfVolume o xs ys (State value volume prev_flow) i = interpolate o xs ys (volume i) /\
  interpolated_value OfPreviousFlow o xs ys (State value volume prev_flow) i = interpolate o xs ys (prev_flow i).
Proof. intros. split; [reflexivity|]. split; reflexivity. Qed.
Print Assumptions C91_source.

(** ** The aquifer *)

(** C91: the volume between two neighbouring levels is area times storativity times height (in thousands). *)
Theorem C91_layers : forall area level levels storativity n, length storativity = length levels -> (n < length levels)%nat ->
  let volumes := volumes_of area (level :: levels) storativity in
  nth 0 volumes 1 == 0 /\ length volumes = length (level :: levels) /\
  nth (S n) volumes 0 - nth n volumes 0 == area * nth n storativity 0 * (nth (S n) (level :: levels) 0 - nth n (level :: levels) 0) / 1000.
Proof.
  intros area level levels storativity n L Hn. cbv zeta. unfold volumes_of. split; [reflexivity|]. split; [cbn; now rewrite layer_volumes_length|].
  rewrite layer_volumes_nth by assumption. unfold Qdiv. reflexivity.
Qed.
Print Assumptions C91_layers.

(** C91: an aquifer of rising levels with positive area and storativity that is given an initial level has a volume within its bounds, at that volume
    it has that level, and its streams flow as Keating's formula says for that level. *)
Theorem C91_aquifer : forall num_streams streams T C level levels area storativity a lv n,
  make_aquifer num_streams streams T C (level :: levels) None (Some area) (Some storativity) = Some a ->
  0 < area -> (forall s, In s storativity -> 0 < s) -> StronglySorted Qlt (level :: levels) ->
  level <= lv <= last levels level -> (n < num_streams)%nat ->
  exists volume lv' flow, initial_volume_for a lv = Some (Some volume) /\ q_min_volume a <= volume <= q_max_volume a /\
    initial_level_of a true volume = Some (Some lv') /\ lv' == lv /\
    stream_flow a n volume = Some flow /\ flow == keating C (nth n streams []) T lv.
Proof.
  intros ns streams T C level levels area stor a lv n H A P S V Hn. unfold make_aquifer in H.
  destruct (Nat.eqb ns 0); [discriminate|]. destruct (negb (Nat.eqb (length streams) ns)); [discriminate|]. destruct (negb (forallb _ _)); [discriminate|]. cbv zeta in H.
  destruct (Nat.eqb_spec (length stor) (length (level :: levels) - 1)) as [L|]; [|discriminate]. cbn [length] in L. rewrite Nat.sub_succ, Nat.sub_0_r in L.
  unfold volumes_of in H. set (vs := layer_volumes area 0 level levels stor) in *.
  destruct (make_interp (Options true FillNan) (level :: levels) (0 :: vs)) as [pts|] eqn:M; [|discriminate]. injection H as <-.
  apply make_interp_points in M as (_ & Ll & L2 & _).
  assert (rising (combine (level :: levels) (0 :: vs))) as R by (exact (layers_rising area A levels stor 0 level P L S)).
  assert (rising (combine (0 :: vs) (level :: levels))) as R' by (rewrite combine_swap; now apply rising_swap).
  assert (forall o, o = Options true FillNan \/ o = with_defaults None None -> well_given o (level :: levels) (0 :: vs) /\ well_given o (0 :: vs) (level :: levels)) as WG.
  { intros o Ho. assert (~ (o_bounds_error o = true /\ o_fill o = FillExtrapolate)) as No by (intros [_ E]; destruct Ho as [-> | ->]; discriminate E).
    split; (split; [exact Ll || now symmetry|]); (split; [rewrite <- ?Ll; lia|]); (split; [|exact No]); now apply strict_different, rising_strict. }
  assert (within (combine (level :: levels) (0 :: vs)) lv) as Wi.
  { assert (exists q, In q (combine (level :: levels) (0 :: vs)) /\ fst q = last levels level) as [q [Iq Eq]].
    { assert (In (last levels level) (level :: levels)) as I.
      { clear. revert level. induction levels as [|x l IH]; intros level; [now left|]. destruct l as [|y l]; [right; now left|].
        replace (last (x :: y :: l) level) with (last (y :: l) x); [right; apply IH|]. clear. revert x y. induction l as [|z l IH]; intros x y; [reflexivity|]. exact (IH x z). }
      apply (In_nth _ _ 0) in I as [k [Hk Ek]]. exists (nth k (combine (level :: levels) (0 :: vs)) (0, 0)). split.
      - apply nth_In. rewrite combine_length. lia.
      - rewrite combine_nth by exact Ll. exact Ek. }
    exists (level, 0), q. split; [now left|]. split; [exact Iq|]. rewrite Eq. exact V. }
  destruct (WG (Options true FillNan) (or_introl eq_refl)) as [W1 _]. destruct (interpolated_within _ _ _ lv W1 Wi) as (p & q & w & Nb & H1 & D1).
  assert (divides p q lv w) as D1' by exact D1. destruct Nb as (Ip & Iq & Lt & Nb). pose proof (rising_increasing _ R p q Ip Iq Lt) as Ls.
  destruct (divides_between p q lv w Lt Ls D1) as [B1 B2].
  assert (forall y, In y (combine (level :: levels) (0 :: vs)) -> In (swap y) (combine (0 :: vs) (level :: levels))) as Sw by (intros y Hy; rewrite combine_swap; now apply in_map).
  assert (neighbours (combine (0 :: vs) (level :: levels)) (swap p) (swap q)) as Nb'.
  { split; [now apply Sw|]. split; [now apply Sw|]. split; [exact Ls|]. intros r Hr. rewrite combine_swap in Hr. apply in_map_iff in Hr as [s [<- Hs]]. unfold swap. cbn [fst].
    destruct (Nb s Hs) as [G|G]; [left|right]; apply Qle_lt_or_eq in G as [G|G].
    - apply Qlt_le_weak. now apply (rising_increasing _ R).
    - rewrite (strict_inj _ s p (rising_strict _ R) Hs Ip G). apply Qle_refl.
    - apply Qlt_le_weak. now apply (rising_increasing _ R).
    - rewrite (strict_inj _ q s (rising_strict _ R) Iq Hs G). apply Qle_refl. }
  destruct (WG (with_defaults None None) (or_intror eq_refl)) as [_ W2].
  destruct (C91_linear _ _ _ _ _ w W2 Nb' (conj B1 B2)) as (u & H2 & D2).
  assert (u == lv) as E by (exact (divides_back p q lv w u Lt Ls D1 D2)).
  exists w, u, (keating C (nth n streams []) T u). split; [exact H1|]. split; [|split; [exact H2|split; [exact E|split]]].
  - cbn [q_min_volume q_max_volume]. destruct (qmin_fold vs 0) as [_ Mn]. destruct (qmax_fold vs 0) as [_ Mx].
    assert (In (snd p) (0 :: vs)) as I1 by (destruct p; apply in_combine_r in Ip; exact Ip). assert (In (snd q) (0 :: vs)) as I2 by (destruct q; apply in_combine_r in Iq; exact Iq).
    specialize (Mn _ I1). specialize (Mx _ I2). lra.
  - unfold stream_flow, level_at. cbn [q_volumes q_levels q_coefficient q_streams q_transmissivity]. rewrite H2. reflexivity.
  - now apply keating_Proper.
Qed.
Print Assumptions C91_aquifer.

(** C91 (refuted part): the initial level just given cannot be read back until the model is set up. *)
Theorem C91_initial_level_refuted : exists a lv volume lv', initial_volume_for a lv = Some (Some volume) /\ initial_level_of a true volume = Some (Some lv') /\
  lv' == lv /\ initial_level_of a false volume = None.
Proof.
  exists (Aquifer [0; 1000] [0; 500] [[100]] [1] 1 500 0), 100. eexists. eexists. split; [vm_compute; reflexivity|]. split; [vm_compute; reflexivity|]. split; [vm_compute; reflexivity|reflexivity].
Qed.
Print Assumptions C91_initial_level_refuted.

Definition ex_o : options := with_defaults None None.
Example C91_example : well_given ex_o [10; 0; 5] [30; 0; 10] /\
  map (fun v => option_map (option_map Qred) (interpolate ex_o [10; 0; 5] [30; 0; 10] v)) [0; 1; 5; 8; 10; 11] =
    [Some (Some 0); Some (Some 2); Some (Some 10); Some (Some 22); Some (Some 30); None] /\
  interpolate (with_defaults (Some false) (Some (FillPair 7 8))) [10; 0; 5] [30; 0; 10] 11 = Some (Some 8).
Proof.
  split; [|split; vm_compute; reflexivity]. split; [reflexivity|]. split; [cbn; lia|]. split; [|intros [_ H]; discriminate H].
  repeat constructor; intros H; vm_compute in H; discriminate H.
Qed.
Example C91_aquifer_example : exists a, make_aquifer 1 [[100; 125]] [1; 20] 1 [0; 1000; 2000] None (Some 2500000) (Some [1 # 20; 1 # 10]) = Some a /\
  map Qred (q_volumes a) = [0; 125000; 375000] /\ option_map (option_map Qred) (initial_volume_for a 110) = Some (Some 13750) /\
  option_map (option_map Qred) (level_at a 13750) = Some (Some 110) /\ option_map Qred (stream_flow a 0 13750) = Some 20.
Proof. eexists. split; [vm_compute; reflexivity|]. split; [vm_compute; reflexivity|]. split; [vm_compute; reflexivity|]. split; vm_compute; reflexivity. Qed.
