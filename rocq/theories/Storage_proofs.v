From Verif Require Import Base Paths Sorting Routes_model LP_model Sys_model RouteLP_model RouteLP_spec
  RouteLP_proofs RouteLP_flow Storage_model Sim_model Storage_spec.
Open Scope Q_scope.

Lemma eps6_pos : 0 < eps6. Proof. unfold eps6. lra. Qed.

Lemma snap_cases v mx mn :
  (qabs (v - mn) < eps6 /\ snap v mx mn == mn) \/
  (exists m, mx = Fin m /\ qabs (v - m) < eps6 /\ qabs (m - mn) < eps6 /\ snap v mx mn == mn) \/
  (exists m, mx = Fin m /\ qabs (v - m) < eps6 /\ eps6 <= qabs (m - mn) /\ snap v mx mn == m) \/
  (eps6 <= qabs (v - mn) /\ (forall m, mx = Fin m -> eps6 <= qabs (v - m)) /\ snap v mx mn == v).
Proof.
  unfold snap. destruct mx as [|m|].
  - destruct (qltbP (qabs (v - mn)) eps6); [left; split; [assumption|reflexivity]|].
    right; right; right. split; [lra|split; [discriminate|reflexivity]].
  - destruct (qltbP (qabs (v - m)) eps6) as [H|H].
    + destruct (qltbP (qabs (m - mn)) eps6) as [H'|H'].
      * right; left. exists m. repeat split; try assumption; reflexivity.
      * right; right; left. exists m. repeat split; try assumption; try reflexivity. lra.
    + destruct (qltbP (qabs (v - mn)) eps6) as [H'|H']; [left; split; [assumption|reflexivity]|].
      right; right; right. split; [lra|split; [|reflexivity]]. intros m' E. injection E as <-. lra.
  - destruct (qltbP (qabs (v - mn)) eps6); [left; split; [assumption|reflexivity]|].
    right; right; right. split; [lra|split; [discriminate|reflexivity]].
Qed.

Lemma qabs_lt a e : qabs a < e <-> - e < a /\ a < e.
Proof. unfold qabs. qif; lra. Qed.
Lemma qabs_ge a e : e <= qabs a <-> a <= - e \/ e <= a.
Proof. unfold qabs. qif; lra. Qed.

(** Values within [t] of the interval, [t] below the snapping distance, are snapped into it. *)
Lemma snap_in_bounds v m mn t : 0 <= t -> t < eps6 -> mn <= m -> mn - t <= v <= m + t ->
  mn <= snap v (Fin m) mn <= m.
Proof.
  intros Ht He Hb Hv. destruct (snap_cases v (Fin m) mn) as [[_ ->]|[[m' [E [_ [_ ->]]]]|[[m' [E [_ [_ ->]]]]|[H1 [H2 ->]]]]].
  - lra.
  - lra.
  - injection E as <-. lra.
  - specialize (H2 m eq_refl). apply qabs_ge in H1. apply qabs_ge in H2. lra.
Qed.

Lemma snap_above v mn t : 0 <= t -> t < eps6 -> mn - t <= v -> mn <= snap v PInf mn.
Proof.
  intros Ht He Hv. destruct (snap_cases v PInf mn) as [[_ ->]|[[m' [E _]]|[[m' [E _]]|[H1 [H2 ->]]]]]; try discriminate; try lra.
  apply qabs_ge in H1. lra.
Qed.

(** Without any assumption on [v] snapping moves towards the bounds only. *)
Lemma snap_between v m mn : mn <= m -> qmin v mn <= snap v (Fin m) mn <= qmax v m.
Proof.
  intros Hb. destruct (snap_cases v (Fin m) mn) as [[_ ->]|[[m' [E [_ [_ ->]]]]|[[m' [E [_ [_ ->]]]]|[H1 [H2 ->]]]]].
  - pose proof (qmin_r v mn). pose proof (qmax_r v m). lra.
  - pose proof (qmin_r v mn). pose proof (qmax_r v m). lra.
  - injection E as <-. pose proof (qmin_r v mn). pose proof (qmax_r v m). lra.
  - pose proof (qmin_l v mn). pose proof (qmax_l v m). lra.
Qed.

(** ** The rows of storages and virtual storages, without assuming them satisfied *)
Lemma storage_row_in triv S d P x st : wf_sys S -> posed triv S d = Ok P ->
  In st (s_nodes S) -> s_kind S st = KStorage ->
  exists r, In r (lp_rows P) /\
    (r_type r, r_lb r, r_ub r) = storage_bounds (d_vol d st) (d_minvol d st) (d_maxvol d st) (d_days d) /\
    row_value x r == committed triv S x st.
Proof.
  intros W HP Hn Hk. apply posed_inv in HP.
  destruct (pf_storage _ _ _ _ HP st Hn Hk) as [r [Hr Hin]]. exists r. split; [exact Hin|].
  unfold storage_row in Hr.
  destruct (storage_bounds (d_vol d st) (d_minvol d st) (d_maxvol d st) (d_days d)) as [[t lb] ub].
  apply set_row_inv in Hr as [-> _]. cbn [r_type r_lb r_ub]. split; [reflexivity|].
  unfold row_value. cbn [r_coef]. rewrite storage_row_value. symmetry. now apply committed_storage_routes.
Qed.

Lemma storage_bounds_within tol vol mn mx days t lb ub v : 0 <= tol -> 0 < days ->
  storage_bounds vol mn mx days = (t, lb, ub) -> mx <> NInf -> bounds_within tol t lb ub v ->
  - qmax (vol - mn) 0 / days - tol <= v /\
  match mx with Fin m => v <= qmax (m - vol) 0 / days + tol | _ => True end.
Proof.
  intros Ht Hd HS Hmx HB. assert (exists w, bounds_ok t lb ub w /\ w - tol <= v /\ v <= w + tol) as [w [Hw [W1 W2]]].
  { pose proof (storage_bounds_sound vol mn mx days t lb ub 0 Hd HS Hmx) as _.
    assert (match lb, ub with Fin a, Fin b => a <= b | Fin _, PInf => True | _, _ => False end) as Horder.
    { assert (0 < / days) as Hi by now apply Qinv_lt_0_compat.
      assert (0 <= qmax (vol - mn) 0) as P1 by apply qmax_r.
      assert (- qmax (vol - mn) 0 / days <= 0) as L by (unfold Qdiv; nra).
      unfold storage_bounds in HS. destruct mx as [|m|]; [congruence| |].
      - assert (0 <= qmax (m - vol) 0) as P2 by apply qmax_r.
        assert (0 <= qmax (m - vol) 0 / days) as U by (unfold Qdiv; nra).
        destruct (qeqb m mn); injection HS as <- <- <-; [lra|].
        destruct (round8_cases (- qmax (vol - mn) 0 / days)) as [[K1 K2]|[K1 K2]], (round8_cases (qmax (m - vol) 0 / days)) as [[K3 K4]|[K3 K4]];
          rewrite K2, K4; lra.
      - injection HS as <- <- <-. exact I. }
    destruct t, lb as [|a|], ub as [|b|]; try contradiction; cbn [bounds_within bounds_ok ext_le_q q_le_ext] in *.
    - exists v. split; [exact I|lra].
    - exists v. split; [exact I|lra].
    - exists (qmax v a). pose proof (qmax_l v a). pose proof (qmax_r v a). split; [assumption|]. unfold qmax in *. qif; lra.
    - exists (qmax v a). pose proof (qmax_l v a). pose proof (qmax_r v a). split; [assumption|]. unfold qmax in *. qif; lra.
    - exists (qmin v b). pose proof (qmin_l v b). pose proof (qmin_r v b). split; [assumption|]. unfold qmin in *. qif; lra.
    - exists v. split; [exact I|lra].
    - exists (qmin b (qmax v a)).
      assert ((qmax v a == v /\ a <= v) \/ (qmax v a == a /\ v <= a)) as C1 by (unfold qmax; qif; lra).
      assert ((qmin b (qmax v a) == b /\ b <= qmax v a) \/ (qmin b (qmax v a) == qmax v a /\ qmax v a <= b)) as C2 by (unfold qmin; qif; lra).
      repeat split; lra.
    - exists (qmax v a). unfold qmax. qif; repeat split; lra.
    - exists a. repeat split; lra.
    - exists a. repeat split; lra. }
  pose proof (storage_bounds_sound vol mn mx days t lb ub w Hd HS Hmx Hw) as [B1 B2].
  split; [lra|]. destruct mx; try exact I. lra.
Qed.

(** One timestep of something whose flow is limited like that. *)
Lemma volume_step_in tol vol mn mx days t lb ub v : 0 <= tol -> 0 < days -> tol * days < eps6 ->
  storage_bounds vol mn mx days = (t, lb, ub) -> bounds_within tol t lb ub v ->
  match mx with
  | Fin m => mn <= vol <= m -> mn <= volume_after vol v days mx mn None <= m
  | PInf => mn <= vol -> mn <= volume_after vol v days mx mn None
  | NInf => True
  end.
Proof.
  intros Ht Hd Hs HS HB. unfold volume_after. destruct mx as [|m|]; [exact I| |]; intros Hv;
    destruct (storage_bounds_within tol vol mn _ days t lb ub v Ht Hd HS ltac:(discriminate) HB) as [L U].
  - assert (qmax (vol - mn) 0 == vol - mn) as Q1 by (unfold qmax; qif; lra).
    assert (qmax (m - vol) 0 == m - vol) as Q2 by (unfold qmax; qif; lra).
    rewrite Q1 in L. rewrite Q2 in U.
    assert (- (vol - mn) / days * days == - (vol - mn)) as E1 by (field; lra).
    assert ((m - vol) / days * days == m - vol) as E2 by (field; lra).
    apply snap_in_bounds with (t := tol * days); try lra; [nra|]. revert L U E1 E2.
    generalize (- (vol - mn) / days) as a, ((m - vol) / days) as b. intros a b L U E1 E2. split; nra.
  - assert (qmax (vol - mn) 0 == vol - mn) as Q1 by (unfold qmax; qif; lra).
    rewrite Q1 in L. assert (- (vol - mn) / days * days == - (vol - mn)) as E1 by (field; lra).
    apply snap_above with (t := tol * days); try lra; [nra|]. revert L E1.
    generalize (- (vol - mn) / days) as a. intros a L E1. nra.
Qed.

Lemma volume_run_in tol triv S st mn m : wf_sys S -> In st (s_nodes S) -> s_kind S st = KStorage -> 0 <= tol ->
  forall v l v', volume_run tol triv S st v l v' ->
  (forall d x, In (d, x) l -> d_minvol d st = mn /\ d_maxvol d st = Fin m /\ tol * d_days d < eps6) ->
  mn <= v <= m -> mn <= v' <= m.
Proof.
  intros W Hst Hk Ht v l v' R. induction R as [v|v d x l v' Hv Hd [P [HP HF]] R IH]; intros Hc Hb; [exact Hb|].
  apply IH; [intros d0 x0 H0; apply (Hc d0 x0); now right|]. destruct (Hc d x (or_introl eq_refl)) as [E1 [E2 E3]].
  destruct (storage_row_in triv S d P x st W HP Hst Hk) as [r [Hr [Eb Ev]]].
  apply HF in Hr. destruct (storage_bounds _ _ _ _) as [[t lb] ub] eqn:E. injection Eb as Et El Eu. rewrite Et, El, Eu in Hr.
  unfold vol_after. rewrite Hk. rewrite E1, E2, Hv in *.
  assert (bounds_within tol t lb ub (committed triv S x st)) as HB.
  { revert Hr. generalize (row_value x r) (committed triv S x st) Ev. clear. intros a b E.
    destruct t, lb, ub; cbn; unfold ext_le_q, q_le_ext; try tauto; intros; try (split; lra); lra. }
  pose proof (volume_step_in tol v mn (Fin m) (d_days d) t lb ub _ Ht Hd E3 E HB) as H. now apply H.
Qed.

(** Same with an unlimited maximum. *)
Lemma volume_run_above tol triv S st mn : wf_sys S -> In st (s_nodes S) -> s_kind S st = KStorage -> 0 <= tol ->
  forall v l v', volume_run tol triv S st v l v' ->
  (forall d x, In (d, x) l -> d_minvol d st = mn /\ d_maxvol d st = PInf /\ tol * d_days d < eps6) ->
  mn <= v -> mn <= v'.
Proof.
  intros W Hst Hk Ht v l v' R. induction R as [v|v d x l v' Hv Hd [P [HP HF]] R IH]; intros Hc Hb; [exact Hb|].
  apply IH; [intros d0 x0 H0; apply (Hc d0 x0); now right|]. destruct (Hc d x (or_introl eq_refl)) as [E1 [E2 E3]].
  destruct (storage_row_in triv S d P x st W HP Hst Hk) as [r [Hr [Eb Ev]]].
  apply HF in Hr. destruct (storage_bounds _ _ _ _) as [[t lb] ub] eqn:E. injection Eb as Et El Eu. rewrite Et, El, Eu in Hr.
  unfold vol_after. rewrite Hk. rewrite E1, E2, Hv in *.
  assert (bounds_within tol t lb ub (committed triv S x st)) as HB.
  { revert Hr. generalize (row_value x r) (committed triv S x st) Ev. clear. intros a b E.
    destruct t, lb, ub; cbn; unfold ext_le_q, q_le_ext; try tauto; intros; try (split; lra); lra. }
  pose proof (volume_step_in tol v mn PInf (d_days d) t lb ub _ Ht Hd E3 E HB) as H. now apply H.
Qed.

(** Bounds that change: one exactly solved timestep. *)
Lemma volume_step_moving triv S d x st m : wf_sys S -> In st (s_nodes S) -> s_kind S st = KStorage ->
  solved triv S d x -> 0 < d_days d -> d_maxvol d st = Fin m -> d_minvol d st <= m ->
  qmin (d_vol d st) (d_minvol d st) <= vol_after S d (committed triv S x) st <= qmax (d_vol d st) m.
Proof.
  intros W Hst Hk HS Hd Hm Hb.
  destruct (storage_flow_limits triv S d x st W HS Hd Hst Hk ltac:(rewrite Hm; discriminate)) as [L U].
  rewrite Hm in U. unfold vol_after. rewrite Hk. unfold volume_after. rewrite Hm.
  pose proof (snap_between (d_vol d st + committed triv S x st * d_days d) m (d_minvol d st) Hb) as [B1 B2].
  revert Hd Hb L U B1 B2. generalize (snap (d_vol d st + committed triv S x st * d_days d) (Fin m) (d_minvol d st)) as w.
  generalize (committed triv S x st) as f, (d_vol d st) as v, (d_minvol d st) as mn, (d_days d) as days. clear.
  intros f v mn days w Hd Hb L U B1 B2.
  assert (- qmax (v - mn) 0 / days * days == - qmax (v - mn) 0) as E1 by (field; lra).
  assert (qmax (m - v) 0 / days * days == qmax (m - v) 0) as E2 by (field; lra).
  assert (qmin v mn - v <= f * days) as F1.
  { assert (- qmax (v - mn) 0 <= f * days) as H by (revert L E1; generalize (- qmax (v - mn) 0 / days) as a; intros; nra).
    unfold qmax, qmin in *. revert H. qif; qif; lra. }
  assert (f * days <= qmax v m - v) as F2.
  { assert (f * days <= qmax (m - v) 0) as H by (revert U E2; generalize (qmax (m - v) 0 / days) as a; intros; nra).
    unfold qmax, qmin in *. revert H. qif; qif; lra. }
  clear L U E1 E2. revert F1 F2 B1 B2. generalize (f * days) as g. intros g F1 F2 B1 B2.
  unfold qmin, qmax in *. revert F1 F2 B1 B2. repeat (qif; try lra).
Qed.

(** ** Accounting *)
Lemma snap_close v mx mn : - (2 * eps6) < snap v mx mn - v < 2 * eps6.
Proof.
  pose proof eps6_pos as He.
  destruct (snap_cases v mx mn) as [[H ->]|[[m' [E [H1 [H2 ->]]]]|[[m' [E [H1 [H2 ->]]]]|[H1 [H2 ->]]]]].
  - apply qabs_lt in H. lra.
  - apply qabs_lt in H1. apply qabs_lt in H2. lra.
  - apply qabs_lt in H1. lra.
  - lra.
Qed.

Lemma snap_close1 v mx mn : (forall m, mx = Fin m -> eps6 <= m - mn) -> - eps6 < snap v mx mn - v < eps6.
Proof.
  pose proof eps6_pos as He. intros Hw.
  destruct (snap_cases v mx mn) as [[H ->]|[[m' [E [H1 [H2 ->]]]]|[[m' [E [H1 [H2 ->]]]]|[H1 [H2 ->]]]]].
  - apply qabs_lt in H. lra.
  - apply Hw in E. apply qabs_lt in H2. lra.
  - apply qabs_lt in H1. lra.
  - lra.
Qed.

Lemma snap_off v mx mn : eps6 <= qabs (v - mn) -> (forall m, mx = Fin m -> eps6 <= qabs (v - m)) -> snap v mx mn == v.
Proof.
  intros H1 H2. destruct (snap_cases v mx mn) as [[H _]|[[m' [E [H _]]]|[[m' [E [H _]]]|[_ [_ ->]]]]]; try lra.
  - apply H2 in E. lra.
  - apply H2 in E. lra.
Qed.

Lemma accounting mx mn h : forall v,
  - (2 * eps6) * inject_Z (Z.of_nat (length h)) <= volume_along mx mn v h - (v + gained h) <= 2 * eps6 * inject_Z (Z.of_nat (length h)).
Proof.
  pose proof eps6_pos as He. induction h as [|[f d] h IH]; intros v.
  - unfold gained. cbn [volume_along map qsum length]. change (inject_Z (Z.of_nat 0)) with 0. lra.
  - cbn [volume_along]. specialize (IH (volume_after v f d mx mn None)). unfold gained in *. cbn [map qsum length fst snd].
    rewrite Nat2Z.inj_succ. unfold Z.succ. rewrite inject_Z_plus. change (inject_Z 1) with 1.
    pose proof (snap_close (v + f * d) mx mn) as Hs. unfold volume_after in IH at 2. unfold volume_after in IH at 3.
    revert IH Hs. generalize (volume_along mx mn (volume_after v f d mx mn None) h) (snap (v + f * d) mx mn) (qsum (map (fun fd => fst fd * snd fd) h)).
    intros a b c IH Hs. lra.
Qed.

Lemma accounting1 mx mn h : (forall m, mx = Fin m -> eps6 <= m - mn) -> forall v,
  - eps6 * inject_Z (Z.of_nat (length h)) <= volume_along mx mn v h - (v + gained h) <= eps6 * inject_Z (Z.of_nat (length h)).
Proof.
  pose proof eps6_pos as He. intros Hw. induction h as [|[f d] h IH]; intros v.
  - unfold gained. cbn [volume_along map qsum length]. change (inject_Z (Z.of_nat 0)) with 0. lra.
  - cbn [volume_along]. specialize (IH (volume_after v f d mx mn None)). unfold gained in *. cbn [map qsum length fst snd].
    rewrite Nat2Z.inj_succ. unfold Z.succ. rewrite inject_Z_plus. change (inject_Z 1) with 1.
    pose proof (snap_close1 (v + f * d) mx mn Hw) as Hs. unfold volume_after in IH at 2. unfold volume_after in IH at 3.
    revert IH Hs. generalize (volume_along mx mn (volume_after v f d mx mn None) h) (snap (v + f * d) mx mn) (qsum (map (fun fd => fst fd * snd fd) h)).
    intros a b c IH Hs. lra.
Qed.

(** The volumes of a run are those of the accounting. *)
Lemma run_along tol triv S st mx mn : s_kind S st = KStorage ->
  forall v l v', volume_run tol triv S st v l v' ->
  (forall d x, In (d, x) l -> d_minvol d st = mn /\ d_maxvol d st = mx) ->
  v' = volume_along mx mn v (map (fun dx => (committed triv S (snd dx) st, d_days (fst dx))) l).
Proof.
  intros Hk v l v' R. induction R as [v|v d x l v' Hv Hd HF R IH]; intros Hc; [reflexivity|].
  cbn [map volume_along fst snd]. rewrite IH by (intros d0 x0 H0; apply (Hc d0 x0); now right).
  destruct (Hc d x (or_introl eq_refl)) as [E1 E2]. unfold vol_after. now rewrite Hk, E1, E2, Hv.
Qed.

(** ** get_current_pc *)
Lemma current_pc_range pc : 0 <= get_current_pc pc <= 1.
Proof. unfold get_current_pc. destruct pc as [p|]; [|lra]. qif; [lra|]. qif; lra. Qed.

Lemma current_pc_value pc p : pc = Some p -> 0 <= p <= 1 -> get_current_pc pc == p.
Proof. intros -> H. unfold get_current_pc. qif; [lra|]. qif; lra. Qed.

(** ** Aggregated storage *)
Lemma agg_flow_sum ms : agg_storage_flow ms == qsum (map m_flow ms).
Proof.
  unfold agg_storage_flow. assert (forall acc, fold_left (fun acc m => acc + m_flow m) ms acc == acc + qsum (map m_flow ms)) as H.
  { induction ms as [|m ms IH]; intros acc; cbn [fold_left map qsum]; [ring|]. rewrite IH. ring. }
  rewrite H. ring.
Qed.

Lemma members_step_length bs : forall vs fs days, length vs = length bs -> length fs = length bs ->
  length (members_step bs vs fs days) = length bs.
Proof.
  induction bs as [|[mx mn] bs IH]; intros vs fs days H1 H2; [reflexivity|].
  destruct vs as [|v vs], fs as [|f fs]; try discriminate. cbn [members_step length]. f_equal. apply IH; cbn in H1, H2; lia.
Qed.

Lemma members_step_sum bs : forall vs fs days, length vs = length bs -> length fs = length bs ->
  - (2 * eps6) * inject_Z (Z.of_nat (length bs)) <= qsum (members_step bs vs fs days) - (qsum vs + qsum fs * days)
    <= 2 * eps6 * inject_Z (Z.of_nat (length bs)).
Proof.
  induction bs as [|[mx mn] bs IH]; intros vs fs days H1 H2.
  - destruct vs, fs; try discriminate. cbn [members_step qsum length]. change (inject_Z (Z.of_nat 0)) with 0. lra.
  - destruct vs as [|v vs], fs as [|f fs]; try discriminate. cbn [members_step qsum length].
    cbn in H1, H2. injection H1 as H1. injection H2 as H2. specialize (IH vs fs days H1 H2).
    rewrite Nat2Z.inj_succ. unfold Z.succ. rewrite inject_Z_plus. change (inject_Z 1) with 1.
    pose proof (snap_close (v + f * days) mx mn) as Hs. unfold volume_after.
    assert ((f + qsum fs) * days == f * days + qsum fs * days) as E by ring. lra.
Qed.

Lemma qsum_snd_combine (bs : list bounds) : forall fs, length fs = length bs ->
  qsum (map m_flow (map (fun bf : bounds * Q => {| m_flow := snd bf; m_max := fst (fst bf); m_min := snd (fst bf) |}) (combine bs fs))) == qsum fs.
Proof.
  induction bs as [|b bs IH]; intros fs H; destruct fs as [|f fs]; try discriminate; [reflexivity|].
  cbn [combine map qsum m_flow fst snd]. cbn in H. injection H as H. now rewrite IH.
Qed.

Lemma aggregated_drift bs h : forall v vs, length vs = length bs ->
  (forall fs days, In (fs, days) h -> length fs = length bs) ->
  let k := inject_Z (Z.of_nat (length h)) * (inject_Z (Z.of_nat (length bs)) + 1) in
  v - qsum vs - 2 * eps6 * k <= aggregated_along bs v h - qsum (members_along bs vs h) <= v - qsum vs + 2 * eps6 * k.
Proof.
  pose proof eps6_pos as He. induction h as [|[fs days] h IH]; intros v vs Hl Hh; cbn zeta.
  - cbn [aggregated_along members_along length]. change (inject_Z (Z.of_nat 0)) with 0. lra.
  - cbn [aggregated_along members_along length]. pose proof (Hh fs days (or_introl eq_refl)) as Hf.
    match goal with |- context [aggregated_along bs ?w h] => set (v1 := w) end.
    specialize (IH v1 (members_step bs vs fs days) (members_step_length bs vs fs days Hl Hf)
                  (fun fs' d' H => Hh fs' d' (or_intror H))). cbn zeta in IH.
    pose proof (members_step_sum bs vs fs days Hl Hf) as Hm.
    assert (- (2 * eps6) < v1 - (v + qsum fs * days) < 2 * eps6) as Hv.
    { unfold v1, agg_storage_after. match goal with |- context [snap ?a ?b ?c] => pose proof (snap_close a b c) as Hs end.
      match goal with |- context [agg_storage_flow ?l] =>
        assert (agg_storage_flow l * days == qsum fs * days) as Ef by (rewrite agg_flow_sum, (qsum_snd_combine bs fs Hf); reflexivity) end.
      lra. }
    rewrite Nat2Z.inj_succ. unfold Z.succ. rewrite inject_Z_plus. change (inject_Z 1) with 1.
    revert IH Hm Hv. generalize (inject_Z (Z.of_nat (length h))) as a, (inject_Z (Z.of_nat (length bs))) as b,
      (aggregated_along bs v1 h) as A, (qsum (members_along bs (members_step bs vs fs days) h)) as M,
      (qsum (members_step bs vs fs days)) as ms, (qsum fs * days) as g, (qsum vs) as q. clearbody v1.
    intros a b A M ms g q IH Hm Hv.
    assert ((a + 1) * (b + 1) == a * (b + 1) + b + 1) as E by ring. rewrite E. revert IH. generalize (a * (b + 1)) as ab. intros ab IH. lra.
Qed.

(** No snapping: exact. *)
Fixpoint unsnapped (bs : list bounds) (v : Q) (vs : list Q) (h : list (list Q * Q)) : Prop :=
  match h with
  | [] => True
  | (fs, days) :: r =>
      length fs = length bs /\
      qsum (members_step bs vs fs days) == qsum vs + qsum fs * days /\
      agg_storage_after v (map (fun bf : bounds * Q => {| m_flow := snd bf; m_max := fst (fst bf); m_min := snd (fst bf) |}) (combine bs fs)) days
        == v + qsum fs * days /\
      unsnapped bs (agg_storage_after v (map (fun bf : bounds * Q => {| m_flow := snd bf; m_max := fst (fst bf); m_min := snd (fst bf) |}) (combine bs fs)) days)
        (members_step bs vs fs days) r
  end.

Lemma aggregated_exact bs h : forall v vs, unsnapped bs v vs h -> v == qsum vs ->
  aggregated_along bs v h == qsum (members_along bs vs h).
Proof.
  induction h as [|[fs days] h IH]; intros v vs H E; [exact E|]. cbn [unsnapped aggregated_along members_along] in *.
  destruct H as [_ [H1 [H2 H3]]]. apply IH; [exact H3|]. rewrite H2, H1, E. reflexivity.
Qed.

Lemma agg_reset_sum is v : agg_storage_reset is = Some v ->
  exists vs, map get_initial_volume is = map Some vs /\ v == qsum vs.
Proof.
  revert v. induction is as [|i is IH]; intros v H; cbn [agg_storage_reset] in H.
  - injection H as <-. exists []. split; reflexivity.
  - destruct (get_initial_volume i) as [a|] eqn:E; [|discriminate]. destruct (agg_storage_reset is) as [s|]; [|discriminate].
    injection H as <-. destruct (IH s eq_refl) as [vs [H1 H2]]. exists (a :: vs). cbn [map qsum]. rewrite E, H1. split; [reflexivity|]. now rewrite H2.
Qed.
