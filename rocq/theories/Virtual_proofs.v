From Verif Require Import Base Ring Paths Sorting Routes_model LP_model Sys_model RouteLP_model RouteLP_spec
  RouteLP_proofs RouteLP_flow Storage_model Sim_model Storage_spec Storage_proofs Virtual_model Virtual_spec.
Open Scope Q_scope.

Lemma virtual_row_in triv S d P x v : wf_sys S -> posed triv S d = Ok P -> licence_ok S v ->
  exists r, In r (lp_rows P) /\
    (r_type r, r_lb r, r_ub r) = virtual_bounds (d_active d v) (d_vol d v) (d_minvol d v) (d_maxvol d v) (d_days d) /\
    row_value x r == virtual_flow S (committed triv S x) v.
Proof.
  intros W HP [Hv [Hk [Hn [Hl Hm]]]]. apply posed_inv in HP.
  destruct (pf_virtual _ _ _ _ HP v Hv Hk) as [r [Hr Hin]]. exists r. split; [exact Hin|]. unfold virtual_row in Hr.
  destruct (virtual_bounds (d_active d v) (d_vol d v) (d_minvol d v) (d_maxvol d v) (d_days d)) as [[t lb] ub].
  apply set_row_inv in Hr as [-> _]. cbn [r_type r_lb r_ub]. split; [reflexivity|]. unfold row_value. cbn [r_coef].
  rewrite virtual_entries_value, virtual_flow_sum. apply Qopp_comp.
  rewrite (rsum_ext _ _ _ (fun r => qsum (map (fun mf => snd mf * bq (memb (fst mf) r)) (combine (s_members S v) (s_vfactors S v))))).
  2:{ intros r Hr. apply virtual_entry_memb; auto. apply (rf_nodup S). eapply routes_facts; eauto. }
  rewrite (rsum_sum (routes triv S) x (fun mf r => snd mf * bq (memb (fst mf) r))).
  apply qsum_map_ext. intros [m f] Hc. cbn [fst snd]. rewrite rsum_scale, committed_memb; [reflexivity|exact W|].
  apply Hm. eapply in_combine_l; eauto.
Qed.

Lemma virtual_bounds_active vol mn mx days : virtual_bounds true vol mn mx days = storage_bounds vol mn mx days.
Proof. unfold virtual_bounds, storage_bounds. destruct mx as [|m|]; try reflexivity. destruct (qeqb m mn); reflexivity. Qed.

Lemma bounds_within_ext tol t lb ub a b : a == b -> bounds_within tol t lb ub a -> bounds_within tol t lb ub b.
Proof. intros E. destruct t, lb, ub; cbn; unfold ext_le_q, q_le_ext; try tauto; intros; try (split; lra); lra. Qed.

Lemma virtual_step_in tol triv S d x v m : wf_sys S -> licence_ok S v -> 0 <= tol -> 0 < d_days d ->
  solved_within tol triv S d x -> d_maxvol d v = Fin m -> tol * d_days d < eps6 ->
  d_minvol d v <= d_vol d v <= m -> d_minvol d v <= vol_after S d (committed triv S x) v <= m.
Proof.
  intros W L Ht Hd [P [HP HF]] Hm Hs Hb. unfold vol_after. destruct (proj1 (proj2 L)).
  rewrite (proj1 (proj2 L)). destruct (d_active d v) eqn:Ha; [|exact Hb].
  destruct (virtual_row_in triv S d P x v W HP L) as [r [Hr [Eb Ev]]]. apply HF in Hr.
  rewrite Ha, virtual_bounds_active in Eb. destruct (storage_bounds _ _ _ _) as [[t lb] ub] eqn:E.
  injection Eb as Et El Eu. rewrite Et, El, Eu in Hr. apply (bounds_within_ext _ _ _ _ _ _ Ev) in Hr.
  pose proof (volume_step_in tol _ _ _ (d_days d) t lb ub _ Ht Hd Hs E Hr) as H. rewrite Hm in *. now apply H.
Qed.

Lemma licence_run_in tol triv S v mn m : wf_sys S -> licence_ok S v -> 0 <= tol ->
  forall a l b, licence_run tol triv S v (fun w => mn <= w <= m) a l b ->
  (forall d x, In (d, x) l -> d_minvol d v = mn /\ d_maxvol d v = Fin m /\ tol * d_days d < eps6) ->
  mn <= a <= m -> mn <= b <= m.
Proof.
  intros W L Ht a l b R. induction R as [a|a d x l b Ha Hd HS R IH|a w l b Hw R IH]; intros Hc Hb.
  - exact Hb.
  - destruct (Hc d x (or_introl eq_refl)) as [E1 [E2 E3]].
    apply IH; [intros d0 x0 H0; apply (Hc d0 x0); now right|]. rewrite <- E1.
    apply (virtual_step_in tol); auto. now rewrite E1, Ha.
  - apply IH; auto.
Qed.

Lemma charged_flow S d fl v : - (virtual_flow S fl v * d_days d) == charged S d fl v.
Proof. unfold charged. rewrite virtual_flow_sum. ring. Qed.

Lemma charged_step S d fl v : s_kind S v = KVirtual -> d_active d v = true ->
  (forall m, d_maxvol d v = Fin m -> eps6 <= m - d_minvol d v) ->
  - eps6 < vol_after S d fl v - (d_vol d v - charged S d fl v) < eps6.
Proof.
  intros Hk Ha Hw. unfold vol_after. rewrite Hk, Ha. unfold volume_after.
  pose proof (snap_close1 (d_vol d v + virtual_flow S fl v * d_days d) (d_maxvol d v) (d_minvol d v) Hw) as H.
  pose proof (charged_flow S d fl v). lra.
Qed.

Lemma charged_exact S d fl v : s_kind S v = KVirtual -> d_active d v = true ->
  eps6 <= qabs (d_vol d v - charged S d fl v - d_minvol d v) ->
  (forall m, d_maxvol d v = Fin m -> eps6 <= qabs (d_vol d v - charged S d fl v - m)) ->
  vol_after S d fl v == d_vol d v - charged S d fl v.
Proof.
  intros Hk Ha H1 H2. unfold vol_after. rewrite Hk, Ha. unfold volume_after. pose proof (charged_flow S d fl v) as E.
  assert (d_vol d v + virtual_flow S fl v * d_days d == d_vol d v - charged S d fl v) as E' by lra.
  rewrite snap_off; [exact E'| |].
  - rewrite E'. exact H1.
  - intros m Hm. rewrite E'. now apply H2.
Qed.

(** A period without a reset: what was charged is what the volume lost. *)
Lemma charges_run tol triv S v mn m : s_kind S v = KVirtual -> eps6 <= m - mn ->
  forall a l b, volume_run tol triv S v a l b ->
  (forall d x, In (d, x) l -> d_minvol d v = mn /\ d_maxvol d v = Fin m /\ d_active d v = true) ->
  let k := inject_Z (Z.of_nat (length l)) in
  - eps6 * k <= b - (a - charges triv S v l) <= eps6 * k.
Proof.
  intros Hk Hw a l b R. induction R as [a|a d x l b Ha Hd HS R IH]; intros Hc; cbn zeta.
  - unfold charges. cbn [map qsum length]. change (inject_Z (Z.of_nat 0)) with 0. lra.
  - destruct (Hc d x (or_introl eq_refl)) as [E1 [E2 E3]].
    specialize (IH (fun d0 x0 H0 => Hc d0 x0 (or_intror H0))). cbn zeta in IH. unfold charges in *. cbn [map qsum length fst snd].
    rewrite Nat2Z.inj_succ. unfold Z.succ. rewrite inject_Z_plus. change (inject_Z 1) with 1.
    pose proof (charged_step S d (committed triv S x) v Hk E3) as H. rewrite E1, E2 in H.
    specialize (H ltac:(intros m' E; injection E as <-; exact Hw)). rewrite Ha in H. lra.
Qed.

(** ** Rolling licences *)
Lemma committed_nonneg triv S d x n : wf_sys S -> solved triv S d x -> In n (s_nodes S) -> is_flow_node (s_kind S n) = true ->
  0 <= committed triv S x n.
Proof.
  intros W [P [HP [Hx _]]] Hn Hk. rewrite committed_flow by assumption. apply rsum_nonneg.
  - intros c Hc. apply Hx. unfold posed in HP.
    repeat match type of HP with (if ?b then _ else _) = _ => destruct b; [discriminate|] end.
    repeat match type of HP with bindR ?r _ = _ => destruct r; cbn [bindR] in HP; [|discriminate] end.
    injection HP as <-. exact Hc.
  - intros r _. unfold bq. destruct (carries S n r); lra.
Qed.

Lemma charged_nonneg triv S d x v : wf_sys S -> licence_ok S v -> solved triv S d x -> 0 < d_days d ->
  (forall f, In f (s_vfactors S v) -> 0 <= f) -> 0 <= charged S d (committed triv S x) v.
Proof.
  intros W L HS Hd Hf. unfold charged. apply Qmult_le_0_compat; [lra|]. apply qsum_map_nonneg. intros [m f] Hc. cbn [fst snd].
  apply Qmult_le_0_compat; [apply Hf; eapply in_combine_r; eauto|].
  destruct L as [_ [_ [_ [_ L]]]]. apply in_combine_l in Hc. destruct (L m Hc) as [H1 [H2 _]]. eapply committed_nonneg; eauto.
Qed.

(** The volume available limits what is charged. *)
Lemma charged_limit triv S d x v m : wf_sys S -> licence_ok S v -> solved triv S d x -> 0 < d_days d ->
  d_active d v = true -> d_minvol d v = 0 -> d_maxvol d v = Fin m -> 0 <= d_vol d v ->
  charged S d (committed triv S x) v <= d_vol d v.
Proof.
  intros W L [P [HP [_ HF]]] Hd Ha H0 Hm Hv.
  destruct (virtual_row_in triv S d P x v W HP L) as [r [Hr [Eb Ev]]]. apply HF in Hr.
  rewrite Ha, virtual_bounds_active in Eb. destruct (storage_bounds _ _ _ _) as [[t lb] ub] eqn:E.
  injection Eb as Et El Eu. unfold row_ok in Hr. rewrite Et, El, Eu in Hr. apply (bounds_ok_ext _ _ _ _ _ Ev) in Hr.
  pose proof (storage_bounds_sound _ _ _ _ _ _ _ _ Hd E ltac:(rewrite Hm; discriminate) Hr) as [B _].
  rewrite <- charged_flow. rewrite H0 in B.
  assert (qmax (d_vol d v - 0) 0 == d_vol d v) as Q1 by (unfold qmax; qif; lra). rewrite Q1 in B.
  assert (- d_vol d v / d_days d * d_days d == - d_vol d v) as E1 by (field; lra).
  revert B E1. generalize (- d_vol d v / d_days d) as a. intros a B E1. nra.
Qed.

Definition queue (r : rolling) : list Q := unroll (r_mem r) (r_ptr r).

Lemma qsum_unroll l p : qsum (unroll l p) == qsum l.
Proof. unfold unroll. rewrite qsum_app, Qplus_comm, <- qsum_app, firstn_skipn. reflexivity. Qed.

Record rinv (k : nat) (m e : Q) (r : rolling) : Prop := {
  ri_len : length (r_mem r) = (k - 1)%nat;
  ri_ptr : (r_ptr r < k - 1)%nat;
  ri_vol : 0 <= r_vol r <= m;
  ri_mem : forall u, In u (queue r) -> 0 <= u;
  ri_total : r_vol r + qsum (queue r) <= m + e }.

Lemma queue_head k m e r : rinv k m e r -> exists u q, queue r = u :: q /\ nth (r_ptr r) (r_mem r) 0 = u.
Proof.
  intros I. pose proof (ri_len _ _ _ _ I). pose proof (ri_ptr _ _ _ _ I). unfold queue, unroll.
  rewrite (skipn_cons_nth (r_mem r) 0 (r_ptr r)) by lia. cbn [app]. eauto.
Qed.

Lemma clamp_snap v m : 0 <= v -> 0 <= m ->
  let w := snap (clamp v (Fin m) 0) (Fin m) 0 in
  0 <= w <= m /\ w <= v + eps6 /\ (m <= v \/ v <= m - eps6 -> w <= v).
Proof.
  intros Hv Hm. cbn zeta. pose proof eps6_pos as He.
  assert (0 <= clamp v (Fin m) 0 <= m /\ clamp v (Fin m) 0 <= v /\ (v <= m -> clamp v (Fin m) 0 == v) /\ (m <= v -> clamp v (Fin m) 0 == m)) as [C1 [C2 [C3 C4]]].
  { unfold clamp. assert (qmax 0 v == v) as E by (unfold qmax; qif; lra).
    assert ((qmin m (qmax 0 v) == m /\ m <= qmax 0 v) \/ (qmin m (qmax 0 v) == qmax 0 v /\ qmax 0 v <= m)) as C by (unfold qmin; qif; lra).
    repeat split; try lra; intros; lra. }
  set (c := clamp v (Fin m) 0) in *. clearbody c.
  destruct (snap_cases c (Fin m) 0) as [[H1 H2]|[[m' [E [H1 [H2 H3]]]]|[[m' [E [H1 [H2 H3]]]]|[H1 [H2 H3]]]]].
  - rewrite H2. repeat split; try lra; intros; lra.
  - rewrite H3. repeat split; try lra; intros; lra.
  - injection E as <-. rewrite H3. apply qabs_lt in H1. split; [lra|split; [lra|]]. intros [A|A]; [lra|]. specialize (C3 ltac:(lra)). lra.
  - rewrite H3. repeat split; try lra; intros; lra.
Qed.

Lemma rolling_step k m e delta r flow days : (2 <= k)%nat -> 0 <= delta -> rinv k m e r ->
  0 <= - flow * days -> - flow * days <= r_vol r ->
  (delta == eps6 \/ let v := r_vol r + flow * days + nth (r_ptr r) (r_mem r) 0 in m <= v \/ v <= m - eps6) ->
  let r' := rolling_after k true r flow days (Fin m) 0 in
  rinv k m (e + delta) r' /\ queue r' = tl (queue r) ++ [- flow * days].
Proof.
  intros Hk Hdel I Hu0 Hu Hs. cbn zeta. pose proof (ri_len _ _ _ _ I) as Hlen. pose proof (ri_ptr _ _ _ _ I) as Hptr.
  destruct (queue_head k m e r I) as [u [q [Hq Hh]]].
  assert (queue (rolling_after k true r flow days (Fin m) 0) = tl (queue r) ++ [- flow * days]) as Q1.
  { unfold queue, rolling_after. cbn [r_mem r_ptr]. rewrite <- Hlen. apply unroll_step. lia. }
  split; [|exact Q1]. pose proof (ri_vol _ _ _ _ I) as Hv. pose proof (ri_total _ _ _ _ I) as Htot.
  pose proof (ri_mem _ _ _ _ I) as Hmem. rewrite Hq in *. cbn [tl] in Q1.
  assert (0 <= u) as Hu1 by (apply Hmem; now left).
  set (v := r_vol r + flow * days + u) in *.
  assert (0 <= v) as Hv0 by (unfold v; lra).
  pose proof (clamp_snap v m Hv0 ltac:(lra)) as HC. cbn zeta in HC.
  assert (r_vol (rolling_after k true r flow days (Fin m) 0) = snap (clamp v (Fin m) 0) (Fin m) 0) as Ev.
  { cbn [rolling_after r_vol]. unfold volume_after. now rewrite Hh. }
  set (w := snap (clamp v (Fin m) 0) (Fin m) 0) in *. destruct HC as [W1 [W2 W3]].
  constructor.
  - cbn [rolling_after r_mem]. now rewrite upd_length.
  - cbn [rolling_after r_ptr]. apply Nat.mod_upper_bound. lia.
  - rewrite Ev. exact W1.
  - rewrite Q1. intros z Hz. apply in_app_iff in Hz as [Hz|[<-|[]]]; [apply Hmem; now right|exact Hu0].
  - rewrite Ev, Q1, qsum_app. cbn [qsum] in *.
    assert (w <= v + delta) as W4. { destruct Hs as [Hs|Hs]; [lra|]. rewrite Hh in Hs. fold v in Hs. apply W3 in Hs. lra. }
    unfold v in W4. lra.
Qed.

Lemma rolling_run_split triv S n k m l1 : forall l2 r r', rolling_run triv S n k m r (l1 ++ l2) r' ->
  exists r1, rolling_run triv S n k m r l1 r1 /\ rolling_run triv S n k m r1 l2 r'.
Proof.
  induction l1 as [|[d x] l1 IH]; intros l2 r r' H; cbn [app] in H.
  - exists r. split; [constructor|exact H].
  - inversion H; subst. destruct (IH l2 _ r' ltac:(eassumption)) as [r1 [A B]].
    exists r1. split; [constructor; assumption|exact B].
Qed.

Lemma unsnapped_split S triv n k m l1 : forall l2 r, unsnapped_run S triv n k m r (l1 ++ l2) -> unsnapped_run S triv n k m r l1.
Proof.
  induction l1 as [|[d x] l1 IH]; intros l2 r H; [constructor|]. cbn [app] in H. inversion H; subst. constructor; eauto.
Qed.

Definition used (triv : bool) (S : sys) (n : nat) (l : list (data * (nat -> Q))) : list Q :=
  map (fun dx => - virtual_flow S (committed triv S (snd dx)) n * d_days (fst dx)) l.

Lemma used_charges triv S n l : qsum (used triv S n l) == charges triv S n l.
Proof.
  unfold used, charges. apply qsum_map_ext. intros [d x] _. cbn [fst snd].
  rewrite <- charged_flow. ring.
Qed.

Lemma rolling_run_inv triv S n k m delta : wf_sys S -> licence_ok S n -> (2 <= k)%nat -> 0 <= delta ->
  (forall f, In f (s_vfactors S n) -> 0 <= f) ->
  forall r l r', rolling_run triv S n k m r l r' ->
  (delta == eps6 \/ unsnapped_run S triv n k m r l) ->
  forall e, rinv k m e r ->
  rinv k m (e + delta * inject_Z (Z.of_nat (length l))) r' /\
  queue r' = lastn (k - 1) (queue r ++ used triv S n l) /\ (forall u, In u (used triv S n l) -> 0 <= u).
Proof.
  intros W L Hk Hdel Hf r l r' R. induction R as [r|r d x l r' H1 H2 H3 H4 H5 H6 R IH]; intros Hs e I.
  - unfold used. cbn [map length]. change (inject_Z (Z.of_nat 0)) with 0. rewrite app_nil_r. split; [|split; [|intros u []]].
    + destruct I. constructor; auto. lra.
    + symmetry. apply lastn_all. unfold queue. destruct I. rewrite unroll_length; lia.
  - pose proof (charged_nonneg triv S d x n W L H6 H5 Hf) as C1.
    pose proof (charged_limit triv S d x n m W L H6 H5 H4 H2 H3 ltac:(rewrite H1; apply I)) as C2.
    rewrite <- charged_flow in C1, C2. rewrite H1 in C2.
    assert (- virtual_flow S (committed triv S x) n * d_days d == - (virtual_flow S (committed triv S x) n * d_days d)) as E0 by ring.
    destruct (rolling_step k m e delta r (virtual_flow S (committed triv S x) n) (d_days d) Hk Hdel I ltac:(lra) ltac:(lra)) as [I' Q1].
    { destruct Hs as [Hs|Hs]; [now left|]. right. inversion Hs; subst. assumption. }
    destruct (IH ltac:(destruct Hs as [Hs|Hs]; [now left|right; inversion Hs; subst; assumption]) _ I') as [J1 [J2 J3]].
    split; [|split].
    + destruct J1. constructor; auto. cbn [length]. rewrite Nat2Z.inj_succ. unfold Z.succ. rewrite inject_Z_plus. change (inject_Z 1) with 1. lra.
    + rewrite J2, Q1. unfold used. cbn [map fst snd]. destruct (queue_head k m e r I) as [u [q [Hq _]]].
      assert (length (queue r) = (k - 1)%nat) as Hl by (unfold queue; destruct I; rewrite unroll_length; lia).
      rewrite Hq in *. cbn [tl app]. rewrite <- app_assoc. cbn [app]. unfold lastn. cbn [length] in *. rewrite !app_length. cbn [length].
      match goal with |- skipn ?a _ = skipn ?b _ => replace b with (Datatypes.S a) by lia end. reflexivity.
    + unfold used. cbn [map fst snd]. intros u [<-|Hu]; [lra|apply J3; exact Hu].
Qed.

Lemma qsum_suffix l : forall j, (forall u, In u l -> 0 <= u) -> qsum (skipn j l) <= qsum l.
Proof.
  induction l as [|a l IH]; intros j H; [rewrite skipn_nil; lra|]. destruct j as [|j]; [rewrite skipn_O; lra|].
  cbn [skipn qsum]. specialize (IH j (fun u Hu => H u (or_intror Hu))). specialize (H a (or_introl eq_refl)). lra.
Qed.

Lemma window_in_queue (h w : list Q) k : (length w <= k)%nat -> (k <= length (h ++ w))%nat -> (forall u, In u (h ++ w) -> 0 <= u) ->
  qsum w <= qsum (lastn k (h ++ w)).
Proof.
  intros Hk Hl Hn. unfold lastn. rewrite skipn_app. rewrite app_length in *.
  replace (length h + length w - k - length h)%nat with 0%nat by lia. rewrite skipn_O, qsum_app.
  assert (0 <= qsum (skipn (length h + length w - k) h)); [|lra].
  apply qsum_nonneg. intros u Hu. apply Hn. apply in_app_iff. left. revert Hu. generalize (length h + length w - k)%nat as j. clear.
  induction h as [|a h IH]; intros j Hu; [rewrite skipn_nil in Hu; exact Hu|]. destruct j; [exact Hu|]. right. cbn [skipn] in Hu. eauto.
Qed.

Lemma reset_inv i n m r0 : (i_max i = MaxNumber m \/ i_max i = MaxConstant m) -> ~ m == 0 -> (2 <= n)%nat ->
  rolling_reset i n = Some r0 -> 0 <= r_vol r0 <= m -> rinv n m 0 r0.
Proof.
  intros Hm Hm0 Hn HR Hv. unfold rolling_reset in HR. destruct (initial_utilisation i n) as [u|] eqn:EU; [|discriminate].
  destruct (get_initial_volume i) as [v|] eqn:EV; [|discriminate]. injection HR as <-. cbn [r_vol] in Hv.
  assert (1 <= inject_Z (Z.of_nat n - 1)) as Hk. { change 1 with (inject_Z 1). rewrite <- Zle_Qle. lia. }
  assert (u * inject_Z (Z.of_nat n - 1) == m - v /\ 0 <= u) as [Eu Hu].
  { unfold initial_utilisation in EU. rewrite EV in EU. set (k := inject_Z (Z.of_nat n - 1)) in *. clearbody k.
    destruct (get_initial_pc i) as [[pc|]|] eqn:EP; try discriminate.
    assert (pc * m == v) as E.
    { unfold get_initial_volume in EV. unfold get_initial_pc in EP.
      destruct Hm as [Hm|Hm]; rewrite Hm in *;
        (destruct (i_pc i) as [p|]; [injection EV as <-; injection EP as <-; reflexivity|];
         destruct (i_volume i) as [w|]; [|discriminate]; injection EV as ->; unfold ratio in EP; destruct (qeqbP m 0); [contradiction|];
         injection EP as <-; field; exact Hm0). }
    assert (u * k == m - v) as E1.
    { destruct (qeqbP pc 0) as [Z|NZ].
      - destruct Hm as [Hm|Hm]; rewrite Hm in EU; [|discriminate]. injection EU as <-. rewrite Z in E.
        assert (m / k * k == m) as -> by (field; lra). lra.
      - injection EU as <-. assert (v / pc == m) as E2 by (rewrite <- E; field; exact NZ).
        assert ((v / pc - v) / k * k == v / pc - v) as -> by (field; lra). lra. }
    split; [exact E1|]. destruct (Qlt_le_dec u 0) as [C|C]; [|exact C].
    assert (0 <= - u * (k - 1)) by (apply Qmult_le_0_compat; lra). assert (- u * (k - 1) == - (u * k) + u) by ring. lra. }
  assert (forall j, qsum (repeat u j) == inject_Z (Z.of_nat j) * u) as Hrep.
  { induction j as [|j IH]; [cbn; ring|]. cbn [repeat qsum]. rewrite IH, Nat2Z.inj_succ. unfold Z.succ. rewrite inject_Z_plus. change (inject_Z 1) with 1. ring. }
  constructor; cbn [r_mem r_ptr r_vol]; unfold queue; cbn [r_mem r_ptr].
  - apply repeat_length.
  - lia.
  - exact Hv.
  - unfold unroll. rewrite firstn_O, skipn_O, app_nil_r. intros z Hz. apply repeat_spec in Hz. now subst.
  - rewrite qsum_unroll, Hrep. replace (Z.of_nat (n - 1)) with (Z.of_nat n - 1)%Z by lia. lra.
Qed.

Lemma window_cap triv S n k m delta i r0 a w b r : wf_sys S -> licence_ok S n -> 0 <= delta ->
  (forall f, In f (s_vfactors S n) -> 0 <= f) ->
  (i_max i = MaxNumber m \/ i_max i = MaxConstant m) -> ~ m == 0 -> (2 <= k)%nat ->
  rolling_reset i k = Some r0 -> 0 <= r_vol r0 <= m ->
  rolling_run triv S n k m r0 (a ++ w ++ b) r -> (length w <= k)%nat ->
  (delta == eps6 \/ unsnapped_run S triv n k m r0 (a ++ w ++ b)) ->
  charges triv S n w <= m + delta * inject_Z (Z.of_nat (length (a ++ w))).
Proof.
  intros W L Hdel Hf Hm Hm0 Hk HR Hv R Hlen Hs. pose proof (reset_inv i k m r0 Hm Hm0 Hk HR Hv) as I0.
  assert (0 <= delta * inject_Z (Z.of_nat (length (a ++ w)))) as Hp.
  { apply Qmult_le_0_compat; [exact Hdel|]. change 0 with (inject_Z 0). rewrite <- Zle_Qle. lia. }
  (destruct w as [|dx0 w0] eqn:Ew; [cbn [charges map qsum]; unfold charges; cbn [map qsum]; lra|]).
  rewrite <- Ew in *. assert (w <> []) as Hne by (rewrite Ew; discriminate). clear Ew dx0 w0.
  destruct (exists_last Hne) as [w1 [[d x] ->]].
  replace (a ++ (w1 ++ [(d, x)]) ++ b) with ((a ++ w1) ++ (d, x) :: b) in * by (now rewrite <- !app_assoc).
  destruct (rolling_run_split _ _ _ _ _ _ _ _ _ R) as [r1 [R1 R2]].
  destruct (rolling_run_inv triv S n k m delta W L Hk Hdel Hf _ _ _ R1
              ltac:(destruct Hs as [Hs|Hs]; [now left|right; eapply unsnapped_split; exact Hs]) 0 I0) as [I1 [Q1 N1]].
  inversion R2 as [|rr dd xx ll rr' E1 E2 E3 E4 E5 E6 E7]; subst.
  assert (charged S d (committed triv S x) n <= r_vol r1) as C.
  { rewrite <- E1. eapply charged_limit; eauto. rewrite E1. apply I1. }
  assert (charges triv S n w1 <= qsum (queue r1)) as C1.
  { rewrite <- used_charges, Q1. assert (used triv S n (a ++ w1) = used triv S n a ++ used triv S n w1) as E by (unfold used; apply map_app).
    rewrite E, app_assoc. apply window_in_queue.
    - unfold used. rewrite map_length. rewrite app_length in Hlen. cbn in Hlen. lia.
    - rewrite app_length, app_length. unfold queue. destruct I0. rewrite unroll_length; lia.
    - intros u Hu. rewrite <- app_assoc, <- E in Hu. apply in_app_iff in Hu as [Hu|Hu]; [destruct I0; auto|auto]. }
  unfold charges in *. rewrite map_app, qsum_app. cbn [map qsum fst snd].
  destruct I1 as [_ _ _ _ T]. rewrite app_assoc, app_length. cbn [length]. rewrite Nat2Z.inj_add, inject_Z_plus. cbn [Z.of_nat]. change (inject_Z (Z.pos (Pos.of_succ_nat 0))) with 1.
  lra.
Qed.

Lemma mapM_ext {A B} (f g : A -> result B) l : (forall a, In a l -> f a = g a) -> mapM f l = mapM g l.
Proof.
  induction l as [|a l IH]; intros H; [reflexivity|]. cbn [mapM]. rewrite (H a (or_introl eq_refl)), IH; [reflexivity|].
  intros b Hb. apply H. now right.
Qed.

Lemma virtual_bounds_inactive vol mn mx days : bounds_differ mn mx -> virtual_bounds false vol mn mx days = (FR, NInf, PInf).
Proof.
  intros H. unfold virtual_bounds. destruct mx as [|m|]; try reflexivity.
  destruct (qeqbP m mn) as [E|E]; [exfalso; eapply H; eauto|reflexivity].
Qed.

Lemma relicensed_posed triv S d v vol mn mx : s_kind S v = KVirtual -> d_active d v = false ->
  bounds_differ (d_minvol d v) (d_maxvol d v) -> bounds_differ mn mx ->
  posed triv S (relicensed d v vol mn mx) = posed triv S d.
Proof.
  intros Hk Ha H1 H2. unfold posed.
  assert (mapM (storage_row S (relicensed d v vol mn mx) (routes triv S)) (of_kind S is_storage) = mapM (storage_row S d (routes triv S)) (of_kind S is_storage)) as E1.
  { apply mapM_ext. intros n Hn. apply filter_In in Hn as [_ Hn].
    assert (Nat.eqb n v = false) as E by (apply Nat.eqb_neq; intros ->; rewrite Hk in Hn; discriminate).
    unfold storage_row. cbn [relicensed d_vol d_minvol d_maxvol d_days]. now rewrite E. }
  assert (mapM (virtual_row S (relicensed d v vol mn mx) (routes triv S)) (of_kind S is_virtual) = mapM (virtual_row S d (routes triv S)) (of_kind S is_virtual)) as E2.
  { apply mapM_ext. intros n _. unfold virtual_row. cbn [relicensed d_vol d_minvol d_maxvol d_days d_active].
    destruct (Nat.eqb_spec n v) as [->|E]; [|reflexivity]. rewrite Ha, !virtual_bounds_inactive by assumption. reflexivity. }
  rewrite E1, E2. reflexivity.
Qed.
