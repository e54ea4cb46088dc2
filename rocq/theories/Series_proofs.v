(** Proofs about time series recorders and percentiles. *)
From Coq Require Import Sorting.Permutation Sorting.Sorted Qround.
From Verif Require Import Base Ring LP_model Sorting Aggregate_spec Aggregate_proofs Scenario_model ScenarioParams_model Recorders_model Series_model Series_spec.
Local Open Scope Q_scope.
Local Open Scope list_scope.

Lemma sequence_nth {A} (l : list (option A)) : forall m i d e, sequence l = Some m -> (i < length l)%nat -> nth i l d = Some (nth i m e).
Proof.
  induction l as [|x l IH]; intros m i d e H Hi; [cbn in Hi; lia|]. cbn [sequence] in H. destruct x as [x|]; [|discriminate].
  destruct (sequence l) as [m'|] eqn:E; [|discriminate]. injection H as <-. destruct i as [|i]; [reflexivity|]. cbn [nth]. apply IH; [reflexivity|cbn in Hi; lia].
Qed.
Lemma sequence_length {A} (l : list (option A)) : forall m, sequence l = Some m -> length m = length l.
Proof.
  induction l as [|x l IH]; intros m H; cbn [sequence] in H; [now injection H as <-|]. destruct x as [x|]; [|discriminate].
  destruct (sequence l) as [m'|]; [|discriminate]. injection H as <-. cbn. now rewrite (IH m').
Qed.
Lemma sequence_all {A} (l : list (option A)) : (forall i, (i < length l)%nat -> exists x, nth i l None = Some x) -> exists m, sequence l = Some m.
Proof.
  induction l as [|x l IH]; intros H; [eexists; reflexivity|]. cbn [sequence]. destruct (H 0%nat ltac:(cbn; lia)) as [y E]. cbn in E. subst x.
  destruct IH as [m ->]; [|eexists; reflexivity]. intros i Hi. exact (H (S i) ltac:(cbn; lia)).
Qed.

(** ** The rows of a run *)
Lemma recorded_spec k run : forall m m' r, recorded k m run = Some m' -> (r < length m)%nat -> (forall t now, In (t, now) run -> (t < length m)%nat) ->
  length m' = length m /\
  match last_for r run with
  | Some now => sequence (map (entry k) now) = Some (nth r m' [])
  | None => nth r m' [] = nth r m []
  end.
Proof.
  induction run as [|[t now] run IH]; intros m m' r H Hr B; cbn [recorded] in H; [injection H as <-; split; reflexivity|].
  unfold after in H. destruct (sequence (map (entry k) now)) as [row|] eqn:E; [|discriminate]. cbn [option_map bindo] in H.
  destruct (IH (upd m t row) m' r H) as [L K].
  { now rewrite upd_length. }
  { intros t' now' H'. rewrite upd_length. apply (B t' now'). now right. }
  rewrite upd_length in L. split; [exact L|]. cbn [last_for]. destruct (last_for r run); [exact K|].
  rewrite K, nth_upd by (apply (B t now); now left). destruct (Nat.eqb_spec r t) as [->|N].
  - now rewrite Nat.eqb_refl.
  - destruct (Nat.eqb_spec t r); [congruence|reflexivity].
Qed.

(** ** Percentiles *)
Lemma floor_bounds h : 0 <= h -> inject_Z (Z.of_nat (Z.to_nat (Qfloor h))) <= h /\ h < inject_Z (Z.of_nat (Z.to_nat (Qfloor h))) + 1.
Proof.
  intros H. assert (0 <= Qfloor h)%Z as F by (rewrite <- (Qfloor_Z 0); now apply Qfloor_resp_le). rewrite Z2Nat.id by exact F. split; [apply Qfloor_le|].
  pose proof (Qlt_floor h) as L. rewrite inject_Z_plus in L. exact L.
Qed.

Lemma np_percentile_some l p v : np_percentile l p = Some v -> l <> [] /\ 0 <= p <= 100.
Proof.
  unfold np_percentile. destruct (qltbP p 0) as [|A]; [discriminate|]. destruct (qltbP 100 p) as [|B]; [discriminate|]. cbn [orb]. destruct l; [discriminate|].
  intros _. split; [discriminate|lra].
Qed.
Lemma np_percentile_total l p : l <> [] -> 0 <= p <= 100 -> exists v, np_percentile l p = Some v.
Proof.
  intros N H. unfold np_percentile. destruct (qltbP p 0) as [|A]; [lra|]. destruct (qltbP 100 p) as [|B]; [lra|]. cbn [orb].
  destruct l; [contradiction|]. eexists. reflexivity.
Qed.

Lemma np_percentile_spec l p v : np_percentile l p = Some v -> is_percentile l p v.
Proof.
  intros H. destruct (np_percentile_some l p v H) as [N P]. unfold np_percentile in H.
  destruct (qltbP p 0) as [|A]; [lra|]. destruct (qltbP 100 p) as [|B]; [lra|]. cbn [orb] in H.
  destruct l as [|x0 l0] eqn:EL; [contradiction|]. rewrite <- EL in *. clear EL x0 l0.
  apply (f_equal (fun o => match o with Some x => x | None => 0 end)) in H. cbv beta iota zeta in H.
  pose proof (isort_perm qleb l) as Pm. pose proof (Permutation_length Pm) as Len.
  pose proof (isort_sorted qleb qleb_total qleb_trans l) as So. rewrite <- Len in H.
  set (h := inject_Z (Z.of_nat (length l - 1)) * (p / 100)) in *.
  assert (0 < length l)%nat as Pos by (destruct l; [contradiction|cbn; lia]).
  assert (0 <= inject_Z (Z.of_nat (length l - 1))) as Hn by (change 0 with (inject_Z 0); rewrite <- Zle_Qle; lia).
  assert (0 <= p / 100) as Hp1 by (apply Qle_shift_div_l; lra). assert (p / 100 <= 1) as Hp2 by (apply Qle_shift_div_r; lra).
  assert (0 <= h) as H0 by (unfold h; nra). assert (h <= inject_Z (Z.of_nat (length l - 1))) as H1 by (unfold h; nra).
  destruct (floor_bounds h H0) as [F1 F2]. set (k := Z.to_nat (Qfloor h)) in *.
  assert (k <= length l - 1)%nat as Kb.
  { assert (inject_Z (Z.of_nat k) <= inject_Z (Z.of_nat (length l - 1))) as T by lra. rewrite <- Zle_Qle in T. lia. }
  assert (h == inject_Z (Z.of_nat (length l - 1)) * p / 100) as Eh by (unfold h; field).
  exists k, (nth k (isort qleb l) 0), (nth (Nat.min (k + 1) (length l - 1)) (isort qleb l) 0). cbv zeta.
  split; [rewrite <- Eh; exact F1|]. split; [rewrite <- Eh; exact F2|].
  split; [|split].
  - apply (has_rank_perm (isort qleb l)); [now symmetry|]. apply sorted_rank; [exact So|lia].
  - apply (has_rank_perm (isort qleb l)); [now symmetry|]. apply sorted_rank; [exact So|lia].
  - rewrite <- Eh, <- H. ring.
Qed.

Lemma rank_le l j k v w : has_rank l j v -> has_rank l k w -> (j <= k)%nat -> v <= w.
Proof.
  intros (_ & A & B) (_ & C & D) L. destruct (Qlt_le_dec w v) as [H|H]; [|exact H]. exfalso.
  assert (countb (fun x => qleb x w) l <= countb (fun x => qltb x v) l)%nat as K.
  { apply countb_le. intros x _ Hx. destruct (qlebP x w); [|discriminate]. destruct (qltbP x v); [reflexivity|lra]. }
  lia.
Qed.

Lemma same_floor h j k : inject_Z (Z.of_nat j) <= h -> h < inject_Z (Z.of_nat j) + 1 -> inject_Z (Z.of_nat k) <= h -> h < inject_Z (Z.of_nat k) + 1 -> j = k.
Proof.
  intros A B C D. assert (inject_Z (Z.of_nat j) < inject_Z (Z.of_nat k + 1)) as E by (rewrite inject_Z_plus; change (inject_Z 1) with 1; lra).
  assert (inject_Z (Z.of_nat k) < inject_Z (Z.of_nat j + 1)) as F by (rewrite inject_Z_plus; change (inject_Z 1) with 1; lra).
  rewrite <- Zlt_Qlt in E, F. lia.
Qed.

Lemma percentile_unique l m p v w : Permutation l m -> is_percentile l p v -> is_percentile m p w -> v == w.
Proof.
  intros P (k & a & b & H1 & H2 & Ra & Rb & ->) (k' & a' & b' & H1' & H2' & Ra' & Rb' & ->). rewrite <- (Permutation_length P) in *.
  pose proof (same_floor _ _ _ H1 H2 H1' H2') as <-.
  assert (a == a') as -> by (apply (has_rank_unique l k); [exact Ra|apply (has_rank_perm m); [now symmetry|exact Ra']]).
  assert (b == b') as -> by (eapply has_rank_unique; [exact Rb|apply (has_rank_perm m); [now symmetry|exact Rb']]).
  reflexivity.
Qed.

Lemma rank_bound l k v : has_rank l k v -> (k < length l)%nat.
Proof. intros (_ & _ & D). pose proof (countb_bound (fun x => qleb x v) l). lia. Qed.

Lemma lerp a b g : 0 <= g <= 1 -> a <= b -> a <= a + g * (b - a) /\ a + g * (b - a) <= b.
Proof.
  intros [G0 G1] H. assert (0 <= g * (b - a)) as A by (apply Qmult_le_0_compat; lra).
  assert (0 <= (1 - g) * (b - a)) as B by (apply Qmult_le_0_compat; lra). split; lra.
Qed.
Lemma lerp_mono a b g g' : g <= g' -> a <= b -> a + g * (b - a) <= a + g' * (b - a).
Proof. intros G H. assert (0 <= (g' - g) * (b - a)) as A by (apply Qmult_le_0_compat; lra). lra. Qed.

Lemma percentile_monotone l p q v w : p <= q -> is_percentile l p v -> is_percentile l q w -> v <= w.
Proof.
  intros Hpq (k & a & b & H1 & H2 & Ra & Rb & ->) (k' & a' & b' & H1' & H2' & Ra' & Rb' & ->).
  set (n1 := inject_Z (Z.of_nat (length l - 1))) in *.
  assert (0 <= n1) as Hn by (unfold n1; change 0 with (inject_Z 0); rewrite <- Zle_Qle; lia).
  assert (n1 * p / 100 <= n1 * q / 100) as Hh.
  { apply Qmult_le_compat_r; [|discriminate]. rewrite (Qmult_comm n1 p), (Qmult_comm n1 q). apply Qmult_le_compat_r; assumption. }
  set (h := n1 * p / 100) in *. set (h' := n1 * q / 100) in *. clearbody h h' n1.
  destruct (Nat.lt_trichotomy k k') as [L|[<-|L]].
  - pose proof (rank_bound _ _ _ Ra). pose proof (rank_bound _ _ _ Ra').
    pose proof (rank_le l _ _ _ _ Rb Ra' ltac:(lia)) as X. pose proof (rank_le l _ _ _ _ Ra' Rb' ltac:(lia)) as Y.
    pose proof (rank_le l _ _ _ _ Ra Rb ltac:(lia)) as Z.
    destruct (lerp a b (h - inject_Z (Z.of_nat k)) ltac:(split; lra) Z) as [_ U]. destruct (lerp a' b' (h' - inject_Z (Z.of_nat k')) ltac:(split; lra) Y) as [W _]. lra.
  - assert (a == a') as E1 by (eapply has_rank_unique; eassumption). assert (b == b') as E2 by (eapply has_rank_unique; eassumption).
    assert (k < length l)%nat as KL by (exact (rank_bound _ _ _ Ra)).
    pose proof (rank_le l _ _ _ _ Ra Rb ltac:(lia)) as Z. rewrite <- E1, <- E2. apply lerp_mono; [lra|exact Z].
  - exfalso. assert (inject_Z (Z.of_nat k' + 1) <= inject_Z (Z.of_nat k)) as E by (rewrite <- Zle_Qle; lia). rewrite inject_Z_plus in E. change (inject_Z 1) with 1 in E. lra.
Qed.

(** Values on either side of a percentile. *)
Lemma percentile_between l p v : is_percentile l p v -> exists k a b, let h := inject_Z (Z.of_nat (length l - 1)) * p / 100 in
    inject_Z (Z.of_nat k) <= h /\ h < inject_Z (Z.of_nat k) + 1 /\ has_rank l k a /\ has_rank l (Nat.min (k + 1) (length l - 1)) b /\ a <= v /\ v <= b.
Proof.
  intros (k & a & b & H1 & H2 & Ra & Rb & E). exists k, a, b. cbv zeta. do 4 (split; [assumption|]).
  assert (k < length l)%nat as KL by (exact (rank_bound _ _ _ Ra)).
  pose proof (rank_le l _ _ _ _ Ra Rb ltac:(lia)) as Z. rewrite E. apply lerp; [split; lra|exact Z].
Qed.

Lemma count_split l v : (countb (fun x => qltb x v) l + countb (fun x => qleb v x) l = length l)%nat.
Proof.
  induction l as [|x l IH]; [reflexivity|]. unfold countb in *. cbn [filter length]. destruct (qltbP x v), (qlebP v x); cbn [length]; try lra; lia.
Qed.

Lemma nth_repeat_lt {A} (x d : A) n i : (i < n)%nat -> nth i (repeat x n) d = x.
Proof. revert i. induction n as [|n IH]; intros i H; [lia|]. destruct i as [|i]; [reflexivity|]. cbn. apply IH. lia. Qed.
Lemma inject_nat_le j k : (j <= k)%nat -> inject_Z (Z.of_nat j) <= inject_Z (Z.of_nat k).
Proof. intros H. rewrite <- Zle_Qle. lia. Qed.
Lemma inject_nat_plus j k : inject_Z (Z.of_nat (j + k)) == inject_Z (Z.of_nat j) + inject_Z (Z.of_nat k).
Proof. rewrite Nat2Z.inj_add, inject_Z_plus. reflexivity. Qed.
