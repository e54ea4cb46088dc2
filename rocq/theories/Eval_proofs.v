(** Lemmas for the evaluation of parameters. *)
From Coq Require Import Sorting.Permutation.
From Verif Require Import Base LP_model Ring Scenario_model Scenario_proofs ScenarioParams_model ScenarioParams_proofs Paths
  Graph_model Graph_spec Graph_proofs Graph_props Aggregate_model Aggregate_spec Aggregate_proofs
  ControlCurves_model ControlCurves_spec ControlCurves_proofs Eval_model Eval_spec.
Local Open Scope Q_scope.
Local Open Scope list_scope.

Lemma nth_error_ext {A} (l m : list A) : (forall i, nth_error l i = nth_error m i) -> l = m.
Proof.
  revert m. induction l as [|x l IH]; intros [|y m] H; [reflexivity|now specialize (H 0%nat)|now specialize (H 0%nat)|].
  pose proof (H 0%nat) as E. cbn in E. injection E as ->. f_equal. apply IH. intros i. exact (H (S i)).
Qed.

Lemma Forall2_len {A B} (R : A -> B -> Prop) l m : Forall2 R l m -> length l = length m.
Proof. induction 1; cbn; congruence. Qed.

Lemma each_spec n f out : each n f = Some out <-> length out = n /\ forall i, (i < n)%nat -> f i = Some (nth i out no_entry).
Proof.
  unfold each. split.
  - intros H. pose proof (sequence_length _ _ H) as L. rewrite map_length, seq_length in L. split; [exact L|].
    intros i Hi. pose proof (sequence_nth _ _ _ i H) as E. rewrite (nth_error_nth' (seq 0 n) 0%nat) in E by now rewrite seq_length.
    rewrite seq_nth in E by exact Hi. cbn in E. rewrite (nth_error_nth' out no_entry) in E by lia. now symmetry.
  - intros [L H]. apply sequence_spec. apply nth_error_ext. intros i. rewrite !nth_error_map.
    destruct (Nat.lt_ge_cases i n) as [Hi|Hi].
    + rewrite (nth_error_nth' (seq 0 n) 0%nat) by now rewrite seq_length. rewrite seq_nth by exact Hi. cbn.
      rewrite (nth_error_nth' out no_entry) by lia. cbn. f_equal. now apply H.
    + rewrite (proj2 (nth_error_None (seq 0 n) i)) by now rewrite seq_length.
      now rewrite (proj2 (nth_error_None out i)) by lia.
Qed.

Lemma each_total n f : (forall i, (i < n)%nat -> exists e, f i = Some e) -> exists out, each n f = Some out.
Proof.
  intros H. apply sequence_total. apply Forall_forall. intros i Hi. apply in_seq in Hi. apply H. lia.
Qed.

(** ** Same numbers *)
Lemma same_refl e : same e e.
Proof. split; reflexivity. Qed.
Lemma same_sym e e' : same e e' -> same e' e.
Proof. intros [H K]. split; [now symmetry|now symmetry]. Qed.
Lemma same_trans e e' e'' : same e e' -> same e' e'' -> same e e''.
Proof. intros [H K] [H' K']. split; [now rewrite H|congruence]. Qed.

Lemma same_fst es es' : Forall2 same es es' -> Forall2 Qeq (map fst es) (map fst es').
Proof. induction 1 as [|e e' es es' [H _] _ IH]; constructor; auto. Qed.
Lemma same_snd es es' : Forall2 same es es' -> map snd es = map snd es'.
Proof. induction 1 as [|e e' es es' [_ H] _ IH]; cbn; congruence. Qed.

Lemma Forall2_Qeq_nth l l' : Forall2 Qeq l l' -> forall i v, nth_error l i = Some v -> exists v', nth_error l' i = Some v' /\ v == v'.
Proof.
  induction 1 as [|x x' l l' H _ IH]; intros [|i] v E; try discriminate; cbn in *.
  - injection E as <-. eauto.
  - now apply IH.
Qed.
Lemma Forall2_Qeq_sym l l' : Forall2 Qeq l l' -> Forall2 Qeq l' l.
Proof. induction 1; constructor; auto. now symmetry. Qed.
Lemma Forall2_Qeq_In l l' x : Forall2 Qeq l l' -> In x l -> exists x', In x' l' /\ x == x'.
Proof.
  intros H Hx. apply In_nth_error in Hx as [i Hi]. destruct (Forall2_Qeq_nth l l' H i x Hi) as [x' [E Hx]].
  exists x'. split; [now apply nth_error_In with i|exact Hx].
Qed.
Lemma Forall2_Qeq_nth0 l l' i : Forall2 Qeq l l' -> nth i l 0 == nth i l' 0.
Proof. intros H. revert i. induction H; intros [|i]; cbn; auto; reflexivity. Qed.

Lemma qsum_Qeq l l' : Forall2 Qeq l l' -> qsum l == qsum l'.
Proof. induction 1 as [|x x' l l' H _ IH]; cbn; [reflexivity|now rewrite H, IH]. Qed.
Lemma qprod_Qeq l l' : Forall2 Qeq l l' -> qprod l == qprod l'.
Proof. induction 1 as [|x x' l l' H _ IH]; cbn; [reflexivity|now rewrite H, IH]. Qed.

Lemma countb_Qeq p q l l' : Forall2 Qeq l l' -> (forall x x', x == x' -> p x = q x') -> countb p l = countb q l'.
Proof.
  intros H K. induction H as [|x x' l l' Hx _ IH]; [reflexivity|]. unfold countb in *. cbn [filter]. rewrite (K x x' Hx).
  destruct (q x'); cbn [length]; lia.
Qed.

Lemma has_rank_Qeq l l' k v : Forall2 Qeq l l' -> has_rank l k v -> exists v', has_rank l' k v' /\ v == v'.
Proof.
  intros H [Hin [H1 H2]]. destruct (Forall2_Qeq_In l l' v H Hin) as [v' [Hv' E]]. exists v'. split; [|exact E].
  split; [exact Hv'|]. split.
  - rewrite <- (countb_Qeq (fun x => qltb x v) (fun x => qltb x v') l l' H); [exact H1|]. intros x x' Hx. now rewrite Hx, E.
  - rewrite <- (countb_Qeq (fun x => qleb x v) (fun x => qleb x v') l l' H); [exact H2|]. intros x x' Hx. now rewrite Hx, E.
Qed.

Lemma aggregate_Qeq f l l' v v' : Forall2 Qeq l l' -> l <> [] -> is_aggregate f l v -> is_aggregate f l' v' -> v == v'.
Proof.
  intros H Hl. pose proof (Forall2_len _ _ _ H) as L. destruct f; cbn [is_aggregate]; try contradiction.
  - intros -> ->. now apply qsum_Qeq.
  - intros [A1 A2] [B1 B2]. destruct (Forall2_Qeq_In _ _ _ H A1) as [a [A3 A4]].
    destruct (Forall2_Qeq_In _ _ _ (Forall2_Qeq_sym _ _ H) B1) as [b [B3 B4]]. specialize (A2 b B3). specialize (B2 a A3). lra.
  - intros [A1 A2] [B1 B2]. destruct (Forall2_Qeq_In _ _ _ H A1) as [a [A3 A4]].
    destruct (Forall2_Qeq_In _ _ _ (Forall2_Qeq_sym _ _ H) B1) as [b [B3 B4]]. specialize (A2 b B3). specialize (B2 a A3). lra.
  - unfold is_mean. rewrite <- L. intros A B. apply (Qmult_inj_r _ _ (inject_Z (Z.of_nat (length l)))); [now apply length_nonzero|].
    rewrite A, B. now apply qsum_Qeq.
  - intros -> ->. now apply qprod_Qeq.
  - intros [a [b [A1 [A2 A3]]]] [c [d [B1 [B2 B3]]]]. rewrite L in *.
    destruct (has_rank_Qeq _ _ _ _ H A1) as [a' [A1' E1]]. destruct (has_rank_Qeq _ _ _ _ H A2) as [b' [A2' E2]].
    pose proof (has_rank_unique l' _ a' c A1' B1). pose proof (has_rank_unique l' _ b' d A2' B2). lra.
Qed.

Lemma in_band_Qeq l l' pc b : Forall2 Qeq l l' -> in_band l pc b -> in_band l' pc b.
Proof.
  intros H [A [B C]]. pose proof (Forall2_len _ _ _ H) as L. split; [lia|]. split.
  - intros j Hj. rewrite <- (Forall2_Qeq_nth0 l l' j H). now apply B.
  - intros Hb. rewrite <- (Forall2_Qeq_nth0 l l' b H). apply C. lia.
Qed.

Lemma item_unique {A} (l : list A) z x y : item l z x -> item l z y -> x = y.
Proof. intros [[H E]|[H E]] [[H' E']|[H' E']]; try lia; congruence. Qed.
Lemma item_Qeq l l' z x : Forall2 Qeq l l' -> item l z x -> exists x', item l' z x' /\ x == x'.
Proof.
  intros H [[Hz E]|[Hz E]].
  - destruct (Forall2_Qeq_nth _ _ H _ _ E) as [x' [E' X]]. exists x'. split; [left; auto|exact X].
  - assert (Forall2 Qeq (rev l) (rev l')) as R.
    { clear -H. induction H; cbn; [constructor|]. apply Forall2_app; auto. }
    destruct (Forall2_Qeq_nth _ _ R _ _ E) as [x' [E' X]]. exists x'. split; [right; auto|exact X].
Qed.
Lemma at_z_item {A} (l : list A) z x : at_z l z = Some x <-> item l z x.
Proof.
  unfold at_z, wrap, item.
  assert (forall n, (n < length l)%nat -> nth_error (rev l) n = nth_error l (length l - S n)) as R.
  { clear. intros n Hn. destruct l as [|a l]; [cbn in Hn; lia|]. set (m := a :: l) in *.
    rewrite (nth_error_nth' (rev m) a) by now rewrite rev_length. rewrite (nth_error_nth' m a) by lia. now rewrite rev_nth by exact Hn. }
  destruct (Z.ltb_spec z 0) as [Hz|Hz].
  - destruct (Z.leb_spec 0 (z + Z.of_nat (length l))) as [H1|H1]; cbn [andb].
    + destruct (Z.ltb_spec (z + Z.of_nat (length l)) (Z.of_nat (length l))) as [H2|H2]; [|lia].
      rewrite R by lia. replace (length l - S (Z.to_nat (- z - 1)))%nat with (Z.to_nat (z + Z.of_nat (length l))) by lia.
      split; [intros E; right; auto|]. intros [[H _]|[_ E]]; [lia|exact E].
    + split; [discriminate|]. intros [[H _]|[_ E]]; [lia|].
      assert (Z.to_nat (- z - 1) < length (rev l))%nat by (apply nth_error_Some; congruence). rewrite rev_length in *. lia.
  - destruct (Z.leb_spec 0 z) as [H1|H1]; [|lia]. cbn [andb].
    destruct (Z.ltb_spec z (Z.of_nat (length l))) as [H2|H2].
    + split; [intros E; left; auto|]. intros [[_ E]|[H _]]; [exact E|lia].
    + split; [discriminate|]. intros [[_ E]|[H _]]; [|lia].
      assert (Z.to_nat z < length l)%nat by (apply nth_error_Some; congruence). lia.
Qed.

Lemma whole_same e e' z z' : fst e == inject_Z z -> snd e = Some z -> fst e' == inject_Z z' -> snd e' = Some z' -> z = z' -> same e e'.
Proof. intros A B C D ->. split; [now rewrite A, C|congruence]. Qed.

Definition is_function (k : cls) : Prop :=
  match k with
  | Apply1 f _ => forall x x', x == x' -> agree Qeq (f x) (f x')
  | Apply2 f _ _ => forall x x' y y', x == x' -> y == y' -> agree Qeq (f x y) (f x' y')
  | Aggregated user _ _ => forall l l', Forall2 Qeq l l' -> user l == user l'
  | _ => True
  end.

Lemma map_Some_inj {A} (l m : list A) : map Some l = map Some m -> l = m.
Proof.
  revert m. induction l as [|x l IH]; intros [|y m] H; try discriminate; [reflexivity|]. cbn in H.
  injection H as -> H. f_equal. now apply IH.
Qed.

(** The rule determines the value. *)
Lemma rule_unique k i xs xs' zs e e' : is_function k -> Forall2 Qeq xs xs' ->
  value_rule k i xs zs e -> value_rule k i xs' zs e' -> same e e'.
Proof.
  intros Hk H.
  assert (forall P, only_number e P -> forall P', only_number e' P' -> (forall v v', P v -> P' v' -> v == v') -> same e e') as NUM.
  { intros P [A B] P' [A' B'] K. split; [now apply K|congruence]. }
  assert (forall P, whole_number e P -> forall P', whole_number e' P' -> (forall v v', P v -> P' v' -> v = v') -> same e e') as WHO.
  { intros P [z [A [B C]]] P' [z' [A' [B' C']]] K. apply (whole_same e e' z z'); auto. }
  destruct k; cbn [value_rule]; cbn [is_function] in Hk.
  - destruct H as [|? ? ? ? ? ?]; [|contradiction]. intros [a [A S1]] [b [B S2]]. rewrite A in B. injection B as <-.
    apply same_trans with a; [exact S1|now apply same_sym].
  - destruct H as [|x x' ? ? Hx H]; [contradiction|]. destruct H as [|y y' ? ? Hy H]; [contradiction|].
    destruct H; [|contradiction]. intros A B. apply (NUM _ A _ B). intros v v' [N V] [_ V'].
    apply (Qmult_inj_r _ _ y N). rewrite V, Hy, V'. exact Hx.
  - destruct H as [|x x' ? ? Hx H]; [contradiction|]. destruct H; [|contradiction].
    intros A B. apply (NUM _ A _ B). intros v v' V V'. lra.
  - destruct H as [|x x' ? ? Hx H]; [contradiction|]. destruct H; [|contradiction].
    intros A B. apply (NUM _ A _ B). unfold larger. intros v v' [[V|V] [V1 V2]] [[W|W] [W1 W2]]; lra.
  - destruct H as [|x x' ? ? Hx H]; [contradiction|]. destruct H; [|contradiction].
    intros A B. apply (NUM _ A _ B). unfold larger. intros v v' [[V|V] [V1 V2]] [[W|W] [W1 W2]]; lra.
  - destruct H as [|x x' ? ? Hx H]; [contradiction|]. destruct H; [|contradiction].
    intros A B. apply (NUM _ A _ B). unfold smaller. intros v v' [[V|V] [V1 V2]] [[W|W] [W1 W2]]; lra.
  - destruct H as [|x x' ? ? Hx H]; [contradiction|]. destruct H; [|contradiction].
    intros A B. apply (NUM _ A _ B). unfold smaller. intros v v' [[V|V] [V1 V2]] [[W|W] [W1 W2]]; lra.
  - destruct H as [|x x' ? ? Hx H]; [contradiction|]. destruct H; [|contradiction].
    intros A B. apply (NUM _ A _ B). intros v v' V V'. lra.
  - destruct H as [|x x' ? ? Hx H]; [contradiction|]. destruct H; [|contradiction].
    intros A B. apply (NUM _ A _ B). intros v v' V V'. rewrite V, V', Hx. reflexivity.
  - destruct H as [|x x' ? ? Hx H]; [contradiction|]. destruct H; [|contradiction].
    intros A B. apply (NUM _ A _ B). intros v v' [u [U V]] [u' [U' V']]. specialize (Hk x x' Hx). rewrite U, U' in Hk. cbn in Hk.
    now rewrite V, V'.
  - destruct H as [|x x' ? ? Hx H]; [contradiction|]. destruct H as [|y y' ? ? Hy H]; [contradiction|]. destruct H; [|contradiction].
    intros A B. apply (NUM _ A _ B). intros v v' [u [U V]] [u' [U' V']]. specialize (Hk x x' y y' Hx Hy). rewrite U, U' in Hk. cbn in Hk.
    now rewrite V, V'.
  - pose proof H as H0. destruct H as [|x x' ? ? Hx H]; [contradiction|].
    intros A B. apply (NUM _ A _ B). intros v v' [[-> V]|V] [[W0 V']|V']; try (cbn in V, V'; contradiction).
    + rewrite V, V'. now apply Hk.
    + rewrite W0 in V. cbn in V. contradiction.
    + exact (aggregate_Qeq f _ _ v v' H0 ltac:(discriminate) V V').
  - destruct H as [|x x' ? ? Hx H]; [contradiction|].
    intros A B. apply (WHO _ A _ B). intros v v' [a [A1 V]] [b [B1 V']]. assert (a = b) as <- by (apply map_Some_inj; congruence).
    destruct V as [[-> V]|V], V' as [[W0 V']|V']; try (cbn in V, V'; contradiction).
    + congruence.
    + rewrite W0 in V. cbn in V. contradiction.
    + exact (index_aggregate_determined f a a v v' (Permutation_refl a) V V').
  - destruct H as [|x x' ? ? Hx H]; [contradiction|].
    intros A B. apply (NUM _ A _ B). intros v v' [z [r [u [Z [U V]]]]] [z' [r' [u' [Z' [U' V']]]]].
    rewrite Z in Z'. injection Z' as <- _. destruct (item_Qeq _ _ _ _ H U) as [u'' [U'' E]].
    rewrite (item_unique _ _ _ _ U'' U') in E. now rewrite V, V'.
  - intros A B. apply (NUM _ A _ B). intros v v' [u [U V]] [u' [U' V']].
    destruct (Forall2_Qeq_nth _ _ H _ _ U) as [u'' [U'' E]]. rewrite U' in U''. injection U'' as <-. now rewrite V, V'.
  - intros A B. apply (WHO _ A _ B). intros v v' [V0 V] [V0' V']. apply Z2Nat.inj; auto.
    apply (in_band_unique xs' (pc i)); [now apply (in_band_Qeq xs xs')|exact V'].
  - intros A B. apply (NUM _ A _ B). intros v v' [b [u [U1 [U2 [U3 V]]]]] [b' [u' [U1' [U2' [U3' V']]]]].
    assert (b = b') as <- by (apply (in_band_unique xs' (pc i)); [now apply (in_band_Qeq xs xs')|exact U1']).
    rewrite U3 in U3'. injection U3' as <-. now rewrite V, V'.
  - intros A B. apply (NUM _ A _ B). intros v v' [b [u [U1 [U2 [U3 V]]]]] [b' [u' [U1' [U2' [U3' V']]]]].
    assert (Forall2 Qeq (firstn (length ccs) xs) (firstn (length ccs) xs') /\ Forall2 Qeq (skipn (length ccs) xs) (skipn (length ccs) xs')) as [F1 F2].
    { clear -H. generalize (length ccs) as m. induction H as [|x x' xs xs' Hx _ IH]; intros [|m]; cbn.
      - split; constructor.
      - split; constructor.
      - split; [constructor|]. constructor; [exact Hx|]. destruct (IH 0%nat) as [_ K]. exact K.
      - destruct (IH m). split; [constructor|]; auto. }
    assert (b = b') as <- by (apply (in_band_unique (firstn (length ccs) xs') (pc i)); [now apply (in_band_Qeq _ _ _ _ F1)|exact U1']).
    destruct (Forall2_Qeq_nth _ _ F2 _ _ U3) as [u'' [U'' E]]. rewrite U3' in U''. injection U'' as <-. now rewrite V, V'.
Qed.

(** ** [calc] follows the rule *)
Definition sized (n : nat) (w : arrays) (ps : list nat) : Prop := forall p, In p ps -> length (w p) = n.
Definition all_fit (w : arrays) (ps : list nat) : Prop := forall p e, In p ps -> In e (w p) -> fits (snd e).

Lemma fitsb_spec z : fitsb z = true <-> fits z.
Proof.
  destruct z as [z|]; cbn; [|tauto]. unfold int_min, int_max. rewrite andb_true_iff, !Z.leb_le. tauto.
Qed.

Lemma curve_value_pick values pc curves b : in_band curves pc b -> length values = S (length curves) ->
  nth_error values b = Some (curve_value values pc curves).
Proof.
  intros B L. unfold curve_value.
  assert (forall r j c, curves = c ++ r -> j = length c -> (j <= b)%nat -> nth_error values b = Some (value_loop values pc j r)) as K.
  { induction r as [|x r IH]; intros j c E J Hj; cbn [value_loop].
    - rewrite app_nil_r in E. subst c. destruct B as [B _]. assert (b = length curves) as -> by lia.
      unfold from_end. rewrite L. replace (S (length curves) - 1)%nat with (length curves) by lia. apply nth_error_nth'. lia.
    - assert (nth j curves 0 = x) as X by (subst; rewrite app_nth2, Nat.sub_diag by lia; reflexivity).
      assert (j < length curves)%nat as Lj by (subst; rewrite app_length; cbn; lia).
      destruct B as [B1 [B2 B3]]. destruct (qlebP x pc) as [H|H].
      + assert (b = j) as ->; [|apply nth_error_nth'; lia]. destruct (Nat.eq_dec b j) as [|N]; [assumption|].
        specialize (B2 j ltac:(lia)). rewrite X in B2. lra.
      + apply (IH (S j) (c ++ [x])); [now rewrite <- app_assoc|rewrite app_length; cbn; lia|].
        destruct (Nat.eq_dec b j) as [->|N]; [|lia]. specialize (B3 Lj). rewrite X in B3. lra. }
  apply (K curves 0%nat []); auto. lia.
Qed.

Lemma over_members_len {A V} (op : A -> V -> A) start n members : length (over_members op start n members) = n.
Proof.
  unfold over_members. assert (forall acc, length (fold_left (accumulate op) members acc) = length acc) as K.
  { induction members as [|m ms IH]; intros acc; [reflexivity|]. cbn [fold_left]. now rewrite IH, accumulate_length. }
  rewrite K. apply repeat_length.
Qed.
Lemma aggregate_len user f n members l : aggregate user f n members = Some l -> length l = n.
Proof.
  destruct f; cbn [aggregate]; intros H; try discriminate; injection H as <-;
    rewrite ?map_length, ?seq_length; try apply over_members_len; reflexivity.
Qed.
Lemma aggregate_index_len user f n members l : aggregate_index user f n members = Some l -> length l = n.
Proof.
  destruct f; cbn [aggregate_index]; intros H; try discriminate; injection H as <-;
    rewrite ?map_length, ?seq_length; try apply over_members_len; reflexivity.
Qed.

Lemma aggregated_rule user f n members l : members <> [] -> (forall vs, In vs members -> length vs = n) ->
  aggregate user f n members = Some l -> forall i, (i < n)%nat -> exists v, nth_error l i = Some (Fin v) /\
  ((f = ACustom /\ v == user (column i members)) \/ is_aggregate f (column i members) v).
Proof.
  intros Hne Hm A i Hi. assert (supported f = true \/ f = ACustom) as [S|S].
  { destruct f; cbn in A; try discriminate; auto. }
  - destruct (aggregate_spec user f n members S Hne Hm) as [o [Eo Ho]]. rewrite A in Eo. injection Eo as <-.
    destruct (Ho i Hi) as [v [V1 V2]]. exists v. auto.
  - subst f. cbn [aggregate] in A. injection A as <-. rewrite nth_error_seq_map by exact Hi. eexists. split; [reflexivity|].
    left. split; reflexivity.
Qed.
Lemma aggregated_index_rule user f n members l : members <> [] -> (forall vs, In vs members -> length vs = n) ->
  (forall vs v, In vs members -> In v vs -> (int_min <= v <= int_max)%Z) ->
  aggregate_index user f n members = Some l -> forall i, (i < n)%nat -> exists v, nth_error l i = Some v /\
  ((f = ACustom /\ v = user (zcolumn i members)) \/ is_index_aggregate f (zcolumn i members) v).
Proof.
  intros Hne Hm Hr A i Hi. assert (index_supported f = true \/ f = ACustom) as [S|S].
  { destruct f; cbn in A; try discriminate; auto. }
  - destruct (aggregate_index_spec user f n members S Hne Hm Hr) as [o [Eo Ho]]. rewrite A in Eo. injection Eo as <-.
    destruct (Ho i Hi) as [v [V1 V2]]. exists v. auto.
  - subst f. cbn [aggregate_index] in A. injection A as <-. rewrite nth_error_seq_map by exact Hi. eexists. split; [reflexivity|].
    left. split; reflexivity.
Qed.

Lemma value_columns (w : arrays) ps i : column i (map (fun p => map fst (w p)) ps) = map (value_at w i) ps.
Proof. unfold column. rewrite map_map. apply map_ext. intros p. unfold value_at. now rewrite <- (map_nth fst (w p) no_entry i). Qed.

Lemma larger_qmax a b : larger a b (qmax a b).
Proof. split; [destruct (qmax_cases a b) as [[_ H]|[_ H]]; auto|]. split; [apply qmax_l|apply qmax_r]. Qed.
Lemma smaller_qmin a b : smaller a b (qmin a b).
Proof. unfold smaller, qmin. destruct (qlebP a b) as [H|H]; (split; [auto using Qeq_refl|split; lra]). Qed.

Lemma calc_sound n k w out : sized n w (mentions k) -> all_fit w (mentions k) -> calc n k w = Some out ->
  length out = n /\
  forall i, (i < n)%nat -> value_rule k i (map (value_at w i) (mentions k)) (map (index_at w i) (mentions k)) (nth i out no_entry).
Proof.
  intros Hs Hf.
  assert (forall f, each n f = Some out -> (forall i, (i < n)%nat -> forall e, f i = Some e ->
    value_rule k i (map (value_at w i) (mentions k)) (map (index_at w i) (mentions k)) e) ->
    length out = n /\ forall i, (i < n)%nat -> value_rule k i (map (value_at w i) (mentions k)) (map (index_at w i) (mentions k)) (nth i out no_entry)) as EACH.
  { intros f E K. apply each_spec in E as [L E]. split; [exact L|]. intros i Hi. apply (K i Hi). now apply E. }
  destruct k; cbn [calc]; unfold mentions, ctor_of, ctor_reads, number in *; cbn [map] in *.
  - intros E. apply (EACH _ E). intros i Hi e He. cbn. exists e. split; [exact He|apply same_refl].
  - intros E. apply (EACH _ E). intros i Hi e He. cbn. destruct (qeqbP (value_at w i b) 0) as [Z|Z]; [discriminate|].
    injection He as <-. split; [|reflexivity]. cbn. split; [exact Z|]. now field.
  - intros E. apply (EACH _ E). intros i Hi e He. injection He as <-. split; [|reflexivity]. cbn. ring.
  - intros E. apply (EACH _ E). intros i Hi e He. injection He as <-. split; [|reflexivity]. cbn.
    apply larger_qmax.
  - intros E. apply (EACH _ E). intros i Hi e He. injection He as <-. split; [|reflexivity]. cbn [fst].
    apply larger_qmax.
  - intros E. apply (EACH _ E). intros i Hi e He. injection He as <-. split; [|reflexivity]. cbn.
    apply smaller_qmin.
  - intros E. apply (EACH _ E). intros i Hi e He. injection He as <-. split; [|reflexivity]. cbn [fst].
    apply smaller_qmin.
  - intros E. apply (EACH _ E). intros i Hi e He. injection He as <-. split; [|reflexivity]. cbn. ring.
  - intros E. apply (EACH _ E). intros i Hi e He. injection He as <-. split; [|reflexivity]. cbn. ring.
  - intros E. apply (EACH _ E). intros i Hi e He. unfold bindo in He. destruct (f (value_at w i a)) as [v|] eqn:F; [|discriminate].
    injection He as <-. split; [|reflexivity]. cbn. exists v. split; [exact F|reflexivity].
  - intros E. apply (EACH _ E). intros i Hi e He. unfold bindo in He. destruct (f (value_at w i a) (value_at w i b)) as [v|] eqn:F; [|discriminate].
    injection He as <-. split; [|reflexivity]. cbn. exists v. split; [exact F|reflexivity].
  - intros E. assert (ps <> []) as Hne by (intros ->; discriminate).
    assert (bindo (aggregate user f n (map (fun p => map fst (w p)) ps))
              (fun l => sequence (map (fun x => match x with Fin v => Some (v, None) | _ => None end) l)) = Some out) as E'
      by (destruct ps; [discriminate|exact E]). clear E. unfold bindo in E'.
    destruct (aggregate user f n (map (fun p => map fst (w p)) ps)) as [l|] eqn:A; [|discriminate].
    assert (forall vs, In vs (map (fun p => map fst (w p)) ps) -> length vs = n) as Hm.
    { intros vs Hv. apply in_map_iff in Hv as [p [<- Hp]]. rewrite map_length. now apply Hs. }
    pose proof (aggregate_len _ _ _ _ _ A) as Ll. pose proof (sequence_length _ _ E') as Le. rewrite map_length in Le.
    split; [congruence|]. intros i Hi.
    assert (map (fun p => map fst (w p)) ps <> []) as Hne' by (destruct ps; [easy|discriminate]).
    destruct (aggregated_rule user f n _ l Hne' Hm A i Hi) as [v [V1 V2]]. rewrite value_columns in V2.
    pose proof (sequence_nth _ _ _ i E') as N. rewrite V1 in N.
    rewrite (nth_error_nth' out no_entry) in N by lia. injection N as N. rewrite N.
    destruct (map (value_at w i) ps) eqn:M; [destruct ps; [easy|discriminate]|]. cbn [value_rule]. split; [exact V2|reflexivity].
  - intros E. assert (ps <> []) as Hne by (intros ->; discriminate).
    assert (bindo (sequence (map (fun p => sequence (map snd (w p))) ps))
                   (fun members => option_map (map int_entry) (aggregate_index user f n members)) = Some out) as E'
      by (destruct ps; [discriminate|exact E]). clear E. unfold bindo in E'.
    destruct (sequence (map (fun p => sequence (map snd (w p))) ps)) as [ms|] eqn:M; [|discriminate].
    destruct (aggregate_index user f n ms) as [l|] eqn:A; [|discriminate]. cbn in E'. injection E' as <-.
    pose proof (sequence_length _ _ M) as Lm. rewrite map_length in Lm.
    assert (ms <> []) as Hne' by (destruct ms; [destruct ps; [easy|discriminate]|discriminate]).
    assert (forall j vs, nth_error ms j = Some vs -> exists p, nth_error ps j = Some p /\ map snd (w p) = map Some vs) as Hj.
    { intros j vs Hv. pose proof (sequence_nth _ _ _ j M) as N. rewrite Hv in N. destruct (nth_error ps j) as [p|]; [|discriminate].
      exists p. split; [reflexivity|]. cbn in N. now apply sequence_spec. }
    assert (forall vs, In vs ms -> length vs = n) as Hm.
    { intros vs Hv. apply In_nth_error in Hv as [j Hv]. destruct (Hj j vs Hv) as [p [Hp E]].
      rewrite <- (Hs p (nth_error_In _ _ Hp)), <- (map_length snd (w p)), E. now rewrite map_length. }
    assert (forall vs v, In vs ms -> In v vs -> (int_min <= v <= int_max)%Z) as Hr.
    { intros vs v Hv Hx. apply In_nth_error in Hv as [j Hv]. destruct (Hj j vs Hv) as [p [Hp E]].
      assert (In (Some v) (map snd (w p))) as K by (rewrite E; now apply in_map). apply in_map_iff in K as [e [E1 E2]].
      specialize (Hf p e (nth_error_In _ _ Hp) E2). rewrite E1 in Hf. exact Hf. }
    pose proof (aggregate_index_len _ _ _ _ _ A) as Ll. split; [now rewrite map_length|]. intros i Hi.
    destruct (aggregated_index_rule user f n ms l Hne' Hm Hr A i Hi) as [v [V1 V2]].
    assert (map (index_at w i) ps = map Some (zcolumn i ms)) as C.
    { apply nth_error_ext. intros j. unfold zcolumn. rewrite !nth_error_map. destruct (nth_error ms j) as [vs|] eqn:Ej.
      - destruct (Hj j vs Ej) as [p [Hp E]]. rewrite Hp. cbn. f_equal. unfold index_at.
        assert (nth_error (map snd (w p)) i = nth_error (map Some vs) i) as N by now rewrite E. rewrite !nth_error_map in N.
        rewrite (nth_error_nth' (w p) no_entry) in N by (rewrite (Hs p (nth_error_In _ _ Hp)); exact Hi).
        rewrite (nth_error_nth' vs 0%Z) in N by (rewrite (Hm vs (nth_error_In _ _ Ej)); exact Hi). cbn in N. now injection N.
      - apply nth_error_None in Ej. rewrite (proj2 (nth_error_None ps j)) by lia. reflexivity. }
    assert (nth i (map int_entry l) no_entry = int_entry v) as R.
    { apply nth_error_nth. rewrite nth_error_map, V1. reflexivity. }
    rewrite R, C. destruct (map (value_at w i) ps) eqn:Mp; [destruct ps; [easy|discriminate]|]. cbn [value_rule].
    exists v. split; [|split; reflexivity]. exists (zcolumn i ms). split; [reflexivity|exact V2].
  - intros E. apply (EACH _ E). intros i Hi e He. unfold bindo in He. destruct (index_at w i ix) as [z|] eqn:Z; [|discriminate].
    destruct (at_z ps z) as [p|] eqn:P; [|discriminate]. injection He as <-. cbn [map value_rule]. split; [|reflexivity]. cbn [fst].
    exists z, (map (index_at w i) ps), (value_at w i p). split; [reflexivity|]. split; [|reflexivity].
    apply at_z_item in P. unfold item in *. rewrite <- map_rev, !nth_error_map. destruct P as [[H ->]|[H ->]]; auto.
  - intros E. apply (EACH _ E). intros i Hi e He. unfold bindo in He. destruct (nth_error ps (member i)) as [p|] eqn:P; [|discriminate].
    injection He as <-. cbn [value_rule]. split; [|reflexivity]. exists (value_at w i p). rewrite nth_error_map, P. split; reflexivity.
  - intros E. apply (EACH _ E). intros i Hi e He. injection He as <-. rewrite app_nil_r. cbn. unfold whole_number.
    exists (Z.of_nat (curve_index (pc i) (map (value_at w i) ccs))). split; [|split; reflexivity].
    split; [lia|]. rewrite Nat2Z.id. apply curve_index_band.
  - destruct (Nat.eqb_spec (length values) (length ccs + 1)) as [L|L]; [|discriminate]. intros E. apply (EACH _ E).
    intros i Hi e He. injection He as <-. rewrite app_nil_r. cbn. split; [|reflexivity]. cbn.
    pose proof (curve_index_band (pc i) (map (value_at w i) ccs)) as B.
    assert (length values = S (length (map (value_at w i) ccs))) as L' by (rewrite map_length; lia).
    exists (curve_index (pc i) (map (value_at w i) ccs)), (curve_value values (pc i) (map (value_at w i) ccs)).
    split; [exact B|]. split; [exact L'|]. split; [|reflexivity]. now apply curve_value_pick.
  - destruct (Nat.eqb_spec (length ps) (length ccs + 1)) as [L|L]; [|discriminate]. intros E. apply (EACH _ E).
    intros i Hi e He. injection He as <-. rewrite !map_app. cbn. split; [|reflexivity]. cbn [fst].
    pose proof (curve_index_band (pc i) (map (value_at w i) ccs)) as B.
    exists (curve_index (pc i) (map (value_at w i) ccs)), (curve_value (map (value_at w i) ps) (pc i) (map (value_at w i) ccs)).
    assert (length ccs = length (map (value_at w i) ccs)) as Lc by now rewrite map_length.
    rewrite Lc at 1 3. rewrite firstn_app, skipn_app, firstn_all, skipn_all, Nat.sub_diag. cbn [firstn skipn app]. rewrite app_nil_r.
    split; [exact B|]. split; [lia|]. split; [|reflexivity]. apply curve_value_pick; [exact B|]. rewrite !map_length. lia.
Qed.

(** ** [calc] fails only if the rule gives no value *)
Lemma calc_defined n k w : is_function k -> sized n w (mentions k) -> (0 < n)%nat ->
  (forall i, (i < n)%nat -> exists xs e, Forall2 Qeq xs (map (value_at w i) (mentions k)) /\
     value_rule k i xs (map (index_at w i) (mentions k)) e) ->
  exists out, calc n k w = Some out.
Proof.
  intros Hk Hs Hn H.
  destruct k; cbn [calc]; unfold mentions, ctor_of, ctor_reads, number in *; cbn [map] in *; cbn [is_function] in Hk;
    try (apply each_total; intros i Hi; eexists; reflexivity).
  - apply each_total. intros i Hi. destruct (H i Hi) as [xs [e [F V]]]. inversion F; subst. destruct V as [e' [V _]]. eauto.
  - apply each_total. intros i Hi. destruct (H i Hi) as [xs [e [F V]]]. inversion F as [|x ? r ? Hx F1]; subst.
    inversion F1 as [|y ? r' ? Hy F2]; subst. inversion F2; subst. destruct V as [[V _] _].
    destruct (qeqbP (value_at w i b) 0) as [Z|Z]; [rewrite <- Hy in Z; contradiction|eauto].
  - apply each_total. intros i Hi. destruct (H i Hi) as [xs [e [F V]]]. inversion F as [|x ? r ? Hx F1]; subst.
    inversion F1; subst. destruct V as [[v [V _]] _]. specialize (Hk x _ Hx). rewrite V in Hk. unfold bindo.
    destruct (f (value_at w i a)); [eauto|contradiction].
  - apply each_total. intros i Hi. destruct (H i Hi) as [xs [e [F V]]]. inversion F as [|x ? r ? Hx F1]; subst.
    inversion F1 as [|y ? r' ? Hy F2]; subst. inversion F2; subst. destruct V as [[v [V _]] _]. specialize (Hk x _ y _ Hx Hy). rewrite V in Hk. unfold bindo.
    destruct (f (value_at w i a) (value_at w i b)); [eauto|contradiction].
  - assert (ps <> []) as Hne.
    { intros ->. destruct (H 0%nat Hn) as [xs [e [F V]]]. inversion F; subst. exact V. }
    assert (exists out, bindo (aggregate user f n (map (fun p => map fst (w p)) ps))
              (fun l => sequence (map (fun x => match x with Fin v => Some (v, @None Z) | _ => None end) l)) = Some out) as [out E];
      [|exists out; destruct ps; [easy|exact E]].
    destruct (aggregate user f n (map (fun p => map fst (w p)) ps)) as [l|] eqn:A.
    + cbn [bindo]. apply sequence_total. apply Forall_forall. intros x Hx. apply In_nth_error in Hx as [i Hx].
      assert (i < n)%nat as Hi by (rewrite <- (aggregate_len _ _ _ _ _ A); apply nth_error_Some; congruence).
      destruct (aggregated_rule user f n (map (fun p => map fst (w p)) ps) l) with (i := i) as [v [V _]]; auto.
      * destruct ps; [easy|discriminate].
      * intros vs Hv. apply in_map_iff in Hv as [p [<- Hp]]. rewrite map_length. now apply Hs.
      * rewrite Hx in V. injection V as ->. eauto.
    + exfalso. destruct (H 0%nat Hn) as [xs [e [F V]]]. destruct xs; [exact V|]. destruct V as [[[-> _]|V] _]; [discriminate|].
      destruct f; cbn in A, V; try discriminate; contradiction.
  - assert (ps <> []) as Hne.
    { intros ->. destruct (H 0%nat Hn) as [xs [e [F V]]]. inversion F; subst. exact V. }
    assert (exists out, bindo (sequence (map (fun p => sequence (map snd (w p))) ps))
                   (fun members => option_map (map int_entry) (aggregate_index user f n members)) = Some out) as [out E];
      [|exists out; destruct ps; [easy|exact E]].
    assert (exists ms, sequence (map (fun p => sequence (map snd (w p))) ps) = Some ms) as [ms M].
    { apply sequence_total. apply Forall_forall. intros p Hp. apply sequence_total. apply Forall_forall. intros e He.
      apply In_nth_error in He as [i He].
      assert (i < n)%nat as Hi by (rewrite <- (Hs p Hp); apply nth_error_Some; congruence).
      destruct (H i Hi) as [xs [e' [F V]]]. destruct xs; [contradiction|]. destruct V as [z [[l [E _]] _]].
      assert (In (index_at w i p) (map (index_at w i) ps)) as K by now apply in_map. rewrite E in K.
      apply in_map_iff in K as [z' [K _]]. unfold index_at in K. rewrite (nth_error_nth _ _ no_entry He) in K. eauto. }
    rewrite M. cbn [bindo]. destruct (aggregate_index user f n ms) as [l|] eqn:A; [cbn; eauto|exfalso].
    destruct (H 0%nat Hn) as [xs [e [F V]]]. destruct xs; [exact V|]. destruct V as [z [[l [_ [[-> _]|V]]] _]]; [discriminate|].
    destruct f; cbn in A, V; try discriminate; contradiction.
  - apply each_total. intros i Hi. destruct (H i Hi) as [xs [e [F V]]]. inversion F as [|x ? r ? Hx F1]; subst.
    destruct V as [[z [rest [v [E [V _]]]]] _]. injection E as E _. rewrite E. cbn [bindo].
    destruct (item_Qeq _ _ _ _ F1 V) as [v' [V' _]]. apply at_z_item in V'.
    assert (exists p, at_z ps z = Some p) as [p P].
    { unfold at_z in *. rewrite map_length in V'. destruct (wrap (length ps) z) as [m|]; [|discriminate].
      rewrite nth_error_map in V'. destruct (nth_error ps m); [eauto|discriminate]. }
    rewrite P. cbn. eauto.
  - apply each_total. intros i Hi. destruct (H i Hi) as [xs [e [F V]]]. destruct V as [[v [V _]] _].
    destruct (Forall2_Qeq_nth _ _ F _ _ V) as [v' [V' _]]. rewrite nth_error_map in V'.
    destruct (nth_error ps (member i)); [cbn; eauto|discriminate].
  - destruct (H 0%nat Hn) as [xs [e [F V]]]. destruct V as [[b [v [_ [L _]]]] _]. apply Forall2_len in F. rewrite app_nil_r, map_length in F.
    rewrite (proj2 (Nat.eqb_eq (length values) (length ccs + 1))) by lia. apply each_total. intros; eauto.
  - destruct (H 0%nat Hn) as [xs [e [F V]]]. destruct V as [[b [v [_ [L _]]]] _].
    rewrite (proj2 (Nat.eqb_eq (length ps) (length ccs + 1))) by lia. apply each_total. intros; eauto.
Qed.

(** ** The meaning is unique *)
Lemma means_unique ks i : made_before ks -> functions_of_numbers ks ->
  forall c e e', means ks i c e -> means ks i c e' -> same e e'.
Proof.
  intros Hm Hf c. induction c as [c IH] using (well_founded_induction lt_wf). intros e e' M M'.
  inversion M as [c1 k es e1 Hk Hes Hr _]; subst. inversion M' as [c2 k' es' e2 Hk' Hes' Hr' _]; subst.
  rewrite Hk in Hk'. injection Hk' as <-.
  assert (Forall2 same es es') as S.
  { assert (forall p, In p (mentions k) -> (p < c)%nat) as Hp by (intros p Hp; destruct (Hm c k p Hk Hp); lia).
    clear -IH Hes Hes' Hp. revert es' Hes'. induction Hes as [|p e ps es Hpe _ IHes]; intros es' Hes'.
    - inversion Hes'. constructor.
    - inversion Hes' as [|? e0 ? es0 Hpe0 Hes0]; subst. constructor.
      + apply (IH p (Hp p (or_introl eq_refl)) e e0 Hpe Hpe0).
      + apply IHes; [|exact Hes0]. intros q Hq. apply Hp. now right. }
  apply (rule_unique k i (map fst es) (map fst es') (map snd es) e e').
  - exact (Hf k (nth_error_In _ _ Hk)).
  - now apply same_fst.
  - exact Hr.
  - rewrite (same_snd _ _ S). exact Hr'.
Qed.

(** ** The pass *)
Definition right_arrays (n : nat) (ks : list cls) (w : arrays) (c : nat) : Prop :=
  length (w c) = n /\ forall i, (i < n)%nat -> means ks i c (nth i (w c) no_entry).

Lemma entries_split (w : arrays) i ps :
  map fst (map (fun p => nth i (w p) no_entry) ps) = map (value_at w i) ps /\
  map snd (map (fun p => nth i (w p) no_entry) ps) = map (index_at w i) ps.
Proof. rewrite !map_map. split; reflexivity. Qed.

Lemma right_fit n ks (w : arrays) ps : (forall p, In p ps -> right_arrays n ks w p) -> sized n w ps /\ all_fit w ps.
Proof.
  intros H. split.
  - intros p Hp. now apply H.
  - intros p e Hp He. destruct (H p Hp) as [L M]. apply In_nth_error in He as [i Hi].
    assert (i < n)%nat as Hin by (rewrite <- L; apply nth_error_Some; congruence).
    specialize (M i Hin). rewrite (nth_error_nth _ _ no_entry Hi) in M. inversion M; assumption.
Qed.

Lemma calc_values_right n ks (w : arrays) c k out :
  nth_error ks (c - 1) = Some k -> (forall p, In p (mentions k) -> right_arrays n ks w p) ->
  calc_values n k w = Some out -> length out = n /\ forall i, (i < n)%nat -> means ks i c (nth i out no_entry).
Proof.
  intros Hk Hp. unfold calc_values, bindo. destruct (calc n k w) as [o|] eqn:E; [|discriminate].
  destruct (forallb _ o) eqn:F; [|discriminate]. intros [= <-].
  destruct (right_fit n ks w _ Hp) as [Hs Hf]. destruct (calc_sound n k w o Hs Hf E) as [L V]. split; [exact L|].
  intros i Hi. destruct (entries_split w i (mentions k)) as [E1 E2].
  apply (Means ks i c k (map (fun p => nth i (w p) no_entry) (mentions k))).
  - exact Hk.
  - assert (forall p, In p (mentions k) -> means ks i p (nth i (w p) no_entry)) as M by (intros p Hq; now apply Hp).
    clear -M. induction (mentions k) as [|p ps IH]; cbn; constructor; [apply M; now left|]. apply IH. intros q Hq. apply M. now right.
  - rewrite E1, E2. now apply V.
  - rewrite forallb_forall in F. apply fitsb_spec, F. apply nth_In. lia.
Qed.

Lemma calc_values_defined n ks (w : arrays) c k : made_before ks -> functions_of_numbers ks -> (0 < n)%nat ->
  nth_error ks (c - 1) = Some k -> (forall p, In p (mentions k) -> right_arrays n ks w p) ->
  (forall i, (i < n)%nat -> exists e, means ks i c e) -> exists out, calc_values n k w = Some out.
Proof.
  intros Hb Hfn Hn Hk Hp Hm. destruct (right_fit n ks w _ Hp) as [Hs Hf].
  assert (forall i e, (i < n)%nat -> means ks i c e -> exists xs, Forall2 Qeq xs (map (value_at w i) (mentions k)) /\
     value_rule k i xs (map (index_at w i) (mentions k)) e) as G.
  { intros i e Hi M. inversion M as [c1 k' es e1 Hk' Hes Hr _]; subst. rewrite Hk in Hk'. injection Hk' as <-.
    assert (Forall2 same es (map (fun p => nth i (w p) no_entry) (mentions k))) as S.
    { clear Hr. assert (forall p, In p (mentions k) -> means ks i p (nth i (w p) no_entry)) as Mp by (intros p Hq; now apply Hp).
      clear -Hes Mp Hb Hfn. induction Hes as [|p e ps es Hpe _ IH]; cbn; constructor.
      - apply (means_unique ks i Hb Hfn p); [exact Hpe|apply Mp; now left].
      - apply IH. intros q Hq. apply Mp. now right. }
    destruct (entries_split w i (mentions k)) as [E1 E2]. exists (map fst es). split.
    - rewrite <- E1. now apply same_fst.
    - rewrite <- E2, <- (same_snd _ _ S). exact Hr. }
  destruct (calc_defined n k w) as [o E].
  - exact (Hfn k (nth_error_In _ _ Hk)).
  - exact Hs.
  - exact Hn.
  - intros i Hi. destruct (Hm i Hi) as [e M]. destruct (G i e Hi M) as [xs [A B]]. eauto.
  - destruct (calc_sound n k w o Hs Hf E) as [L V]. exists o. unfold calc_values. rewrite E. cbn [bindo].
    assert (forallb (fun e => fitsb (snd e)) o = true) as ->; [|reflexivity].
    apply forallb_forall. intros x Hx. apply In_nth_error in Hx as [i Hx]. apply fitsb_spec.
    assert (i < n)%nat as Hi by (rewrite <- L; apply nth_error_Some; congruence).
    destruct (Hm i Hi) as [e M]. destruct (G i e Hi M) as [xs [A B]]. specialize (V i Hi). rewrite (nth_error_nth _ _ no_entry Hx) in V.
    pose proof (rule_unique k i _ _ _ _ _ (Hfn k (nth_error_In _ _ Hk)) A B V) as [_ S].
    inversion M as [? ? ? ? _ _ _ Fe]; subst. now rewrite S in Fe.
Qed.

Lemma right_set n ks (w : arrays) c out d : d <> c -> right_arrays n ks w d -> right_arrays n ks (set_array w c out) d.
Proof. intros N. unfold right_arrays, set_array. now rewrite (proj2 (Nat.eqb_neq d c) N). Qed.

(** Running through the rest of an order whose first part has been calculated. *)
Lemma pass_right n ks : made_before ks -> functions_of_numbers ks -> (0 < n)%nat -> forall order dn (w : arrays),
  NoDup (dn ++ order) -> (forall c, In c order -> exists k, nth_error ks (c - 1) = Some k) ->
  (forall l1 c l2 k p, dn ++ order = l1 ++ c :: l2 -> nth_error ks (c - 1) = Some k -> In p (mentions k) -> In p l1) ->
  (forall c, In c dn -> right_arrays n ks w c) ->
  match pass n ks order w with
  | Some w' => forall c, In c (dn ++ order) -> right_arrays n ks w' c
  | None => ~ forall c i, In c order -> (i < n)%nat -> exists e, means ks i c e
  end.
Proof.
  intros Hb Hfn Hn. induction order as [|c order IH]; intros dn w Hnd Hex Hord Hdn.
  - cbn. rewrite app_nil_r. exact Hdn.
  - cbn [pass]. destruct (Hex c (or_introl eq_refl)) as [k Hk]. rewrite Hk. cbn [bindo].
    assert (forall p, In p (mentions k) -> right_arrays n ks w p) as Hp.
    { intros p Hp. apply Hdn. exact (Hord dn c order k p eq_refl Hk Hp). }
    destruct (calc_values n k w) as [out|] eqn:E; cbn [bindo].
    + destruct (calc_values_right n ks w c k out Hk Hp E) as [L M].
      assert ((dn ++ [c]) ++ order = dn ++ c :: order) as A by now rewrite <- app_assoc.
      specialize (IH (dn ++ [c]) (set_array w c out)). rewrite A in IH.
      assert (forall d, In d (dn ++ [c]) -> right_arrays n ks (set_array w c out) d) as Hdn'.
      { intros d Hd. destruct (Nat.eq_dec d c) as [->|N].
        - unfold right_arrays, set_array. rewrite Nat.eqb_refl. auto.
        - apply in_app_or in Hd as [Hd|[Hd|[]]]; [|congruence]. apply right_set; auto. }
      specialize (IH Hnd (fun d Hd => Hex d (or_intror Hd)) Hord Hdn').
      destruct (pass n ks order (set_array w c out)) as [w'|]; [exact IH|].
      intros R. apply IH. intros d i Hd. apply R. now right.
    + intros R. destruct (calc_values_defined n ks w c k Hb Hfn Hn Hk Hp) as [out E']; [|congruence].
      intros i Hi. apply R; [now left|exact Hi].
Qed.

(** ** The order *)
Lemma dfold_declared ops : forall (s : dstate) x y, forallb additive ops = true -> snd (fold_left dstep ops s) x y ->
  snd s x y \/ In (ChildrenAdd x (IComp y)) ops \/ In (ParentsAdd y (IComp x)) ops.
Proof.
  induction ops as [|o ops IH]; intros s x y Ha H; [now left|]. cbn in Ha. apply andb_true_iff in Ha as [Ho Ha].
  cbn [fold_left] in H. specialize (IH (dstep s o) x y Ha H). destruct IH as [K|[K|K]]; [|right; left; now right|right; right; now right].
  destruct s as [m D]. destruct o as [|a [b|]|a [b|]|a [b|]|a [b|]|a|a]; cbn in *; try discriminate; auto.
  - destruct K as [K|[-> [-> _]]]; auto.
  - destruct K as [K|[-> [-> _]]]; auto.
Qed.

Lemma build_ops_additive ks : forallb additive (build_ops ks) = true.
Proof.
  apply forallb_forall. intros o Ho. unfold build_ops in Ho. apply in_flat_map in Ho as [[j k] [_ Ho]]. cbn in Ho.
  destruct Ho as [<-|Ho]; [reflexivity|]. destruct k as [k|]; [|contradiction].
  pose proof (ctor_calls_additive j k) as A. rewrite forallb_forall in A. now apply A.
Qed.

Lemma ctor_calls_reads c k x y :
  In (ChildrenAdd x (IComp y)) (ctor_calls c k) \/ In (ParentsAdd y (IComp x)) (ctor_calls c k) -> x = c /\ In y (ctor_reads k).
Proof.
  assert (forall (l : list nat), In (ChildrenAdd x (IComp y)) (map (fun p => ChildrenAdd c (IComp p)) l) -> x = c /\ In y l) as A1
    by (intros l H; apply in_map_iff in H as [p [[= <- <-] H]]; auto).
  assert (forall (l : list nat), In (ParentsAdd y (IComp x)) (map (fun p => ChildrenAdd c (IComp p)) l) -> False) as A2
    by (intros l H; apply in_map_iff in H as [p [H _]]; discriminate).
  assert (forall (l : list nat), In (ParentsAdd y (IComp x)) (map (fun p => ParentsAdd p (IComp c)) l) -> x = c /\ In y l) as A3
    by (intros l H; apply in_map_iff in H as [p [[= <- <-] H]]; auto).
  assert (forall (l : list nat), In (ChildrenAdd x (IComp y)) (map (fun p => ParentsAdd p (IComp c)) l) -> False) as A4
    by (intros l H; apply in_map_iff in H as [p [H _]]; discriminate).
  assert (forall (l : list nat), In (ChildrenAdd x (IComp y)) (map (fun _ => ChildrenAdd c IOther) l) -> False) as A5
    by (intros l H; apply in_map_iff in H as [p [H _]]; discriminate).
  assert (forall (l : list nat), In (ParentsAdd y (IComp x)) (map (fun _ => ChildrenAdd c IOther) l) -> False) as A6
    by (intros l H; apply in_map_iff in H as [p [H _]]; discriminate).
  intros H; destruct k; cbn [ctor_calls ctor_reads] in *; rewrite ?in_app_iff; cbn [In] in *; rewrite ?in_app_iff in H; cbn [In] in H;
    repeat match goal with
    | H : _ \/ _ |- _ => destruct H
    | H : In (ChildrenAdd _ _) (map (fun _ => ChildrenAdd _ (IComp _)) _) |- _ => apply A1 in H
    | H : In (ParentsAdd _ _) (map (fun _ => ChildrenAdd _ (IComp _)) _) |- _ => apply A2 in H
    | H : In (ParentsAdd _ _) (map (fun _ => ParentsAdd _ (IComp _)) _) |- _ => apply A3 in H
    | H : In (ChildrenAdd _ _) (map (fun _ => ParentsAdd _ (IComp _)) _) |- _ => apply A4 in H
    | H : In (ChildrenAdd _ _) (map (fun _ => ChildrenAdd _ IOther) _) |- _ => apply A5 in H
    | H : In (ParentsAdd _ _) (map (fun _ => ChildrenAdd _ IOther) _) |- _ => apply A6 in H
    | H : False |- _ => contradiction
    | H : ChildrenAdd _ _ = ChildrenAdd _ _ |- _ => injection H as -> ->
    | H : ParentsAdd _ _ = ParentsAdd _ _ |- _ => injection H as -> ->
    | H : ChildrenAdd _ _ = ParentsAdd _ _ |- _ => discriminate
    | H : ParentsAdd _ _ = ChildrenAdd _ _ |- _ => discriminate
    | H : _ /\ _ |- _ => destruct H
    end; subst; tauto.
Qed.

Lemma mentions_reads ks c : reads_of (map ctor_of ks) c = match nth_error ks (c - 1) with Some k => mentions k | None => [] end.
Proof. unfold reads_of, mentions. rewrite nth_error_map. destruct (nth_error ks (c - 1)) as [k|]; [cbn; now destruct (ctor_of k)|reflexivity]. Qed.

Lemma build_depends_inv ks c y : depends (build_ops ks) c y -> In y (reads_of ks c).
Proof.
  intros H. unfold depends, dfold in H. apply dfold_declared in H; [|apply build_ops_additive].
  destruct H as [[]|H]. assert (exists o, In o (build_ops ks) /\ (o = ChildrenAdd c (IComp y) \/ o = ParentsAdd y (IComp c))) as [o [Ho E]]
    by (destruct H; eauto). unfold build_ops in Ho. apply in_flat_map in Ho as [[j k] [Hin Ho]]. cbn in Ho.
  destruct Ho as [<-|Ho]; [destruct E; discriminate|]. destruct k as [k|]; [|contradiction].
  assert (c = j /\ In y (ctor_reads k)) as [<- Hy] by (apply ctor_calls_reads; destruct E; subst; auto).
  apply In_nth_error in Hin as [m Hm].
  assert (nth_error (seq 1 (length ks)) m = Some c /\ nth_error ks m = Some (Some k)) as [M1 M2].
  { clear -Hm. revert Hm. generalize (seq 1 (length ks)) as l. revert ks. induction m as [|m IH]; intros [|a ks] [|b l] H; try discriminate; cbn in *.
    - injection H as -> ->. auto.
    - now apply IH. }
  assert (m < length ks)%nat as Lm by (apply nth_error_Some; congruence).
  rewrite (nth_error_nth' _ 0%nat) in M1 by now rewrite seq_length. rewrite seq_nth in M1 by exact Lm.
  unfold reads_of. assert (c - 1 = m)%nat as -> by (injection M1 as M1; lia). now rewrite M2.
Qed.

Lemma ops_of_EOp l : ops_of (map EOp l) = l.
Proof. induction l as [|o l IH]; [reflexivity|]. change (o :: ops_of (map EOp l) = o :: l). now rewrite IH. Qed.
Lemma dirty_EOp l : forall s, ms_dirty s = true -> ms_dirty (fold_left mevent (map EOp l) s) = true.
Proof. induction l as [|o l IH]; intros s H; [exact H|]. cbn. now apply IH. Qed.

Lemma order_exists ks : made_before ks -> exists order, order_of ks = Some order.
Proof.
  intros Hb. unfold order_of. destruct (snd (mrun (mhistory (map EOp (build_ops (map ctor_of ks)))))) as [l|] eqn:E; [eauto|exfalso].
  assert (ms_dirty (mhistory (map EOp (build_ops (map ctor_of ks)))) = true) as D by now apply dirty_EOp.
  pose proof (dirty_run (map EOp (build_ops (map ctor_of ks))) D) as H. rewrite E, ops_of_EOp in H.
  destruct H as [x Hx].
  assert (forall a b, plus (depends (build_ops (map ctor_of ks))) a b -> (b < a)%nat) as K.
  { assert (forall a b, depends (build_ops (map ctor_of ks)) a b -> (b < a)%nat) as K1.
    { intros a b H. apply build_depends_inv in H. rewrite mentions_reads in H.
      destruct (nth_error ks (a - 1)) as [k|] eqn:Ek; [|contradiction]. destruct (Hb a k b Ek H). lia. }
    intros a b H. induction H as [a b H|a b d H _ IH]; [now apply K1|]. apply K1 in H. lia. }
  specialize (K x x Hx). lia.
Qed.

Lemma order_good ks order : made_before ks -> order_of ks = Some order ->
  NoDup order /\ (forall c, In c order <-> (1 <= c <= length ks)%nat) /\
  (forall l1 c l2 k p, order = l1 ++ c :: l2 -> nth_error ks (c - 1) = Some k -> In p (mentions k) -> In p l1).
Proof.
  intros Hb Ho. set (cs := map ctor_of ks) in *.
  assert (good_order (build_ops cs) order) as [Hn [Hin Hbef]].
  { rewrite <- (ops_of_EOp (build_ops cs)). apply C08_order; [now apply dirty_EOp|exact Ho]. }
  rewrite build_created in Hin. unfold cs in Hin. rewrite map_length in Hin. split; [exact Hn|]. split; [exact Hin|].
  intros l1 c l2 k p E Hk Hp.
  assert (before order p c) as [m1 [m2 [m3 M]]].
  { apply Hbef, plus_one. apply build_depends.
    - intros k' Hk'. unfold cs in Hk'. apply in_map_iff in Hk' as [q [Q _]]. destruct q; cbn in Q; try discriminate; injection Q as <-; reflexivity.
    - intros d z Hz. unfold cs in Hz. rewrite mentions_reads in Hz. destruct (nth_error ks (d - 1)) as [k'|] eqn:Ek; [|contradiction].
      exact (Hb d k' z Ek Hz).
    - unfold cs. rewrite mentions_reads, Hk. exact Hp. }
  assert (l1 = m1 ++ p :: m2) as ->; [|apply in_or_app; right; now left].
  rewrite M in E, Hn. assert ((m1 ++ p :: m2) ++ c :: m3 = l1 ++ c :: l2) as E' by (rewrite <- E, <- app_assoc; reflexivity).
  assert (NoDup ((m1 ++ p :: m2) ++ c :: m3)) as Hn' by (rewrite <- app_assoc; exact Hn).
  clear -E' Hn'. revert E' Hn'. generalize (m1 ++ p :: m2) as a. revert l1. induction l1 as [|x l1 IH]; intros [|b a] E N; cbn in *.
  - reflexivity.
  - injection E as -> E. exfalso. inversion N as [|? ? Hi _]; subst. apply Hi. apply in_or_app. right. now left.
  - injection E as <- E. exfalso. inversion N as [|? ? Hi _]; subst. apply Hi. apply in_or_app. right. now left.
  - injection E as <- E. inversion N; subst. f_equal. now apply IH.
Qed.
