(** C89: the percentile of a score. *)
From Coq Require Import Lia Sorting.Permutation.
From Verif Require Import Base Score_model.
Local Open Scope Q_scope.
Local Open Scope list_scope.

(** How many members of a list have a property. *)
Inductive count (P : Q -> Prop) : list Q -> nat -> Prop :=
| count_nil : count P [] 0
| count_yes x l n : P x -> count P l n -> count P (x :: l) (S n)
| count_no x l n : ~ P x -> count P l n -> count P (x :: l) n.

Lemma countb_less score l a : count (fun x => x < score) l a -> countb (fun x => qltb x score) l = a.
Proof.
  unfold countb. induction 1 as [|x l n H _ IH|x l n H _ IH]; cbn [filter]; [reflexivity| |]; destruct (qltbP x score); cbn [length]; try contradiction; congruence.
Qed.
Lemma countb_both score l : forall a b, count (fun x => x < score) l a -> count (fun x => x == score) l b -> countb (fun x => qleb x score) l = (a + b)%nat.
Proof.
  unfold countb. induction l as [|x l IH]; intros a b A B; inversion A as [|? ? a' Pa A'|? ? ? Pa A']; subst; inversion B as [|? ? b' Pb B'|? ? ? Pb B']; subst;
    cbn [filter]; try reflexivity; destruct (qlebP x score) as [H|H]; cbn [length]; try (rewrite (IH _ _ A' B')); try lia; exfalso; try lra.
Qed.
Lemma size_pos (l : list Q) : l <> [] -> 0 < inject_Z (Z.of_nat (length l)).
Proof. intros N. destruct l; [contradiction|]. cbn [length]. unfold Qlt, inject_Z. cbn. lia. Qed.
Lemma scaled (k n c : Q) : 0 < n -> k * (c / n) * n == c * k.
Proof. intros H. field. lra. Qed.

(** C89: of n values, a below the score and b equal to it, the percentile of the score is 100 a / n (strict), 100 (a + b) / n (weak), the mean of both, or
    that of the mean rank of those equal to the score (rank; the share of those below if there are none). *)
Theorem C89_score : forall score l a b, l <> [] -> count (fun x => x < score) l a -> count (fun x => x == score) l b ->
  let n := inject_Z (Z.of_nat (length l)) in let below := inject_Z (Z.of_nat a) in let equal := inject_Z (Z.of_nat b) in
  score_1d Strict score l * n == 100 * below
  /\ score_1d Weak score l * n == 100 * (below + equal)
  /\ score_1d MeanKind score l * n == 100 * below + 50 * equal
  /\ (b = 0%nat -> score_1d Rank score l * n == 100 * below)
  /\ ((0 < b)%nat -> score_1d Rank score l * n == 100 * (below + (equal + 1) / 2)).
Proof.
  intros score l a b N A B n below equal. pose proof (size_pos l N) as P. fold n in P.
  unfold score_1d, of_score. rewrite (countb_less _ _ _ A), (countb_both _ _ _ _ A B). fold n.
  destruct (Nat.eqb_spec (length l) 0) as [E|_]; [destruct l; [contradiction|discriminate E]|].
  rewrite !scaled by exact P. rewrite !Nat2Z.inj_add, !inject_Z_plus. fold below equal. split; [ring|]. split; [ring|]. split; [ring|]. split.
  - intros ->. assert (equal == 0) by reflexivity. destruct (Nat.ltb_spec a (a + 0)); [lia|]. change (inject_Z (Z.of_nat 0)) with 0. lra.
  - intros Hb. destruct (Nat.ltb_spec a (a + b)); [|lia]. change (inject_Z (Z.of_nat 1)) with 1. field.
Qed.
Print Assumptions C89_score.

Lemma count_exists (P : Q -> Prop) (D : forall x, P x \/ ~ P x) l : exists n, count P l n.
Proof. induction l as [|x l [n IH]]; [exists O; constructor|]. destruct (D x); [exists (S n)|exists n]; constructor; assumption. Qed.
Lemma less_dec score x : x < score \/ ~ x < score.
Proof. destruct (Qlt_le_dec x score); [left; assumption|right; lra]. Qed.
Lemma equal_dec score x : x == score \/ ~ x == score.
Proof. destruct (Qeq_dec x score); [left|right]; assumption. Qed.
Lemma countb_le {A} (p q : A -> bool) l : (forall x, p x = true -> q x = true) -> (countb p l <= countb q l)%nat.
Proof.
  intros H. unfold countb. induction l as [|x l IH]; [auto|]. cbn [filter]. specialize (H x). destruct (p x), (q x); cbn [length]; try lia.
Qed.
Lemma countb_len {A} (p : A -> bool) l : (countb p l <= length l)%nat.
Proof. unfold countb. induction l as [|x l IH]; cbn; [lia|]. destruct (p x); cbn [length]; lia. Qed.
Lemma div_le (a b n c : Q) : 0 < n -> 0 <= c -> a <= b -> a * (c / n) <= b * (c / n).
Proof.
  intros N C H. assert (0 <= c / n). { apply Qle_shift_div_l; [exact N|]. lra. } nra.
Qed.
Lemma nat_le a b : (a <= b)%nat -> inject_Z (Z.of_nat a) <= inject_Z (Z.of_nat b).
Proof. intros H. rewrite <- Zle_Qle. lia. Qed.

(** C89: the percentile does not fall as the score rises, and lies between 0 and 100. *)
Theorem C89_score_monotone : forall k s t l, s <= t -> score_1d k s l <= score_1d k t l.
Proof.
  intros k s t l H. unfold score_1d, of_score. destruct (Nat.eqb_spec (length l) 0) as [E|E]; [lra|].
  assert (P : 0 < inject_Z (Z.of_nat (length l))). { apply size_pos. destruct l; [contradiction E; reflexivity|discriminate]. }
  assert (L : (countb (fun x => qltb x s) l <= countb (fun x => qltb x t) l)%nat).
  { apply countb_le. intros x. destruct (qltbP x s), (qltbP x t); auto. exfalso. lra. }
  assert (R : (countb (fun x => qleb x s) l <= countb (fun x => qleb x t) l)%nat).
  { apply countb_le. intros x. destruct (qlebP x s), (qlebP x t); auto. exfalso. lra. }
  destruct k; apply div_le; try exact P; try lra; apply nat_le; try lia.
  assert (X : (countb (fun x => qleb x s) l <= countb (fun x => qltb x t) l)%nat
    \/ countb (fun x => qltb x s) l = countb (fun x => qltb x t) l /\ countb (fun x => qleb x s) l = countb (fun x => qleb x t) l).
  { destruct (Qlt_le_dec s t) as [S1|S1].
    - left. apply countb_le. intros x. destruct (qlebP x s), (qltbP x t); auto. exfalso. lra.
    - right. assert (E1 : s == t) by lra. split; unfold countb; f_equal; apply filter_ext; intros x.
      + destruct (qltbP x s), (qltbP x t); auto; exfalso; lra.
      + destruct (qlebP x s), (qlebP x t); auto; exfalso; lra. }
  destruct X as [X|[X1 X2]]; [|rewrite X1, X2; lia].
  destruct (Nat.ltb_spec (countb (fun x => qltb x s) l) (countb (fun x => qleb x s) l)); destruct (Nat.ltb_spec (countb (fun x => qltb x t) l) (countb (fun x => qleb x t) l)); lia.
Qed.
Print Assumptions C89_score_monotone.
Theorem C89_score_range : forall k s l, 0 <= score_1d k s l <= 100.
Proof.
  intros k s l. unfold score_1d, of_score. destruct (Nat.eqb_spec (length l) 0) as [E|E]; [lra|].
  assert (P : 0 < inject_Z (Z.of_nat (length l))). { apply size_pos. destruct l; [contradiction E; reflexivity|discriminate]. }
  assert (LR : (countb (fun x => qltb x s) l <= countb (fun x => qleb x s) l)%nat).
  { apply countb_le. intros x. destruct (qltbP x s), (qlebP x s); auto. exfalso. lra. }
  pose proof (countb_len (fun x => qleb x s) l) as RN.
  set (a := countb (fun x => qltb x s) l) in *. set (b := countb (fun x => qleb x s) l) in *. set (n := length l) in *.
  assert (G : forall m c d, (m <= d * n)%nat -> 0 <= c -> c * inject_Z (Z.of_nat d) == 100 ->
    0 <= inject_Z (Z.of_nat m) * (c / inject_Z (Z.of_nat n)) <= 100).
  { intros m c d M C D. pose proof (div_le 0 (inject_Z (Z.of_nat m)) _ c P C (nat_le 0 m (Nat.le_0_l m))) as H0.
    pose proof (div_le _ _ _ c P C (nat_le _ _ M)) as H1. rewrite Nat2Z.inj_mul, inject_Z_mult in H1.
    assert (H2 : inject_Z (Z.of_nat d) * inject_Z (Z.of_nat n) * (c / inject_Z (Z.of_nat n)) == c * inject_Z (Z.of_nat d)) by (field; lra).
    split; lra. }
  destruct k.
  - apply (G _ 50 2%nat); [|lra|reflexivity]. destruct (Nat.ltb_spec a b); lia.
  - apply (G _ 100 1%nat); [lia|lra|reflexivity].
  - apply (G _ 100 1%nat); [lia|lra|reflexivity].
  - apply (G _ 50 2%nat); [lia|lra|reflexivity].
Qed.
Print Assumptions C89_score_range.

(** C89: over time every scenario has the percentile among its own column. *)
Theorem C89_score_over_time : forall k score n rows, exists values, score_2d k score 0 n rows = Some values /\ length values = n
  /\ forall i, (i < n)%nat -> nth i values 0 = score_1d k score (map (fun row => nth i row 0) rows).
Proof.
  intros k score n rows. eexists. split; [reflexivity|]. split; [rewrite map_length, seq_length; reflexivity|]. intros i Hi.
  set (f := fun i => of_score k score (map (fun row => nth i row 0) rows)).
  rewrite (nth_indep _ 0 (f O)) by (rewrite map_length, seq_length; exact Hi). rewrite (map_nth f), seq_nth by exact Hi. reflexivity.
Qed.
Print Assumptions C89_score_over_time.

Example score_example : map Qred (map (fun k => score_1d k 3 [1; 2; 3; 3; 5]) [Rank; Strict; Weak; MeanKind]) = [70; 40; 80; 60]
  /\ option_map (map Qred) (score_2d Weak 2 0 2 [[1; 5]; [2; 6]; [3; 2]]) = Some [200 # 3; 100 # 3].
Proof. vm_compute. split; reflexivity. Qed.
