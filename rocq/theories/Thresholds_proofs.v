From Verif Require Import Base Ring Thresholds_model Thresholds_spec ControlCurves_spec ControlCurves_model ControlCurves_proofs.
Local Open Scope Q_scope.

Lemma test_spec p x t : reflect (holds p x t) (test p x t).
Proof.
  destruct p; cbn; [apply qltbP|apply qltbP|apply qeqbP|apply qlebP|apply qlebP].
Qed.

(** One scenario on its own. *)
Definition one_index (c : config) (k : nat) (tr : bool) (xt : Q * Q) : Z * bool :=
  let ind := test (c_predicate c) (fst xt) (snd xt) in
  match c_first c with
  | Returns v => if Nat.eqb k 0 then (v, tr)
                 else if c_ratchet c && tr then (1%Z, tr) else (if ind then 1%Z else 0%Z, ind || tr)
  | AsUsual => if c_ratchet c && tr then (1%Z, tr) else (if ind then 1%Z else 0%Z, ind || tr)
  end.

Lemma upd_same {A} (l : list A) i d : upd l i (nth i l d) = l.
Proof. revert i. induction l as [|x l IH]; intros [|i]; cbn; f_equal; auto. Qed.

Lemma threshold_index_one c k tr id x t : (id < length tr)%nat ->
  threshold_index c k tr id x t = (fst (one_index c k (nth id tr false) (x, t)), upd tr id (snd (one_index c k (nth id tr false) (x, t)))).
Proof.
  intros H. unfold threshold_index, base_index, one_index. cbn [fst snd]. cbv zeta.
  destruct (c_first c) as [|v]; [|destruct (Nat.eqb k 0); [cbn [fst snd]; now rewrite upd_same|]];
    (destruct (nth id tr false) eqn:E; destruct (c_ratchet c); cbn [andb fst snd]; try reflexivity;
     rewrite <- E, upd_same; reflexivity).
Qed.

Lemma calc_indices_spec c k : forall inputs tr id, length tr = (id + length inputs)%nat ->
  let '(is, tr') := calc_indices c k tr id inputs in
  length is = length inputs /\ length tr' = length tr /\
  (forall i, (i < id)%nat -> nth i tr' false = nth i tr false) /\
  (forall i, (i < length inputs)%nat ->
     nth i is 0%Z = fst (one_index c k (nth (id + i) tr false) (nth i inputs (0, 0))) /\
     nth (id + i) tr' false = snd (one_index c k (nth (id + i) tr false) (nth i inputs (0, 0)))).
Proof.
  induction inputs as [|[x t] r IH]; intros tr id L; cbn [calc_indices].
  - cbn. repeat split; auto; intros; lia.
  - rewrite threshold_index_one by (cbn [length] in L; lia). set (o := one_index c k (nth id tr false) (x, t)).
    specialize (IH (upd tr id (snd o)) (S id)). rewrite upd_length in IH.
    specialize (IH ltac:(cbn [length] in L; lia)).
    destruct (calc_indices c k (upd tr id (snd o)) (S id) r) as [is tr']. destruct IH as [L1 [L2 [P Q]]].
    split; [cbn; lia|]. split; [lia|]. split.
    + intros i Hi. rewrite P by lia. rewrite nth_upd by (cbn [length] in L; lia). destruct (Nat.eqb_spec i id); [lia|reflexivity].
    + intros [|i] Hi; cbn [nth].
      * rewrite Nat.add_0_r. split; [reflexivity|]. rewrite P by lia. rewrite nth_upd by (cbn [length] in L; lia).
        rewrite Nat.eqb_refl. reflexivity.
      * cbn [length] in Hi. destruct (Q i ltac:(lia)) as [Q1 Q2]. replace (id + S i)%nat with (S id + i)%nat by lia.
        rewrite Q1, Q2. rewrite !nth_upd by (cbn [length] in L; lia). destruct (Nat.eqb_spec (S id + i) id); [lia|]. split; reflexivity.
Qed.

(** The run seen by one scenario. *)
Fixpoint one_run (c : config) (k : nat) (tr : bool) (history : list (Q * Q)) : list Z :=
  match history with
  | [] => []
  | xt :: r => fst (one_index c k tr xt) :: one_run c (S k) (snd (one_index c k tr xt)) r
  end.

Lemma threshold_run_one c i n : forall history k tr, length tr = n -> (i < n)%nat -> (forall l, In l history -> length l = n) ->
  map (fun l => nth i l 0%Z) (threshold_run c k tr history) =
  one_run c k (nth i tr false) (map (fun l => nth i l (0, 0)) history).
Proof.
  induction history as [|inputs r IH]; intros k tr L Hi W; cbn [threshold_run map one_run]; [reflexivity|].
  pose proof (calc_indices_spec c k inputs tr 0) as S. rewrite (W inputs (or_introl eq_refl)) in S. specialize (S L).
  destruct (calc_indices c k tr 0 inputs) as [is tr'] eqn:E. destruct S as [S1 [S2 [_ S3]]].
  destruct (S3 i ltac:(lia)) as [S4 S5]. cbn [Nat.add] in S4, S5. cbn [map]. rewrite S4, <- S5. f_equal.
  apply IH; [lia|exact Hi|]. intros l Hl. apply W. right. exact Hl.
Qed.

Lemma threshold_run_length c : forall history k tr, length (threshold_run c k tr history) = length history.
Proof.
  induction history as [|inputs r IH]; intros k tr; cbn [threshold_run]; [reflexivity|].
  destruct (calc_indices c k tr 0 inputs). cbn [length]. now rewrite IH.
Qed.

(** The index of one scenario at time [t]; [m]: the first timestep that is compared. *)
Definition special (c : config) (k : nat) : bool :=
  match c_first c with Returns _ => Nat.eqb k 0 | AsUsual => false end.

Lemma one_run_spec c : forall history (k : nat) tr t, (t < length history)%nat -> special c (k + t)%nat = false ->
  exists b : bool, nth t (one_run c k tr history) 0%Z = (if b then 1%Z else 0%Z) /\
  (b = true <->
   holds (c_predicate c) (fst (nth t history (0, 0))) (snd (nth t history (0, 0))) \/
   (c_ratchet c = true /\
    (tr = true \/ exists s, (s < t)%nat /\ special c (k + s)%nat = false /\
       holds (c_predicate c) (fst (nth s history (0, 0))) (snd (nth s history (0, 0)))))).
Proof.
  induction history as [|xt r IH]; intros k tr t Ht S; [cbn in Ht; lia|]. destruct t as [|t]; cbn [one_run nth].
  - rewrite Nat.add_0_r in S. destruct xt as [x th]. cbn [fst snd].
    assert (exists b : bool, fst (one_index c k tr (x, th)) = (if b then 1%Z else 0%Z) /\
            b = (c_ratchet c && tr || test (c_predicate c) x th)) as [b [E B]].
    { unfold one_index, special in *. cbn [fst snd]. destruct (c_first c); [|rewrite S];
        (destruct (c_ratchet c && tr); [exists true; split; reflexivity|exists (test (c_predicate c) x th); split; reflexivity]). }
    exists b. split; [exact E|]. rewrite B. destruct (test_spec (c_predicate c) x th) as [T|T].
    + rewrite orb_true_r. split; [left; exact T|reflexivity].
    + rewrite orb_false_r, andb_true_iff. split; [intros [A1 A2]; right; split; [exact A1|left; exact A2]|].
      intros [H|[A1 [A2|[s [Hs _]]]]]; [contradiction|split; assumption|lia].
  - cbn [length] in Ht. replace (k + Datatypes.S t)%nat with (Datatypes.S k + t)%nat in S by lia.
    destruct (IH (Datatypes.S k) (snd (one_index c k tr xt)) t ltac:(lia) S) as [b [E B]].
    exists b. split; [exact E|]. rewrite B. destruct xt as [x th].
    assert (c_ratchet c = true -> (snd (one_index c k tr (x, th)) = true <-> tr = true \/ (special c k = false /\ holds (c_predicate c) x th))) as D.
    { intros R. unfold one_index, special. cbn [fst snd]. rewrite R. cbn [andb].
      destruct (c_first c) as [|v]; [|destruct (Nat.eqb k 0); cbn [snd]; [split; [tauto|intros [G|[G _]]; [exact G|discriminate]]|]];
        (destruct tr; cbn [snd]; [tauto|]; rewrite orb_false_r; destruct (test_spec (c_predicate c) x th); split; auto; try discriminate;
         intros [G|[_ G]]; [discriminate|contradiction]). }
    split; (intros [H|[R H]]; [left; exact H|right; split; [exact R|]]); specialize (D R).
    + destruct H as [H|[s [Hs [S1 S2]]]].
      * apply D in H. destruct H as [H|[H1 H2]]; [left; exact H|right]. exists 0%nat. rewrite Nat.add_0_r. cbn [nth fst snd].
        split; [lia|]. split; assumption.
      * right. exists (Datatypes.S s). replace (k + Datatypes.S s)%nat with (Datatypes.S k + s)%nat by lia. cbn [nth]. split; [lia|]. split; assumption.
    + destruct H as [H|[s [Hs [S1 S2]]]]; [left; apply D; left; exact H|]. destruct s as [|s].
      * left. apply D. right. rewrite Nat.add_0_r in S1. cbn [nth fst snd] in S2. split; assumption.
      * right. exists s. replace (k + Datatypes.S s)%nat with (Datatypes.S k + s)%nat in S1 by lia. cbn [nth] in S2. split; [lia|]. split; assumption.
Qed.

Lemma one_run_special c history v : c_first c = Returns v -> history <> [] -> forall tr, nth 0 (one_run c 0 tr history) 0%Z = v.
Proof. intros E N tr. destruct history as [|xt r]; [congruence|]. cbn [one_run nth]. unfold one_index. rewrite E. reflexivity. Qed.

Lemma nth_map_any {A B} (f : A -> B) : forall l t d d', (t < length l)%nat -> nth t (map f l) d = f (nth t l d').
Proof. induction l as [|x l IH]; intros [|t] d d' H; cbn in *; try lia; [reflexivity|]. apply IH. lia. Qed.

Lemma index_at_one c i n history k tr t : length tr = n -> (i < n)%nat -> (forall l, In l history -> length l = n) -> (t < length history)%nat ->
  index_at (threshold_run c k tr history) t i = nth t (one_run c k (nth i tr false) (map (fun l => nth i l (0, 0)) history)) 0%Z.
Proof.
  intros L Hi W Ht. rewrite <- (threshold_run_one c i n history k tr L Hi W). unfold index_at.
  symmetry. apply (nth_map_any (fun l : list Z => nth i l 0%Z)). rewrite threshold_run_length. exact Ht.
Qed.

Lemma holds_at_one p i n history t : (t < length history)%nat -> (forall l, In l history -> length l = n) -> (i < n)%nat ->
  holds p (fst (nth t (map (fun l => nth i l (0, 0)) history) (0, 0))) (snd (nth t (map (fun l => nth i l (0, 0)) history) (0, 0)))
  <-> holds_at p history t i.
Proof.
  intros Ht W Hi. unfold holds_at.
  rewrite (nth_map_any (fun l : list (Q * Q) => nth i l (0, 0)) history t (0, 0) [] Ht). destruct (nth i (nth t history []) (0, 0)) as [x th].
  cbn [fst snd]. reflexivity.
Qed.

Lemma triggered_reset_false tr i : nth i (triggered_reset tr) false = false.
Proof. unfold triggered_reset. revert i. induction tr as [|b r IH]; intros [|i]; cbn; auto. Qed.

(** ** Several thresholds *)
Lemma multiple_is_curve x thresholds : multiple_index x thresholds = curve_index x thresholds.
Proof.
  unfold multiple_index, curve_index.
  enough (forall l j n, multiple_loop x j l n = index_loop x j l n) as H by apply H.
  induction l as [|t r IH]; intros j n; cbn; [reflexivity|]. destruct (qleb t x); auto.
Qed.
