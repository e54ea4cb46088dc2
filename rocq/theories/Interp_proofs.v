(** Proofs about interpolation. *)
From Coq Require Import Sorting.Permutation Sorting.Sorted.
From Verif Require Import Base LP_model Sorting Physics_model Interp_model Interp_spec.
Local Open Scope Q_scope.
Local Open Scope list_scope.

Definition strict (l : list point) : Prop := StronglySorted (fun a b => fst a < fst b) l.

Lemma different_perm a b : Permutation a b -> different_x a -> different_x b.
Proof.
  unfold different_x. induction 1 as [|x l l' P IH|x y l|l l' l'' P1 IH1 P2 IH2]; intros D; auto.
  - inversion D as [|? ? F D']; subst. constructor; [|now apply IH]. rewrite Forall_forall in *. intros z Hz. apply F. eapply Permutation_in; [symmetry; exact P|exact Hz].
  - inversion D as [|? ? F D']; subst. inversion D' as [|? ? F' D'']; subst. inversion F as [|? ? Fx Fl]; subst. constructor; [constructor; [intros E; apply Fx; now symmetry|exact F']|].
    constructor; assumption.
Qed.
Lemma sorted_strict l : StronglySorted (fun a b => by_x a b = true) l -> different_x l -> strict l.
Proof.
  unfold different_x, strict. induction 1 as [|a l H IH F]; intros D; [constructor|]. inversion D as [|? ? F' D']; subst. constructor; [now apply IH|].
  rewrite Forall_forall in *. intros b Hb. specialize (F b Hb). specialize (F' b Hb). unfold by_x in F. destruct (qlebP (fst a) (fst b)) as [L|]; [|discriminate].
  apply Qle_lt_or_eq in L as [L|L]; [exact L|contradiction].
Qed.
Lemma by_x_total a b : by_x a b = true \/ by_x b a = true.
Proof. unfold by_x. destruct (qlebP (fst a) (fst b)); [now left|]. right. destruct (qlebP (fst b) (fst a)); [reflexivity|lra]. Qed.
Lemma by_x_trans a b c : by_x a b = true -> by_x b c = true -> by_x a c = true.
Proof. unfold by_x. destruct (qlebP (fst a) (fst b)), (qlebP (fst b) (fst c)), (qlebP (fst a) (fst c)); intros; try discriminate; auto. lra. Qed.
Lemma isort_strict l : different_x l -> strict (isort by_x l).
Proof. intros D. apply sorted_strict; [apply isort_sorted; [exact by_x_total|exact by_x_trans]|]. eapply different_perm; [apply isort_perm|exact D]. Qed.

Lemma line_divides a b v : fst a < fst b -> fst a <= v <= fst b -> divides a b v (line a b v).
Proof. intros H V. split; [exact V|]. unfold line. field. lra. Qed.
Lemma divides_unique p q v w w' : fst p < fst q -> divides p q v w -> divides p q v w' -> w == w'.
Proof. intros H [_ A] [_ B]. apply (Qmult_inj_r _ _ (fst q - fst p)); [lra|]. now rewrite A, B. Qed.

Lemma strict_inj l p q : strict l -> In p l -> In q l -> fst p == fst q -> p = q.
Proof.
  induction 1 as [|a l H IH F]; [intros []|]. rewrite Forall_forall in F. intros [<-|Hp] [<-|Hq] E; auto.
  - specialize (F q Hq). lra.
  - specialize (F p Hp). lra.
Qed.

Lemma on_segments_spec l : strict l -> forall p q v, neighbours l p q -> fst p <= v <= fst q -> divides p q v (on_segments l v).
Proof.
  induction 1 as [|a l H IH F]; intros p q v (Ip & Iq & L & Nb) V; [destruct Ip|]. rewrite Forall_forall in F.
  destruct l as [|b r].
  - destruct Ip as [<-|[]], Iq as [<-|[]]. lra.
  - destruct Ip as [<-|Ip].
    + assert (q = b) as ->.
      { destruct Iq as [<-|Iq]; [lra|]. pose proof (F b (or_introl eq_refl)) as Fb. destruct (Nb b) as [C|C]; [right; now left|lra|].
        apply (strict_inj (b :: r)); auto; [now left|]. destruct Iq as [<-|Iq]; [reflexivity|]. inversion H as [|? ? H' F']; subst. rewrite Forall_forall in F'. specialize (F' q Iq). lra. }
      cbn [on_segments]. destruct (qlebP v (fst b)); [|lra]. now apply line_divides.
    + assert (fst b <= fst p) as Bp.
      { destruct Ip as [<-|Ip]; [lra|]. inversion H as [|? ? H' F']; subst. rewrite Forall_forall in F'. specialize (F' p Ip). lra. }
      pose proof (F b (or_introl eq_refl)) as Fb.
      assert (In q (b :: r)) as Iq' by (destruct Iq as [<-|Iq]; [lra|exact Iq]).
      assert (neighbours (b :: r) p q) as Nb' by (repeat split; auto; intros x Hx; apply Nb; now right).
      change (on_segments (a :: b :: r) v) with (if qleb v (fst b) then line a b v else match r with [] => line a b v | _ => on_segments (b :: r) v end).
      destruct (qlebP v (fst b)) as [C|C].
      * assert (p = b) as -> by (apply (strict_inj (b :: r)); auto; [now left|lra]). split; [exact V|]. unfold line. assert (v == fst b) as -> by lra.
        assert ((snd b - snd a) / (fst b - fst a) * (fst b - fst a) + snd a == snd b) as -> by (field; lra). ring.
      * destruct r as [|c r]; [|now apply IH]. exfalso. destruct Ip as [<-|[]], Iq' as [<-|[]]. lra.
Qed.

(** The ends of a sorted list. *)
Lemma first_least l p : strict l -> In p l -> first_x l <= fst p.
Proof. intros S H. destruct S as [|a l S F]; [destruct H|]. rewrite Forall_forall in F. destruct H as [<-|H]; [apply Qle_refl|]. specialize (F p H). cbn. lra. Qed.
Lemma last_in (l : list point) d : l <> [] -> In (last l d) l.
Proof. induction l as [|a [|b l] IH]; intros N; [contradiction|now left|]. right. apply IH. discriminate. Qed.
Lemma last_cons_ne (a : point) l d : l <> [] -> last (a :: l) d = last l d.
Proof. destruct l; [easy|reflexivity]. Qed.
Lemma last_greatest l p : strict l -> In p l -> fst p <= last_x l.
Proof.
  unfold last_x. intros S. revert p. induction S as [|a l S IH F]; intros p; [intros []|]. rewrite Forall_forall in F. destruct l as [|b l].
  - intros [<-|[]]. cbn. lra.
  - rewrite last_cons_ne by discriminate. intros [<-|H]; [|now apply IH]. specialize (F b (or_introl eq_refl)). specialize (IH b (or_introl eq_refl)). lra.
Qed.
Lemma last_outside l p : strict l -> In p l -> ~ last_x l < fst p.
Proof. intros S H. pose proof (last_greatest l p S H). lra. Qed.
Lemma first_in l : l <> [] -> exists p, In p l /\ fst p = first_x l.
Proof. destruct l as [|a l]; [easy|]. intros _. exists a. split; [now left|reflexivity]. Qed.

(** Every value within the points has neighbours around it. *)
Lemma has_neighbours l v : strict l -> (2 <= length l)%nat -> first_x l <= v <= last_x l -> exists p q, neighbours l p q /\ fst p <= v <= fst q.
Proof.
  unfold last_x. induction 1 as [|a l S IH F]; intros L V; [cbn in L; lia|]. rewrite Forall_forall in F. destruct l as [|b l]; [cbn in L; lia|].
  rewrite last_cons_ne in V by discriminate. cbn [first_x] in V. pose proof (F b (or_introl eq_refl)) as Fb. destruct (Qlt_le_dec (fst b) v) as [C|C].
  - destruct l as [|c l].
    + cbn [last] in V. lra.
    + destruct IH as (p & q & (Ip & Iq & Lt & Nb) & W); [cbn in *; lia|cbn [first_x]; lra|]. exists p, q. split; [|exact W].
      split; [now right|]. split; [now right|]. split; [exact Lt|]. intros r [<-|Hr]; [|now apply Nb]. left. specialize (F p Ip). lra.
  - exists a, b. split; [|lra]. split; [now left|]. split; [right; now left|]. split; [exact Fb|]. intros r [<-|[<-|Hr]]; [left; lra|right; lra|]. right.
    inversion S as [|? ? S' F']; subst. rewrite Forall_forall in F'. specialize (F' r Hr). lra.
Qed.

Lemma neighbours_perm a b p q : (forall x, In x a <-> In x b) -> neighbours a p q -> neighbours b p q.
Proof. intros E (A & B & C & D). split; [now apply E|]. split; [now apply E|]. split; [exact C|]. intros r Hr. apply D, E, Hr. Qed.

Lemma make_interp_points o xs ys l : make_interp o xs ys = Some l -> l = isort by_x (combine xs ys) /\ length xs = length ys /\ (2 <= length xs)%nat /\ length l = length xs.
Proof.
  unfold make_interp. destruct (Nat.eqb_spec (length xs) (length ys)) as [E|E]; [|discriminate]. cbn [negb]. destruct (Nat.ltb_spec (length xs) 2); [discriminate|].
  assert (length (isort by_x (combine xs ys)) = length xs) as L by (rewrite <- (Permutation_length (isort_perm by_x _)), combine_length; lia).
  destruct (o_bounds_error o), (o_fill o); intros E'; try discriminate; injection E' as <-; auto.
Qed.
Lemma make_interp_total o xs ys : length xs = length ys -> (2 <= length xs)%nat -> ~ (o_bounds_error o = true /\ o_fill o = FillExtrapolate) ->
  make_interp o xs ys = Some (isort by_x (combine xs ys)).
Proof.
  intros E L N. unfold make_interp. rewrite E, Nat.eqb_refl. cbn [negb]. destruct (Nat.ltb_spec (length ys) 2); [lia|].
  destruct (o_bounds_error o), (o_fill o); try reflexivity. exfalso. now apply N.
Qed.

Lemma call_within o l v : strict l -> l <> [] -> first_x l <= v <= last_x l -> call_interp o l v = Some (Some (on_segments l v)).
Proof. intros S N V. unfold call_interp. destruct (qltbP v (first_x l)); [lra|]. destruct (qltbP (last_x l) v); [lra|]. reflexivity. Qed.

Lemma within_ends l v : strict l -> l <> [] -> within l v <-> first_x l <= v <= last_x l.
Proof.
  intros S N. split.
  - intros (p & q & Ip & Iq & V). pose proof (first_least l p S Ip). pose proof (last_greatest l q S Iq). lra.
  - intros V. destruct (first_in l N) as [p [Ip Ep]]. exists p, (last l (0, 0)). split; [exact Ip|]. split; [now apply last_in|]. rewrite Ep. exact V.
Qed.

(** Interpolating forth and back. *)
Definition swap (p : point) : point := (snd p, fst p).
Lemma combine_swap (xs : list Q) : forall ys, combine ys xs = map swap (combine xs ys).
Proof. induction xs as [|x xs IH]; intros [|y ys]; try reflexivity. cbn. now rewrite IH. Qed.

Lemma divides_between p q v w : fst p < fst q -> snd p < snd q -> divides p q v w -> snd p <= w <= snd q.
Proof.
  intros L M [[V1 V2] E]. split.
  - apply (Qmult_le_r _ _ (fst q - fst p)); [lra|]. rewrite E. nra.
  - apply (Qmult_le_r _ _ (fst q - fst p)); [lra|]. rewrite E. nra.
Qed.
Lemma divides_back p q v w u : fst p < fst q -> snd p < snd q -> divides p q v w -> divides (swap p) (swap q) w u -> u == v.
Proof.
  intros L M [_ E] [_ E']. unfold swap in E'. cbn [fst snd] in E'. apply (Qmult_inj_r _ _ ((snd q - snd p) * (fst q - fst p))).
  - intros Z. apply Qmult_integral in Z as [Z|Z]; lra.
  - transitivity ((u * (snd q - snd p)) * (fst q - fst p)); [ring|]. rewrite E'.
    transitivity (fst p * (snd q * (fst q - fst p) - w * (fst q - fst p)) + fst q * (w * (fst q - fst p) - snd p * (fst q - fst p))); [ring|]. rewrite E. ring.
Qed.

Lemma strict_perm_eq a : forall b, strict a -> strict b -> (forall x, In x a <-> In x b) -> a = b.
Proof.
  unfold strict. induction a as [|x a IH]; intros b Sa Sb E.
  - destruct b as [|y b]; [reflexivity|]. exfalso. apply (E y). now left.
  - destruct b as [|y b]; [exfalso; apply (E x); now left|]. apply StronglySorted_inv in Sa as [Sa Fa]. apply StronglySorted_inv in Sb as [Sb Fb].
    rewrite Forall_forall in Fa, Fb. assert (x = y) as ->.
    { destruct (proj1 (E x) (or_introl eq_refl)) as [H|H]; [now symmetry|]. destruct (proj2 (E y) (or_introl eq_refl)) as [H'|H']; [exact H'|].
      specialize (Fb x H). specialize (Fa y H'). lra. }
    f_equal. apply IH; auto. intros z. split; intros Hz.
    + destruct (proj1 (E z) (or_intror Hz)) as [<-|H]; [|exact H]. specialize (Fa y Hz). lra.
    + destruct (proj2 (E z) (or_intror Hz)) as [<-|H]; [|exact H]. specialize (Fb y Hz). lra.
Qed.

(** Both coordinates rise. *)
Definition rising (l : list point) : Prop := StronglySorted (fun a b => fst a < fst b /\ snd a < snd b) l.
Lemma rising_strict l : rising l -> strict l.
Proof. induction 1 as [|a l H IH F]; constructor; [exact IH|]. eapply Forall_impl; [|exact F]. intros b [A _]. exact A. Qed.
Lemma rising_swap l : rising l -> rising (map swap l).
Proof.
  induction 1 as [|a l H IH F]; constructor; [exact IH|]. rewrite Forall_forall in *. intros b Hb. apply in_map_iff in Hb as [c [<- Hc]]. destruct (F c Hc). now split.
Qed.
Lemma rising_increasing l : rising l -> increasing l.
Proof.
  unfold increasing. induction 1 as [|a l H IH F]; [intros p q []|]. rewrite Forall_forall in F. intros p q [<-|Hp] [<-|Hq] L.
  - lra.
  - now apply F.
  - destruct (F p Hp). lra.
  - now apply IH.
Qed.
Lemma strict_different l : strict l -> different_x l.
Proof. induction 1 as [|a l H IH F]; constructor; [|exact IH]. eapply Forall_impl; [|exact F]. cbv beta. intros b A E. lra. Qed.

Lemma layers_rising area : 0 < area -> forall levels stor vol lev, (forall s, In s stor -> 0 < s) -> length stor = length levels -> StronglySorted Qlt (lev :: levels) ->
  rising ((lev, vol) :: combine levels (layer_volumes area vol lev levels stor)).
Proof.
  intros A. induction levels as [|l levels IH]; intros [|s stor] vol lev P L S; try discriminate; [repeat constructor|].
  cbn [layer_volumes combine]. apply StronglySorted_inv in S as [S F]. inversion F as [|? ? Fl Fr]; subst.
  assert (0 < s) as Ps by (apply P; now left). set (v := vol + area * s * (l - lev) * (1 # 1000)).
  assert (vol < v) as Lv.
  { unfold v. assert (0 < area * s * (l - lev)) by (apply Qmult_lt_0_compat; [now apply Qmult_lt_0_compat|lra]). lra. }
  assert (rising ((l, v) :: combine levels (layer_volumes area v l levels stor))) as R by (apply IH; [intros x Hx; apply P; now right|cbn in L; lia|exact S]).
  constructor; [exact R|]. constructor; [now split|]. apply StronglySorted_inv in R as [_ R]. eapply Forall_impl; [|exact R]. cbn. intros b [B1 B2]. split; lra.
Qed.
Lemma layer_volumes_length area : forall levels stor vol lev, length stor = length levels -> length (layer_volumes area vol lev levels stor) = length levels.
Proof. induction levels as [|l levels IH]; intros [|s stor] vol lev L; try discriminate; [reflexivity|]. cbn. f_equal. apply IH. cbn in L. lia. Qed.
Lemma layer_volumes_nth area : forall levels stor vol lev n, length stor = length levels -> (n < length levels)%nat ->
  nth (S n) (vol :: layer_volumes area vol lev levels stor) 0 - nth n (vol :: layer_volumes area vol lev levels stor) 0 ==
  area * nth n stor 0 * (nth (S n) (lev :: levels) 0 - nth n (lev :: levels) 0) * (1 # 1000).
Proof.
  induction levels as [|l levels IH]; intros [|s stor] vol lev n L Hn; try discriminate; [cbn in Hn; lia|]. cbn [layer_volumes]. destruct n as [|n]; [cbn; ring|].
  exact (IH stor (vol + area * s * (l - lev) * (1 # 1000)) l n ltac:(cbn in L; lia) ltac:(cbn in Hn; lia)).
Qed.

Lemma keating_Proper C Ts : forall ls a b, a == b -> keating C ls Ts a == keating C ls Ts b.
Proof.
  intros ls a b E. unfold keating. cut (forall Ts acc, keating_loop C a acc ls Ts == keating_loop C b acc ls Ts); [intros H; apply H|]. clear Ts.
  induction ls as [|l ls IH]; intros [|T Ts] acc; cbn [keating_loop]; try reflexivity.
  assert (forall Ts x y, x == y -> keating_loop C b x ls Ts == keating_loop C b y ls Ts) as Acc.
  { clear. induction ls as [|l ls IH]; intros [|T Ts] x y H; cbn [keating_loop]; try exact H. apply IH. destruct (qltb l b); [now rewrite H|exact H]. }
  rewrite IH. apply Acc. destruct (qltbP l a), (qltbP l b); try lra; try reflexivity. now rewrite E.
Qed.
