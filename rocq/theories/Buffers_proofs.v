From Coq Require Import Permutation.
From Verif Require Import Base Ring Buffers_model.
Local Open Scope nat_scope.

(** ** Generalities *)
Lemma lastn_nth {A} (k : nat) (l : list A) d i : i < k -> k <= length l -> nth i (lastn k l) d = nth (length l - k + i) l d.
Proof.
  intros Hi Hk. unfold lastn. set (m := length l - k). clearbody m. revert i m Hi Hk. intros i m _ _.
  revert m i. induction l as [|a l IH]; intros m i; [rewrite skipn_nil; destruct i, m; reflexivity|].
  destruct m as [|m]; [reflexivity|]. cbn [skipn Nat.add nth]. apply IH.
Qed.

Lemma upd_app {A} (a b : list A) p v : p < length a -> upd (a ++ b) p v = upd a p v ++ b.
Proof. revert p. induction a as [|x a IH]; intros [|p] H; cbn in *; try lia; [reflexivity|]. f_equal. apply IH. lia. Qed.

Lemma firstn_upd {A} (l : list A) w p v : p < w -> firstn w (upd l p v) = upd (firstn w l) p v.
Proof.
  revert w p. induction l as [|x l IH]; intros w p H; [destruct w, p; reflexivity|].
  destruct w as [|w]; [lia|]. destruct p as [|p]; [reflexivity|]. cbn [upd firstn]. f_equal. apply IH. lia.
Qed.

Lemma next_pos_mod n p : p < n -> next_pos n p = (p + 1) mod n.
Proof.
  intros H. unfold next_pos. destruct (Nat.leb_spec n (p + 1)).
  - replace (p + 1) with n by lia. now rewrite Nat.mod_same by lia.
  - now rewrite Nat.mod_small by lia.
Qed.

Lemma unroll_Permutation {A} (l : list A) p : Permutation (unroll l p) l.
Proof.
  unfold unroll. rewrite <- (firstn_skipn p l) at 3. apply Permutation_app_comm.
Qed.

(** ** Delay *)
Lemma delay_after_push n s f : length (b_mem s) = n -> 1 <= n -> b_pos s < n ->
  (b_mem (delay_after n s f), b_pos (delay_after n s f)) = ring_push (b_mem s, b_pos s) f.
Proof.
  intros Hl Hn Hp. unfold delay_after, ring_push. cbn [b_mem b_pos fst snd]. rewrite Hl.
  destruct (Nat.ltb_spec 1 n); [reflexivity|]. replace n with 1 in * by lia. replace (b_pos s) with 0 by lia. reflexivity.
Qed.

Lemma delay_run_values n : 1 <= n -> forall h s, length (b_mem s) = n -> b_pos s < n ->
  forall t, t < length h -> nth_error (fst (delay_run n s h)) t = Some (nth t (unroll (b_mem s) (b_pos s) ++ h) 0%Q).
Proof.
  intros Hn. induction h as [|f h IH]; intros s Hl Hp t Ht; [cbn in Ht; lia|]. cbn [delay_run].
  pose proof (delay_after_push n s f Hl Hn Hp) as E. unfold ring_push in E. cbn [fst snd] in E.
  pose proof (f_equal fst E) as E1. pose proof (f_equal snd E) as E2. cbn [fst snd] in E1, E2. clear E.
  set (s' := delay_after n s f) in *.
  assert (length (b_mem s') = n) as Hl' by (rewrite E1, upd_length; exact Hl).
  assert (b_pos s' < n) as Hp' by (rewrite E2, Hl; apply Nat.mod_upper_bound; lia).
  specialize (IH s' Hl' Hp'). destruct (delay_run n s' h) as [vs s''] eqn:ER. cbn [fst] in *.
  assert (unroll (b_mem s') (b_pos s') = tl (unroll (b_mem s) (b_pos s)) ++ [f]) as EU by (rewrite E1, E2; apply unroll_step; lia).
  pose proof (unroll_length (b_mem s) (b_pos s) ltac:(lia)) as UL.
  destruct (unroll (b_mem s) (b_pos s)) as [|u us] eqn:EQ; [cbn in UL; lia|].
  destruct t as [|t]; cbn [nth_error].
  - f_equal. unfold delay_value. rewrite <- (unroll_head (b_mem s) (b_pos s) 0%Q) by lia. rewrite EQ. reflexivity.
  - rewrite IH by (cbn in Ht; lia). f_equal. rewrite EU. cbn [tl app nth]. now rewrite <- app_assoc.
Qed.

Lemma delay_run_length n : forall h s, length (fst (delay_run n s h)) = length h.
Proof.
  induction h as [|f h IH]; intros s; [reflexivity|]. cbn [delay_run]. specialize (IH (delay_after n s f)).
  destruct (delay_run n (delay_after n s f) h). cbn [fst length] in *. now rewrite IH.
Qed.

Lemma map_const {A B} (c : B) (l : list A) : map (fun _ => c) l = repeat c (length l).
Proof. induction l; cbn; congruence. Qed.

Lemma nth_repeat' {A} (c d : A) n i : i < n -> nth i (repeat c n) d = c.
Proof. revert i. induction n as [|n IH]; intros [|i] H; cbn; try lia; [reflexivity|]. apply IH. lia. Qed.

Lemma delay_after_length n s f : length (b_mem (delay_after n s f)) = length (b_mem s).
Proof. cbn. apply upd_length. Qed.

Lemma delay_run_end_length n : forall h s, length (b_mem (snd (delay_run n s h))) = length (b_mem s).
Proof.
  induction h as [|f h IH]; intros s; [reflexivity|]. cbn [delay_run]. specialize (IH (delay_after n s f)).
  destruct (delay_run n (delay_after n s f) h). cbn [snd] in *. now rewrite IH, delay_after_length.
Qed.

(** ** Windows *)

(** What the memory holds after the values [h]: [w] positions in use, [L] rows allocated. *)
Definition holds (w : nat) (h : list Q) (s : buffer) : Prop :=
  (length h <= w -> firstn (length h) (b_mem s) = h) /\
  (w <= length h -> Permutation (firstn w (b_mem s)) (lastn w h)) /\
  (w <= length (b_mem s) -> w <= length h -> unroll (firstn w (b_mem s)) (b_pos s) = lastn w h) /\
  b_pos s = length h mod w.

Lemma holds_nil w s : 1 <= w -> b_pos s = 0 -> holds w [] s.
Proof.
  intros Hw Hp. unfold holds. cbn [length]. rewrite Hp. repeat split; intros; try lia. now rewrite Nat.mod_0_l by lia.
Qed.

Lemma holds_step w h s v : 1 <= w -> holds w h s -> (w <= length (b_mem s) \/ length h < length (b_mem s)) ->
  holds w (h ++ [v]) (mean_after w s v).
Proof.
  intros Hw [H1 [H2 [H3 H4]]] HL. unfold holds, mean_after. cbn [b_mem b_pos]. rewrite app_length. cbn [length].
  assert (b_pos s < w) as Hp by (rewrite H4; apply Nat.mod_upper_bound; lia).
  assert (length h < w -> b_pos s = length h) as Hlin by (intros; rewrite H4; apply Nat.mod_small; lia).
  assert (length h < w -> firstn (length h + 1) (upd (b_mem s) (b_pos s) v) = h ++ [v]) as L1.
  { intros Hlt. rewrite (Hlin Hlt). replace (length h + 1) with (S (length h)) by lia.
    rewrite firstn_upd_S by lia. now rewrite H1 by lia. }
  assert (w <= length (b_mem s) -> w <= length h + 1 -> unroll (firstn w (upd (b_mem s) (b_pos s) v)) (next_pos w (b_pos s)) = lastn w (h ++ [v])) as L3.
  { intros HwL Hlen. rewrite firstn_upd by lia. rewrite next_pos_mod by lia.
    assert (length (firstn w (b_mem s)) = w) as HF by (rewrite firstn_length; lia).
    destruct (Nat.eq_dec (length h + 1) w) as [E|E].
    - assert (b_pos s = length h) as -> by (apply Hlin; lia).
      rewrite E, Nat.mod_same by lia. unfold unroll. rewrite firstn_O, skipn_O, app_nil_r, lastn_all by (rewrite app_length; cbn; lia).
      rewrite <- firstn_upd by lia. rewrite <- E. rewrite <- (L1 ltac:(lia)). f_equal. f_equal. symmetry. apply Hlin. lia.
    - rewrite <- (lastn_tl w h v) by lia. rewrite <- (H3 HwL ltac:(lia)).
      pose proof (unroll_step (firstn w (b_mem s)) (b_pos s) v) as U. rewrite HF in U. now apply U. }
  split; [intros; apply L1; lia|]. split; [|split; [rewrite upd_length; exact L3|]].
  - intros Hlen. destruct (le_lt_dec w (length (b_mem s))) as [HwL|HwL].
    + rewrite <- (L3 HwL Hlen). symmetry. apply unroll_Permutation.
    + destruct HL as [HL|HL]; [lia|]. assert (w = length h + 1) as -> by lia. rewrite lastn_all by (rewrite app_length; cbn; lia).
      rewrite L1 by lia. reflexivity.
  - rewrite next_pos_mod by lia. rewrite H4. rewrite Nat.add_mod_idemp_l by lia. reflexivity.
Qed.

(** The slice that is aggregated. *)
Lemma holds_slice w h s : 1 <= w -> holds w h s ->
  Permutation (firstn (Nat.min (length h) w) (b_mem s)) (lastn w h).
Proof.
  intros Hw [H1 [H2 _]]. destruct (le_lt_dec w (length h)).
  - rewrite Nat.min_r by lia. now apply H2.
  - rewrite Nat.min_l by lia. rewrite H1 by lia. rewrite lastn_all by lia. reflexivity.
Qed.

Lemma mean_after_length w s v : length (b_mem (mean_after w s v)) = length (b_mem s).
Proof. cbn. apply upd_length. Qed.

Lemma mean_Permutation a b : Permutation a b -> (mean a == mean b)%Q.
Proof. intros P. unfold mean. rewrite (Permutation_length P), (qsum_Permutation a b P). reflexivity. Qed.

Lemma mean_run_spec n initial : 1 <= n -> forall h done s, holds n done s -> length (b_mem s) = n ->
  forall t, t < length h ->
  exists v, nth_error (mean_run n initial (length done) s h) t = Some v /\
    (v == if Nat.eqb (length done + t) 0 then initial else mean (lastn n (done ++ firstn t h)))%Q.
Proof.
  intros Hn. induction h as [|f h IH]; intros done s Hs Hl t Ht; [cbn in Ht; lia|]. cbn [mean_run]. destruct t as [|t].
  - cbn [nth_error firstn]. eexists. split; [reflexivity|]. rewrite app_nil_r, Nat.add_0_r. unfold mean_value.
    destruct (Nat.eqb (length done) 0); [reflexivity|]. apply mean_Permutation.
    replace (if Nat.leb (length done) n then length done else n) with (Nat.min (length done) n) by (destruct (Nat.leb_spec (length done) n); lia).
    now apply holds_slice.
  - cbn [nth_error firstn]. specialize (IH (done ++ [f]) (mean_after n s f)).
    rewrite app_length in IH. cbn [length] in IH. replace (length done + 1) with (S (length done)) in IH by lia.
    destruct (IH) with (t := t) as [v [V1 V2]].
    + apply holds_step; auto. left. lia.
    + now rewrite mean_after_length.
    + cbn in Ht. lia.
    + exists v. split; [exact V1|]. rewrite <- app_assoc in V2. cbn [app] in V2. replace (length done + S t) with (S (length done) + t) by lia. exact V2.
Qed.

Lemma window_run_spec agg w : 1 <= w -> forall h done s, holds w done s ->
  (w <= length (b_mem s) \/ length done + length h <= length (b_mem s)) ->
  forall t, t < length h ->
  exists l, nth_error (window_run agg w (length done) s h) t = Some (agg l) /\ Permutation l (lastn w (done ++ firstn (S t) h)).
Proof.
  intros Hw. induction h as [|f h IH]; intros done s Hs Hl t Ht; [cbn in Ht; lia|]. cbn [window_run]. unfold window_after.
  change {| b_mem := upd (b_mem s) (b_pos s) f; b_pos := next_pos w (b_pos s) |} with (mean_after w s f).
  assert (holds w (done ++ [f]) (mean_after w s f)) as H'.
  { apply holds_step; auto. destruct Hl as [Hl|Hl]; [now left|right; cbn in Hl; lia]. }
  destruct t as [|t].
  - cbn [nth_error]. eexists. split; [reflexivity|]. cbn [firstn].
    pose proof (holds_slice w (done ++ [f]) _ Hw H') as P. cbn [mean_after b_mem] in P.
    rewrite app_length in P. cbn [length] in P.
    replace (if Nat.ltb (length done) w then length done + 1 else w) with (Nat.min (length done + 1) w); [exact P|].
    destruct (Nat.ltb_spec (length done) w); lia.
  - cbn [nth_error]. specialize (IH (done ++ [f]) (mean_after w s f) H').
    rewrite app_length in IH. cbn [length] in IH. replace (length done + 1) with (S (length done)) in IH by lia.
    destruct (IH) with (t := t) as [l [L1 L2]].
    + rewrite mean_after_length. destruct Hl as [Hl|Hl]; [now left|right; cbn in Hl; lia].
    + cbn in Ht. lia.
    + exists l. split; [exact L1|]. rewrite <- app_assoc in L2. exact L2.
Qed.
