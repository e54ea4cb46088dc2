(** Circular buffers: a list and a position, the oldest entry sits at the position. *)
From Verif Require Import Base.
Local Open Scope nat_scope.

Fixpoint upd {A} (l : list A) (k : nat) (v : A) : list A :=
  match l, k with
  | [], _ => []
  | _ :: r, O => v :: r
  | a :: r, S k => a :: upd r k v
  end.

(** Oldest entry first. *)
Definition unroll {A} (l : list A) (p : nat) : list A := skipn p l ++ firstn p l.

(** Last [k] elements. *)
Definition lastn {A} (k : nat) (l : list A) : list A := skipn (length l - k) l.

Lemma upd_length {A} (l : list A) : forall k v, length (upd l k v) = length l.
Proof. induction l as [|a l IH]; intros [|k] v; cbn; auto. Qed.

Lemma nth_upd {A} (l : list A) d : forall k v j, (k < length l)%nat ->
  nth j (upd l k v) d = if Nat.eqb j k then v else nth j l d.
Proof.
  induction l as [|a l IH]; intros [|k] v j H; cbn in *; try lia.
  - destruct j; reflexivity.
  - destruct j as [|j]; [reflexivity|]. cbn. apply IH. lia.
Qed.

Lemma skipn_upd_S {A} (l : list A) : forall p v, skipn (S p) (upd l p v) = skipn (S p) l.
Proof. induction l as [|a l IH]; intros [|p] v; cbn; try reflexivity. specialize (IH p v). cbn in IH. exact IH. Qed.

Lemma firstn_upd_S {A} (l : list A) : forall p v, (p < length l)%nat -> firstn (S p) (upd l p v) = firstn p l ++ [v].
Proof. induction l as [|a l IH]; intros [|p] v H; cbn in *; try lia; try reflexivity. f_equal. apply (IH p v). lia. Qed.

Lemma skipn_cons_nth {A} (l : list A) d : forall p, (p < length l)%nat -> skipn p l = nth p l d :: skipn (S p) l.
Proof. induction l as [|a l IH]; intros [|p] H; cbn in *; try lia; try reflexivity. apply IH. lia. Qed.

Lemma firstn_S_nth {A} (l : list A) d : forall p, (p < length l)%nat -> firstn (S p) l = firstn p l ++ [nth p l d].
Proof. induction l as [|a l IH]; intros [|p] H; cbn in *; try lia; try reflexivity. f_equal. apply IH. lia. Qed.

Lemma unroll_length {A} (l : list A) p : (p <= length l)%nat -> length (unroll l p) = length l.
Proof. intros H. unfold unroll. rewrite app_length, skipn_length, firstn_length. lia. Qed.

Lemma unroll_head {A} (l : list A) p d : (p < length l)%nat -> hd d (unroll l p) = nth p l d.
Proof. intros H. unfold unroll. now rewrite (skipn_cons_nth l d p H). Qed.

(** Writing at the position and advancing it drops the oldest entry and appends the new one. *)
Lemma unroll_step {A} (l : list A) p v : (p < length l)%nat ->
  unroll (upd l p v) ((p + 1) mod length l) = tl (unroll l p) ++ [v].
Proof.
  intros H. assert (tl (unroll l p) = skipn (S p) l ++ firstn p l) as ->.
  { unfold unroll. rewrite (skipn_cons_nth l v p H). reflexivity. }
  destruct (Nat.eq_dec (p + 1) (length l)) as [E|E].
  - rewrite E, Nat.mod_same by lia.
    rewrite (skipn_all2 l) by lia. cbn [app].
    unfold unroll. rewrite firstn_O, skipn_O, app_nil_r.
    rewrite <- (firstn_all (upd l p v)), upd_length. rewrite <- E. replace (p + 1) with (S p) by lia.
    now apply firstn_upd_S.
  - rewrite Nat.mod_small by lia. unfold unroll. replace (p + 1) with (S p) by lia.
    rewrite skipn_upd_S, firstn_upd_S by lia. now rewrite app_assoc.
Qed.

Lemma lastn_all {A} k (l : list A) : (length l <= k)%nat -> lastn k l = l.
Proof. intros H. unfold lastn. replace (length l - k) with 0 by lia. reflexivity. Qed.

Lemma lastn_length {A} k (l : list A) : length (lastn k l) = Nat.min k (length l).
Proof. unfold lastn. rewrite skipn_length. lia. Qed.

Lemma tl_skipn {A} (l : list A) : tl l = skipn 1 l.
Proof. destruct l; reflexivity. Qed.

Lemma skipn_skipn {A} a : forall b (l : list A), skipn a (skipn b l) = skipn (a + b) l.
Proof.
  intros b l. revert b. induction l as [|x l IH]; intros b; [now rewrite !skipn_nil|].
  destruct b as [|b]; [now rewrite Nat.add_0_r|]. replace (a + S b) with (S (a + b)) by lia. cbn [skipn]. apply IH.
Qed.

Lemma lastn_tl {A} k (l : list A) v : (0 < k)%nat -> (k <= length l)%nat -> tl (lastn k l) ++ [v] = lastn k (l ++ [v]).
Proof.
  intros Hk H. unfold lastn. rewrite app_length. cbn [length]. rewrite tl_skipn, skipn_skipn.
  replace (1 + (length l - k)) with (length l + 1 - k) by lia.
  rewrite skipn_app. replace (length l + 1 - k - length l) with 0 by lia. reflexivity.
Qed.

(** A buffer fed with the values [h], one after the other. *)
Definition ring_push {A} (s : list A * nat) (v : A) : list A * nat :=
  (upd (fst s) (snd s) v, (snd s + 1) mod length (fst s)).

Lemma ring_run {A} (h : list A) : forall mem p, (p < length mem)%nat ->
  let s := fold_left ring_push h (mem, p) in
  length (fst s) = length mem /\ (snd s < length mem)%nat /\
  unroll (fst s) (snd s) = lastn (length mem) (unroll mem p ++ h).
Proof.
  induction h as [|v h IH]; intros mem p H.
  - cbn. rewrite app_nil_r, lastn_all by (rewrite unroll_length; lia). auto.
  - change (fold_left ring_push (v :: h) (mem, p)) with (fold_left ring_push h (upd mem p v, (p + 1) mod length mem)).
    specialize (IH (upd mem p v) ((p + 1) mod length mem)).
    rewrite upd_length in IH. destruct IH as [H1 [H2 H3]]; [apply Nat.mod_upper_bound; lia|].
    cbn zeta. split; [exact H1|split; [exact H2|]]. rewrite H3, unroll_step by exact H.
    assert (forall (q : list A) w, length q = length mem -> lastn (length mem) ((tl q ++ [w]) ++ h) = lastn (length mem) (q ++ w :: h)) as E.
    { intros q w Hq. destruct q as [|a q]; [cbn in Hq; lia|]. cbn [tl]. rewrite <- app_assoc. cbn [app]. unfold lastn.
      rewrite !app_length. cbn [length] in *. rewrite app_length. cbn [length].
      replace (S (length q + S (length h)) - length mem) with (S (length q + S (length h) - length mem)) by lia.
      reflexivity. }
    apply E. apply unroll_length. lia.
Qed.
