(** Proofs about the bisection search. *)
From Verif Require Import Base Bisect_model.
From Coq Require Import Floats.SpecFloat QArith.Qpower QArith.Qround.

(** ** Termination with exact numbers *)

(** The gap after k halvings. *)
Fixpoint gap (g : Q) (k : nat) : Q := match k with O => g | S k => gap (g / 2) k end.

Lemma gap_pow g k : gap g k * (2 ^ Z.of_nat k) == g.
Proof.
  revert g. induction k as [|k IH]; intros g; [cbn; field|].
  rewrite Nat2Z.inj_succ, <- Z.add_1_r, Qpower_plus by discriminate. cbn [gap].
  assert (gap (g / 2) k * (2 ^ Z.of_nat k * 2 ^ 1) == (gap (g / 2) k * 2 ^ Z.of_nat k) * 2) as -> by (cbn; ring).
  rewrite IH. field.
Qed.

Lemma gap_comp g h k : g == h -> gap g k == gap h k.
Proof. revert g h. induction k as [|k IH]; intros g h H; cbn [gap]; [exact H|]. apply IH. rewrite H. reflexivity. Qed.

Lemma pow2_ge k : 1 + inject_Z (Z.of_nat k) <= 2 ^ Z.of_nat k.
Proof.
  induction k as [|k IH]; [vm_compute; discriminate|]. rewrite Nat2Z.inj_succ, <- Z.add_1_r, Qpower_plus by discriminate.
  assert (inject_Z (Z.of_nat k + 1) == inject_Z (Z.of_nat k) + 1) as -> by (rewrite inject_Z_plus; reflexivity).
  assert (0 <= inject_Z (Z.of_nat k)) by (change 0 with (inject_Z 0); rewrite <- Zle_Qle; lia).
  change (2 ^ 1) with 2. lra.
Qed.

Lemma gap_le g h k : g <= h -> gap g k <= gap h k.
Proof. revert g h. induction k as [|k IH]; intros g h H; cbn [gap]; [exact H|]. apply IH. apply Qmult_le_compat_r; [exact H|discriminate]. Qed.

(** Enough halvings for any epsilon. *)
Lemma gap_small g eps : 0 < eps -> exists k, gap g k <= eps.
Proof.
  intros E. destruct (Qlt_le_dec g 0) as [N|N]. { exists O. cbn. lra. }
  set (z := Qceiling (g / eps)). exists (Z.to_nat z).
  assert (0 <= g / eps) as D by (apply Qle_shift_div_l; [exact E|lra]).
  assert (g / eps <= inject_Z z) as C by apply Qle_ceiling.
  assert (0 <= z)%Z as Z0 by (rewrite Zle_Qle; change (inject_Z 0) with 0; lra).
  pose proof (pow2_ge (Z.to_nat z)) as P. rewrite Z2Nat.id in P by exact Z0.
  pose proof (gap_pow g (Z.to_nat z)) as G. rewrite Z2Nat.id in G by exact Z0.
  set (p := 2 ^ z) in *. set (y := gap g (Z.to_nat z)) in *.
  assert (g <= eps * p) as H.
  { assert (g == eps * (g / eps)) as -> by (field; lra). apply Qmult_le_l; [exact E|]. lra. }
  apply Qnot_lt_le. intros L.
  assert (eps * p < y * p). { apply Qmult_lt_compat_r; [|exact L]. assert (0 <= inject_Z z) by (change 0 with (inject_Z 0); rewrite <- Zle_Qle; exact Z0). lra. }
  lra.
Qed.

Definition fin (f : xnum -> bool) (q : Q) : bool := f (Xq q).

Section Exact.
  Variable feasible : xnum -> bool.
  Variable eps : Q.
  Hypothesis eps_pos : 0 < eps.

  (** A best value: minus infinity or a tested feasible one. *)
  Definition best_ok (best : xnum) (tried : list xnum) : Prop :=
    (best = XNeg /\ forall x, In x tried -> feasible x = false) \/
    (exists b, best = Xq b /\ In best tried /\ fin feasible b = true).

  Record good (lo hi m M : Q) (best : xnum) (tried : list xnum) : Prop := {
    g_range : lo <= m /\ m < M /\ M <= hi;
    g_best : best_ok best tried;
    g_low : match best with Xq b => m == b | _ => m = lo end;
    g_high : M == hi \/ fin feasible M = false;
    g_tried : forall x, In x tried -> exists q, x = Xq q /\ lo < q < hi }.

  Lemma loop_step fuel m M best tried :
    loop exact feasible (Xq eps) fuel (Xq m) (Xq M) best tried =
    if qltb eps (M - m) then
      match fuel with
      | O => None
      | S fuel =>
          let c := (M + m) / 2 in
          if fin feasible c then loop exact feasible (Xq eps) fuel (Xq c) (Xq M) (py_max exact best (Xq c)) (Xq c :: tried)
          else loop exact feasible (Xq eps) fuel (Xq m) (Xq c) best (Xq c :: tried)
      end
    else Some (Xq m, Xq M, best, tried).
  Proof. destruct fuel; reflexivity. Qed.

  (** The loop makes exactly as many runs as the gap has to be halved to reach epsilon. *)
  Lemma loop_runs lo hi k : forall fuel m M best tried, good lo hi m M best tried -> gap (M - m) k <= eps -> (forall j, (j < k)%nat -> eps < gap (M - m) j) ->
    if (fuel <? k)%nat then loop exact feasible (Xq eps) fuel (Xq m) (Xq M) best tried = None
    else exists m' M' best' new,
      loop exact feasible (Xq eps) fuel (Xq m) (Xq M) best tried = Some (Xq m', Xq M', best', new ++ tried) /\
      length new = k /\ good lo hi m' M' best' (new ++ tried) /\ M' - m' <= eps.
  Proof.
    induction k as [|k IH]; intros fuel m M best tried G L H.
    - cbn [gap] in L. rewrite loop_step. replace (fuel <? 0)%nat with false by (symmetry; apply Nat.ltb_ge; lia).
      destruct (qltbP eps (M - m)); [lra|]. exists m, M, best, []. auto.
    - assert (eps < M - m) as B by (apply (H O); lia).
      rewrite loop_step. destruct (qltbP eps (M - m)) as [_|N]; [|lra].
      destruct fuel as [|fuel]; [reflexivity|]. cbv zeta. set (c := (M + m) / 2).
      assert (M - c == (M - m) / 2) as E1 by (unfold c; field). assert (c - m == (M - m) / 2) as E2 by (unfold c; field).
      assert (m < c /\ c < M) as [C1 C2] by (unfold c; split; [apply Qlt_shift_div_l|apply Qlt_shift_div_r]; lra).
      destruct G as [(R1 & R2 & R3) Gb Gl Gh Gt].
      assert (forall x, In x (Xq c :: tried) -> exists q, x = Xq q /\ lo < q < hi) as Gt'.
      { intros x [<-|Hx]; [exists c; split; [reflexivity|lra]|auto]. }
      destruct (fin feasible c) eqn:F.
      + assert (py_max exact best (Xq c) = Xq c) as PM.
        { unfold py_max. destruct Gb as [[-> _]|(b & -> & _ & _)]; [reflexivity|]. cbn.
          cbn in Gl. destruct (qltbP b c) as [_|N]; [reflexivity|lra]. }
        rewrite PM.
        assert (good lo hi c M (Xq c) (Xq c :: tried)) as G'.
        { constructor; [lra| |reflexivity|exact Gh|exact Gt'].
          right. exists c. split; [reflexivity|]. split; [now left|exact F]. }
        specialize (IH fuel c M (Xq c) (Xq c :: tried) G').
        change (S fuel <? S k)%nat with (fuel <? k)%nat.
        assert (gap (M - c) k <= eps) as L'. { rewrite (gap_comp _ _ k E1). exact L. }
        assert (forall j, (j < k)%nat -> eps < gap (M - c) j) as H'.
        { intros j Hj. rewrite (gap_comp _ _ j E1). apply (H (S j)). lia. }
        specialize (IH L' H'). destruct (fuel <? k)%nat; [exact IH|].
        destruct IH as (m' & M' & best' & new & I1 & I2 & I3 & I4). exists m', M', best', (new ++ [Xq c]).
        rewrite <- app_assoc. cbn [app]. repeat split; auto; try apply I3. rewrite app_length, I2. cbn. lia.
      + assert (good lo hi m c best (Xq c :: tried)) as G'.
        { constructor; [lra| |exact Gl|auto|exact Gt'].
          destruct Gb as [[-> N]|(b & -> & I1 & I2)]; [left|right].
          - split; [reflexivity|]. intros x [<-|Hx]; [exact F|auto].
          - exists b. split; [reflexivity|]. split; [now right|exact I2]. }
        change (S fuel <? S k)%nat with (fuel <? k)%nat.
        specialize (IH fuel m c best (Xq c :: tried) G').
        assert (gap (c - m) k <= eps) as L'. { rewrite (gap_comp _ _ k E2). exact L. }
        assert (forall j, (j < k)%nat -> eps < gap (c - m) j) as H'.
        { intros j Hj. rewrite (gap_comp _ _ j E2). apply (H (S j)). lia. }
        specialize (IH L' H'). destruct (fuel <? k)%nat; [exact IH|].
        destruct IH as (m' & M' & best' & new & I1 & I2 & I3 & I4). exists m', M', best', (new ++ [Xq c]).
        rewrite <- app_assoc. cbn [app]. repeat split; auto; try apply I3. rewrite app_length, I2. cbn. lia.
  Qed.

  Lemma good_start lo hi : lo < hi -> good lo hi lo hi XNeg [].
  Proof.
    intros H. constructor; [lra| |reflexivity|left; reflexivity|easy].
    left. split; [reflexivity|easy].
  Qed.

End Exact.

Lemma least_halvings eps (eps_pos : 0 < eps) g : exists k, gap g k <= eps /\ forall j, (j < k)%nat -> eps < gap g j.
Proof.
  destruct (gap_small g eps eps_pos) as [k K]. revert K. induction k as [k IH] using lt_wf_ind. intros K.
  destruct (existsb (fun j => qleb (gap g j) eps) (seq 0 k)) eqn:E.
  - apply existsb_exists in E as (j & Hj & Hq). apply in_seq in Hj. destruct (qlebP (gap g j) eps) as [L|]; [|discriminate].
    apply (IH j); [lia|exact L].
  - exists k. split; [exact K|]. intros j Hj. apply Qnot_le_lt. intros L.
    assert (existsb (fun j => qleb (gap g j) eps) (seq 0 k) = true) as T; [|congruence].
    apply existsb_exists. exists j. split; [apply in_seq; lia|]. destruct (qlebP (gap g j) eps); [reflexivity|contradiction].
Qed.

(** ** Loops that never end *)

Lemma loop_fixed A feasible eps m M c :
  gtb A (sub A M m) eps = true -> half A (add A M m) = c ->
  (feasible c = true /\ c = m \/ feasible c = false /\ c = M) ->
  forall fuel best tried, loop A feasible eps fuel m M best tried = None.
Proof.
  intros H E C fuel. induction fuel as [|fuel IH]; intros best tried; cbn [loop]; rewrite H; [reflexivity|].
  cbv zeta. rewrite E. destruct C as [[F ->]|[F ->]]; rewrite F; apply IH.
Qed.
