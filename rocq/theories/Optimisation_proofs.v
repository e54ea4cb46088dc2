(** Proofs about optimisation variables. *)
From Verif Require Import Base Ring Optimisation_model Optimisation_spec.
From Coq Require Import QArith.Qround.

(** ** Rounding *)

Lemma round_nearest q : nearest q (round_half_even q).
Proof.
  unfold nearest, round_half_even. pose proof (Qfloor_le q) as A. pose proof (Qlt_floor q) as B.
  rewrite inject_Z_plus in B. change (inject_Z 1) with 1 in B.
  set (f := Qfloor q) in *. cbv zeta.
  destruct (qltbP (q - inject_Z f) (1 # 2)); [lra|].
  destruct (qltbP (1 # 2) (q - inject_Z f)); [rewrite inject_Z_plus; change (inject_Z 1) with 1; lra|].
  destruct (Z.even f); [|rewrite inject_Z_plus; change (inject_Z 1) with 1]; lra.
Qed.

Lemma round_integer z : round_half_even (inject_Z z) = z.
Proof.
  unfold round_half_even. rewrite Qfloor_Z. cbv zeta. destruct (qltbP (inject_Z z - inject_Z z) (1 # 2)) as [_|N]; [reflexivity|].
  exfalso. apply N. ring_simplify (inject_Z z - inject_Z z). reflexivity.
Qed.

(** Rounding does not leave an interval with integer ends. *)
Lemma round_within q a b : inject_Z a <= q -> q <= inject_Z b -> (a <= round_half_even q <= b)%Z.
Proof.
  intros A B. pose proof (round_nearest q) as [C D]. set (z := round_half_even q) in *.
  split.
  - apply Z.le_ngt. intros L. assert (inject_Z (z + 1) <= inject_Z a) as L' by (rewrite <- Zle_Qle; lia).
    rewrite inject_Z_plus in L'. change (inject_Z 1) with 1 in L'. lra.
  - apply Z.le_ngt. intros L. assert (inject_Z (b + 1) <= inject_Z z) as L' by (rewrite <- Zle_Qle; lia).
    rewrite inject_Z_plus in L'. change (inject_Z 1) with 1 in L'. lra.
Qed.

(** ** Getters and setters *)

(** What the constructors guarantee. *)
Definition well_formed (p : parameter) : Prop :=
  match p with
  | Monthly values _ _ => length values = 12%nat
  | Harmonic _ a f => length a = length f
  | Curve values indices => Forall (fun i => (i < length values)%nat) indices
  | Rbf values days _ => length days = length values /\ days_accepted days = true
  | _ => True
  end.

Lemma get_double_length p : well_formed p -> length (get_double p) = double_size p.
Proof.
  destruct p; cbn; intros W; auto; [|now rewrite map_length].
  rewrite app_length. lia.
Qed.
Lemma get_integer_length p : well_formed p -> (0 < integer_size p)%nat -> length (get_integer p) = integer_size p.
Proof. destruct p as [| | | |values days [b|]|]; cbn; try lia. intros [W _] _. destruct days; cbn in *; lia. Qed.

Lemma writes_keep_length ps : forall (l : list Q), length (fold_left (fun l iv => upd l (fst iv) (snd iv)) ps l) = length l.
Proof. induction ps as [|[i v] ps IH]; intros l; cbn; [reflexivity|]. rewrite IH, upd_length. reflexivity. Qed.

Lemma writes_other (ps : list (nat * Q)) i : forall l, (forall x, In x ps -> (fst x < length l)%nat) -> ~ In i (map fst ps) ->
  nth i (fold_left (fun l iv => upd l (fst iv) (snd iv)) ps l) 0 = nth i l 0.
Proof.
  induction ps as [|[j v] ps IH]; intros l B N; cbn; [reflexivity|]. cbn in N.
  rewrite IH; [|intros x Hx; rewrite upd_length; apply B; now right|tauto].
  rewrite nth_upd by (apply (B (j, v)); now left). destruct (Nat.eqb_spec i j); [subst; tauto|reflexivity].
Qed.

(** Writing then reading the variable values of a control curve whose indices differ. *)
Lemma curve_read_write indices : forall (x values : list Q), NoDup indices -> Forall (fun i => (i < length values)%nat) indices -> length x = length indices ->
  map (fun i => nth i (fold_left (fun l iv => upd l (fst iv) (snd iv)) (combine indices x) values) 0) indices = x.
Proof.
  induction indices as [|i is IH]; intros x values N B L; destruct x as [|v x]; cbn in L; try lia; [reflexivity|].
  cbn [combine map fold_left]. apply NoDup_cons_iff in N as [N1 N2].
  pose proof (Forall_inv B) as B1. apply Forall_inv_tail in B. cbn [fst snd].
  assert (Forall (fun j => (j < length (upd values i v))%nat) is) as B' by (rewrite upd_length; exact B).
  f_equal.
  - rewrite writes_other.
    + rewrite nth_upd by exact B1. rewrite Nat.eqb_refl. reflexivity.
    + intros [j w] Hj. cbn. apply in_combine_l in Hj. rewrite Forall_forall in B'. auto.
    + intros H. apply N1. apply in_map_iff in H as ((j & w) & <- & Hj). apply in_combine_l in Hj. exact Hj.
  - apply IH; [exact N2|exact B'|lia].
Qed.

(** Writing what was read changes nothing. *)
Lemma upd_same (l : list Q) i : (i < length l)%nat -> upd l i (nth i l 0) = l.
Proof.
  intros H. apply (nth_ext _ _ 0 0); [apply upd_length|]. intros j Hj. rewrite nth_upd by exact H.
  destruct (Nat.eqb_spec j i); [subst|]; reflexivity.
Qed.
Lemma curve_write_back indices values : Forall (fun i => (i < length values)%nat) indices ->
  fold_left (fun l iv => upd l (fst iv) (snd iv)) (combine indices (map (fun i => nth i values 0) indices)) values = values.
Proof.
  induction 1 as [|i is B F IH]; cbn; [reflexivity|]. rewrite upd_same by exact B. exact IH.
Qed.

Lemma set_get_double p : well_formed p -> (0 < double_size p)%nat -> set_double (get_double p) p = Some p.
Proof.
  destruct p; cbn; intros W D; try lia.
  - reflexivity.
  - unfold assign_array. rewrite Nat.eqb_refl. reflexivity.
  - rewrite firstn_app, firstn_all, Nat.sub_diag, skipn_app, skipn_all, Nat.sub_diag. cbn [firstn skipn app]. rewrite app_nil_r.
    unfold assign_array. rewrite !Nat.eqb_refl. reflexivity.
  - rewrite map_length, Nat.eqb_refl, curve_write_back by exact W. reflexivity.
  - unfold assign_array. rewrite Nat.eqb_refl. reflexivity.
Qed.

Lemma days_first l : days_accepted l = true -> exists r, l = 1%Z :: r.
Proof.
  unfold days_accepted. rewrite !andb_true_iff, Z.eqb_eq, Nat.leb_le. intros [[[A B] _] _].
  destruct l as [|a r]; cbn in *; [lia|]. subst. eauto.
Qed.

Lemma set_get_integer p : well_formed p -> (0 < integer_size p)%nat -> set_integer (get_integer p) p = Some p.
Proof.
  destruct p as [| | | |values days [b|]|]; cbn; try lia. intros [W A] _. destruct (days_first _ A) as [r ->]. cbn. rewrite A. reflexivity.
Qed.

(** The indices of a control curve differ. *)
Definition distinct (p : parameter) : Prop := match p with Curve _ indices => NoDup indices | _ => True end.

Lemma get_set_double p x : well_formed p -> distinct p -> length x = double_size p -> (0 < double_size p)%nat ->
  exists p', set_double x p = Some p' /\ get_double p' = x /\ get_integer p' = get_integer p /\ double_size p' = double_size p /\
    integer_size p' = integer_size p /\ well_formed p' /\ distinct p'.
Proof.
  intros W D L P. destruct p as [v lo up|values lo up|mean a f|values indices|values days b|]; cbn in *; try lia.
  - destruct x as [|x [|]]; cbn in L; try lia. exists (Single x lo up). cbn. auto 10.
  - unfold assign_array. rewrite L, W, Nat.eqb_refl. exists (Monthly x lo up). cbn. auto 10.
  - destruct x as [|x r]; cbn in L; [lia|].
    assert (length (firstn (length a) r) = length a) as L1 by (rewrite firstn_length; lia).
    assert (length (skipn (length a) r) = length f) as L2 by (rewrite skipn_length; lia).
    unfold assign_array. rewrite L1, L2, !Nat.eqb_refl. exists (Harmonic x (firstn (length a) r) (skipn (length a) r)).
    cbn. rewrite firstn_skipn, L1, L2. auto 10.
  - rewrite L, Nat.eqb_refl. eexists. split; [reflexivity|]. cbn. rewrite curve_read_write by auto.
    rewrite writes_keep_length. auto 10.
  - unfold assign_array. rewrite L, Nat.eqb_refl. exists (Rbf x days b). cbn. rewrite L. destruct W. auto 10.
Qed.

(** ** Segments *)

Definition size (p : parameter) : nat := (double_size p + integer_size p)%nat.

Lemma slice_pieces (ns : list nat) : forall (l : list Q) ps, pieces l ns ps -> forall pre, 
  Forall2 (fun a p => slice a (a + length p) (pre ++ l) = p) (map (fun i => length pre + fold_right Nat.add 0 (firstn i ns))%nat (seq 0 (length ns))) ps.
Proof.
  induction ns as [|n ns IH]; intros l ps H pre; inversion H as [|x l' ? ? ps' Hx Hp]; subst; cbn [length seq map]; constructor.
  - cbn [firstn fold_right]. rewrite Nat.add_0_r. unfold slice. rewrite skipn_app, skipn_all, Nat.sub_diag. cbn [skipn app].
    replace (length pre + length x - length pre)%nat with (length x) by lia.
    rewrite firstn_app, firstn_all, Nat.sub_diag. cbn. apply app_nil_r.
  - specialize (IH l' ps' Hp (pre ++ x)). rewrite <- app_assoc in IH. rewrite <- seq_shift, map_map.
    erewrite map_ext; [exact IH|]. intros i. cbn [firstn fold_right]. rewrite app_length. lia.
Qed.

(** One variable, given its piece of the solution. *)
Definition write_piece (x : list Q) (p : parameter) : option parameter :=
  match (if (0 <? double_size p)%nat then set_double (firstn (double_size p) x) p else Some p) with
  | None => None
  | Some p1 => if (0 <? integer_size p)%nat then set_integer (map round_half_even (skipn (double_size p) x)) p1 else Some p1
  end.

Fixpoint write_pieces (xs : list (list Q)) (ps : list parameter) : option (list parameter) :=
  match xs, ps with
  | [], [] => Some []
  | x :: xr, p :: pr => match write_piece x p, write_pieces xr pr with Some p', Some r' => Some (p' :: r') | _, _ => None end
  | _, _ => None
  end.

Lemma write_one_piece sol a x p : slice a (a + length x) sol = x -> length x = size p -> write_one sol a (a + size p) p = write_piece x p.
Proof.
  intros S L. unfold write_one, write_piece. rewrite <- L, S. rewrite L. unfold size. rewrite Nat.eqb_refl. cbn [negb].
  replace (double_size p + integer_size p - integer_size p)%nat with (double_size p) by lia. reflexivity.
Qed.

Lemma variable_map_spec vars : forall last, Forall (fun p => (0 < size p)%nat) vars -> exists m, variable_map last vars = Some (last :: m) /\
  (forall pre sol xs, length pre = last -> pieces sol (map size vars) xs ->
     write_all (pre ++ sol) (last :: m) vars = write_pieces xs vars).
Proof.
  induction vars as [|v vars IH]; intros last F.
  - exists []. split; [reflexivity|]. intros pre sol xs _ H. inversion H. reflexivity.
  - pose proof (Forall_inv F) as F1. apply Forall_inv_tail in F. cbv beta in F1. cbn [variable_map]. fold (size v). 
    destruct (Nat.leb_spec (size v) 0); [lia|]. destruct (IH (last + size v)%nat F) as (m & M & K). rewrite M.
    exists ((last + size v)%nat :: m). split; [reflexivity|]. intros pre sol xs L H'. cbn [map] in H'.
    inversion H' as [|x sol' n ns ps Hx Hp]; subst. cbn [write_all write_pieces nth tl].
    rewrite (write_one_piece _ _ x).
    + rewrite app_assoc, (K (pre ++ x) sol' ps); [reflexivity|rewrite app_length; lia|exact Hp].
    + unfold slice. rewrite skipn_app, skipn_all, Nat.sub_diag. cbn [skipn app].
      replace (length pre + length x - length pre)%nat with (length x) by lia.
      rewrite firstn_app, firstn_all, Nat.sub_diag. cbn. apply app_nil_r.
    + exact Hx.
Qed.

Lemma variable_map_refused vars : forall last, (exists p, In p vars /\ size p = 0%nat) -> variable_map last vars = None.
Proof.
  induction vars as [|v vars IH]; intros last (p & Hp & Z); [contradiction|]. cbn [variable_map]. fold (size v).
  destruct (Nat.leb_spec (size v) 0); [reflexivity|]. rewrite IH; [reflexivity|]. destruct Hp as [->|Hp]; [lia|eauto].
Qed.

Lemma evaluate_pieces vars sol xs : Forall (fun p => (0 < size p)%nat) vars -> pieces sol (map size vars) xs ->
  evaluate sol vars = write_pieces xs vars.
Proof.
  intros F P. unfold evaluate. destruct (variable_map_spec vars 0 F) as (m & M & K). rewrite M. apply (K [] sol xs eq_refl P).
Qed.

Lemma pieces_exist {A} ns : forall l : list A, length l = fold_right Nat.add 0%nat ns -> exists ps, pieces l ns ps.
Proof.
  induction ns as [|n ns IH]; intros l L; cbn in L.
  - destruct l; [|discriminate]. exists []. constructor.
  - destruct (IH (skipn n l)) as [ps P]. { rewrite skipn_length. lia. }
    exists (firstn n l :: ps). rewrite <- (firstn_skipn n l) at 1. constructor; [rewrite firstn_length; lia|exact P].
Qed.

Lemma pieces_unique {A} ns : forall (l : list A) ps qs, pieces l ns ps -> pieces l ns qs -> ps = qs.
Proof.
  induction ns as [|n ns IH]; intros l ps qs P Q; inversion P as [|x l1 ? ? p1 E1 P1]; inversion Q as [|y l2 ? ? p2 E2 P2]; subst; [reflexivity|].
  assert (x = y /\ l1 = l2) as [-> ->].
  { match goal with H : _ ++ _ = _ ++ _ |- _ => apply app_eq_app in H end.
    match goal with H : exists _, _ |- _ => destruct H as (z & [[H1 H2]|[H1 H2]]) end; subst; rewrite app_length in *;
      destruct z; cbn in *; try lia; rewrite ?app_nil_r; auto. }
  f_equal. eauto.
Qed.

(** ** What is written *)

Lemma write_piece_spec x p p' : well_formed p -> distinct p -> length x = size p -> write_piece x p = Some p' ->
  get_double p' = firstn (double_size p) x /\
  (integer_size p <> 0%nat -> get_integer p' = map round_half_even (skipn (double_size p) x)) /\
  double_size p' = double_size p /\ integer_size p' = integer_size p.
Proof.
  intros W D L H. unfold write_piece, size in *.
  assert (exists p1, (if (0 <? double_size p)%nat then set_double (firstn (double_size p) x) p else Some p) = Some p1 /\
    get_double p1 = firstn (double_size p) x /\ double_size p1 = double_size p /\ integer_size p1 = integer_size p /\ well_formed p1) as (p1 & E & A & B & C & W1).
  { destruct (Nat.ltb_spec 0 (double_size p)) as [P|P].
    - destruct (get_set_double p (firstn (double_size p) x) W D) as (p1 & E & X & _ & Y & Z & W1 & _); [rewrite firstn_length; lia|exact P|].
      exists p1. auto.
    - exists p. split; [reflexivity|]. split; [|auto].
      pose proof (get_double_length p W) as G. assert (double_size p = 0%nat) as Z by lia. rewrite Z in *. cbn. destruct (get_double p); [reflexivity|cbn in G; lia]. }
  rewrite E in H. destruct (Nat.ltb_spec 0 (integer_size p)) as [P|P].
  - unfold set_integer in H. destruct p1 as [| | | |values days b|]; try discriminate.
    destruct (days_accepted _) eqn:DA; [|discriminate]. injection H as <-. cbn in *. auto.
  - injection H as <-. split; [exact A|]. split; [lia|]. auto.
Qed.

Lemma write_piece_current p : well_formed p -> (0 < size p)%nat ->
  let x := (if (0 <? double_size p)%nat then get_double p else []) ++ (if (0 <? integer_size p)%nat then map inject_Z (get_integer p) else []) in
  length x = size p /\ write_piece x p = Some p.
Proof.
  intros W P. cbv zeta. unfold size in *. pose proof (get_double_length p W) as G.
  assert ((if (0 <? double_size p)%nat then get_double p else []) = get_double p) as ->.
  { destruct (Nat.ltb_spec 0 (double_size p)); [reflexivity|]. destruct (get_double p); [reflexivity|cbn in G; lia]. }
  split.
  - rewrite app_length, G. f_equal. destruct (Nat.ltb_spec 0 (integer_size p)) as [I|I]; [rewrite map_length; apply get_integer_length; auto|cbn; lia].
  - unfold write_piece. rewrite <- G. rewrite firstn_app, firstn_all, Nat.sub_diag, skipn_app, skipn_all, Nat.sub_diag. cbn [firstn skipn app].
    rewrite app_nil_r, G.
    assert ((if (0 <? double_size p)%nat then set_double (get_double p) p else Some p) = Some p) as ->.
    { destruct (Nat.ltb_spec 0 (double_size p)); [apply set_get_double; auto|reflexivity]. }
    destruct (Nat.ltb_spec 0 (integer_size p)) as [I|I]; [|reflexivity].
    rewrite map_map. rewrite (map_ext _ (fun z => z)) by (intros; apply round_integer). rewrite map_id. apply set_get_integer; auto.
Qed.

Lemma evaluate_current vars : Forall well_formed vars -> Forall (fun p => (0 < size p)%nat) vars ->
  evaluate (current_solution vars) vars = Some vars.
Proof.
  intros W F. set (piece := fun v => (if (0 <? double_size v)%nat then get_double v else []) ++
                     (if (0 <? integer_size v)%nat then map inject_Z (get_integer v) else [])).
  rewrite (evaluate_pieces vars _ (map piece vars) F).
  - induction vars as [|v vars IH]; [reflexivity|]. cbn [map write_pieces].
    destruct (write_piece_current v) as [_ E]; [exact (Forall_inv W)|exact (Forall_inv F)|]. fold (piece v) in E. rewrite E.
    rewrite IH; [reflexivity| |]; eapply Forall_inv_tail; eauto.
  - unfold current_solution. fold piece. induction vars as [|v vars IH]; [constructor|]. cbn [flat_map map]. constructor.
    + apply write_piece_current; [exact (Forall_inv W)|exact (Forall_inv F)].
    + apply IH; eapply Forall_inv_tail; eauto.
Qed.

(** ** Days of a radial basis function profile *)

Lemma Forall2_length {A B} (R : A -> B -> Prop) l m : Forall2 R l m -> length l = length m.
Proof. induction 1; cbn; congruence. Qed.

Lemma increasing_cons a b l : increasing (a :: b :: l) = (a <? b)%Z && increasing (b :: l).
Proof. reflexivity. Qed.
Lemma spaced_cons g a b l : spaced g (a :: b :: l) = (g <? b - a)%Z && spaced g (b :: l).
Proof. reflexivity. Qed.

Definition within (x : list Z) (bs : list (Z * Z)) : Prop := Forall2 (fun d b => (fst b <= d <= snd b)%Z) x bs.

Lemma range_increasing r : forall days x a a', (0 < r)%Z -> spaced (2 * r) (a :: days) = true -> (a' <= a + r)%Z ->
  within x (map (fun d => (d - r, d + r)%Z) days) -> increasing (a' :: x) = true.
Proof.
  induction days as [|d days IH]; intros x a a' R H A W; inversion W as [|y b x' bs' Hy Hw]; subst; [reflexivity|].
  rewrite spaced_cons, andb_true_iff, Z.ltb_lt in H. destruct H as [H1 H2]. rewrite increasing_cons, andb_true_iff, Z.ltb_lt. cbn in Hy.
  split; [lia|]. eapply IH; eauto. lia.
Qed.

Lemma explicit_increasing lower : forall upper x a, no_overlap lower (a :: upper) = true -> (length upper <= length lower)%nat ->
  forall a', (a' <= a)%Z -> within x (combine lower upper) -> 
  increasing (a' :: x) = true.
Proof.
  induction lower as [|l lower IH]; intros upper x a H L a' A W.
  - destruct upper; inversion W; subst; reflexivity.
  - destruct upper as [|u upper]; cbn [combine] in W; inversion W as [|y b x' bs' Hy Hw]; subst; [reflexivity|]. cbn [fst snd] in Hy.
    cbn [no_overlap] in H. apply andb_true_iff in H as [H1 H2]. apply Z.ltb_lt in H1.
    rewrite increasing_cons, andb_true_iff, Z.ltb_lt. split; [lia|]. 
    eapply (IH upper x' u); [destruct lower; cbn in *; auto|cbn in L; lia| |exact Hw]. lia.
Qed.

Lemma no_overlap_removelast lower : forall upper, length upper = S (length lower) -> no_overlap lower (removelast upper) = no_overlap lower upper.
Proof.
  induction lower as [|l lower IH]; intros upper L; [reflexivity|]. destruct upper as [|u upper]; [discriminate|]. cbn [length] in L.
  destruct upper as [|u2 upper]; [discriminate|]. change (removelast (u :: u2 :: upper)) with (u :: removelast (u2 :: upper)).
  cbn [no_overlap]. rewrite IH by (cbn in *; lia). reflexivity.
Qed.
