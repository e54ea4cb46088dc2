(** Property theorems about optimisation variables (C63, C72). *)
From Verif Require Import Base Ring Optimisation_model Optimisation_spec Optimisation_proofs.
From Coq Require Import QArith.Qround.

(** C63: a candidate of the right length is cut into consecutive pieces, one for each variable parameter, in order; after it is
    written the doubles of each parameter are the first part of its own piece, and its integers the nearest integers to the rest. *)
Theorem C63_own_segment : forall vars solution vars',
  Forall well_formed vars -> Forall distinct vars -> Forall (fun p => 0 < double_size p + integer_size p)%nat vars ->
  length solution = fold_right Nat.add 0%nat (map (fun p => double_size p + integer_size p)%nat vars) ->
  evaluate solution vars = Some vars' ->
  exists xs, pieces solution (map (fun p => double_size p + integer_size p)%nat vars) xs /\
    Forall2 (fun x p => exists ds zs, x = ds ++ zs /\ get_double p = ds /\
               (integer_size p <> 0%nat -> Forall2 nearest zs (get_integer p)) /\ length zs = integer_size p) xs vars' /\
    Forall2 (fun p p' => double_size p' = double_size p /\ integer_size p' = integer_size p) vars vars'.
Proof.
  intros vars sol vars' W D F L H. destruct (pieces_exist _ _ L) as [xs P]. exists xs. split; [exact P|].
  rewrite (evaluate_pieces vars sol xs F P) in H. clear L. revert sol xs vars' P H. fold size.
  induction vars as [|p vars IH]; intros sol xs vars' P H; cbn [map] in P; inversion P as [|x l n ns ps Hx Hp]; subst; cbn [write_pieces] in H.
  - injection H as <-. split; constructor.
  - destruct (write_piece x p) as [p'|] eqn:E; [|discriminate]. destruct (write_pieces ps vars) as [r'|] eqn:E'; [|discriminate].
    injection H as <-. apply Forall_inv in W as W1. apply Forall_inv in D as D1. apply Forall_inv_tail in W, D, F.
    destruct (IH W D F l ps r' Hp E') as [I1 I2].
    destruct (write_piece_spec x p p' W1 D1 Hx E) as (A & B & C1 & C2).
    split; constructor; auto.
    exists (firstn (double_size p) x), (skipn (double_size p) x). split; [symmetry; apply firstn_skipn|]. split; [exact A|].
    split; [|rewrite skipn_length, C2; unfold size in Hx; lia]. rewrite C2. intros N. rewrite (B N). clear. induction (skipn (double_size p) x); cbn; constructor; [apply round_nearest|assumption].
Qed.
Print Assumptions C63_own_segment.

(** C63: writing back the solution read from the present model changes nothing. *)
Theorem C63_write_back : forall vars, Forall well_formed vars -> Forall (fun p => 0 < double_size p + integer_size p)%nat vars ->
  length (current_solution vars) = fold_right Nat.add 0%nat (map (fun p => double_size p + integer_size p)%nat vars) /\
  evaluate (current_solution vars) vars = Some vars.
Proof.
  intros vars W F. split; [|apply evaluate_current; auto].
  unfold current_solution. induction vars as [|v vars IH]; [reflexivity|]. cbn [flat_map map fold_right]. rewrite app_length, IH.
  - f_equal. apply write_piece_current; [exact (Forall_inv W)|exact (Forall_inv F)].
  - eapply Forall_inv_tail; eauto.
  - eapply Forall_inv_tail; eauto.
Qed.
Print Assumptions C63_write_back.

(** C63: a variable parameter without variables is refused. *)
Theorem C63_empty_refused : forall vars solution p, In p vars -> double_size p = 0%nat -> integer_size p = 0%nat -> evaluate solution vars = None.
Proof.
  intros vars sol p H A B. unfold evaluate. rewrite variable_map_refused; [reflexivity|]. exists p. unfold size. rewrite A, B. auto.
Qed.
Print Assumptions C63_empty_refused.

(** C63: a candidate of the wrong length is refused (the assertion on the length of the slice), for at least one variable and
    a candidate that is too short. *)
Theorem C63_short_refused : forall vars solution, vars <> [] -> Forall (fun p => 0 < double_size p + integer_size p)%nat vars ->
  (length solution < fold_right Nat.add 0%nat (map (fun p => double_size p + integer_size p)%nat vars))%nat -> evaluate solution vars = None.
Proof.
  intros vars sol N F L. unfold evaluate.
  assert (forall last m, variable_map last vars = Some m -> (length sol < last + fold_right Nat.add 0%nat (map size vars))%nat -> write_all sol m vars = None) as K.
  { clear L. induction vars as [|v vars IH]; [congruence|]. intros last m M L. cbn [variable_map] in M. fold (size v) in M.
    destruct (size v <=? 0)%nat eqn:Z; [discriminate|]. apply Nat.leb_gt in Z. destruct (variable_map (last + size v) vars) as [m'|] eqn:M'; [|discriminate]. injection M as <-.
    cbn [write_all nth tl map fold_right] in *. apply Forall_inv_tail in F.
    destruct vars as [|w vars].
    - cbn in M'. injection M' as <-. cbn [nth]. unfold write_one, slice. rewrite firstn_length, skipn_length. fold (size v). cbn in L.
      destruct (Nat.eqb_spec (Nat.min (last + size v - last) (length sol - last)) (size v)); [lia|]. reflexivity.
    - rewrite (IH ltac:(discriminate) F (last + size v)%nat m' M') by lia. destruct (write_one _ _ _ _); reflexivity. }
  destruct (variable_map_spec vars 0 F) as (m & M & _). rewrite M. apply (K 0%nat); auto.
Qed.
Print Assumptions C63_short_refused.

Definition ex_vars : list parameter :=
  [Single 5 0 10; Curve [1; 2; 3] [2%nat; 0%nat]; Rbf [1; 2; 3] [1; 100; 200]%Z (Some [(90, 110); (190, 210)]%Z); Harmonic 1 [2] [3]].
Example C63_example :
  Forall well_formed ex_vars /\ Forall distinct ex_vars /\ Forall (fun p => 0 < double_size p + integer_size p)%nat ex_vars /\
  current_solution ex_vars = [5; 3; 1; 1; 2; 3; inject_Z 100; inject_Z 200; 1; 2; 3] /\
  evaluate [6; 7; 8; 9; 10; 11; 201 # 2; 401 # 2; 12; 13; 14] ex_vars =
    Some [Single 6 0 10; Curve [8; 2; 7] [2%nat; 0%nat]; Rbf [9; 10; 11] [1; 100; 200]%Z (Some [(90, 110); (190, 210)]%Z); Harmonic 12 [13] [14]].
Proof.
  split; [repeat constructor|]. split; [|split; [repeat constructor|split; vm_compute; reflexivity]].
  unfold ex_vars. repeat (first [apply Forall_cons|apply Forall_nil]); try exact Logic.I. cbn. constructor; [intros [H|[]]; discriminate|].
  constructor; [intros []|constructor].
Qed.

(** C63 (refuted part): a control curve may name an index twice; then the value read is not the one written. *)
Theorem C63_repeated_index_refuted : exists p solution p', well_formed p /\ length solution = double_size p /\
  evaluate solution [p] = Some [p'] /\ get_double p' <> solution.
Proof.
  exists (Curve [0; 0] [0%nat; 0%nat]), [1; 2], (Curve [2; 0] [0%nat; 0%nat]).
  split; [cbn; repeat constructor|]. split; [reflexivity|]. split; [reflexivity|discriminate].
Qed.
Print Assumptions C63_repeated_index_refuted.

(** C72: if the bounds of the days of a radial basis function profile are given explicitly, every candidate with integers within the
    bounds is accepted and becomes the days of the profile. *)
Theorem C72_explicit_bounds : forall values days lower upper p x,
  create_rbf values days 0 (Some (lower, upper)) = Some p ->
  length lower = (length values - 1)%nat -> length upper = (length values - 1)%nat ->
  Forall2 (fun d b => fst b <= d <= snd b)%Z x (combine lower upper) ->
  exists p', set_integer x p = Some p' /\ get_integer p' = x /\ get_double p' = get_double p.
Proof.
  intros values days lower upper p x H L U W. unfold create_rbf in H.
  destruct (length days =? length values)%nat eqn:E1; [|discriminate]. apply Nat.eqb_eq in E1.
  destruct (days_accepted days) eqn:E2; [|discriminate]. cbn [negb] in H.
  destruct (existsb (fun d => (d <=? 1)%Z) lower) eqn:E3; [discriminate|].
  destruct (existsb (fun d => (365 <? d)%Z) upper) eqn:E4; [discriminate|].
  destruct (no_overlap (tl lower) (removelast upper)) eqn:E5; [|discriminate]. cbn [negb] in H. injection H as <-.
  cbn [set_integer].
  assert (length x = (length values - 1)%nat) as LX by (rewrite (Forall2_length _ _ _ W), combine_length; lia).
  assert (3 <= length days)%nat as L3. { unfold days_accepted in E2. rewrite !andb_true_iff, Nat.leb_le in E2. tauto. }
  assert (Forall (fun d => (1 < d)%Z) lower) as LB.
  { apply Forall_forall. intros d Hd. apply Z.lt_nge. intros N. assert (existsb (fun d => (d <=? 1)%Z) lower = true); [|congruence].
    apply existsb_exists. exists d. split; [exact Hd|]. apply Z.leb_le. lia. }
  assert (Forall (fun d => (d <= 365)%Z) upper) as UB.
  { apply Forall_forall. intros d Hd. apply Z.le_ngt. intros N. assert (existsb (fun d => (365 <? d)%Z) upper = true); [|congruence].
    apply existsb_exists. exists d. split; [exact Hd|]. apply Z.ltb_lt. lia. }
  assert (days_accepted (1%Z :: x) = true) as ->; [|eexists; split; [reflexivity|split; reflexivity]].
  unfold days_accepted. rewrite !andb_true_iff. split; [split; [split|]|].
  - reflexivity.
  - apply Nat.leb_le. cbn. lia.
  - destruct lower as [|l lower], upper as [|u upper]; cbn [length] in L, U; try lia. cbn [combine] in W. inversion W as [|y b x' bs Hy Hw]; subst. cbn [fst snd] in Hy.
    rewrite increasing_cons, andb_true_iff, Z.ltb_lt. split; [pose proof (Forall_inv LB); cbn beta in *; lia|].
    apply (explicit_increasing lower upper x' u); [|lia|lia|exact Hw].
    cbn [tl] in E5. rewrite no_overlap_removelast in E5 by (cbn; lia). exact E5.
  - apply forallb_forall. intros d [<-|Hd]; [reflexivity|]. apply andb_true_iff. rewrite !Z.leb_le.
    assert (forall (l u x : list Z), Forall (fun d => (1 < d)%Z) l -> Forall (fun d => (d <= 365)%Z) u -> Forall2 (fun d b => fst b <= d <= snd b)%Z x (combine l u) ->
      Forall (fun d => (0 <= d /\ d <= 365)%Z) x) as K.
    { clear. induction l as [|l ls IH]; intros [|u us] x A B W; cbn [combine] in W; inversion W as [|y b x' bs Hy Hw]; subst; constructor.
      - cbn in Hy. pose proof (Forall_inv A). pose proof (Forall_inv B). cbn beta in *. lia.
      - eapply IH; [eapply Forall_inv_tail; eauto|eapply Forall_inv_tail; eauto|exact Hw]. }
    specialize (K lower upper x LB UB W). rewrite Forall_forall in K. auto.
Qed.
Print Assumptions C72_explicit_bounds.

(** C72: if the bounds are given by a range, a candidate within them is accepted if and only if no day exceeds 365. *)
Theorem C72_range_partial : forall values days range p x,
  create_rbf values days range None = Some p -> (0 < range)%Z ->
  Forall2 (fun d b => fst b <= d <= snd b)%Z x (map (fun d => (d - range, d + range)%Z) (tl days)) ->
  (set_integer x p <> None <-> Forall (fun d => d <= 365)%Z x) /\
  (forall p', set_integer x p = Some p' -> get_integer p' = x /\ get_double p' = get_double p).
Proof.
  intros values days r p x H R W. unfold create_rbf in H.
  destruct (length days =? length values)%nat eqn:E1; [|discriminate]. apply Nat.eqb_eq in E1.
  destruct (days_accepted days) eqn:E2; [|discriminate]. cbn [negb] in H.
  apply Z.ltb_lt in R as R'. rewrite R' in H. destruct (spaced (2 * r) days) eqn:E3; [|discriminate]. cbn [negb] in H. injection H as <-.
  cbn [set_integer]. destruct (days_first _ E2) as [ds ->]. cbn [tl] in W.
  assert (3 <= length (1%Z :: ds))%nat as L3. { unfold days_accepted in E2. rewrite !andb_true_iff, Nat.leb_le in E2. tauto. }
  assert (length x = length ds) as LX by (rewrite (Forall2_length _ _ _ W), map_length; reflexivity).
  assert (increasing (1%Z :: x) = true) as I1 by (apply (range_increasing r ds x 1%Z); auto; lia).
  assert (Forall (fun d => (0 <= d)%Z) x) as P.
  { clear - I1. assert (0 <= 1)%Z as A by lia. revert A I1. generalize 1%Z as a. induction x as [|y x IH]; intros a A H; constructor.
    - rewrite increasing_cons, andb_true_iff, Z.ltb_lt in H. lia.
    - rewrite increasing_cons, andb_true_iff, Z.ltb_lt in H. apply (IH y); [lia|tauto]. }
  assert (days_accepted (1%Z :: x) = true <-> Forall (fun d => (d <= 365)%Z) x) as K.
  { unfold days_accepted. rewrite !andb_true_iff, forallb_forall. split.
    - intros [_ H]. apply Forall_forall. intros d Hd. specialize (H d (or_intror Hd)). rewrite andb_true_iff, !Z.leb_le in H. tauto.
    - intros H. split; [split; [split; [reflexivity|apply Nat.leb_le; cbn in *; lia]|exact I1]|].
      intros d [<-|Hd]; [reflexivity|]. rewrite andb_true_iff, !Z.leb_le. rewrite Forall_forall in P, H. auto. }
  destruct (days_accepted (1%Z :: x)); split.
  - rewrite <- K. split; [auto|discriminate].
  - intros p' H. injection H as <-. auto.
  - rewrite <- K. split; [congruence|discriminate].
  - discriminate.
Qed.
Print Assumptions C72_range_partial.

(** C72 (refuted part): with a range the declared bounds can go beyond day 365, and such a candidate raises an error. *)
Theorem C72_range_refuted : exists values days range p x,
  create_rbf values days range None = Some p /\ (0 < range)%Z /\
  Forall2 (fun d b => fst b <= d <= snd b)%Z x (map (fun d => (d - range, d + range)%Z) (tl days)) /\ set_integer x p = None.
Proof.
  exists [1; 2; 3], [1; 180; 360]%Z, 10%Z, (Rbf [1; 2; 3] [1; 180; 360]%Z (Some [(170, 190); (350, 370)]%Z)), [180; 366]%Z.
  split; [reflexivity|]. split; [lia|]. split; [|reflexivity]. repeat constructor; cbn; lia.
Qed.
Print Assumptions C72_range_refuted.

Example C72_example :
  create_rbf [1; 2; 3] [1; 100; 200]%Z 0 (Some ([90; 190], [110; 210])%Z) = Some (Rbf [1; 2; 3] [1; 100; 200]%Z (Some [(90, 110); (190, 210)]%Z)) /\
  set_integer [95; 205]%Z (Rbf [1; 2; 3] [1; 100; 200]%Z (Some [(90, 110); (190, 210)]%Z)) = Some (Rbf [1; 2; 3] [1; 95; 205]%Z (Some [(90, 110); (190, 210)]%Z)).
Proof. split; reflexivity. Qed.
