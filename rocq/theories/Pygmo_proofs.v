(** Proofs about the presentation to pygmo. *)
From Verif Require Import Base LP_model Constraints_model Constraints_spec Constraints_proofs Optimisation_model Optimisation_spec Optimisation_proofs
  Pygmo_model Pygmo_spec.

(** The condition pygmo derives from a constraint: as the user set it, except that an equality is compared with 0. *)
Definition presented (r : recorder) : Prop :=
  if is_equality (r_bounds r) then satisfied_eq (r_value r) else is_violated (r_bounds r) (r_value r) = Some false.

Lemma lower_ineq l x : l <> NInf -> l <> PInf -> satisfied_ineq (fsub (Some l) x) <-> fle (Some l) x = true.
Proof.
  intros M N. destruct l as [|l|], x as [[|x|]|]; cbn; try tauto; try (split; easy).
  destruct (qlebP l x); split; intros; try easy; lra.
Qed.

Lemma upper_ineq u x : u <> NInf -> u <> PInf -> satisfied_ineq (fsub x (Some u)) <-> fle x (Some u) = true.
Proof.
  intros N M. destruct u as [|u|], x as [[|x|]|]; cbn; try tauto; try (split; easy).
  destruct (qlebP x u); split; intros; try easy; lra.
Qed.

Lemma upper_fin b u : get_upper b = Some u -> u <> NInf /\ u <> PInf.
Proof. unfold get_upper. destruct (c_upper b); intros E; try discriminate. injection E as <-. split; discriminate. Qed.
Lemma lower_fin b l : c_lower b <> PInf -> get_lower b = Some l -> l <> NInf /\ l <> PInf.
Proof. unfold get_lower. destruct (c_lower b); intros N E; try discriminate; injection E as <-; split; congruence. Qed.

Lemma nic_start rs n : fold_left (fun count r =>
    if is_double_bounded (r_bounds r) then (count + 2)%nat
    else if is_lower_bounded (r_bounds r) || is_upper_bounded (r_bounds r) then (count + 1)%nat else count) rs n =
  (n + fold_left (fun count r =>
    if is_double_bounded (r_bounds r) then (count + 2)%nat
    else if is_lower_bounded (r_bounds r) || is_upper_bounded (r_bounds r) then (count + 1)%nat else count) rs 0)%nat.
Proof.
  revert n. induction rs as [|r rs IH]; intros n; cbn [fold_left]; [lia|].
  rewrite IH. rewrite (IH (if is_double_bounded (r_bounds r) then _ else _)).
  destruct (is_double_bounded (r_bounds r)); [lia|]. destruct (is_lower_bounded (r_bounds r) || is_upper_bounded (r_bounds r)); lia.
Qed.

Lemma constraints_spec cs : Forall (fun r => is_constraint (r_bounds r) = true) cs ->
  exists eqs ineqs, fitness_constraints cs = Some (eqs, ineqs) /\
    length eqs = length (filter (fun r => is_equality (r_bounds r)) cs) /\
    length ineqs = fold_left (fun count r =>
      if is_double_bounded (r_bounds r) then (count + 2)%nat
      else if is_lower_bounded (r_bounds r) || is_upper_bounded (r_bounds r) then (count + 1)%nat else count) cs 0%nat /\
    (Forall (fun r => c_lower (r_bounds r) <> PInf) cs ->
     (Forall satisfied_eq eqs /\ Forall satisfied_ineq ineqs <-> Forall presented cs)).
Proof.
  induction 1 as [|r cs C F (eqs & ineqs & E & L1 & L2 & H)].
  - exists [], []. split; [reflexivity|]. split; [reflexivity|]. split; [reflexivity|]. intros _. split; auto.
  - cbn [fitness_constraints filter fold_left]. rewrite E. cbv zeta. rewrite nic_start, <- L2. set (FL := filter _ cs) in *.
    assert (forall P Q R : Prop, (Q <-> R) -> (P <-> presented r) -> (P /\ Q <-> presented r /\ R)) as K by tauto.
    assert (forall l, Forall presented (r :: l) <-> presented r /\ Forall presented l) as FP by (intros; split; [intros X; inversion X; auto|intros []; constructor; auto]).
    revert C K. unfold presented at 1 2. unfold is_violated, is_constraint, is_equality, is_double_bounded, is_lower_bounded, is_upper_bounded.
    destruct (get_upper (r_bounds r)) as [u|] eqn:GU, (get_lower (r_bounds r)) as [lo|] eqn:GL;
      [destruct (ext_eqb lo u) eqn:EE| | |discriminate]; cbn [negb orb]; intros _ K.
    + eexists _, _. split; [reflexivity|]. cbn [length]. split; [lia|]. split; [lia|]. intros N. rewrite FP.
      rewrite <- (H (Forall_inv_tail N)). unfold presented at 1, is_equality. rewrite GU, GL, EE. split.
      * intros [A B]. inversion A; subst. auto.
      * intros (A & B & D). auto.
    + eexists _, _. split; [reflexivity|]. cbn [length]. split; [lia|]. split; [lia|]. intros N. rewrite FP.
      rewrite <- (H (Forall_inv_tail N)). unfold presented at 1, is_equality, is_violated, is_equality, is_double_bounded. rewrite GU, GL, EE. cbn [negb].
      destruct (lower_fin _ _ (Forall_inv N) GL) as [N0 N1]. destruct (upper_fin _ _ GU) as [N2 N3].
      rewrite !Forall_cons_iff. rewrite (lower_ineq _ _ N0 N1), (upper_ineq _ _ N2 N3).
      destruct (fle (Some lo) (r_value r)), (fle (r_value r) (Some u)); cbn; intuition discriminate.
    + eexists _, _. split; [reflexivity|]. cbn [length]. split; [lia|]. split; [lia|]. intros N. rewrite FP.
      rewrite <- (H (Forall_inv_tail N)). unfold presented at 1, is_equality, is_violated, is_equality, is_double_bounded, is_lower_bounded, is_upper_bounded. rewrite GU, GL.
      destruct (upper_fin _ _ GU) as [N2 N3]. rewrite Forall_cons_iff, (upper_ineq _ _ N2 N3).
      destruct (fle (r_value r) (Some u)); cbn; intuition discriminate.
    + eexists _, _. split; [reflexivity|]. cbn [length]. split; [lia|]. split; [lia|]. intros N. rewrite FP.
      rewrite <- (H (Forall_inv_tail N)). unfold presented at 1, is_equality, is_violated, is_equality, is_double_bounded, is_lower_bounded, is_upper_bounded. rewrite GU, GL.
      destruct (lower_fin _ _ (Forall_inv N) GL) as [N0 N1]. rewrite Forall_cons_iff, (lower_ineq _ _ N0 N1).
      destruct (fle (Some lo) (r_value r)); cbn; intuition discriminate.
Qed.

Lemma app_same_length {A} (a b c d : list A) : a ++ b = c ++ d -> length a = length c -> a = c /\ b = d.
Proof.
  revert c. induction a as [|x a IH]; intros [|y c] E L; cbn in *; try discriminate; auto.
  injection E as -> E. injection L as L. destruct (IH _ E L) as [-> ->]. auto.
Qed.

(** ** Variables *)

Lemma slice_length {A} a n (l : list A) : (a + n <= length l)%nat -> length (slice a (a + n) l) = n.
Proof. intros H. unfold slice. rewrite firstn_length, skipn_length. lia. Qed.

Lemma write_doubles_same sol vars : forall last m, Forall (fun p => (0 < size p)%nat) vars -> Forall (fun p => integer_size p = 0%nat) vars ->
  (last + fold_right Nat.add 0%nat (map size vars) <= length sol)%nat -> variable_map last vars = Some m ->
  write_doubles sol m vars = write_all sol m vars.
Proof.
  induction vars as [|v vars IH]; intros last m F G L M; [reflexivity|].
  pose proof (Forall_inv F) as F1. pose proof (Forall_inv G) as G1. cbv beta in F1, G1. apply Forall_inv_tail in F. apply Forall_inv_tail in G.
  cbn [variable_map] in M. fold (size v) in M. destruct (Nat.leb_spec (size v) 0); [lia|].
  destruct (variable_map (last + size v) vars) as [m'|] eqn:M'; [|discriminate]. injection M as <-.
  cbn [map fold_right] in L. cbn [write_doubles write_all nth tl].
  rewrite (IH (last + size v)%nat m' F G ltac:(lia) M').
  assert (nth 0 m' 0%nat = (last + size v)%nat) as ->.
  { destruct vars as [|w vars]; cbn in M'; [injection M' as <-; reflexivity|].
    destruct (double_size w + integer_size w <=? 0)%nat; [discriminate|]. destruct (variable_map _ vars); [|discriminate]. injection M' as <-. reflexivity. }
  unfold write_one. rewrite slice_length by lia. unfold size. rewrite Nat.eqb_refl. cbn [negb]. rewrite G1.
  change (0 <? 0)%nat with false. cbv iota. unfold size in F1. rewrite G1 in F1.
  destruct (Nat.ltb_spec 0 (double_size v)) as [P|P]; [|lia]. rewrite Nat.add_0_r.
  rewrite (firstn_all2 (n := double_size v)); [|rewrite slice_length; unfold size in *; lia].
  destruct (set_double (slice last (last + double_size v) sol) v); reflexivity.
Qed.

Lemma write_doubles_integer sol vars : forall last m, (exists p, In p vars /\ well_formed p /\ (0 < integer_size p)%nat) ->
  (last + fold_right Nat.add 0%nat (map size vars) <= length sol)%nat -> variable_map last vars = Some m ->
  write_doubles sol m vars = None.
Proof.
  induction vars as [|v vars IH]; intros last m (p & Hp & W & P) L M; [contradiction|].
  cbn [variable_map] in M. fold (size v) in M. destruct (Nat.leb_spec (size v) 0); [discriminate|].
  destruct (variable_map (last + size v) vars) as [m'|] eqn:M'; [|discriminate]. injection M as <-.
  cbn [map fold_right] in L. cbn [write_doubles nth tl]. destruct Hp as [->|Hp].
  - assert (nth 0 m' 0%nat = (last + size p)%nat) as ->.
    { destruct vars as [|w vars]; cbn in M'; [injection M' as <-; reflexivity|].
      destruct (double_size w + integer_size w <=? 0)%nat; [discriminate|]. destruct (variable_map _ vars); [|discriminate]. injection M' as <-. reflexivity. }
    assert (length (slice last (last + size p) sol) = size p) as E by (apply slice_length; lia).
    set (x := slice last (last + size p) sol) in *.
    destruct p as [| | | |values days [b|]|]; cbn in P; try lia. cbn [set_double]. unfold assign_array.
    unfold size in E. cbn [double_size integer_size] in E. destruct (Nat.eqb_spec (length x) (length values)); [lia|reflexivity].
  - rewrite (IH (last + size v)%nat m' ltac:(eauto) ltac:(lia) M').
    destruct (set_double (slice last (nth 0 m' 0%nat) sol) v); reflexivity.
Qed.
