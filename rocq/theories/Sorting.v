(** Insertion sort (stands for Python's `sorted`, whose result for a given key order is the stable
    sorted permutation) and the lexicographic order on tuples of names.  Library file. *)
From Verif Require Import Base.
From Coq Require Export Permutation Sorted.

Section Isort.
  Context {A : Type} (leb : A -> A -> bool).
  (** Insert before the first element that is not smaller: equal elements keep their order. *)
  Fixpoint insert (x : A) (l : list A) : list A :=
    match l with
    | [] => [x]
    | y :: r => if leb x y then x :: l else y :: insert x r
    end.
  Fixpoint isort (l : list A) : list A :=
    match l with [] => [] | x :: r => insert x (isort r) end.

  Lemma insert_perm x l : Permutation (x :: l) (insert x l).
  Proof.
    induction l as [|y l IH]; cbn; [constructor; constructor|]. destruct (leb x y); [reflexivity|].
    etransitivity; [apply perm_swap|]. now constructor.
  Qed.
  Lemma isort_perm l : Permutation l (isort l).
  Proof.
    induction l as [|x l IH]; cbn; [constructor|].
    etransitivity; [|apply insert_perm]. now constructor.
  Qed.
  Lemma isort_In x l : In x (isort l) <-> In x l.
  Proof.
    split; apply Permutation_in; [symmetry|]; apply isort_perm.
  Qed.
  Lemma isort_NoDup l : NoDup l -> NoDup (isort l).
  Proof. apply Permutation_NoDup. apply isort_perm. Qed.

  Context (total : forall x y, leb x y = true \/ leb y x = true)
          (trans : forall x y z, leb x y = true -> leb y z = true -> leb x z = true).

  Lemma insert_sorted x l : StronglySorted (fun a b => leb a b = true) l ->
    StronglySorted (fun a b => leb a b = true) (insert x l).
  Proof.
    induction 1 as [|y l Hs IH Hf]; cbn; [repeat constructor|].
    destruct (leb x y) eqn:E.
    - constructor; [now constructor|]. constructor; [exact E|].
      eapply Forall_impl; [|exact Hf]. intros z. apply trans. exact E.
    - constructor; [exact IH|]. apply Forall_forall. intros z Hz.
      eapply Permutation_in in Hz; [|symmetry; apply insert_perm].
      destruct Hz as [<-|Hz]; [destruct (total x y); congruence|].
      rewrite Forall_forall in Hf. now apply Hf.
  Qed.
  Lemma isort_sorted l : StronglySorted (fun a b => leb a b = true) (isort l).
  Proof. induction l; cbn; [constructor|]. now apply insert_sorted. Qed.
End Isort.

(** Python's comparison of tuples. *)
Fixpoint lex_leb (a b : list nat) : bool :=
  match a, b with
  | [], _ => true
  | _ :: _, [] => false
  | x :: a', y :: b' => Nat.ltb x y || (Nat.eqb x y && lex_leb a' b')
  end.

Lemma lex_total a : forall b, lex_leb a b = true \/ lex_leb b a = true.
Proof.
  induction a as [|x a IH]; intros [|y b]; cbn [lex_leb]; auto.
  destruct (Nat.ltb_spec x y), (Nat.ltb_spec y x), (Nat.eqb_spec x y), (Nat.eqb_spec y x); cbn [orb andb]; auto; try lia; apply IH.
Qed.

Lemma lex_trans a : forall b c, lex_leb a b = true -> lex_leb b c = true -> lex_leb a c = true.
Proof.
  induction a as [|x a IH]; intros [|y b] [|z c]; cbn [lex_leb]; auto; try discriminate.
  intros H K.
  destruct (Nat.ltb_spec x y), (Nat.ltb_spec y z), (Nat.ltb_spec x z),
    (Nat.eqb_spec x y), (Nat.eqb_spec y z), (Nat.eqb_spec x z); cbn [orb andb] in *; auto; try discriminate; try lia.
  eapply IH; eauto.
Qed.

Lemma lex_antisym a : forall b, lex_leb a b = true -> lex_leb b a = true -> a = b.
Proof.
  induction a as [|x a IH]; intros [|y b]; cbn [lex_leb]; auto; try discriminate.
  intros H K. destruct (Nat.ltb_spec x y), (Nat.ltb_spec y x), (Nat.eqb_spec x y), (Nat.eqb_spec y x);
    cbn [orb andb] in *; try discriminate; try lia. subst. f_equal. now apply IH.
Qed.

(** A list sorted by an antisymmetric order without repetitions is determined by its elements. *)
Lemma sorted_unique {A} (R : A -> A -> Prop) :
  (forall a b, R a b -> R b a -> a = b) ->
  forall l m, StronglySorted R l -> StronglySorted R m -> NoDup l -> NoDup m ->
  (forall x, In x l <-> In x m) -> l = m.
Proof.
  intros Hanti. induction l as [|x l IH]; intros m Hl Hm Nl Nm Hin.
  - destruct m as [|y m]; [reflexivity|]. exfalso. apply (Hin y). now left.
  - destruct m as [|y m]; [exfalso; apply (Hin x); now left|].
    inversion Hl as [|? ? Hl' Fl]; inversion Hm as [|? ? Hm' Fm]; subst.
    rewrite Forall_forall in Fl, Fm. inversion Nl; inversion Nm; subst.
    assert (x = y) as ->.
    { assert (In x (y :: m)) as K1 by (apply Hin; now left).
      assert (In y (x :: l)) as K2 by (apply Hin; now left).
      destruct K1 as [|K1], K2 as [|K2]; auto. }
    f_equal. apply IH; auto. intros z. specialize (Hin z). cbn in Hin. split; intros Hz.
    + destruct (proj1 Hin (or_intror Hz)); [subst; contradiction|assumption].
    + destruct (proj2 Hin (or_intror Hz)); [subst; contradiction|assumption].
Qed.
