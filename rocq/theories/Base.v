(** Shared helpers: rational comparisons as booleans, finite sums, list tools.
    Nothing in this file models code of /repo by itself. *)
From Coq Require Export List ZArith Lia Bool QArith Lqa Arith.
From Coq Require Import Permutation Qfield.
From Coq Require Export ZifyBool ZifyNat.
Export ListNotations.

Arguments Qeq : simpl never.
Arguments Qle : simpl never.
Arguments Qlt : simpl never.
Arguments Qplus : simpl never.
Arguments Qminus : simpl never.
Arguments Qmult : simpl never.
Arguments Qdiv : simpl never.
Arguments Qopp : simpl never.
Arguments Qinv : simpl never.
Arguments Qle_bool : simpl never.
Arguments inject_Z : simpl never.

(** ** Rational comparisons *)
Definition qleb (a b : Q) : bool := Qle_bool a b.
Definition qltb (a b : Q) : bool := negb (Qle_bool b a).
Definition qeqb (a b : Q) : bool := Qeq_bool a b.
Definition qmin (a b : Q) : Q := if qleb a b then a else b.
Definition qmax (a b : Q) : Q := if qleb a b then b else a.
Definition qabs (a : Q) : Q := if qltb a 0 then - a else a.

Lemma qlebP a b : reflect (a <= b)%Q (qleb a b).
Proof.
  unfold qleb. destruct (Qle_bool a b) eqn:E; constructor.
  - now apply Qle_bool_iff.
  - intro H. apply Qle_bool_iff in H. congruence.
Qed.

Lemma qltbP a b : reflect (a < b)%Q (qltb a b).
Proof.
  unfold qltb. destruct (Qle_bool b a) eqn:E; constructor; cbn.
  - apply Qle_bool_iff in E. intro H. apply Qlt_not_le in H. contradiction.
  - apply Qnot_le_lt. intro H. apply Qle_bool_iff in H. congruence.
Qed.

Lemma qeqbP a b : reflect (a == b)%Q (qeqb a b).
Proof.
  unfold qeqb. destruct (Qeq_bool a b) eqn:E; constructor.
  - now apply Qeq_bool_iff.
  - intro H. apply Qeq_bool_iff in H. congruence.
Qed.

Global Instance qleb_Proper : Proper (Qeq ==> Qeq ==> eq) qleb.
Proof. intros a b H c d K. unfold qleb. now rewrite H, K. Qed.
Global Instance qltb_Proper : Proper (Qeq ==> Qeq ==> eq) qltb.
Proof. intros a b H c d K. unfold qltb. now rewrite H, K. Qed.
Global Instance qeqb_Proper : Proper (Qeq ==> Qeq ==> eq) qeqb.
Proof. intros a b H c d K. unfold qeqb. now rewrite H, K. Qed.

(** Case split on the comparison that governs an [if] in the goal. *)
Ltac qif :=
  match goal with
  | |- context [if qleb ?a ?b then _ else _] => destruct (qlebP a b)
  | |- context [if qltb ?a ?b then _ else _] => destruct (qltbP a b)
  | |- context [if qeqb ?a ?b then _ else _] => destruct (qeqbP a b)
  end.
Ltac qifs := repeat qif.
Ltac qif_in H :=
  match type of H with
  | context [if qleb ?a ?b then _ else _] => destruct (qlebP a b)
  | context [if qltb ?a ?b then _ else _] => destruct (qltbP a b)
  | context [if qeqb ?a ?b then _ else _] => destruct (qeqbP a b)
  end.

Lemma qmin_l a b : (qmin a b <= a)%Q. Proof. unfold qmin; qif; lra. Qed.
Lemma qmin_r a b : (qmin a b <= b)%Q. Proof. unfold qmin; qif; lra. Qed.
Lemma qmax_l a b : (a <= qmax a b)%Q. Proof. unfold qmax; qif; lra. Qed.
Lemma qmax_r a b : (b <= qmax a b)%Q. Proof. unfold qmax; qif; lra. Qed.
Lemma qmin_glb a b c : (c <= a -> c <= b -> c <= qmin a b)%Q.
Proof. unfold qmin; qif; auto. Qed.
Lemma qmax_lub a b c : (a <= c -> b <= c -> qmax a b <= c)%Q.
Proof. unfold qmax; qif; auto. Qed.
Global Instance qmin_Proper : Proper (Qeq ==> Qeq ==> Qeq) qmin.
Proof. intros a b H c d K. unfold qmin. rewrite H, K. now destruct (qleb b d). Qed.
Global Instance qmax_Proper : Proper (Qeq ==> Qeq ==> Qeq) qmax.
Proof. intros a b H c d K. unfold qmax. rewrite H, K. now destruct (qleb b d). Qed.
Global Instance qabs_Proper : Proper (Qeq ==> Qeq) qabs.
Proof. intros a b H. unfold qabs. rewrite H. destruct (qltb b 0); now rewrite H. Qed.
Lemma qabs_nonneg a : (0 <= qabs a)%Q. Proof. unfold qabs; qif; lra. Qed.
Lemma qabs_le a b : (- b <= a -> a <= b -> qabs a <= b)%Q.
Proof. unfold qabs; qif; lra. Qed.

Lemma qmin_cases a b : ((a <= b /\ qmin a b == a) \/ (b <= a /\ qmin a b == b))%Q.
Proof. unfold qmin. destruct (qlebP a b); [left|right]; lra. Qed.
Lemma qmax_cases a b : ((b <= a /\ qmax a b == a) \/ (a <= b /\ qmax a b == b))%Q.
Proof. unfold qmax. destruct (qlebP a b); [right|left]; lra. Qed.

(** Linear goals with (nested) [qmin] and [qmax]. *)
Ltac qmm_step :=
  let go a b lem t := (let m := fresh "m" in pose proof (lem a b); set (m := t) in *; clearbody m) in
  match goal with
  | |- context [qmin ?a ?b] => go a b qmin_cases (qmin a b)
  | |- context [qmax ?a ?b] => go a b qmax_cases (qmax a b)
  | _ : context [qmin ?a ?b] |- _ => go a b qmin_cases (qmin a b)
  | _ : context [qmax ?a ?b] |- _ => go a b qmax_cases (qmax a b)
  end.
Ltac qmm := repeat qmm_step; repeat match goal with H : _ \/ _ |- _ => destruct H end; lra.

(** ** Finite sums *)
Fixpoint qsum (l : list Q) : Q :=
  match l with [] => 0%Q | x :: r => (x + qsum r)%Q end.

Lemma qsum_app l m : (qsum (l ++ m) == qsum l + qsum m)%Q.
Proof. induction l as [|x l IH]; cbn; [ring|]. rewrite IH. ring. Qed.

Lemma qsum_cons x l : (qsum (x :: l) == x + qsum l)%Q.
Proof. reflexivity. Qed.

Lemma qsum_map_ext {A} (f g : A -> Q) l :
  (forall x, In x l -> f x == g x)%Q -> (qsum (map f l) == qsum (map g l))%Q.
Proof.
  induction l as [|x l IH]; intros H; cbn; [reflexivity|].
  rewrite (H x) by now left. rewrite IH; [reflexivity|]. intros y Hy; apply H; now right.
Qed.

Lemma qsum_map_plus {A} (f g : A -> Q) l :
  (qsum (map (fun x => f x + g x) l) == qsum (map f l) + qsum (map g l))%Q.
Proof. induction l as [|x l IH]; cbn; [ring|]. rewrite IH. ring. Qed.

Lemma qsum_map_opp {A} (f : A -> Q) l :
  (qsum (map (fun x => - f x) l) == - qsum (map f l))%Q.
Proof. induction l as [|x l IH]; cbn; [ring|]. rewrite IH. ring. Qed.

Lemma qsum_map_minus {A} (f g : A -> Q) l :
  (qsum (map (fun x => f x - g x) l) == qsum (map f l) - qsum (map g l))%Q.
Proof. induction l as [|x l IH]; cbn; [ring|]. rewrite IH. ring. Qed.

Lemma qsum_map_scale {A} (c : Q) (f : A -> Q) l :
  (qsum (map (fun x => c * f x) l) == c * qsum (map f l))%Q.
Proof. induction l as [|x l IH]; cbn; [ring|]. rewrite IH. ring. Qed.

Lemma qsum_map_scale_r {A} (c : Q) (f : A -> Q) l :
  (qsum (map (fun x => f x * c) l) == qsum (map f l) * c)%Q.
Proof. induction l as [|x l IH]; cbn; [ring|]. rewrite IH. ring. Qed.

Lemma qsum_map_zero {A} (f : A -> Q) l :
  (forall x, In x l -> f x == 0)%Q -> (qsum (map f l) == 0)%Q.
Proof.
  induction l as [|x l IH]; intros H; cbn; [reflexivity|].
  rewrite (H x) by now left. rewrite IH; [reflexivity|]. intros y Hy; apply H; now right.
Qed.

Lemma qsum_map_const {A} (c : Q) (l : list A) :
  (qsum (map (fun _ => c) l) == inject_Z (Z.of_nat (length l)) * c)%Q.
Proof.
  induction l as [|x l IH]; cbn [map qsum length]; [ring|].
  rewrite IH, Nat2Z.inj_succ, <- Z.add_1_r, inject_Z_plus. ring.
Qed.

Lemma qsum_swap {A B} (f : A -> B -> Q) (la : list A) (lb : list B) :
  (qsum (map (fun a => qsum (map (fun b => f a b) lb)) la)
   == qsum (map (fun b => qsum (map (fun a => f a b) la)) lb))%Q.
Proof.
  induction la as [|a la IH]; cbn.
  - symmetry. apply qsum_map_zero. reflexivity.
  - rewrite IH. symmetry. apply (qsum_map_plus (fun b => f a b)).
Qed.

Lemma qsum_map_nonneg {A} (f : A -> Q) l :
  (forall x, In x l -> 0 <= f x)%Q -> (0 <= qsum (map f l))%Q.
Proof.
  induction l as [|x l IH]; intros H; cbn; [lra|].
  assert (0 <= f x)%Q by (apply H; now left).
  assert (0 <= qsum (map f l))%Q by (apply IH; intros y Hy; apply H; now right). lra.
Qed.

Lemma qsum_map_le {A} (f g : A -> Q) l :
  (forall x, In x l -> f x <= g x)%Q -> (qsum (map f l) <= qsum (map g l))%Q.
Proof.
  induction l as [|x l IH]; intros H; cbn; [lra|].
  assert (f x <= g x)%Q by (apply H; now left).
  assert (qsum (map f l) <= qsum (map g l))%Q by (apply IH; intros y Hy; apply H; now right). lra.
Qed.

Lemma qsum_nonneg l : (forall x, In x l -> 0 <= x)%Q -> (0 <= qsum l)%Q.
Proof.
  intros H. rewrite <- (map_id l). apply qsum_map_nonneg. exact H.
Qed.

Lemma qsum_Permutation l m : Permutation l m -> (qsum l == qsum m)%Q.
Proof.
  induction 1 as [|x l m _ IH|x y l|l m k _ IH1 _ IH2]; cbn.
  - reflexivity.
  - now rewrite IH.
  - ring.
  - now rewrite IH1.
Qed.

(** [bq b] is 1 for [true], 0 for [false]: indicator used in specifications. *)
Definition bq (b : bool) : Q := if b then 1%Q else 0%Q.

Lemma qsum_filter {A} (p : A -> bool) (f : A -> Q) l :
  (qsum (map f (filter p l)) == qsum (map (fun x => bq (p x) * f x) l))%Q.
Proof.
  induction l as [|x l IH]; cbn; [reflexivity|].
  destruct (p x); cbn; rewrite IH; ring.
Qed.

(** ** Lists *)
Lemma NoDup_map_inj {A B} (f : A -> B) l :
  (forall x y, In x l -> In y l -> f x = f y -> x = y) -> NoDup l -> NoDup (map f l).
Proof.
  intros Hf Hn. induction Hn as [|x l Hx Hn IH]; cbn; constructor.
  - intros Hin. apply in_map_iff in Hin as [y [Hy Hin]].
    assert (y = x) by (apply Hf; [now right|now left|exact Hy]). subst. contradiction.
  - apply IH. intros a b Ha Hb. apply Hf; now right.
Qed.

Lemma nth_error_seq_map {A} (f : nat -> A) n i :
  (i < n)%nat -> nth_error (map f (seq 0 n)) i = Some (f i).
Proof.
  intros H. assert (nth_error (seq 0 n) i = Some i) as E.
  { rewrite (nth_error_nth' _ 0%nat) by now rewrite seq_length. now rewrite seq_nth. }
  now rewrite (map_nth_error f _ _ E).
Qed.

(** Number of elements satisfying a predicate. *)
Definition countb {A} (p : A -> bool) (l : list A) : nat := length (filter p l).
