(** Directed graphs as successor functions on [nat]: walks, simple paths, the enumeration that
    `networkx.all_simple_paths` performs, and loop erasure.  Library file: it stands for the
    networkx calls used by /repo/pywr/_model.pyx (lines 546, 890, 897) and models nothing of /repo
    by itself. *)
From Verif Require Import Base.
From Coq Require Import Permutation.

Definition memb (x : nat) (l : list nat) : bool := existsb (Nat.eqb x) l.

Lemma membP x l : reflect (In x l) (memb x l).
Proof.
  unfold memb. destruct (existsb (Nat.eqb x) l) eqn:E; constructor.
  - apply existsb_exists in E as [y [Hy E]]. apply Nat.eqb_eq in E. now subst.
  - intros H. assert (existsb (Nat.eqb x) l = true); [|congruence].
    apply existsb_exists. exists x. split; [exact H|apply Nat.eqb_refl].
Qed.

(** Consecutive elements are related by [E]. *)
Fixpoint chain {A} (E : A -> A -> Prop) (p : list A) : Prop :=
  match p with
  | [] => True
  | x :: r => match r with [] => True | y :: _ => E x y end /\ chain E r
  end.

(** [p] is a walk from [a] to [b]. *)
Definition walk (E : nat -> nat -> Prop) (a b : nat) (p : list nat) : Prop :=
  hd_error p = Some a /\ last p a = b /\ chain E p.

(** Simple path: a walk with at least two nodes that visits no node twice. *)
Definition simple_path (E : nat -> nat -> Prop) (a b : nat) (p : list nat) : Prop :=
  walk E a b p /\ NoDup p /\ (2 <= length p)%nat.

(** Transitive closure (at least one edge). *)
Inductive plus {A} (E : A -> A -> Prop) : A -> A -> Prop :=
| plus_one a b : E a b -> plus E a b
| plus_step a b c : E a b -> plus E b c -> plus E a c.

Lemma plus_trans {A} (E : A -> A -> Prop) a b c : plus E a b -> plus E b c -> plus E a c.
Proof. induction 1; intros; [eapply plus_step; eauto|eapply plus_step; eauto]. Qed.

Lemma plus_mono {A} (E F : A -> A -> Prop) a b :
  (forall x y, E x y -> F x y) -> plus E a b -> plus F a b.
Proof. intros H. induction 1; [now apply plus_one, H|eapply plus_step; eauto]. Qed.

Lemma plus_snoc {A} (E : A -> A -> Prop) a b c : plus E a b -> E b c -> plus E a c.
Proof. intros H K. eapply plus_trans; [exact H|now apply plus_one]. Qed.

(** A cycle exists when some node reaches itself. *)
Definition cyclic {A} (E : A -> A -> Prop) : Prop := exists x, plus E x x.

(** ** Enumeration: networkx's `_all_simple_paths_graph`.
    The code keeps the visited nodes of the current path, walks over the successors of the last
    one in adjacency order, skips visited ones, yields when the target is met and never extends a
    path beyond the target; [fuel] is the number of edges left (`cutoff`). *)
Fixpoint sp (succ : nat -> list nat) (t : nat) (fuel : nat) (vis : list nat) (u : nat)
  : list (list nat) :=
  match fuel with
  | O => []
  | S f =>
      flat_map (fun v => if memb v vis then []
                         else if Nat.eqb v t then [[u; v]]
                         else map (cons u) (sp succ t f (v :: vis) v)) (succ u)
  end.

Lemma last_default {A} (l : list A) (a b : A) : l <> [] -> last l a = last l b.
Proof.
  induction l as [|x l IH]; intros H; [congruence|].
  destruct l as [|y l]; [reflexivity|]. cbn [last] in *. apply IH. congruence.
Qed.

Lemma sp_sound succ t fuel : forall vis u p,
  In p (sp succ t fuel vis u) ->
  exists q, p = u :: q /\ q <> [] /\ last q u = t /\ NoDup q /\
            (forall x, In x q -> ~ In x vis) /\
            chain (fun a b => In b (succ a)) p /\ (length q <= fuel)%nat.
Proof.
  induction fuel as [|f IH]; intros vis u p H; cbn [sp] in H; [contradiction|].
  apply in_flat_map in H as [v [Hv H]].
  destruct (membP v vis) as [|Hvis]; [contradiction|].
  destruct (Nat.eqb v t) eqn:Et.
  - apply Nat.eqb_eq in Et. subst v. destruct H as [<-|[]].
    exists [t]. repeat split; cbn; auto; try congruence; try lia.
    + constructor; [easy|constructor].
    + intros x [<-|[]]. exact Hvis.
  - apply in_map_iff in H as [p' [<- H]].
    apply IH in H as [q [-> [Hq [Hl [Hn [Hd [Hc Hlen]]]]]]].
    exists (v :: q). split; [reflexivity|]. split; [congruence|]. split; [|split; [|split; [|split]]].
    + destruct q; [congruence|]. rewrite <- Hl. apply (last_default (n :: q) u v). congruence.
    + constructor; [|exact Hn]. intros Hin. apply (Hd v Hin). now left.
    + intros x [<-|Hin]; [exact Hvis|]. intros Hx. apply (Hd x Hin). now right.
    + split; [exact Hv|exact Hc].
    + cbn [length]. lia.
Qed.

Lemma sp_complete succ t fuel : forall vis u q,
  q <> [] -> last q u = t -> NoDup q -> (forall x, In x q -> ~ In x vis) ->
  chain (fun a b => In b (succ a)) (u :: q) -> (length q <= fuel)%nat ->
  In (u :: q) (sp succ t fuel vis u).
Proof.
  induction fuel as [|f IH]; intros vis u q Hq Hl Hn Hd Hc Hlen.
  - destruct q; [congruence|cbn in Hlen; lia].
  - destruct q as [|v q]; [congruence|]. cbn [sp]. apply in_flat_map. exists v.
    destruct Hc as [Huv Hc]. split; [exact Huv|].
    destruct (membP v vis) as [Hv|Hv]; [exfalso; apply (Hd v); [now left|exact Hv]|].
    destruct (Nat.eqb v t) eqn:Et.
    + apply Nat.eqb_eq in Et. subst v. destruct q as [|w q]; [now left|].
      exfalso. inversion Hn as [|? ? Hni _]; subst. apply Hni.
      assert (last (t :: w :: q) u = last (w :: q) u) as E by reflexivity.
      rewrite E in Hl. rewrite <- Hl at 1.
      destruct (exists_last (l := w :: q)) as [l' [z Hz]]; [congruence|].
      rewrite Hz, last_last. apply in_or_app. right. now left.
    + apply Nat.eqb_neq in Et. apply in_map. apply IH.
      * intros ->. cbn in Hl. congruence.
      * destruct q as [|w q]; [cbn in Hl; congruence|].
        rewrite (last_default _ v u) by congruence. exact Hl.
      * now inversion Hn.
      * intros x Hx [<-|Hin]; [now inversion Hn|]. apply (Hd x); [now right|exact Hin].
      * exact Hc.
      * cbn in Hlen. lia.
Qed.

Lemma NoDup_app_intro {A} (l m : list A) :
  NoDup l -> NoDup m -> (forall x, In x l -> ~ In x m) -> NoDup (l ++ m).
Proof.
  induction 1 as [|x l Hx Hn IH]; intros Hm Hd; cbn; [exact Hm|].
  constructor.
  - intros Hin. apply in_app_or in Hin as [Hin|Hin]; [contradiction|].
    apply (Hd x); [now left|exact Hin].
  - apply IH; [exact Hm|]. intros y Hy. apply Hd. now right.
Qed.

Lemma NoDup_flat_map {A B} (f : A -> list B) l :
  NoDup l -> (forall x, In x l -> NoDup (f x)) ->
  (forall x y z, In x l -> In y l -> In z (f x) -> In z (f y) -> x = y) ->
  NoDup (flat_map f l).
Proof.
  intros Hn. induction Hn as [|x l Hx Hn IH]; intros Hf Hd; cbn; [constructor|].
  apply NoDup_app_intro.
  - apply Hf. now left.
  - apply IH; [intros; apply Hf; now right|]. intros a b z Ha Hb. apply Hd; now right.
  - intros z Hz Hz'. apply in_flat_map in Hz' as [y [Hy Hz']].
    assert (x = y) by (eapply Hd; [now left|right; exact Hy|exact Hz|exact Hz']).
    subst. contradiction.
Qed.

Lemma sp_NoDup succ t fuel : (forall u, NoDup (succ u)) -> forall vis u, NoDup (sp succ t fuel vis u).
Proof.
  intros Hs. induction fuel as [|f IH]; intros vis u; cbn [sp]; [constructor|].
  apply NoDup_flat_map; [apply Hs| |].
  - intros v Hv. destruct (memb v vis); [constructor|].
    destruct (Nat.eqb v t); [constructor; [easy|constructor]|].
    apply NoDup_map_inj; [congruence|apply IH].
  - assert (forall x z, In z (if memb x vis then []
                         else if Nat.eqb x t then [[u; x]]
                         else map (cons u) (sp succ t f (x :: vis) x)) ->
                  nth_error z 1 = Some x) as K.
    { intros x z H. destruct (memb x vis); [contradiction|].
      destruct (Nat.eqb x t); [destruct H as [<-|[]]; reflexivity|].
      apply in_map_iff in H as [p [<- H]]. apply sp_sound in H as [q [-> _]]. reflexivity. }
    intros x y z _ _ Hx Hy. apply K in Hx, Hy. congruence.
Qed.

(** ** Loop erasure *)
Lemma chain_app_r {A} (E : A -> A -> Prop) l m : chain E (l ++ m) -> chain E m.
Proof. induction l as [|x l IH]; cbn; [auto|]. intros [_ H]. auto. Qed.

Lemma plus_simple (E : nat -> nat -> Prop) a b :
  plus E a b -> a = b \/ exists p, simple_path E a b p.
Proof.
  induction 1 as [a b H|a b c H _ [->|[p [[Hh [Hl Hc]] [Hn Hlen]]]]].
  - destruct (Nat.eq_dec a b) as [->|Hne]; [now left|]. right. exists [a; b].
    repeat split; cbn; auto.
    constructor; [|constructor; [easy|constructor]]. intros [?|[]]. congruence.
  - destruct (Nat.eq_dec a c) as [->|Hne]; [now left|]. right. exists [a; c].
    repeat split; cbn; auto.
    constructor; [|constructor; [easy|constructor]]. intros [?|[]]. congruence.
  - destruct (Nat.eq_dec a c) as [->|Hne]; [now left|]. right.
    destruct (in_dec Nat.eq_dec a p) as [Hin|Hout].
    + apply in_split in Hin as [l [m ->]]. exists (a :: m).
      assert (last (a :: m) a = c) as Hl'.
      { rewrite <- Hl. clear. rewrite (last_default (a :: m) a b) by congruence.
        induction l as [|x l IH]; [reflexivity|]. cbn [app].
        rewrite IH. destruct (l ++ a :: m) eqn:E; [destruct l; discriminate|reflexivity]. }
      split; [split; [reflexivity|split; [exact Hl'|]]|split].
      * apply chain_app_r in Hc. exact Hc.
      * clear -Hn. induction l as [|x l IH]; [exact Hn|]. inversion Hn; auto.
      * destruct m; [cbn in Hl'; congruence|cbn; lia].
    + exists (a :: p). destruct p as [|b' p]; [discriminate|].
      cbn in Hh. injection Hh as ->.
      split; [split; [reflexivity|split; [|split; assumption]]|split].
      * rewrite <- Hl. rewrite (last_default (b :: p) b a) by congruence. reflexivity.
      * constructor; assumption.
      * cbn in *. lia.
Qed.

Lemma walk_plus (E : nat -> nat -> Prop) : forall p a b,
  walk E a b p -> (2 <= length p)%nat -> plus E a b.
Proof.
  induction p as [|x p IH]; intros a b [Hh [Hl Hc]] Hlen; [cbn in Hlen; lia|].
  cbn in Hh. injection Hh as ->. destruct p as [|y p]; [cbn in Hlen; lia|].
  destruct Hc as [Hay Hc]. destruct p as [|z p].
  - cbn in Hl. subst. now apply plus_one.
  - eapply plus_step; [exact Hay|]. apply IH; [|cbn; lia]. split; [reflexivity|split; [|split]].
    + rewrite <- Hl. apply (last_default (y :: z :: p) y a). congruence.
    + exact (proj1 Hc).
    + exact (proj2 Hc).
Qed.

(** All nodes of a chain after the first are targets of an edge. *)
Lemma chain_targets {A} (E : A -> A -> Prop) (N : A -> Prop) :
  (forall a b, E a b -> N b) -> forall p x, chain E (x :: p) -> forall y, In y p -> N y.
Proof.
  intros HE. induction p as [|z p IH]; intros x [Hxz Hc] y Hy; [contradiction|].
  destruct Hy as [<-|Hy]; [now apply (HE x)|]. eapply IH; eauto.
Qed.

(** The number of edges of a simple path is smaller than the number of nodes. *)
Lemma simple_path_length (E : nat -> nat -> Prop) nodes a b p :
  In a nodes -> (forall x y, E x y -> In y nodes) -> simple_path E a b p ->
  (length p <= length nodes)%nat.
Proof.
  intros Ha HE [[Hh [Hl Hc]] [Hn _]]. apply NoDup_incl_length; [exact Hn|].
  destruct p as [|x p]; [easy|]. cbn in Hh. injection Hh as ->.
  intros y [<-|Hy]; [exact Ha|]. exact (chain_targets E (fun z => In z nodes) HE p a Hc y Hy).
Qed.
