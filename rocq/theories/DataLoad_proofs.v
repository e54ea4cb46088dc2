(** Lemmas about selecting and reading data (DataLoad_model.v). *)
From Coq Require Import Strings.Ascii Strings.String Sorting.Sorted.
From Verif Require Import Base Documents_model DataLoad_model.
Local Open Scope string_scope.
Local Open Scope nat_scope.
Local Open Scope list_scope.

(** * Specification: labels and cells *)

Inductive same_atom : atom -> atom -> Prop :=
| SText s : same_atom (Text s) (Text s)
| SNum p q : (p == q)%Q -> same_atom (Num p) (Num q).
Definition same : label -> label -> Prop := Forall2 same_atom.

(** The [i]-th of the labels is [l]. *)
Definition labelled (ls : list label) (i : nat) (l : label) : Prop := exists x, nth_error ls i = Some x /\ same x l.
Definition distinct (ls : list label) : Prop := forall i j l, labelled ls i l -> labelled ls j l -> i = j.
(** The cell of the [i]-th row and the [j]-th column. *)
Definition cell (cells : list (list Q)) (i j : nat) (v : Q) : Prop := exists row, nth_error cells i = Some row /\ nth_error row j = Some v.
Definition well_formed (df : data) : Prop :=
  match df with
  | Frame _ rows cols cells => List.length cells = List.length rows /\ Forall (fun r => List.length r = List.length cols) cells
  | Series _ ls vs => List.length vs = List.length ls
  | Scalar _ => True
  end.

(** * Labels *)

Lemma atom_eqb_spec a b : atom_eqb a b = true <-> same_atom a b.
Proof.
  destruct a as [s|p], b as [t|q]; cbn.
  - rewrite String.eqb_eq. split; [intros ->; constructor|intro H; inversion H; reflexivity].
  - split; [discriminate|intro H; inversion H].
  - split; [discriminate|intro H; inversion H].
  - destruct (qeqbP p q) as [E|E]; split; intro H; try constructor; try assumption; try discriminate.
    inversion H; contradiction.
Qed.

Lemma label_eqb_spec a b : label_eqb a b = true <-> same a b.
Proof.
  unfold same. revert b. induction a as [|x a IH]; intros [|y b]; cbn.
  - split; [constructor|reflexivity].
  - split; [discriminate|intro H; inversion H].
  - split; [discriminate|intro H; inversion H].
  - rewrite andb_true_iff, atom_eqb_spec, IH. split; [intros [H1 H2]; constructor; assumption|intro H; inversion H; auto].
Qed.

Lemma same_atom_sym a b : same_atom a b -> same_atom b a.
Proof. intro H; inversion H; constructor. symmetry; assumption. Qed.
Lemma same_atom_trans a b c : same_atom a b -> same_atom b c -> same_atom a c.
Proof.
  intros H1 H2; inversion H1; subst; inversion H2; subst; constructor.
  etransitivity; eassumption.
Qed.
Lemma same_refl a : same a a.
Proof. unfold same. induction a as [|x a IH]; constructor; [|exact IH]. destruct x; constructor. reflexivity. Qed.
Lemma same_sym a b : same a b -> same b a.
Proof. unfold same. intro H. induction H; constructor; [apply same_atom_sym; assumption|assumption]. Qed.
Lemma same_trans a b c : same a b -> same b c -> same a c.
Proof.
  unfold same. intro H. revert c. induction H as [|x y a b H1 H2 IH]; intros c Hc; inversion Hc; subst; constructor.
  - eapply same_atom_trans; eassumption.
  - apply IH; assumption.
Qed.

Lemma in_places_from n l ls i : In i (places_from n l ls) <-> exists k, i = n + k /\ labelled ls k l.
Proof.
  revert n. induction ls as [|x ls IH]; intro n; cbn [places_from].
  - split; [intros []|]. intros (k & _ & y & E & _). destruct k; discriminate.
  - assert (R : In i (places_from (S n) l ls) <-> exists k, i = n + S k /\ labelled (x :: ls) (S k) l).
    { rewrite IH. split; intros (k & E & L); exists k; (split; [lia|exact L]). }
    destruct (label_eqb x l) eqn:E.
    + cbn [In]. rewrite R. split.
      * intros [<-|(k & E' & L)]; [exists 0; split; [lia|exists x; split; [reflexivity|apply label_eqb_spec; exact E]]|exists (S k); auto].
      * intros ([|k] & E' & L); [left; lia|right; exists k; auto].
    + rewrite R. split.
      * intros (k & E' & L). exists (S k). auto.
      * intros ([|k] & E' & L); [|exists k; auto].
        exfalso. destruct L as (y & [= <-] & L). apply label_eqb_spec in L. congruence.
Qed.
Lemma in_places l ls i : In i (places l ls) <-> labelled ls i l.
Proof.
  unfold places. rewrite in_places_from. split.
  - intros (k & -> & L). exact L.
  - intro L. exists i. auto.
Qed.

(** The places ascend. *)
Lemma places_from_sorted n l ls : StronglySorted lt (places_from n l ls).
Proof.
  revert n. induction ls as [|x ls IH]; intro n; cbn [places_from]; [constructor|].
  destruct (label_eqb x l); [|apply IH]. constructor; [apply IH|].
  apply Forall_forall. intros i Hi. apply (proj1 (in_places_from _ _ _ _)) in Hi. destruct Hi as (k & -> & _). lia.
Qed.
Lemma places_sorted l ls : StronglySorted lt (places l ls).
Proof. apply places_from_sorted. Qed.

Lemma labelled_lt ls i l : labelled ls i l -> i < List.length ls.
Proof. intros (x & E & _). apply nth_error_Some. congruence. Qed.

Lemma places_none l ls : places l ls = [] <-> (forall i, ~ labelled ls i l).
Proof.
  split.
  - intros E i L. apply (proj2 (in_places _ _ _)) in L. rewrite E in L. destruct L.
  - intro N. destruct (places l ls) as [|i r] eqn:E; [reflexivity|]. exfalso. apply (N i). apply in_places. rewrite E. left. reflexivity.
Qed.
Lemma places_one l ls i : distinct ls -> labelled ls i l -> places l ls = [i].
Proof.
  intros D L. pose proof (places_sorted l ls) as SO.
  assert (A : forall k, In k (places l ls) -> k = i) by (intros k Hk; apply (D k i l); [apply in_places; exact Hk|exact L]).
  assert (I : In i (places l ls)) by (apply in_places; exact L).
  destruct (places l ls) as [|a [|b r]]; [destruct I| |].
  - rewrite (A a); [reflexivity|left; reflexivity].
  - exfalso. inversion SO as [|? ? _ F]; subst. inversion F as [|? ? F1 _]; subst.
    rewrite (A a), (A b) in F1; [lia|right; left; reflexivity|left; reflexivity].
Qed.

(** For distinct labels the places of a list of labels are the places of each. *)
Lemma places_all_distinct wanted ls : distinct ls ->
  match places_all wanted ls with
  | Some ps => Forall2 (fun l i => labelled ls i l) wanted ps
  | None => exists l, In l wanted /\ forall i, ~ labelled ls i l
  end.
Proof.
  intro D. induction wanted as [|l wanted IH]; cbn [places_all]; [constructor|].
  destruct (places l ls) as [|i r] eqn:E.
  - exists l. split; [left; reflexivity|]. apply places_none. exact E.
  - assert (L : labelled ls i l) by (apply in_places; rewrite E; left; reflexivity).
    assert (r = []) as ->. { pose proof (places_one l ls i D L) as P. congruence. }
    destruct (places_all wanted ls) as [ps|].
    + cbn [app]. constructor; assumption.
    + destruct IH as (l' & H & N). exists l'. split; [right; exact H|exact N].
Qed.

Lemma pick_nth_error {A} (d : A) ps l k i : nth_error ps k = Some i -> i < List.length l -> nth_error (pick d ps l) k = nth_error l i.
Proof.
  intros E L. unfold pick. rewrite nth_error_map, E. cbn. symmetry. apply nth_error_nth'. exact L.
Qed.
Lemma pick_length {A} (d : A) ps l : List.length (pick d ps l) = List.length ps.
Proof. unfold pick. apply map_length. Qed.

Lemma Forall2_nth_l {A B} (P : A -> B -> Prop) l1 l2 i x : Forall2 P l1 l2 -> nth_error l1 i = Some x -> exists y, nth_error l2 i = Some y /\ P x y.
Proof.
  intro F. revert i. induction F as [|a b l1 l2 H F IH]; intros [|i] E; cbn in *; try discriminate.
  - injection E as <-. exists b. auto.
  - apply IH. exact E.
Qed.
Lemma Forall2_nth_r {A B} (P : A -> B -> Prop) l1 l2 i y : Forall2 P l1 l2 -> nth_error l2 i = Some y -> exists x, nth_error l1 i = Some x /\ P x y.
Proof.
  intro F. revert i. induction F as [|a b l1 l2 H F IH]; intros [|i] E; cbn in *; try discriminate.
  - injection E as <-. exists a. auto.
  - apply IH. exact E.
Qed.

Lemma pick_labels wanted ls ps : Forall2 (fun l i => labelled ls i l) wanted ps -> Forall2 same (pick [] ps ls) wanted.
Proof.
  intro F. induction F as [|l i wanted ps L F IH]; cbn [pick map]; constructor; [|exact IH].
  destruct L as (x & E & H). rewrite (nth_error_nth _ _ _ E). exact H.
Qed.

(** * Dictionaries *)

Lemma get_pop k k' (d : dict json) : get k (pop k' d) = if String.eqb k k' then None else get k d.
Proof.
  unfold dict, pop in *. induction d as [|[a v] d IH]; cbn [filter get fst].
  - destruct (String.eqb k k'); reflexivity.
  - destruct (String.eqb a k') eqn:E; cbn [negb get].
    + rewrite IH. apply String.eqb_eq in E. subst a. rewrite (String.eqb_sym k' k).
      destruct (String.eqb k k'); reflexivity.
    + rewrite IH. destruct (String.eqb a k) eqn:E2; [|reflexivity].
      apply String.eqb_eq in E2. subst a. rewrite E. reflexivity.
Qed.
Lemma get_pop_all k ks (d : dict json) : get k (pop_all ks d) = if existsb (String.eqb k) ks then None else get k d.
Proof.
  unfold pop_all. revert d. induction ks as [|k' ks IH]; intro d; cbn; [reflexivity|].
  rewrite IH, get_pop. destruct (existsb (String.eqb k) ks), (String.eqb k k'); reflexivity.
Qed.
