(** Proofs about names. *)
From Verif Require Import Base Names_model Names_spec.
From Coq Require Import Sorting.Sorted.
Local Open Scope nat_scope.
Local Open Scope list_scope.

Lemma append_neq (a b : string) : b <> ""%string -> (a ++ b)%string <> a.
Proof.
  intros N H. revert H. induction a as [|c a IH]; cbn; intros H; [congruence|]. injection H as H. auto.
Qed.
Lemma append_inj (a b c : string) : (a ++ b)%string = (a ++ c)%string -> b = c.
Proof. induction a; cbn; intros H; [exact H|]. injection H as H. auto. Qed.

Lemma freeP name g : reflect (~ In name (keys g)) (free name g).
Proof.
  unfold free. destruct (existsb (String.eqb name) (keys g)) eqn:E; cbn; constructor.
  - intros N. apply N. apply existsb_exists in E as (x & Hx & Hq). apply String.eqb_eq in Hq. congruence.
  - intros H. assert (existsb (String.eqb name) (keys g) = true); [|congruence]. apply existsb_exists. exists name.
    split; [exact H|apply String.eqb_refl].
Qed.

(** ** Rules for the statements of a constructor *)

(** No two visible nodes have the same name; objects have different numbers, given out before; a parent is older than its sub-nodes. *)
Record ok (g : graph) : Prop := {
  ok_names : NoDup (keys g);
  ok_ids : NoDup (map n_id (g_nodes g));
  ok_next : forall n, In n (g_nodes g) -> n_id n < g_next g;
  ok_parent : forall n p, In n (g_nodes g) -> n_parent n = Some p -> p < n_id n }.

(** Inside constructors: the numbers [R] belong to objects under construction (latest first), the names [F] are not visible. *)
Record st (R : list nat) (F : list string) (g : graph) : Prop := {
  st_ok : ok g;
  st_order : StronglySorted gt R;
  st_reserved : forall r, In r R -> r < g_next g /\ ~ In r (map n_id (g_nodes g));
  st_free : forall n, In n F -> ~ In n (keys g) }.

Definition rule (P : graph -> Prop) (m : stmt) (Q : graph -> Prop) : Prop :=
  forall g, P g -> ok (snd (m g)) /\ (fst (m g) = true -> Q (snd (m g))).

Lemma rule_seq P Q S a b : rule P a Q -> rule Q b S -> rule P (a ;; b) S.
Proof.
  intros A B g H. unfold seqs. specialize (A g H). destruct (a g) as [[|] g']; cbn [fst snd] in *; destruct A as [A1 A2].
  - apply (B g'), A2. reflexivity.
  - split; [exact A1|discriminate].
Qed.
Lemma rule_skip R F : rule (st R F) skip (st R F).
Proof. intros g H. cbn. split; [apply H|auto]. Qed.
Lemma rule_all R F l : (forall m, In m l -> rule (st R F) m (st R F)) -> rule (st R F) (all l) (st R F).
Proof.
  induction l as [|m l IH]; intros H; [apply rule_skip|]. cbn. eapply rule_seq; [apply H; now left|]. apply IH. intros x Hx. apply H. now right.
Qed.
Lemma rule_all_map {A} R F (f : A -> stmt) l : (forall x, rule (st R F) (f x) (st R F)) -> rule (st R F) (all (map f l)) (st R F).
Proof. intros H. apply rule_all. intros m Hm. apply in_map_iff in Hm as (x & <- & _). apply H. Qed.
Lemma rule_weaken_free R F F' P m : incl F' F -> rule P m (st R F) -> rule P m (st R F').
Proof. intros I H g Hg. destruct (H g Hg) as [A B]. split; [exact A|]. intros E. destruct (B E). constructor; auto. Qed.

Lemma rule_check R F n : rule (st R F) (check n) (st R (n :: F)).
Proof.
  intros g H. unfold check. cbn [fst snd]. split; [apply H|]. intros E. destruct H as [A B C D]. constructor; auto.
  intros x [<-|Hx]; [|auto]. destruct (freeP n g); [assumption|discriminate].
Qed.

Lemma keys_add g id n p : keys (Graph (g_nodes g ++ [Node id n p]) (g_next g)) = keys g ++ match p with None => [n] | Some _ => [] end.
Proof. unfold keys. cbn [g_nodes]. rewrite filter_app, map_app. destruct p; reflexivity. Qed.

Lemma NoDup_snoc {A} (l : list A) x : NoDup l -> ~ In x l -> NoDup (l ++ [x]).
Proof.
  intros H N. induction H as [|y l Hy H IH]; cbn; [repeat constructor; auto|]. constructor.
  - rewrite in_app_iff. cbn. intros [X|[X|[]]]; [auto|]. subst. apply N. now left.
  - apply IH. intros X. apply N. now right.
Qed.

Lemma ok_add R F s n p g : st (s :: R) F g -> match p with Some q => In q R | None => ~ In n (keys g) end ->
  st R (match p with Some _ => F | None => filter (fun x => negb (String.eqb x n)) F end) (Graph (g_nodes g ++ [Node s n p]) (g_next g)).
Proof.
  intros [[A1 A2 A3 A4] B C D] H. inversion B as [|? ? B1 B2]; subst. destruct (C s (or_introl eq_refl)) as [C1 C2].
  constructor; [constructor| | |].
  - rewrite keys_add. destruct p; [rewrite app_nil_r; exact A1|apply NoDup_snoc; auto].
  - cbn [g_nodes]. rewrite map_app. apply NoDup_snoc; auto.
  - cbn [g_nodes g_next]. intros m Hm. apply in_app_iff in Hm as [Hm|[<-|[]]]; cbn; auto.
  - cbn [g_nodes]. intros m q Hm. apply in_app_iff in Hm as [Hm|[<-|[]]]; [apply A4; exact Hm|]. cbn. intros ->.
    rewrite Forall_forall in B2. specialize (B2 q H). lia.
  - exact B1.
  - cbn [g_nodes g_next]. intros r Hr. rewrite map_app, in_app_iff. destruct (C r (or_intror Hr)) as [X Y]. split; [exact X|].
    cbn. intros [Z|[Z|[]]]; [auto|]. subst. rewrite Forall_forall in B2. specialize (B2 r Hr). lia.
  - intros x Hx. rewrite keys_add. destruct p; [rewrite app_nil_r; auto|]. apply filter_In in Hx as [Hx E].
    rewrite in_app_iff. cbn. intros [Z|[Z|[]]]; [exact (D x Hx Z)|]. subst. rewrite String.eqb_refl in E. discriminate.
Qed.

Lemma rule_add_child R F s n p : In p R -> rule (st (s :: R) F) (add s n (Some p)) (st R F).
Proof. intros H g Hg. pose proof (ok_add R F s n (Some p) g Hg H) as K. cbn [add fst snd]. split; [apply K|auto]. Qed.
Lemma rule_add_top R F s n : rule (st (s :: R) (n :: F)) (add s n None) (st R (filter (fun x => negb (String.eqb x n)) F)).
Proof.
  intros g Hg. cbn [add fst snd]. pose proof (ok_add R (n :: F) s n None g Hg) as K. cbn [filter] in K. rewrite String.eqb_refl in K. cbn [negb] in K.
  specialize (K (st_free _ _ _ Hg n (or_introl eq_refl))). split; [apply K|auto].
Qed.

Lemma rule_new R F f Q : (forall s, rule (st (s :: R) F) (f s) Q) -> rule (st R F) (new f) Q.
Proof.
  intros H g [[A1 A2 A3 A4] B C D]. unfold new. apply H. constructor; [constructor| | |]; cbn [g_nodes g_next]; auto.
  - intros n Hn. specialize (A3 n Hn). lia.
  - constructor; [exact B|]. apply Forall_forall. intros r Hr. specialize (C r Hr). lia.
  - intros r [<-|Hr]; [|specialize (C r Hr); split; [lia|tauto]]. split; [lia|]. intros X. apply in_map_iff in X as (n & E & Hn). specialize (A3 n Hn). lia.
Qed.

(** A node with a parent that is under construction. *)
Lemma rule_child R F n p : In p R -> rule (st R F) (create_node n (Some p)) (st R F).
Proof.
  intros H. apply rule_new. intros s. eapply rule_seq; [apply rule_check|]. 
  apply (rule_weaken_free _ (n :: F)); [intros x Hx; now right|]. apply rule_add_child, H.
Qed.
(** A visible node with a name that is not claimed. *)
Lemma filter_none F (n : string) : ~ In n F -> filter (fun x => negb (String.eqb x n)) F = F.
Proof.
  induction F as [|x F IH]; intros H; [reflexivity|]. cbn. destruct (String.eqb_spec x n) as [->|N]; [exfalso; apply H; now left|].
  cbn. rewrite IH; [reflexivity|]. intros X. apply H. now right.
Qed.
Lemma rule_top R F n : ~ In n F -> rule (st R F) (create_node n None) (st R F).
Proof.
  intros H. apply rule_new. intros s. eapply rule_seq; [apply rule_check|]. rewrite <- (filter_none F n H) at 2. apply rule_add_top.
Qed.
(** The own name, just before the node is added. *)
Lemma rule_finish R F n s : ~ In n F -> rule (st (s :: R) F) (check n ;; add s n None) (st R F).
Proof. intros H. eapply rule_seq; [apply rule_check|]. rewrite <- (filter_none F n H) at 2. apply rule_add_top. Qed.

Lemma rule_storage R F n o i : ~ In n F -> rule (st R F) (create_storage n o i) (st R F).
Proof.
  intros H. apply rule_new. intros s. eapply rule_seq; [apply rule_check|].
  assert (forall (f : nat -> string) l, rule (st (s :: R) (n :: F)) (all (map (fun k => check (f k)) l)) (st (s :: R) (n :: F))) as K.
  { intros f l. apply rule_all_map. intros x. apply (rule_weaken_free _ (f x :: n :: F)); [intros y Hy; now right|]. apply rule_check. }
  assert (forall (f : nat -> string) l, rule (st (s :: R) (n :: F)) (all (map (fun k => new (fun t => add t (f k) (Some s))) l)) (st (s :: R) (n :: F))) as L.
  { intros f l. apply rule_all_map. intros x. apply rule_new. intros t. apply rule_add_child. now left. }
  eapply rule_seq; [apply (K output_slot)|]. eapply rule_seq; [apply (K input_slot)|]. eapply rule_seq; [apply (L output_slot)|]. eapply rule_seq; [apply (L input_slot)|].
  rewrite <- (filter_none F n H) at 2. apply rule_add_top.
Qed.

Lemma rule_piecewise_subnodes R F s n k : In s R -> rule (st R F) (piecewise_subnodes s n k) (st R F).
Proof.
  intros H. unfold piecewise_subnodes. do 3 (eapply rule_seq; [apply rule_child, H|]). apply rule_all_map. intros x. apply rule_child, H.
Qed.

Lemma rule_construct c n : rule (st [] []) (construct c n) (st [] []).
Proof.
  assert (forall m R F, rule (st R F) (check m) (st R F)) as CH by (intros m R F; apply (rule_weaken_free _ (m :: F)); [intros y Hy; now right|apply rule_check]).
  destruct c as [|o i|k|k e f| | |]; cbn [construct].
  - apply rule_top. auto.
  - apply rule_storage. auto.
  - apply rule_new. intros s. eapply rule_seq; [apply rule_piecewise_subnodes; now left|]. apply rule_finish. auto.
  - apply rule_new. intros s. eapply rule_seq; [apply rule_piecewise_subnodes; now left|]. eapply rule_seq; [apply rule_check|].
    eapply rule_seq. { apply rule_all_map. intros x. eapply rule_seq; apply rule_child; now left. }
    eapply rule_seq.
    { instantiate (1 := st [s] [n]). destruct f; [|apply rule_skip]. apply rule_top. intros [E|[]]. symmetry in E. revert E. apply append_neq. discriminate. }
    apply (rule_add_top [] [] s n).
  - apply rule_new. intros s. eapply rule_seq; [apply CH|]. eapply rule_seq; [apply CH|]. eapply rule_seq; [apply rule_storage; auto|].
    eapply rule_seq; [apply rule_top; auto|]. apply rule_finish. auto.
  - apply rule_new. intros s. eapply rule_seq; [apply CH|]. eapply rule_seq; [apply CH|].
    do 2 (eapply rule_seq; [apply rule_child; now left|]). apply rule_finish. auto.
  - apply rule_new. intros s. do 4 (eapply rule_seq; [apply CH|]).
    do 3 (eapply rule_seq; [apply rule_child; now left|]). eapply rule_seq; [apply rule_top; auto|]. apply rule_finish. auto.
Qed.

Lemma ok_st g : ok g -> st [] [] g.
Proof. intros H. constructor; [exact H|constructor|easy|easy]. Qed.

(** ** Renaming *)

Lemma keys_rename id name l : ~ In name (map n_name (filter is_top l)) -> NoDup (map n_id l) -> NoDup (map n_name (filter is_top l)) ->
  let l' := map (fun n => if n_id n =? id then Node id name (n_parent n) else n) l in
  NoDup (map n_name (filter is_top l')) /\ (forall x, In x (map n_name (filter is_top l')) -> x = name \/ In x (map n_name (filter is_top l))) /\
  (~ In id (map n_id l) -> l' = l).
Proof.
  intros N I D. cbv zeta. induction l as [|n l IH]; [cbn; auto|]. cbn [map] in I. apply NoDup_cons_iff in I as [I1 I2].
  assert (~ In name (map n_name (filter is_top l)) /\ NoDup (map n_name (filter is_top l))) as [N' D'].
  { cbn [filter] in N, D. destruct (is_top n); cbn [map] in *; [|auto]. apply NoDup_cons_iff in D as [_ D]. split; [intros X; apply N; now right|exact D]. }
  destruct (IH N' I2 D') as (H1 & H2 & H3). cbn [map]. destruct (Nat.eqb_spec (n_id n) id) as [<-|NE].
  - assert (map (fun m => if n_id m =? n_id n then Node (n_id n) name (n_parent m) else m) l = l) as E by (apply H3, I1). rewrite E in *.
    cbn [filter]. replace (is_top (Node (n_id n) name (n_parent n))) with (is_top n) by reflexivity.
    destruct (is_top n) eqn:T; cbn [map n_name] in *.
    + split; [constructor; auto|]. split; [intros x [X|X]; auto; right; cbn [filter]; rewrite ?T; now right|]. intros X. exfalso. apply X. now left.
    + split; [auto|]. split; [intros x X; right; cbn [filter]; rewrite ?T; exact X|]. intros X. exfalso. apply X. now left.
  - cbn [filter]. destruct (is_top n) eqn:T; cbn [map] in *.
    + cbn [filter] in N, D. rewrite T in N, D. cbn [map] in N, D. apply NoDup_cons_iff in D as [D1 _]. split; [|split].
      * constructor; [|exact H1]. intros X. apply H2 in X as [X|X]; [|auto]. apply N. now left.
      * intros x [X|X]; [right; now left|]. apply H2 in X as [X|X]; [auto|right; now right].
      * intros X. f_equal. apply H3. intros Y. apply X. now right.
    + split; [exact H1|]. split; [exact H2|]. intros X. f_equal. apply H3. intros Y. apply X. now right.
Qed.

Lemma ok_rename id name g : ok g -> ok (snd (rename id name g)).
Proof.
  intros [A1 A2 A3 A4]. unfold rename, seqs, check. destruct (freeP name g) as [N|N]; cbn [snd]; [|constructor; auto].
  destruct (keys_rename id name (g_nodes g) N A2 A1) as (H1 & _ & _).
  constructor; cbn [g_nodes g_next].
  - exact H1.
  - rewrite map_map. erewrite map_ext; [exact A2|]. intros n. destruct (Nat.eqb_spec (n_id n) id); cbn; auto.
  - intros m Hm. apply in_map_iff in Hm as (n & <- & Hn). specialize (A3 n Hn). destruct (Nat.eqb_spec (n_id n) id); cbn; subst; auto.
  - intros m p Hm. apply in_map_iff in Hm as (n & <- & Hn). specialize (A4 n p Hn). destruct (Nat.eqb_spec (n_id n) id); cbn; subst; auto.
Qed.

(** ** Deleting *)

Lemma filter_filter {A} (f g : A -> bool) l : filter f (filter g l) = filter (fun x => g x && f x) l.
Proof. induction l as [|a l IH]; cbn; [reflexivity|]. destruct (g a); cbn; [destruct (f a); rewrite IH; reflexivity|exact IH]. Qed.

Lemma remove_filter fuel : forall id l, exists f, remove fuel id l = filter f l.
Proof.
  induction fuel as [|fuel IH]; intros id l; cbn [remove].
  - eauto.
  - assert (forall cs l, exists f, fold_left (fun l n => remove fuel (n_id n) l) cs l = filter f l) as K.
    { induction cs as [|c cs IHc]; intros l0; cbn [fold_left].
      - exists (fun _ => true). induction l0; cbn; congruence.
      - destruct (IH (n_id c) l0) as [f ->]. destruct (IHc (filter f l0)) as [h ->]. rewrite filter_filter. eauto. }
    destruct (K (filter (has_parent id) l) l) as [f ->]. rewrite filter_filter. eauto.
Qed.

Lemma NoDup_map_filter {A B} (h : A -> B) f l : NoDup (map h l) -> NoDup (map h (filter f l)).
Proof.
  induction l as [|a l IH]; cbn; intros H; [constructor|]. apply NoDup_cons_iff in H as [H1 H2].
  destruct (f a); cbn; [constructor; auto|auto]. intros X. apply H1. apply in_map_iff in X as (b & <- & Hb). apply filter_In in Hb as [Hb _]. now apply in_map.
Qed.
Lemma filter_comm {A} (f g : A -> bool) l : filter f (filter g l) = filter g (filter f l).
Proof. rewrite !filter_filter. apply filter_ext. intros x. apply andb_comm. Qed.

Lemma ok_delete id g : ok g -> ok (delete id g).
Proof.
  intros [A1 A2 A3 A4]. unfold delete. destruct (remove_filter (List.length (g_nodes g)) id (g_nodes g)) as [f E]. rewrite E.
  constructor; cbn [g_nodes g_next].
  - unfold keys. cbn [g_nodes]. rewrite filter_comm. apply NoDup_map_filter, A1.
  - apply NoDup_map_filter, A2.
  - intros n Hn. apply filter_In in Hn. apply A3. tauto.
  - intros n p Hn. apply filter_In in Hn. apply A4. tauto.
Qed.

(** Which nodes are deleted. *)
Lemma same_id l (n m : node) : NoDup (map n_id l) -> In n l -> In m l -> n_id n = n_id m -> n = m.
Proof.
  induction l as [|x l IH]; cbn; intros D Hn Hm E; [contradiction|]. apply NoDup_cons_iff in D as [D1 D2].
  destruct Hn as [->|Hn], Hm as [->|Hm]; auto; exfalso; apply D1; [rewrite E|rewrite <- E]; now apply in_map.
Qed.

Definition older (l : list node) : Prop := forall n p, In n l -> n_parent n = Some p -> p < n_id n.

Lemma part_mono l l' a n : incl l l' -> part_of l a n -> part_of l' a n.
Proof.
  intros H P. induction P as [n E|n E|n m E I P IH]; [apply part_self; auto|apply part_child; auto|].
  eapply part_deeper; eauto.
Qed.
Lemma part_trans l a b n : In b l -> part_of l a b -> part_of l (n_id b) n -> In n l -> NoDup (map n_id l) -> part_of l a n.
Proof.
  intros Hb Pb P. induction P as [n E|n E|n m E I P IH]; intros Hn D.
  - assert (n = b) as -> by (eapply same_id; eauto). exact Pb.
  - eapply part_deeper; eauto.
  - eapply part_deeper; eauto.
Qed.

(** Number of nodes younger than an object. *)
Definition younger (a : nat) (l : list node) : nat := countb (fun n => a <? n_id n) l.

Lemma younger_filter a f l : younger a (filter f l) <= younger a l.
Proof.
  unfold younger, countb. induction l as [|n l IH]; cbn [filter List.length]; [lia|]. destruct (f n); cbn [filter]; destruct (a <? n_id n); cbn [filter List.length]; lia.
Qed.
Lemma younger_child a n l : In n l -> a < n_id n -> younger (n_id n) l < younger a l.
Proof.
  intros H L. unfold younger, countb. induction l as [|m l IH]; [contradiction|]. destruct H as [->|H]; cbn [filter].
  - replace (n_id n <? n_id n) with false by (symmetry; apply Nat.ltb_irrefl). replace (a <? n_id n) with true by (symmetry; apply Nat.ltb_lt, L). cbn [List.length].
    assert (List.length (filter (fun m => n_id n <? n_id m) l) <= List.length (filter (fun m => a <? n_id m) l)); [|lia].
    clear IH. induction l as [|m l IH]; cbn [filter List.length]; [lia|]. destruct (Nat.ltb_spec (n_id n) (n_id m)), (Nat.ltb_spec a (n_id m)); cbn [filter List.length]; lia.
  - specialize (IH H). destruct (Nat.ltb_spec (n_id n) (n_id m)), (Nat.ltb_spec a (n_id m)); cbn [filter List.length]; lia.
Qed.

Lemma has_parent_spec a n : has_parent a n = true <-> n_parent n = Some a.
Proof. unfold has_parent. destruct (n_parent n) as [p|]; [rewrite Nat.eqb_eq|]; split; congruence. Qed.

Lemma node_dec (x y : node) : {x = y} + {x <> y}.
Proof. repeat decide equality. Qed.

Lemma part_split l a n : In n l -> part_of l a n -> n_id n = a \/ exists c, In c l /\ n_parent c = Some a /\ part_of l (n_id c) n.
Proof.
  intros Hn P. induction P as [n E|n E|n m E I P IH]; [auto|right; exists n; repeat split; auto; apply part_self; reflexivity|].
  destruct (IH I) as [E'|(c & Hc & Hp & Pc)].
  - right. exists n. subst a. repeat split; auto. apply part_self. reflexivity.
  - right. exists c. repeat split; auto. eapply part_deeper; eauto.
Qed.

Lemma remove_spec fuel : forall a l, NoDup (map n_id l) -> older l -> younger a l <= fuel ->
  forall n, In n (remove fuel a l) <-> In n l /\ ~ part_of l a n.
Proof.
  induction fuel as [|fuel IH]; intros a l D O Y n.
  - (* no younger node, so no sub-node *)
    cbn [remove]. rewrite filter_In, negb_true_iff, Nat.eqb_neq.
    assert (forall m, In m l -> part_of l a m -> n_id m = a) as K.
    { intros m Hm P. assert (a <= n_id m) as L.
      { clear - P O Hm. induction P as [m E|m E|m k E I P IHP]; [lia|specialize (O _ _ Hm E); lia|]. specialize (IHP I). specialize (O _ _ Hm E). lia. }
      destruct (Nat.eq_dec (n_id m) a); [assumption|]. assert (a < n_id m) as L' by lia. pose proof (younger_child a m l Hm L'). lia. }
    split; intros [H1 H2]; split; auto. intros E. apply H2, part_self, E.
  - cbn [remove]. rewrite filter_In, negb_true_iff, Nat.eqb_neq.
    (* the loop over the children *)
    assert (forall cs l1, (forall c, In c cs -> In c l /\ n_parent c = Some a) -> (exists f, l1 = filter f l) ->
      (forall m x, In m l -> In x l -> ~ In x l1 -> part_of l (n_id x) m -> ~ In m l1) ->
      forall m, In m (fold_left (fun l n => remove fuel (n_id n) l) cs l1) <-> In m l1 /\ forall c, In c cs -> ~ part_of l (n_id c) m) as K.
    { induction cs as [|c cs IHc]; intros l1 Hc [f Ef] G; cbn [fold_left].
      - intros m. split; [intros H; split; [exact H|easy]|tauto].
      - destruct (Hc c (or_introl eq_refl)) as [Cl Cp].
        assert (a < n_id c) as Lc by (apply (O c a Cl Cp)).
        assert (forall x, In x l1 -> In x l) as Sub by (subst l1; intros x Hx; apply filter_In in Hx; tauto).
        assert (forall m, In m l1 -> (part_of l1 (n_id c) m <-> part_of l (n_id c) m)) as PP.
        { intros m Hm. split; [apply part_mono; intros x; apply Sub|]. intros P. induction P as [m E|m E|m k E I P IHP]; [apply part_self; auto|apply part_child; auto|].
          destruct (in_dec node_dec k l1) as [Hk|Hk].
          - eapply part_deeper; [exact E|exact Hk|apply IHP, Hk].
          - exfalso. apply (G m k (Sub m Hm) I Hk); [|exact Hm]. apply part_child. exact E. }
        assert (forall m, In m (remove fuel (n_id c) l1) <-> In m l1 /\ ~ part_of l (n_id c) m) as R1.
        { intros m. rewrite IH.
          - split; intros [H1 H2]; split; auto; intros X; apply H2; apply PP; auto.
          - subst l1. apply NoDup_map_filter, D.
          - intros x p Hx. apply O, Sub, Hx.
          - subst l1. pose proof (younger_filter (n_id c) f l). pose proof (younger_child a c l Cl Lc). lia. }
        intros m. rewrite IHc.
        + rewrite R1. split.
          * intros [[H1 H2] H3]. split; [exact H1|]. intros x [<-|Hx]; auto.
          * intros [H1 H2]. split; [split; [exact H1|apply H2; now left]|]. intros x Hx. apply H2. now right.
        + intros x Hx. apply Hc. now right.
        + destruct (remove_filter fuel (n_id c) l1) as [h ->]. subst l1. rewrite filter_filter. eauto.
        + intros k x Hk Hx N P Hr. apply R1 in Hr as [Hm1 NP].
          destruct (in_dec node_dec x l1) as [Hx1|Hx1].
          * apply N, R1. split; [exact Hx1|]. intros PX. apply NP. eapply part_trans; eauto.
          * apply (G k x); auto. }
    rewrite K.
    + split.
      * intros [[H1 H2] H3]. split; [exact H1|]. intros P. apply part_split in P as [E|(c & Hc & Hp & Pc)]; [auto| |exact H1].
        apply (H2 c); [|exact Pc]. apply filter_In. split; [exact Hc|]. apply has_parent_spec, Hp.
      * intros [H1 H2]. split; [split; [exact H1|]|].
        -- intros c Hc Pc. apply filter_In in Hc as [Hc Hp]. apply has_parent_spec in Hp. apply H2. eapply part_trans; eauto. apply part_child, Hp.
        -- intros E. apply H2, part_self, E.
    + intros c Hc. apply filter_In in Hc as [Hc Hp]. split; [exact Hc|]. apply has_parent_spec, Hp.
    + exists (fun _ => true). clear. induction l; cbn; congruence.
    + intros m x Hm Hx N. contradiction.
Qed.

Lemma younger_length a l : younger a l <= List.length l.
Proof. unfold younger, countb. induction l as [|n l IH]; cbn [filter List.length]; [lia|]. destruct (a <? n_id n); cbn [List.length]; lia. Qed.

Lemma delete_spec a g n : ok g -> (In n (g_nodes (delete a g)) <-> In n (g_nodes g) /\ ~ part_of (g_nodes g) a n).
Proof. intros [_ A2 _ A4]. unfold delete. cbn [g_nodes]. apply remove_spec; [exact A2|intros m p; apply A4|apply younger_length]. Qed.

(** ** All operations *)

Lemma ok_perform o g : ok g -> ok (snd (perform o g)).
Proof.
  intros H. destruct o as [c n|id n|id|n]; cbn [perform].
  - destruct (rule_construct c n g (ok_st g H)) as [X _]. exact X.
  - apply ok_rename, H.
  - apply ok_delete, H.
  - unfold delete_name. destruct (lookup n g); [apply ok_delete, H|exact H].
Qed.
Lemma ok_empty : ok empty.
Proof. constructor; cbn; try constructor; easy. Qed.
Lemma ok_all ops : forall g, ok g -> ok (perform_all ops g).
Proof. induction ops as [|o ops IH]; intros g H; [exact H|]. cbn. apply IH, ok_perform, H. Qed.

Lemma same_name l (n m : node) : NoDup (map n_name (filter is_top l)) -> In n l -> In m l -> n_parent n = None -> n_parent m = None -> n_name n = n_name m -> n = m.
Proof.
  intros D Hn Hm Pn Pm E.
  assert (In n (filter is_top l) /\ In m (filter is_top l)) as [A B] by (unfold is_top; split; apply filter_In; [rewrite Pn|rewrite Pm]; auto).
  clear Hn Hm. revert D A B. generalize (filter is_top l) as k. induction k as [|x k IH]; cbn; intros D Hn Hm; [contradiction|].
  apply NoDup_cons_iff in D as [D1 D2]. destruct Hn as [->|Hn], Hm as [->|Hm]; auto; exfalso; apply D1; [rewrite E|rewrite <- E]; now apply in_map.
Qed.

Lemma lookup_visible g n : ok g -> In n (g_nodes g) -> n_parent n = None ->
  (forall m, In m (g_nodes g) -> n_parent m <> None -> n_name m <> n_name n) -> lookup (n_name n) g = Some n.
Proof.
  intros [A _ _ _] Hn Pn N. unfold lookup. destruct (find _ _) as [m|] eqn:E.
  - apply find_some in E as [Hm E]. apply String.eqb_eq in E. f_equal. destruct (n_parent m) as [p|] eqn:Pm.
    + exfalso. apply (N m Hm); [congruence|exact E].
    + symmetry. eapply same_name; eauto.
  - pose proof (find_none _ _ E n Hn) as X. cbn in X. rewrite String.eqb_refl in X. discriminate.
Qed.

(** ** What a successful construction adds *)

(** The last statement of every constructor adds the node itself. *)
Lemma seq_true a b g : fst ((a ;; b) g) = true -> exists g', a g = (true, g') /\ (a ;; b) g = b g'.
Proof. unfold seqs. destruct (a g) as [[|] g'] eqn:E; cbn; [eauto|discriminate]. Qed.

Definition ends (n : string) (s : nat) (m : stmt) : Prop := forall g, fst (m g) = true -> exists l, g_nodes (snd (m g)) = l ++ [Node s n None].
Lemma ends_add n s : ends n s (add s n None).
Proof. intros g _. cbn. eauto. Qed.
Lemma ends_seq n s a b : ends n s b -> ends n s (a ;; b).
Proof. intros H g E. apply seq_true in E as X. destruct X as (g' & _ & Q). rewrite Q in *. apply H, E. Qed.

Lemma construct_last c n g : fst (construct c n g) = true -> exists l, g_nodes (snd (construct c n g)) = l ++ [Node (g_next g) n None].
Proof.
  assert (forall f, (forall s, ends n s (f s)) -> fst (new f g) = true -> exists l, g_nodes (snd (new f g)) = l ++ [Node (g_next g) n None]) as K.
  { intros f H E. unfold new in *. apply H, E. }
  destruct c; cbn [construct]; apply K; intros s; repeat (apply ends_add || apply ends_seq).
Qed.

(** ** Components *)

Lemma component_freeP name l : reflect (forall s, name = Some s -> forall c, In c l -> c_name c <> Some s) (component_free name l).
Proof.
  destruct name as [s|]; cbn; [|constructor; discriminate].
  destruct (existsb _ l) eqn:E; cbn; constructor.
  - intros H. apply existsb_exists in E as (c & Hc & Q). specialize (H s eq_refl c Hc). destruct (c_name c) as [t|]; [|discriminate].
    apply String.eqb_eq in Q. subst. apply H. reflexivity.
  - intros s' [= <-] c Hc Q. assert (existsb (fun c => match c_name c with Some t => String.eqb s t | None => false end) l = true); [|congruence].
    apply existsb_exists. exists c. rewrite Q. split; [exact Hc|apply String.eqb_refl].
Qed.

Record okc (l : list component) : Prop := {
  okc_names : forall c d s, In c l -> In d l -> c_name c = Some s -> c_name d = Some s -> c = d;
  okc_ids : forall c d, In c l -> In d l -> c_id c = c_id d -> c = d;
  okc_next : forall c, In c l -> c_id c < List.length l }.

Lemma okc_perform o l : okc l -> okc (snd (perform_component o l)).
Proof.
  intros H. destruct o as [n s|id n|n]; cbn [perform_component].
  - unfold create_component. destruct (component_freeP n l) as [F|F]; [|exact H]. destruct H as [A B C]. constructor; cbn [snd].
    + intros c d x Hc Hd Ec Ed. apply in_app_iff in Hc as [Hc|[<-|[]]]; apply in_app_iff in Hd as [Hd|[<-|[]]]; eauto.
      * cbn in Ed. exfalso. exact (F x Ed c Hc Ec).
      * cbn in Ec. exfalso. exact (F x Ec d Hd Ed).
    + intros c d Hc Hd E. apply in_app_iff in Hc as [Hc|[<-|[]]]; apply in_app_iff in Hd as [Hd|[<-|[]]]; eauto.
      * specialize (C c Hc). cbn in E. lia.
      * specialize (C d Hd). cbn in E. lia.
    + intros c Hc. rewrite app_length. cbn. apply in_app_iff in Hc as [Hc|[<-|[]]]; [specialize (C c Hc); lia|cbn; lia].
  - unfold rename_component. destruct (component_freeP n l) as [F|F]; [|exact H]. destruct H as [A B C]. constructor; cbn [snd].
    + intros c d x Hc Hd Ec Ed. apply in_map_iff in Hc as (c0 & <- & Hc), Hd as (d0 & <- & Hd).
      destruct (Nat.eqb_spec (c_id c0) id), (Nat.eqb_spec (c_id d0) id); cbn in *; eauto.
      * exfalso. exact (F x Ec d0 Hd Ed).
      * exfalso. exact (F x Ed c0 Hc Ec).
    + intros c d Hc Hd E. apply in_map_iff in Hc as (c0 & <- & Hc), Hd as (d0 & <- & Hd).
      destruct (Nat.eqb_spec (c_id c0) id), (Nat.eqb_spec (c_id d0) id); cbn in *; eauto; congruence.
    + intros c Hc. rewrite map_length. apply in_map_iff in Hc as (c0 & <- & Hc). specialize (C c0 Hc). destruct (Nat.eqb_spec (c_id c0) id); cbn; subst; auto.
  - unfold delete_component. destruct (lookup_component n l); exact H.
Qed.
Lemma okc_all ops : forall l, okc l -> okc (perform_components ops l).
Proof. induction ops as [|o ops IH]; intros l H; [exact H|]. cbn. apply IH, okc_perform, H. Qed.

(** ** Constructors only add, and refuse a visible name *)

Definition adds (m : stmt) : Prop := forall g, exists k, g_nodes (snd (m g)) = g_nodes g ++ k.
Lemma adds_skip : adds skip.
Proof. intros g. exists []. symmetry. apply app_nil_r. Qed.
Lemma adds_check n : adds (check n).
Proof. intros g. exists []. symmetry. apply app_nil_r. Qed.
Lemma adds_add s n p : adds (add s n p).
Proof. intros g. cbn. eauto. Qed.
Lemma adds_seq a b : adds a -> adds b -> adds (a ;; b).
Proof.
  intros A B g. unfold seqs. destruct (A g) as [k E]. destruct (a g) as [[|] g']; cbn [snd] in *; [|eauto].
  destruct (B g') as [k' E']. rewrite E', E, <- app_assoc. eauto.
Qed.
Lemma adds_all l : (forall m, In m l -> adds m) -> adds (all l).
Proof. induction l as [|m l IH]; intros H; [apply adds_skip|]. cbn. apply adds_seq; [apply H; now left|]. apply IH. intros x Hx. apply H. now right. Qed.
Lemma adds_all_map {A} (f : A -> stmt) l : (forall x, adds (f x)) -> adds (all (map f l)).
Proof. intros H. apply adds_all. intros m Hm. apply in_map_iff in Hm as (x & <- & _). apply H. Qed.
Lemma adds_new f : (forall s, adds (f s)) -> adds (new f).
Proof. intros H g. apply (H (g_next g) (Graph (g_nodes g) (S (g_next g)))). Qed.
Ltac grow := repeat first [apply adds_check | apply adds_add | apply adds_skip | apply adds_seq | apply adds_new; intros ? | apply adds_all_map; intros ?
  | unfold create_node | unfold create_storage | unfold piecewise_subnodes].
Lemma adds_construct c n : adds (construct c n).
Proof.
  destruct c; cbn [construct]; unfold create_piecewise, create_multisplit, create_breaklink, create_delay, create_loss; grow.
  destruct factors; grow.
Qed.

Definition refuses (n : string) (m : stmt) : Prop := forall g, In n (keys g) -> fst (m g) = false.
Lemma refuses_check n : refuses n (check n).
Proof. intros g H. cbn. destruct (freeP n g); [contradiction|reflexivity]. Qed.
Lemma keys_app g g' k : g_nodes g' = g_nodes g ++ k -> incl (keys g) (keys g').
Proof. intros E x. unfold keys. rewrite E, filter_app, map_app, in_app_iff. auto. Qed.
Lemma refuses_here n a b : refuses n a -> refuses n (a ;; b).
Proof. intros H g Hg. specialize (H g Hg). unfold seqs. destruct (a g) as [[|] g']; [discriminate|reflexivity]. Qed.
Lemma refuses_later n a b : adds a -> refuses n b -> refuses n (a ;; b).
Proof.
  intros A H g Hg. unfold seqs. destruct (A g) as [k E]. destruct (a g) as [[|] g']; cbn [snd] in E; [|reflexivity]. apply H. eapply keys_app; eauto.
Qed.
Lemma refuses_new n f : (forall s, refuses n (f s)) -> refuses n (new f).
Proof. intros H g Hg. apply (H (g_next g) (Graph (g_nodes g) (S (g_next g))) Hg). Qed.
Lemma refuses_construct c n : refuses n (construct c n).
Proof.
  destruct c; cbn [construct]; unfold create_piecewise, create_multisplit, create_breaklink, create_delay, create_loss, create_node, create_storage; apply refuses_new; intros s;
    repeat (first [apply refuses_check | apply refuses_here; apply refuses_check | apply refuses_later; [solve [grow]|]]).
Qed.

(** ** A constructor without sub-nodes that raises adds nothing *)

Lemma checks_keep {A} (f : A -> string) l g : snd (all (map (fun x => check (f x)) l) g) = g.
Proof.
  induction l as [|x l IH]; [reflexivity|]. cbn [map all fold_right]. unfold seqs, check at 1. destruct (free (f x) g); [exact IH|reflexivity].
Qed.
Lemma sure_all l : (forall m g, In m l -> fst (m g) = true) -> forall g, fst (all l g) = true.
Proof.
  induction l as [|m l IH]; intros H g; [reflexivity|]. cbn. unfold seqs. pose proof (H m g (or_introl eq_refl)) as X. destruct (m g) as [b g'].
  cbn in X. subst b. apply IH. intros x h Hx. apply H. now right.
Qed.

Lemma storage_atomic n o i g : fst (create_storage n o i g) = false -> g_nodes (snd (create_storage n o i g)) = g_nodes g.
Proof.
  unfold create_storage, new. set (g1 := Graph _ _). set (s := g_next g). intros H.
  assert (forall (f : nat -> string) l h, fst (all (map (fun k => new (fun t => add t (f k) (Some s))) l) h) = true) as SA.
  { intros f l h. apply sure_all. intros m k Hm. apply in_map_iff in Hm as (x & <- & _). reflexivity. }
  change (g_nodes g) with (g_nodes g1). revert H.
  unfold seqs at 1 6. unfold check at 1 4. destruct (free n g1); cbn [fst snd]; [|reflexivity].
  pose proof (checks_keep output_slot (seq 0 o) g1) as E1. unfold seqs at 1 5. destruct (all _ g1) as [[|] g2]; cbn [snd] in E1; subst g2; [|reflexivity].
  pose proof (checks_keep input_slot (seq 0 i) g1) as E2. unfold seqs at 1 4. destruct (all _ g1) as [[|] g2]; cbn [snd] in E2; subst g2; [|reflexivity].
  intros H. exfalso. unfold seqs at 1 in H. pose proof (SA output_slot (seq 0 o) g1) as X. destruct (all _ g1) as [b g2]. cbn in X. subst b.
  unfold seqs in H. pose proof (SA input_slot (seq 0 i) g2) as X. destruct (all _ g2) as [b g3]. cbn in X. subst b. discriminate.
Qed.
