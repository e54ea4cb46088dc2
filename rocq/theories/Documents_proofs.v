(** Proofs about documents. *)
From Verif Require Import Base Documents_model.
Local Open Scope nat_scope.
Local Open Scope list_scope.

Lemma get_put {V} k k' (v : V) d : get k' (put k v d) = if String.eqb k k' then Some v else get k' d.
Proof.
  induction d as [|[k0 v0] d IH]; cbn [put get]; [reflexivity|]. destruct (String.eqb_spec k0 k) as [->|N]; cbn [get].
  - destruct (String.eqb k k'); reflexivity.
  - destruct (String.eqb_spec k0 k') as [->|N']; [|exact IH]. destruct (String.eqb_spec k k') as [->|]; [congruence|reflexivity].
Qed.
Lemma put_keys {V} k (v : V) d : ~ In k (map fst d) -> put k v d = d ++ [(k, v)].
Proof.
  induction d as [|[k0 v0] d IH]; cbn; intros N; [reflexivity|]. destruct (String.eqb_spec k0 k) as [->|]; [exfalso; auto|]. rewrite IH; auto.
Qed.
Lemma in_put_keys {V} k (v : V) d x : In x (map fst (put k v d)) <-> x = k \/ In x (map fst d).
Proof.
  induction d as [|[k0 v0] d IH]; cbn [put map fst In]; [intuition|]. destruct (String.eqb_spec k0 k) as [->|]; cbn [map fst In]; [intuition|]. rewrite IH. intuition.
Qed.
Lemma put_NoDup {V} k (v : V) d : NoDup (map fst d) -> NoDup (map fst (put k v d)).
Proof.
  induction d as [|[k0 v0] d IH]; cbn [put map fst]; intros H; [repeat constructor; auto|]. apply NoDup_cons_iff in H as [H1 H2].
  destruct (String.eqb_spec k0 k) as [->|N]; cbn [map fst]; constructor; auto. rewrite in_put_keys. intros [X|X]; auto.
Qed.
Lemma get_in {V} k (v : V) d : NoDup (map fst d) -> In (k, v) d <-> get k d = Some v.
Proof.
  induction d as [|[k0 v0] d IH]; cbn [get map fst In]; intros H; [intuition discriminate|]. apply NoDup_cons_iff in H as [H1 H2].
  destruct (String.eqb_spec k0 k) as [->|N].
  - split; [intros [X|X]; [congruence|]|intros [= ->]; auto]. exfalso. apply H1. apply in_map_iff. exists (k, v). auto.
  - rewrite <- IH by exact H2. split; [intros [X|X]; [congruence|auto]|auto].
Qed.

(** Folding definitions into a dictionary. *)
Lemma fold_put_fresh {A V} (f : A -> string * V) l : forall d, NoDup (map fst (d ++ map f l)) ->
  fold_left (fun d x => put (fst (f x)) (snd (f x)) d) l d = d ++ map f l.
Proof.
  induction l as [|x l IH]; intros d H; cbn [fold_left map]; [now rewrite app_nil_r|]. cbn [map] in H. rewrite put_keys.
  - rewrite <- surjective_pairing. rewrite IH; rewrite <- app_assoc; cbn [app]; [reflexivity|exact H].
  - rewrite map_app in H. cbn [map] in H. apply NoDup_remove_2 in H. intros X. apply H, in_app_iff. auto.
Qed.

(** ** Lists of a merged document *)

(** The list under a key; nothing there counts as the empty list. *)
Definition list_at (k : string) (d : document) : list json := match get k d with Some (JList l) => l | _ => [] end.
(** Documents with different keys (JSON objects). *)
Definition proper (d : document) : Prop := NoDup (map fst d).

Lemma merge_item_list data k v data' k' : merge_item data (k, v) = Some data' ->
  list_at k' data' = list_at k' data ++ (if String.eqb k k' then match v with JList l => l | _ => [] end else []).
Proof.
  unfold merge_item, list_at. destruct v; try discriminate; destruct (get k data) as [[]|] eqn:G; try discriminate; intros [= <-]; rewrite get_put;
    destruct (String.eqb_spec k k') as [->|]; rewrite ?G, ?app_nil_r; reflexivity.
Qed.

Lemma merge_list include : forall data data' k, proper include -> merge include data = Some data' -> list_at k data' = list_at k data ++ list_at k include.
Proof.
  unfold merge. induction include as [|[k0 v0] include IH]; intros data data' k P H; cbn [fold_left] in H.
  - injection H as <-. cbn. now rewrite app_nil_r.
  - apply NoDup_cons_iff in P as [P1 P2]. destruct (merge_item data (k0, v0)) as [d1|] eqn:E.
    + rewrite (IH d1 data' k P2 H), (merge_item_list _ _ _ _ k E), <- app_assoc. f_equal. unfold list_at at 2. cbn [get].
      destruct (String.eqb_spec k0 k) as [->|]; [|reflexivity].
      assert (list_at k include = []) as ->; [|now rewrite app_nil_r]. unfold list_at. destruct (get k include) as [v|] eqn:G; [|reflexivity].
      exfalso. apply P1. apply get_in in G; [|exact P2]. apply in_map_iff. exists (k, v). auto.
    + exfalso. clear - H. induction include as [|kv l IH]; cbn in H; [discriminate|auto].
Qed.

(** ** MultiModel *)

Definition load_step (t : time) (solver : option string) (o : option (dict loaded)) (e : definition) : option (dict loaded) :=
  match o with None => None | Some ms => match load_sub t solver e with Some m => Some (put (e_name e) m ms) | None => None end end.
Lemma load_fold_none t solver es : fold_left (load_step t solver) es None = None.
Proof. induction es; auto. Qed.

Lemma multi_load_inv t solver (P : string -> loaded -> Prop) : forall es ms0 ms,
  (forall e m, In e es -> load_sub t solver e = Some m -> P (e_name e) m) -> (forall k m, get k ms0 = Some m -> P k m) ->
  fold_left (load_step t solver) es (Some ms0) = Some ms -> forall k m, get k ms = Some m -> P k m.
Proof.
  induction es as [|e es IH]; intros ms0 ms H H0 F k m G; cbn [fold_left] in F.
  - injection F as <-. auto.
  - cbn [load_step] in F. destruct (load_sub t solver e) as [m1|] eqn:E; [|rewrite load_fold_none in F; discriminate].
    eapply IH; [| |exact F|exact G].
    + intros e' m' He. apply H. now right.
    + intros k' m' G'. rewrite get_put in G'. destruct (String.eqb_spec (e_name e) k') as [<-|]; [|auto]. injection G' as <-. apply H; [now left|exact E].
Qed.

Lemma multi_load_all t solver : forall es ms0 ms, NoDup (map fst ms0 ++ map e_name es) -> fold_left (load_step t solver) es (Some ms0) = Some ms ->
  exists ls, Forall2 (fun e m => load_sub t solver e = Some m) es ls /\ ms = ms0 ++ combine (map e_name es) ls.
Proof.
  induction es as [|e es IH]; intros ms0 ms N F; cbn [fold_left] in F.
  - injection F as <-. exists []. split; [constructor|]. cbn. now rewrite app_nil_r.
  - cbn [load_step] in F. destruct (load_sub t solver e) as [m1|] eqn:E; [|rewrite load_fold_none in F; discriminate].
    cbn [map] in N. rewrite put_keys in F by (apply NoDup_remove_2 in N; intros X; apply N, in_app_iff; auto).
    apply IH in F as (ls & F1 & F2).
    + exists (m1 :: ls). split; [constructor; auto|]. rewrite F2. cbn [map combine]. rewrite <- app_assoc. reflexivity.
    + rewrite map_app. cbn [map fst]. rewrite <- app_assoc. exact N.
Qed.

Lemma load_sub_inv t solver e m : load_sub t solver e = Some m -> exists doc own, (e_filename e = Some doc \/ e_data e = Some doc) /\ d_time doc = Some own /\
  m = Loaded (Time (t_start t) (t_end t) (t_delta own)) (match (match e_solver e with Some s => Some s | None => solver end) with Some s => Some s | None => d_solver doc end).
Proof.
  unfold load_sub, load_model. destruct (e_filename e) as [d|], (e_data e) as [d'|]; try discriminate; intros H.
  - destruct (d_time d) as [own|] eqn:ET; [|discriminate]. injection H as <-. exists d, own. auto.
  - destruct (d_time d') as [own|] eqn:ET; [|discriminate]. injection H as <-. exists d', own. auto.
Qed.
