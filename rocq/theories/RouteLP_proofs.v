From Verif Require Import Base Paths Sorting Routes_model Routes_spec Routes_proofs LP_model Sys_model
  RouteLP_model RouteLP_spec.
From Coq Require Import Permutation.
Open Scope Q_scope.

(** ** Generic lemmas *)
Lemma mapM_In {A B} (f : A -> result B) l bs : mapM f l = Ok bs ->
  forall a, In a l -> exists b, f a = Ok b /\ In b bs.
Proof.
  revert bs. induction l as [|a l IH]; intros bs H x Hx; [contradiction|]. cbn in H.
  destruct (f a) as [b|e] eqn:E; [|discriminate]. destruct (mapM f l) as [s|e]; [|discriminate].
  injection H as <-. destruct Hx as [->|Hx].
  - exists b. split; [exact E|now left].
  - destruct (IH s eq_refl x Hx) as [b' [H1 H2]]. exists b'. split; [exact H1|now right].
Qed.

Lemma mapM_In_inv {A B} (f : A -> result B) l bs : mapM f l = Ok bs ->
  forall b, In b bs -> exists a, f a = Ok b /\ In a l.
Proof.
  revert bs. induction l as [|a l IH]; intros bs H x Hx; cbn in H.
  - injection H as <-. contradiction.
  - destruct (f a) as [b|e] eqn:E; [|discriminate]. destruct (mapM f l) as [s|e]; [|discriminate].
    injection H as <-. destruct Hx as [->|Hx].
    + exists a. split; [exact E|now left].
    + destruct (IH s eq_refl x Hx) as [a' [H1 H2]]. exists a'. split; [exact H1|now right].
Qed.

Lemma nodupb_NoDup l : nodupb l = true <-> NoDup l.
Proof.
  induction l as [|x l IH]; cbn; [split; [constructor|reflexivity]|].
  rewrite andb_true_iff, IH. split.
  - intros [H1 H2]. constructor; [|exact H2]. fold (memb x l) in H1.
    destruct (membP x l); [discriminate|assumption].
  - intros H. inversion H; subst. split; [|assumption]. fold (memb x l).
    destruct (membP x l); [contradiction|reflexivity].
Qed.

Lemma set_row_inv coef t lb ub r : set_row coef t lb ub = Ok r ->
  r = {| r_coef := coef; r_type := t; r_lb := lb; r_ub := ub |} /\ NoDup (map fst coef).
Proof.
  unfold set_row. destruct (nodupb (map fst coef)) eqn:E; [|discriminate]. cbn [andb]. destruct coef; [discriminate|].
  intros H. injection H as <-. split; [reflexivity|]. now apply nodupb_NoDup.
Qed.
Lemma set_row_nonempty coef t lb ub r : set_row coef t lb ub = Ok r -> coef <> [].
Proof. unfold set_row. destruct coef; [|discriminate]. rewrite andb_false_r. discriminate. Qed.

Lemma qsum_indicator (f : nat -> Q) l k : NoDup l -> In k l ->
  qsum (map (fun n => bq (Nat.eqb k n) * f n) l) == f k.
Proof.
  induction l as [|x l IH]; intros Hn Hk; [contradiction|]. inversion Hn as [|? ? Hx Hn']; subst.
  cbn [map qsum]. destruct Hk as [->|Hk].
  - rewrite Nat.eqb_refl. rewrite qsum_map_zero; [unfold bq; ring|].
    intros y Hy. destruct (Nat.eqb_spec k y) as [->|]; [contradiction|unfold bq; ring].
  - rewrite IH by assumption. destruct (Nat.eqb_spec k x) as [->|]; [contradiction|unfold bq; ring].
Qed.

Lemma qsum_indicator_memb l k : NoDup l ->
  qsum (map (fun n => bq (Nat.eqb k n)) l) == bq (memb k l).
Proof.
  intros Hn. destruct (membP k l) as [H|H].
  - rewrite (qsum_map_ext _ (fun n => bq (Nat.eqb k n) * (fun _ => 1) n)) by (intros; ring).
    rewrite qsum_indicator by assumption. reflexivity.
  - rewrite qsum_map_zero; [reflexivity|]. intros y Hy. destruct (Nat.eqb_spec k y) as [->|]; [contradiction|reflexivity].
Qed.

Lemma bq_andb a b : bq (a && b) == bq a * bq b.
Proof. destruct a, b; cbn; reflexivity. Qed.

(** ** Sums over routes *)
Definition rsum (rs : list (list nat)) (x : nat -> Q) (f : list nat -> Q) : Q :=
  qsum (map (fun c => f (snd c) * x (fst c)) (enumerate rs)).

Lemma enumerate_snd {A} (l : list A) a k : In (k, a) (enumerate l) -> In a l.
Proof. apply in_combine_r. Qed.

Lemma enumerate_fst {A} (l : list A) a k : In (k, a) (enumerate l) -> (k < length l)%nat.
Proof. intros H. apply in_combine_l in H. apply in_seq in H. lia. Qed.

Lemma enum_nth {A} (l : list A) (d : A) : forall a k y, In (k, y) (combine (seq a (length l)) l) -> y = nth (k - a) l d.
Proof.
  induction l as [|z l IH]; intros a k y H; cbn in H; [contradiction|].
  destruct H as [H|H].
  - injection H as <- <-. now rewrite Nat.sub_diag.
  - assert (Datatypes.S a <= k)%nat by (apply in_combine_l in H; apply in_seq in H; lia).
    apply IH in H. subst y. replace (k - a)%nat with (Datatypes.S (k - Datatypes.S a)) by lia. reflexivity.
Qed.

Lemma enumerate_nth {A} (l : list A) (d : A) k y : In (k, y) (enumerate l) -> y = nth k l d.
Proof. intros H. apply (enum_nth l d) in H. now rewrite Nat.sub_0_r in H. Qed.

Lemma map_fst_combine {A B} (l : list A) (m : list B) : length l = length m -> map fst (combine l m) = l.
Proof.
  revert m. induction l as [|a l IH]; intros [|b m] H; cbn in *; try discriminate; [reflexivity|].
  f_equal. apply IH. congruence.
Qed.

Lemma enumerate_map_fst {A} (l : list A) : map fst (enumerate l) = seq 0 (length l).
Proof. apply map_fst_combine. now rewrite seq_length. Qed.

Lemma rsum_seq rs x f : rsum rs x f == qsum (map (fun k => f (nth k rs []) * x k) (seq 0 (length rs))).
Proof.
  unfold rsum. rewrite <- (enumerate_map_fst rs), map_map. apply qsum_map_ext.
  intros [k r] H. cbn [fst snd]. apply (enumerate_nth rs []) in H. now subst r.
Qed.

Lemma rsum_ext rs x f g : (forall r, In r rs -> f r == g r) -> rsum rs x f == rsum rs x g.
Proof.
  intros H. apply qsum_map_ext. intros [k r] Hr. cbn [fst snd]. rewrite H; [reflexivity|].
  eapply enumerate_snd; eauto.
Qed.

Lemma rsum_plus rs x f g : rsum rs x (fun r => f r + g r) == rsum rs x f + rsum rs x g.
Proof.
  unfold rsum. rewrite <- qsum_map_plus. apply qsum_map_ext. intros; ring.
Qed.

Lemma rsum_minus rs x f g : rsum rs x (fun r => f r - g r) == rsum rs x f - rsum rs x g.
Proof.
  unfold rsum. rewrite <- qsum_map_minus. apply qsum_map_ext. intros; ring.
Qed.

Lemma rsum_scale rs x c f : rsum rs x (fun r => c * f r) == c * rsum rs x f.
Proof.
  unfold rsum. rewrite <- qsum_map_scale. apply qsum_map_ext. intros; ring.
Qed.

Lemma rsum_zero rs x f : (forall r, In r rs -> f r == 0) -> rsum rs x f == 0.
Proof.
  intros H. apply qsum_map_zero. intros [k r] Hr. cbn [fst snd].
  rewrite H by (eapply enumerate_snd; eauto). ring.
Qed.

Lemma rsum_nonneg rs x f : (forall c, (c < length rs)%nat -> 0 <= x c) ->
  (forall r, In r rs -> 0 <= f r) -> 0 <= rsum rs x f.
Proof.
  intros Hx Hf. apply qsum_map_nonneg. intros [k r] H. cbn [fst snd].
  apply Qmult_le_0_compat; [apply Hf; eapply enumerate_snd; eauto|apply Hx; eapply enumerate_fst; eauto].
Qed.

Lemma rsum_sum {A} rs x (f : A -> list nat -> Q) (l : list A) :
  rsum rs x (fun r => qsum (map (fun a => f a r) l)) == qsum (map (fun a => rsum rs x (f a)) l).
Proof.
  unfold rsum. rewrite (qsum_swap (fun a c => f a (snd c) * x (fst c)) l (enumerate rs)).
  apply qsum_map_ext. intros c _. rewrite qsum_map_scale_r. reflexivity.
Qed.

Lemma cols_sum rs x p v :
  qsum (map (fun c => snd c * x (fst c)) (map (fun c => (c, v)) (cols rs p))) == v * rsum rs x (fun r => bq (p r)).
Proof.
  unfold cols. rewrite !map_map. cbn [fst snd]. rewrite qsum_filter. unfold rsum.
  rewrite <- qsum_map_scale. apply qsum_map_ext. intros; ring.
Qed.

Lemma cols_In rs p k : In k (cols rs p) -> exists r, In r rs /\ p r = true /\ r = nth k rs [].
Proof.
  unfold cols. intros H. apply in_map_iff in H as [[k' r] [H1 H2]]. cbn in H1. subst k'.
  apply filter_In in H2 as [H2 H3]. exists r. split; [eapply enumerate_snd; eauto|].
  split; [exact H3|]. now apply (enumerate_nth rs []).
Qed.

Lemma cols_In_intro rs p k : (k < length rs)%nat -> p (nth k rs []) = true -> In k (cols rs p).
Proof.
  intros Hk Hp. unfold cols. apply in_map_iff. exists (k, nth k rs []). split; [reflexivity|].
  apply filter_In. split; [|exact Hp]. unfold enumerate.
  replace (k, nth k rs []) with (nth k (combine (seq 0 (length rs)) rs) (0%nat, [])).
  - apply nth_In. rewrite combine_length, seq_length, Nat.min_id. exact Hk.
  - rewrite combine_nth by now rewrite seq_length. now rewrite seq_nth.
Qed.

Lemma NoDup_map_filter {A B} (f : A -> B) p l : NoDup (map f l) -> NoDup (map f (filter p l)).
Proof.
  induction l as [|a l IH]; cbn; intros H; [constructor|]. inversion H as [|? ? H1 H2]; subst.
  destruct (p a); cbn; [constructor|]; auto. intros K. apply H1. apply in_map_iff in K as [y [E K]].
  apply filter_In in K as [K _]. apply in_map_iff. eauto.
Qed.

Lemma cols_NoDup rs p : NoDup (cols rs p).
Proof. apply NoDup_map_filter. rewrite enumerate_map_fst. apply seq_NoDup. Qed.

(** ** Facts about routes *)
Lemma wf_net_of S : wf_sys S -> wf_net (net_of S).
Proof.
  intros W. split; [exact (wf_nodes _ W)|]. split; [exact (wf_edges _ W)|]. exact (wf_ends _ W).
Qed.

Record route_facts (S : sys) (r : list nat) : Prop := {
  rf_nodup : NoDup r;
  rf_length : (2 <= length r)%nat;
  rf_first : s_kind S (rfirst r) = KInput;
  rf_last : s_kind S (rlast r) = KOutput;
  rf_nodes : forall n, In n r -> In n (s_nodes S);
  rf_kinds : forall n, In n r -> is_flow_node (s_kind S n) = true;
  rf_domain : forall m n, In m r -> In n r -> s_domain S m = s_domain S n;
  rf_chain : chain (fun a b => In (a, b) (s_edges S)) r
}.

Lemma last_app_cons {A} (l : list A) a m d : last (l ++ a :: m) d = last (a :: m) d.
Proof.
  induction l as [|b l IH]; [reflexivity|]. cbn [app].
  destruct (l ++ a :: m) eqn:E; [now destruct l|]. exact IH.
Qed.

Lemma In_last {A} (l : list A) d : l <> [] -> In (last l d) l.
Proof.
  induction l as [|a l IH]; intros H; [congruence|]. destruct l as [|b l]; [now left|].
  right. apply IH. discriminate.
Qed.

Lemma first_in r : r <> [] -> In (rfirst r) r.
Proof. destruct r; [congruence|]. now left. Qed.
Lemma last_in r : r <> [] -> In (rlast r) r.
Proof. apply In_last. Qed.

Lemma split_position r n : In n r -> n = rfirst r \/ n = rlast r \/ between r n.
Proof.
  intros H. apply in_split in H as [l [m ->]]. destruct l as [|a l]; [now left|]. right.
  destruct m as [|b m].
  - left. unfold rlast. rewrite last_app_cons. reflexivity.
  - right. exists (a :: l), (b :: m). repeat split; discriminate.
Qed.

Lemma routes_facts triv S r : wf_sys S -> In r (routes triv S) -> route_facts S r.
Proof.
  intros W H. apply (model_routes_spec triv _ (wf_net_of S W)) in H.
  destruct H as [a [b [[Ha Ka] [[Hb Kb] [Hp [Hv [_ Hd]]]]]]]. cbn [net_of n_nodes n_is_input n_is_output n_is_link] in *.
  assert (s_kind S a = KInput) as Ka' by (destruct (s_kind S a); try discriminate; reflexivity).
  assert (s_kind S b = KOutput) as Kb' by (destruct (s_kind S b); try discriminate; reflexivity).
  destruct Hp as [[[H1 [H2 H3]] [H4 H5]]|[_ [-> ->]]]; [|congruence].
  assert (r <> []) as Hr by (destruct r; [cbn in H5; lia|discriminate]).
  assert (rfirst r = a) as Ef by (destruct r; [congruence|cbn in *; congruence]).
  assert (rlast r = b) as El by (unfold rlast; rewrite (last_default _ _ a Hr); exact H2).
  assert (forall n, In n r -> is_flow_node (s_kind S n) = true) as HK.
  { intros n Hn. destruct (split_position r n Hn) as [->|[->|Hb']].
    - now rewrite Ef, Ka'.
    - now rewrite El, Kb'.
    - specialize (Hv _ eq_refl n Hb'). cbn in Hv. unfold is_flow_node.
      destruct (is_input (s_kind S n)), (is_output (s_kind S n)), (is_link (s_kind S n)); cbn in *; congruence. }
  constructor; auto.
  - now rewrite Ef.
  - now rewrite El.
  - intros n Hn. destruct r as [|y r]; [congruence|]. cbn in Ef. subst y.
    destruct Hn as [->|Hn]; [exact Ha|].
    refine (chain_targets _ (fun n => In n (s_nodes S)) _ _ _ H3 n Hn).
    intros u v E. now apply (wf_ends _ W) in E.
Qed.

Lemma rf_ne S r : route_facts S r -> r <> [].
Proof. intros F. pose proof (rf_length _ _ F). destruct r; [cbn in *; lia|discriminate]. Qed.

(** ** The flow collected at a node *)
Definition sel (S : sys) (r : list nat) (m : nat * nat) : bool :=
  Nat.eqb (fst m) 0 || Nat.eqb (fst m) (length r - 1) || is_link (s_kind S (snd m)).

Definition hits (S : sys) (r : list nat) (k : nat) : Q :=
  qsum (map (fun m => bq (sel S r m && Nat.eqb k (snd m))) (enumerate r)).

Lemma inner_fold S r flow (ms : list (nat * nat)) : forall nf k,
  fold_left (fun nf m => if sel S r m then add nf (snd m) flow else nf) ms nf k
  == nf k + qsum (map (fun m => bq (sel S r m && Nat.eqb k (snd m))) ms) * flow.
Proof.
  induction ms as [|m ms IH]; intros nf k; cbn [fold_left map qsum]; [ring|].
  rewrite IH. destruct (sel S r m); cbn [andb]; [|unfold bq at 2; ring].
  unfold add. destruct (Nat.eqb k (snd m)); unfold bq at 2; ring.
Qed.

Lemma outer_fold S x (cs : list (nat * list nat)) : forall nf k,
  fold_left (fun nf c => if qeqb (x (fst c)) 0 then nf
      else fold_left (fun nf m => if sel S (snd c) m then add nf (snd m) (x (fst c)) else nf) (enumerate (snd c)) nf)
    cs nf k
  == nf k + qsum (map (fun c => hits S (snd c) k * x (fst c)) cs).
Proof.
  induction cs as [|c cs IH]; intros nf k; cbn [fold_left map qsum]; [ring|].
  rewrite IH. destruct (qeqbP (x (fst c)) 0) as [E|E].
  - rewrite E. ring.
  - rewrite inner_fold. unfold hits. ring.
Qed.

Lemma node_flows_hits triv S x k :
  node_flows triv S x k == rsum (routes triv S) x (fun r => hits S r k).
Proof.
  unfold node_flows. fold (sel S). etransitivity; [apply outer_fold|]. unfold rsum. ring.
Qed.

Lemma combine_seq_app {A} (l : list A) k m : forall a,
  combine (seq a (length (l ++ k :: m))) (l ++ k :: m)
  = combine (seq a (length l)) l ++ (a + length l, k)%nat :: combine (seq (Datatypes.S (a + length l)) (length m)) m.
Proof.
  induction l as [|b l IH]; intros a; cbn; [now rewrite Nat.add_0_r|].
  f_equal. rewrite IH. f_equal. now rewrite Nat.add_succ_r.
Qed.

Lemma hits_simple S r k : NoDup r ->
  hits S r k == bq (memb k r && (Nat.eqb k (rfirst r) || Nat.eqb k (rlast r) || is_link (s_kind S k))).
Proof.
  intros Hn. unfold hits. destruct (membP k r) as [H|H].
  - apply in_split in H as [l [m ->]]. cbn [andb].
    apply NoDup_remove in Hn as [Hn Hk]. rewrite in_app_iff in Hk.
    unfold enumerate. rewrite combine_seq_app, map_app, qsum_app. cbn [map qsum fst snd].
    rewrite (qsum_map_zero _ (combine (seq 0 (length l)) l)).
    2:{ intros [i y] Hy. apply in_combine_r in Hy. cbn [snd].
        destruct (Nat.eqb_spec k y) as [->|]; [tauto|]. now rewrite andb_false_r. }
    rewrite (qsum_map_zero _ (combine _ m)).
    2:{ intros [i y] Hy. apply in_combine_r in Hy. cbn [snd].
        destruct (Nat.eqb_spec k y) as [->|]; [tauto|]. now rewrite andb_false_r. }
    rewrite Nat.eqb_refl, andb_true_r. unfold sel. cbn [fst snd Nat.add].
    assert (Nat.eqb (length l) 0 = Nat.eqb k (rfirst (l ++ k :: m))) as ->.
    { destruct l as [|b l]; cbn; [now rewrite Nat.eqb_refl|].
      destruct (Nat.eqb_spec k b) as [->|]; [|reflexivity]. cbn in Hk. tauto. }
    assert (Nat.eqb (length l) (length (l ++ k :: m) - 1) = Nat.eqb k (rlast (l ++ k :: m))) as ->.
    { unfold rlast. rewrite last_app_cons, app_length. cbn [length]. destruct m as [|b m].
      - cbn. rewrite Nat.eqb_refl. apply Nat.eqb_eq. lia.
      - destruct (Nat.eqb_spec k (last (k :: b :: m) 0%nat)) as [E|E].
        + exfalso. assert (In k (b :: m)); [|tauto]. rewrite E at 1. apply (In_last (b :: m)). discriminate.
        + apply Nat.eqb_neq. cbn [length]. lia. }
    ring.
  - cbn [andb]. rewrite qsum_map_zero; [reflexivity|]. intros [i y] Hy. apply in_combine_r in Hy. cbn [snd].
    destruct (Nat.eqb_spec k y) as [->|]; [contradiction|]. now rewrite andb_false_r.
Qed.

(** On which routes a node carries (committed) flow. *)
Definition carries (S : sys) (n : nat) (r : list nat) : bool :=
  match s_kind S n with
  | KInput => Nat.eqb (rfirst r) n
  | KOutput => Nat.eqb (rlast r) n
  | KLink => memb n r
  | _ => false
  end.

Lemma hits_carries S r n : route_facts S r -> hits S r n == bq (carries S n r).
Proof.
  intros F. rewrite hits_simple by apply (rf_nodup _ _ F). unfold carries.
  pose proof (rf_first _ _ F) as Hf. pose proof (rf_last _ _ F) as Hl.
  pose proof (first_in r (rf_ne _ _ F)) as If. pose proof (last_in r (rf_ne _ _ F)) as Il.
  rewrite (Nat.eqb_sym (rfirst r)), (Nat.eqb_sym (rlast r)).
  destruct (membP n r) as [Hn|Hn].
  - pose proof (rf_kinds _ _ F n Hn) as Hk. cbn [andb].
    destruct (Nat.eqb_spec n (rfirst r)) as [->|N1]; [rewrite Hf; reflexivity|].
    destruct (Nat.eqb_spec n (rlast r)) as [->|N2]; [rewrite Hl; reflexivity|].
    cbn [orb]. destruct (s_kind S n); reflexivity.
  - cbn [andb]. destruct (Nat.eqb_spec n (rfirst r)) as [->|N1]; [contradiction|].
    destruct (Nat.eqb_spec n (rlast r)) as [->|N2]; [contradiction|].
    destruct (s_kind S n); reflexivity.
Qed.

Lemma node_flows_carries triv S x n : wf_sys S ->
  node_flows triv S x n == rsum (routes triv S) x (fun r => bq (carries S n r)).
Proof.
  intros W. rewrite node_flows_hits. apply rsum_ext. intros r Hr. apply hits_carries.
  eapply routes_facts; eauto.
Qed.

(** ** The commit loop *)
Definition contrib (S : sys) (nf : nat -> Q) (k n : nat) : Q :=
  bq (Nat.eqb k n) * nf n +
  match s_slot S n with
  | NoSlot => 0
  | InputOf st => bq (Nat.eqb k st) * - nf n
  | OutputOf st => bq (Nat.eqb k st) * nf n
  end.

Lemma commit_fold S nf l : forall fl k,
  fold_left (fun fl n => commit S fl n (nf n)) l fl k == fl k + qsum (map (contrib S nf k) l).
Proof.
  induction l as [|n l IH]; intros fl k; cbn [fold_left map qsum]; [ring|].
  rewrite IH. unfold commit, contrib at 2.
  destruct (s_slot S n) as [|st|st]; unfold add, bq.
  - destruct (Nat.eqb k n); ring.
  - destruct (Nat.eqb k st), (Nat.eqb k n); ring.
  - destruct (Nat.eqb k st), (Nat.eqb k n); ring.
Qed.

Lemma all_nodes_In S n : In n (all_nodes S) <-> In n (s_nodes S).
Proof. apply isort_In. Qed.

Lemma all_nodes_NoDup S : wf_sys S -> NoDup (all_nodes S).
Proof. intros W. apply isort_NoDup. exact (wf_nodes _ W). Qed.

Lemma slot_input_storage S n st : wf_sys S -> In n (s_nodes S) -> s_slot S n = InputOf st -> s_kind S st = KStorage.
Proof. intros W Hn H. apply (wf_inputs _ W) in H; [|exact Hn]. now apply (wf_inputs_nodes _ W) in H. Qed.
Lemma slot_output_storage S n st : wf_sys S -> In n (s_nodes S) -> s_slot S n = OutputOf st -> s_kind S st = KStorage.
Proof. intros W Hn H. apply (wf_outputs _ W) in H; [|exact Hn]. now apply (wf_outputs_nodes _ W) in H. Qed.

Lemma committed_plain S nf k : wf_sys S -> In k (s_nodes S) -> s_kind S k <> KStorage ->
  commit_all_nodes S nf k == nf k.
Proof.
  intros W Hk Hs. unfold commit_all_nodes. rewrite commit_fold.
  rewrite (qsum_map_ext _ (fun n => bq (Nat.eqb k n) * nf n)).
  - rewrite qsum_indicator; [ring|now apply all_nodes_NoDup|now apply all_nodes_In].
  - intros n Hn. apply all_nodes_In in Hn. unfold contrib. destruct (s_slot S n) as [|st|st] eqn:E; [ring| |].
    + apply slot_input_storage in E; [|exact W|exact Hn].
      destruct (Nat.eqb_spec k st) as [->|]; [contradiction|unfold bq; ring].
    + apply slot_output_storage in E; [|exact W|exact Hn].
      destruct (Nat.eqb_spec k st) as [->|]; [contradiction|unfold bq; ring].
Qed.

Definition slot_in (S : sys) (st n : nat) : bool := match s_slot S n with InputOf k => Nat.eqb st k | _ => false end.
Definition slot_out (S : sys) (st n : nat) : bool := match s_slot S n with OutputOf k => Nat.eqb st k | _ => false end.

Lemma sum_slots S (f : nat -> Q) (p : nat -> bool) l : wf_sys S -> NoDup l ->
  (forall n, In n l <-> In n (s_nodes S) /\ p n = true) ->
  qsum (map (fun n => bq (p n) * f n) (all_nodes S)) == qsum (map f l).
Proof.
  intros W Hn H. rewrite <- qsum_filter. apply qsum_Permutation, Permutation_map, NoDup_Permutation.
  - apply NoDup_filter. now apply all_nodes_NoDup.
  - exact Hn.
  - intros n. rewrite filter_In, all_nodes_In. symmetry. apply H.
Qed.

Lemma slot_in_spec S st : wf_sys S -> forall n, In n (s_inputs S st) <-> In n (s_nodes S) /\ slot_in S st n = true.
Proof.
  intros W n. unfold slot_in. split.
  - intros H. destruct (wf_inputs_nodes _ W _ _ H) as [Hn _]. split; [exact Hn|].
    apply (wf_inputs _ W) in H; [|exact Hn]. rewrite H. apply Nat.eqb_refl.
  - intros [Hn H]. destruct (s_slot S n) as [|k|k] eqn:E; try discriminate. apply Nat.eqb_eq in H. subst k.
    now apply (wf_inputs _ W) in E.
Qed.
Lemma slot_out_spec S st : wf_sys S -> forall n, In n (s_outputs S st) <-> In n (s_nodes S) /\ slot_out S st n = true.
Proof.
  intros W n. unfold slot_out. split.
  - intros H. destruct (wf_outputs_nodes _ W _ _ H) as [Hn _]. split; [exact Hn|].
    apply (wf_outputs _ W) in H; [|exact Hn]. rewrite H. apply Nat.eqb_refl.
  - intros [Hn H]. destruct (s_slot S n) as [|k|k] eqn:E; try discriminate. apply Nat.eqb_eq in H. subst k.
    now apply (wf_outputs _ W) in E.
Qed.

Lemma committed_storage S nf st : wf_sys S -> In st (s_nodes S) ->
  commit_all_nodes S nf st == nf st + qsum (map nf (s_outputs S st)) - qsum (map nf (s_inputs S st)).
Proof.
  intros W Hst. unfold commit_all_nodes. rewrite commit_fold.
  rewrite <- (sum_slots S nf (slot_in S st) (s_inputs S st) W (wf_inputs_NoDup _ W st) (slot_in_spec S st W)).
  rewrite <- (sum_slots S nf (slot_out S st) (s_outputs S st) W (wf_outputs_NoDup _ W st) (slot_out_spec S st W)).
  rewrite (qsum_map_ext _ (fun n => bq (Nat.eqb st n) * nf n +
            (bq (slot_out S st n) * nf n - bq (slot_in S st n) * nf n))).
  - rewrite (qsum_map_plus (fun n => bq (Nat.eqb st n) * nf n)), qsum_map_minus.
    rewrite qsum_indicator; [ring|now apply all_nodes_NoDup|now apply all_nodes_In].
  - intros n _. unfold contrib, slot_in, slot_out. destruct (s_slot S n); change (bq false) with 0; ring.
Qed.

(** ** Committed flows as sums over routes *)
Lemma committed_flow triv S x n : wf_sys S -> In n (s_nodes S) -> is_flow_node (s_kind S n) = true ->
  committed triv S x n == rsum (routes triv S) x (fun r => bq (carries S n r)).
Proof.
  intros W Hn Hk. unfold committed. rewrite committed_plain; auto.
  - now apply node_flows_carries.
  - intros E. rewrite E in Hk. discriminate.
Qed.

Lemma memb_sum r l (f : list nat -> nat) : NoDup l ->
  qsum (map (fun n => bq (Nat.eqb (f r) n)) l) == bq (memb (f r) l).
Proof. apply qsum_indicator_memb. Qed.

Lemma committed_storage_slots triv S x st : wf_sys S -> In st (s_nodes S) -> s_kind S st = KStorage ->
  committed triv S x st == qsum (map (committed triv S x) (s_outputs S st)) - qsum (map (committed triv S x) (s_inputs S st)).
Proof.
  intros W Hst Hk. unfold committed at 1. rewrite committed_storage by assumption.
  rewrite node_flows_carries by exact W.
  rewrite rsum_zero by (intros r _; unfold carries; rewrite Hk; reflexivity).
  rewrite (qsum_map_ext (committed triv S x) (node_flows triv S x) (s_outputs S st)).
  2:{ intros n Hn. destruct (wf_outputs_nodes _ W _ _ Hn) as [H1 [H2 _]]. unfold committed. apply committed_plain; auto. congruence. }
  rewrite (qsum_map_ext (committed triv S x) (node_flows triv S x) (s_inputs S st)).
  2:{ intros n Hn. destruct (wf_inputs_nodes _ W _ _ Hn) as [H1 [H2 _]]. unfold committed. apply committed_plain; auto. congruence. }
  ring.
Qed.

Lemma committed_storage_routes triv S x st : wf_sys S -> In st (s_nodes S) -> s_kind S st = KStorage ->
  committed triv S x st ==
  rsum (routes triv S) x (fun r => bq (memb (rlast r) (s_outputs S st)) - bq (memb (rfirst r) (s_inputs S st))).
Proof.
  intros W Hst Hk. rewrite committed_storage_slots by assumption. rewrite rsum_minus.
  rewrite (qsum_map_ext (committed triv S x) (fun n => rsum (routes triv S) x (fun r => bq (Nat.eqb (rlast r) n))) (s_outputs S st)).
  2:{ intros n Hn. destruct (wf_outputs_nodes _ W _ _ Hn) as [H1 [H2 _]]. rewrite committed_flow by (auto; now rewrite H2).
      apply rsum_ext. intros r _. unfold carries. rewrite H2. reflexivity. }
  rewrite (qsum_map_ext (committed triv S x) (fun n => rsum (routes triv S) x (fun r => bq (Nat.eqb (rfirst r) n))) (s_inputs S st)).
  2:{ intros n Hn. destruct (wf_inputs_nodes _ W _ _ Hn) as [H1 [H2 _]]. rewrite committed_flow by (auto; now rewrite H2).
      apply rsum_ext. intros r _. unfold carries. rewrite H2. reflexivity. }
  rewrite <- (rsum_sum (routes triv S) x (fun n r => bq (Nat.eqb (rlast r) n))).
  rewrite <- (rsum_sum (routes triv S) x (fun n r => bq (Nat.eqb (rfirst r) n))).
  apply Qplus_comp; [|apply Qopp_comp]; apply rsum_ext; intros r _; apply memb_sum.
  - exact (wf_outputs_NoDup _ W st).
  - exact (wf_inputs_NoDup _ W st).
Qed.

(** ** Rows of the posed problem *)
Lemma of_kind_In S p n : In n (of_kind S p) <-> In n (s_nodes S) /\ p (s_kind S n) = true.
Proof. unfold of_kind. rewrite filter_In, all_nodes_In. reflexivity. Qed.

Record posed_facts (triv : bool) (S : sys) (d : data) (P : lp) : Prop := {
  pf_cols : lp_ncols P = length (routes triv S);
  pf_obj : forall c, lp_obj P c = route_cost S d (nth c (routes triv S) []);
  pf_flow : forall n, In n (s_nodes S) -> is_flow_node (s_kind S n) = true ->
    exists l, non_storage_rows S d (routes triv S) (cross_domain_routes triv S) n = Ok l /\ incl l (lp_rows P);
  pf_storage : forall n, In n (s_nodes S) -> s_kind S n = KStorage ->
    exists r, storage_row S d (routes triv S) n = Ok r /\ In r (lp_rows P);
  pf_virtual : forall n, In n (s_nodes S) -> s_kind S n = KVirtual ->
    exists r, virtual_row S d (routes triv S) n = Ok r /\ In r (lp_rows P);
  pf_factor : forall n, In n (s_nodes S) -> s_kind S n = KAggregated -> s_has_factors S n = true ->
    exists l, factor_rows S d (routes triv S) n = Ok l /\ incl l (lp_rows P);
  pf_agg : forall n, In n (s_nodes S) -> s_kind S n = KAggregated ->
    exists r, agg_row S d (routes triv S) n = Ok r /\ In r (lp_rows P);
  pf_only : forall r, In r (lp_rows P) ->
    (exists n l, In n (s_nodes S) /\ is_flow_node (s_kind S n) = true /\
       non_storage_rows S d (routes triv S) (cross_domain_routes triv S) n = Ok l /\ In r l) \/
    (exists n, In n (s_nodes S) /\ s_kind S n = KStorage /\ storage_row S d (routes triv S) n = Ok r) \/
    (exists n, In n (s_nodes S) /\ s_kind S n = KVirtual /\ virtual_row S d (routes triv S) n = Ok r) \/
    (exists n l, In n (s_nodes S) /\ s_kind S n = KAggregated /\ s_has_factors S n = true /\
       factor_rows S d (routes triv S) n = Ok l /\ In r l) \/
    (exists n, In n (s_nodes S) /\ s_kind S n = KAggregated /\ agg_row S d (routes triv S) n = Ok r)
}.

Lemma concatR_mapM {A B} (f : A -> result (list B)) l bs : concatR (mapM f l) = Ok bs ->
  (forall a, In a l -> exists b, f a = Ok b /\ incl b bs) /\
  (forall r, In r bs -> exists a b, In a l /\ f a = Ok b /\ In r b).
Proof.
  unfold concatR. destruct (mapM f l) as [bss|e] eqn:E; [|discriminate]. intros H. injection H as <-. split.
  - intros a Ha. destruct (mapM_In _ _ _ E a Ha) as [b [H1 H2]]. exists b. split; [exact H1|].
    intros y Hy. apply in_concat. eauto.
  - intros r Hr. apply in_concat in Hr as [b [Hb Hr]]. destruct (mapM_In_inv _ _ _ E b Hb) as [a [H1 H2]]. eauto.
Qed.

Lemma posed_inv triv S d P : posed triv S d = Ok P -> posed_facts triv S d P.
Proof.
  unfold posed. destruct (match all_nodes S with [] => true | _ => false end); [discriminate|].
  destruct (match routes triv S with [] => true | _ => false end); [discriminate|].
  destruct (match of_kind S is_flow_node with [] => true | _ => false end); [discriminate|].
  destruct (concatR (mapM (non_storage_rows S d (routes triv S) (cross_domain_routes triv S)) (of_kind S is_flow_node)))
    as [r1|e] eqn:E1; [|discriminate]. cbn [bindR].
  destruct (mapM (storage_row S d (routes triv S)) (of_kind S is_storage)) as [r2|e] eqn:E2; [|discriminate]. cbn [bindR].
  destruct (mapM (virtual_row S d (routes triv S)) (of_kind S is_virtual)) as [r3|e] eqn:E3; [|discriminate]. cbn [bindR].
  destruct (concatR (mapM (factor_rows S d (routes triv S)) (filter (s_has_factors S) (of_kind S is_aggregated))))
    as [r4|e] eqn:E4; [|discriminate]. cbn [bindR].
  destruct (mapM (agg_row S d (routes triv S)) (of_kind S is_aggregated)) as [r5|e] eqn:E5; [|discriminate]. cbn [bindR].
  intros H. injection H as <-.
  destruct (concatR_mapM _ _ _ E1) as [F1 G1]. destruct (concatR_mapM _ _ _ E4) as [F4 G4].
  constructor; cbn [lp_ncols lp_rows lp_obj].
  - reflexivity.
  - reflexivity.
  - intros n Hn Hk. destruct (F1 n) as [b [H1 H2]]; [apply of_kind_In; auto|]. exists b. split; [exact H1|].
    intros y Hy. rewrite !in_app_iff. specialize (H2 y Hy). tauto.
  - intros n Hn Hk. destruct (mapM_In _ _ _ E2 n) as [b [H1 H2]]; [apply of_kind_In; rewrite Hk; auto|].
    exists b. split; [exact H1|]. rewrite !in_app_iff. tauto.
  - intros n Hn Hk. destruct (mapM_In _ _ _ E3 n) as [b [H1 H2]]; [apply of_kind_In; rewrite Hk; auto|].
    exists b. split; [exact H1|]. rewrite !in_app_iff. tauto.
  - intros n Hn Hk Hf. destruct (F4 n) as [b [H1 H2]]; [apply filter_In; split; [apply of_kind_In; rewrite Hk; auto|exact Hf]|].
    exists b. split; [exact H1|]. intros y Hy. rewrite !in_app_iff. specialize (H2 y Hy). tauto.
  - intros n Hn Hk. destruct (mapM_In _ _ _ E5 n) as [b [H1 H2]]; [apply of_kind_In; rewrite Hk; auto|].
    exists b. split; [exact H1|]. rewrite !in_app_iff. tauto.
  - intros r Hr. rewrite !in_app_iff in Hr. destruct Hr as [Hr|[Hr|[Hr|[Hr|Hr]]]].
    + left. destruct (G1 r Hr) as [n [l [H1 [H2 H3]]]]. apply of_kind_In in H1 as [H1 H4]. exists n, l. auto.
    + right; left. destruct (mapM_In_inv _ _ _ E2 r Hr) as [n [H1 H2]]. apply of_kind_In in H2 as [H2 H3].
      exists n. split; [exact H2|]. split; [|exact H1]. destruct (s_kind S n); try discriminate; reflexivity.
    + right; right; left. destruct (mapM_In_inv _ _ _ E3 r Hr) as [n [H1 H2]]. apply of_kind_In in H2 as [H2 H3].
      exists n. split; [exact H2|]. split; [|exact H1]. destruct (s_kind S n); try discriminate; reflexivity.
    + do 3 right; left. destruct (G4 r Hr) as [n [l [H1 [H2 H3]]]]. apply filter_In in H1 as [H1 H5].
      apply of_kind_In in H1 as [H1 H4]. exists n, l. split; [exact H1|].
      split; [destruct (s_kind S n); try discriminate; reflexivity|]. auto.
    + do 4 right. destruct (mapM_In_inv _ _ _ E5 r Hr) as [n [H1 H2]]. apply of_kind_In in H2 as [H2 H3].
      exists n. split; [exact H2|]. split; [|exact H1]. destruct (s_kind S n); try discriminate; reflexivity.
Qed.
