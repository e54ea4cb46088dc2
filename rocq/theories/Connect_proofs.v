From Verif Require Import Base Paths ScenarioParams_model ScenarioParams_proofs Connect_model Connect_spec.
Local Open Scope nat_scope.
Local Open Scope list_scope.

Lemma slot_eqb_spec : forall a b, reflect (a = b) (slot_eqb a b).
Proof.
  intros [x|x] [y|y]; cbn; try (constructor; discriminate).
  - destruct (Z.eqb_spec x y); constructor; congruence.
  - destruct (String.eqb_spec x y); constructor; congruence.
Qed.
Lemma edge_eqb_spec : forall e f, reflect (e = f) (edge_eqb e f).
Proof.
  intros [a b] [c d]. unfold edge_eqb; cbn. destruct (Nat.eqb_spec a c), (Nat.eqb_spec b d); constructor; congruence.
Qed.
Lemma has_edge_spec : forall w e, reflect (In e (edges w)) (has_edge w e).
Proof.
  intros w e. unfold has_edge. destruct (existsb (edge_eqb e) (edges w)) eqn:E; constructor.
  - apply existsb_exists in E. destruct E as (f & Hf & He). destruct (edge_eqb_spec e f); [subst; exact Hf|discriminate].
  - intro Hin. assert (existsb (edge_eqb e) (edges w) = true) by (apply existsb_exists; exists e; split; [exact Hin|destruct (edge_eqb_spec e e); congruence]). congruence.
Qed.

Lemma add_edge_in : forall w e f, In f (edges (add_edge w e)) <-> In f (edges w) \/ f = e.
Proof.
  intros w e f. unfold add_edge. destruct (has_edge_spec w e).
  - split; [auto|]. intros [H| ->]; auto.
  - cbn [edges with_edges]. rewrite in_app_iff. cbn. intuition.
Qed.
Lemma add_edge_same : forall w e, same_but_edges w (add_edge w e) /\ dirty (add_edge w e) = dirty w.
Proof. intros w e. unfold add_edge, same_but_edges. destruct (has_edge w e); auto. Qed.
Lemma remove_edge_in : forall w e w', remove_edge w e = Some w' ->
  In e (edges w) /\ (forall f, In f (edges w') <-> In f (edges w) /\ f <> e) /\ same_but_edges w w' /\ dirty w' = dirty w.
Proof.
  intros w e w' H. unfold remove_edge in H. destruct (has_edge_spec w e); [|discriminate]. inversion H; subst. split; [assumption|].
  split; [|split; [split; reflexivity|reflexivity]]. intro f. cbn [edges with_edges]. rewrite filter_In. destruct (edge_eqb_spec e f); cbn [negb]; intuition congruence.
Qed.
Lemma remove_edge_none : forall w e, remove_edge w e = None -> ~ In e (edges w).
Proof. intros w e H. unfold remove_edge in H. destruct (has_edge_spec w e); [discriminate|assumption]. Qed.

(** ** Slots *)
Lemma nth_error_rev : forall {A} (l : list A) n, n < List.length l -> nth_error (rev l) n = nth_error l (List.length l - 1 - n).
Proof.
  intros A l n H. destruct l as [|d r]; [cbn in H; lia|]. set (l := d :: r) in *.
  rewrite (nth_error_nth' (rev l) d) by (rewrite rev_length; exact H). rewrite (nth_error_nth' l d) by lia. f_equal. rewrite rev_nth by exact H. f_equal. lia.
Qed.
Lemma at_z_item : forall {A} (l : list A) z a, at_z l z = Some a <-> item l z a.
Proof.
  intros A l z a. unfold item. destruct (Z.ltb_spec z 0) as [Hz|Hz].
  - unfold at_z, wrap. cbv zeta. destruct (Z.ltb_spec z 0); [|lia].
    destruct (Z.leb_spec 0 (z + Z.of_nat (List.length l))); cbn [andb].
    + destruct (Z.ltb_spec (z + Z.of_nat (List.length l)) (Z.of_nat (List.length l))); [|lia].
      rewrite (nth_error_rev l) by lia. replace (List.length l - 1 - Z.to_nat (- z - 1)) with (Z.to_nat (z + Z.of_nat (List.length l))) by lia. intuition lia.
    + split; [discriminate|]. intros [[? _]|[_ H']]; [lia|]. exfalso.
      assert (Z.to_nat (- z - 1) < List.length (rev l)) by (apply nth_error_Some; congruence). rewrite rev_length in *. lia.
  - rewrite at_z_pos by exact Hz. intuition lia.
Qed.

Lemma store_slots_one : forall l s r, store_slots l s false = Some r <-> exists a, r = [a] /\ one_of l s a.
Proof.
  intros l s r. unfold store_slots, one_of. destruct l as [|x l].
  - split; [discriminate|]. intros (a & _ & H). destruct s as [[z|]|]; [|contradiction|discriminate]. apply at_z_item in H. unfold at_z, wrap in H. cbn in H.
    destruct (Z.ltb_spec z 0); cbn in H; [destruct (_ && _) in H; [|discriminate]; destruct (Z.to_nat _) in H; discriminate|].
    destruct (_ && _) in H; [|discriminate]; destruct (Z.to_nat _) in H; discriminate.
  - destruct s as [[z|n]|].
    + split.
      * intro H. destruct (at_z (x :: l) z) as [a|] eqn:E; [|discriminate]. inversion H; subst. exists a. split; [reflexivity|]. apply at_z_item. exact E.
      * intros (a & -> & H). apply at_z_item in H. rewrite H. reflexivity.
    + split; [discriminate|]. intros (a & _ & []).
    + cbn [orb]. destruct l as [|y l]; cbn [List.length Nat.eqb].
      * split; [intro H; inversion H; eauto|]. intros (a & -> & H). inversion H; reflexivity.
      * split; [discriminate|]. intros (a & _ & H). discriminate.
Qed.
Lemma index_of_spec : forall s names x, index_of s names = Some x <-> nth_error names x = Some s /\ forall y, y < x -> nth_error names y <> Some s.
Proof.
  intros s names; induction names as [|n r IH]; intro x; cbn [index_of].
  - split; [discriminate|]. intros [H _]. destruct x; discriminate.
  - destruct (slot_eqb_spec n s) as [->|Hne].
    + split.
      * intro H; inversion H; subst. split; [reflexivity|]. intros y Hy; lia.
      * intros [H Hy]. destruct x; [reflexivity|]. exfalso. apply (Hy 0); [lia|reflexivity].
    + split.
      * intro H. destruct (index_of s r) as [i|] eqn:E; [|discriminate]. inversion H; subst. destruct (proj1 (IH i) eq_refl) as [H1 H2]. split; [exact H1|].
        intros [|y] Hy; cbn [nth_error]; [congruence|]. apply H2. lia.
      * intros [H Hy]. destruct x as [|x]; [cbn in H; congruence|]. cbn [nth_error] in H.
        assert (E : index_of s r = Some x) by (apply IH; split; [exact H|]; intros y Hy'; apply (Hy (S y)); lia). rewrite E. reflexivity.
Qed.
Lemma iter_slots_source : forall k u s r, iter_slots k u s true = Some r <-> exists a, r = [a] /\ source k u s a.
Proof.
  intros k u s r. destruct k as [|i o|f t|names i e o|]; cbn [iter_slots source].
  - destruct s; [split; [discriminate|]; intros (a & _ & H & _); discriminate|]. split; [intro H; inversion H; eauto|]. intros (a & -> & _ & ->). reflexivity.
  - apply store_slots_one.
  - split; [intro H; inversion H; eauto|]. intros (a & -> & ->). reflexivity.
  - destruct s as [s|]; [|split; [discriminate|]; intros (a & _ & n & x & H & _); discriminate]. split.
    + intro H. destruct (index_of s names) as [x|] eqn:E; [|discriminate]. apply index_of_spec in E. destruct E as [E1 E2].
      assert (H' : exists a, r = [a] /\ nth_error (i :: e) x = Some a).
      { destruct x; [inversion H; eauto|]. cbn [nth_error]. destruct (nth_error e x); [|discriminate]. inversion H; eauto. }
      destruct H' as (a & -> & Ha). exists a. split; [reflexivity|]. exists s, x. auto.
    + intros (a & -> & n & x & Hn & H1 & H2 & H3). inversion Hn; subst n. assert (E : index_of s names = Some x) by (apply index_of_spec; auto).
      rewrite E. destruct x; cbn [nth_error] in H3; [inversion H3; reflexivity|]. rewrite H3. reflexivity.
  - split; [discriminate|]. intros (a & _ & []).
Qed.
Lemma iter_slots_target : forall k v s r, iter_slots k v s false = Some r <-> exists b, r = [b] /\ target k v s b.
Proof.
  intros k u s r. destruct k as [|i o|f t|names i e o|]; cbn [iter_slots target].
  - destruct s; [split; [discriminate|]; intros (a & _ & H & _); discriminate|]. split; [intro H; inversion H; eauto|]. intros (a & -> & _ & ->). reflexivity.
  - apply store_slots_one.
  - split; [intro H; inversion H; eauto|]. intros (a & -> & ->). reflexivity.
  - split; [intro H; inversion H; eauto|]. intros (a & -> & ->). reflexivity.
  - split; [discriminate|]. intros (a & _ & []).
Qed.

(** ** connect *)
Lemma connect_returned : forall w u v f t w', connect w u v f t = Returned w' ->
  exists a b, source (kind_of w u) u f a /\ target (kind_of w v) v t b /\ model_of w u = model_of w v /\
    (forall e, In e (edges w') <-> In e (edges w) \/ e = (a, b)) /\ same_but_edges w w' /\ dirty w' = dirty (set_dirty w (model_of w u)).
Proof.
  intros w u v f t w' H. unfold connect in H.
  assert (H' : exists l1 l2, iter_slots (kind_of w u) u f true = Some l1 /\ iter_slots (kind_of w v) v t false = Some l2 /\ model_of w u = model_of w v /\
     w' = set_dirty (fold_left (fun w a => fold_left (fun w b => add_edge w (a, b)) l2 w) l1 w) (model_of w u)).
  { destruct (kind_of w u) eqn:Eu; try discriminate; (destruct (Nat.eqb_spec (model_of w u) (model_of w v)) as [Em|]; [|discriminate]); cbn [negb] in H;
    destruct (kind_of w v) eqn:Ev; try discriminate;
    match type of H with match ?x with _ => _ end = _ => destruct x as [l1|] eqn:E1; [|discriminate] end;
    match type of H with match ?x with _ => _ end = _ => destruct x as [l2|] eqn:E2; [|discriminate] end;
    inversion H; subst; eauto 8. }
  destruct H' as (l1 & l2 & E1 & E2 & Em & ->). apply iter_slots_source in E1. destruct E1 as (a & -> & Ha). apply iter_slots_target in E2. destruct E2 as (b & -> & Hb).
  exists a, b. cbn [fold_left]. destruct (add_edge_same w (a, b)) as [[S1 S2] S3]. split; [exact Ha|]. split; [exact Hb|]. split; [exact Em|].
  split; [intro e; cbn [edges set_dirty]; apply add_edge_in|]. split; [split; assumption|]. cbn [dirty set_dirty]. rewrite S3. reflexivity.
Qed.
Lemma connect_raised : forall w u v f t w', connect w u v f t = Raised w' ->
  w' = w /\ (model_of w u <> model_of w v \/ (forall a, ~ source (kind_of w u) u f a) \/ (forall b, ~ target (kind_of w v) v t b)).
Proof.
  intros w u v f t w' H. unfold connect in H.
  assert (Hs : iter_slots (kind_of w u) u f true = None -> forall a, ~ source (kind_of w u) u f a).
  { intros E a Ha. assert (iter_slots (kind_of w u) u f true = Some [a]) by (apply iter_slots_source; eauto). congruence. }
  assert (Ht : iter_slots (kind_of w v) v t false = None -> forall b, ~ target (kind_of w v) v t b).
  { intros E b Hb. assert (iter_slots (kind_of w v) v t false = Some [b]) by (apply iter_slots_target; eauto). congruence. }
  destruct (kind_of w u) eqn:Eu; try (destruct (Nat.eqb_spec (model_of w u) (model_of w v)) as [Em|]; cbn [negb] in H; [|inversion H; auto]);
  destruct (kind_of w v) eqn:Ev; try (inversion H; subst; auto; fail);
  match type of H with match ?x with _ => _ end = _ => destruct x as [l1|] eqn:E1; [|inversion H; subst; auto] end;
  match type of H with match ?x with _ => _ end = _ => destruct x as [l2|] eqn:E2; [discriminate|inversion H; subst; auto] end.
Qed.

(** ** disconnect *)
Lemma remove_slots_spec : forall l w u d w' d', remove_slots w u l d = (w', d') ->
  (forall e, In e (edges w') <-> In e (edges w) /\ ~ (fst e = u /\ In (snd e) l)) /\ same_but_edges w w' /\ dirty w' = dirty w /\
  (d' = true <-> d = true \/ exists b, In b l /\ In (u, b) (edges w)).
Proof.
  induction l as [|b r IH]; intros w u d w' d' H; cbn [remove_slots] in H.
  - inversion H; subst. split; [intro e; cbn; intuition|]. split; [split; reflexivity|]. split; [reflexivity|]. split; [auto|]. intros [?|(b & [] & _)]; assumption.
  - destruct (remove_edge w (u, b)) as [w1|] eqn:E.
    + destruct (remove_edge_in _ _ _ E) as (Hin & Hall & (S1 & S2) & S3). destruct (IH _ _ _ _ _ H) as (A & (B1 & B2) & C & D). split; [|split; [split; congruence|split; [congruence|]]].
      * intro e. rewrite A, Hall. destruct e as [x y]. cbn [fst snd In]. split.
        -- intros [[H1 H2] H3]. split; [exact H1|]. intros [-> [->|Hy]]; [congruence|]. apply H3. auto.
        -- intros [H1 H2]. split; [split; [exact H1|]|]; [intro E'; inversion E'; subst; apply H2; auto|]. intros [-> Hy]. apply H2. auto.
      * split; [|intros _; apply D; auto]. intros _. right. exists b. split; [left; reflexivity|exact Hin].
    + apply remove_edge_none in E. destruct (IH _ _ _ _ _ H) as (A & B & C & D). split; [|split; [exact B|split; [exact C|]]].
      * intro e. rewrite A. destruct e as [x y]. cbn [fst snd In]. split.
        -- intros [H1 H3]. split; [exact H1|]. intros [-> [->|Hy]]; [contradiction|]. apply H3. auto.
        -- intros [H1 H2]. split; [exact H1|]. intros [-> Hy]. apply H2. auto.
      * rewrite D. split; (intros [?|(b' & Hb & He)]; [auto|right]); [exists b'; cbn; auto|]. destruct Hb as [->|Hb]; [contradiction|]. exists b'. auto.
Qed.

(** The edges that [disconnect_one] takes away: the edge to the node itself, or else those to its slots. *)
Definition slots_hit (k : kind) (sl : option slot) (all : bool) : list nat := match iter_slots_all k sl all with Some l => l | None => [] end.
Lemma disconnect_one_returned : forall w u v sl all w', disconnect_one w u v sl all = Returned w' ->
  same_but_edges w w' /\ dirty w' = dirty (set_dirty w (model_of w u)) /\
  ((In (u, v) (edges w) /\ forall e, In e (edges w') <-> In e (edges w) /\ e <> (u, v)) \/
   (~ In (u, v) (edges w) /\ (exists b, In b (slots_hit (kind_of w v) sl all) /\ In (u, b) (edges w)) /\
    forall e, In e (edges w') <-> In e (edges w) /\ ~ (fst e = u /\ In (snd e) (slots_hit (kind_of w v) sl all)))).
Proof.
  intros w u v sl all w' H. unfold disconnect_one in H. destruct (remove_edge w (u, v)) as [w1|] eqn:E.
  - destruct (remove_edge_in _ _ _ E) as (Hin & Hall & (S1 & S2) & S3). inversion H; subst. split; [split; assumption|]. split; [cbn; rewrite S3; reflexivity|]. left. split; [exact Hin|exact Hall].
  - apply remove_edge_none in E. unfold slots_hit. destruct (iter_slots_all (kind_of w v) sl all) as [l|]; [|discriminate].
    destruct (remove_slots w u l false) as [w1 d] eqn:Er. destruct d; [|discriminate]. inversion H; subst. destruct (remove_slots_spec _ _ _ _ _ _ Er) as (A & (B1 & B2) & C & D).
    split; [split; assumption|]. split; [cbn; rewrite C; reflexivity|]. right. split; [exact E|]. split; [|exact A]. destruct (proj1 D eq_refl) as [?|?]; [discriminate|assumption].
Qed.
Lemma disconnect_one_raised : forall w u v sl all w', disconnect_one w u v sl all = Raised w' ->
  (forall e, In e (edges w') <-> In e (edges w)) /\ same_but_edges w w' /\ dirty w' = dirty w /\ ~ In (u, v) (edges w) /\ forall b, In b (slots_hit (kind_of w v) sl all) -> ~ In (u, b) (edges w).
Proof.
  intros w u v sl all w' H. unfold disconnect_one in H. destruct (remove_edge w (u, v)) as [w1|] eqn:E; [discriminate|]. apply remove_edge_none in E. unfold slots_hit.
  destruct (iter_slots_all (kind_of w v) sl all) as [l|].
  - destruct (remove_slots w u l false) as [w1 d] eqn:Er. destruct d; [discriminate|]. inversion H; subst. destruct (remove_slots_spec _ _ _ _ _ _ Er) as (A & B & C & D).
    assert (N : forall b, In b l -> ~ In (u, b) (edges w)). { intros b Hb He. assert (false = true) by (apply D; right; eauto). discriminate. }
    split; [|split; [exact B|split; [exact C|split; [exact E|exact N]]]]. intro e. rewrite A. split; [tauto|]. intro He. split; [exact He|]. intros [Hu Hl]. destruct e as [x y]; cbn in *; subst x. eapply N; eauto.
  - inversion H; subst. split; [reflexivity|]. split; [split; reflexivity|]. split; [reflexivity|]. split; [exact E|]. intros b [].
Qed.

Lemma disconnect_each_all : forall l w u sl all, NoDup l -> (forall b, In b l -> In (u, b) (edges w)) ->
  exists w', disconnect_each w u l sl all = Returned w' /\ same_but_edges w w' /\
    (forall e, In e (edges w') <-> In e (edges w) /\ ~ (fst e = u /\ In (snd e) l)) /\
    (l = [] -> w' = w) /\ (l <> [] -> dirty w' (model_of w u) = true) /\ (forall m, dirty w m = true -> dirty w' m = true).
Proof.
  induction l as [|b r IH]; intros w u sl all Hd Hin; cbn [disconnect_each].
  - exists w. split; [reflexivity|]. split; [split; reflexivity|]. split; [intro e; cbn; intuition|]. split; [auto|]. split; [congruence|auto].
  - unfold disconnect_one. destruct (remove_edge w (u, b)) as [w1|] eqn:E; [|exfalso; eapply remove_edge_none; [exact E|apply Hin; left; reflexivity]].
    destruct (remove_edge_in _ _ _ E) as (Hb & Hall & (S1 & S2) & S3). inversion Hd as [|? ? Hnb Hd']; subst.
    destruct (IH (set_dirty w1 (model_of w u)) u sl all Hd') as (w' & Ew & (T1 & T2) & Hall' & Hnil & Hdirty & Hmono).
    { intros c Hc. cbn [edges set_dirty]. apply Hall. split; [apply Hin; right; exact Hc|]. intro E'; inversion E'; subst; contradiction. }
    exists w'. split; [exact Ew|]. cbn [model_of kind_of set_dirty] in T1, T2. split; [split; congruence|]. split; [|split; [discriminate|split]].
    + intro e. rewrite Hall'. cbn [edges set_dirty]. rewrite Hall. destruct e as [x y]; cbn [fst snd In]. split.
      * intros [[H1 H2] H3]. split; [exact H1|]. intros [-> [->|Hy]]; [congruence|]. apply H3; auto.
      * intros [H1 H2]. split; [split; [exact H1|]|]; [intro E'; inversion E'; subst; apply H2; auto|]. intros [-> Hy]. apply H2; auto.
    + intros _. apply Hmono. cbn [dirty set_dirty]. rewrite Nat.eqb_refl. reflexivity.
    + intros m Hm. apply Hmono. cbn [dirty set_dirty]. rewrite S3, Hm. apply orb_true_r.
Qed.
Lemma neighbors_in : forall w u b, In b (neighbors w u) <-> In (u, b) (edges w).
Proof.
  intros w u b. unfold neighbors. rewrite in_map_iff. split.
  - intros ([x y] & E & H). cbn in E; subst. apply filter_In in H. destruct H as [H1 H2]. cbn in H2. apply Nat.eqb_eq in H2. subst. exact H1.
  - intro H. exists (u, b). split; [reflexivity|]. apply filter_In. split; [exact H|]. cbn. apply Nat.eqb_refl.
Qed.
Lemma neighbors_NoDup : forall w u, NoDup (edges w) -> NoDup (neighbors w u).
Proof.
  intros w u H. unfold neighbors. assert (Hf : NoDup (filter (fun e => Nat.eqb (fst e) u) (edges w))) by (apply NoDup_filter; exact H).
  assert (Ha : forall e, In e (filter (fun e => Nat.eqb (fst e) u) (edges w)) -> fst e = u) by (intros e He; apply filter_In in He; apply Nat.eqb_eq; tauto).
  revert Hf Ha. generalize (filter (fun e => Nat.eqb (fst e) u) (edges w)). induction l as [|[x y] l IH]; intros Hd Ha; cbn [map snd]; constructor.
  - intro Hin. apply in_map_iff in Hin. destruct Hin as ([x' y'] & E & Hl). cbn in E; subst y'. inversion Hd; subst. apply H2.
    pose proof (Ha (x, y) (or_introl eq_refl)). pose proof (Ha (x', y) (or_intror Hl)). cbn in *. subst. exact Hl.
  - inversion Hd; subst. apply IH; [assumption|]. intros e He. apply Ha. right. exact He.
Qed.

(** ** Programs *)
Lemma add_edge_NoDup : forall w e, NoDup (edges w) -> NoDup (edges (add_edge w e)).
Proof.
  intros w e H. unfold add_edge. destruct (has_edge_spec w e); [exact H|]. cbn [edges with_edges]. apply NoDup_app_intro; [exact H|repeat constructor; auto|].
  intros x Hx [->|[]]. contradiction.
Qed.
Lemma filter_edges_NoDup : forall w e w', remove_edge w e = Some w' -> NoDup (edges w) -> NoDup (edges w').
Proof. intros w e w' H Hd. unfold remove_edge in H. destruct (has_edge w e); [|discriminate]. inversion H; subst. apply NoDup_filter. exact Hd. Qed.
Lemma remove_slots_NoDup : forall l w u d w' d', remove_slots w u l d = (w', d') -> NoDup (edges w) -> NoDup (edges w').
Proof.
  induction l as [|b r IH]; intros w u d w' d' H Hd; cbn [remove_slots] in H; [inversion H; subst; exact Hd|].
  destruct (remove_edge w (u, b)) as [w1|] eqn:E; [|eauto]. eapply IH; [exact H|]. eapply filter_edges_NoDup; eauto.
Qed.
Lemma disconnect_one_NoDup : forall w u v sl all, NoDup (edges w) -> NoDup (edges (left_by (disconnect_one w u v sl all))).
Proof.
  intros w u v sl all Hd. unfold disconnect_one. destruct (remove_edge w (u, v)) as [w1|] eqn:E; [cbn; eapply filter_edges_NoDup; eauto|].
  destruct (iter_slots_all (kind_of w v) sl all) as [l|]; [|exact Hd]. destruct (remove_slots w u l false) as [w1 d] eqn:Er.
  destruct d; cbn; eapply remove_slots_NoDup; eauto.
Qed.
Lemma disconnect_each_NoDup : forall l w u sl all, NoDup (edges w) -> NoDup (edges (left_by (disconnect_each w u l sl all))).
Proof.
  induction l as [|b r IH]; intros w u sl all Hd; cbn [disconnect_each]; [exact Hd|]. pose proof (disconnect_one_NoDup w u b sl all Hd) as H.
  destruct (disconnect_one w u b sl all) as [w1|w1]; [apply IH|]; exact H.
Qed.
Lemma step_NoDup : forall w o, NoDup (edges w) -> NoDup (edges (left_by (step w o))).
Proof.
  intros w [u v f t|u v sl all] Hd; cbn [step].
  - destruct (connect w u v f t) as [w1|w1] eqn:E; cbn [left_by].
    + unfold connect in E. destruct (kind_of w u); try discriminate; (destruct (negb _); [discriminate|]); destruct (kind_of w v); try discriminate;
      (match type of E with match ?x with _ => _ end = _ => destruct x as [l1|]; [|discriminate] end);
      (match type of E with match ?x with _ => _ end = _ => destruct x as [l2|]; [|discriminate] end); inversion E; subst; cbn [edges set_dirty];
      clear -Hd; revert w Hd; (induction l1 as [|a l1 IH]; intros w Hd; cbn [fold_left]; [exact Hd|]); apply IH; clear IH; revert w Hd;
      (induction l2 as [|b l2 IH2]; intros w Hd; cbn [fold_left]; [exact Hd|]); apply IH2; apply add_edge_NoDup; exact Hd.
    + destruct (connect_raised _ _ _ _ _ _ E) as [-> _]. exact Hd.
  - unfold disconnect. destruct (kind_of w u); try exact Hd; (destruct v as [v|]; [apply disconnect_one_NoDup|apply disconnect_each_NoDup]; exact Hd).
Qed.

(** What a call does to the edges, the models and the marks. *)
Lemma disconnect_left : forall w u v sl all, NoDup (edges w) -> let w' := left_by (disconnect w u v sl all) in
  same_but_edges w w' /\ (forall e, In e (edges w') -> In e (edges w)) /\ (forall e, In e (edges w) -> fst e <> u -> In e (edges w')) /\
  (forall m, dirty w m = true -> dirty w' m = true) /\ ((exists e, In e (edges w) /\ ~ In e (edges w')) -> dirty w' (model_of w u) = true).
Proof.
  intros w u v sl all Hd w'.
  assert (Hnone : left_by (Raised w) = w) by reflexivity.
  assert (Hone : forall v, let w' := left_by (disconnect_one w u v sl all) in same_but_edges w w' /\ (forall e, In e (edges w') -> In e (edges w)) /\ (forall e, In e (edges w) -> fst e <> u -> In e (edges w')) /\
    (forall m, dirty w m = true -> dirty w' m = true) /\ ((exists e, In e (edges w) /\ ~ In e (edges w')) -> dirty w' (model_of w u) = true)).
  { intros v0 w1. subst w1. destruct (disconnect_one w u v0 sl all) as [w1|w1] eqn:E; cbn [left_by].
    - destruct (disconnect_one_returned _ _ _ _ _ _ E) as (S1 & S2 & S3). split; [exact S1|]. split; [intros e He; destruct S3 as [[_ S3]|[_ [_ S3]]]; apply S3 in He; tauto|].
      split; [|rewrite S2; cbn [dirty set_dirty]; rewrite Nat.eqb_refl; split; [intros m ->; apply orb_true_r|reflexivity]].
      intros [x y] He Hx. cbn in Hx. destruct S3 as [[_ S3]|[_ [_ S3]]]; apply S3; (split; [exact He|]); cbn; intuition congruence.
    - destruct (disconnect_one_raised _ _ _ _ _ _ E) as (S1 & S2 & S3 & _). split; [exact S2|]. split; [intro e; apply S1|]. split; [intros e He _; apply S1; exact He|].
      rewrite S3. split; [auto|]. intros (e & H1 & H2). exfalso. apply H2, S1, H1. }
  assert (Heach : let w' := left_by (disconnect_each w u (neighbors w u) sl all) in same_but_edges w w' /\ (forall e, In e (edges w') -> In e (edges w)) /\ (forall e, In e (edges w) -> fst e <> u -> In e (edges w')) /\
    (forall m, dirty w m = true -> dirty w' m = true) /\ ((exists e, In e (edges w) /\ ~ In e (edges w')) -> dirty w' (model_of w u) = true)).
  { destruct (disconnect_each_all (neighbors w u) w u sl all (neighbors_NoDup w u Hd)) as (w1 & E & S1 & S2 & S3 & S4 & S5); [intros b Hb; apply neighbors_in; exact Hb|].
    rewrite E. cbn [left_by]. split; [exact S1|]. split; [intros e He; apply S2 in He; tauto|]. split; [intros e He Hx; apply S2; tauto|]. split; [exact S5|].
    intros (e & H1 & H2). apply S4. intro En. apply H2. rewrite (S3 En). exact H1. }
  assert (Hraised : same_but_edges w w /\ (forall e, In e (edges w) -> In e (edges w)) /\ (forall e, In e (edges w) -> fst e <> u -> In e (edges w)) /\
    (forall m, dirty w m = true -> dirty w m = true) /\ ((exists e, In e (edges w) /\ ~ In e (edges w)) -> dirty w (model_of w u) = true)).
  { split; [split; reflexivity|]. split; [auto|]. split; [auto|]. split; [auto|]. intros (e & H1 & H2). contradiction. }
  subst w'. unfold disconnect. destruct (kind_of w u); try exact Hraised; destruct v as [v|]; try exact Heach; apply Hone.
Qed.
Lemma connect_left : forall w u v f t, let w' := left_by (connect w u v f t) in
  same_but_edges w w' /\ (forall e, In e (edges w) -> In e (edges w')) /\
  (forall m, dirty w m = true -> dirty w' m = true) /\ ((exists e, In e (edges w') /\ ~ In e (edges w)) -> dirty w' (model_of w u) = true).
Proof.
  intros w u v f t w'. subst w'. destruct (connect w u v f t) as [w1|w1] eqn:E; cbn [left_by].
  - destruct (connect_returned _ _ _ _ _ _ E) as (a & b & _ & _ & _ & H1 & H2 & H3). split; [exact H2|]. split; [intros e He; apply H1; auto|].
    rewrite H3. cbn [dirty set_dirty]. rewrite Nat.eqb_refl. split; [intros m ->; apply orb_true_r|reflexivity].
  - destruct (connect_raised _ _ _ _ _ _ E) as [-> _]. split; [split; reflexivity|]. split; [auto|]. split; [auto|]. intros (e & H1 & H2). contradiction.
Qed.
Lemma step_same : forall w o, NoDup (edges w) -> same_but_edges w (left_by (step w o)).
Proof. intros w [u v f t|u v sl all] H; cbn [step]; [apply connect_left|apply disconnect_left; exact H]. Qed.

Lemma source_inner : forall k u s a, source k u s a -> a = u \/ In a (inner k).
Proof.
  intros k u s a H. destruct k as [|i o|f t|n i e o|]; cbn [source inner] in *; [tauto| |subst; cbn; auto| |contradiction].
  - right. apply in_or_app. left. destruct s as [[z|]|]; cbn in H; [|contradiction|subst; left; reflexivity].
    apply at_z_item in H. unfold at_z in H. destruct (wrap (List.length i) z); [|discriminate]. eapply nth_error_In; exact H.
  - right. destruct H as (m & x & _ & _ & _ & H). apply nth_error_In in H. destruct H as [->|H]; [left; reflexivity|right]. apply in_or_app. auto.
Qed.
Lemma target_inner : forall k u s a, target k u s a -> a = u \/ In a (inner k).
Proof.
  intros k u s a H. destruct k as [|i o|f t|n i e o|]; cbn [target inner] in *; [tauto| |subst; cbn; auto| |contradiction].
  - right. apply in_or_app. right. destruct s as [[z|]|]; cbn in H; [|contradiction|subst; left; reflexivity].
    apply at_z_item in H. unfold at_z in H. destruct (wrap (List.length o) z); [|discriminate]. eapply nth_error_In; exact H.
  - right. subst. right. apply in_or_app. right. left. reflexivity.
Qed.

(** A program keeps the models and kinds, and no edge twice. *)
Lemma perform_inv : forall ops w, NoDup (edges w) -> NoDup (edges (perform w ops)) /\ same_but_edges w (perform w ops).
Proof.
  induction ops as [|o ops IH]; intros w Hd; [split; [exact Hd|split; reflexivity]|]. cbn [perform fold_left]. pose proof (step_NoDup w o Hd) as H1. pose proof (step_same w o Hd) as [H2 H3].
  destruct (IH _ H1) as [A [B C]]. split; [exact A|]. split; unfold perform in *; congruence.
Qed.

(** ** Edges in a program *)
Lemma connect_edges w u v f t e : In e (edges (left_by (connect w u v f t))) ->
  In e (edges w) \/ (source (kind_of w u) u f (fst e) /\ target (kind_of w v) v t (snd e)).
Proof.
  intros H. destruct (connect w u v f t) as [w'|w'] eqn:E; cbn [left_by] in H.
  - destruct (connect_returned w u v f t w' E) as [a [b [A [B [_ [D _]]]]]]. destruct (proj1 (D e) H) as [H'|Z]; [now left|]. rewrite Z. right. now split.
  - destruct (connect_raised w u v f t w' E) as [-> _]. now left.
Qed.
Lemma connect_keeps w u v f t e : In e (edges w) -> In e (edges (left_by (connect w u v f t))).
Proof.
  intros H. destruct (connect w u v f t) as [w'|w'] eqn:E; cbn [left_by].
  - destruct (connect_returned w u v f t w' E) as [a [b [A [B [_ [D _]]]]]]. apply D. now left.
  - now destruct (connect_raised w u v f t w' E) as [-> _].
Qed.
Lemma disconnect_one_edges w u v sl all e : In e (edges (left_by (disconnect_one w u v sl all))) -> In e (edges w).
Proof.
  intros H. destruct (disconnect_one w u v sl all) as [w'|w'] eqn:E; cbn [left_by] in H.
  - destruct (disconnect_one_returned _ _ _ _ _ _ E) as [_ [_ [[_ D]|[_ [_ D]]]]]; now apply D in H.
  - destruct (disconnect_one_raised _ _ _ _ _ _ E) as [D _]. now apply D.
Qed.
Lemma disconnect_one_keeps w u v sl all e : fst e <> u -> In e (edges w) -> In e (edges (left_by (disconnect_one w u v sl all))).
Proof.
  intros N H. destruct (disconnect_one w u v sl all) as [w'|w'] eqn:E; cbn [left_by].
  - destruct (disconnect_one_returned _ _ _ _ _ _ E) as [_ [_ [[_ D]|[_ [_ D]]]]]; apply D; split; try exact H.
    + intros ->. now apply N.
    + intros [X _]. now apply N.
  - destruct (disconnect_one_raised _ _ _ _ _ _ E) as [D _]. now apply D.
Qed.
Lemma disconnect_each_edges u sl all e : forall l w, In e (edges (left_by (disconnect_each w u l sl all))) -> In e (edges w).
Proof.
  induction l as [|b r IH]; intros w H; cbn [disconnect_each] in H; [exact H|].
  pose proof (disconnect_one_edges w u b sl all e) as D. destruct (disconnect_one w u b sl all) as [w'|w']; cbn [left_by] in *; [|now apply D].
  apply D. now apply IH.
Qed.
Lemma disconnect_each_keeps u sl all e : fst e <> u -> forall l w, In e (edges w) -> In e (edges (left_by (disconnect_each w u l sl all))).
Proof.
  intros N. induction l as [|b r IH]; intros w H; cbn [disconnect_each]; [exact H|].
  pose proof (disconnect_one_keeps w u b sl all e N H) as D. destruct (disconnect_one w u b sl all) as [w'|w']; cbn [left_by] in *; [|exact D].
  now apply IH.
Qed.
Lemma step_edges w o e : In e (edges (left_by (step w o))) ->
  In e (edges w) \/ exists u v f t, o = Connect u v f t /\ source (kind_of w u) u f (fst e) /\ target (kind_of w v) v t (snd e).
Proof.
  destruct o as [u v f t|u v sl all]; cbn [step]; intros H.
  - apply connect_edges in H as [H|H]; [now left|]. right. now exists u, v, f, t.
  - left. unfold disconnect in H. destruct (kind_of w u); try exact H; destruct v; try (now apply disconnect_one_edges in H); now apply disconnect_each_edges in H.
Qed.
Lemma step_keeps w o e : (forall u, In u (names o) -> fst e <> u) -> In e (edges w) -> In e (edges (left_by (step w o))).
Proof.
  destruct o as [u v f t|u v sl all]; cbn [step names]; intros N H.
  - now apply connect_keeps.
  - assert (fst e <> u) as NU by (apply N; now left). unfold disconnect.
    destruct (kind_of w u); try exact H; (destruct v; [now apply disconnect_one_keeps|now apply disconnect_each_keeps]).
Qed.
Lemma disconnect_each_kind u sl all : forall l w, kind_of (left_by (disconnect_each w u l sl all)) = kind_of w.
Proof.
  induction l as [|b r IH]; intros w; cbn [disconnect_each]; [reflexivity|].
  destruct (disconnect_one w u b sl all) as [w'|w'] eqn:E; cbn [left_by].
  - rewrite IH. now destruct (disconnect_one_returned _ _ _ _ _ _ E) as [[_ K] _].
  - now destruct (disconnect_one_raised _ _ _ _ _ _ E) as [_ [[_ K] _]].
Qed.
Lemma step_kind w o : kind_of (left_by (step w o)) = kind_of w.
Proof.
  destruct o as [u v f t|u v sl all]; cbn [step].
  - destruct (connect w u v f t) as [w'|w'] eqn:E; cbn [left_by].
    + now destruct (connect_returned w u v f t w' E) as [a [b [_ [_ [_ [_ [[_ K] _]]]]]]].
    + now destruct (connect_raised w u v f t w' E) as [-> _].
  - unfold disconnect. assert (forall b, kind_of (left_by (disconnect_one w u b sl all)) = kind_of w) as D.
    { intros b. destruct (disconnect_one w u b sl all) as [w'|w'] eqn:E; cbn [left_by].
      - now destruct (disconnect_one_returned _ _ _ _ _ _ E) as [[_ K] _].
      - now destruct (disconnect_one_raised _ _ _ _ _ _ E) as [_ [[_ K] _]]. }
    destruct (kind_of w u); try reflexivity; (destruct v; [apply D|apply disconnect_each_kind]).
Qed.

(** Every edge there is was there before or connects a slot to a slot. *)
Lemma perform_edges ops : forall w e, In e (edges (perform w ops)) ->
  In e (edges w) \/ exists u v f t, In (Connect u v f t) ops /\ source (kind_of w u) u f (fst e) /\ target (kind_of w v) v t (snd e).
Proof.
  induction ops as [|o ops IH]; intros w e H; [now left|]. change (perform w (o :: ops)) with (perform (left_by (step w o)) ops) in H.
  apply IH in H as [H|[u [v [f [t [A [B C]]]]]]].
  - apply step_edges in H as [H|[u [v [f [t [-> [B C]]]]]]]; [now left|]. right. exists u, v, f, t. split; [now left|]. now split.
  - right. exists u, v, f, t. rewrite step_kind in B, C. split; [now right|]. now split.
Qed.
(** The edges from nodes that are not named stay. *)
Lemma perform_keeps ops : forall w e, (forall o u, In o ops -> In u (names o) -> fst e <> u) -> In e (edges w) -> In e (edges (perform w ops)).
Proof.
  induction ops as [|o ops IH]; intros w e N H; [exact H|]. change (perform w (o :: ops)) with (perform (left_by (step w o)) ops).
  apply IH.
  - intros o' u I. apply N. now right.
  - apply step_keeps; [|exact H]. intros u. apply N. now left.
Qed.

