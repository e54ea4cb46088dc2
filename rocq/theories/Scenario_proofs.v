From Verif Require Import Base Scenario_model Scenario_spec.
From Coq Require Import Sorted.
Local Open Scope Z_scope.
Ltac Zify.zify_post_hook ::= Z.div_mod_to_equations.

(** *** itertools.product *)
Lemma in_product {A} (ls : list (list A)) c : In c (product ls) <-> Forall2 (@In A) c ls.
Proof.
  revert c. induction ls as [|l ls IH]; intros c; cbn.
  - split; [intros [<-|[]]; constructor|]. intros H; inversion H; now left.
  - rewrite in_flat_map. split.
    + intros [x [Hx Hc]]. apply in_map_iff in Hc as [t [<- Ht]]. constructor; [exact Hx|]. now apply IH.
    + intros H. inversion H as [|x y l' ls' Hx Ht]; subst. exists x. split; [exact Hx|].
      apply in_map_iff. exists l'. split; [reflexivity|]. now apply IH.
Qed.

Lemma product_length {A} (ls : list (list A)) : length (product ls) = nprod (map (@length A) ls).
Proof.
  induction ls as [|l ls IH]; cbn; [reflexivity|]. rewrite <- IH.
  induction l as [|x l IHl]; cbn; [reflexivity|]. rewrite app_length, map_length, IHl. reflexivity.
Qed.

Lemma StronglySorted_app {A} (R : A -> A -> Prop) l m :
  StronglySorted R l -> StronglySorted R m -> (forall x y, In x l -> In y m -> R x y) ->
  StronglySorted R (l ++ m).
Proof.
  intros Hl Hm H. induction Hl as [|x l Hl IH Hx]; cbn; [exact Hm|]. constructor.
  - apply IH. intros a b Ha Hb. apply H; [now right|exact Hb].
  - apply Forall_app. split; [exact Hx|]. apply Forall_forall. intros y Hy. apply H; [now left|exact Hy].
Qed.

Lemma product_sorted {A} (R : A -> A -> Prop) (ls : list (list A)) :
  Forall (StronglySorted R) ls -> StronglySorted (lex R) (product ls).
Proof.
  induction 1 as [|l ls Hl _ IH]; cbn; [repeat constructor|].
  induction Hl as [|x l Hl IHl Hx]; cbn; [constructor|].
  apply StronglySorted_app.
  - clear -IH. induction IH as [|c cs Hc IHc Hall]; cbn; constructor; [exact IHc|].
    apply Forall_map. eapply Forall_impl; [|exact Hall]. intros a Ha. now constructor 2.
  - exact IHl.
  - intros a b Ha Hb. apply in_map_iff in Ha as [t [<- _]]. apply in_flat_map in Hb as [y [Hy Hb]].
    apply in_map_iff in Hb as [u [<- _]]. constructor. rewrite Forall_forall in Hx. now apply Hx.
Qed.

Lemma NoDup_app_intro {A} (l m : list A) :
  NoDup l -> NoDup m -> (forall x, In x l -> ~ In x m) -> NoDup (l ++ m).
Proof.
  intros Hl Hm H. induction Hl as [|x l Hx Hl IH]; cbn; [exact Hm|]. constructor.
  - rewrite in_app_iff. intros [K|K]; [contradiction|]. apply (H x); [now left|exact K].
  - apply IH. intros y Hy. apply H. now right.
Qed.

Lemma product_NoDup {A} (ls : list (list A)) : Forall (@NoDup A) ls -> NoDup (product ls).
Proof.
  induction 1 as [|l ls Hl _ IH]; cbn; [repeat constructor; intros []|].
  induction Hl as [|x l Hx Hl IHl]; cbn; [constructor|].
  apply NoDup_app_intro.
  - apply NoDup_map_inj; [|exact IH]. intros a b _ _ E. now injection E.
  - exact IHl.
  - intros c Hc Hc'. apply in_map_iff in Hc as [t [<- _]]. apply in_flat_map in Hc' as [y [Hy Hb]].
    apply in_map_iff in Hb as [u [E _]]. injection E as -> _. contradiction.
Qed.

(** *** ranges *)
Lemma in_pyrange a b k x : k <> 0 ->
  (In x (pyrange a b k) <-> exists i, 0 <= i /\ x = a + i * k /\ (if 0 <? k then x < b else b < x)).
Proof.
  intros Hk. unfold pyrange. rewrite in_map_iff. split.
  - intros [i [<- Hi]]. apply in_seq in Hi. exists (Z.of_nat i). split; [lia|]. split; [reflexivity|].
    unfold range_len in Hi. destruct (Z.ltb_spec 0 k).
    + destruct (Z.ltb_spec a b); nia.
    + destruct (Z.ltb_spec b a); nia.
  - intros [i [Hi [-> H]]]. exists (Z.to_nat i). split; [lia|]. apply in_seq.
    unfold range_len. destruct (Z.ltb_spec 0 k).
    + destruct (Z.ltb_spec a b); nia.
    + destruct (Z.ltb_spec b a); nia.
Qed.

Lemma pyrange_NoDup a b k : k <> 0 -> NoDup (pyrange a b k).
Proof.
  intros Hk. unfold pyrange. apply NoDup_map_inj; [|apply seq_NoDup]. intros x y _ _ E. nia.
Qed.

Lemma sorted_map_seq (f : nat -> Z) (R : Z -> Z -> Prop) s n :
  (forall i j, (i < j)%nat -> R (f i) (f j)) -> StronglySorted R (map f (seq s n)).
Proof.
  intros H. revert s. induction n as [|n IH]; intros s; cbn; constructor; [apply IH|].
  apply Forall_map, Forall_forall. intros j Hj. apply in_seq in Hj. apply H. lia.
Qed.

Lemma pyrange_sorted_up a b k : 0 < k -> StronglySorted Z.lt (pyrange a b k).
Proof. intros Hk. apply sorted_map_seq. intros i j Hij. nia. Qed.
Lemma pyrange_sorted_down a b k : k < 0 -> StronglySorted Z.gt (pyrange a b k).
Proof. intros Hk. apply sorted_map_seq. intros i j Hij. nia. Qed.

Lemma pyrange_0_n n : 0 <= n -> pyrange 0 n 1 = map Z.of_nat (seq 0 (Z.to_nat n)).
Proof.
  intros Hn. unfold pyrange, range_len. cbn [Z.ltb Z.compare].
  replace (if 0 <? n then (n - 0 - 1) / 1 + 1 else 0) with n by (destruct (Z.ltb_spec 0 n); lia).
  apply map_ext. intros. lia.
Qed.

Lemma slice_indices_bounds s n a b k : 1 <= n -> slice_indices s n = Some (a, b, k) ->
  k <> 0 /\ (if 0 <? k then 0 <= a /\ b <= n else a <= n - 1 /\ -1 <= b).
Proof.
  intros Hn H. unfold slice_indices in H.
  destruct (Z.eqb_spec (match sl_step s with None => 1 | Some k => k end) 0) as [E|E]; [discriminate|].
  injection H as Ha Hb Hk. rewrite Hk in *. split; [exact E|].
  destruct (Z.ltb_spec 0 k) as [L|L].
  - destruct (Z.ltb_spec k 0); [lia|]. split.
    + subst a. destruct (sl_start s) as [x|]; [destruct (Z.ltb_spec x 0); lia|lia].
    + subst b. destruct (sl_stop s) as [x|]; [destruct (Z.ltb_spec x 0); lia|lia].
  - destruct (Z.ltb_spec k 0); [|lia]. split.
    + subst a. destruct (sl_start s) as [x|]; [destruct (Z.ltb_spec x 0); lia|lia].
    + subst b. destruct (sl_stop s) as [x|]; [destruct (Z.ltb_spec x 0); lia|lia].
Qed.

Lemma scenario_range_valid sc l x : 1 <= sc_size sc -> scenario_range sc = Some l -> In x l -> 0 <= x < sc_size sc.
Proof.
  intros Hs H Hx. unfold scenario_range in H. destruct (sc_slice sc) as [sl|].
  - destruct (slice_indices sl (sc_size sc)) as [[[a b] k]|] eqn:E; [|discriminate].
    injection H as <-. destruct (slice_indices_bounds _ _ _ _ _ Hs E) as [Hk Hb].
    apply in_pyrange in Hx; [|exact Hk]. destruct Hx as [i [Hi [-> Hr]]].
    destruct (Z.ltb_spec 0 k); nia.
  - injection H as <-. apply in_pyrange in Hx; [|lia]. destruct Hx as [i [Hi [-> Hr]]]. cbn in Hr. lia.
Qed.

Lemma scenario_range_NoDup sc l : 1 <= sc_size sc -> scenario_range sc = Some l -> NoDup l.
Proof.
  intros Hs H. unfold scenario_range in H. destruct (sc_slice sc) as [sl|].
  - destruct (slice_indices sl (sc_size sc)) as [[[a b] k]|] eqn:E; [|discriminate].
    injection H as <-. destruct (slice_indices_bounds _ _ _ _ _ Hs E) as [Hk _]. now apply pyrange_NoDup.
  - injection H as <-. apply pyrange_NoDup. lia.
Qed.

(** Without slice: all members, ascending. *)
Lemma scenario_range_all sc : 1 <= sc_size sc -> sc_slice sc = None ->
  scenario_range sc = Some (map Z.of_nat (seq 0 (Z.to_nat (sc_size sc)))).
Proof. intros Hs Hn. unfold scenario_range. rewrite Hn, pyrange_0_n by lia. reflexivity. Qed.

(** *** enumerate *)
Lemma enumerate_nth l i : nth_error (enumerate_si l) i = option_map (SI i) (nth_error l i).
Proof.
  unfold enumerate_si.
  assert (forall s, nth_error (map (fun p => SI (fst p) (snd p)) (combine (seq s (length l)) l)) i
            = option_map (SI (s + i)) (nth_error l i)) as H.
  { revert i. induction l as [|x l IH]; intros i s; cbn; [destruct i; reflexivity|].
    destruct i as [|i]; cbn; [now rewrite Nat.add_0_r|]. rewrite IH. now replace (S s + i)%nat with (s + S i)%nat by lia. }
  apply (H O).
Qed.

Lemma enumerate_length l : length (enumerate_si l) = length l.
Proof. unfold enumerate_si. rewrite map_length, combine_length, seq_length. lia. Qed.

Lemma enumerate_indices l : map indices (enumerate_si l) = l.
Proof.
  unfold enumerate_si. rewrite map_map. cbn. generalize O.
  induction l as [|x l IH]; intros s; cbn; [reflexivity|]. now rewrite IH.
Qed.

Lemma enumerate_ids l : map global_id (enumerate_si l) = seq 0 (length l).
Proof.
  unfold enumerate_si. rewrite map_map. cbn. generalize O.
  induction l as [|x l IH]; intros s; cbn; [reflexivity|]. now rewrite IH.
Qed.

Lemma sequence_spec {A} (l : list (option A)) s : sequence l = Some s <-> l = map Some s.
Proof.
  revert s. induction l as [|[x|] l IH]; intros s; cbn.
  - split; [intros H; injection H as <-; reflexivity|]. destruct s; [reflexivity|discriminate].
  - destruct (sequence l) as [t|] eqn:E.
    + split.
      * intros H. injection H as <-. cbn. f_equal. now apply IH.
      * destruct s as [|y s]; [discriminate|]. cbn. intros H. injection H as -> H. apply IH in H. congruence.
    + split; [discriminate|]. destruct s as [|y s]; [discriminate|]. cbn. intros H. injection H as -> H.
      apply IH in H. discriminate.
  - split; [discriminate|]. destruct s; discriminate.
Qed.

Definition wf_coll (c : collection) : Prop := Forall (fun s => 1 <= sc_size s) (scenarios c).

Lemma default_combinations c l :
  wf_coll c -> scenarios c <> [] -> user c = None -> get_combinations c = Some l ->
  exists rs, map scenario_range (scenarios c) = map Some rs /\
    map indices l = product rs /\ map global_id l = seq 0 (length l).
Proof.
  intros Hw Hne Hu H. unfold get_combinations in H. rewrite Hu in H.
  destruct (scenarios c) as [|s0 scs] eqn:Es; [contradiction|].
  destruct (sequence _) as [rs|] eqn:E; [|discriminate].
  apply sequence_spec in E. exists rs. split; [exact E|].
  assert (l = enumerate_si (product rs)) as ->.
  { destruct (enumerate_si (product rs)); [discriminate|now injection H]. }
  rewrite enumerate_indices, enumerate_ids, enumerate_length. split; reflexivity.
Qed.

Lemma ranges_all_props (scs : list scenario) rs :
  Forall (fun s => 1 <= sc_size s) scs -> map scenario_range scs = map Some rs ->
  Forall (@NoDup Z) rs /\ Forall2 (fun s r => forall x, In x r -> 0 <= x < sc_size s) scs rs.
Proof.
  intros Hw. revert rs. induction Hw as [|s scs Hs Hw IH]; intros rs H; destruct rs as [|r rs]; try discriminate.
  - split; constructor.
  - cbn in H. injection H as H1 H2. destruct (IH rs H2) as [A B]. split; constructor; try assumption.
    + now apply (scenario_range_NoDup s).
    + intros x Hx. now apply (scenario_range_valid s r).
Qed.

(** C05 in one statement. *)
Lemma combinations_spec c l :
  wf_coll c -> scenarios c <> [] -> user c = None -> get_combinations c = Some l ->
  exists rs, Forall2 (fun s r => scenario_range s = Some r) (scenarios c) rs /\
    (forall t, In t (map indices l) <-> Forall2 (@In Z) t rs) /\
    NoDup (map indices l) /\
    (forall R, Forall (StronglySorted R) rs -> StronglySorted (lex R) (map indices l)) /\
    map global_id l = seq 0 (length l) /\
    length l = nprod (map (@length Z) rs).
Proof.
  intros Hw Hne Hu H. destruct (default_combinations c l Hw Hne Hu H) as [rs [E [Ei Eg]]].
  exists rs. destruct (ranges_all_props _ _ Hw E) as [Hnd _]. rewrite Ei. repeat split.
  - clear -E. revert rs E. induction (scenarios c) as [|s scs IH]; intros [|r rs] E; try discriminate; constructor.
    + now injection E.
    + apply IH. now injection E.
  - apply in_product.
  - apply in_product.
  - now apply product_NoDup.
  - intros R HR. now apply product_sorted.
  - exact Eg.
  - rewrite <- product_length, <- Ei, map_length. reflexivity.
Qed.

Lemma Forall2_In_valid (scs : list scenario) rs t :
  Forall2 (fun s r => forall x, In x r -> 0 <= x < sc_size s) scs rs ->
  Forall2 (@In Z) t rs -> Forall2 (fun x s => 0 <= x < sc_size s) t scs.
Proof.
  intros H. revert t. induction H as [|s r scs rs H _ IH]; intros t Ht; inversion Ht; subst; constructor.
  - now apply H.
  - now apply IH.
Qed.

Lemma default_combinations_valid c l si :
  wf_coll c -> scenarios c <> [] -> user c = None -> get_combinations c = Some l -> In si l ->
  Forall2 (fun x s => 0 <= x < sc_size s) (indices si) (scenarios c).
Proof.
  intros Hw Hne Hu H Hin. destruct (default_combinations c l Hw Hne Hu H) as [rs [E [Ei _]]].
  destruct (ranges_all_props _ _ Hw E) as [_ Hv]. apply (Forall2_In_valid _ rs); [exact Hv|].
  apply in_product. rewrite <- Ei. now apply in_map.
Qed.

(** *** user combinations *)
Lemma fold_max_ge (g : list Z -> Z) rs : forall m x, (x <= m \/ exists r, In r rs /\ x <= g r) ->
  x <= fold_left (fun m r => Z.max m (g r)) rs m.
Proof.
  induction rs as [|r rs IH]; intros m x H; cbn.
  - destruct H as [H|[r [[] _]]]. exact H.
  - apply IH. destruct H as [H|[r' [[<-|Hr] H]]]; [left; lia|left; lia|right; eauto].
Qed.
Lemma fold_min_le (g : list Z -> Z) rs : forall m x, (m <= x \/ exists r, In r rs /\ g r <= x) ->
  fold_left (fun m r => Z.min m (g r)) rs m <= x.
Proof.
  induction rs as [|r rs IH]; intros m x H; cbn.
  - destruct H as [H|[r [[] _]]]. exact H.
  - apply IH. destruct H as [H|[r' [[<-|Hr] H]]]; [left; lia|left; lia|right; eauto].
Qed.
Lemma fold_max_attained (g : list Z -> Z) rs : forall m, 
  fold_left (fun m r => Z.max m (g r)) rs m = m \/ exists r, In r rs /\ fold_left (fun m r => Z.max m (g r)) rs m = g r.
Proof.
  induction rs as [|r rs IH]; intros m; cbn; [now left|].
  destruct (IH (Z.max m (g r))) as [E|[r' [Hr E]]].
  - destruct (Z.max_spec m (g r)) as [[_ K]|[_ K]]; rewrite K in *.
    + right. exists r. split; [now left|]. exact E.
    + left. exact E.
  - right. exists r'. split; [now right|exact E].
Qed.
Lemma fold_min_attained (g : list Z -> Z) rs : forall m, 
  fold_left (fun m r => Z.min m (g r)) rs m = m \/ exists r, In r rs /\ fold_left (fun m r => Z.min m (g r)) rs m = g r.
Proof.
  induction rs as [|r rs IH]; intros m; cbn; [now left|].
  destruct (IH (Z.min m (g r))) as [E|[r' [Hr E]]].
  - destruct (Z.min_spec m (g r)) as [[_ K]|[_ K]]; rewrite K in *.
    + left. exact E.
    + right. exists r. split; [now left|]. exact E.
  - right. exists r'. split; [now right|exact E].
Qed.

Lemma col_max_spec j rows r : In r rows -> nth j r 0 <= col_max j rows.
Proof.
  destruct rows as [|r0 rows]; [intros []|]. cbn. intros [<-|H].
  - apply (fold_max_ge (fun r => nth j r 0)). left. lia.
  - apply (fold_max_ge (fun r => nth j r 0)). right. exists r. split; [exact H|lia].
Qed.
Lemma col_min_spec j rows r : In r rows -> col_min j rows <= nth j r 0.
Proof.
  destruct rows as [|r0 rows]; [intros []|]. cbn. intros [<-|H].
  - apply (fold_min_le (fun r => nth j r 0)). left. lia.
  - apply (fold_min_le (fun r => nth j r 0)). right. exists r. split; [exact H|lia].
Qed.
Lemma col_max_attained j rows : rows <> [] -> exists r, In r rows /\ col_max j rows = nth j r 0.
Proof.
  destruct rows as [|r0 rows]; [contradiction|]. intros _. cbn.
  destruct (fold_max_attained (fun r => nth j r 0) rows (nth j r0 0)) as [E|[r [Hr E]]].
  - exists r0. split; [now left|exact E].
  - exists r. split; [now right|exact E].
Qed.
Lemma col_min_attained j rows : rows <> [] -> exists r, In r rows /\ col_min j rows = nth j r 0.
Proof.
  destruct rows as [|r0 rows]; [contradiction|]. intros _. cbn.
  destruct (fold_min_attained (fun r => nth j r 0) rows (nth j r0 0)) as [E|[r [Hr E]]].
  - exists r0. split; [now left|exact E].
  - exists r. split; [now right|exact E].
Qed.

Lemma Forall2_nth_iff (P : Z -> scenario -> Prop) t scs :
  Forall2 P t scs <-> length t = length scs /\
    forall j s, nth_error scs j = Some s -> P (nth j t 0) s.
Proof.
  revert scs. induction t as [|x t IH]; intros scs; destruct scs as [|s scs].
  - split; [|constructor]. intros _. split; [reflexivity|]. intros j s H; destruct j; discriminate.
  - split; [intros H; inversion H|]. intros [H _]; discriminate.
  - split; [intros H; inversion H|]. intros [H _]; discriminate.
  - split.
    + intros H; inversion H; subst. apply IH in H5 as [L N]. split; [cbn; congruence|].
      intros [|j] s' Hj; cbn in Hj |- *; [now injection Hj as <-|now apply N].
    + intros [L N]. constructor; [now apply (N O)|]. apply IH. split; [cbn in L; congruence|].
      intros j s' Hj. now apply (N (S j)).
Qed.

Definition valid_row (scs : list scenario) (r : list Z) : Prop :=
  Forall2 (fun x s => 0 <= x < sc_size s) r scs.

Lemma in_combine_seq {A} (l : list A) s j x :
  In (j, x) (combine (seq s (length l)) l) <-> (s <= j)%nat /\ nth_error l (j - s) = Some x.
Proof.
  revert s. induction l as [|y l IH]; intros s; cbn.
  - split; [intros []|]. intros [_ H]. destruct (j - s)%nat; discriminate.
  - rewrite IH. split.
    + intros [H|[H1 H2]].
      * injection H as <- <-. rewrite Nat.sub_diag. split; [lia|reflexivity].
      * split; [lia|]. replace (j - s)%nat with (S (j - S s)) by lia. exact H2.
    + intros [H1 H2]. destruct (Nat.eq_dec j s) as [->|N].
      * left. rewrite Nat.sub_diag in H2. cbn in H2. congruence.
      * right. split; [lia|]. replace (j - s)%nat with (S (j - S s)) in H2 by lia. exact H2.
Qed.

(** The setter accepts exactly the non-empty arrays all of whose rows are valid. *)
Lemma set_user_accepts c w rows c' :
  Forall (fun r => length r = w) rows ->
  set_user c (Some (Arr2 w rows)) = Some c' ->
  w = length (scenarios c) /\ c' = Coll (scenarios c) (Some rows) /\
  (forall r, In r rows -> valid_row (scenarios c) r) /\
  (scenarios c <> [] -> rows <> []).
Proof.
  intros Hrect H. unfold set_user in H.
  destruct (Nat.eqb_spec w (length (scenarios c))) as [Ew|]; [|discriminate]. cbn [negb] in H.
  destruct (match rows with [] => negb (Nat.eqb w 0) | _ => false end) eqn:Eemp; [discriminate|].
  destruct (existsb _ (combine _ _)) eqn:Emax; [discriminate|].
  destruct (existsb _ (seq 0 w)) eqn:Emin; [discriminate|].
  injection H as <-. split; [exact Ew|]. split; [reflexivity|]. split.
  - intros r Hr. unfold valid_row. apply Forall2_nth_iff. split.
    + rewrite Forall_forall in Hrect. rewrite <- Ew. now apply Hrect.
    + intros j s Hj. split.
      * assert (In j (seq 0 w)) as Hin.
        { apply in_seq. assert (j < length (scenarios c))%nat by (apply nth_error_Some; congruence). lia. }
        assert (~ col_min j rows < 0) as N.
        { intros K. assert (existsb (fun j => col_min j rows <? 0) (seq 0 w) = true); [|congruence].
          apply existsb_exists. exists j. split; [exact Hin|lia]. }
        pose proof (col_min_spec j rows r Hr). lia.
      * assert (~ sc_size s <= col_max j rows) as N.
        { intros K. assert (existsb (fun js => sc_size (snd js) <=? col_max (fst js) rows)
             (combine (seq 0 w) (scenarios c)) = true); [|congruence].
          apply existsb_exists. exists (j, s). split; [|cbn; lia].
          rewrite Ew. apply in_combine_seq. split; [lia|]. now rewrite Nat.sub_0_r. }
        pose proof (col_max_spec j rows r Hr). lia.
  - intros Hne ->. rewrite Ew in Eemp. destruct (scenarios c); [contradiction|discriminate].
Qed.

Lemma set_user_rejects c w rows :
  Forall (fun r => length r = w) rows ->
  set_user c (Some (Arr2 w rows)) = None ->
  w <> length (scenarios c) \/ (rows = [] /\ scenarios c <> []) \/
  exists r, In r rows /\ ~ valid_row (scenarios c) r.
Proof.
  intros Hrect H. unfold set_user in H.
  destruct (Nat.eqb_spec w (length (scenarios c))) as [Ew|]; [|now left]. cbn [negb] in H. right.
  destruct rows as [|r0 rows'] eqn:Er.
  - left. split; [reflexivity|]. destruct (scenarios c); [|discriminate].
    subst w. cbn in H. discriminate.
  - rewrite <- Er in *. assert (rows <> []) as Hne by (rewrite Er; discriminate).
    right. replace (match rows with [] => negb (Nat.eqb w 0) | _ => false end) with false in H
      by (rewrite Er; reflexivity).
    destruct (existsb _ (combine _ _)) eqn:Emax.
    + apply existsb_exists in Emax as [[j s] [Hin Hle]]. cbn in Hle.
      rewrite Ew in Hin. apply in_combine_seq in Hin as [_ Hj]. rewrite Nat.sub_0_r in Hj.
      destruct (col_max_attained j rows Hne) as [r [Hr E]]. exists r. split; [exact Hr|].
      intros V. unfold valid_row in V. rewrite Forall2_nth_iff in V. destruct V as [_ V].
      specialize (V j s Hj). lia.
    + destruct (existsb _ (seq 0 w)) eqn:Emin; [|discriminate].
      apply existsb_exists in Emin as [j [Hin Hlt]]. apply in_seq in Hin.
      destruct (col_min_attained j rows Hne) as [r [Hr E]]. exists r. split; [exact Hr|].
      intros V. unfold valid_row in V. rewrite Forall2_nth_iff in V. destruct V as [_ V].
      destruct (nth_error (scenarios c) j) as [s|] eqn:Es.
      * specialize (V j s Es). lia.
      * apply nth_error_None in Es. lia.
Qed.

Lemma user_combinations_run c w rows c' :
  scenarios c <> [] ->
  Forall (fun r => length r = w) rows -> set_user c (Some (Arr2 w rows)) = Some c' ->
  exists l, get_combinations c' = Some l /\ map indices l = rows /\ map global_id l = seq 0 (length rows) /\
    forall si, In si l -> valid_row (scenarios c') (indices si).
Proof.
  intros Hne Hrect H. destruct (set_user_accepts c w rows c' Hrect H) as [Ew [-> [Hv Hr]]].
  specialize (Hr Hne). exists (enumerate_si rows).
  assert (get_combinations (Coll (scenarios c) (Some rows)) = Some (enumerate_si rows)) as E.
  { unfold get_combinations; cbn. destruct (scenarios c); [contradiction|].
    destruct (enumerate_si rows) eqn:Ee; [|reflexivity].
    assert (length (enumerate_si rows) = 0%nat) by now rewrite Ee. rewrite enumerate_length in H0.
    destruct rows; [contradiction|discriminate]. }
  split; [exact E|]. rewrite enumerate_indices, enumerate_ids. repeat split.
  intros si Hsi. cbn. apply Hv. rewrite <- (enumerate_indices rows). now apply in_map.
Qed.

(** *** ravel *)
Fixpoint zprod (l : list Z) : Z := match l with [] => 1 | n :: r => n * zprod r end.

Lemma product_nth_ravel (sizes : list nat) : forall k t acc,
  nth_error (product (map (fun n => map Z.of_nat (seq 0 n)) sizes)) k = Some t ->
  ravel_go acc t (map Z.of_nat sizes) = Some (acc * zprod (map Z.of_nat sizes) + Z.of_nat k).
Proof.
  induction sizes as [|n sizes IH]; intros k t acc H.
  - cbn in H. destruct k as [|[|k]]; cbn in H; try discriminate. injection H as <-. cbn. f_equal. lia.
  - cbn [map product] in H.
    set (P := product (map (fun n => map Z.of_nat (seq 0 n)) sizes)) in *.
    assert (length P = nprod sizes) as LP.
    { unfold P. rewrite product_length, map_map. f_equal. rewrite <- (map_id sizes) at 2. apply map_ext.
      intros a. now rewrite map_length, seq_length. }
    assert (zprod (map Z.of_nat sizes) = Z.of_nat (length P)) as ZP.
    { rewrite LP. clear. induction sizes as [|n sizes IH]; cbn; [reflexivity|]. rewrite IH. lia. }
    (* find x = k / |P| *)
    assert (forall m s k, nth_error (flat_map (fun x => map (cons x) P) (map Z.of_nat (seq s m))) k = Some t ->
       exists q r t', nth_error P r = Some t' /\ t = Z.of_nat (s + q) :: t' /\ (q < m)%nat /\ k = (q * length P + r)%nat) as F.
    { clear -P. induction m as [|m IHm]; intros s k H; cbn in H; [destruct k; discriminate|].
      destruct (Nat.lt_ge_cases k (length P)) as [L|L].
      - rewrite nth_error_app1 in H by now rewrite map_length.
        rewrite nth_error_map in H. destruct (nth_error P k) as [t'|] eqn:E; [|discriminate].
        cbn in H. injection H as <-. exists O, k, t'. repeat split; try assumption; try lia. now rewrite Nat.add_0_r.
      - rewrite nth_error_app2 in H by now rewrite map_length. rewrite map_length in H.
        destruct (IHm _ _ H) as [q [r [t' [E1 [E2 [E3 E4]]]]]].
        exists (S q), r, t'. repeat split; try assumption; try lia.
        now replace (s + S q)%nat with (S s + q)%nat by lia. }
    destruct (F n O k H) as [q [r [t' [E1 [E2 [E3 E4]]]]]]. subst t.
    cbn [ravel_go map]. replace ((0 <=? Z.of_nat (0 + q)) && (Z.of_nat (0 + q) <? Z.of_nat n)) with true by lia.
    rewrite (IH r t' _ E1). f_equal. cbn [zprod].
    rewrite ZP. nia.
Qed.

Lemma ravel_without_slices c l si :
  wf_coll c -> user c = None -> Forall (fun s => sc_slice s = None) (scenarios c) ->
  get_combinations c = Some l -> In si l -> ravel_indices c (indices si) = Some (Z.of_nat (global_id si)).
Proof.
  intros Hw Hu Hs H Hin. destruct (scenarios c) as [|s0 scs] eqn:Es.
  - unfold get_combinations in H. rewrite Es in H. injection H as <-. destruct Hin as [<-|[]]. cbn.
    unfold shape. rewrite Hu, Es. reflexivity.
  - assert (scenarios c <> []) as Hne by (rewrite Es; discriminate).
    destruct (default_combinations c l Hw Hne Hu H) as [rs [E [Ei Eg]]].
    set (sizes := map (fun s => Z.to_nat (sc_size s)) (scenarios c)).
    assert (map scenario_range (scenarios c) = map Some (map (fun n => map Z.of_nat (seq 0 n)) sizes)) as E'.
    { unfold sizes. rewrite !map_map. apply map_ext_in. intros s Hsin. rewrite <- Es in Hs.
      rewrite Forall_forall in Hs. unfold wf_coll in Hw. rewrite Forall_forall in Hw.
      apply scenario_range_all; [now apply Hw|now apply Hs]. }
    assert (rs = map (fun n => map Z.of_nat (seq 0 n)) sizes) as ->.
    { rewrite E in E'. clear -E'. revert E'. generalize (map (fun n => map Z.of_nat (seq 0 n)) sizes) as b.
      induction rs as [|r rs IH]; intros [|y b] H; try discriminate; [reflexivity|].
      cbn in H. injection H as -> H. f_equal. now apply IH. }
    destruct (In_nth_error _ _ Hin) as [k Hk].
    assert (nth_error (map indices l) k = Some (indices si)) as Hk' by now rewrite (map_nth_error _ _ _ Hk).
    assert (nth_error (map global_id l) k = Some (global_id si)) as Hg by now rewrite (map_nth_error _ _ _ Hk).
    assert (k = global_id si) as ->.
    { rewrite Eg in Hg. assert (k < length l)%nat by (apply nth_error_Some; congruence).
      rewrite (nth_error_nth' _ O) in Hg by now rewrite seq_length. rewrite seq_nth in Hg by assumption.
      now injection Hg. }
    rewrite Ei in Hk'. pose proof (product_nth_ravel sizes _ _ 0 Hk') as R.
    unfold ravel_indices. destruct (indices si) as [|i0 is] eqn:Eis.
    + (* impossible: at least one scenario *)
      cbn in R. unfold sizes in R. rewrite Es in R. discriminate.
    + rewrite <- Eis in *. unfold shape. rewrite Hu.
      destruct (scenarios c) as [|s1 scs1] eqn:Es1; [discriminate|]. rewrite <- Es1 in *.
      assert (sequence (map (fun s => option_map (fun l => Z.of_nat (length l)) (scenario_range s)) (scenarios c))
              = Some (map Z.of_nat sizes)) as ->.
      { apply sequence_spec. rewrite <- (map_map scenario_range (option_map (fun l => Z.of_nat (length l)))).
        rewrite E', !map_map. apply map_ext. intros n. cbn. now rewrite map_length, seq_length. }
      exact R.
Qed.

Lemma scenario_range_slice n a b k : 1 <= n ->
  match scenario_range (Scenario n (Some (Slice a b k))) with
  | None => k = Some 0
  | Some l =>
      let k := match k with Some k => k | None => 1 end in
      k <> 0 /\ (forall x, In x l <-> sliced n a b k x) /\
      (0 < k -> StronglySorted Z.lt l) /\ (k < 0 -> StronglySorted Z.gt l)
  end.
Proof.
  intros Hn. unfold scenario_range. cbn [sc_slice sc_size]. unfold slice_indices. cbn [sl_start sl_stop sl_step].
  set (k' := match k with Some k0 => k0 | None => 1 end).
  destruct (Z.eqb_spec k' 0) as [E|E].
  { destruct k as [k|]; cbn in k'; subst k'; [now subst|discriminate]. }
  cbn zeta. split; [exact E|]. split; [|split].
  - intros x. rewrite in_pyrange by exact E. unfold sliced, from_end. destruct (Z.ltb_spec 0 k') as [P|P].
    + replace (k' <? 0) with false by (symmetry; apply Z.ltb_ge; lia). split.
      * intros [i [Hi [Hx Hr]]]. destruct a as [a|], b as [b|];
          repeat match goal with |- context [?u <? 0] => destruct (Z.ltb_spec u 0) | H : context [?u <? 0] |- _ => destruct (Z.ltb_spec u 0) end;
          (split; [nia|split; [intros _; split; [try exact I; lia|exists i; split; [exact Hi|nia]]|lia]]).
      * intros [Hx [H _]]. destruct (H P) as [Hb [j [Hj Ej]]]. clear H. exists j. split; [exact Hj|].
        destruct a as [a|], b as [b|];
          repeat match goal with |- context [?u <? 0] => destruct (Z.ltb_spec u 0) | H : context [?u <? 0] |- _ => destruct (Z.ltb_spec u 0) end; split; nia.
    + replace (k' <? 0) with true by (symmetry; apply Z.ltb_lt; lia). split.
      * intros [i [Hi [Hx Hr]]]. destruct a as [a|], b as [b|];
          repeat match goal with |- context [?u <? 0] => destruct (Z.ltb_spec u 0) | H : context [?u <? 0] |- _ => destruct (Z.ltb_spec u 0) end;
          (split; [nia|split; [lia|intros _; split; [try exact I; lia|exists i; split; [exact Hi|nia]]]]).
      * intros [Hx [_ H]]. destruct H as [Hb [j [Hj Ej]]]; [lia|]. exists j. split; [exact Hj|].
        destruct a as [a|], b as [b|];
          repeat match goal with |- context [?u <? 0] => destruct (Z.ltb_spec u 0) | H : context [?u <? 0] |- _ => destruct (Z.ltb_spec u 0) end; split; nia.
  - intros P. now apply pyrange_sorted_up.
  - intros P. now apply pyrange_sorted_down.
Qed.
