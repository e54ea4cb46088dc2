From Coq Require Import Sorting.Sorted.
From Verif Require Import Base Ring Scenario_model Scenario_proofs ScenarioParams_model ScenarioParams_spec.
Local Open Scope Z_scope.
Local Open Scope list_scope.

Lemma wrap_nat : forall len n, (n < len)%nat -> wrap len (Z.of_nat n) = Some n.
Proof.
  intros len n H. unfold wrap. cbv zeta. destruct (Z.ltb_spec (Z.of_nat n) 0); [lia|].
  replace ((0 <=? Z.of_nat n) && (Z.of_nat n <? Z.of_nat len)) with true by (symmetry; apply andb_true_iff; split; [apply Z.leb_le|apply Z.ltb_lt]; lia).
  rewrite Nat2Z.id. reflexivity.
Qed.
Lemma wrap_pos : forall len z n, 0 <= z -> wrap len z = Some n -> z = Z.of_nat n /\ (n < len)%nat.
Proof.
  intros len z n Hz H. unfold wrap in H. cbv zeta in H. destruct (Z.ltb_spec z 0); [lia|].
  destruct ((0 <=? z) && (z <? Z.of_nat len)) eqn:E; [|discriminate]. apply andb_true_iff in E. destruct E as [_ E]. apply Z.ltb_lt in E. inversion H; subst. lia.
Qed.
Lemma wrap_beyond : forall len z, Z.of_nat len <= z -> wrap len z = None.
Proof.
  intros len z H. unfold wrap. cbv zeta. destruct (Z.ltb_spec z 0); [lia|]. destruct (Z.ltb_spec z (Z.of_nat len)); [lia|]. rewrite andb_false_r. reflexivity.
Qed.
Lemma at_z_nat : forall {A} (l : list A) n, at_z l (Z.of_nat n) = nth_error l n.
Proof.
  intros A l n. unfold at_z. destruct (Nat.lt_ge_cases n (length l)).
  - rewrite wrap_nat by assumption. reflexivity.
  - rewrite wrap_beyond by lia. symmetry. apply nth_error_None. lia.
Qed.
Lemma at_z_pos : forall {A} (l : list A) z, 0 <= z -> at_z l z = nth_error l (Z.to_nat z).
Proof. intros A l z H. rewrite <- at_z_nat. rewrite Z2Nat.id by assumption. reflexivity. Qed.

Lemma index_found : forall ids id p, NoDup ids -> nth_error ids p = Some id -> get_scenario_index ids id = Some (Z.of_nat p).
Proof.
  induction ids as [|x r IH]; intros id p Hd E; [destruct p; discriminate|]. cbn [get_scenario_index]. inversion Hd; subst.
  destruct p as [|p]; cbn [nth_error] in E.
  - inversion E; subst. rewrite Nat.eqb_refl. reflexivity.
  - destruct (Nat.eqb_spec x id) as [->|]; [exfalso; apply H1; eapply nth_error_In; exact E|]. rewrite (IH id p H2 E). cbn. f_equal. lia.
Qed.
Lemma index_sound : forall ids id z, get_scenario_index ids id = Some z -> exists p, z = Z.of_nat p /\ nth_error ids p = Some id.
Proof.
  induction ids as [|x r IH]; intros id z E; [discriminate|]. cbn [get_scenario_index] in E. destruct (Nat.eqb_spec x id) as [->|].
  - inversion E; subst. exists O. auto.
  - destruct (get_scenario_index r id) as [y|] eqn:Ey; [|discriminate]. inversion E; subst. destruct (IH id y Ey) as (p & -> & Hp). exists (S p). split; [lia|exact Hp].
Qed.

Lemma member_unique : forall ids id si i j, NoDup ids -> member ids id si i -> member ids id si j -> i = j.
Proof.
  intros ids id si i j Hd (p & Hp & Hi) (q & Hq & Hj).
  assert (p = q). { apply (proj1 (NoDup_nth_error ids) Hd); [apply nth_error_Some; congruence|congruence]. } subst q.
  rewrite Hi in Hj. inversion Hj. lia.
Qed.

(** Every combination that is run has a valid member of every scenario. *)
Lemma combinations_valid : forall c l si, wf_coll c -> scenarios c <> [] -> (forall u r, user c = Some u -> In r u -> valid_row (scenarios c) r) ->
  get_combinations c = Some l -> In si l -> valid_row (scenarios c) (indices si) /\ (global_id si < length l)%nat.
Proof.
  intros c l si Hw Hne Hu H Hin. destruct (user c) as [u|] eqn:Eu.
  - unfold get_combinations in H. rewrite Eu in H. destruct (scenarios c) as [|s0 scs] eqn:Es; [contradiction|].
    assert (l = enumerate_si u) as -> by (destruct (enumerate_si u); [discriminate|now injection H]).
    split.
    + apply (Hu u); [reflexivity|]. rewrite <- (enumerate_indices u). apply in_map. exact Hin.
    + rewrite enumerate_length. assert (In (global_id si) (map global_id (enumerate_si u))) by (apply in_map; exact Hin).
      rewrite enumerate_ids in H0. apply in_seq in H0. lia.
  - split; [eapply default_combinations_valid; eauto|]. destruct (default_combinations c l Hw Hne Eu H) as (rs & _ & _ & Eg).
    assert (In (global_id si) (map global_id l)) by (apply in_map; exact Hin). rewrite Eg in H0. apply in_seq in H0. lia.
Qed.
Lemma Forall2_nth_both : forall {A B} (R : A -> B -> Prop) l m p a, Forall2 R l m -> nth_error m p = Some a -> exists b, nth_error l p = Some b /\ R b a.
Proof.
  intros A B R l m p a H. revert p a. induction H as [|x y l m Hxy H IH]; intros [|p] a E; cbn in *; try discriminate.
  - inversion E; subst. eauto.
  - eauto.
Qed.

Lemma member_exists : forall c ids id sc p si, length ids = length (scenarios c) -> valid_row (scenarios c) (indices si) ->
  nth_error ids p = Some id -> nth_error (scenarios c) p = Some sc -> exists i, member ids id si i /\ Z.of_nat i < sc_size sc.
Proof.
  intros c ids id sc p si Hlen Hv Hp Hsc. destruct (Forall2_nth_both _ _ _ _ _ Hv Hsc) as (z & Hz & Hr).
  exists (Z.to_nat z). split; [|lia]. exists p. split; [exact Hp|]. rewrite Z2Nat.id by lia. exact Hz.
Qed.

Lemma row_at : forall (m : list (list Q)) i row, rectangular m -> nth_error m i = Some row -> Z.of_nat (length row) = width m.
Proof. intros m i row H E. unfold rectangular in H. rewrite Forall_forall in H. apply H. eapply nth_error_In; exact E. Qed.
Lemma nth_ok : forall {A} (l : list A) n, (n < length l)%nat -> exists a, nth_error l n = Some a.
Proof. intros A l n H. destruct (nth_error l n) as [a|] eqn:E; [eauto|]. apply nth_error_None in E. lia. Qed.

Lemma value_right : forall p pos t si size i n, accepted size p = true -> rectangular (matrix p) -> covers p t n -> (global_id si < n)%nat ->
  nth_error (indices si) pos = Some (Z.of_nat i) -> Z.of_nat i < size ->
  exists v, value p (Z.of_nat pos) t si = Some v /\ belongs p t (global_id si) i v.
Proof.
  intros p pos t si size i n Ha Hr (Ht & Hm & Hwk & Hdy & Hc) Hg Hi Hsz. unfold value. rewrite at_z_nat, Hi. cbn [bindo].
  destruct p as [vs|vs|vs fs|vs|vs|vs|ch]; cbn [accepted matrix belongs] in *.
  - apply Z.eqb_eq in Ha. rewrite at_z_nat. destruct (nth_ok vs i) as [v Ev]; [lia|]. eauto.
  - apply Z.eqb_eq in Ha. rewrite at_z_pos by lia. destruct (nth_ok vs (Z.to_nat (t_index t))) as [row Er]; [lia|]. rewrite Er. cbn [bindo].
    rewrite at_z_nat. pose proof (row_at _ _ _ Hr Er). destruct (nth_ok row i) as [v Ev]; [lia|]. rewrite Ev. eauto.
  - apply andb_true_iff in Ha. destruct Ha as [Ha Hw]. apply Z.eqb_eq in Ha. apply Z.eqb_eq in Hw. rewrite at_z_pos by lia.
    destruct (nth_ok vs (Z.to_nat (t_index t))) as [a Ea]; [lia|]. rewrite Ea. cbn [bindo]. rewrite at_z_nat.
    destruct (nth_ok fs i) as [row Er]; [lia|]. rewrite Er. cbn [bindo]. rewrite at_z_pos by lia. pose proof (row_at _ _ _ Hr Er).
    destruct (nth_ok row (Z.to_nat (t_month t - 1))) as [f Ef]; [lia|]. rewrite Ef. cbn [bindo]. eexists. split; [reflexivity|]. eauto 8.
  - apply andb_true_iff in Ha. destruct Ha as [Ha Hw]. apply Z.eqb_eq in Ha. apply Z.eqb_eq in Hw. rewrite at_z_nat.
    destruct (nth_ok vs i) as [row Er]; [lia|]. rewrite Er. cbn [bindo]. rewrite at_z_pos by lia. pose proof (row_at _ _ _ Hr Er).
    destruct (nth_ok row (Z.to_nat (t_month t - 1))) as [f Ef]; [lia|]. rewrite Ef. eauto.
  - apply andb_true_iff in Ha. destruct Ha as [Ha Hw]. apply Z.eqb_eq in Ha. apply Z.eqb_eq in Hw. rewrite at_z_nat.
    destruct (nth_ok vs i) as [row Er]; [lia|]. rewrite Er. cbn [bindo]. rewrite at_z_pos by lia. pose proof (row_at _ _ _ Hr Er).
    destruct (nth_ok row (Z.to_nat (t_week t))) as [f Ef]; [lia|]. rewrite Ef. eauto.
  - apply andb_true_iff in Ha. destruct Ha as [Ha Hw]. apply Z.eqb_eq in Ha. apply Z.eqb_eq in Hw. rewrite at_z_nat.
    destruct (nth_ok vs i) as [row Er]; [lia|]. rewrite Er. cbn [bindo]. rewrite at_z_pos by lia. pose proof (row_at _ _ _ Hr Er).
    destruct (nth_ok row (Z.to_nat (t_day t))) as [f Ef]; [lia|]. rewrite Ef. eauto.
  - apply Z.eqb_eq in Ha. rewrite at_z_nat. destruct (nth_ok ch i) as [child Ec]; [lia|]. rewrite Ec. cbn [bindo]. rewrite at_z_nat.
    rewrite Forall_forall in Hc. pose proof (Hc child (nth_error_In _ _ Ec)). destruct (nth_ok child (global_id si)) as [v Ev]; [lia|]. rewrite Ev. eauto.
Qed.

(** ** The columns loaded *)
Lemma in_insert : forall x l y, In y (insert x l) <-> y = x \/ In y l.
Proof.
  intros x l; induction l as [|a r IH]; intro y; cbn [insert]; [cbn; intuition|].
  destruct (Z.ltb_spec x a); [cbn; intuition|]. destruct (Z.eqb_spec x a); [subst; cbn; intuition|]. cbn [In]. rewrite IH. intuition.
Qed.
Lemma in_sorted_set : forall l y, In y (sorted_set l) <-> In y l.
Proof. intros l; induction l as [|a r IH]; intro y; [reflexivity|]. unfold sorted_set in *. cbn [fold_right]. rewrite in_insert, IH. cbn. intuition. Qed.
Lemma insert_sorted : forall x l, StronglySorted Z.lt l -> StronglySorted Z.lt (insert x l).
Proof.
  intros x l; induction l as [|a r IH]; intro H; cbn [insert]; [constructor; constructor|]. inversion H as [|? ? Hs Hf]; subst.
  destruct (Z.ltb_spec x a).
  - constructor; [exact H|]. constructor; [exact H0|]. eapply Forall_impl; [|exact Hf]. intros; cbv beta in *; lia.
  - destruct (Z.eqb_spec x a); [exact H|]. constructor; [apply IH; exact Hs|]. apply Forall_forall. intros y Hy. apply in_insert in Hy.
    destruct Hy as [->|Hy]; [lia|]. rewrite Forall_forall in Hf. auto.
Qed.
Lemma sorted_set_sorted : forall l, StronglySorted Z.lt (sorted_set l).
Proof. induction l as [|a r IH]; [constructor|]. apply insert_sorted. exact IH. Qed.
Lemma sorted_lt_NoDup : forall l, StronglySorted Z.lt l -> NoDup l.
Proof.
  induction l as [|a r IH]; intro H; constructor; inversion H as [|? ? Hs Hf]; subst; [|auto].
  intro Hin. rewrite Forall_forall in Hf. specialize (Hf a Hin). lia.
Qed.

Lemma wanted_shape : forall c p sc w, (forall u r, user c = Some u -> In r u -> valid_row (scenarios c) r) ->
  nth_error (scenarios c) p = Some sc -> wanted c (Z.of_nat p) sc = Some (Some w) -> NoDup w /\ Forall (fun z => 0 <= z) w.
Proof.
  intros c p sc w Hu Hsc H. unfold wanted in H.
  assert (Hslice : forall sl, match sl_stop sl with None => None | Some stop => if stop <? 0 then None else match slice_indices sl stop with None => None | Some (a, b, k) => Some (Some (pyrange a b k)) end end = Some (Some w) ->
           NoDup w /\ Forall (fun z => 0 <= z) w).
  { intros sl E. destruct (sl_stop sl) as [stop|] eqn:Es; [|discriminate]. destruct (Z.ltb_spec stop 0); [discriminate|].
    destruct (slice_indices sl stop) as [[[a b] k]|] eqn:Ei; [|discriminate]. inversion E; subst.
    destruct (Z.eq_dec stop 0) as [->|Hz].
    - (* nothing to select *)
      assert (Hk : k <> 0 /\ pyrange a b k = []).
      { unfold slice_indices in Ei. rewrite Es in Ei. destruct (Z.eqb_spec (match sl_step sl with None => 1 | Some k => k end) 0) as [|Hk]; [discriminate|].
        injection Ei as Ha Hb Hk'. rewrite Hk' in *. split; [exact Hk|]. unfold pyrange, range_len. destruct (Z.ltb_spec 0 k).
        - destruct (Z.ltb_spec k 0); [lia|]. cbn in Hb. destruct (Z.ltb_spec a b); [|reflexivity]. exfalso.
          subst a. destruct (sl_start sl) as [x|]; [destruct (Z.ltb_spec x 0)|]; lia.
        - destruct (Z.ltb_spec k 0); [|lia]. cbn in Hb. destruct (Z.ltb_spec b a); [|reflexivity]. exfalso.
          subst a. destruct (sl_start sl) as [x|]; [destruct (Z.ltb_spec x 0)|]; lia. }
      destruct Hk as [_ ->]. split; constructor.
    - destruct (slice_indices_bounds sl stop a b k) as [Hk Hb]; [lia|exact Ei|]. split; [apply pyrange_NoDup; exact Hk|].
      apply Forall_forall. intros z Hz'. apply in_pyrange in Hz'; [|exact Hk]. destruct Hz' as (i & Hi & -> & Hr). destruct (Z.ltb_spec 0 k); nia. }
  destruct (user c) as [[|u0 u]|] eqn:Eu.
  - destruct (sc_slice sc) as [sl|]; [eauto|discriminate].
  - destruct (sequence _) as [l|] eqn:El; [|discriminate]. cbn in H. inversion H; subst. apply sequence_spec in El. split.
    + apply sorted_lt_NoDup. apply sorted_set_sorted.
    + apply Forall_forall. intros z Hz. apply (proj1 (in_sorted_set _ _)) in Hz.
      assert (Hin : In (Some z) (map (fun row => at_z row (Z.of_nat p)) (u0 :: u))) by (rewrite El; apply in_map; exact Hz).
      apply in_map_iff in Hin. destruct Hin as (row & Erow & Hrow). rewrite at_z_nat in Erow.
      destruct (Forall2_nth_both _ _ _ _ _ (Hu _ _ eq_refl Hrow) Hsc) as (y & Ey & Hy). rewrite Erow in Ey. inversion Ey; subst. lia.
  - destruct (sc_slice sc) as [sl|]; [eauto|discriminate].
Qed.

Lemma nth_error_upd : forall {A} (l : list A) k v j, (k < length l)%nat -> nth_error (upd l k v) j = if Nat.eqb j k then Some v else nth_error l j.
Proof.
  intros A l; induction l as [|a r IH]; intros k v j H; [cbn in H; lia|]. destruct k as [|k], j as [|j]; cbn [upd nth_error Nat.eqb] in *; try reflexivity.
  apply IH. cbn in H. lia.
Qed.
Lemma fill_spec : forall w n ids ids', Forall (fun z => 0 <= z) w -> NoDup w -> fill n w ids = Some ids' ->
  length ids' = length ids /\ Forall (fun z => z < Z.of_nat (length ids)) w /\
  (forall k j, nth_error w k = Some (Z.of_nat j) -> nth_error ids' j = Some (n + Z.of_nat k)) /\
  (forall j, ~ In (Z.of_nat j) w -> nth_error ids' j = nth_error ids j).
Proof.
  induction w as [|z w IH]; intros n ids ids' Hp Hd E; cbn [fill] in E.
  - inversion E; subst. repeat split; auto. intros [|k] j H; discriminate.
  - destruct (wrap (length ids) z) as [j0|] eqn:Ew; [|discriminate]. apply wrap_pos in Ew; [|exact (Forall_inv Hp)]. destruct Ew as [-> Hj0].
    inversion Hd as [|? ? Hnin Hd']; subst. destruct (IH _ _ _ (Forall_inv_tail Hp) Hd' E) as (Hl & Hb & Hin & Hout). rewrite upd_length in *. repeat split.
    + exact Hl.
    + constructor; [lia|exact Hb].
    + intros [|k] j Hk; cbn [nth_error] in Hk.
      * inversion Hk as [Ej]. apply Nat2Z.inj in Ej. subst j. rewrite Hout by exact Hnin. rewrite nth_error_upd, Nat.eqb_refl by exact Hj0. f_equal. lia.
      * rewrite (Hin k j Hk). f_equal. lia.
    + intros j Hj. rewrite Hout by (intro; apply Hj; right; assumption). rewrite nth_error_upd by exact Hj0.
      destruct (Nat.eqb_spec j j0) as [->|]; [exfalso; apply Hj; left; reflexivity|reflexivity].
Qed.
Lemma NoDup_bounded : forall w n, NoDup w -> Forall (fun z => 0 <= z) w -> Forall (fun z => z < Z.of_nat n) w -> (length w <= n)%nat.
Proof.
  intros w n Hd Hp Hb. transitivity (length (map Z.of_nat (seq 0 n))); [|rewrite map_length, seq_length; reflexivity].
  apply NoDup_incl_length; [exact Hd|]. intros z Hz. rewrite Forall_forall in Hp, Hb. apply in_map_iff. exists (Z.to_nat z).
  specialize (Hp z Hz). specialize (Hb z Hz). split; [lia|]. apply in_seq. lia.
Qed.
Lemma sequence_nth : forall {A B} (f : A -> option B) l m k, sequence (map f l) = Some m ->
  nth_error m k = match nth_error l k with Some a => f a | None => None end.
Proof.
  intros A B f l; induction l as [|a r IH]; intros m k E; cbn [map sequence] in E.
  - inversion E; subst. destruct k; reflexivity.
  - destruct (f a) as [b|] eqn:Eb; [|discriminate]. destruct (sequence (map f r)) as [m'|] eqn:Em; [|discriminate]. inversion E; subst.
    destruct k; cbn [nth_error]; [congruence|]. apply IH. reflexivity.
Qed.
Lemma sequence_length : forall {A} (l : list (option A)) m, sequence l = Some m -> length m = length l.
Proof. intros A l m E. apply sequence_spec in E. subst. rewrite map_length. reflexivity. Qed.

(** A table made from the data [rows], all columns or some of them. *)
Definition made (size : Z) (w : option (list Z)) (rows : list (list Q)) (tb : table) : Prop :=
  match w with
  | None => tb = Table rows None
  | Some w => exists ids values, lookup_ids size w = Some ids /\ sequence (map (columns w) rows) = Some values /\ tb = Table values (Some ids)
  end.

Definition row_index (rows : list (list Q)) (offset : Z) (t : timestep) : Z := Z.min (Z.max (t_index t + offset) 0) (Z.of_nat (length rows) - 1).

Lemma table_value_sound : forall size w rows tb offset p t si i v, 1 <= size ->
  (forall w', w = Some w' -> NoDup w' /\ Forall (fun z => 0 <= z) w') -> made size w rows tb ->
  nth_error (indices si) p = Some (Z.of_nat i) -> rows <> [] ->
  table_value tb offset (Z.of_nat p) t si = Some v ->
  exists row, nth_error rows (Z.to_nat (row_index rows offset t)) = Some row /\ nth_error row i = Some v.
Proof.
  intros size w rows tb offset p t si i v Hsize Hw Hm Hi Hne E. unfold table_value in E. cbv zeta in E. rewrite at_z_nat, Hi in E. cbn [bindo] in E.
  destruct w as [w|].
  - destruct (Hw w eq_refl) as [Hd Hp]. destruct Hm as (ids & values & Hl & Hs & ->). cbn [t_ids t_values] in E.
    rewrite at_z_nat in E. unfold lookup_ids in Hl. destruct (fill_spec _ _ _ _ Hp Hd Hl) as (Hlen & Hb & Hin & Hout). rewrite repeat_length in *.
    pose proof (NoDup_bounded w (Z.to_nat size) Hd Hp Hb) as Hwl.
    assert (Hvl : length values = length rows) by (apply sequence_length in Hs; rewrite map_length in Hs; exact Hs).
    rewrite Hvl in E. change (Z.min (Z.max (t_index t + offset) 0) (Z.of_nat (length rows) - 1)) with (row_index rows offset t) in E.
    assert (Hri : 0 <= row_index rows offset t). { unfold row_index. destruct rows; [contradiction|]. cbn [length]. lia. }
    destruct (nth_error ids i) as [x|] eqn:Ex; cbn [bindo] in E; [|discriminate]. rewrite at_z_pos in E by exact Hri.
    rewrite (sequence_nth _ _ _ _ Hs) in E. destruct (nth_error rows (Z.to_nat (row_index rows offset t))) as [row|] eqn:Er; [|discriminate].
    destruct (columns w row) as [cols|] eqn:Ec; cbn [bindo] in E; [|discriminate]. exists row. split; [reflexivity|].
    assert (Hcl : length cols = length w) by (unfold columns in Ec; apply sequence_length in Ec; rewrite map_length in Ec; exact Ec).
    destruct (in_dec Z.eq_dec (Z.of_nat i) w) as [Hiw|Hiw].
    + apply In_nth_error in Hiw. destruct Hiw as (k & Ek). rewrite (Hin k i Ek) in Ex. inversion Ex; subst x. rewrite ?Z.add_0_l, at_z_nat in E.
      unfold columns in Ec. rewrite (sequence_nth _ _ _ _ Ec), Ek, at_z_nat in E. exact E.
    + rewrite (Hout i Hiw) in Ex. apply nth_error_In, repeat_spec in Ex. subst x. exfalso. unfold at_z in E. rewrite wrap_beyond in E by lia. discriminate.
  - cbn [made] in Hm. subst tb. cbn [t_ids t_values bindo] in E. change (Z.min (Z.max (t_index t + offset) 0) (Z.of_nat (length rows) - 1)) with (row_index rows offset t) in E.
    assert (Hri : 0 <= row_index rows offset t). { unfold row_index. destruct rows; [contradiction|]. cbn [length]. lia. }
    rewrite at_z_pos in E by exact Hri. destruct (nth_error rows (Z.to_nat (row_index rows offset t))) as [row|] eqn:Er; cbn [bindo] in E; [|discriminate].
    exists row. split; [reflexivity|]. rewrite at_z_nat in E. exact E.
Qed.

(** A value is returned for the members whose columns were loaded. *)
Lemma table_value_returns : forall size w rows tb offset p t si i, 1 <= size ->
  (forall w', w = Some w' -> NoDup w' /\ Forall (fun z => 0 <= z) w') -> made size w rows tb ->
  nth_error (indices si) p = Some (Z.of_nat i) -> rows <> [] -> Forall (fun row => (i < length row)%nat) rows ->
  (forall w', w = Some w' -> In (Z.of_nat i) w') ->
  exists v, table_value tb offset (Z.of_nat p) t si = Some v.
Proof.
  intros size w rows tb offset p t si i Hsize Hw Hm Hi Hne Hr Hin'. unfold table_value. cbv zeta. rewrite at_z_nat, Hi. cbn [bindo].
  assert (Hri : 0 <= row_index rows offset t < Z.of_nat (length rows)). { unfold row_index. destruct rows; [contradiction|]. cbn [length]. lia. }
  destruct (nth_ok rows (Z.to_nat (row_index rows offset t))) as [row Er]; [lia|].
  assert (Hrow : (i < length row)%nat). { rewrite Forall_forall in Hr. apply Hr. eapply nth_error_In; exact Er. }
  destruct (nth_ok row i Hrow) as [v Ev].
  destruct w as [w|].
  - destruct (Hw w eq_refl) as [Hd Hp]. destruct Hm as (ids & values & Hl & Hs & ->). cbn [t_ids t_values].
    rewrite at_z_nat. unfold lookup_ids in Hl. destruct (fill_spec _ _ _ _ Hp Hd Hl) as (Hlen & Hb & Hin & Hout).
    assert (Hvl : length values = length rows) by (apply sequence_length in Hs; rewrite map_length in Hs; exact Hs).
    rewrite Hvl. change (Z.min (Z.max (t_index t + offset) 0) (Z.of_nat (length rows) - 1)) with (row_index rows offset t).
    specialize (Hin' w eq_refl). apply In_nth_error in Hin'. destruct Hin' as (k & Ek). rewrite (Hin k i Ek). cbn [bindo].
    rewrite at_z_pos by lia. pose proof (sequence_nth _ _ _ (Z.to_nat (row_index rows offset t)) Hs) as Hv. rewrite Er in Hv.
    destruct (nth_ok values (Z.to_nat (row_index rows offset t))) as [cols Ec]; [lia|]. rewrite Ec in *. cbn [bindo]. symmetry in Hv.
    rewrite ?Z.add_0_l, at_z_nat. unfold columns in Hv. rewrite (sequence_nth _ _ _ _ Hv), Ek, at_z_nat. eauto.
  - cbn [made] in Hm. subst tb. cbn [t_ids t_values bindo]. change (Z.min (Z.max (t_index t + offset) 0) (Z.of_nat (length rows) - 1)) with (row_index rows offset t).
    rewrite at_z_pos by lia. rewrite Er. cbn [bindo]. rewrite at_z_nat. eauto.
Qed.

Lemma setup_dataframe_made : forall c p sc frame tb, setup_dataframe c p sc frame = Some tb ->
  exists w, wanted c p sc = Some w /\ made (sc_size sc) w frame tb.
Proof.
  intros c p sc frame tb E. unfold setup_dataframe in E. destruct (_ && _); [discriminate|]. destruct (wanted c p sc) as [[w|]|] eqn:Ew; [| |discriminate].
  - destruct (lookup_ids (sc_size sc) w) as [ids|] eqn:E1; [|discriminate]. destruct (sequence _) as [values|] eqn:E2; [|discriminate]. inversion E; subst.
    exists (Some w). split; [reflexivity|]. exists ids, values. auto.
  - inversion E; subst. exists None. split; reflexivity.
Qed.
Lemma setup_tables_made : forall c p sc steps node tb, setup_tables c p sc steps node = Some tb ->
  (steps <= length node)%nat /\ sc_size sc <= width node /\ exists w, wanted c p sc = Some w /\ made (sc_size sc) w (match w with Some _ => firstn steps node | None => node end) tb.
Proof.
  intros c p sc steps node tb E. unfold setup_tables in E. destruct (Z.ltb_spec (width node) (sc_size sc)); [discriminate|]. cbn [orb] in E.
  destruct (Nat.ltb_spec (length node) steps); [discriminate|]. split; [assumption|]. split; [assumption|].
  destruct (wanted c p sc) as [[w|]|] eqn:Ew; [| |discriminate].
  - destruct (lookup_ids (sc_size sc) w) as [ids|] eqn:E1; [|discriminate]. destruct (sequence _) as [values|] eqn:E2; [|discriminate]. inversion E; subst.
    exists (Some w). split; [reflexivity|]. exists ids, values. auto.
  - inversion E; subst. exists None. split; reflexivity.
Qed.

(** ** When everything wanted is loaded *)
(** A slice that [indices] reads alike with its own stop and with the size. *)
Definition plain_slice (size : Z) (sl : pyslice) : Prop :=
  (exists stop, sl_stop sl = Some stop /\ 0 <= stop <= size) /\
  match sl_start sl with Some a => 0 <= a | None => True end /\
  match sl_step sl with Some k => 0 < k | None => True end.

Lemma plain_slice_in : forall size sl l a b k x, 1 <= size -> plain_slice size sl -> scenario_range (Scenario size (Some sl)) = Some l ->
  forall stop, sl_stop sl = Some stop -> slice_indices sl stop = Some (a, b, k) -> In x l -> In x (pyrange a b k).
Proof.
  intros size sl l a b k x Hs ((stop0 & Est & Hst) & Ha & Hk) Hr stop Es Ei Hx. rewrite Est in Es. inversion Es; subst stop0. clear Es.
  unfold scenario_range in Hr. cbn [sc_slice sc_size] in Hr. unfold slice_indices in Hr, Ei. rewrite Est in Hr, Ei.
  set (st := match sl_step sl with None => 1 | Some k => k end) in *. assert (Hst' : 0 < st) by (unfold st; destruct (sl_step sl); lia).
  destruct (Z.eqb_spec st 0); [lia|]. destruct (Z.ltb_spec st 0); [lia|]. destruct (Z.ltb_spec stop 0); [lia|].
  injection Hr as <-. injection Ei as <- <- <-. apply in_pyrange in Hx; [|lia]. apply in_pyrange; [lia|]. destruct Hx as (i & Hi & Ex & Hlt).
  destruct (Z.ltb_spec 0 st); [|lia]. exists i. split; [exact Hi|].
  destruct (sl_start sl) as [s|]; [destruct (Z.ltb_spec s 0); [lia|]|].
  - split; [|lia]. rewrite Z.min_l in Ex by nia. rewrite Z.min_l by nia. exact Ex.
  - split; [exact Ex|lia].
Qed.

Lemma fill_total : forall w n ids, Forall (fun z => 0 <= z < Z.of_nat (length ids)) w -> exists ids', fill n w ids = Some ids'.
Proof.
  induction w as [|z w IH]; intros n ids H; cbn [fill]; [eauto|]. pose proof (Forall_inv H) as Hz. cbv beta in Hz.
  replace z with (Z.of_nat (Z.to_nat z)) by lia. rewrite wrap_nat by lia. apply IH. rewrite upd_length. exact (Forall_inv_tail H).
Qed.
Lemma sequence_total : forall {A B} (f : A -> option B) l, Forall (fun a => exists b, f a = Some b) l -> exists m, sequence (map f l) = Some m.
Proof.
  intros A B f l H. induction H as [|a l (b & E) H (m & IH)]; cbn [map sequence]; [eauto|]. rewrite E, IH. eauto.
Qed.
Lemma columns_total : forall w row, Forall (fun z => 0 <= z < Z.of_nat (length row)) w -> exists c, columns w row = Some c.
Proof.
  intros w row H. unfold columns. apply sequence_total. eapply Forall_impl; [|exact H]. intros z Hz. cbv beta in *.
  rewrite at_z_pos by lia. apply nth_ok. lia.
Qed.

(** The combinations given by the user, if any, are those of the setter. *)
Definition checked (c : collection) : Prop := forall u r, user c = Some u -> In r u -> valid_row (scenarios c) r.

(** The scenario is not sliced, or plainly, or the user gave the combinations. *)
Definition loadable (c : collection) (sc : scenario) : Prop :=
  user c <> None \/ match sc_slice sc with None => True | Some sl => plain_slice (sc_size sc) sl end.

Lemma wanted_total : forall c l p sc, wf_coll c -> checked c -> scenarios c <> [] -> get_combinations c = Some l ->
  nth_error (scenarios c) p = Some sc -> loadable c sc ->
  exists w, wanted c (Z.of_nat p) sc = Some w /\
    (forall w', w = Some w' -> Forall (fun z => 0 <= z < sc_size sc) w' /\
       forall si i, In si l -> nth_error (indices si) p = Some (Z.of_nat i) -> In (Z.of_nat i) w').
Proof.
  intros c l p sc Hw Hu Hne Hl Hsc Hload. unfold wanted.
  destruct (user c) as [[|u0 u]|] eqn:Eu.
  - exfalso. unfold get_combinations in Hl. rewrite Eu in Hl. destruct (scenarios c); [contradiction|]. discriminate.
  - assert (Hall : forall row, In row (u0 :: u) -> exists z, at_z row (Z.of_nat p) = Some z /\ 0 <= z < sc_size sc).
    { intros row Hrow. destruct (Forall2_nth_both _ _ _ _ _ (Hu _ _ Eu Hrow) Hsc) as (z & Ez & Hz). exists z. rewrite at_z_nat. auto. }
    destruct (sequence_total (fun row => at_z row (Z.of_nat p)) (u0 :: u)) as [m Em].
    { apply Forall_forall. intros row Hrow. destruct (Hall row Hrow) as (z & Ez & _). eauto. }
    rewrite Em. cbn [option_map]. eexists. split; [reflexivity|]. intros w' E. inversion E; subst w'. clear E. apply sequence_spec in Em. split.
    + apply Forall_forall. intros z Hz. apply (proj1 (in_sorted_set _ _)) in Hz.
      assert (Hin : In (Some z) (map (fun row => at_z row (Z.of_nat p)) (u0 :: u))) by (rewrite Em; apply in_map; exact Hz).
      apply in_map_iff in Hin. destruct Hin as (row & Erow & Hrow). destruct (Hall row Hrow) as (y & Ey & Hy). rewrite Erow in Ey. inversion Ey; subst. exact Hy.
    + intros si i Hsi Hi. apply in_sorted_set.
      assert (Hin : In (indices si) (u0 :: u)).
      { unfold get_combinations in Hl. rewrite Eu in Hl. destruct (scenarios c); [contradiction|].
        assert (l = enumerate_si (u0 :: u)) as -> by (destruct (enumerate_si (u0 :: u)); [discriminate|now injection Hl]).
        rewrite <- (enumerate_indices (u0 :: u)). apply in_map. exact Hsi. }
      assert (Hs : In (at_z (indices si) (Z.of_nat p)) (map Some m)) by (rewrite <- Em; apply in_map with (f := fun row => at_z row (Z.of_nat p)); exact Hin).
      rewrite at_z_nat, Hi in Hs. apply in_map_iff in Hs. destruct Hs as (y & Ey & Hy). inversion Ey; subst. exact Hy.
  - destruct Hload as [Hload|Hload]; [congruence|]. destruct (sc_slice sc) as [sl|] eqn:Esl; [|eexists; split; [reflexivity|discriminate]].
    assert (Hsz : 1 <= sc_size sc). { unfold wf_coll in Hw. rewrite Forall_forall in Hw. apply Hw. eapply nth_error_In; exact Hsc. }
    pose proof Hload as ((stop & Est & Hst) & Ha & Hk). rewrite Est. destruct (Z.ltb_spec stop 0); [lia|].
    destruct (slice_indices sl stop) as [[[a b] k]|] eqn:Ei.
    2: { exfalso. unfold slice_indices in Ei. destruct (Z.eqb_spec (match sl_step sl with None => 1 | Some k => k end) 0) as [Ez|]; [|discriminate].
         destruct (sl_step sl); lia. }
    eexists. split; [reflexivity|]. intros w' E. inversion E; subst w'. clear E. split.
    + apply Forall_forall. intros z Hz.
      assert (Hak : 0 <= a /\ b <= stop /\ 0 < k).
      { unfold slice_indices in Ei. rewrite Est in Ei. set (st := match sl_step sl with None => 1 | Some k => k end) in *.
        assert (0 < st) by (unfold st; destruct (sl_step sl); lia). destruct (Z.eqb_spec st 0); [lia|]. destruct (Z.ltb_spec st 0); [lia|].
        destruct (Z.ltb_spec stop 0); [lia|]. injection Ei as <- <- <-. destruct (sl_start sl) as [s|]; [destruct (Z.ltb_spec s 0)|]; lia. }
      destruct Hak as (H1 & H2 & H3). apply in_pyrange in Hz; [|lia]. destruct Hz as (i & Hi & -> & Hlt). destruct (Z.ltb_spec 0 k); nia.
    + intros si i Hsi Hi. destruct (combinations_spec c l Hw Hne Eu Hl) as (rs & Hrs & Hall & _).
      assert (Hin : Forall2 (@In Z) (indices si) rs) by (apply Hall; apply in_map; exact Hsi).
      assert (Hr : exists r, nth_error rs p = Some r /\ scenario_range sc = Some r).
      { clear - Hrs Hsc. revert p Hsc. induction Hrs as [|x y l m Hxy H IH]; intros [|p] E; cbn in *; try discriminate; [inversion E; subst; eauto|eauto]. }
      destruct Hr as (r & Er & Hr). destruct (Forall2_nth_both _ _ _ _ _ Hin Er) as (z & Ez & Hz). rewrite Hi in Ez. inversion Ez; subst z.
      destruct sc as [size sls]. cbn [sc_slice sc_size] in *. subst sls. eapply plain_slice_in; eauto.
Qed.

(** Set up with data as wide as the scenario, every member gets its own column. *)
Lemma setup_dataframe_total : forall c l p sc frame, wf_coll c -> checked c -> scenarios c <> [] -> get_combinations c = Some l ->
  nth_error (scenarios c) p = Some sc -> loadable c sc -> rectangular frame -> width frame = sc_size sc ->
  exists tb, setup_dataframe c (Z.of_nat p) sc frame = Some tb.
Proof.
  intros c l p sc frame Hw Hu Hne Hl Hsc Hload Hr Hwd. destruct (wanted_total c l p sc) as (w & Ew & Hall); auto. unfold setup_dataframe.
  rewrite Hwd, Z.eqb_refl. cbn [negb]. rewrite andb_false_r, Ew. destruct w as [w|]; [|eauto]. destruct (Hall w eq_refl) as [Hb _].
  assert (Hsz : 1 <= sc_size sc). { unfold wf_coll in Hw. rewrite Forall_forall in Hw. apply Hw. eapply nth_error_In; exact Hsc. }
  destruct (fill_total w 0 (repeat (sc_size sc) (Z.to_nat (sc_size sc)))) as [ids Ei].
  { rewrite repeat_length. eapply Forall_impl; [|exact Hb]. intros z Hz. cbv beta in *. lia. }
  unfold lookup_ids. rewrite Ei. destruct (sequence_total (columns w) frame) as [vs Ev]; [|rewrite Ev; eauto].
  eapply Forall_impl; [|exact Hr]. intros row Hrow. cbv beta in *. apply columns_total. eapply Forall_impl; [|exact Hb]. intros z Hz. cbv beta in *. lia.
Qed.
Lemma setup_tables_total : forall c l p sc steps node, wf_coll c -> checked c -> scenarios c <> [] -> get_combinations c = Some l ->
  nth_error (scenarios c) p = Some sc -> loadable c sc -> rectangular node -> sc_size sc <= width node -> (steps <= length node)%nat ->
  exists tb, setup_tables c (Z.of_nat p) sc steps node = Some tb.
Proof.
  intros c l p sc steps node Hw Hu Hne Hl Hsc Hload Hr Hwd Hst. destruct (wanted_total c l p sc) as (w & Ew & Hall); auto. unfold setup_tables.
  destruct (Z.ltb_spec (width node) (sc_size sc)); [lia|]. destruct (Nat.ltb_spec (length node) steps); [lia|]. cbn [orb]. rewrite Ew.
  destruct w as [w|]; [|eauto]. destruct (Hall w eq_refl) as [Hb _].
  assert (Hsz : 1 <= sc_size sc). { unfold wf_coll in Hw. rewrite Forall_forall in Hw. apply Hw. eapply nth_error_In; exact Hsc. }
  destruct (fill_total w 0 (repeat (sc_size sc) (Z.to_nat (sc_size sc)))) as [ids Ei].
  { rewrite repeat_length. eapply Forall_impl; [|exact Hb]. intros z Hz. cbv beta in *. lia. }
  unfold lookup_ids. rewrite Ei. destruct (sequence_total (columns w) (firstn steps node)) as [vs Ev]; [|rewrite Ev; eauto].
  apply Forall_forall. intros row Hin. assert (In row node) by (rewrite <- (firstn_skipn steps node); apply in_or_app; left; exact Hin).
  pose proof (proj1 (Forall_forall _ _) Hr row H1) as Hrow. cbv beta in Hrow. apply columns_total. eapply Forall_impl; [|exact Hb]. intros z Hz. cbv beta in *. lia.
Qed.
Lemma firstn_nth_error : forall {A} (l : list A) n k, (k < n)%nat -> nth_error (firstn n l) k = nth_error l k.
Proof. intros A l; induction l as [|a r IH]; intros [|n] [|k] H; cbn; try lia; try reflexivity. apply IH. lia. Qed.
