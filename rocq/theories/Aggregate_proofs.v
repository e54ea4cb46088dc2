(** Lemmas on aggregated parameters. *)
From Verif Require Import Base LP_model Sorting Aggregate_model Aggregate_spec.
Local Open Scope Q_scope.

Lemma accumulate_length {A V} (op : A -> V -> A) : forall acc vs, length (accumulate op acc vs) = length acc.
Proof. induction acc as [|a r IH]; intros [|v w]; cbn; auto. Qed.

Lemma accumulate_nth {A V} (op : A -> V -> A) da dv : forall acc vs i, (i < length acc)%nat -> (i < length vs)%nat ->
  nth i (accumulate op acc vs) da = op (nth i acc da) (nth i vs dv).
Proof.
  induction acc as [|a r IH]; intros [|v w] i H1 H2; cbn in *; try lia.
  destruct i as [|i]; [reflexivity|]. apply IH; lia.
Qed.

Lemma over_members_gen {A V} (op : A -> V -> A) da dv n i : (i < n)%nat -> forall members acc,
  length acc = n -> (forall vs, In vs members -> length vs = n) ->
  length (fold_left (accumulate op) members acc) = n /\
  nth i (fold_left (accumulate op) members acc) da = fold_left op (map (fun vs => nth i vs dv) members) (nth i acc da).
Proof.
  intros Hi. induction members as [|vs r IH]; intros acc Hl Hm; cbn [fold_left map]; [auto|].
  destruct (IH (accumulate op acc vs)) as [I1 I2].
  - now rewrite accumulate_length.
  - intros w Hw. apply Hm. now right.
  - split; [exact I1|]. rewrite I2. f_equal. apply accumulate_nth; [lia|]. rewrite (Hm vs); [exact Hi|now left].
Qed.

Lemma over_members_nth {A V} (op : A -> V -> A) start dv n members i :
  (i < n)%nat -> (forall vs, In vs members -> length vs = n) ->
  nth_error (over_members op start n members) i = Some (fold_left op (map (fun vs => nth i vs dv) members) start).
Proof.
  intros Hi Hm. unfold over_members.
  destruct (over_members_gen op start dv n i Hi members (repeat start n)) as [L E]; [apply repeat_length|exact Hm|].
  rewrite (nth_error_nth' _ start) by lia. rewrite E. do 2 f_equal.
  clear. revert i. induction n; intros [|i]; cbn; auto.
Qed.

Lemma fold_sum l : forall z, fold_left Qplus l z == z + qsum l.
Proof. induction l as [|x l IH]; intros z; cbn; [ring|]. rewrite IH. ring. Qed.
Lemma fold_prod l : forall z, fold_left Qmult l z == z * qprod l.
Proof. induction l as [|x l IH]; intros z; cbn; [ring|]. rewrite IH. ring. Qed.
Lemma fold_zsum l : forall z, fold_left Z.add l z = (z + zsum l)%Z.
Proof. induction l as [|x l IH]; intros z; cbn; [lia|]. rewrite IH. lia. Qed.
Lemma fold_zprod l : forall z, fold_left Z.mul l z = (z * zprod l)%Z.
Proof. induction l as [|x l IH]; intros z; cbn; [lia|]. rewrite IH. lia. Qed.

Lemma fold_max l : forall q, exists m, fold_left max_step l (Fin q) = Fin m /\ (m = q \/ In m l) /\ q <= m /\ forall x, In x l -> x <= m.
Proof.
  induction l as [|x l IH]; intros q.
  - exists q. split; [reflexivity|]. split; [now left|]. split; [lra|intros y []].
  - cbn [fold_left]. assert (max_step (Fin q) x = Fin (if qltb q x then x else q)) as -> by (cbn; destruct (qltb q x); reflexivity).
    destruct (IH (if qltb q x then x else q)) as [m [E [Hm [Hq Hx]]]]. exists m. split; [exact E|].
    destruct (qltbP q x) as [L|L]; (split; [destruct Hm as [->|Hm]; [cbn; auto|right; now right]|]); (split; [lra|]);
      intros y [<-|Hy]; try (now apply Hx); lra.
Qed.
Lemma fold_min l : forall q, exists m, fold_left min_step l (Fin q) = Fin m /\ (m = q \/ In m l) /\ m <= q /\ forall x, In x l -> m <= x.
Proof.
  induction l as [|x l IH]; intros q.
  - exists q. split; [reflexivity|]. split; [now left|]. split; [lra|intros y []].
  - cbn [fold_left]. assert (min_step (Fin q) x = Fin (if qltb x q then x else q)) as -> by (cbn; destruct (qltb x q); reflexivity).
    destruct (IH (if qltb x q then x else q)) as [m [E [Hm [Hq Hx]]]]. exists m. split; [exact E|].
    destruct (qltbP x q) as [L|L]; (split; [destruct Hm as [->|Hm]; [cbn; auto|right; now right]|]); (split; [lra|]);
      intros y [<-|Hy]; try (now apply Hx); lra.
Qed.
Lemma fold_max_ne l : l <> [] -> exists m, fold_left max_step l NInf = Fin m /\ is_max l m.
Proof.
  destruct l as [|x l]; [easy|]. intros _. cbn [fold_left max_step]. destruct (fold_max l x) as [m [E [Hm [Hq Hx]]]].
  exists m. split; [exact E|]. split; [destruct Hm as [->|Hm]; [now left|now right]|]. intros y [<-|Hy]; [lra|auto].
Qed.
Lemma fold_min_ne l : l <> [] -> exists m, fold_left min_step l PInf = Fin m /\ is_min l m.
Proof.
  destruct l as [|x l]; [easy|]. intros _. cbn [fold_left min_step]. destruct (fold_min l x) as [m [E [Hm [Hq Hx]]]].
  exists m. split; [exact E|]. split; [destruct Hm as [->|Hm]; [now left|now right]|]. intros y [<-|Hy]; [lra|auto].
Qed.

Lemma fold_zmax l : forall q, let m := fold_left (fun a v => if (a <? v)%Z then v else a) l q in
  (m = q \/ In m l) /\ (q <= m)%Z /\ forall x, In x l -> (x <= m)%Z.
Proof.
  induction l as [|x l IH]; intros q; cbn [fold_left]; cbv zeta.
  - split; [now left|]. split; [lia|intros y []].
  - specialize (IH (if (q <? x)%Z then x else q)). cbv zeta in IH. destruct IH as [Hm [Hq Hx]].
    destruct (Z.ltb_spec q x) as [L|L]; (split; [destruct Hm as [E|Hm]; [rewrite E; cbn; auto|right; now right]|]); (split; [lia|]);
      intros y [<-|Hy]; try (now apply Hx); lia.
Qed.
Lemma fold_zmin l : forall q, let m := fold_left (fun a v => if (v <? a)%Z then v else a) l q in
  (m = q \/ In m l) /\ (m <= q)%Z /\ forall x, In x l -> (m <= x)%Z.
Proof.
  induction l as [|x l IH]; intros q; cbn [fold_left]; cbv zeta.
  - split; [now left|]. split; [lia|intros y []].
  - specialize (IH (if (x <? q)%Z then x else q)). cbv zeta in IH. destruct IH as [Hm [Hq Hx]].
    destruct (Z.ltb_spec x q) as [L|L]; (split; [destruct Hm as [E|Hm]; [rewrite E; cbn; auto|right; now right]|]); (split; [lia|]);
      intros y [<-|Hy]; try (now apply Hx); lia.
Qed.
Lemma fold_any l : forall q, fold_left (fun a v => if (v =? 0)%Z then a else 1%Z) l q =
  if existsb (fun v => negb (v =? 0)%Z) l then 1%Z else q.
Proof.
  induction l as [|x l IH]; intros q; cbn [fold_left existsb]; [reflexivity|]. rewrite IH.
  destruct (Z.eqb_spec x 0); cbn; [reflexivity|]. now destruct (existsb _ l).
Qed.
Lemma fold_all l : forall q, fold_left (fun a v => if (v =? 0)%Z then 0%Z else a) l q =
  if existsb (fun v => (v =? 0)%Z) l then 0%Z else q.
Proof.
  induction l as [|x l IH]; intros q; cbn [fold_left existsb]; [reflexivity|]. rewrite IH.
  destruct (Z.eqb_spec x 0); cbn; [now destruct (existsb _ l)|reflexivity].
Qed.

(** ** Ranks *)
Lemma countb_perm {A} (p : A -> bool) l m : Permutation l m -> countb p l = countb p m.
Proof.
  unfold countb. induction 1 as [|x l m _ IH|x y l|l m k _ IH1 _ IH2]; cbn; auto.
  - destruct (p x); cbn; auto.
  - destruct (p x), (p y); reflexivity.
  - congruence.
Qed.
Lemma has_rank_perm l m k v : Permutation l m -> has_rank l k v -> has_rank m k v.
Proof.
  intros P [H1 [H2 H3]]. split; [now apply (Permutation_in _ P)|].
  rewrite <- (countb_perm _ _ _ P), <- (countb_perm (fun x => qleb x v) _ _ P). auto.
Qed.
Lemma countb_le {A} (p q : A -> bool) l : (forall x, In x l -> p x = true -> q x = true) -> (countb p l <= countb q l)%nat.
Proof.
  unfold countb. induction l as [|x l IH]; intros H; cbn; [lia|].
  specialize (IH (fun y Hy => H y (or_intror Hy))). specialize (H x (or_introl eq_refl)).
  destruct (p x); [rewrite H by reflexivity; cbn; lia|destruct (q x); cbn; lia].
Qed.
Lemma has_rank_unique l k v w : has_rank l k v -> has_rank l k w -> v == w.
Proof.
  assert (forall v w, has_rank l k v -> has_rank l k w -> ~ v < w) as HH.
  { intros a b [_ [_ A]] [_ [B _]] L. assert (countb (fun x => qleb x a) l <= countb (fun x => qltb x b) l)%nat; [|lia].
    apply countb_le. intros x _ Hx. destruct (qlebP x a); [|discriminate]. destruct (qltbP x b); [reflexivity|lra]. }
  intros A B. pose proof (HH v w A B). pose proof (HH w v B A). lra.
Qed.

Lemma countb_all {A} (p : A -> bool) l : (forall x, In x l -> p x = true) -> countb p l = length l.
Proof. unfold countb. induction l as [|x l IH]; intros H; cbn; [reflexivity|]. rewrite (H x) by now left. cbn. f_equal. apply IH. intros y Hy. apply H. now right. Qed.
Lemma countb_none {A} (p : A -> bool) l : (forall x, In x l -> p x = false) -> countb p l = 0%nat.
Proof. unfold countb. induction l as [|x l IH]; intros H; cbn; [reflexivity|]. rewrite (H x) by now left. apply IH. intros y Hy. apply H. now right. Qed.
Lemma countb_app {A} (p : A -> bool) l m : countb p (l ++ m) = (countb p l + countb p m)%nat.
Proof. unfold countb. now rewrite filter_app, app_length. Qed.

Lemma countb_bound {A} (p : A -> bool) l : (countb p l <= length l)%nat.
Proof. unfold countb. induction l as [|x l IH]; cbn; [lia|]. destruct (p x); cbn; lia. Qed.

Lemma sorted_rank s k : StronglySorted (fun a b => qleb a b = true) s -> (k < length s)%nat -> has_rank s k (nth k s 0).
Proof.
  intros Hs Hk. split; [now apply nth_In|].
  assert (s = firstn k s ++ nth k s 0 :: skipn (S k) s) as E.
  { rewrite <- (firstn_skipn k s) at 1. f_equal. clear Hs.
    revert k Hk. induction s as [|a s IH]; intros [|k] Hk; cbn in *; try lia; auto. apply IH. lia. }
  assert (length (firstn k s) = k) as Lk by (rewrite firstn_length; lia).
  set (v := nth k s 0) in *. clearbody v.
  assert (forall x, In x (firstn k s) -> x <= v) as H1.
  { intros x Hx. rewrite E in Hs. clear E Hk Lk. induction (firstn k s) as [|a r IH]; [contradiction|].
    cbn in Hs. inversion Hs as [|? ? Hs' Hf]; subst. destruct Hx as [->|Hx]; [|now apply IH].
    rewrite Forall_forall in Hf. specialize (Hf v ltac:(apply in_or_app; right; now left)). destruct (qlebP x v); [assumption|discriminate]. }
  assert (forall x, In x (skipn (S k) s) -> v <= x) as H2.
  { intros x Hx. rewrite E in Hs. clear E Hk Lk H1. induction (firstn k s) as [|a r IH].
    - cbn in Hs. inversion Hs as [|? ? Hs' Hf]; subst. rewrite Forall_forall in Hf. specialize (Hf x Hx). destruct (qlebP v x); [assumption|discriminate].
    - cbn in Hs. inversion Hs; subst. now apply IH. }
  rewrite E, !countb_app. unfold countb at 2 4. cbn [filter].
  destruct (qltbP v v) as [L|_]; [lra|]. destruct (qlebP v v) as [_|L]; [|exfalso; apply L; lra].
  change (length (filter (fun x => qltb x v) (skipn (S k) s))) with (countb (fun x => qltb x v) (skipn (S k) s)).
  rewrite (countb_none _ (skipn (S k) s)) by (intros x Hx; specialize (H2 x Hx); destruct (qltbP x v); [lra|reflexivity]).
  rewrite (countb_all (fun x => qleb x v) (firstn k s)) by (intros x Hx; specialize (H1 x Hx); destruct (qlebP x v); [reflexivity|contradiction]).
  assert (countb (fun x => qltb x v) (firstn k s) <= length (firstn k s))%nat by apply countb_bound.
  cbn [length]. lia.
Qed.

Lemma qleb_total x y : qleb x y = true \/ qleb y x = true.
Proof. destruct (qlebP x y); [now left|]. destruct (qlebP y x); [now right|lra]. Qed.
Lemma qleb_trans x y z : qleb x y = true -> qleb y z = true -> qleb x z = true.
Proof. destruct (qlebP x y), (qlebP y z), (qlebP x z); auto; try discriminate. lra. Qed.

Lemma half_odd n : Nat.odd n = true -> ((n - 1) / 2 = n / 2)%nat.
Proof. intros H. apply Nat.odd_spec in H as [k ->]. rewrite Nat.add_sub. rewrite Nat.mul_comm, Nat.div_mul by lia.
  rewrite Nat.div_add_l by lia. cbn. lia. Qed.
Lemma half_even n : (0 < n)%nat -> Nat.odd n = false -> ((n - 1) / 2 = n / 2 - 1 /\ 1 <= n / 2)%nat.
Proof.
  intros H0 H. rewrite <- Nat.negb_even in H. apply negb_false_iff in H. apply Nat.even_spec in H as [k ->].
  replace (2 * k)%nat with (k * 2)%nat by lia. rewrite Nat.div_mul by lia.
  replace (k * 2 - 1)%nat with ((k - 1) * 2 + 1)%nat by lia. rewrite Nat.div_add_l by lia. cbn. lia.
Qed.

Lemma np_median_spec l : l <> [] -> is_median l (np_median l).
Proof.
  intros Hl. unfold np_median. set (s := isort qleb l).
  assert (Permutation s l) as P by (symmetry; apply isort_perm).
  assert (StronglySorted (fun a b => qleb a b = true) s) as Hs by (apply isort_sorted; [exact qleb_total|exact qleb_trans]).
  clearbody s. pose proof (Permutation_length P) as L. cbv zeta.
  assert (0 < length s)%nat as H0 by (rewrite L; destruct l; [easy|cbn; lia]).
  assert (forall k, (k < length s)%nat -> has_rank l k (nth k s 0)) as R.
  { intros k Hk. apply (has_rank_perm s l k _ P). now apply sorted_rank. }
  unfold is_median. rewrite <- L. assert (length s / 2 < length s)%nat as H2 by (apply Nat.div_lt; lia).
  destruct (Nat.odd (length s)) eqn:O.
  - exists (nth (length s / 2) s 0), (nth (length s / 2) s 0). rewrite (half_odd _ O).
    split; [now apply R|]. split; [now apply R|reflexivity].
  - destruct (half_even _ H0 O) as [E1 E2]. exists (nth (length s / 2 - 1) s 0), (nth (length s / 2) s 0). rewrite E1.
    split; [apply R; lia|]. split; [now apply R|]. field.
Qed.

Lemma length_nonzero {A} (l : list A) : l <> [] -> ~ inject_Z (Z.of_nat (length l)) == 0.
Proof. intros H E. destruct l as [|x l]; [now apply H|]. unfold Qeq in E. unfold inject_Z in E. cbn [Qnum Qden length] in E. lia. Qed.

(** ** All together *)
Definition supported (f : agg_func) : bool := match f with ASum | AMin | AMax | AMean | AProduct | AMedian => true | _ => false end.
Definition index_supported (f : agg_func) : bool := match f with ASum | AMin | AMax | AProduct | AAny | AAll => true | _ => false end.

Lemma aggregate_spec user f n members : supported f = true -> members <> [] -> (forall vs, In vs members -> length vs = n) ->
  exists out, aggregate user f n members = Some out /\
  forall i, (i < n)%nat -> exists v, nth_error out i = Some (Fin v) /\ is_aggregate f (column i members) v.
Proof.
  intros Hf Hne Hm.
  assert (forall i, column i members <> []) as Hc by (intros i; unfold column; destruct members; [easy|discriminate]).
  destruct f; try discriminate; cbn [aggregate]; eexists; (split; [reflexivity|]); intros i Hi.
  - rewrite nth_error_map, (over_members_nth Qplus 0 0 n members i Hi Hm). cbn [option_map]. eexists; split; [reflexivity|].
    cbn [is_aggregate]. rewrite fold_sum. unfold column. ring.
  - rewrite (over_members_nth min_step PInf 0 n members i Hi Hm). destruct (fold_min_ne (column i members) (Hc i)) as [m [E M]].
    exists m. split; [f_equal; exact E|exact M].
  - rewrite (over_members_nth max_step NInf 0 n members i Hi Hm). destruct (fold_max_ne (column i members) (Hc i)) as [m [E M]].
    exists m. split; [f_equal; exact E|exact M].
  - rewrite nth_error_map, (over_members_nth Qplus 0 0 n members i Hi Hm). cbn [option_map]. eexists; split; [reflexivity|].
    cbn [is_aggregate]. unfold is_mean. rewrite fold_sum. unfold column. rewrite map_length. field.
    now apply length_nonzero.
  - rewrite nth_error_map, (over_members_nth Qmult 1 0 n members i Hi Hm). cbn [option_map]. eexists; split; [reflexivity|].
    cbn [is_aggregate]. rewrite fold_prod. unfold column. ring.
  - rewrite nth_error_seq_map by exact Hi. eexists; split; [reflexivity|]. cbn [is_aggregate]. now apply np_median_spec.
Qed.

Lemma aggregate_index_spec user f n members : index_supported f = true -> members <> [] ->
  (forall vs, In vs members -> length vs = n) ->
  (forall vs v, In vs members -> In v vs -> (int_min <= v <= int_max)%Z) ->
  exists out, aggregate_index user f n members = Some out /\
  forall i, (i < n)%nat -> exists v, nth_error out i = Some v /\ is_index_aggregate f (zcolumn i members) v.
Proof.
  intros Hf Hne Hm Hr.
  assert (forall i, exists x r, zcolumn i members = x :: r) as Hc by (intros i; unfold zcolumn; destruct members as [|a m]; [easy|]; eexists; eexists; reflexivity).
  assert (forall i x, (i < n)%nat -> In x (zcolumn i members) -> (int_min <= x <= int_max)%Z) as Hx.
  { intros i x Hi Hx. unfold zcolumn in Hx. apply in_map_iff in Hx as [vs [<- Hv]]. apply (Hr vs _ Hv). apply nth_In. now rewrite (Hm vs Hv). }
  destruct f; try discriminate; cbn [aggregate_index]; eexists; (split; [reflexivity|]); intros i Hi; eexists;
    (split; [rewrite (over_members_nth _ _ 0%Z n members i Hi Hm); reflexivity|]); fold (zcolumn i members); cbn [is_index_aggregate];
    specialize (Hx i); destruct (Hc i) as [x [r E]].
  - rewrite fold_zsum. lia.
  - destruct (fold_zmin (zcolumn i members) int_max) as [M [H1 H2]]. cbv zeta in *. split; [|exact H2].
    destruct M as [M|M]; [|exact M]. rewrite M. rewrite E in *. specialize (H2 x (or_introl eq_refl)). specialize (Hx x Hi (or_introl eq_refl)).
    left. rewrite M in H2. lia.
  - destruct (fold_zmax (zcolumn i members) int_min) as [M [H1 H2]]. cbv zeta in *. split; [|exact H2].
    destruct M as [M|M]; [|exact M]. rewrite M. rewrite E in *. specialize (H2 x (or_introl eq_refl)). specialize (Hx x Hi (or_introl eq_refl)).
    left. rewrite M in H2. lia.
  - rewrite fold_zprod. lia.
  - rewrite fold_any. clear. destruct (existsb (fun v => negb (v =? 0)%Z) (zcolumn i members)) eqn:X.
    + left. split; [reflexivity|]. apply existsb_exists in X as [y [Hy Y]]. exists y. split; [exact Hy|]. lia.
    + right. split; [reflexivity|]. intros y Hy. destruct (Z.eq_dec y 0) as [|N]; [assumption|exfalso].
      assert (existsb (fun v => negb (v =? 0)%Z) (zcolumn i members) = true); [|congruence].
      apply existsb_exists. exists y. split; [exact Hy|]. lia.
  - rewrite fold_all. clear. destruct (existsb (fun v => (v =? 0)%Z) (zcolumn i members)) eqn:X.
    + right. split; [reflexivity|]. apply existsb_exists in X as [y [Hy Y]]. exists y. split; [exact Hy|]. lia.
    + left. split; [reflexivity|]. intros y Hy N.
      assert (existsb (fun v => (v =? 0)%Z) (zcolumn i members) = true); [|congruence].
      apply existsb_exists. exists y. split; [exact Hy|]. lia.
Qed.

Lemma qprod_perm l m : Permutation l m -> qprod l == qprod m.
Proof.
  induction 1 as [|x l m _ IH|x y l|l m k _ IH1 _ IH2]; cbn; [reflexivity|now rewrite IH|ring|now rewrite IH1].
Qed.

Lemma aggregate_determined f l m v w : Permutation l m -> l <> [] -> supported f = true ->
  is_aggregate f l v -> is_aggregate f m w -> v == w.
Proof.
  intros P Hl Hf. destruct f; try discriminate; cbn [is_aggregate].
  - intros -> ->. now apply qsum_Permutation.
  - intros [A1 A2] [B1 B2]. pose proof (A2 w (Permutation_in _ (Permutation_sym P) B1)). pose proof (B2 v (Permutation_in _ P A1)). lra.
  - intros [A1 A2] [B1 B2]. pose proof (A2 w (Permutation_in _ (Permutation_sym P) B1)). pose proof (B2 v (Permutation_in _ P A1)). lra.
  - unfold is_mean. rewrite (Permutation_length P). intros A B. apply (Qmult_inj_r _ _ (inject_Z (Z.of_nat (length m)))).
    + rewrite <- (Permutation_length P). now apply length_nonzero.
    + rewrite A, B. now apply qsum_Permutation.
  - intros -> ->. now apply qprod_perm.
  - intros [a [b [A1 [A2 A3]]]] [c [d [B1 [B2 B3]]]]. rewrite (Permutation_length P) in *.
    pose proof (has_rank_unique m _ a c (has_rank_perm _ _ _ _ P A1) B1).
    pose proof (has_rank_unique m _ b d (has_rank_perm _ _ _ _ P A2) B2). lra.
Qed.

Lemma zsum_perm l m : Permutation l m -> zsum l = zsum m.
Proof. induction 1; cbn; lia. Qed.
Lemma zprod_perm l m : Permutation l m -> zprod l = zprod m.
Proof. induction 1; cbn; lia. Qed.
Lemma index_aggregate_determined f l m v w : Permutation l m ->
  is_index_aggregate f l v -> is_index_aggregate f m w -> v = w.
Proof.
  intros P. assert (forall x, In x l <-> In x m) as I by (intros x; split; apply Permutation_in; [|symmetry]; exact P).
  destruct f; cbn [is_index_aggregate]; try contradiction.
  - intros -> ->. now apply zsum_perm.
  - intros [A1 A2] [B1 B2]. apply I in A1, B1. pose proof (A2 w (proj2 (I w) (proj1 (I w) B1))). pose proof (B2 v A1). lia.
  - intros [A1 A2] [B1 B2]. apply I in A1, B1. pose proof (A2 w (proj2 (I w) (proj1 (I w) B1))). pose proof (B2 v A1). lia.
  - intros -> ->. now apply zprod_perm.
  - intros [[-> [x [X1 X2]]]|[-> X]] [[-> [y [Y1 Y2]]]|[-> Y]]; try reflexivity; exfalso.
    + apply X2, Y. now apply I.
    + apply Y2, X. now apply I.
  - intros [[-> X]|[-> [x [X1 X2]]]] [[-> Y]|[-> [y [Y1 Y2]]]]; try reflexivity; exfalso.
    + apply (X y); [now apply I|exact Y2].
    + apply (Y x); [now apply I|exact X2].
Qed.
