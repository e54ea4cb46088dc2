From Verif Require Import Base Ring LP_model Storage_model Periodic_model Nodes_model Nodes_spec.
Local Open Scope nat_scope.
Local Open Scope list_scope.
Local Open Scope Q_scope.

Lemma get_upd st n s m : (n < length st)%nat -> get (upd st n s) m = if Nat.eqb m n then s else get st m.
Proof. intros H. unfold get. now apply nth_upd. Qed.
Lemma upd_out {A} (l : list A) : forall n v, (length l <= n)%nat -> upd l n v = l.
Proof. induction l as [|a l IH]; intros [|n] v H; cbn in *; auto; try lia. f_equal. apply IH. lia. Qed.
Lemma get_upd_other st n s m : m <> n -> get (upd st n s) m = get st m.
Proof.
  intros H. destruct (Nat.lt_ge_cases n (length st)) as [L|L].
  - rewrite get_upd by lia. destruct (Nat.eqb_spec m n); congruence.
  - now rewrite upd_out.
Qed.
Lemma get_upd_same st n s : (n < length st)%nat -> get (upd st n s) n = s.
Proof. intros H. rewrite get_upd by lia. now rewrite Nat.eqb_refl. Qed.
Lemma state_ext a b : length a = length b -> (forall n, (n < length a)%nat -> get a n = get b n) -> a = b.
Proof. intros H E. apply (nth_ext a b blank blank H). exact E. Qed.

(** ** A method of all nodes *)
Lemma in_turn_length f g : forall k st, length (in_turn f g k st) = length st.
Proof. induction g as [|d r IH]; intros k st; cbn; [easy|]. now rewrite IH, upd_length. Qed.

Lemma in_turn_low f g : forall k st m, (m < k)%nat -> get (in_turn f g k st) m = get st m.
Proof. induction g as [|d r IH]; intros k st m H; cbn [in_turn]; [easy|]. rewrite IH by lia. apply get_upd_other. lia. Qed.

Lemma in_turn_get f g : forall k st j d, nth_error g j = Some d -> (k + j < length st)%nat ->
  exists st1, get (in_turn f g k st) (k + j) = f (k + j)%nat (n_class d) st1 /\ length st1 = length st
    /\ (forall m, (k + j <= m)%nat -> get st1 m = get st m)
    /\ (forall m, (m < k + j)%nat -> get st1 m = get (in_turn f g k st) m).
Proof.
  induction g as [|d r IH]; intros k st [|j] e H L; try discriminate.
  - cbn in H. injection H as <-. exists st. cbn [in_turn]. rewrite Nat.add_0_r in *. split; [|split; [easy|split; [easy|]]].
    + rewrite in_turn_low by lia. now rewrite get_upd_same.
    + intros m Hm. rewrite in_turn_low by lia. symmetry. apply get_upd_other. lia.
  - cbn [in_turn]. cbn in H. destruct (IH (S k) (upd st k (f k (n_class d) st)) j e H) as [st1 [A [B [C D]]]].
    { rewrite upd_length. lia. }
    rewrite <- Nat.add_succ_comm. exists st1. split; [exact A|]. split; [now rewrite B, upd_length|].
    split; [|exact D]. intros m Hm. rewrite C by lia. apply get_upd_other. lia.
Qed.

Lemma all_get f g st n d : nth_error g n = Some d -> length st = length g ->
  exists st1, get (in_turn f g 0 st) n = f n (n_class d) st1 /\ length st1 = length st
    /\ (forall m, (n <= m)%nat -> get st1 m = get st m) /\ (forall m, (m < n)%nat -> get st1 m = get (in_turn f g 0 st) m).
Proof. intros H L. assert (n < length g)%nat by (apply nth_error_Some; congruence). apply (in_turn_get f g 0 st n d H). lia. Qed.

(** ** before *)
Lemma before_length g b t st : length (before_all g b t st) = length st.
Proof. apply in_turn_length. Qed.
Lemma before_get g b t st n d : nth_error g n = Some d -> length st = length g ->
  get (before_all g b t st) n = before_node (n_class d) n b t (get st n).
Proof.
  intros H L. unfold before_all. destruct (all_get (fun n c st => before_node c n b t (get st n)) g st n d H L) as [st1 [A [_ [C _]]]].
  rewrite A, C by lia. easy.
Qed.

Lemma put_volume_flow s r : flow (put_volume s r) = flow s.
Proof. now destruct r as [[v p]|]. Qed.
Lemma put_volume_prev s r : prev (put_volume s r) = prev s.
Proof. now destruct r as [[v p]|]. Qed.
Lemma put_volume_season s r : season (put_volume s r) = season s.
Proof. now destruct r as [[v p]|]. Qed.
Lemma put_volume_rest s r : mem (put_volume s r) = mem s /\ ptr (put_volume s r) = ptr s /\ monthcount (put_volume s r) = monthcount s.
Proof. now destruct r as [[v p]|]. Qed.

Lemma before_flow c n b t s : flow (before_node c n b t s) = 0.
Proof.
  destruct c; try reflexivity. destruct v; try reflexivity; cbn [before_node].
  - destruct (annual_before _ _ _) as [a [u|]]; [rewrite put_volume_flow|]; reflexivity.
  - destruct (seasonal_before _ _ _) as [a [u|]]; [rewrite put_volume_flow|]; reflexivity.
  - destruct (monthly_before _ _ _) as [a [|]]; [rewrite put_volume_flow|]; reflexivity.
Qed.
Lemma before_prev c n b t s : prev (before_node c n b t s) = prev s.
Proof.
  destruct c; try reflexivity. destruct v; try reflexivity; cbn [before_node].
  - destruct (annual_before _ _ _) as [a [u|]]; [rewrite put_volume_prev|]; reflexivity.
  - destruct (seasonal_before _ _ _) as [a [u|]]; [rewrite put_volume_prev|]; reflexivity.
  - destruct (monthly_before _ _ _) as [a [|]]; [rewrite put_volume_prev|]; reflexivity.
Qed.

(** ** commit *)
Lemma add_flow_length st n x : length (add_flow st n x) = length st.
Proof. apply upd_length. Qed.
Lemma add_flow_get st n x m : (n < length st)%nat -> get (add_flow st n x) m = if Nat.eqb m n then with_flow (get st n) (flow (get st n) + x) else get st m.
Proof. intros H. unfold add_flow. now apply get_upd. Qed.
Lemma commit_length g st e : length (commit g st e) = length st.
Proof. unfold commit. destruct (class_of g (fst e)); now rewrite ?add_flow_length. Qed.
Lemma commits_length g cs : forall st, length (fold_left (commit g) cs st) = length st.
Proof. induction cs as [|e cs IH]; intros st; cbn; [easy|]. now rewrite IH, commit_length. Qed.

Lemma add_flow_other st n x m : exists y, get (add_flow st n x) m = with_flow (get st m) y.
Proof.
  destruct (Nat.eq_dec m n) as [->|N].
  - destruct (Nat.lt_ge_cases n (length st)) as [L|L].
    + exists (flow (get st n) + x). now rewrite add_flow_get, Nat.eqb_refl.
    + exists (flow (get st n)). unfold add_flow. rewrite upd_out by easy. now destruct (get st n).
  - exists (flow (get st m)). unfold add_flow. rewrite get_upd_other by easy. now destruct (get st m).
Qed.
Lemma commit_other g st e m : exists y, get (commit g st e) m = with_flow (get st m) y.
Proof.
  unfold commit. destruct (add_flow_other st (fst e) (snd e) m) as [y E].
  destruct (class_of g (fst e)); try (exists y; exact E).
  - destruct (add_flow_other (add_flow st (fst e) (snd e)) parent (- snd e) m) as [z F]. exists z. rewrite F, E. reflexivity.
  - destruct (add_flow_other (add_flow st (fst e) (snd e)) parent (snd e) m) as [z F]. exists z. rewrite F, E. reflexivity.
Qed.
Lemma commits_other g cs m : forall st, exists y, get (fold_left (commit g) cs st) m = with_flow (get st m) y.
Proof.
  induction cs as [|e cs IH]; intros st; cbn [fold_left].
  - exists (flow (get st m)). now destruct (get st m).
  - destruct (IH (commit g st e)) as [y E]. destruct (commit_other g st e m) as [z F]. exists y. rewrite E, F. reflexivity.
Qed.

Lemma add_flow_flow st n x m : (n < length st)%nat -> flow (get (add_flow st n x) m) == flow (get st m) + (if Nat.eqb n m then x else 0).
Proof.
  intros H. rewrite add_flow_get by easy. rewrite Nat.eqb_sym. destruct (Nat.eqb_spec n m) as [->|]; cbn; lra.
Qed.

Lemma node_ok_at g n d : graph_ok g -> nth_error g n = Some d -> node_ok g d.
Proof. intros G H. apply nth_error_In in H. unfold graph_ok in G. rewrite Forall_forall in G. now apply G. Qed.

Lemma commit_flow g st e m : graph_ok g -> length st = length g -> (fst e < length g)%nat ->
  flow (get (commit g st e) m) == flow (get st m) + part g m e.
Proof.
  intros G L H. unfold commit, part, class_of. destruct (nth_error g (fst e)) as [[c ch]|] eqn:E; cbn [n_class].
  - pose proof (node_ok_at g _ _ G E) as O. unfold node_ok in O. cbn [n_class] in O.
    destruct c; try (rewrite add_flow_flow by lia; lra).
    + rewrite add_flow_flow by (rewrite add_flow_length; lia). rewrite add_flow_flow by lia. lra.
    + rewrite add_flow_flow by (rewrite add_flow_length; lia). rewrite add_flow_flow by lia. lra.
  - apply nth_error_None in E. lia.
Qed.

Lemma commits_flow g m : graph_ok g -> forall cs st, length st = length g -> Forall (fun e => (fst e < length g)%nat) cs ->
  flow (get (fold_left (commit g) cs st) m) == flow (get st m) + solved g m cs.
Proof.
  intros G. induction cs as [|e cs IH]; intros st L F; cbn [fold_left].
  - unfold solved. cbn. lra.
  - rewrite IH; [|rewrite commit_length; easy|now apply Forall_inv_tail in F].
    rewrite commit_flow; [|easy|easy|now apply Forall_inv in F]. unfold solved. cbn. lra.
Qed.

(** ** after *)
Lemma after_length g b days st : length (after_all g b days st) = length st.
Proof. apply in_turn_length. Qed.
Lemma after_get g b days st n d : nth_error g n = Some d -> length st = length g ->
  exists st1, get (after_all g b days st) n = after_node (n_class d) n b days st1 /\ length st1 = length st
    /\ (forall m, (n <= m)%nat -> get st1 m = get st m) /\ (forall m, (m < n)%nat -> get st1 m = get (after_all g b days st) m).
Proof. intros H L. apply (all_get (fun n c st => after_node c n b days st) g st n d H L). Qed.

Lemma after_simple_flow g b days st n d : nth_error g n = Some d -> length st = length g -> simple (n_class d) ->
  flow (get (after_all g b days st) n) = flow (get st n).
Proof.
  intros H L K. destruct (after_get g b days st n d H L) as [st1 [A [_ [C _]]]]. rewrite A.
  destruct (n_class d); cbn in K; try easy; cbn [after_node store_after with_vol with_prev flow]; now rewrite C by lia.
Qed.

(** What a compound node reads of a member that is settled is its final flow. *)
Lemma settled_flow g b days st n st1 m :
  length st = length g -> settled g n m ->
  (forall m, (n <= m)%nat -> get st1 m = get st m) -> (forall m, (m < n)%nat -> get st1 m = get (after_all g b days st) m) ->
  flow (get st1 m) = flow (get (after_all g b days st) m).
Proof.
  intros L S C D. destruct S as [S|[c [[d [H E]] K]]]; [now rewrite D|].
  destruct (Nat.lt_ge_cases m n) as [F|F]; [now rewrite D|]. rewrite C by easy. subst c. symmetry. now apply (after_simple_flow g b days st m d).
Qed.

Lemma fold_add_ext {A} (f g : A -> Q) l : (forall x, In x l -> f x = g x) -> forall a, fold_left (fun acc x => acc + f x) l a = fold_left (fun acc x => acc + g x) l a.
Proof. induction l as [|x l IH]; intros H a; cbn; [easy|]. rewrite (H x) by (left; easy). apply IH. intros y Hy. apply H. now right. Qed.
Lemma fold_add_sum {A} (f : A -> Q) l : forall a, fold_left (fun acc x => acc + f x) l a == a + qsum (map f l).
Proof. induction l as [|x l IH]; intros a; cbn; [lra|]. rewrite IH. lra. Qed.
Lemma fold_sub_sum {A} (f : A -> Q) l : forall a, fold_left (fun acc x => acc - f x) l a == a - qsum (map f l).
Proof. induction l as [|x l IH]; intros a; cbn; [lra|]. rewrite IH. lra. Qed.
Lemma qsum_ext {A} (f g : A -> Q) l : (forall x, In x l -> f x == g x) -> qsum (map f l) == qsum (map g l).
Proof. induction l as [|x l IH]; intros H; cbn; [lra|]. rewrite (H x) by (left; easy). rewrite IH; [lra|]. intros y Hy. apply H. now right. Qed.

(** ** One timestep *)
Definition commits_ok (g : list node) (cs : list (nat * Q)) : Prop := Forall (fun e => (fst e < length g)%nat) cs.

Lemma step_length g b0 b t cs st : length (node_step g b0 b t cs st) = length st.
Proof. unfold node_step. now rewrite after_length, commits_length, before_length. Qed.

Lemma mid_flow g b0 t cs st n d : graph_ok g -> length st = length g -> commits_ok g cs -> nth_error g n = Some d ->
  flow (get (fold_left (commit g) cs (before_all g b0 t st)) n) == solved g n cs.
Proof.
  intros G L C H. rewrite commits_flow by (try rewrite before_length; easy). rewrite (before_get g b0 t st n d H L), before_flow. lra.
Qed.

Lemma simple_step g b0 b t cs st n d : graph_ok g -> length st = length g -> commits_ok g cs -> nth_error g n = Some d -> simple (n_class d) ->
  flow (get (node_step g b0 b t cs st) n) == solved g n cs.
Proof.
  intros G L C H K. unfold node_step. rewrite (after_simple_flow g _ _ _ n d H) by (try rewrite commits_length, before_length; easy).
  now apply (mid_flow g b0 t cs st n d).
Qed.

Lemma piecewise_step g b0 b t cs st n d ls : graph_ok g -> length st = length g -> commits_ok g cs -> nth_error g n = Some d -> n_class d = Piecewise ls ->
  (forall l, In l ls -> settled g n l) ->
  let st' := node_step g b0 b t cs st in
  flow (get st' n) == solved g n cs + qsum (map (fun l => flow (get st' l)) ls).
Proof.
  intros G L C H K S st'. pose proof (mid_flow g b0 t cs st n d G L C H) as M. unfold st', node_step.
  set (mid := fold_left (commit g) cs (before_all g b0 t st)) in *.
  assert (length mid = length g) as LM by (unfold mid; now rewrite commits_length, before_length).
  destruct (after_get g b (ts_days t) mid n d H LM) as [st1 [A [_ [D E]]]]. rewrite A, K. cbn [after_node with_prev with_flow flow].
  rewrite fold_add_sum. rewrite (D n) by lia. rewrite M. apply Qplus_comp; [reflexivity|].
  apply qsum_ext. intros l Hl. rewrite (settled_flow g b (ts_days t) mid n st1 l LM (S l Hl) D E). reflexivity.
Qed.

Lemma aggregated_step g b0 b t cs st n d ms : length st = length g -> nth_error g n = Some d -> n_class d = Aggregated ms ->
  (forall e, In e ms -> settled g n (fst e)) ->
  let st' := node_step g b0 b t cs st in
  flow (get st' n) == qsum (map (fun e => snd e * flow (get st' (fst e))) ms).
Proof.
  intros L H K S st'. unfold st', node_step. set (mid := fold_left (commit g) cs (before_all g b0 t st)) in *.
  assert (length mid = length g) as LM by (unfold mid; now rewrite commits_length, before_length).
  destruct (after_get g b (ts_days t) mid n d H LM) as [st1 [A [_ [D E]]]]. rewrite A, K. cbn [after_node with_prev with_flow flow].
  rewrite fold_add_sum, Qplus_0_l. apply qsum_ext. intros e He.
  rewrite (settled_flow g b (ts_days t) mid n st1 (fst e) LM (S e He) D E). ring.
Qed.

Lemma aggstorage_step g b0 b t cs st n d ms : length st = length g -> nth_error g n = Some d -> n_class d = AggStorage ms ->
  (forall m, In m ms -> settled g n m) ->
  let st' := node_step g b0 b t cs st in
  flow (get st' n) == qsum (map (fun m => flow (get st' m)) ms).
Proof.
  intros L H K S st'. unfold st', node_step. set (mid := fold_left (commit g) cs (before_all g b0 t st)) in *.
  assert (length mid = length g) as LM by (unfold mid; now rewrite commits_length, before_length).
  destruct (after_get g b (ts_days t) mid n d H LM) as [st1 [A [_ [D E]]]]. rewrite A, K. cbn [after_node with_vol with_prev with_flow flow].
  unfold agg_storage_flow. rewrite fold_add_sum, Qplus_0_l, map_map. cbn [m_flow]. apply qsum_ext. intros m Hm.
  rewrite (settled_flow g b (ts_days t) mid n st1 m LM (S m Hm) D E). reflexivity.
Qed.

Lemma virtual_flow_sum st ms : virtual_flow st ms == - qsum (map (fun e => snd e * flow (get st (fst e))) ms).
Proof. unfold virtual_flow. rewrite fold_sub_sum. lra. Qed.

Lemma virtual_step g b0 b t cs st n d i ms v : length st = length g -> nth_error g n = Some d -> n_class d = Virtual i ms v ->
  (forall e, In e ms -> settled g n (fst e)) ->
  active (get (before_all g b0 t st) n) = true ->
  let st' := node_step g b0 b t cs st in
  flow (get st' n) == - qsum (map (fun e => snd e * flow (get st' (fst e))) ms).
Proof.
  intros L H K S ACT st'. unfold st', node_step. destruct (commits_other g cs n (before_all g b0 t st)) as [y Y].
  set (mid := fold_left (commit g) cs (before_all g b0 t st)) in *.
  assert (length mid = length g) as LM by (unfold mid; now rewrite commits_length, before_length).
  destruct (after_get g b (ts_days t) mid n d H LM) as [st1 [A [_ [D E]]]].
  assert (active (get st1 n) = true) as AC. { rewrite D by lia. rewrite Y. exact ACT. }
  assert (flow (after_node (Virtual i ms v) n b (ts_days t) st1) = virtual_flow st1 ms) as F.
  { destruct v; cbn [after_node]; rewrite AC; reflexivity. }
  rewrite A, K, F, virtual_flow_sum. apply Qopp_comp. apply qsum_ext. intros e He.
  rewrite (settled_flow g b (ts_days t) mid n st1 (fst e) LM (S e He) D E). reflexivity.
Qed.

(** ** The flow of the previous timestep *)
Lemma during_prev g b0 t st n d : nth_error g n = Some d -> length st = length g -> prev (get (before_all g b0 t st) n) = prev (get st n).
Proof. intros H L. rewrite (before_get g b0 t st n d H L). apply before_prev. Qed.

Definition stays_active (c : class) (s : nstate) : Prop := match c with Virtual _ _ (Seasonal _) => True | Virtual _ _ _ => active s = true | _ => True end.

Lemma annual_active c a t : a_active a = true -> a_active (fst (annual_before c a t)) = true.
Proof. intros H. unfold annual_before. destruct (negb _ && _); cbn; easy. Qed.

Lemma before_active c n b t s : stays_active c s -> stays_active c (before_node c n b t s).
Proof.
  destruct c; try easy. destruct v; try easy; unfold stays_active, active; cbn [before_node].
  - intros H. pose proof (annual_active c (e_annual (season (with_flow s 0))) (ts_p t) H) as K.
    destruct (annual_before _ _ _) as [a [u|]]; [rewrite put_volume_season|]; exact K.
  - intros H. destruct (monthly_before _ _ _) as [a [|]]; [rewrite put_volume_season|]; exact H.
Qed.

Lemma after_active c n b days st : stays_active c (get st n) -> stays_active c (after_node c n b days st).
Proof.
  destruct c; try easy. destruct v; try easy; unfold stays_active; cbn [after_node]; intros H; rewrite H; exact H.
Qed.

Lemma step_active g b0 b t cs st n d : nth_error g n = Some d -> length st = length g -> stays_active (n_class d) (get st n) ->
  stays_active (n_class d) (get (before_all g b0 t st) n) /\ stays_active (n_class d) (get (node_step g b0 b t cs st) n).
Proof.
  intros H L A. assert (stays_active (n_class d) (get (before_all g b0 t st) n)) as B.
  { rewrite (before_get g b0 t st n d H L). now apply before_active. }
  split; [exact B|]. unfold node_step. destruct (commits_other g cs n (before_all g b0 t st)) as [y Y].
  set (mid := fold_left (commit g) cs (before_all g b0 t st)) in *.
  assert (length mid = length g) as LM by (unfold mid; now rewrite commits_length, before_length).
  destruct (after_get g b (ts_days t) mid n d H LM) as [st1 [E [_ [D _]]]]. rewrite E. apply after_active. rewrite D by lia. rewrite Y.
  destruct (n_class d); exact B.
Qed.

Lemma step_prev g b0 b t cs st n d : nth_error g n = Some d -> length st = length g -> remembers (n_class d) -> stays_active (n_class d) (get st n) ->
  prev (get (node_step g b0 b t cs st) n) = flow (get (node_step g b0 b t cs st) n).
Proof.
  intros H L R A. destruct (step_active g b0 b t cs st n d H L A) as [B _]. unfold node_step.
  destruct (commits_other g cs n (before_all g b0 t st)) as [y Y].
  set (mid := fold_left (commit g) cs (before_all g b0 t st)) in *.
  assert (length mid = length g) as LM by (unfold mid; now rewrite commits_length, before_length).
  destruct (after_get g b (ts_days t) mid n d H LM) as [st1 [E [_ [D _]]]]. rewrite E.
  assert (stays_active (n_class d) (get st1 n)) as B1.
  { rewrite D by lia. rewrite Y. destruct (n_class d); exact B. }
  destruct (n_class d); cbn in R; try easy. destruct v; cbn in R; try easy; unfold stays_active in B1; cbn [after_node]; rewrite B1; reflexivity.
Qed.

(** Seasonal storages: when they are active. *)
Lemma step_prev_seasonal g b0 b t cs st n d i ms c : nth_error g n = Some d -> length st = length g -> n_class d = Virtual i ms (Seasonal c) ->
  prev (get (node_step g b0 b t cs st) n) =
  if active (get (before_all g b0 t st) n) then flow (get (node_step g b0 b t cs st) n) else prev (get st n).
Proof.
  intros H L R. unfold node_step. pose proof (during_prev g b0 t st n d H L) as P.
  destruct (commits_other g cs n (before_all g b0 t st)) as [y Y].
  set (mid := fold_left (commit g) cs (before_all g b0 t st)) in *.
  assert (length mid = length g) as LM by (unfold mid; now rewrite commits_length, before_length).
  destruct (after_get g b (ts_days t) mid n d H LM) as [st1 [E [_ [D _]]]]. rewrite E, R. cbn [after_node].
  assert (get st1 n = with_flow (get (before_all g b0 t st) n) y) as X by (rewrite D by lia; exact Y).
  rewrite X. change (active (with_flow (get (before_all g b0 t st) n) y)) with (active (get (before_all g b0 t st) n)).
  destruct (active (get (before_all g b0 t st) n)); [reflexivity|]. exact P.
Qed.

Lemma history_nth g : forall steps st k h, nth_error (history g steps st) k = Some h -> exists st0 t b0 b cs,
  nth_error steps k = Some (t, b0, b, cs) /\ h = node_step g b0 b t cs st0 /\ length st0 = length st
  /\ (k = 0%nat -> st0 = st) /\ (forall k', k = S k' -> nth_error (history g steps st) k' = Some st0).
Proof.
  induction steps as [|[[[t b0] b] cs] r IH]; intros st [|k] h H; cbn in H; try discriminate.
  - injection H as <-. exists st, t, b0, b, cs. cbn. repeat split; try easy.
  - destruct (IH _ _ _ H) as [st0 [t' [b0' [b' [cs' [A [B [C [D E]]]]]]]]].
    exists st0, t', b0', b', cs'. cbn. split; [exact A|]. split; [exact B|]. split; [now rewrite C, step_length|]. split; [easy|].
    intros k' EQ. injection EQ as <-. destruct k as [|k]; cbn.
    + now rewrite D.
    + now apply E.
Qed.

Lemma during_nth g : forall steps st k x, nth_error (during g steps st) k = Some x -> exists st0 t b0 b cs,
  nth_error steps k = Some (t, b0, b, cs) /\ x = before_all g b0 t st0 /\ length st0 = length st
  /\ (k = 0%nat -> st0 = st) /\ (forall k', k = S k' -> nth_error (history g steps st) k' = Some st0).
Proof.
  induction steps as [|[[[t b0] b] cs] r IH]; intros st [|k] h H; cbn in H; try discriminate.
  - injection H as <-. exists st, t, b0, b, cs. cbn. repeat split; try easy.
  - destruct (IH _ _ _ H) as [st0 [t' [b0' [b' [cs' [A [B [C [D E]]]]]]]]].
    exists st0, t', b0', b', cs'. cbn. split; [exact A|]. split; [exact B|]. split; [now rewrite C, step_length|]. split; [easy|].
    intros k' EQ. injection EQ as <-. destruct k as [|k]; cbn.
    + now rewrite D.
    + now apply E.
Qed.

Lemma history_active g n d : nth_error g n = Some d -> forall steps st k h, length st = length g -> stays_active (n_class d) (get st n) ->
  nth_error (history g steps st) k = Some h -> stays_active (n_class d) (get h n).
Proof.
  intros H. induction steps as [|[[[t b0] b] cs] r IH]; intros st [|k] h L A E; cbn in E; try discriminate.
  - injection E as <-. now apply (step_active g b0 b t cs st n d H L A).
  - apply (IH (node_step g b0 b t cs st) k h); [now rewrite step_length|now apply (step_active g b0 b t cs st n d H L A)|exact E].
Qed.

Lemma history_length g : forall steps st k h, nth_error (history g steps st) k = Some h -> length h = length st.
Proof.
  induction steps as [|[[[t b0] b] cs] r IH]; intros st [|k] h E; cbn in E; try discriminate.
  - injection E as <-. apply step_length.
  - rewrite (IH _ _ _ E). apply step_length.
Qed.

Lemma history_prev g n d : nth_error g n = Some d -> remembers (n_class d) -> forall steps st k h, length st = length g ->
  stays_active (n_class d) (get st n) -> nth_error (history g steps st) k = Some h -> prev (get h n) = flow (get h n).
Proof.
  intros H R steps st k h L A E. destruct (history_nth g steps st k h E) as [st0 [t [b0 [b [cs [_ [-> [C [D F]]]]]]]]].
  apply (step_prev g b0 b t cs st0 n d H); [congruence|easy|]. destruct k as [|k].
  - now rewrite D.
  - apply (history_active g n d H steps st k st0 L A). now apply F.
Qed.

(** ** reset *)
Lemma reset_turn_length g b r : forall n st, length (reset_turn g b r n st) = length st.
Proof. induction r as [|d r IH]; intros n st; cbn; [easy|]. rewrite IH. destruct (n_child d); [easy|apply upd_length]. Qed.
Lemma reset_turn_low g b r : forall k st m, (m < k)%nat -> get (reset_turn g b r k st) m = get st m.
Proof. induction r as [|d r IH]; intros k st m H; cbn [reset_turn]; [easy|]. rewrite IH by lia. destruct (n_child d); [easy|]. apply get_upd_other. lia. Qed.
Lemma reset_turn_get g b r : forall k st j d, nth_error r j = Some d -> (k + j < length st)%nat ->
  get (reset_turn g b r k st) (k + j) = if n_child d then get st (k + j)%nat else reset_node g (n_class d) b (get st (k + j)%nat).
Proof.
  induction r as [|d r IH]; intros k st [|j] e H L; try discriminate.
  - cbn in H. injection H as <-. cbn [reset_turn]. rewrite Nat.add_0_r in *. rewrite reset_turn_low by lia.
    destruct (n_child d); [easy|]. now apply get_upd_same.
  - cbn [reset_turn]. cbn in H. rewrite <- Nat.add_succ_comm. rewrite (IH (S k) _ j e H).
    + destruct (n_child d); [easy|]. rewrite get_upd_other by lia. easy.
    + destruct (n_child d); rewrite ?upd_length; lia.
Qed.
Lemma reset_length g b st : length (reset_all g b st) = length st.
Proof. apply reset_turn_length. Qed.
Lemma reset_get g b st n d : nth_error g n = Some d -> length st = length g ->
  get (reset_all g b st) n = if n_child d then get st n else reset_node g (n_class d) b (get st n).
Proof. intros H L. assert (n < length g)%nat by (apply nth_error_Some; congruence). apply (reset_turn_get g b g 0 st n d H). lia. Qed.

Lemma reset_prev g b st n d : nth_error g n = Some d -> length st = length g -> n_child d = false -> remembers (n_class d) ->
  prev (get (reset_all g b st) n) = 0 /\ stays_active (n_class d) (get (reset_all g b st) n).
Proof.
  intros H L C R. rewrite (reset_get g b st n d H L), C. destruct (n_class d); cbn in R; try easy.
  - cbn [reset_node]. rewrite put_volume_prev. easy.
  - destruct v; cbn in R; try easy; cbn; rewrite ?put_volume_prev; easy.
Qed.
