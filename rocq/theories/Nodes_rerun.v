(** Running a model again. *)
From Verif Require Import Base Ring LP_model Storage_model Periodic_model Nodes_model Nodes_spec Nodes_proofs.
Local Open Scope nat_scope.
Local Open Scope list_scope.
Local Open Scope Q_scope.

(** What a node of a class never touches is as the constructor left it. *)
Definition untouched (c : class) (s : nstate) : Prop :=
  match c with Storage _ | AggStorage _ | Virtual _ _ _ => True | _ => vol s = 0 /\ pc s = Some 0 end
  /\ match c with Virtual _ _ (Rolling _ _) => True | _ => mem s = [] /\ ptr s = 0%nat end
  /\ match c with Virtual _ _ (Seasonal _) => True | Virtual _ _ (Annual _) => e_last_active_year (season s) = None | _ => season s = seasonal_new end
  /\ match c with Virtual _ _ (Monthly _ _ _) => True | _ => monthcount s = monthly_reset 0 end.

Lemma untouched_new c : untouched c (new_node c).
Proof. destruct c; try (repeat split; fail). destruct v; repeat split. Qed.

Lemma untouched_flow c s x : untouched c s -> untouched c (with_flow s x).
Proof. exact (fun H => H). Qed.
Lemma untouched_prev c s x : untouched c s -> untouched c (with_prev s x).
Proof. exact (fun H => H). Qed.

Lemma untouched_put c s r : match c with Storage _ | AggStorage _ | Virtual _ _ _ => True | _ => False end -> untouched c s -> untouched c (put_volume s r).
Proof. intros K H. destruct r as [[v p]|]; [|exact H]. destruct c; try easy; destruct H as [_ H]; split; easy. Qed.

Lemma untouched_before c n b t s : untouched c s -> untouched c (before_node c n b t s).
Proof.
  intros H. destruct c; try exact H. destruct v; try exact H; cbn [before_node].
  - destruct (annual_before _ _ _) as [a r]. set (s' := with_season _ _).
    assert (untouched (Virtual i members (Annual c)) s') as U.
    { destruct H as [_ [A [B C]]]. repeat split; try easy; apply A. }
    destruct r; [apply untouched_put; easy|exact U].
  - destruct (seasonal_before _ _ _) as [a r]. set (s' := with_season _ _).
    assert (untouched (Virtual i members (Seasonal c)) s') as U.
    { destruct H as [_ [A [B C]]]. repeat split; try easy; apply A. }
    destruct r; [apply untouched_put; easy|exact U].
  - destruct (monthly_before _ _ _) as [a r]. set (s' := with_month _ _).
    assert (untouched (Virtual i members (Monthly months initial_months to_initial)) s') as U.
    { destruct H as [_ [A [B C]]]. repeat split; try easy; apply A. }
    destruct r; [apply untouched_put; easy|exact U].
Qed.

Lemma untouched_reset g c b s : untouched c s -> untouched c (reset_node g c b s).
Proof.
  intros H. destruct c; try exact H; cbn [reset_node].
  - apply untouched_put; easy.
  - destruct (agg_storage_reset _); [|exact H]. destruct H as [_ H]. exact (conj Logic.I H).
  - set (z := put_volume (with_prev (with_flow s 0) 0) (reset_storage_only i 0 true)).
    assert (untouched (Virtual i members v) z) as U by (apply untouched_put; easy). clearbody z.
    destruct H as [_ [A [B C]]]. destruct U as [_ [A' [B' C']]]. destruct v; cbn in *; repeat split; try easy; try apply A; try apply A'.
    + now rewrite B.
    + now rewrite B.
    + now rewrite B.
Qed.

Lemma untouched_after c n b days st : untouched c (get st n) -> untouched c (after_node c n b days st).
Proof.
  intros H. destruct c; try exact H. destruct v; cbn [after_node]; destruct (active (get st n)); try exact H.
Qed.

Definition all_untouched (g : list node) (st : state) : Prop :=
  length st = length g /\ forall n d, nth_error g n = Some d -> untouched (n_class d) (get st n).

Lemma all_new g : all_untouched g (new_model g).
Proof.
  unfold new_model. split; [apply map_length|]. intros n d H.
  assert (get (map (fun d => new_node (n_class d)) g) n = new_node (n_class d)) as ->.
  { unfold get. apply nth_error_nth. rewrite nth_error_map, H. reflexivity. }
  apply untouched_new.
Qed.

Lemma all_reset g b st : all_untouched g st -> all_untouched g (reset_all g b st).
Proof.
  intros [L U]. split; [now rewrite reset_length|]. intros n d H. rewrite (reset_get g b st n d H L).
  destruct (n_child d); [now apply U|]. apply untouched_reset. now apply U.
Qed.
Lemma all_before g b t st : all_untouched g st -> all_untouched g (before_all g b t st).
Proof. intros [L U]. split; [now rewrite before_length|]. intros n d H. rewrite (before_get g b t st n d H L). apply untouched_before. now apply U. Qed.
Lemma all_commits g cs st : all_untouched g st -> all_untouched g (fold_left (commit g) cs st).
Proof.
  intros [L U]. split; [now rewrite commits_length|]. intros n d H. destruct (commits_other g cs n st) as [y ->].
  apply untouched_flow. now apply U.
Qed.
Lemma all_after g b days st : all_untouched g st -> all_untouched g (after_all g b days st).
Proof.
  intros [L U]. split; [now rewrite after_length|]. intros n d H. destruct (after_get g b days st n d H L) as [st1 [-> [_ [C _]]]].
  apply untouched_after. rewrite C by lia. now apply U.
Qed.

Lemma reached_untouched {M V} g (P : program M V) m v w : reached g P m v w -> all_untouched g (w_nodes w).
Proof.
  induction 1 as [|w R IH|w t R IH].
  - apply all_new.
  - cbn. now apply all_reset.
  - cbn. apply all_after, all_commits, all_before, IH.
Qed.

(** ** After a reset and the first [before] *)
Lemma nstate_eq (a b : nstate) : flow a = flow b -> prev a = prev b -> vol a = vol b -> pc a = pc b -> mem a = mem b -> ptr a = ptr b ->
  season a = season b -> monthcount a = monthcount b -> a = b.
Proof. destruct a, b. cbn. intros. now subst. Qed.

Lemma seasonal_eq (a b : seasonal) : e_annual a = e_annual b -> e_last_active_year a = e_last_active_year b -> a = b.
Proof. destruct a, b. cbn. intros. now subst. Qed.

(** As [initials] reads them, members of aggregated storages do not depend on anything that changes. *)
Lemma reset_number i now now' use : use = true \/ is_number (i_max i) = true -> reset_storage_only i now use = reset_storage_only i now' use.
Proof.
  intros [->|H]; [reflexivity|]. unfold reset_storage_only. destruct use; [reflexivity|]. destruct (i_max i); easy.
Qed.

Lemma annual_first c s t u : p_index t = 0%nat -> snd (annual_before c s t) = Some u -> c_max_is_parameter c = false \/ u = true.
Proof.
  intros H. unfold annual_before. rewrite H. cbn [Nat.eqb andb]. destruct (negb _ && _); cbn; [|discriminate].
  intros E. injection E as <-. destruct (c_max_is_parameter c); auto.
Qed.

Lemma monthly_first months initial_months month : initial_months <> months -> snd (monthly_before months (monthly_reset initial_months) month) = false.
Proof.
  intros H. unfold monthly_before, monthly_reset. cbn. replace (initial_months - 1 + 1)%Z with initial_months by lia.
  destruct (Z.eqb_spec initial_months months); [congruence|reflexivity].
Qed.

Lemma initials_start g ms : Forall (fun m => exists i, (is_class g m (Storage i) \/ exists l v, is_class g m (Virtual i l v)) /\ starts i) ms ->
  exists v, agg_storage_reset (initials g ms) = Some v.
Proof.
  unfold initials. induction 1 as [|m ms [i [H [v [p [A B]]]]] _ [w IH]]; cbn.
  - now exists 0.
  - assert (match nth_error g m with Some {| n_class := Storage i |} | Some {| n_class := Virtual i _ _ |} => [i] | _ => [] end = [i]) as ->.
    { destruct H as [[d [E F]]|[l [u [d [E F]]]]]; rewrite E; destruct d as [c ch]; cbn in F; subst c; reflexivity. }
    cbn. rewrite A, IH. now eexists.
Qed.

Lemma starts_reset i : starts i -> exists v p, forall s, put_volume s (reset_storage_only i 0 true) = with_vol s v p.
Proof. intros [v [p [A B]]]. exists v, p. intros s'. unfold reset_storage_only. now rewrite A, B. Qed.

Section Reset.
Variables (M V : Type) (g : list node) (P : program M V).
Hypothesis OK : graph_ok g.
Hypothesis SAME : same_again g P.

Lemma first_node n d t v v' s s' : nth_error g n = Some d -> p_index (ts_p t) = 0%nat -> untouched (n_class d) s -> untouched (n_class d) s' ->
  let r v s := before_node (n_class d) n (p_bounds P v) t (if n_child d then s else reset_node g (n_class d) (p_bounds P v) s) in
  if hidden d then with_prev (r v s) 0 = with_prev (r v' s') 0 else r v s = r v' s'.
Proof.
  intros H T U U' r. pose proof (node_ok_at g n d OK H) as O. pose proof (SAME n d H) as SA. unfold node_ok in O.
  destruct d as [c ch]. unfold hidden, r. cbn [n_class n_child] in *. clear r.
  destruct c; cbn [reset_node before_node] in *.
  - destruct U as [[A1 A2] [[A3 A4] [A5 A6]]], U' as [[B1 B2] [[B3 B4] [B5 B6]]]. destruct ch; cbn; apply nstate_eq; cbn; congruence.
  - destruct U as [[A1 A2] [[A3 A4] [A5 A6]]], U' as [[B1 B2] [[B3 B4] [B5 B6]]]. destruct ch; cbn; apply nstate_eq; cbn; congruence.
  - destruct U as [[A1 A2] [[A3 A4] [A5 A6]]], U' as [[B1 B2] [[B3 B4] [B5 B6]]]. destruct ch; cbn; apply nstate_eq; cbn; congruence.
  - destruct O as [-> O]. destruct (starts_reset i O) as [x [p R]]. rewrite !R. cbn.
    destruct U as [_ [[A3 A4] [A5 A6]]], U' as [_ [[B3 B4] [B5 B6]]]. apply nstate_eq; cbn; congruence.
  - destruct U as [[A1 A2] [[A3 A4] [A5 A6]]], U' as [[B1 B2] [[B3 B4] [B5 B6]]]. destruct ch; cbn; apply nstate_eq; cbn; congruence.
  - destruct U as [[A1 A2] [[A3 A4] [A5 A6]]], U' as [[B1 B2] [[B3 B4] [B5 B6]]]. destruct ch; cbn; apply nstate_eq; cbn; congruence.
  - destruct U as [[A1 A2] [[A3 A4] [A5 A6]]], U' as [[B1 B2] [[B3 B4] [B5 B6]]]. destruct ch; cbn; apply nstate_eq; cbn; congruence.
  - destruct O as [-> O]. destruct (initials_start g members O) as [x ->]. rewrite orb_true_r.
    assert (map (b_max (p_bounds P v)) members = map (b_max (p_bounds P v')) members) as E.
    { apply map_ext_in. intros m Hm. now apply SA. }
    destruct U as [_ [[A3 A4] [A5 A6]]], U' as [_ [[B3 B4] [B5 B6]]]. apply nstate_eq; cbn; congruence.
  - destruct O as [-> O]. destruct (starts_reset i O) as [x [p R]]. rewrite !R. cbn [orb].
    destruct v0 as [|k u|c|c|months initial_months to_initial]; try easy.
    + destruct U as [_ [[A3 A4] [A5 A6]]], U' as [_ [[B3 B4] [B5 B6]]]. apply nstate_eq; cbn; try congruence.
    + destruct U as [_ [_ [A5 A6]]], U' as [_ [_ [B5 B6]]]. apply nstate_eq; cbn; try congruence.
    + destruct U as [_ [[A3 A4] [A5 A6]]], U' as [_ [[B3 B4] [B5 B6]]]. cbn [with_season season with_flow e_annual e_last_active_year seasonal_reset].
      rewrite A5, B5. pose proof (annual_first c annual_reset (ts_p t)) as F.
      destruct (annual_before c annual_reset (ts_p t)) as [a q]. cbn [snd] in F.
      set (e := {| e_annual := a; e_last_active_year := None |}).
      match goal with |- match q with Some _ => put_volume ?a _ | None => _ end = match q with Some _ => put_volume ?b _ | None => _ end =>
        assert (a = NState 0 0 x p [] 0 e (monthly_reset 0)) as -> by (apply nstate_eq; cbn; congruence);
        assert (b = NState 0 0 x p [] 0 e (monthly_reset 0)) as -> by (apply nstate_eq; cbn; congruence) end.
      destruct q as [use|]; [|reflexivity]. f_equal. apply reset_number. destruct (F use T eq_refl) as [G|G]; [|now left].
      right. rewrite SA in G. now apply negb_false_iff in G.
    + destruct U as [_ [[A3 A4] [A5 A6]]], U' as [_ [[B3 B4] [B5 B6]]]. cbn [with_month monthcount with_flow].
      pose proof (monthly_first months initial_months (Calendar_spec.mon (p_date (ts_p t)))) as F.
      destruct (monthly_before months (monthly_reset initial_months) _) as [m q]. cbn [snd] in F.
      set (ss := {| e_annual := {| a_last_reset_year := None; a_active := true |}; e_last_active_year := None |}).
      match goal with |- (if q then put_volume ?a _ else _) = (if q then put_volume ?b _ else _) =>
        assert (a = NState 0 0 x p [] 0 ss m) as -> by (apply nstate_eq; cbn; rewrite ?A5, ?B5; first [reflexivity|congruence]);
        assert (b = NState 0 0 x p [] 0 ss m) as -> by (apply nstate_eq; cbn; rewrite ?A5, ?B5; first [reflexivity|congruence]) end.
      destruct q; [|reflexivity]. f_equal. apply reset_number. destruct SA as [SA|[SA|SA]]; [now left|now right|]. specialize (F SA). discriminate.
Qed.

Lemma first_alike t v v' st st' : p_index (ts_p t) = 0%nat -> all_untouched g st -> all_untouched g st' ->
  alike g (before_all g (p_bounds P v) t (reset_all g (p_bounds P v) st)) (before_all g (p_bounds P v') t (reset_all g (p_bounds P v') st')).
Proof.
  intros T [L U] [L' U']. split; [now rewrite before_length, reset_length|]. split; [now rewrite before_length, reset_length|].
  intros n d H. rewrite (before_get g _ t _ n d H) by (now rewrite reset_length). rewrite (before_get g (p_bounds P v') t _ n d H) by (now rewrite reset_length).
  rewrite (reset_get g _ st n d H L), (reset_get g _ st' n d H L'). now apply first_node; [| |apply U|apply U'].
Qed.
End Reset.

(** ** Nothing is left of the difference after the first timestep *)
Lemma alike_flow g a b n : alike g a b -> flow (get a n) = flow (get b n).
Proof.
  intros [L [L' H]]. destruct (nth_error g n) as [d|] eqn:E.
  - specialize (H n d E). destruct (hidden d); [|now rewrite H]. exact (f_equal flow H).
  - apply nth_error_None in E. unfold get. rewrite !nth_overflow by lia. reflexivity.
Qed.

Lemma with_prev_flow s x y : with_prev (with_flow s x) y = with_flow (with_prev s y) x.
Proof. reflexivity. Qed.

Lemma alike_add g a b n x : alike g a b -> alike g (add_flow a n x) (add_flow b n x).
Proof.
  intros A. pose proof (alike_flow g a b n A) as F. destruct A as [L [L' H]]. split; [now rewrite add_flow_length|]. split; [now rewrite add_flow_length|].
  intros m d E. assert (m < length g)%nat as B by (apply nth_error_Some; congruence). specialize (H m d E).
  destruct (Nat.eq_dec m n) as [->|N].
  - rewrite !add_flow_get, !Nat.eqb_refl by lia. rewrite F. destruct (hidden d); [|now rewrite H]. rewrite !with_prev_flow. now rewrite H.
  - unfold add_flow. rewrite !get_upd_other by easy. exact H.
Qed.
Lemma alike_commit g a b e : alike g a b -> alike g (commit g a e) (commit g b e).
Proof. intros A. unfold commit. destruct (class_of g (fst e)); repeat apply alike_add; exact A. Qed.
Lemma alike_commits g cs : forall a b, alike g a b -> alike g (fold_left (commit g) cs a) (fold_left (commit g) cs b).
Proof. induction cs as [|e cs IH]; intros a b A; cbn [fold_left]; [exact A|]. apply IH. now apply alike_commit. Qed.

Lemma fold_ext_all {A} (f h : Q -> A -> Q) l : (forall a x, f a x = h a x) -> forall a, fold_left f l a = fold_left h l a.
Proof. intros H. induction l as [|x l IH]; intros a; cbn; [easy|]. now rewrite H, IH. Qed.

Lemma after_alike g a b bd days n d : graph_ok g -> alike g a b -> nth_error g n = Some d ->
  after_node (n_class d) n bd days a = after_node (n_class d) n bd days b.
Proof.
  intros G A H. pose proof (fun m => alike_flow g a b m A) as F. destruct A as [L [L' A]]. specialize (A n d H).
  pose proof (node_ok_at g n d G H) as O. unfold node_ok in O. destruct d as [c ch]. unfold hidden in A. cbn [n_class n_child] in *.
  destruct (get a n) as [f1 p1 v1 c1 m1 q1 s1 k1] eqn:E1. destruct (get b n) as [f2 p2 v2 c2 m2 q2 s2 k2] eqn:E2.
  pose proof (F n) as FN. rewrite E1, E2 in FN. cbn [flow] in FN.
  assert (v1 = v2 /\ c1 = c2 /\ m1 = m2 /\ q1 = q2 /\ s1 = s2 /\ k1 = k2) as [-> [-> [-> [-> [-> ->]]]]].
  { destruct (ch || _); [|now inversion A]. unfold with_prev in A. cbn in A. now inversion A. }
  subst f2. destruct c; cbn [after_node]; rewrite ?E1, ?E2; cbn [with_prev with_flow flow vol].
  - reflexivity.
  - reflexivity.
  - reflexivity.
  - destruct O as [-> _]. cbn in A. injection A as <-. reflexivity.
  - rewrite (fold_ext_all (fun acc l => acc + flow (get a l)) (fun acc l => acc + flow (get b l))) by (intros; now rewrite F). reflexivity.
  - rewrite F. reflexivity.
  - rewrite (fold_ext_all (fun acc (e : nat * Q) => acc + flow (get a (fst e)) * snd e) (fun acc e => acc + flow (get b (fst e)) * snd e)) by (intros; now rewrite F).
    reflexivity.
  - assert (map (fun m => {| m_flow := flow (get a m); m_max := b_max bd m; m_min := b_min bd m |}) members
            = map (fun m => {| m_flow := flow (get b m); m_max := b_max bd m; m_min := b_min bd m |}) members) as ->.
    { apply map_ext. intros m. now rewrite F. }
    reflexivity.
  - destruct O as [-> _]. cbn in A. injection A as <-.
    assert (virtual_flow a members = virtual_flow b members) as ->.
    { unfold virtual_flow. apply fold_ext_all. intros; now rewrite F. }
    reflexivity.
Qed.

Lemma in_turn_alike g bd days : graph_ok g -> forall r k a b, alike g a b ->
  (forall j, nth_error r j = nth_error g (k + j)) -> (forall m, (m < k)%nat -> get a m = get b m) -> (k + length r = length g)%nat ->
  in_turn (fun n c st => after_node c n bd days st) r k a = in_turn (fun n c st => after_node c n bd days st) r k b.
Proof.
  intros G. induction r as [|d r IH]; intros k a b A N LOW LEN; cbn [in_turn].
  - destruct A as [L [L' A]]. apply state_ext; [congruence|]. intros n Hn. apply LOW. cbn in LEN. lia.
  - cbn in LEN. pose proof (N 0%nat) as N0. rewrite Nat.add_0_r in N0. cbn in N0. symmetry in N0.
    pose proof (after_alike g a b bd days k d G A N0) as E. rewrite E. destruct A as [L [L' A]]. apply IH.
    + split; [now rewrite upd_length|]. split; [now rewrite upd_length|]. intros m e Hm.
      destruct (Nat.eq_dec m k) as [->|NE].
      * rewrite !get_upd_same by lia. destruct (hidden e); reflexivity.
      * rewrite !get_upd_other by easy. now apply A.
    + intros j. specialize (N (S j)). cbn in N. rewrite N. f_equal. lia.
    + intros m Hm. destruct (Nat.eq_dec m k) as [->|NE].
      * now rewrite !get_upd_same by lia.
      * rewrite !get_upd_other by easy. apply LOW. lia.
    + lia.
Qed.

Lemma after_all_alike g bd days a b : graph_ok g -> alike g a b -> after_all g bd days a = after_all g bd days b.
Proof. intros G A. unfold after_all. apply (in_turn_alike g bd days G g 0 a b A); [easy|lia|easy]. Qed.

Lemma reset_rests g b b' t st : all_untouched g st -> rested g (before_all g b' t (reset_all g b st)).
Proof.
  intros [L U] n d H HD. unfold hidden in HD. apply orb_false_iff in HD. destruct HD as [HC HA].
  rewrite (before_get g _ t _ n d H) by (now rewrite reset_length). rewrite before_flow, before_prev. split; [reflexivity|].
  rewrite (reset_get g b st n d H L), HC. destruct (n_class d); try reflexivity; cbn [reset_node].
  - now rewrite put_volume_prev.
  - discriminate.
  - destruct v; cbn; now rewrite ?put_volume_prev.
Qed.

Lemma rerun {M V} g (P : program M V) m v ts w w' :
  graph_ok g -> fresh g P m v -> blind g P -> same_again g P ->
  reached g P m v w -> reached g P m v w' -> (forall t r, ts = t :: r -> p_index (ts_p t) = 0%nat) ->
  run g P ts w = run g P ts w'.
Proof.
  intros G F B SA R R' T. unfold run. destruct ts as [|t r]; [reflexivity|]. cbn [whole_steps].
  assert (whole_step g P t (whole_reset g P w) = whole_step g P t (whole_reset g P w')) as ->; [|reflexivity].
  specialize (T t r eq_refl). pose proof (reached_untouched g P m v w R) as U. pose proof (reached_untouched g P m v w' R') as U'.
  pose proof (first_alike M V g P G SA t (w_values w) (w_values w') (w_nodes w) (w_nodes w') T U U') as A.
  pose proof (reset_rests g (p_bounds P (w_values w)) (p_bounds P (w_values w)) t (w_nodes w) U) as RA.
  pose proof (reset_rests g (p_bounds P (w_values w')) (p_bounds P (w_values w')) t (w_nodes w') U') as RB.
  unfold whole_step, whole_reset. cbn [w_nodes w_memory w_values].
  set (a := before_all g _ t (reset_all g _ (w_nodes w))) in *. set (b := before_all g _ t (reset_all g _ (w_nodes w'))) in *.
  rewrite (F t a b w w' T A RA RB R R').
  set (m1 := p_before P t b (p_reset P (w_memory w'))).
  destruct (B t a b m1 T A) as [B2 B3]. rewrite B2, B3.
  set (v1 := p_values P t b m1).
  rewrite (after_all_alike g (p_bounds P v1) (ts_days t) (fold_left (commit g) (p_solve P t b m1 v1) a) (fold_left (commit g) (p_solve P t b m1 v1) b) G).
  - reflexivity.
  - now apply alike_commits.
Qed.
