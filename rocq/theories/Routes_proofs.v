From Verif Require Import Base Paths Sorting Routes_model Routes_spec.

Lemma nsucc_In N a b : In b (nsucc N a) <-> edge N a b.
Proof.
  unfold nsucc, edge. rewrite in_map_iff. split.
  - intros [[x y] [<- H]]. apply filter_In in H as [H E]. cbn in E. apply Nat.eqb_eq in E. now subst.
  - intros H. exists (a, b). split; [reflexivity|]. apply filter_In. split; [exact H|]. apply Nat.eqb_refl.
Qed.

Lemma nsucc_NoDup N a : wf_net N -> NoDup (nsucc N a).
Proof.
  intros [_ [Hn _]]. unfold nsucc. apply NoDup_map_inj; [|now apply NoDup_filter].
  intros [x y] [x' y'] H H' Heq. apply filter_In in H as [_ H], H' as [_ H'].
  cbn in *. apply Nat.eqb_eq in H, H'. congruence.
Qed.

Lemma chain_iff {A} (E F : A -> A -> Prop) : (forall a b, E a b <-> F a b) ->
  forall p, chain E p <-> chain F p.
Proof.
  intros H. induction p as [|x p IH]; cbn; [tauto|]. rewrite IH. destruct p; [tauto|]. now rewrite H.
Qed.

Lemma all_simple_paths_spec triv N a b cutoff p :
  wf_net N -> In a (n_nodes N) \/ cutoff <> None ->
  In p (all_simple_paths triv N a b cutoff) <->
  (simple_path (edge N) a b p /\ (forall m, cutoff = Some m -> (length p <= S m)%nat)) \/
  (triv = true /\ a = b /\ p = [a]).
Proof.
  intros W Ha. unfold all_simple_paths. rewrite in_app_iff.
  assert ((In p (if triv && Nat.eqb a b then [[a]] else [])) <-> (triv = true /\ a = b /\ p = [a])) as K1.
  { destruct triv; cbn; [|intuition discriminate]. destruct (Nat.eqb_spec a b); cbn; [|intuition congruence].
    intuition. }
  rewrite K1.
  assert (In p (sp (nsucc N) b (match cutoff with Some m => m | None => (length (n_nodes N) - 1)%nat end) [a] a) <->
    (simple_path (edge N) a b p /\ (forall m, cutoff = Some m -> (length p <= S m)%nat))) as K2; [|tauto].
  split.
  - intros H. apply sp_sound in H as [q [-> [Hq [Hl [Hn [Hd [Hc Hlen]]]]]]].
    assert (Haq : ~ In a q) by (intros Hin; apply (Hd a Hin); now left).
    split.
    + split; [split; [reflexivity|split]|split].
      * destruct q as [|z q]; [congruence|]. rewrite <- Hl. reflexivity.
      * eapply chain_iff; [|exact Hc]. intros x y. symmetry. apply nsucc_In.
      * now constructor.
      * destruct q; [congruence|cbn; lia].
    + intros m ->. cbn. lia.
  - intros [[[Hh [Hl Hc]] [Hn H2]] Hm]. pose proof Hn as Hn0.
    destruct p as [|a' q]; [discriminate|]. cbn in Hh. injection Hh as ->.
    inversion Hn as [|? ? Hni Hnq]; subst. apply sp_complete.
    + intros ->. cbn in H2. lia.
    + destruct q; [cbn in H2; lia|reflexivity].
    + exact Hnq.
    + intros x Hx [<-|[]]. contradiction.
    + eapply chain_iff; [|exact Hc]. intros x y. apply nsucc_In.
    + destruct cutoff as [m|]; [specialize (Hm m eq_refl); cbn in Hm; lia|].
      destruct Ha as [Ha|Ha]; [|congruence].
      assert (length (a :: q) <= length (n_nodes N))%nat as L.
      { apply NoDup_incl_length; [exact Hn0|]. intros x [<-|Hx]; [exact Ha|].
        apply (chain_targets (edge N) (fun z => In z (n_nodes N))) with (p := q) (x := a); auto.
        intros u v Huv. now apply W in Huv. }
      change (length (a :: q)) with (S (length q)) in L. lia.
Qed.

Lemma all_simple_paths_NoDup triv N a b cutoff : wf_net N -> NoDup (all_simple_paths triv N a b cutoff).
Proof.
  intros W. unfold all_simple_paths. apply NoDup_app_intro.
  - destruct (triv && Nat.eqb a b); repeat constructor. easy.
  - apply sp_NoDup. intros u. now apply nsucc_NoDup.
  - intros x Hx Hx'. destruct (triv && Nat.eqb a b); [|contradiction]. destruct Hx as [<-|[]].
    apply sp_sound in Hx' as [q [E [Hq _]]]. injection E as <-. congruence.
Qed.

Lemma all_simple_paths_ends triv N a b cutoff p :
  In p (all_simple_paths triv N a b cutoff) -> hd_error p = Some a /\ last p a = b.
Proof.
  unfold all_simple_paths. intros H. apply in_app_or in H as [H|H].
  - destruct triv; [|contradiction]. destruct (Nat.eqb_spec a b); [|contradiction].
    destruct H as [<-|[]]. subst. auto.
  - apply sp_sound in H as [q [-> [Hq [Hl _]]]]. split; [reflexivity|].
    destruct q; [congruence|]. exact Hl.
Qed.

Lemma select_In N s n : In n (select N s) <-> selected N s n.
Proof.
  destruct s; cbn; [|intuition].
  rewrite filter_In. unfold sorted_nodes. now rewrite isort_In.
Qed.

Lemma select_NoDup N s : wf_net N -> NoDup (select N s).
Proof.
  intros [Hn _]. destruct s; cbn; [|repeat constructor; easy].
  apply NoDup_filter. unfold sorted_nodes. now apply isort_NoDup.
Qed.

Lemma interior_between r x : In x (interior r) <-> between r x.
Proof.
  unfold interior, between. split.
  - destruct r as [|a r]; [contradiction|]. cbn [tl].
    destruct r as [|b r] using rev_ind; [contradiction|]. rewrite removelast_last.
    intros H. apply in_split in H as [l [m ->]]. exists (a :: l), (m ++ [b]).
    split; [congruence|]. split; [destruct m; discriminate|]. cbn. now rewrite <- app_assoc.
  - intros [l [m [Hl [Hm ->]]]]. destruct l as [|a l]; [congruence|]. cbn [app tl].
    destruct m as [|b m] using rev_ind; [congruence|].
    replace (l ++ x :: m ++ [b]) with ((l ++ x :: m) ++ [b]) by (rewrite <- app_assoc; reflexivity).
    rewrite removelast_last. apply in_or_app. right. now left.
Qed.

Lemma between_length r x : between r x -> (2 < length r)%nat.
Proof.
  intros [l [m [Hl [Hm ->]]]]. rewrite app_length. cbn. destruct l, m; try congruence; cbn; lia.
Qed.

Lemma nodup_two (d : nat -> nat) r :
  (2 <= length (nodup Nat.eq_dec (map d r)))%nat <-> exists x y, In x r /\ In y r /\ d x <> d y.
Proof.
  split.
  - intros H. pose proof (NoDup_nodup Nat.eq_dec (map d r)) as Hn.
    destruct (nodup Nat.eq_dec (map d r)) as [|u [|v l]] eqn:E; cbn in H; try lia.
    assert (In u (map d r)) as Hu by (apply (nodup_In Nat.eq_dec); rewrite E; now left).
    assert (In v (map d r)) as Hv by (apply (nodup_In Nat.eq_dec); rewrite E; right; now left).
    apply in_map_iff in Hu as [x [<- Hx]], Hv as [y [<- Hy]]. exists x, y. split; [exact Hx|]. split; [exact Hy|].
    inversion Hn as [|? ? Hni _]; subst. intros K. apply Hni. left. now symmetry.
  - intros [x [y [Hx [Hy Hne]]]].
    assert (incl [d x; d y] (nodup Nat.eq_dec (map d r))) as Hi.
    { intros z [<-|[<-|[]]]; apply nodup_In; now apply in_map. }
    apply NoDup_incl_length in Hi; [exact Hi|].
    repeat constructor; [|easy]. intros [K|[]]. congruence.
Qed.

Lemma route_ok_spec N valid maxl dm r : r <> [] ->
  route_ok N valid maxl dm r = true <->
  (forall p, valid = Some p -> forall x, between r x -> p x = true) /\
  (forall m, maxl = Some m -> (length r <= m)%nat) /\ domains_ok N dm r.
Proof.
  intros Hr. unfold route_ok. rewrite !andb_true_iff.
  assert ((match valid with Some p => if Nat.ltb 2 (length r) then forallb p (interior r) else true | None => true end) = true
          <-> (forall p, valid = Some p -> forall x, between r x -> p x = true)) as K1.
  { destruct valid as [p|]; [|intuition discriminate].
    destruct (Nat.ltb_spec 2 (length r)) as [Hlt|Hge].
    - rewrite forallb_forall. split.
      + intros H q E x Hx. injection E as <-. apply H. now apply interior_between.
      + intros H x Hx. apply (H p eq_refl). now apply interior_between.
    - split; [|reflexivity]. intros _ q E x Hx. apply between_length in Hx. lia. }
  assert ((match dm with
      | Strict => match r with [] => true | h :: t => forallb (fun n => Nat.eqb (n_domain N n) (n_domain N h)) t end
      | Different => Nat.leb 2 (length (nodup Nat.eq_dec (map (n_domain N) r)))
      | AnyDomain => true
      | BadMatch => false
      end) = true <-> domains_ok N dm r) as K2.
  { destruct dm; cbn [domains_ok]; [| | |intuition discriminate].
    - destruct r as [|h t]; [congruence|]. rewrite forallb_forall. split.
      + intros H. assert (forall x, In x (h :: t) -> n_domain N x = n_domain N h) as D.
        { intros x [<-|Hx]; [reflexivity|]. apply Nat.eqb_eq. now apply H. }
        intros x y Hx Hy. now rewrite (D x Hx), (D y Hy).
      + intros H x Hx. apply Nat.eqb_eq. apply H; [now right|now left].
    - intuition.
    - rewrite Nat.leb_le. apply nodup_two. }
  assert ((match maxl with Some m => Nat.leb (length r) m | None => true end) = true
          <-> (forall m, maxl = Some m -> (length r <= m)%nat)) as K3.
  { destruct maxl as [m|]; [|intuition discriminate]. rewrite Nat.leb_le. split.
    - intros H m' E. now injection E as <-.
    - intros H. now apply H. }
  rewrite K1, K2, K3. tauto.
Qed.

Definition starts_in_graph (N : net) (s : selector) : Prop :=
  match s with ByClass _ => True | Instance n => In n (n_nodes N) end.

Lemma selected_in N s n : starts_in_graph N s -> selected N s n -> In n (n_nodes N).
Proof. destruct s; cbn; [intros _ [H _]; exact H|intros H ->; exact H]. Qed.

Definition raw_routes triv N t1 t2 maxl :=
  flat_map (fun a => flat_map (fun b => all_simple_paths triv N a b maxl) (select N t2)) (select N t1).

Lemma raw_routes_NoDup triv N t1 t2 maxl : wf_net N -> NoDup (raw_routes triv N t1 t2 maxl).
Proof.
  intros W. apply NoDup_flat_map; [now apply select_NoDup| |].
  - intros a _. apply NoDup_flat_map; [now apply select_NoDup| |].
    + intros b _. now apply all_simple_paths_NoDup.
    + intros b b' z _ _ H H'. apply all_simple_paths_ends in H as [_ H], H' as [_ H']. congruence.
  - intros a a' z _ _ H H'. apply in_flat_map in H as [b [_ H]], H' as [b' [_ H']].
    apply all_simple_paths_ends in H as [H _], H' as [H' _]. congruence.
Qed.

Lemma find_all_routes_spec triv N t1 t2 valid maxl dm l :
  wf_net N -> starts_in_graph N t1 ->
  find_all_routes triv N t1 t2 valid maxl dm = Some l ->
  NoDup l /\ (forall r, In r l <-> is_route triv N t1 t2 valid maxl dm r).
Proof.
  intros W Hst H. unfold find_all_routes in H. fold (raw_routes triv N t1 t2 maxl) in H.
  assert (l = isort (fun r s => lex_leb (map (n_fqn N) r) (map (n_fqn N) s))
              (filter (route_ok N valid maxl dm) (raw_routes triv N t1 t2 maxl))) as ->.
  { destruct dm, (raw_routes triv N t1 t2 maxl); congruence. }
  split; [apply isort_NoDup, NoDup_filter, raw_routes_NoDup, W|].
  intros r. rewrite isort_In, filter_In. unfold is_route, raw_routes. split.
  - intros [Hr Hok]. apply in_flat_map in Hr as [a [Ha Hr]]. apply in_flat_map in Hr as [b [Hb Hr]].
    apply select_In in Ha, Hb. apply all_simple_paths_spec in Hr; [|exact W|left; eapply selected_in; eauto].
    assert (r <> []) as Hne.
    { destruct Hr as [[[[Hh _] _] _]|[_ [_ ->]]]; [|congruence]. intros ->. discriminate. }
    apply route_ok_spec in Hok as [H1 [H2 H3]]; [|exact Hne].
    exists a, b. repeat split; auto. destruct Hr as [[Hr _]|Hr]; auto.
  - intros [a [b [Ha [Hb [Hr [H1 [H2 H3]]]]]]].
    assert (r <> []) as Hne.
    { destruct Hr as [[[Hh _] _]|[_ [_ ->]]]; [|congruence]. intros ->. discriminate. }
    split; [|apply route_ok_spec; auto].
    apply in_flat_map. exists a. split; [now apply select_In|].
    apply in_flat_map. exists b. split; [now apply select_In|].
    apply all_simple_paths_spec; [exact W|left; eapply selected_in; eauto|].
    destruct Hr as [Hr|Hr]; [left|now right]. split; [exact Hr|]. intros m E. specialize (H2 m E). lia.
Qed.

Lemma find_all_routes_defined triv N t1 t2 valid maxl dm :
  dm <> BadMatch -> find_all_routes triv N t1 t2 valid maxl dm <> None.
Proof.
  intros H. unfold find_all_routes. destruct dm; try congruence; discriminate.
Qed.

Lemma find_all_routes_sorted triv N t1 t2 valid maxl dm l :
  find_all_routes triv N t1 t2 valid maxl dm = Some l ->
  StronglySorted (fun r s => lex_leb r s = true) (map (map (n_fqn N)) l).
Proof.
  intros H. unfold find_all_routes in H.
  set (raw := flat_map _ (select N t1)) in H.
  assert (l = isort (fun r s => lex_leb (map (n_fqn N) r) (map (n_fqn N) s))
              (filter (route_ok N valid maxl dm) raw)) as ->.
  { destruct dm, raw; congruence. }
  assert (forall (k : list (list nat)), StronglySorted (fun r s => lex_leb (map (n_fqn N) r) (map (n_fqn N) s) = true) k ->
     StronglySorted (fun r s => lex_leb r s = true) (map (map (n_fqn N)) k)) as K.
  { induction 1 as [|x k Hs IH Hf]; cbn; constructor; auto. apply Forall_forall. intros y Hy.
    apply in_map_iff in Hy as [z [<- Hz]]. rewrite Forall_forall in Hf. now apply Hf. }
  apply K. apply isort_sorted.
  - intros x y. apply lex_total.
  - intros x y z. apply lex_trans.
Qed.

(** The name sequence depends only on the set of named routes. *)
Lemma routes_by_name triv N t1 t2 valid maxl dm l N' t1' t2' valid' l' :
  wf_net N -> wf_net N' -> starts_in_graph N t1 -> starts_in_graph N' t1' ->
  (forall a b, In a (n_nodes N) -> In b (n_nodes N) -> n_fqn N a = n_fqn N b -> a = b) ->
  (forall a b, In a (n_nodes N') -> In b (n_nodes N') -> n_fqn N' a = n_fqn N' b -> a = b) ->
  find_all_routes triv N t1 t2 valid maxl dm = Some l ->
  find_all_routes triv N' t1' t2' valid' maxl dm = Some l' ->
  (forall k, (exists r, is_route triv N t1 t2 valid maxl dm r /\ map (n_fqn N) r = k) <->
             (exists r, is_route triv N' t1' t2' valid' maxl dm r /\ map (n_fqn N') r = k)) ->
  map (map (n_fqn N)) l = map (map (n_fqn N')) l'.
Proof.
  intros W W' S S' I I' H H' Hk.
  assert (forall N t1 t2 valid l, wf_net N -> starts_in_graph N t1 ->
    (forall a b, In a (n_nodes N) -> In b (n_nodes N) -> n_fqn N a = n_fqn N b -> a = b) ->
    find_all_routes triv N t1 t2 valid maxl dm = Some l -> NoDup (map (map (n_fqn N)) l)) as ND.
  { clear. intros N t1 t2 valid l W S I H. destruct (find_all_routes_spec _ _ _ _ _ _ _ _ W S H) as [Hn Hin].
    apply NoDup_map_inj; [|exact Hn]. intros x y Hx Hy.
    assert (forall r, In r l -> incl r (n_nodes N)) as Hsub.
    { intros r Hr. apply Hin in Hr as [a [b [Ha [_ [Hr _]]]]]. apply (selected_in N t1) in Ha; [|exact S].
      destruct Hr as [[[Hh [_ Hc]] _]|[_ [_ ->]]].
      - destruct r as [|z q]; [discriminate|]. cbn in Hh. injection Hh as ->.
        intros u [<-|Hu]; [exact Ha|].
        apply (chain_targets (edge N) (fun z => In z (n_nodes N))) with (p := q) (x := a); auto.
        intros u' v Huv. now apply W in Huv.
      - intros u [<-|[]]. exact Ha. }
    specialize (Hsub x Hx) as Hsx. specialize (Hsub y Hy) as Hsy. clear -I Hsx Hsy.
    revert y Hsy. induction x as [|u x IH]; intros [|v y] Hsy E; cbn in E; try discriminate; [reflexivity|].
    injection E as E1 E2. f_equal.
    - apply I; auto; [apply Hsx|apply Hsy]; now left.
    - apply IH; auto; intros z Hz; [apply Hsx|apply Hsy]; now right. }
  apply (sorted_unique (fun r s => lex_leb r s = true)).
  - intros a b. apply lex_antisym.
  - eapply find_all_routes_sorted; eauto.
  - eapply find_all_routes_sorted; eauto.
  - eapply ND; eauto.
  - eapply ND; eauto.
  - intros k. rewrite !in_map_iff.
    destruct (find_all_routes_spec _ _ _ _ _ _ _ _ W S H) as [_ Hin].
    destruct (find_all_routes_spec _ _ _ _ _ _ _ _ W' S' H') as [_ Hin'].
    split.
    + intros [r [E Hr]]. apply Hin in Hr. destruct (proj1 (Hk k)) as [r' [Hr' E']]; [eauto|].
      exists r'. split; [exact E'|now apply Hin'].
    + intros [r [E Hr]]. apply Hin' in Hr. destruct (proj2 (Hk k)) as [r' [Hr' E']]; [eauto|].
      exists r'. split; [exact E'|now apply Hin].
Qed.

Lemma model_routes_spec triv N : wf_net N ->
  NoDup (model_routes triv N) /\
  forall r, In r (model_routes triv N) <->
    is_route triv N (ByClass (n_is_input N)) (ByClass (n_is_output N))
      (Some (fun n => n_is_link N n || n_is_input N n || n_is_output N n)) None Strict r.
Proof.
  intros W. unfold model_routes.
  destruct (find_all_routes triv N _ _ _ None Strict) as [l|] eqn:E.
  - eapply find_all_routes_spec; [exact W|exact I|exact E].
  - exfalso. now apply (find_all_routes_defined triv N (ByClass (n_is_input N)) (ByClass (n_is_output N))
      (Some (fun n => n_is_link N n || n_is_input N n || n_is_output N n)) None Strict).
Qed.

Lemma check_graph_spec triv N : wf_net N ->
  check_graph triv N = true <->
  forall n, In n (n_nodes N) -> n_allow_isolated N n = false ->
    exists r, In n r /\ is_route triv N (ByClass (n_is_input N)) (ByClass (n_is_output N))
      (Some (fun m => n_is_link N m || n_is_input N m || n_is_output N m)) None Strict r.
Proof.
  intros W. destruct (model_routes_spec triv N W) as [_ Hin]. unfold check_graph. rewrite forallb_forall. split.
  - intros H n Hn Ha. destruct (in_dec Nat.eq_dec n (flat_map (fun r => r) (model_routes triv N))) as [Hs|Hs].
    + apply in_flat_map in Hs as [r [Hr Hnr]]. exists r. split; [exact Hnr|now apply Hin].
    + rewrite H in Ha; [discriminate|]. apply in_or_app. left. apply filter_In. split; [exact Hn|].
      destruct (membP n (flat_map (fun r => r) (model_routes triv N))); [contradiction|reflexivity].
  - intros H n Hn. apply in_app_or in Hn as [Hn|Hn]; apply filter_In in Hn as [Hn Hs].
    + destruct (n_allow_isolated N n) eqn:E; [reflexivity|]. destruct (H n Hn E) as [r [Hnr Hr]].
      apply Hin in Hr. exfalso.
      destruct (membP n (flat_map (fun r => r) (model_routes triv N))) as [|K]; [discriminate|].
      apply K. apply in_flat_map. eauto.
    + exfalso. apply in_flat_map in Hn as [r [Hr Hnr]]. apply Hin in Hr as [a [b [[Ha _] [_ [Hr _]]]]].
      destruct (membP n (n_nodes N)) as [|K]; [discriminate|]. apply K.
      destruct Hr as [[[Hh [_ Hc]] _]|[_ [_ ->]]].
      * destruct r as [|z q]; [discriminate|]. cbn in Hh. injection Hh as ->.
        destruct Hnr as [<-|Hnr]; [exact Ha|].
        apply (chain_targets (edge N) (fun z => In z (n_nodes N))) with (p := q) (x := a); auto.
        intros u v Huv. now apply W in Huv.
      * destruct Hnr as [<-|[]]. exact Ha.
Qed.
