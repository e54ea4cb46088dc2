(** C117: values that are not numbers. *)
From Coq Require Import Lia.
From Verif Require Import Base LP_model Nan_model Nan_spec.
Local Open Scope nat_scope.
Local Open Scope list_scope.

Lemma is_nan_iff a : is_nan a = true <-> a = None.
Proof. destruct a; split; intros H; try reflexivity; discriminate H. Qed.
Lemma refused_nan c : has_nan c -> refused c = true.
Proof.
  destruct c as [x|l|lb ub|]; cbn [has_nan refused].
  - intros ->. reflexivity.
  - intros H. apply Bool.orb_true_iff. right. apply existsb_exists. exists None. split; [exact H|reflexivity].
  - intros [->| ->]; [reflexivity|apply Bool.orb_true_r].
  - contradiction.
Qed.

(** GLPK gets no NaN from the checked calls. *)
Theorem C117_no_nan : forall cs c, In c (fst (post false cs)) -> ~ has_nan c.
Proof.
  intros cs c. induction cs as [|d r IH]; cbn [post]; [intros []|]. cbn [negb andb]. destruct (refused d) eqn:E; [intros []|].
  destruct (post false r) as [l b]. cbn [fst] in *. intros [<-|H]; [|now apply IH]. intros N. apply refused_nan in N. congruence.
Qed.
Print Assumptions C117_no_nan.

(** Sums. *)
Lemma halved_nan c : halved c = None <-> snd c = None.
Proof. destruct c as [[] [[|x|]|]]; cbn [halved fst snd ddiv]; split; congruence. Qed.
Lemma halved_pos c : halved c = Some PInf <-> snd c = Some PInf.
Proof. destruct c as [[] [[|x|]|]]; cbn [halved fst snd ddiv]; split; congruence. Qed.
Lemma halved_neg c : halved c = Some NInf <-> snd c = Some NInf.
Proof. destruct c as [[] [[|x|]|]]; cbn [halved fst snd ddiv]; split; congruence. Qed.
Lemma fold_nan l : fold_left (fun acc c => dadd acc (halved c)) l None = None.
Proof. induction l as [|c l IH]; [reflexivity|exact IH]. Qed.
Lemma fold_pos l : fold_left (fun acc c => dadd acc (halved c)) l (Some PInf) = None <-> In None (map snd l) \/ In (Some NInf) (map snd l).
Proof.
  induction l as [|c l IH]; cbn [fold_left map In]; [split; [discriminate|intros [[]|[]]]|].
  destruct (halved c) as [[|x|]|] eqn:E; cbn [dadd].
  - rewrite fold_nan. apply (proj1 (halved_neg c)) in E. tauto.
  - rewrite IH. assert (N1 : snd c <> None) by (intros G; apply (proj2 (halved_nan c)) in G; congruence).
    assert (N2 : snd c <> Some NInf) by (intros G; apply (proj2 (halved_neg c)) in G; congruence). tauto.
  - rewrite IH. apply (proj1 (halved_pos c)) in E. assert (N1 : snd c <> None) by congruence. assert (N2 : snd c <> Some NInf) by congruence. tauto.
  - rewrite fold_nan. apply (proj1 (halved_nan c)) in E. tauto.
Qed.
Lemma fold_neg l : fold_left (fun acc c => dadd acc (halved c)) l (Some NInf) = None <-> In None (map snd l) \/ In (Some PInf) (map snd l).
Proof.
  induction l as [|c l IH]; cbn [fold_left map In]; [split; [discriminate|intros [[]|[]]]|].
  destruct (halved c) as [[|x|]|] eqn:E; cbn [dadd].
  - rewrite IH. apply (proj1 (halved_neg c)) in E. assert (N1 : snd c <> None) by congruence. assert (N2 : snd c <> Some PInf) by congruence. tauto.
  - rewrite IH. assert (N1 : snd c <> None) by (intros G; apply (proj2 (halved_nan c)) in G; congruence).
    assert (N2 : snd c <> Some PInf) by (intros G; apply (proj2 (halved_pos c)) in G; congruence). tauto.
  - rewrite fold_nan. apply (proj1 (halved_pos c)) in E. tauto.
  - rewrite fold_nan. apply (proj1 (halved_nan c)) in E. tauto.
Qed.
Lemma cost_sum_nan l : cost_sum l = None <-> no_sum (map snd l).
Proof.
  unfold cost_sum, no_sum. generalize 0%Q as q. induction l as [|c l IH]; intros q; cbn [fold_left map In]; [split; [discriminate|intros [[]|[[] _]]]|].
  destruct (halved c) as [[|x|]|] eqn:E; cbn [dadd].
  - rewrite fold_neg. apply (proj1 (halved_neg c)) in E. assert (N1 : snd c <> None) by congruence. assert (N2 : snd c <> Some PInf) by congruence. tauto.
  - rewrite IH. assert (N1 : snd c <> None) by (intros G; apply (proj2 (halved_nan c)) in G; congruence).
    assert (N2 : snd c <> Some PInf) by (intros G; apply (proj2 (halved_pos c)) in G; congruence).
    assert (N3 : snd c <> Some NInf) by (intros G; apply (proj2 (halved_neg c)) in G; congruence). tauto.
  - rewrite fold_pos. apply (proj1 (halved_pos c)) in E. assert (N1 : snd c <> None) by congruence. assert (N2 : snd c <> Some NInf) by congruence. tauto.
  - rewrite fold_nan. apply (proj1 (halved_nan c)) in E. tauto.
Qed.
Lemma dsnap_nan a : dsnap a = None <-> a = None.
Proof. destruct a as [[|x|]|]; cbn [dsnap]; split; congruence. Qed.
Lemma ddiv_nan a d : ddiv a d = None <-> a = None.
Proof. destruct a as [[|x|]|]; cbn [ddiv]; split; congruence. Qed.
Lemma dneg_nan a : dneg a = None <-> a = None.
Proof. destruct a as [[|x|]|]; cbn [dneg]; split; congruence. Qed.
Lemma dmax0_nan a : dmax0 a = None <-> a = None.
Proof. destruct a as [[|x|]|]; cbn [dmax0]; try (split; congruence). destruct (qltb x 0); split; congruence. Qed.
Lemma dsub_nan a b : dadd a (dneg b) = None <-> no_difference a b.
Proof.
  unfold no_difference. destruct a as [[|x|]|], b as [[|y|]|]; cbn [dneg dadd]; split; intros H; try discriminate H; try reflexivity; try tauto;
    repeat (destruct H as [H|H]); try discriminate H; destruct H as [H1 H2]; discriminate.
Qed.
Lemma deqb_iff a b : deqb a b = true <-> same_number a b.
Proof.
  unfold same_number. destruct a as [[|x|]|], b as [[|y|]|]; cbn [deqb];
    try (split; [intros H; discriminate H|intros [(p & q & H1 & H2 & _)|[[H1 H2]|[H1 H2]]]; discriminate]); try (split; [intros _; tauto|reflexivity]).
  destruct (qeqbP x y) as [H|H]; split; intros G; try reflexivity; try discriminate G.
  - left. exists x, y. repeat split. exact H.
  - exfalso. destruct G as [(p & q & H1 & H2 & E)|[[H1 H2]|[H1 H2]]]; try discriminate. apply H. congruence.
Qed.
Lemma store_call_refused days s : refused (store_call days s) = true <-> bad_store s.
Proof.
  unfold store_call, bad_store. rewrite <- deqb_iff. destruct (deqb (st_max s) (st_min s)).
  - cbn [refused is_nan orb]. split; [discriminate|]. intros [H _]. exfalso. apply H. reflexivity.
  - cbn [refused]. rewrite Bool.orb_true_iff, !is_nan_iff, !dsnap_nan, !ddiv_nan, dneg_nan, !dmax0_nan, !dsub_nan. split; [intros H; split; [discriminate|exact H]|intros [_ H]; exact H].
Qed.
Lemma virtual_call_refused days s : refused (virtual_call days s) = true <-> st_active s = true /\ bad_store s.
Proof.
  unfold virtual_call. pose proof (store_call_refused days s) as R. pose proof (deqb_iff (st_max s) (st_min s)) as D.
  destruct (deqb (st_max s) (st_min s)).
  - cbn [refused is_nan orb]. split; [discriminate|]. intros [_ [H _]]. exfalso. apply H. apply (proj1 D). reflexivity.
  - destruct (st_active s); cbn [negb].
    + rewrite R. tauto.
    + cbn [refused is_nan orb]. split; [discriminate|intros [H _]; discriminate H].
Qed.
Lemma post_safe cs : snd (post false cs) = true <-> forall c, In c cs -> refused c = false.
Proof.
  induction cs as [|d r IH]; cbn [post]; [split; [intros _ c []|reflexivity]|]. cbn [negb andb]. destruct (refused d) eqn:E.
  - split; [discriminate|]. intros H. rewrite (H d) in E; [discriminate E|now left].
  - destruct (post false r) as [l b]. cbn [snd] in *. rewrite IH. split; [intros H c [<-|G]; [exact E|now apply H]|intros H c G; apply H; now right].
Qed.
Lemma refused_calls edges r : (exists c, In c (scenario_calls edges r) /\ refused c = true) <-> trouble r.
Proof.
  unfold scenario_calls, trouble. split.
  - intros [c [H R]]. repeat (apply in_app_iff in H; destruct H as [H|H]); try (apply in_map_iff in H; destruct H as [x [<- Hx]]).
    + left. exists x. split; [exact Hx|]. apply cost_sum_nan. unfold obj_call in R. cbn [refused] in R. apply (proj1 (is_nan_iff _)) in R.
      destruct edges; [exact R|]. now apply (proj1 (dsnap_nan _)).
    + right. left. exists x. split; [exact Hx|]. cbn [refused] in R. apply Bool.orb_true_iff in R. destruct R as [R|R].
      * left. apply Nat.eqb_eq in R. now apply length_zero_iff_nil.
      * right. apply existsb_exists in R. destruct R as [y [Hy N]]. apply (proj1 (is_nan_iff _)) in N. now subst y.
    + right. right. left. exists x. split; [apply in_app_iff; now left|]. cbn [flow_call refused] in R. rewrite Bool.orb_true_iff, !is_nan_iff, !dsnap_nan in R. exact R.
    + right. right. left. exists x. split; [apply in_app_iff; now right|]. cbn [flow_call refused] in R. rewrite Bool.orb_true_iff, !is_nan_iff, !dsnap_nan in R. exact R.
    + right. right. right. left. exists x. split; [exact Hx|]. now apply (proj1 (store_call_refused _ _)) in R.
    + right. right. right. right. exists x. split; [exact Hx|]. now apply (proj1 (virtual_call_refused _ _)) in R.
    + destruct H as [<-|[]]. discriminate R.
  - intros [(l & Hl & N)|[(l & Hl & N)|[(b & Hb & N)|[(s & Hs & N)|(s & Hs & N)]]]].
    + exists (obj_call edges l). split; [apply in_app_iff; left; now apply in_map|]. apply cost_sum_nan in N. unfold obj_call. cbn [refused]. apply is_nan_iff.
      destruct edges; [exact N|]. now apply dsnap_nan.
    + exists (MatRow l). split; [apply in_app_iff; right; apply in_app_iff; left; now apply in_map|]. cbn [refused]. apply Bool.orb_true_iff.
      destruct N as [->|N]; [left; reflexivity|right; apply existsb_exists; exists None; split; [exact N|reflexivity]].
    + exists (flow_call b). split.
      * apply in_app_iff. right. apply in_app_iff. right. apply in_app_iff in Hb. destruct Hb as [Hb|Hb]; apply in_app_iff; [left; now apply in_map|right; apply in_app_iff; left; now apply in_map].
      * cbn [flow_call refused]. rewrite Bool.orb_true_iff, !is_nan_iff, !dsnap_nan. exact N.
    + exists (store_call (r_days r) s). split; [|now apply store_call_refused]. do 4 (apply in_app_iff; right). apply in_app_iff. left. now apply in_map.
    + exists (virtual_call (r_days r) s). split; [|now apply virtual_call_refused]. do 5 (apply in_app_iff; right). apply in_app_iff. left. now apply in_map.
Qed.
Lemma post_calls_all unsafe cs : snd (post unsafe cs) = true -> fst (post unsafe cs) = cs.
Proof.
  induction cs as [|d r IH]; cbn [post]; [reflexivity|]. destruct (negb unsafe && refused d); [discriminate|]. destruct (post unsafe r) as [l b]. cbn [fst snd] in *. intros H. now rewrite IH.
Qed.

(** With the checked calls a scenario gets to the simplex exactly if its costs have sums along routes (edges), all factors, bounds of flows are
    numbers or infinities, and the volumes of all storages in use have the differences that are needed.  Then GLPK gets all that is read. *)
Theorem C117_refused : forall edges r,
  (snd (post false (scenario_calls edges r)) = true <-> ~ trouble r) /\
  (snd (post false (scenario_calls edges r)) = true -> fst (post false (scenario_calls edges r)) = scenario_calls edges r) /\
  (trouble r -> ~ In Simplex (fst (post false (scenario_calls edges r)))).
Proof.
  intros edges r. assert (A : snd (post false (scenario_calls edges r)) = true <-> ~ trouble r).
  { rewrite post_safe, <- (refused_calls edges r). split.
    - intros H [c [Hc R]]. rewrite (H c Hc) in R. discriminate R.
    - intros H c Hc. destruct (refused c) eqn:R; [|reflexivity]. exfalso. apply H. exists c. split; assumption. }
  split; [exact A|]. split; [apply post_calls_all|]. intros T Hs.
  assert (B : forall cs, snd (post false (cs ++ [Simplex])) = false -> In Simplex (fst (post false (cs ++ [Simplex]))) -> In Simplex cs).
  { induction cs as [|c cs IH]; intros E H; [discriminate E|]. cbn [app post] in E, H. cbn [negb andb] in E, H. destruct (refused c); [destruct H|].
    destruct (post false (cs ++ [Simplex])) as [l b]. cbn [fst snd] in *. destruct H as [H|H]; [now left|right; now apply IH]. }
  assert (E : snd (post false (scenario_calls edges r)) = false).
  { destruct (snd (post false (scenario_calls edges r))); [|reflexivity]. exfalso. now apply (proj1 A). }
  assert (C : scenario_calls edges r = (map (obj_call edges) (r_costs r) ++ map MatRow (r_factors r) ++ map flow_call (r_nodes r) ++ map flow_call (r_aggregated r) ++
    map (store_call (r_days r)) (r_storages r) ++ map (virtual_call (r_days r)) (r_virtual r)) ++ [Simplex]) by (unfold scenario_calls; now rewrite <- !app_assoc).
  rewrite C in E, Hs. apply (B _ E) in Hs.
  repeat (apply in_app_iff in Hs; destruct Hs as [Hs|Hs]); apply in_map_iff in Hs; destruct Hs as [x [Hx _]]; try discriminate Hx.
  - unfold store_call in Hx. destruct (deqb _ _); discriminate Hx.
  - unfold virtual_call, store_call in Hx. destruct (deqb _ _); [discriminate Hx|]. destruct (negb _); discriminate Hx.
Qed.
Print Assumptions C117_refused.

(** The scenarios before the first one that is in trouble or has no optimum are solved and committed, none after; an exception tells. *)
Theorem C117_scenarios : forall edges optimal rs,
  exists n, fst (solve edges false optimal 0 rs) = seq 0 n /\
    (forall k r, k < n -> nth_error rs k = Some r -> ~ trouble r /\ optimal k = true) /\
    (snd (solve edges false optimal 0 rs) = true -> n = List.length rs) /\
    (snd (solve edges false optimal 0 rs) = false -> exists r, nth_error rs n = Some r /\ (trouble r \/ optimal n = false)).
Proof.
  intros edges optimal rs.
  assert (G : forall j, exists n, fst (solve edges false optimal j rs) = seq j n /\
    (forall k r, k < n -> nth_error rs k = Some r -> ~ trouble r /\ optimal (j + k) = true) /\
    (snd (solve edges false optimal j rs) = true -> n = List.length rs) /\
    (snd (solve edges false optimal j rs) = false -> exists r, nth_error rs n = Some r /\ (trouble r \/ optimal (j + n) = false))).
  { induction rs as [|r rs IH]; intros j.
    - exists 0. cbn [solve fst snd seq List.length]. split; [reflexivity|]. split; [intros k r H; lia|]. split; [reflexivity|discriminate].
    - cbn [solve]. destruct (C117_refused edges r) as [A _]. destruct (snd (post false (scenario_calls edges r))) eqn:E.
      + destruct (optimal j) eqn:O.
        * destruct (IH (S j)) as [n [H1 [H2 [H3 H4]]]]. destruct (solve edges false optimal (S j) rs) as [l b]. cbn [fst snd] in *.
          exists (S n). cbn [seq List.length nth_error]. split; [now rewrite H1|]. split; [|split].
          -- intros [|k] x Hk Hx; cbn [nth_error] in Hx.
             ++ assert (Ex : x = r) by congruence. subst x. rewrite Nat.add_0_r. split; [now apply (proj1 A)|exact O].
             ++ rewrite Nat.add_succ_r. apply H2; [lia|exact Hx].
          -- intros H. now rewrite (H3 H).
          -- intros H. rewrite Nat.add_succ_r. exact (H4 H).
        * exists 0. cbn [fst snd seq nth_error]. split; [reflexivity|]. split; [intros k x H; lia|]. split; [discriminate|].
          intros _. exists r. split; [reflexivity|]. right. now rewrite Nat.add_0_r.
      + exists 0. cbn [fst snd seq nth_error]. split; [reflexivity|]. split; [intros k x H; lia|]. split; [discriminate|].
        intros _. exists r. split; [reflexivity|]. left.
        apply (refused_calls edges r). destruct (existsb refused (scenario_calls edges r)) eqn:X; [now apply existsb_exists in X|].
        exfalso. assert (N : ~ trouble r); [|apply (proj2 A) in N; discriminate N]. rewrite <- (refused_calls edges r). intros [c [Hc R]].
        assert (Y : existsb refused (scenario_calls edges r) = true) by (apply existsb_exists; exists c; split; assumption). congruence. }
  exact (G 0).
Qed.
Print Assumptions C117_scenarios.

(** Constant bounds and factors are checked in any case. *)
Theorem C117_constant : forall nodes factors,
  snd (reset_calls nodes factors) = true <->
  (forall b, In b nodes -> fst b <> None /\ snd b <> None) /\ (forall l, In l factors -> l <> [] /\ ~ In None l).
Proof.
  intros nodes factors. unfold reset_calls. rewrite post_safe. split.
  - intros H. split.
    + intros b Hb. assert (R : refused (flow_call b) = false) by (apply H; apply in_app_iff; left; now apply in_map).
      cbn [flow_call refused] in R. apply Bool.orb_false_iff in R. destruct R as [R1 R2]. split; intros E; rewrite E in *; discriminate.
    + intros l Hl. assert (R : refused (MatRow l) = false) by (apply H; apply in_app_iff; right; now apply in_map).
      cbn [refused] in R. apply Bool.orb_false_iff in R. destruct R as [R1 R2]. split; [intros E; subst l; discriminate R1|]. intros N.
      assert (Y : existsb is_nan l = true) by (apply existsb_exists; exists None; split; [exact N|reflexivity]). congruence.
  - intros [Hn Hf] c Hc. apply in_app_iff in Hc. destruct Hc as [Hc|Hc]; apply in_map_iff in Hc; destruct Hc as [x [<- Hx]].
    + destruct (Hn x Hx) as [H1 H2]. cbn [flow_call refused]. destruct (fst x) as [[| |]|], (snd x) as [[| |]|]; try contradiction; reflexivity.
    + destruct (Hf x Hx) as [H1 H2]. cbn [refused]. destruct x as [|a x]; [contradiction|]. cbn [List.length Nat.eqb orb].
      destruct (existsb is_nan (a :: x)) eqn:Y; [|reflexivity]. apply existsb_exists in Y. destruct Y as [y [Hy N]]. apply (proj1 (is_nan_iff _)) in N. subst y. contradiction.
Qed.
Print Assumptions C117_constant.

Lemma round8_compat x y : (x == y)%Q -> (round8 x == round8 y)%Q.
Proof.
  intros E. unfold round8, qabs. destruct (qltbP x 0), (qltbP y 0); repeat match goal with |- context [qltb ?a eps8] => destruct (qltbP a eps8) end; lra.
Qed.
Lemma dmax0_number x : exists y, dmax0 (Some (Fin x)) = Some (Fin y) /\ (y == qmax x 0)%Q.
Proof. cbn [dmax0]. unfold qmax. destruct (qltbP x 0), (qlebP x 0); eexists; (split; [reflexivity|]); lra. Qed.

(** Of numbers the bounds of storages are those of the model of the linear programme. *)
Definition same_bounds (c : call) (b : rtype * ext * ext) : Prop :=
  match c, b with
  | RowBnds (Some (Fin x)) (Some (Fin y)), (_, Fin u, Fin v) => (x == u /\ y == v)%Q
  | RowBnds (Some (Fin x)) (Some PInf), (_, Fin u, PInf) => (x == u)%Q
  | RowBnds (Some NInf) (Some PInf), (_, NInf, PInf) => True
  | _, _ => False
  end.
Theorem C117_numbers : forall (days vol mn : Q) (mx : ext) (active : bool),
  let s := Store (Some mx) (Some (Fin mn)) (Some (Fin vol)) active in
  same_bounds (store_call days s) (storage_bounds vol mn mx days) /\ same_bounds (virtual_call days s) (virtual_bounds active vol mn mx days).
Proof.
  intros days vol mn mx active s.
  assert (A : same_bounds (store_call days s) (storage_bounds vol mn mx days)).
  { unfold store_call, storage_bounds, s. cbn [st_max st_min st_volume]. destruct (dmax0_number (vol + - mn)) as [y [Ey Hy]].
    destruct mx as [|m|]; cbn [deqb dneg dadd].
    - rewrite Ey. cbn [dneg dmax0 ddiv dsnap same_bounds]. split; [apply round8_compat; rewrite Hy; reflexivity|].
      unfold round8, qabs, Qdiv. destruct (qltbP (0 * / days) 0) as [H|H]; repeat match goal with |- context [qltb ?a eps8] => destruct (qltbP a eps8) end; lra.
    - destruct (qeqb m mn); [cbn [same_bounds]; split; reflexivity|]. destruct (dmax0_number (m + - vol)) as [z [Ez Hz]].
      rewrite Ey, Ez. cbn [dneg ddiv dsnap same_bounds]. split; apply round8_compat; [rewrite Hy|rewrite Hz]; reflexivity.
    - rewrite Ey. cbn [dneg dmax0 ddiv dsnap same_bounds]. apply round8_compat. rewrite Hy. reflexivity. }
  split; [exact A|]. unfold virtual_call, virtual_bounds, s. cbn [st_max st_min st_active].
  destruct mx as [|m|]; cbn [deqb]; try (destruct (qeqb m mn); [cbn [same_bounds]; split; reflexivity|]); (destruct active; [exact A|exact I]).
Qed.
Print Assumptions C117_numbers.

(** Without the checks, GLPK gets what is read, NaN or not. *)
Theorem C117_unsafe : forall cs, post true cs = (cs, true).
Proof. induction cs as [|c cs IH]; [reflexivity|]. cbn [post negb andb]. now rewrite IH. Qed.
Print Assumptions C117_unsafe.
Theorem C117_unsafe_passes : exists r c, trouble r /\ In c (fst (post true (scenario_calls false r))) /\ has_nan c /\
  solve false true (fun _ => true) 0 [r] = ([0], true).
Proof.
  exists (Reading [] [] [(Some (Fin 0), None)] [] [] [] 1), (RowBnds (Some (Fin 0)) None). split.
  - right. right. left. exists (Some (Fin 0), None). split; [left; reflexivity|right; reflexivity].
  - split; [left; reflexivity|]. split; [right; reflexivity|reflexivity].
Qed.
Print Assumptions C117_unsafe_passes.

(** A storage without a capacity limit that is full to infinity; a node with a NaN for its maximum; costs infinite both ways; each alone is refused. *)
Definition fine : reading :=
  Reading [[(false, Some (Fin 1)); (false, Some PInf)]] [[Some (Fin 1); Some (Fin (-2))]] [(Some (Fin 0), Some PInf)] []
          [Store (Some PInf) (Some (Fin 0)) (Some (Fin 7)) true] [Store None (Some (Fin 0)) (Some (Fin 7)) false] 7.
Definition with_store (s : store) : reading := Reading (r_costs fine) (r_factors fine) (r_nodes fine) (r_aggregated fine) [s] (r_virtual fine) (r_days fine).
Definition with_costs (l : list (bool * dbl)) : reading := Reading [l] (r_factors fine) (r_nodes fine) (r_aggregated fine) (r_storages fine) (r_virtual fine) (r_days fine).
Example C117_example :
  snd (post false (scenario_calls false fine)) = true /\
  nth_error (fst (post false (scenario_calls false fine))) 3 = Some (RowBnds (Some (Fin (-(7) / 7))) (Some PInf)) /\
  snd (post false (scenario_calls false (with_store (Store (Some PInf) (Some (Fin 0)) (Some PInf) true)))) = false /\
  snd (post false (scenario_calls false (with_store (Store (Some PInf) (Some PInf) (Some PInf) true)))) = true /\
  snd (post false (scenario_calls true (with_costs [(true, Some PInf); (false, Some NInf)]))) = false /\
  solve false false (fun _ => true) 0 [fine; with_costs [(false, None)]; fine] = ([0], false).
Proof. vm_compute. repeat split. Qed.
