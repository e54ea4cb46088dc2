(** C26: what a LossLink loses. *)
From Verif Require Import Base Paths Sorting Routes_model LP_model Sys_model RouteLP_model RouteLP_spec RouteLP_proofs RouteLP_flow RouteLP_props LP_check
  EdgeLP_model EdgeLP_spec EdgeLP_proofs EdgeLP_limits EdgeLP_check Connect_model Connect_spec Connect_proofs Loss_model Loss_spec Loss_proofs EdgeLP_props.
Local Open Scope nat_scope.
Local Open Scope list_scope.
Local Open Scope Q_scope.

(** However the nodes of a model are connected and disconnected, the inside of a LossLink stays as it was built. *)
Theorem C26_inside : forall w l ops, distinct l -> (forall a b, In (a, b) (edges w) -> ~ inside l a /\ ~ inside l b) ->
  leaves_alone (new_losslink w l) (l_self l) (inside l) ops -> loss_edges (edges (perform (new_losslink w l) ops)) l.
Proof. exact loss_edges_kept. Qed.
Print Assumptions C26_inside.

(** What comes in goes out or is lost. *)
Theorem C26_balance : forall triv S d x l k, wf_sys S -> loss_in S d l k ->
  committed triv S x (l_gross l) == committed triv S x (l_net l) + committed triv S x (l_output l).
Proof. intros. eapply loss_balance; eauto. Qed.
Print Assumptions C26_balance.

(** The share that is lost: of the net or the gross flow.  With a type that is neither the model can be set up only if the factor is zero. *)
Theorem C26_loss : forall triv S d x l k ty f nm, wf_sys S -> loss_in S d l k -> solved triv S d x -> loss_setup ty f nm = Some k ->
  match ty with
  | Net => committed triv S x (l_output l) == loss_value f * committed triv S x (l_net l)
  | Gross => committed triv S x (l_output l) == loss_value f * committed triv S x (l_gross l)
  | Unknown => committed triv S x (l_output l) == 0 /\ loss_value f == 0
  end.
Proof. intros. eapply route_loss; eauto. Qed.
Print Assumptions C26_loss.

Theorem C26_nothing_lost : forall triv S d x l k ty f nm, wf_sys S -> loss_in S d l k -> solved triv S d x -> loss_setup ty f nm = Some k ->
  loss_value f == 0 -> committed triv S x (l_output l) == 0 /\ committed triv S x (l_net l) == committed triv S x (l_gross l).
Proof.
  intros triv S d x l k ty f nm W L H E Z. pose proof (C26_loss _ _ _ _ _ _ _ _ _ W L H E) as X. pose proof (C26_balance triv S d x l k W L) as B.
  assert (committed triv S x (l_output l) == 0) as O by (destruct ty; [rewrite X, Z; ring|rewrite X, Z; ring|now destruct X]).
  split; [exact O|]. rewrite B, O. ring.
Qed.
Print Assumptions C26_nothing_lost.

(** The same with the edge solver. *)
Theorem C26_edge_balance : forall triv S d y l k, regular S -> inner_only S y -> loss_in S d l k -> edge_solved triv S d y ->
  ecommitted S y (l_gross l) == ecommitted S y (l_net l) + ecommitted S y (l_output l).
Proof. intros. eapply edge_loss_balance; eauto. Qed.
Print Assumptions C26_edge_balance.

Theorem C26_edge_loss : forall triv S d y l k ty f nm, regular S -> inner_only S y -> loss_in S d l k -> edge_solved triv S d y ->
  loss_setup ty f nm = Some k ->
  match ty with
  | Net => ecommitted S y (l_output l) == loss_value f * ecommitted S y (l_net l)
  | Gross => ecommitted S y (l_output l) == loss_value f * ecommitted S y (l_gross l)
  | Unknown => ecommitted S y (l_output l) == 0 /\ loss_value f == 0
  end.
Proof. intros. eapply edge_loss; eauto. Qed.
Print Assumptions C26_edge_loss.

(** When the factor can be used: a number, or for the net type a parameter. *)
Theorem C26_setup : forall ty f nm,
  (exists k, loss_setup ty f nm = Some k) <->
  match ty, f with Net, _ | Gross, Number _ => True | Gross, Param _ => False | Unknown, Number q => q == 0 | Unknown, Param _ => False end.
Proof.
  intros ty f nm. unfold loss_setup. destruct f as [q|q]; destruct ty; cbn [andb]; try rewrite andb_false_r; try rewrite andb_true_r;
    try (split; [tauto|]; intros; eexists; reflexivity); try (split; [intros [k K]; discriminate|tauto]).
  - destruct (qeqbP q 0); split; try tauto; intros; eexists; reflexivity.
  - destruct (qeqbP q 0); [split; try tauto; intros; eexists; reflexivity|]. destruct (qeqbP q 1); split; try tauto; intros; eexists; reflexivity.
  - destruct (qeqbP q 0); [split; [tauto|]; intros; eexists; reflexivity|]. split; [intros [k K]; discriminate|tauto].
Qed.
Print Assumptions C26_setup.

(** A network: an input (1), the LossLink (2, with nodes 3 to 6) and a demand (7). *)
Definition ex_link : losslink := LossLink 2 3 4 5 6.
Definition ex_world : world := World (fun _ => 0%nat) (fun _ => Plain) [] (fun _ => false).
Definition ex_ops : list op := [Connect 1 2 None None; Connect 2 7 None None; Disconnect 2 (Some 7) None false; Connect 1 7 None None; Disconnect 1 (Some 7) None false]%nat.
Definition loss_sys (k : loss_setting) : sys := {|
  s_nodes := [1; 2; 3; 4; 5; 6; 7]%nat;
  s_edges := edges (perform (new_losslink ex_world ex_link) ex_ops);
  s_name := fun n => n; s_fqn := fun n => n; s_domain := fun _ => 0%nat;
  s_kind := fun n => match n with 1 => KInput | 3 | 7 => KOutput | 4 | 5 => KLink | 6 => KAggregated | _ => KOther end%nat;
  s_slot := fun _ => NoSlot; s_inputs := fun _ => []; s_outputs := fun _ => [];
  s_members := fun n => match n with 6 => agg_members ex_link | _ => [] end%nat; s_vfactors := fun _ => [];
  s_has_factors := fun n => Nat.eqb n 6 && match k_factors k with Some _ => true | None => false end;
  s_weights := fun _ => None; s_conv := fun _ => 1 |}.
Definition loss_data (k : loss_setting) : data := {|
  d_cost := fun n => match n with 7%nat => - (10) | _ => 0 end;
  d_min := fun _ => Fin 0;
  d_max := fun n => match n with 1%nat => Fin 30 | 3%nat => k_output_max k | 5%nat => k_net_max k | 7%nat => Fin 12 | _ => PInf end;
  d_factors := fun n => match n, k_factors k with 6%nat, Some fs => fs | _, _ => [] end;
  d_minvol := fun _ => 0; d_maxvol := fun _ => Fin 0; d_vol := fun _ => 0; d_active := fun _ => true; d_days := 1 |}.

Lemma ex_leaves : leaves_alone (new_losslink ex_world ex_link) (l_self ex_link) (inside ex_link) ex_ops.
Proof.
  split.
  - intros o n Ho Hn [-> |[-> | ->]]; cbn in Ho; repeat (destruct Ho as [<-|Ho]; [cbn in Hn; intuition discriminate|]); contradiction.
  - intros n s a Hs Hi H. cbn in H. unfold inside in *. cbn in *.
    destruct (Nat.eqb_spec n 2); [contradiction|]. destruct (Nat.eqb_spec n 6); [tauto|].
    assert (a = n) as -> by (destruct (Nat.eqb n 3 || Nat.eqb n 4 || Nat.eqb n 5); cbn in H; tauto). tauto.
Qed.

Lemma ex_distinct : distinct ex_link.
Proof. unfold distinct. cbn. repeat constructor; cbn; intuition discriminate. Qed.
Example ex_inside : loss_edges (edges (perform (new_losslink ex_world ex_link) ex_ops)) ex_link.
Proof. apply C26_inside; [exact ex_distinct|intros a b []|exact ex_leaves]. Qed.
Example ex_edges : edges (perform (new_losslink ex_world ex_link) ex_ops) = [(4, 3); (4, 5); (1, 4); (5, 7)]%nat.
Proof. vm_compute. reflexivity. Qed.

Lemma ex_loss_wf k : wf_sys (loss_sys k).
Proof. apply plain_wf; try reflexivity. cbn [s_edges loss_sys]. rewrite ex_edges. repeat constructor; cbn; intuition discriminate. Qed.
Lemma ex_loss_in k : loss_in (loss_sys k) (loss_data k) ex_link k.
Proof.
  constructor; cbn; try tauto.
  - exact ex_inside.
  - intros fs H. now rewrite H.
Qed.
Lemma ex_regular k : regular (loss_sys k).
Proof. apply regular_check_sound; [apply ex_loss_wf|]. vm_compute. reflexivity. Qed.

(** A fifth of the 10 that arrive is lost, a fifth of the 10 that come, and all. *)
Definition setting (ty : loss_type) (v : Q) (nm : ext) : loss_setting :=
  match loss_setup ty (Number v) nm with Some k => k | None => {| k_factors := None; k_output_max := PInf; k_net_max := PInf |} end.
Example C26_example_net : let S := loss_sys (setting Net (1 # 5) PInf) in
  solved false S (loss_data (setting Net (1 # 5) PInf)) (fun c => nth c [2; 10] 0) /\
  map (committed false S (fun c => nth c [2; 10] 0)) [4; 5; 3]%nat = [12; 10; 2] /\
  edge_solved false S (loss_data (setting Net (1 # 5) PInf)) (fun c => nth c [2; 10; 12; 10] 0).
Proof. cbn zeta. split; [apply solved_check_sound; vm_compute; reflexivity|]. split; [vm_compute; reflexivity|apply edge_check_sound; vm_compute; reflexivity]. Qed.
Example C26_example_gross : let S := loss_sys (setting Gross (1 # 5) PInf) in
  solved false S (loss_data (setting Gross (1 # 5) PInf)) (fun c => nth c [2; 8] 0) /\
  map (committed false S (fun c => nth c [2; 8] 0)) [4; 5; 3]%nat = [10; 8; 2].
Proof. cbn zeta. split; [apply solved_check_sound; vm_compute; reflexivity|vm_compute; reflexivity]. Qed.
Example C26_example_all : let S := loss_sys (setting Gross 1 PInf) in
  solved false S (loss_data (setting Gross 1 PInf)) (fun c => nth c [7; 0] 0) /\
  map (committed false S (fun c => nth c [7; 0] 0)) [4; 5; 3]%nat = [7; 0; 7].
Proof. cbn zeta. split; [apply solved_check_sound; vm_compute; reflexivity|vm_compute; reflexivity]. Qed.

(** A parameter that is zero in a timestep does not mean that nothing is lost: the timestep can't be solved (a division by zero in
    [get_factors_norm], _core.pyx 797-816). *)
Theorem C26_zero_parameter : forall triv S d x l k f nm, loss_in S d l k -> loss_setup Net f nm = Some k ->
  match f with Param q => q == 0 | Number _ => False end -> ~ solved triv S d x.
Proof.
  intros triv S d x l k f nm L E Z H. destruct f as [q|q]; [contradiction|]. cbn in E. injection E as <-.
  destruct (li_nodes _ _ _ _ L) as [_ [_ [_ N4]]]. destruct (li_kinds _ _ _ _ L) as [_ [_ [_ K4]]].
  destruct (C18_factors_given triv S d x (l_agg l) H N4 K4 (li_has _ _ _ _ L)) as [_ F].
  apply (F q); [|exact Z]. rewrite (li_factors _ _ _ _ L _ eq_refl). cbn. tauto.
Qed.
Print Assumptions C26_zero_parameter.
Example C26_zero_parameter_example : exists k, loss_setup Net (Param 0) PInf = Some k /\ loss_in (loss_sys k) (loss_data k) ex_link k.
Proof. eexists. split; [reflexivity|apply ex_loss_in]. Qed.

(** [setup] leaves a mark: after a factor of one (of the gross flow) nothing passes any more with another factor. *)
Theorem C26_blocked_after_one : forall triv S d x l ty v nm k1 k2, loss_setup Gross (Number 1) nm = Some k1 ->
  loss_setup ty (Number v) (k_net_max k1) = Some k2 -> ~ v == 1 -> wf_sys S -> loss_in S d l k2 -> solved triv S d x ->
  committed triv S x (l_gross l) == 0.
Proof.
  intros triv S d x l ty v nm k1 k2 E1 E2 V W L H. cbn in E1. injection E1 as <-. cbn [k_net_max] in E2.
  pose proof (C26_loss _ _ _ _ _ _ _ _ _ W L H E2) as X. pose proof (C26_balance triv S d x l k2 W L) as B. cbn [loss_value] in X.
  assert (committed triv S x (l_net l) == 0) as N.
  { assert (k_net_max k2 = Fin 0) as Z.
    { unfold loss_setup in E2. destruct (qeqb v 0); [now injection E2 as <-|]. destruct (qeqb v 1 && _); [now injection E2 as <-|].
      destruct ty; [now injection E2 as <-|now injection E2 as <-|discriminate]. }
    destruct (li_nodes _ _ _ _ L) as [_ [_ [N3 _]]]. destruct (li_kinds _ _ _ _ L) as [_ [_ [K3 _]]].
    assert (is_flow_node (s_kind S (l_net l)) = true) as Kf by now rewrite K3.
    destruct (flow_in_bounds triv S d x _ W H N3 Kf) as [P _]. apply none_allowed with (mn := d_min d (l_net l)); [|exact P].
    rewrite <- Z, <- (li_net _ _ _ _ L). destruct H as [lp [HP HF]]. exact (flow_row triv S d lp x _ W HP HF N3 Kf). }
  destruct ty.
  - rewrite B, X, N. ring.
  - rewrite N in B. assert ((1 - v) * committed triv S x (l_output l) == 0) as Y by (rewrite B in X; lra).
    apply Qmult_integral in Y as [Y|Y]; [exfalso; apply V; lra|]. lra.
  - destruct X as [X _]. rewrite B, N, X. ring.
Qed.
Print Assumptions C26_blocked_after_one.
(** With the second factor alone 10 come. *)
Example C26_blocked_example : k_net_max (setting Gross 1 PInf) = Fin 0 /\
  setting Gross (1 # 5) (k_net_max (setting Gross 1 PInf)) <> setting Gross (1 # 5) PInf.
Proof. split; [reflexivity|discriminate]. Qed.
