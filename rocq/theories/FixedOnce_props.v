(** C30: set_fixed_flows_once, set_fixed_costs_once and set_fixed_factors_once do not change the problems solved. *)
From Verif Require Import Base Paths Sorting Routes_model LP_model Sys_model RouteLP_model RouteLP_spec RouteLP_proofs RouteLP_flow RouteLP_props EdgeLP_model
  FixedOnce_model FixedOnce_spec FixedOnce_proofs.
From Coq Require Import Permutation.
Open Scope Q_scope.

(** Both solvers, any options, any number of runs, resets, timesteps and scenarios: every problem solved is the one that belongs to
    the data of its timestep and scenario; and the run fails only if one of these can't be posed. *)
Theorem C30_posed : forall s o triv S l, wf_sys S -> steady o S None l ->
  (forall lps, run s o triv S l None = Ok lps ->
     Forall2 (fun ws P => exists W, wanted s triv S ws = Ok W /\ same_problem P W) (all_solves l) lps) /\
  ((forall ws, In ws (all_solves l) -> exists W, wanted s triv S ws = Ok W) -> exists lps, run s o triv S l None = Ok lps).
Proof.
  intros s o triv S l W St. pose proof (run_wanted s o triv S W l None None St I) as L. destruct (run s o triv S l None) as [lps|e].
  - split; [intros lps' H; injection H as <-; exact L|]. eauto.
  - split; [discriminate|]. intros H. destruct L as (ws & e' & I & E). destruct (H ws I) as [W' E']. rewrite E in E'. discriminate.
Qed.
Print Assumptions C30_posed.

(** The same for all settings of the options. *)
Theorem C30_options : forall s o o' triv S l, wf_sys S -> steady o S None l -> steady o' S None l ->
  match run s o triv S l None, run s o' triv S l None with
  | Ok lps, Ok lps' => Forall2 same_problem lps lps'
  | Err _, Err _ => True
  | _, _ => False
  end.
Proof.
  intros s o o' triv S l W St St'. pose proof (run_wanted s o triv S W l None None St I) as L. pose proof (run_wanted s o' triv S W l None None St' I) as L'.
  assert (forall xs lps ws e, Forall2 (as_wanted s triv S) xs lps -> In ws xs -> wanted s triv S ws <> Err e) as K.
  { intros xs lps ws e F. induction F as [|x y xs ys [Z [E _]] F IH]; intros H; [contradiction|]. destruct H as [<-|H]; [congruence|auto]. }
  destruct (run s o triv S l None) as [lps|e], (run s o' triv S l None) as [lps'|e']; [| | |exact I].
  - revert lps' L'. induction L as [|ws P xs ys [Z [E H]] F IH]; intros lps' F'; inversion F' as [|ws' P' xs' ys' [Z' [E' H']] F2]; subst; constructor; [|now apply IH].
    rewrite E in E'. injection E' as <-. destruct H as (A & B & C), H' as (A' & B' & C'). split; [congruence|]. split; [now rewrite B, B'|].
    intros c Hc. rewrite (C c Hc), C' by (rewrite A', <- A; exact Hc). reflexivity.
  - destruct L' as (ws & e2 & I & E). exact (K _ _ ws e2 L I E).
  - destruct L as (ws & e2 & I & E). exact (K _ _ ws e2 L' I E).
Qed.
Print Assumptions C30_options.

(** The same problem has the same answers. *)
Theorem C30_answers : forall P Q, same_problem P Q ->
  forall x, (feasible P x <-> feasible Q x) /\ objective P x == objective Q x /\ (optimal P x <-> optimal Q x).
Proof.
  assert (forall P Q x, same_problem P Q -> feasible P x -> feasible Q x) as F.
  { intros P Q x (A & B & _) [H1 H2]. split; [rewrite <- A; exact H1|]. intros r Hr. apply H2. now apply (Permutation_in r (Permutation_sym B)). }
  assert (forall P Q, same_problem P Q -> same_problem Q P) as Sy.
  { intros P Q (A & B & C). split; [now symmetry|]. split; [now symmetry|]. intros c Hc. symmetry. apply C. now rewrite A. }
  assert (forall P Q x, same_problem P Q -> objective P x == objective Q x) as O.
  { intros P Q x (A & _ & C). unfold objective. rewrite <- A. apply qsum_map_ext. intros c Hc. apply in_seq in Hc. rewrite (C c); [reflexivity|lia]. }
  assert (forall P Q x, same_problem P Q -> optimal P x -> optimal Q x) as Op.
  { intros P Q x H [H1 H2]. split; [now apply (F P Q)|]. intros y Hy. rewrite <- (O P Q x H), <- (O P Q y H). apply H2. apply (F Q P); [now apply Sy|exact Hy]. }
  intros P Q H x. split; [split; apply F; [exact H|now apply Sy]|]. split; [now apply O|]. split; apply Op; [exact H|now apply Sy].
Qed.
Print Assumptions C30_answers.

(** Histories in which the numbers and constant parameters stay as they are are steady, whatever the options. *)
Theorem C30_steady : forall o S b l, proper l -> (forall w, In w (worlds l) -> same_constants b w) -> steady o S None l.
Proof.
  intros o S b l [P1 P2] H.
  assert (forall l (w0 : option world), (forall h, In h l -> h_solves h <> []) -> (forall w, In w (worlds l) -> same_constants b w) ->
    match w0 with Some w => same_constants b w | None => match l with [] => True | h :: _ => h_setup h <> None end end -> steady o S w0 l) as G.
  2:{ apply (G l None P2 H). exact P1. }
  clear. induction l as [|h l IH]; intros w0 Ne Hw H0; cbn [steady]; [exact I|].
  assert (same_constants b (h_start h)) as Hh by (apply Hw; cbn [worlds flat_map]; now left).
  assert (exists w, match h_setup h, w0 with Some _, _ => w = h_start h | None, Some w' => w = w' | None, None => False end /\ same_constants b w) as [w [E Hb]].
  { destruct (h_setup h); [eauto|]. destruct w0 as [w|]; [eauto|congruence]. }
  exists w. split; [exact E|]. split; [apply Ne; now left|]. split.
  - intros [w2 si] I. assert (same_constants b w2) as H2.
    { apply Hw. cbn [worlds flat_map]. right. apply in_app_iff. left. apply in_map_iff. now exists (w2, si). }
    repeat split; cbn [fst snd].
    + intros _ n c Ec. apply (sc_cost _ _ Hb) in Ec. apply (sc_cost _ _ H2) in Ec. rewrite Ec. reflexivity.
    + unfold has_constant_flows in H1. apply andb_true_iff in H1 as [_ H1]. unfold is_constant in H1. rewrite (sc_min _ _ Hb n) in H1.
      rewrite (sc_min _ _ Hh n). destruct (constant (w_min b n)) as [c|] eqn:Ec; [|discriminate]. f_equal. symmetry.
      apply (sc_min_honest _ _ H2). now rewrite (sc_min _ _ H2).
    + unfold has_constant_flows in H1. apply andb_true_iff in H1 as [H1 _]. unfold is_constant in H1. rewrite (sc_max _ _ Hb n) in H1.
      rewrite (sc_max _ _ Hh n). destruct (constant (w_max b n)) as [c|] eqn:Ec; [|discriminate]. f_equal. symmetry.
      apply (sc_max_honest _ _ H2). now rewrite (sc_max _ _ H2).
    + intros _ a Ha. rewrite (sc_factors _ _ Hh a), <- (sc_factors _ _ H2 a). unfold has_constant_factors in Ha.
      assert (forallb is_constant (w_factors w2 a) = true) as Ha2.
      { assert (forall l l' : list (attr Q), map constant l = map constant l' -> forallb is_constant l = forallb is_constant l') as X.
        { clear. induction l as [|x l IH]; intros [|y l'] E; try discriminate; [reflexivity|]. cbn [map forallb] in *. injection E as E1 E2.
          unfold is_constant at 1 3. now rewrite E1, (IH l' E2). }
        rewrite (X (w_factors w2 a) (w_factors w a)); [exact Ha|]. now rewrite (sc_factors _ _ H2), (sc_factors _ _ Hb). }
      apply map_ext_in. intros p Hp. rewrite forallb_forall in Ha2. specialize (Ha2 p Hp). unfold is_constant in Ha2.
      destruct (constant p) as [c|] eqn:Ec; [|discriminate]. f_equal. symmetry. now apply (sc_factors_honest _ _ H2 a p Hp).
  - apply IH.
    + intros k Hk. apply Ne. now right.
    + intros v Hv. apply Hw. cbn [worlds flat_map]. right. apply in_app_iff. now right.
    + exact Hb.
Qed.
Print Assumptions C30_steady.

(** ** Example: the network of RouteLP_props.v.  The maximum of the demand and one cost are parameters that vary, one maximum and the
    factors are constant parameters, the others are numbers. *)
Definition lit (d : data) : world := {|
  w_min := fun n => Literal (d_min d n);
  w_max := fun n => Literal (d_max d n);
  w_cost := fun n => Literal (d_cost d n);
  w_factors := fun a => map (fun q => Param (Some q) (fun _ => q)) (d_factors d a);
  w_rest := fun _ => d |}.
Definition ex_world (demand : nat -> Q) (spring : Q) (vol : Q) : world := {|
  w_min := fun n => Literal (d_min ex_data n);
  w_max := fun n => match n with 7%nat => Param None (fun si => Fin (demand si)) | 1%nat => Param (Some (Fin spring)) (fun _ => Fin spring) | _ => Literal (d_max ex_data n) end;
  w_cost := fun n => match n with 6%nat => Param None (fun si => demand si / 2) | _ => Literal (d_cost ex_data n) end;
  w_factors := fun a => map (fun q => Param (Some q) (fun _ => q)) (d_factors ex_data a);
  w_rest := fun _ => {| d_cost := fun _ => 0; d_min := fun _ => Fin 0; d_max := fun _ => Fin 0; d_factors := fun _ => [];
    d_minvol := d_minvol ex_data; d_maxvol := d_maxvol ex_data; d_vol := fun n => match n with 3%nat => vol | _ => d_vol ex_data n end;
    d_active := d_active ex_data; d_days := 2 |} |}.
Definition once : options := Options true true true.
Definition always : options := Options false false false.
(** Two runs, two timesteps, two scenarios; the constant parameter (the maximum of the catchment) is changed between the runs. *)
Definition demands (t : Q) (si : nat) : Q := match si with 0%nat => t | _ => t + 5 end.
Definition ex_history (mem : nat -> Q) : list pass :=
  let ws spring := [(ex_world (demands 12) spring 40, 0%nat); (ex_world (demands 12) spring 40, 1%nat); (ex_world (demands 14) spring 43, 0%nat); (ex_world (demands 14) spring 37, 1%nat)] in
  [Pass (Some mem) (ex_world (demands 12) 30 40) (ws 30); Pass None (ex_world (demands 12) 25 40) (ws 25)].
Definition bounds_of (r : result (list lp)) : list (list (rtype * ext * ext)) :=
  match r with Ok l => map (fun P => map (fun r => (r_type r, r_lb r, r_ub r)) (lp_rows P)) l | Err _ => [] end.
Definition costs_of (r : result (list lp)) : list (list Q) :=
  match r with Ok l => map (fun P => map (fun c => Qred (lp_obj P c)) (seq 0 (lp_ncols P))) l | Err _ => [] end.

Example C30_example_steady : forall mem, steady once ex_sys None (ex_history mem).
Proof.
  assert (forall t t' t2 g g2 v v' v2 si, held once ex_sys (ex_world (demands t) g v) (ex_world (demands t') g2 v') (ex_world (demands t2) g2 v2, si)) as H.
  { intros. repeat split; cbn [fst snd].
    - intros _ n c. do 7 (destruct n as [|n]; [cbn; intros E; try discriminate; now injection E as <-|]). cbn. intros E. now injection E as <-.
    - revert H0. do 8 (destruct n as [|n]; [cbn; congruence|]). reflexivity.
    - intros _ a _. cbn. now rewrite !map_map. }
  intros mem. cbn [steady ex_history h_setup h_start h_solves]. eexists. split; [reflexivity|]. split; [discriminate|]. split.
  - intros ws I. repeat (destruct I as [<-|I]; [apply H|]). contradiction.
  - eexists. split; [reflexivity|]. split; [discriminate|]. split; [|exact I].
    intros ws I. repeat (destruct I as [<-|I]; [apply H|]). contradiction.
Qed.
Definition rubbish : nat -> Q := fun n => inject_Z (Z.of_nat n) + 17.

Example C30_example_routes :
  costs_of (run ByRoutes once false ex_sys (ex_history rubbish) None) =
    [[- (2); 4; - (11); 6; - (9); 0]; [- (2); 13 # 2; (- 17) # 2; 17 # 2; (- 13) # 2; 0];
     [- (2); 5; - (10); 7; - (8); 0]; [- (2); 15 # 2; (- 15) # 2; 19 # 2; (- 11) # 2; 0];
     [- (2); 4; - (11); 6; - (9); 0]; [- (2); 13 # 2; (- 17) # 2; 17 # 2; (- 13) # 2; 0];
     [- (2); 5; - (10); 7; - (8); 0]; [- (2); 15 # 2; (- 15) # 2; 19 # 2; (- 11) # 2; 0]] /\
  map (fun l => nth 0 l (FR, NInf, NInf)) (bounds_of (run ByRoutes once false ex_sys (ex_history rubbish) None)) =
    map (fun q => (DB, Fin 0, Fin q)) [30; 30; 30; 30; 25; 25; 25; 25] /\
  map (fun l => nth 5 l (FR, NInf, NInf)) (bounds_of (run ByRoutes once false ex_sys (ex_history rubbish) None)) =
    map (fun q => (DB, Fin 0, Fin q)) [12; 17; 14; 19; 12; 17; 14; 19] /\
  bounds_of (run ByRoutes once false ex_sys (ex_history rubbish) None) = bounds_of (run ByRoutes always false ex_sys (ex_history rubbish) None).
Proof. do 3 (split; [vm_compute; reflexivity|]). vm_compute; reflexivity. Qed.
Example C30_example_edges :
  hd [] (costs_of (run ByEdges once false ex_sys (ex_history rubbish) None)) = [3; - (5); 8; 3; - (17); - (2); 0; 0] /\
  length (costs_of (run ByEdges once false ex_sys (ex_history rubbish) None)) = 8%nat /\
  costs_of (run ByEdges once false ex_sys (ex_history rubbish) None) = costs_of (run ByEdges always false ex_sys (ex_history rubbish) None) /\
  bounds_of (run ByEdges once false ex_sys (ex_history rubbish) None) = bounds_of (run ByEdges always false ex_sys (ex_history rubbish) None).
Proof. do 3 (split; [vm_compute; reflexivity|]). vm_compute; reflexivity. Qed.

(** ** What is not picked up *)
Definition cost_one (q : Q) : data := {|
  d_cost := fun n => match n with 1%nat => q | _ => d_cost ex_data n end; d_min := d_min ex_data; d_max := d_max ex_data; d_factors := d_factors ex_data;
  d_minvol := d_minvol ex_data; d_maxvol := d_maxvol ex_data; d_vol := d_vol ex_data; d_active := d_active ex_data; d_days := d_days ex_data |}.
(** With set_fixed_costs_once a number assigned to `node.cost` after the set-up does not count, not even in the next run (the model is not
    dirty then); without the option it does. *)
Lemma second_problem (r : result (list lp)) (n c : nat) (q : Q) :
  match r with Ok [_; P] => Nat.eqb (lp_ncols P) n && qeqb (lp_obj P c) q | _ => false end = true ->
  exists P1 P, r = Ok [P1; P] /\ lp_ncols P = n /\ lp_obj P c == q.
Proof.
  destruct r as [[|P1 [|P [|P3 l]]]|e]; try discriminate. intros H. apply andb_true_iff in H as [A B]. exists P1, P. split; [reflexivity|].
  split; [now apply Nat.eqb_eq|]. destruct (qeqbP (lp_obj P c) q); [assumption|discriminate].
Qed.
Definition cost_history : list pass :=
  [Pass (Some rubbish) (lit (cost_one 3)) [(lit (cost_one 3), 0%nat)]; Pass None (lit (cost_one 4)) [(lit (cost_one 4), 0%nat)]].
Theorem C30_cost_changed_refuted : exists S l, wf_sys S /\ proper l /\ length (all_solves l) = 2%nat /\
  (exists P1 P2, run ByRoutes (Options false true false) false S l None = Ok [P1; P2] /\ lp_ncols P2 = 6%nat /\ lp_obj P2 0%nat == 3 - 5) /\
  (exists P1 P2, run ByRoutes always false S l None = Ok [P1; P2] /\ lp_ncols P2 = 6%nat /\ lp_obj P2 0%nat == 4 - 5).
Proof.
  exists ex_sys, cost_history. split; [exact ex_wf|].
  split; [split; [discriminate|intros h H; repeat (destruct H as [<-|H]; [discriminate|]); contradiction]|]. split; [reflexivity|].
  split; apply second_problem; vm_compute; reflexivity.
Qed.
Print Assumptions C30_cost_changed_refuted.

(** With set_fixed_flows_once a number assigned to `node.max_flow` during a run does not count before the next run. *)
Definition max_one (q : Q) : data := {|
  d_cost := d_cost ex_data; d_min := d_min ex_data; d_max := fun n => match n with 1%nat => Fin q | _ => d_max ex_data n end; d_factors := d_factors ex_data;
  d_minvol := d_minvol ex_data; d_maxvol := d_maxvol ex_data; d_vol := d_vol ex_data; d_active := d_active ex_data; d_days := d_days ex_data |}.
Definition flow_history : list pass :=
  [Pass (Some rubbish) (lit (max_one 30)) [(lit (max_one 30), 0%nat); (lit (max_one 20), 0%nat)]; Pass None (lit (max_one 20)) [(lit (max_one 20), 0%nat)]].
Lemma first_rows (r : result (list lp)) b : map (fun l => nth 0 l no_limits) (bounds_of r) = b -> b <> [] ->
  exists lps, r = Ok lps /\ map (fun P => match lp_rows P with r :: _ => (r_type r, r_lb r, r_ub r) | [] => no_limits end) lps = b.
Proof.
  destruct r as [lps|e]; cbn [bounds_of]; [|intros <- H; now elim H]. intros <- _. exists lps. split; [reflexivity|]. rewrite map_map. apply map_ext.
  intros P. destruct (lp_rows P); reflexivity.
Qed.
Theorem C30_flow_changed_refuted : exists S l, wf_sys S /\ proper l /\
  (exists lps, run ByRoutes (Options true false false) false S l None = Ok lps /\
     map (fun P => match lp_rows P with r :: _ => (r_type r, r_lb r, r_ub r) | [] => no_limits end) lps = [(DB, Fin 0, Fin 30); (DB, Fin 0, Fin 30); (DB, Fin 0, Fin 20)]) /\
  (exists lps, run ByRoutes always false S l None = Ok lps /\
     map (fun P => match lp_rows P with r :: _ => (r_type r, r_lb r, r_ub r) | [] => no_limits end) lps = [(DB, Fin 0, Fin 30); (DB, Fin 0, Fin 20); (DB, Fin 0, Fin 20)]).
Proof.
  exists ex_sys, flow_history. split; [exact ex_wf|].
  split; [split; [discriminate|intros h H; repeat (destruct H as [<-|H]; [discriminate|]); contradiction]|].
  split; apply first_rows; try discriminate; vm_compute; reflexivity.
Qed.
Print Assumptions C30_flow_changed_refuted.

(** If the number is replaced by a parameter that varies, the next run fails with the option and works without. *)
Definition replaced_history : list pass :=
  let w2 := {| w_min := w_min (lit ex_data); w_max := fun n => match n with 1%nat => Param None (fun _ => Fin 20) | _ => w_max (lit ex_data) n end;
               w_cost := w_cost (lit ex_data); w_factors := w_factors (lit ex_data); w_rest := w_rest (lit ex_data) |} in
  [Pass (Some rubbish) (lit ex_data) [(lit ex_data, 0%nat)]; Pass None w2 [(w2, 0%nat)]].
Theorem C30_replaced_refuted : exists S l, wf_sys S /\ proper l /\
  run ByRoutes (Options true false false) false S l None = Err GlpkError /\ exists P1 P2, run ByRoutes always false S l None = Ok [P1; P2].
Proof.
  exists ex_sys, replaced_history. split; [exact ex_wf|].
  split; [split; [discriminate|intros h H; repeat (destruct H as [<-|H]; [discriminate|]); contradiction]|].
  split; [vm_compute; reflexivity|]. destruct (second_problem (run ByRoutes always false ex_sys replaced_history None) 6 0 (3 - 5)) as (P1 & P2 & E & _); [vm_compute; reflexivity|eauto].
Qed.
Print Assumptions C30_replaced_refuted.
