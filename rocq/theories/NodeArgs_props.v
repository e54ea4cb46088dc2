(** C110: attributes of nodes from arguments and from documents. *)
From Verif Require Import Base LP_model NodeArgs_model NodeArgs_spec NodeArgs_proofs.
Local Open Scope nat_scope.
Local Open Scope list_scope.

(** Each attribute of a node that could be constructed, and of its sub-nodes, is what was given for it, or its default. *)
Theorem C110_constructed : forall c kw w s, construct c kw = Some w -> read s w = expected c kw s.
Proof. exact constructed. Qed.
Print Assumptions C110_constructed.

(** Nothing else is accepted. *)
Theorem C110_no_other : forall c kw w k a, construct c kw = Some w -> In (k, a) kw -> an_argument c k.
Proof.
  intros c kw w k a C I. unfold construct in C. destruct (forallb (fun p => mem (fst p) (keywords c)) kw) eqn:F; [|discriminate]. clear C.
  rewrite forallb_forall in F. specialize (F _ I). cbn [fst] in F. apply mem_In in F. unfold an_argument.
  destruct c; cbn in F;
    repeat (destruct F as [<-|F]; [first [right; cbn; tauto | left; first [exists (0, MinFlow); eexists; reflexivity | exists (0, MaxFlow); eexists; reflexivity
      | exists (1, MinFlow); eexists; reflexivity | exists (1, MaxFlow); eexists; reflexivity | exists (0, Cost); eexists; reflexivity | exists (1, Cost); eexists; reflexivity
      | exists (2, Cost); eexists; reflexivity | exists (0, Conversion); eexists; reflexivity | exists (0, LossFactor); eexists; reflexivity
      | exists (0, MinVolume); eexists; reflexivity | exists (0, MaxVolume); eexists; reflexivity | exists (0, Initial); eexists; reflexivity
      | exists (0, InitialPc); eexists; reflexivity | exists (0, Level); eexists; reflexivity | exists (0, Area); eexists; reflexivity]]|]);
    destruct F.
Qed.
Print Assumptions C110_no_other.

(** So is each attribute of a node loaded from a document, with parameters for the references to them. *)
Theorem C110_loaded : forall env c doc kw w s, direct c doc -> load_data env doc = Some kw -> load env c doc = Some w -> read s w = expected c kw s.
Proof. intros env c doc kw w s Di Ld. now apply loaded. Qed.
Print Assumptions C110_loaded.

(** A document is accepted if and only if the constructor accepts what it stands for, and both make the same node. *)
Theorem C110_same : forall env c doc kw, direct c doc -> load_data env doc = Some kw ->
  match load env c doc, construct c kw with
  | Some w, Some w' => forall s, read s w = read s w'
  | None, None => True
  | _, _ => False
  end.
Proof.
  intros env c doc kw Di Ld. pose proof (accepted env c doc kw Di Ld) as E.
  destruct (load env c doc) as [w|] eqn:L, (construct c kw) as [w'|] eqn:C; try discriminate E; [|exact I].
  intros s. now rewrite (loaded env c doc kw Di Ld w s L), (constructed c kw w' s C).
Qed.
Print Assumptions C110_same.

(** A reference to a parameter that cannot be loaded is refused. *)
Theorem C110_unresolved : forall env c doc k n, In (k, DOne (ARef n)) doc -> In k (parameters c) -> env n = None -> load env c doc = None.
Proof.
  intros env c doc k n I P E. unfold load. destruct (pre_load c doc); [|reflexivity].
  replace (load_data env (deferred c doc)) with (@None kwargs); [reflexivity|]. symmetry.
  assert (J : In (k, DOne (ARef n)) (deferred c doc)) by (apply filter_In; split; [exact I|now apply mem_In]).
  revert J. generalize (deferred c doc). induction d as [|[j x] d IH]; intros J; [destruct J|]. cbn [load_data]. destruct J as [J|J].
  - injection J as -> ->. cbn [load_datum load_atom]. now rewrite E.
  - destruct (load_datum env x); [|reflexivity]. now rewrite (IH J).
Qed.
Print Assumptions C110_unresolved.

Lemma deferred_entry env c doc w k d : c <> Aggregated -> NoDup (map fst doc) -> load env c doc = Some w -> In (k, d) doc -> In k (parameters c) ->
  exists a u, load_datum env d = Some a /\ assign c k a = Some u /\ forall s, hits c k s -> read s w = read s u.
Proof.
  intros NA ND L I P. unfold load in L. destruct (pre_load c doc) as [w0|]; [|discriminate].
  assert (J : In (k, d) (deferred c doc)) by (apply filter_In; split; [exact I|now apply mem_In]).
  assert (NDd : NoDup (map fst (deferred c doc))).
  { unfold deferred. revert ND. clear. induction doc as [|[j a] l IH]; intros ND; [constructor|]. cbn [filter fst map] in *. inversion ND; subst.
    destruct (mem j (parameters c)); [|auto]. cbn [map fst]. constructor; [|auto]. intros I. apply H1. apply in_map_iff in I as ([j' a'] & <- & I).
    apply filter_In in I as [I _]. apply in_map_iff. now exists (j', a'). }
  assert (KP : forall j, In j (map fst (deferred c doc)) -> In j (parameters c)).
  { intros j Ij. apply in_map_iff in Ij as ([j' a'] & <- & Ij). apply filter_In in Ij as [_ M]. now apply mem_In. }
  destruct (load_data env (deferred c doc)) as [kw|] eqn:LD; [|discriminate].
  destruct (assign_all c kw) as [u|] eqn:A; [|discriminate]. injection L as <-.
  pose proof (load_data_lookup _ _ _ k LD) as LL. rewrite (lookup_of _ _ _ NDd J) in LL.
  destruct (load_datum env d) as [a|] eqn:D.
  2:{ exfalso. apply lookup_none in LL. apply LL. rewrite (load_data_keys _ _ _ LD). apply in_map_iff. now exists (k, d). }
  assert (AW : exists u, assign c k a = Some u).
  { apply lookup_key in LL. revert LL A. clear. revert u. induction kw as [|[j b] l IH]; intros u I A; [destruct I|].
    apply assign_all_cons in A as (u1 & u2 & A1 & A2 & _). destruct I as [E|I]; [injection E as -> ->; now exists u1|now apply (IH u2)]. }
  destruct AW as [v AW]. exists a, v. split; [reflexivity|]. split; [exact AW|]. intros s H. rewrite read_app.
  rewrite <- (load_data_keys _ _ _ LD) in NDd, KP.
  destruct (deferred_read c s NA kw u NDd KP A) as [R _]. rewrite (R k a v LL H AW).
  pose proof (proj1 (assign_hits c k a v s NA P AW) H) as N. destruct (read s v); [reflexivity|congruence].
Qed.

(** The cost of a loaded reservoir is the cost the document gives, whatever it says of the cost above the control curve... *)
Theorem C110_reservoir : forall env doc w d, NoDup (map fst doc) -> load env Reservoir doc = Some w -> In (KCost, d) doc ->
  exists v, load_datum env d = Some (One v) /\ read (0, Cost) w = Some v.
Proof.
  intros env doc w d ND L I. destruct (deferred_entry env Reservoir doc w KCost d ltac:(discriminate) ND L I ltac:(cbn; tauto)) as (a & u & D & A & R).
  cbn [assign] in A. apply one_some in A as (v & -> & -> & AC). exists v. split; [exact D|]. rewrite (R (0, Cost) eq_refl).
  change (read (0, Cost) [(cost_part Reservoir, Cost, shown Cost v)]) with (Some (shown Cost v)). destruct v; try reflexivity.
Qed.
Print Assumptions C110_reservoir.

(** ...so the costs of a reservoir with a control curve cannot both come from a document. *)
Theorem C110_reservoir_refuted : exists env doc kw w w', NoDup (map fst doc) /\ load_data env doc = Some kw /\ load env Reservoir doc = Some w /\ construct Reservoir kw = Some w' /\
  read (0, Cost) w = Some (VNum (Fin (-10))) /\ read (0, Cost) w' = Some (VCurve (VNum (Fin 1)) (VNum (Fin 0)) (VNum (Fin (-10)))).
Proof.
  exists (fun _ => None), [(KMaxVolume, DOne (ANum (Fin 20))); (KAbove, DOne (ANum (Fin 0))); (KCost, DOne (ANum (Fin (-10))))]. do 3 eexists.
  split; [cbn; repeat constructor; cbn; intuition discriminate|]. repeat split; reflexivity.
Qed.
Print Assumptions C110_reservoir_refuted.

(** Lists of a split in a document are for all of its sublinks, the extra ones included; a constructor adds those itself. *)
Theorem C110_split_lists : forall env c n x doc k l, (c = MultiSplit n x \/ c = RiverSplit n x) -> (k = KCosts \/ k = KMaxFlows) -> NoDup (map fst doc) -> In (k, DMany l) doc ->
  match load env c doc with
  | None => True
  | Some w => List.length l = n + x /\
              exists vs, load_datum env (DMany l) = Some (Many vs) /\
                         forall i, i < n + x -> read (S i, if key_eqb k KCosts then Cost else MaxFlow) w = Some (shown (if key_eqb k KCosts then Cost else MaxFlow) (nth i vs VOther))
  end.
Proof.
  intros env c n x doc k l C K ND I. destruct (load env c doc) as [w|] eqn:L; [|exact Logic.I].
  assert (NA : c <> Aggregated) by (destruct C; congruence). assert (P : In k (parameters c)) by (destruct C as [-> | ->], K as [-> | ->]; cbn; tauto).
  assert (SL : sublinks c = n + x) by (destruct C as [-> | ->]; reflexivity).
  destruct (deferred_entry env c doc w k (DMany l) NA ND L I P) as (a & u & D & A & R).
  cbn [load_datum] in D. destruct (load_atoms env l) as [vs|] eqn:LA; [|discriminate]. cbn [option_map] in D. injection D as <-.
  assert (LL : List.length vs = List.length l).
  { clear A R; revert vs LA; clear. induction l as [|y l IH]; intros vs H; cbn [load_atoms] in H; [now injection H as <-|].
    destruct (load_atom env y); [|discriminate]. destruct (load_atoms env l) as [vs'|]; [|discriminate]. injection H as <-. cbn [List.length]. now rewrite (IH vs' eq_refl). }
  set (f := if key_eqb k KCosts then Cost else MaxFlow).
  assert (A' : per_sublink c f (Many vs) = Some u) by (destruct K as [-> | ->]; exact A).
  apply per_sublink_some in A' as (l' & E & LE & M). injection E as <-. split; [congruence|].
  exists vs. split; [cbn [load_datum]; now rewrite LA|]. intros i Li. rewrite (R (S i, f)).
  - rewrite (many_read _ _ _ _ M). destruct (slot_eq_dec (0, f) (0, f)) as [_|N]; [|congruence].
    destruct (Nat.leb_spec 1 (S i)), (Nat.ltb_spec (S i) (1 + List.length vs)); cbn [andb]; try lia. now replace (S i - 1) with i by lia.
  - destruct K as [-> | ->]; cbn [hits fst snd]; (split; [reflexivity|rewrite SL; lia]).
Qed.
Print Assumptions C110_split_lists.

Theorem C110_split_refuted : exists env doc kw w, NoDup (map fst doc) /\ load_data env doc = Some kw /\ construct (MultiSplit 1 1) kw = Some w /\ load env (MultiSplit 1 1) doc = None.
Proof.
  exists (fun _ => None), [(KCosts, DMany [ANum (Fin (-5))])]. do 2 eexists. split; [repeat constructor; intros []|]. repeat split; reflexivity.
Qed.
Print Assumptions C110_split_refuted.

(** The default lists of a river split are for a single step. *)
Theorem C110_river_split_steps : forall n x kw, n <> 1 -> lookup KCosts kw = None -> construct (RiverSplit n x) kw = None.
Proof.
  intros n x kw N K. destruct (construct (RiverSplit n x) kw) as [w|] eqn:C; [exfalso|reflexivity].
  unfold construct in C. destruct (forallb _ kw); [|discriminate]. cbn [steps] in C.
  apply piecewise_args_read in C as (wc & _ & HC & _ & _); [|exact I|reflexivity].
  rewrite pick_kw, K in HC. cbn [pad] in HC. destruct HC as [[E _]|(l & E & L & _)]; [discriminate|].
  injection E as <-. cbn [app List.length sublinks] in L. rewrite repeat_length in L. lia.
Qed.
Print Assumptions C110_river_split_steps.

(** null is a minimum volume of zero for constructors, but not in documents; a null initial volume is refused as well. *)
Theorem C110_null : forall env c doc k, c <> Aggregated -> NoDup (map fst doc) ->
  (k = KMinVolume \/ k = KCosts \/ k = KMaxFlows) -> In k (parameters c) -> In (k, DOne ANull) doc -> load env c doc = None.
Proof.
  intros env c doc k NA ND K P I. destruct (load env c doc) as [w|] eqn:L; [exfalso|reflexivity].
  destruct (deferred_entry env c doc w k _ NA ND L I P) as (a & u & D & A & _). cbn [load_datum load_atom option_map] in D. injection D as <-.
  destruct K as [-> | [-> | ->]]; discriminate A.
Qed.
Print Assumptions C110_null.
Theorem C110_null_refuted : exists env doc doc' kw kw' w w', load_data env doc = Some kw /\ construct Store kw = Some w /\ load env Store doc = None /\
  load_data env doc' = Some kw' /\ construct Store kw' = Some w' /\ load env Store doc' = None.
Proof.
  exists (fun _ => None), [(KMinVolume, DOne ANull)], [(KInitial, DOne ANull); (KMaxVolume, DOne (ANum (Fin 10)))]. do 4 eexists. repeat split; reflexivity.
Qed.
Print Assumptions C110_null_refuted.

(** A parameter as cost of a virtual storage, or of a piecewise link as a whole, can be given to the constructor but not referred to in a document. *)
Theorem C110_reference_refuted : exists env doc kw w w', load_data env doc = Some kw /\
  construct Virtual kw = Some w /\ load env Virtual doc = None /\ construct (Piecewise 2) kw = Some w' /\ load env (Piecewise 2) doc = None.
Proof. exists (fun n => Some n), [(KCost, DOne (ARef 3))]. do 3 eexists. repeat split; reflexivity. Qed.
Print Assumptions C110_reference_refuted.

(** Limits of an aggregated node can be given in documents, but not to its constructor. *)
Theorem C110_aggregated : forall kw, construct Aggregated kw = if match kw with [] => true | _ => false end then Some [] else None.
Proof. intros [|p kw]; reflexivity. Qed.
Print Assumptions C110_aggregated.
Theorem C110_aggregated_refuted : exists env doc kw w, load_data env doc = Some kw /\ construct Aggregated kw = None /\ load env Aggregated doc = Some w /\
  read (0, AggMax) w = Some (VPar 2) /\ read (0, AggMin) w = Some (VNum (Fin 1)).
Proof. exists (fun n => Some n), [(KMaxFlow, DOne (ARef 2)); (KMinFlow, DOne (ANum (Fin 1)))]. do 2 eexists. repeat split; reflexivity. Qed.
Print Assumptions C110_aggregated_refuted.

(** A gauge: the flow that has to be left, its cost, and what is above. *)
Example C110_gauge_example :
  exists w, load (fun n => Some n) Gauge [(KMrfCost, DOne (ANum (Fin (-500)))); (KMrf, DOne (ARef 7)); (KCost, DOne (ANum (Fin 1)))] = Some w /\
  map (fun s => read s w) [(1, Cost); (1, MaxFlow); (2, Cost); (2, MaxFlow); (0, MinFlow)] =
  [Some (VNum (Fin (-500))); Some (VPar 7); Some (VNum (Fin 1)); Some (VNum PInf); Some (VNum (Fin 0))].
Proof. eexists. split; reflexivity. Qed.
Example C110_catchment_example :
  exists w, load (fun n => Some n) Catchment [(KFlow, DOne (ARef 4))] = Some w /\ read (0, MinFlow) w = Some (VPar 4) /\ read (0, MaxFlow) w = Some (VPar 4).
Proof. eexists. repeat split; reflexivity. Qed.
Example C110_direct_example : direct Store [(KMaxVolume, DOne (ARef 1)); (KInitial, DOne (ANum (Fin 5))); (KCost, DOne (ANum (Fin (-1))))].
Proof.
  split.
  - cbn. repeat constructor; cbn; intuition discriminate.
  - intros k d [E|[E|[E|[]]]] M; injection E as <- <-; (discriminate || reflexivity).
  - intros k _ [E|[E|[E|[]]]]; discriminate.
  - exact I.
Qed.
