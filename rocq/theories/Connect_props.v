(** C67: connecting and disconnecting nodes. *)
From Verif Require Import Base Connect_model Connect_spec Connect_proofs.
Local Open Scope nat_scope.
Local Open Scope list_scope.

(** [connect] adds the one edge between the nodes the slots stand for, within a model, and marks the model. *)
Theorem C67_connect : forall w u v f t w', connect w u v f t = Returned w' ->
  exists a b, source (kind_of w u) u f a /\ target (kind_of w v) v t b /\ model_of w u = model_of w v /\
    (forall e, In e (edges w') <-> In e (edges w) \/ e = (a, b)) /\ dirty w' (model_of w u) = true.
Proof.
  intros w u v f t w' H. destruct (connect_returned _ _ _ _ _ _ H) as (a & b & Ha & Hb & Hm & He & _ & Hd). exists a, b. repeat split; auto; try apply He.
  rewrite Hd. cbn. rewrite Nat.eqb_refl. reflexivity.
Qed.
Print Assumptions C67_connect.

(** It returns exactly if the models are the same and both slots exist; otherwise it changes nothing. *)
Theorem C67_connect_refuses : forall w u v f t,
  ((exists w', connect w u v f t = Returned w') <->
   model_of w u = model_of w v /\ (exists a, source (kind_of w u) u f a) /\ (exists b, target (kind_of w v) v t b)) /\
  (forall w', connect w u v f t = Raised w' -> w' = w).
Proof.
  intros w u v f t. split.
  - split.
    + intros (w' & H). destruct (connect_returned _ _ _ _ _ _ H) as (a & b & Ha & Hb & Hm & _). eauto.
    + intros (Hm & (a & Ha) & (b & Hb)). destruct (connect w u v f t) as [w'|w'] eqn:E; [eauto|]. exfalso.
      destruct (connect_raised _ _ _ _ _ _ E) as [_ [H|[H|H]]]; [contradiction|eapply H; exact Ha|eapply H; exact Hb].
  - intros w' H. eapply connect_raised; exact H.
Qed.
Print Assumptions C67_connect_refuses.

(** [disconnect] of a node to which there is an edge takes away that edge and no other. *)
Theorem C67_disconnect : forall w u v sl all, kind_of w u <> Bare -> In (u, v) (edges w) ->
  exists w', disconnect w u (Some v) sl all = Returned w' /\ (forall e, In e (edges w') <-> In e (edges w) /\ e <> (u, v)) /\ dirty w' (model_of w u) = true.
Proof.
  intros w u v sl all Hk Hin. assert (E : disconnect w u (Some v) sl all = disconnect_one w u v sl all) by (unfold disconnect; destruct (kind_of w u); congruence).
  rewrite E. destruct (disconnect_one w u v sl all) as [w'|w'] eqn:Ed.
  - exists w'. destruct (disconnect_one_returned _ _ _ _ _ _ Ed) as (_ & Hd & [[_ H]|[H _]]); [|contradiction]. split; [reflexivity|]. split; [exact H|].
    rewrite Hd. cbn. rewrite Nat.eqb_refl. reflexivity.
  - exfalso. destruct (disconnect_one_raised _ _ _ _ _ _ Ed) as (_ & _ & _ & H & _). contradiction.
Qed.
Print Assumptions C67_disconnect.

(** To a storage: the edges to all its outputs are taken away, or the one to the slot given; it raises if there is none. *)
Theorem C67_disconnect_storage : forall w u v i o sl, kind_of w u <> Bare -> kind_of w v = Store i o -> ~ In (u, v) (edges w) ->
  match disconnect w u (Some v) sl true with
  | Returned w' => exists l, (match sl with None => l = o | Some s => exists b, one_of o (Some s) b /\ l = [b] end) /\
                     (exists b, In b l /\ In (u, b) (edges w)) /\ (forall e, In e (edges w') <-> In e (edges w) /\ ~ (fst e = u /\ In (snd e) l))
  | Raised w' => (forall e, In e (edges w') <-> In e (edges w)) /\
                 match sl with None => forall b, In b o -> ~ In (u, b) (edges w) | Some s => forall b, one_of o (Some s) b -> ~ In (u, b) (edges w) end
  end.
Proof.
  intros w u v i o sl Hk Hv Hn. assert (E : disconnect w u (Some v) sl true = disconnect_one w u v sl true) by (unfold disconnect; destruct (kind_of w u); congruence).
  assert (Hs : forall s b, one_of o (Some s) b <-> store_slots o (Some s) true = Some [b]).
  { intros s b. change (store_slots o (Some s) true) with (store_slots o (Some s) false). split.
    - intro H. apply store_slots_one. eauto.
    - intro H. apply store_slots_one in H. destruct H as (a & Ea & H). inversion Ea; subst. exact H. }
  assert (Hl : forall s l, store_slots o (Some s) true = Some l -> exists b, l = [b] /\ one_of o (Some s) b).
  { intros s l H. change (store_slots o (Some s) true) with (store_slots o (Some s) false) in H. apply store_slots_one in H. exact H. }
  rewrite E. destruct (disconnect_one w u v sl true) as [w'|w'] eqn:Ed.
  - destruct (disconnect_one_returned _ _ _ _ _ _ Ed) as (_ & _ & [[H _]|(_ & He & H)]); [contradiction|]. rewrite Hv in He, H. exists (slots_hit (Store i o) sl true). split; [|auto].
    unfold slots_hit, iter_slots_all in *. destruct sl as [s|].
    + destruct (store_slots o (Some s) true) as [l|] eqn:El; [|destruct He as (b & [] & _)]. destruct (Hl _ _ El) as (b & -> & Hb). eauto.
    + destruct o; reflexivity.
  - destruct (disconnect_one_raised _ _ _ _ _ _ Ed) as (He & _ & _ & _ & H). split; [exact He|]. rewrite Hv in H. unfold slots_hit, iter_slots_all in H. destruct sl as [s|].
    + intros b Hb. apply H. apply Hs in Hb. rewrite Hb. left. reflexivity.
    + intros b Hb. apply H. destruct o; [contradiction|exact Hb].
Qed.
Print Assumptions C67_disconnect_storage.

(** Without a node, all edges from the node are taken away and no other; nothing is raised. *)
Theorem C67_disconnect_all : forall w u sl all, kind_of w u <> Bare -> NoDup (edges w) ->
  exists w', disconnect w u None sl all = Returned w' /\ forall e, In e (edges w') <-> In e (edges w) /\ fst e <> u.
Proof.
  intros w u sl all Hk Hd. assert (E : disconnect w u None sl all = disconnect_each w u (neighbors w u) sl all) by (unfold disconnect; destruct (kind_of w u); congruence).
  rewrite E. destruct (disconnect_each_all (neighbors w u) w u sl all (neighbors_NoDup w u Hd)) as (w' & Ew & _ & He & _); [intros b Hb; apply neighbors_in; exact Hb|].
  exists w'. split; [exact Ew|]. intros [x y]. rewrite He. cbn [fst snd]. split.
  - intros [H1 H2]. split; [exact H1|]. intros ->. apply H2. split; [reflexivity|]. apply neighbors_in. exact H1.
  - intros [H1 H2]. split; [exact H1|]. tauto.
Qed.
Print Assumptions C67_disconnect_all.

(** ** Programs: calls that raise are caught, the program goes on *)

(** Whatever is called, no edge is there twice, and every edge is within one model. *)
Theorem C67_one_model : forall ops w, NoDup (edges w) -> housed w -> (forall a b, In (a, b) (edges w) -> model_of w a = model_of w b) ->
  NoDup (edges (perform w ops)) /\ forall a b, In (a, b) (edges (perform w ops)) -> model_of w a = model_of w b.
Proof.
  induction ops as [|o ops IH]; intros w Hd Hh Hm; [split; assumption|]. cbn [perform fold_left].
  destruct (step_same w o Hd) as [S1 S2]. pose proof (step_NoDup w o Hd) as Hd'.
  assert (Hh' : housed (left_by (step w o))) by (intros u x Hx; rewrite S1; apply Hh; rewrite S2 in Hx; exact Hx).
  assert (Hm' : forall a b, In (a, b) (edges (left_by (step w o))) -> model_of w a = model_of w b).
  { intros a b H. destruct o as [u v f t|u v sl all]; cbn [step] in H.
    - destruct (connect w u v f t) as [w1|w1] eqn:E; cbn [left_by] in H.
      + destruct (connect_returned _ _ _ _ _ _ E) as (a' & b' & Ha & Hb & Hmm & He & _). apply He in H. destruct H as [H|H]; [auto|]. inversion H; subst a' b'.
        assert (model_of w a = model_of w u) by (destruct (source_inner _ _ _ _ Ha) as [->|Hi]; auto).
        assert (model_of w b = model_of w v) by (destruct (target_inner _ _ _ _ Hb) as [->|Hi]; auto). congruence.
      + destruct (connect_raised _ _ _ _ _ _ E) as [-> _]. auto.
    - apply disconnect_left in H; auto. }
  destruct (IH _ Hd' Hh') as [A B]; [intros a b H; rewrite S1; auto|]. split; [exact A|]. intros a b H. rewrite <- S1. apply B. exact H.
Qed.
Print Assumptions C67_one_model.

(** Of two ordinary nodes, there is an edge from [u] to [v] exactly if they were connected and not disconnected since. *)
Definition cuts (u v : nat) (o : op) : Prop := match o with Disconnect x y _ _ => x = u /\ (y = None \/ y = Some v) | Connect _ _ _ _ => False end.
Definition ordinary (w : world) (u : nat) : Prop := kind_of w u = Plain /\ forall y, ~ In u (inner (kind_of w y)).

Lemma step_edge : forall w o u v, NoDup (edges w) -> ordinary w u -> ordinary w v ->
  (In (u, v) (edges (left_by (step w o))) <-> (In (u, v) (edges w) /\ ~ cuts u v o) \/ (o = Connect u v None None /\ model_of w u = model_of w v)).
Proof.
  intros w o u v Hd [Ku Fu] [Kv Fv]. destruct o as [x y f t|x y sl all]; cbn [step cuts].
  - destruct (connect w x y f t) as [w1|w1] eqn:E; cbn [left_by].
    + destruct (connect_returned _ _ _ _ _ _ E) as (a & b & Ha & Hb & Hm & He & _). rewrite He. split.
      * intros [H|H]; [auto|]. inversion H; subst a b. right.
        destruct (source_inner _ _ _ _ Ha) as [<-|Hi]; [|exfalso; eapply Fu; exact Hi]. destruct (target_inner _ _ _ _ Hb) as [<-|Hi]; [|exfalso; eapply Fv; exact Hi].
        rewrite Ku in Ha. rewrite Kv in Hb. cbn in Ha, Hb. destruct Ha as [-> _], Hb as [-> _]. auto.
      * intros [[H _]|[H _]]; [auto|]. inversion H; subst. rewrite Ku in Ha. rewrite Kv in Hb. cbn in Ha, Hb. destruct Ha as [_ ->], Hb as [_ ->]. auto.
    + destruct (connect_raised _ _ _ _ _ _ E) as [-> Hr]. split; [auto|]. intros [[H _]|[H Hm]]; [exact H|]. inversion H; subst. exfalso.
      rewrite Ku, Kv in Hr. cbn in Hr. destruct Hr as [Hr|[Hr|Hr]]; [contradiction|apply (Hr u); auto|apply (Hr v); auto].
  - assert (Hc : (In (u, v) (edges (left_by (disconnect w x y sl all))) <-> In (u, v) (edges w) /\ ~ (x = u /\ (y = None \/ y = Some v)))).
    { destruct (Nat.eq_dec x u) as [->|Hx].
      - destruct y as [y|].
        + destruct (Nat.eq_dec y v) as [->|Hy].
          * split; [|intros [_ H]; exfalso; apply H; auto]. intro H. exfalso.
            assert (E : disconnect w u (Some v) sl all = disconnect_one w u v sl all) by (unfold disconnect; rewrite Ku; reflexivity). rewrite E in H.
            destruct (disconnect_one w u v sl all) as [w1|w1] eqn:Ed; cbn [left_by] in H.
            -- destruct (disconnect_one_returned _ _ _ _ _ _ Ed) as (_ & _ & [[_ He]|(Hn & _ & He)]); apply He in H; [destruct H as [_ H]; congruence|tauto].
            -- destruct (disconnect_one_raised _ _ _ _ _ _ Ed) as (He & _ & _ & Hn & _). apply He in H. contradiction.
          * assert (E : disconnect w u (Some y) sl all = disconnect_one w u y sl all) by (unfold disconnect; rewrite Ku; reflexivity). rewrite E.
            assert (Hnc : ~ (u = u /\ (Some y = None \/ Some y = Some v))) by (intros [_ [H|H]]; congruence).
            destruct (disconnect_one w u y sl all) as [w1|w1] eqn:Ed; cbn [left_by].
            -- destruct (disconnect_one_returned _ _ _ _ _ _ Ed) as (_ & _ & [[_ He]|(Hn & _ & He)]); rewrite He; [intuition congruence|].
               cbn [fst snd]. split; [tauto|]. intros [H _]. split; [exact H|]. intros [_ Hs]. apply (Fv y). unfold slots_hit in Hs.
               destruct (kind_of w y) as [|i o| | |]; cbn [iter_slots_all] in Hs; try contradiction. cbn [inner]. apply in_or_app. right.
               destruct o as [|o0 o]; [cbn in Hs; contradiction|]. cbn [store_slots] in Hs. destruct sl as [[z|]|]; [|contradiction|destruct (all || _); [exact Hs|contradiction]].
               destruct (ScenarioParams_model.at_z (o0 :: o) z) as [c|] eqn:Ez; [|contradiction]. destruct Hs as [<-|[]]. unfold ScenarioParams_model.at_z in Ez.
               destruct (ScenarioParams_model.wrap _ z); [|discriminate]. eapply nth_error_In; exact Ez.
            -- destruct (disconnect_one_raised _ _ _ _ _ _ Ed) as (He & _). rewrite He. tauto.
        + destruct (C67_disconnect_all w u sl all) as (w1 & E & He); [congruence|exact Hd|]. rewrite E. cbn [left_by]. rewrite He. cbn [fst]. tauto.
      - pose proof (disconnect_left w x y sl all Hd) as (_ & H1 & H2 & _). split; [intro H; split; [auto|tauto]|]. intros [H _]. apply H2; auto. }
    rewrite Hc. split; [auto|]. intros [H|[H _]]; [exact H|discriminate].
Qed.

Theorem C67_history : forall ops w u v, NoDup (edges w) -> ordinary w u -> ordinary w v ->
  (In (u, v) (edges (perform w ops)) <->
   (In (u, v) (edges w) /\ forall o, In o ops -> ~ cuts u v o) \/
   (model_of w u = model_of w v /\ exists before after, ops = before ++ Connect u v None None :: after /\ forall o, In o after -> ~ cuts u v o)).
Proof.
  intro ops. induction ops as [|o ops IH] using rev_ind; intros w u v Hd Hu Hv.
  - cbn. split; [intro H; left; split; [exact H|tauto]|]. intros [[H _]|(_ & b & a & E & _)]; [exact H|]. destruct b; discriminate.
  - unfold perform in *. rewrite fold_left_app. cbn [fold_left]. specialize (IH w u v Hd Hu Hv). destruct (perform_inv ops w Hd) as [Hd' [S1 S2]]. unfold perform in *.
    set (w1 := fold_left (fun w o => left_by (step w o)) ops w) in *.
    rewrite step_edge; [|exact Hd'|destruct Hu; split; [rewrite S2; assumption|intro y; rewrite S2; auto]|destruct Hv; split; [rewrite S2; assumption|intro y; rewrite S2; auto]].
    rewrite IH, S1. split.
    + intros [[[[H Ha]|(Hm & b & a & E & Ha)] Hc]|[-> Hm]].
      * left. split; [exact H|]. intros o' Ho'. apply in_app_or in Ho'. destruct Ho' as [Ho'|[<-|[]]]; auto.
      * right. split; [exact Hm|]. exists b, (a ++ [o]). split; [rewrite E, <- app_assoc; reflexivity|]. intros o' Ho'. apply in_app_or in Ho'. destruct Ho' as [Ho'|[<-|[]]]; auto.
      * right. split; [exact Hm|]. exists ops, []. split; [reflexivity|]. intros o' [].
    + intros [[H Ha]|(Hm & b & a & E & Ha)].
      * left. split; [left; split; [exact H|]; intros o' Ho'; apply Ha; apply in_or_app; auto|]. apply Ha. apply in_or_app. right. left. reflexivity.
      * destruct a as [|o' a _] using rev_ind.
        -- apply app_inj_tail in E. destruct E as [-> ->]. right. auto.
        -- rewrite app_comm_cons, app_assoc in E. apply app_inj_tail in E. destruct E as [-> ->]. left. split; [right; split; [exact Hm|]; exists b, a; split; [reflexivity|]; intros o'' Ho; apply Ha; apply in_or_app; auto|].
           apply Ha. apply in_or_app. right. left. reflexivity.
Qed.
Print Assumptions C67_history.

(** A model whose graph is changed is marked, and only a solver set-up takes that mark away (no call here does). *)
Theorem C67_marked : forall w o m, NoDup (edges w) ->
  (dirty w m = true -> dirty (left_by (step w o)) m = true) /\
  ((exists e, In e (edges w) /\ ~ In e (edges (left_by (step w o))) \/ ~ In e (edges w) /\ In e (edges (left_by (step w o)))) ->
   dirty (left_by (step w o)) (model_of w (match o with Connect u _ _ _ | Disconnect u _ _ _ => u end)) = true).
Proof.
  intros w [u v f t|u v sl all] m Hd; cbn [step].
  - destruct (connect_left w u v f t) as (_ & H1 & H2 & H3). split; [auto|]. intros (e & [[Ha Hb]|[Ha Hb]]); [exfalso; auto|eauto].
  - destruct (disconnect_left w u v sl all Hd) as (_ & H1 & _ & H2 & H3). split; [auto|]. intros (e & [[Ha Hb]|[Ha Hb]]); [eauto|exfalso; auto].
Qed.
Print Assumptions C67_marked.

(** ** Where disconnecting does not undo connecting *)

(** A storage (1, with input 2 and output 3) is connected to 0; disconnecting it from 0 raises and leaves the edge; and disconnecting it from
    everything returns and leaves the edge too. *)
Definition shop (ks : nat -> kind) : world := World (fun _ => 0) ks [] (fun _ => false).
Definition with_store := shop (fun n => match n with 1 => Store [2] [3] | 2 | 3 => Bare | _ => Plain end).
Theorem C67_storage_source_refuted : exists w s v e, ordinary w v /\ kind_of w s <> Bare /\ edges w = [] /\
  edges (perform w [Connect s v None None]) = [e] /\
  (exists w', disconnect (perform w [Connect s v None None]) s (Some v) None true = Raised w' /\ edges w' = [e]) /\
  (exists w', disconnect (perform w [Connect s v None None]) s None None true = Returned w' /\ edges w' = [e]).
Proof.
  exists with_store, 1, 0, (2, 0). split; [split; [reflexivity|intros [|[|[|[|y]]]]; cbn; intuition congruence]|]. split; [discriminate|]. split; [reflexivity|]. split; [reflexivity|].
  split; eexists; split; reflexivity.
Qed.
Print Assumptions C67_storage_source_refuted.

(** An ordinary node (0) is connected to a compound node (1, made of 2 and 3); disconnecting them raises, since [iter_slots] of the
    compound node does not take [all_slots]. *)
Definition with_compound := shop (fun n => match n with 1 => Through 2 3 | _ => Plain end).
Theorem C67_compound_target_refuted : exists w u c e, ordinary w u /\ edges w = [] /\ edges (perform w [Connect u c None None]) = [e] /\
  exists w', disconnect (perform w [Connect u c None None]) u (Some c) None true = Raised w' /\ edges w' = [e].
Proof.
  exists with_compound, 0, 1, (0, 3). split; [split; [reflexivity|intros [|[|[|[|y]]]]; cbn; intuition congruence]|]. split; [reflexivity|]. split; [reflexivity|].
  eexists; split; reflexivity.
Qed.
Print Assumptions C67_compound_target_refuted.

(** ** Examples *)
(** The example of the tests: two outputs (3 and 4), connected by number, disconnected by number or all at once. *)
Definition with_two := shop (fun n => match n with 1 => Store [2] [3; 4] | 2 | 3 | 4 => Bare | _ => Plain end).
Example slots_example :
  edges (perform with_two [Connect 0 1 None (Some (Num 0)); Connect 0 1 None (Some (Num (-1))); Connect 5 1 None (Some (Num 1))]) = [(0, 3); (0, 4); (5, 4)] /\
  edges (perform with_two [Connect 0 1 None None]) = [] /\
  edges (perform with_two [Connect 0 1 None (Some (Num 0)); Connect 0 1 None (Some (Num 1)); Disconnect 0 (Some 1) (Some (Num 0)) true]) = [(0, 4)] /\
  edges (perform with_two [Connect 0 1 None (Some (Num 0)); Connect 0 1 None (Some (Num 1)); Connect 5 1 None (Some (Num 1)); Disconnect 0 (Some 1) None true]) = [(5, 4)] /\
  edges (perform with_two [Connect 0 1 None (Some (Num 0)); Connect 0 5 None None; Connect 5 1 None (Some (Num 1)); Disconnect 0 None None true]) = [(5, 4)].
Proof. repeat split; reflexivity. Qed.
Example split_example :
  let w := shop (fun n => match n with 1 => Split [Name "river"; Name "abstraction"] 2 [3] 4 | _ => Plain end) in
  edges (perform w [Connect 0 1 None None; Connect 1 5 (Some (Name "abstraction")) None; Connect 1 6 (Some (Name "river")) None; Connect 1 7 None None]) = [(0, 4); (3, 5); (2, 6)].
Proof. reflexivity. Qed.
Example history_example : ordinary with_two 0 /\ ordinary with_two 5 /\
  In (0, 5) (edges (perform with_two [Connect 0 5 None None; Disconnect 0 None None true; Connect 0 5 None None; Disconnect 5 (Some 0) None true])).
Proof.
  split; [split; [reflexivity|intros [|[|[|[|[|y]]]]]; cbn; intuition congruence]|]. split; [split; [reflexivity|intros [|[|[|[|[|y]]]]]; cbn; intuition congruence]|].
  left. reflexivity.
Qed.
