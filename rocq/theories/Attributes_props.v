(** C105: attributes of nodes. *)
From Verif Require Import Base LP_model Attributes_model.
Local Open Scope nat_scope.
Local Open Scope list_scope.

(** A parameter with a value for each combination. *)
Definition fits (ncomb : nat) (a : attr) : Prop := match a_param a with Some p => length p = ncomb | None => True end.
Definition fitting (ncomb : nat) (n : anode) : Prop :=
  match n with
  | Other => True
  | Simple a b c | Piecewise a b c _ => fits ncomb a /\ fits ncomb b /\ fits ncomb c
  | Aggregated a b => fits ncomb a /\ fits ncomb b
  | IntoNetwork a | IntoStore a => fits ncomb a
  end.
Definition not_piecewise (n : anode) : Prop := match n with Piecewise _ _ _ _ => False | _ => True end.

(** C105: after any history of assignments the attribute reads back as the last one that was accepted, None reading as its default;
    and the values in force are those of the last number or parameter assigned. *)
Fixpoint assign (f : field) (a : attr) (vs : list assigned) : attr :=
  match vs with [] => a | v :: vs => assign f (fst (set_attr (none_value f) a v)) vs end.
Definition fresh (f : field) : attr := Attr (initial_value f) None.
Lemma assign_app f vs : forall a v, assign f a (vs ++ [v]) = fst (set_attr (none_value f) (assign f a vs) v).
Proof. induction vs as [|u vs IH]; intros a v; cbn [assign app]; [reflexivity|]. apply IH. Qed.

Theorem C105_last_assignment : forall f vs v, snd (set_attr (none_value f) (assign f (fresh f) vs) v) = false ->
  let a := assign f (fresh f) (vs ++ [v]) in
  read_attr a = match v, none_value f with ANone, Some d => ANumber d | _, _ => v end /\
  forall s, match v with
            | ANumber x => get_attr a s = x
            | AParam p => get_attr a s = nth s p (Fin 0)
            | ANone => Some (get_attr a s) = none_value f
            | AOther => False
            end.
Proof.
  intros f vs v H a. unfold a. rewrite assign_app. unfold set_attr in *. destruct v, (none_value f); cbn in *; try discriminate; split; reflexivity.
Qed.
Print Assumptions C105_last_assignment.

(** C105: None is refused exactly for cost, min_volume and max_volume. *)
Theorem C105_none : forall f a, snd (set_attr (none_value f) a ANone) = true <-> In f [NodeCost; StorageCost; MinVolume; MaxVolume].
Proof. intros f a. destruct f; cbn; split; (intros H; repeat destruct H as [H|H]; try discriminate; tauto) || tauto. Qed.
Print Assumptions C105_none.

(** C105 fails where an assignment is refused: the parameter that was there is gone, and the constant from before it is in force. *)
Theorem C105_refused_refuted : exists f a v, let (a', raised) := set_attr (none_value f) a v in raised = true /\ get_attr a' 0 <> get_attr a 0.
Proof. exists NodeCost, (assign NodeCost (fresh NodeCost) [ANumber (Fin 3); AParam [Fin 5]]), ANone. vm_compute. split; [reflexivity|discriminate]. Qed.
Print Assumptions C105_refused_refuted.

(** C105: None is the value of a new node where it is accepted, except for the minimum flow of an aggregated node. *)
Theorem C105_default : forall f d, none_value f = Some d -> f <> AggMinFlow -> d = initial_value f.
Proof. intros f d H N. destruct f; cbn in *; congruence. Qed.
Print Assumptions C105_default.
(** It is 0 for a new one and minus infinity after None: flows of members weighted negatively are then possible. *)
Theorem C105_default_refuted : exists f d, none_value f = Some d /\ d <> initial_value f.
Proof. exists AggMinFlow, NInf. split; [reflexivity|discriminate]. Qed.
Print Assumptions C105_default_refuted.

(** C105: the vector of all combinations holds for each combination what the scalar method gives. *)
Lemma get_all_nth ncomb a : fits ncomb a -> get_all_attr ncomb a = map (get_attr a) (seq 0 ncomb).
Proof.
  unfold fits, get_all_attr, get_attr. destruct (a_param a) as [p|].
  - intros <-. unfold get_value. clear. induction p as [|x p IH] using rev_ind; [reflexivity|]. rewrite app_length, Nat.add_1_r, seq_S, map_app. cbn [Nat.add map].
    rewrite app_nth2, Nat.sub_diag by lia. cbn [nth]. f_equal. rewrite IH at 1. apply map_ext_in. intros s I. apply in_seq in I. now rewrite app_nth1 by lia.
  - intros _. generalize 0. induction ncomb as [|n IH]; intros k; cbn [repeat seq map]; [reflexivity|]. f_equal. apply IH.
Qed.
Lemma repeat_seq {A} (x : A) n : repeat x n = map (fun _ => x) (seq 0 n).
Proof. generalize 0. induction n as [|n IH]; intros k; cbn [repeat seq map]; [reflexivity|]. f_equal. apply IH. Qed.

Theorem C105_vectors : forall ncomb n, fitting ncomb n ->
  get_all_cost ncomb n = map (get_cost n) (seq 0 ncomb) /\
  (not_piecewise n -> get_all_min_flow ncomb n = map (get_min_flow n) (seq 0 ncomb) /\ get_all_max_flow ncomb n = map (get_max_flow n) (seq 0 ncomb)).
Proof.
  intros ncomb n F. destruct n; cbn [fitting not_piecewise] in *; (split; [|intros NP; try contradiction; split]);
    cbn [get_all_cost get_cost get_all_min_flow get_min_flow get_all_max_flow get_max_flow];
    repeat match goal with H : _ /\ _ |- _ => destruct H end; rewrite ?repeat_seq; try reflexivity; rewrite get_all_nth by assumption; now rewrite map_map.
Qed.
Print Assumptions C105_vectors.

(** C105: what each class of nodes takes from its attributes.  The value of an attribute in a combination: the number it reads as, or the value of the parameter it reads as. *)
Definition in_force (a : attr) (s : nat) (x : ext) : Prop :=
  match read_attr a with ANumber y => x = y | AParam p => nth_error p s = Some x | _ => False end.
Lemma in_force_get ncomb a s : s < ncomb -> fits ncomb a -> in_force a s (get_attr a s).
Proof.
  unfold in_force, read_attr, get_attr, fits. destruct (a_param a) as [p|]; [|reflexivity]. intros H L. unfold get_value. apply nth_error_nth'. lia.
Qed.
(** The sum of values, one of which may be infinite. *)
Definition sums (l : list ext) (x : ext) : Prop :=
  ((exists qs q, l = map Fin qs /\ x = Fin q /\ q == qsum qs) \/ (In PInf l /\ ~ In NInf l /\ x = PInf) \/ (In NInf l /\ ~ In PInf l /\ x = NInf))%Q.
Lemma esum_sums l : ~ (In PInf l /\ In NInf l) -> exists x, esum l = Some x /\ sums l x.
Proof.
  induction l as [|a l IH] using rev_ind; intros N.
  - exists (Fin 0). split; [reflexivity|]. left. exists [], 0%Q. repeat split.
  - destruct IH as (x & E & Sx); [intros [P Q]; apply N; split; apply in_or_app; now left|]. unfold esum in *. rewrite fold_left_app, E. cbn [fold_left].
    destruct Sx as [(qs & q & -> & -> & Eq)|[(P & Q & ->)|(P & Q & ->)]].
    + destruct a as [|y|]; cbn [eadd].
      * exists NInf. split; [reflexivity|]. right. right. split; [apply in_or_app; right; now left|]. split; [|reflexivity]. intros I. apply N. split; [exact I|apply in_or_app; right; now left].
      * exists (Fin (q + y)). split; [reflexivity|]. left. exists (qs ++ [y]), (q + y)%Q. rewrite map_app. split; [reflexivity|]. split; [reflexivity|]. rewrite qsum_app, Eq. cbn [qsum]. ring.
      * exists PInf. split; [reflexivity|]. right. left. split; [apply in_or_app; right; now left|]. split; [|reflexivity]. intros I. apply N. split; [apply in_or_app; right; now left|exact I].
    + destruct a as [|y|]; cbn [eadd]; [exfalso; apply N; split; apply in_or_app; [now left|right; now left]| |];
        exists PInf; (split; [reflexivity|]); right; left; (split; [apply in_or_app; now left|]); (split; [|reflexivity]); intros I; apply in_app_or in I as [I|[I|[]]]; [now apply Q|discriminate|now apply Q|discriminate].
    + destruct a as [|y|]; cbn [eadd]; [| |exfalso; apply N; split; apply in_or_app; [right; now left|now left]];
        exists NInf; (split; [reflexivity|]); right; right; (split; [apply in_or_app; now left|]); (split; [|reflexivity]); intros I; apply in_app_or in I as [I|[I|[]]]; [now apply Q|discriminate|now apply Q|discriminate].
Qed.
Lemma esum_stays e l : (e = PInf /\ In NInf l \/ e = NInf /\ In PInf l) -> fold_left (fun acc x => eadd acc (Some x)) l (Some e) = None.
Proof.
  assert (N : forall l, fold_left (fun acc x => eadd acc (Some x)) l None = None) by (clear; induction l as [|x l IH]; [reflexivity|exact IH]).
  induction l as [|a l IH]; [intros [[_ []]|[_ []]]|]. cbn [fold_left In]. intros [[-> [->|H]]|[-> [->|H]]]; cbn [eadd]; try apply N; destruct a; cbn [eadd]; try apply N; apply IH; auto.
Qed.
Lemma esum_nan l : In PInf l /\ In NInf l -> esum l = None.
Proof.
  unfold esum. generalize 0%Q. induction l as [|a l IH]; [intros q [[] _]|]. intros q [P Q]. cbn [fold_left]. destruct a as [|y|]; cbn [eadd].
  - apply esum_stays. right. destruct P as [P|P]; [discriminate|auto].
  - apply IH. destruct P as [P|P]; [discriminate|]. destruct Q as [Q|Q]; [discriminate|auto].
  - apply esum_stays. left. destruct Q as [Q|Q]; [discriminate|auto].
Qed.
(** A node has its own cost and bounds of flow; the node through which water leaves a store has minus the cost of the store, the one through which it enters has that cost; the bounds of a piecewise link are the sums of those of its sublinks (NaN if both infinities are among them). *)
Theorem C105_classes : forall ncomb s, s < ncomb ->
  (forall c lo hi, fits ncomb c -> fits ncomb lo -> fits ncomb hi -> exists x l h,
    get_cost (Simple c lo hi) s = Some x /\ get_min_flow (Simple c lo hi) s = Some l /\ get_max_flow (Simple c lo hi) s = Some h /\ in_force c s x /\ in_force lo s l /\ in_force hi s h) /\
  (forall lo hi, fits ncomb lo -> fits ncomb hi -> exists l h,
    get_cost (Aggregated lo hi) s = Some (Fin 0) /\ get_min_flow (Aggregated lo hi) s = Some l /\ get_max_flow (Aggregated lo hi) s = Some h /\ in_force lo s l /\ in_force hi s h) /\
  (forall c, fits ncomb c -> exists x, get_cost (IntoStore c) s = Some x /\ get_cost (IntoNetwork c) s = Some (eneg x) /\ in_force c s x) /\
  (forall c lo hi subs, fits ncomb c -> Forall (fun sl => fits ncomb (fst sl) /\ fits ncomb (snd sl)) subs -> exists x ls hs,
    get_cost (Piecewise c lo hi subs) s = Some x /\ in_force c s x /\ Forall2 (fun sl y => in_force (fst sl) s y) subs ls /\ Forall2 (fun sl y => in_force (snd sl) s y) subs hs /\
    (~ (In PInf ls /\ In NInf ls) -> exists l, get_min_flow (Piecewise c lo hi subs) s = Some l /\ sums ls l) /\
    (In PInf ls /\ In NInf ls -> get_min_flow (Piecewise c lo hi subs) s = None) /\ (In PInf hs /\ In NInf hs -> get_max_flow (Piecewise c lo hi subs) s = None) /\
    (~ (In PInf hs /\ In NInf hs) -> exists h, get_max_flow (Piecewise c lo hi subs) s = Some h /\ sums hs h)).
Proof.
  intros ncomb s H. split; [|split; [|split]].
  - intros c lo hi Fc Fl Fh. exists (get_attr c s), (get_attr lo s), (get_attr hi s). repeat (split; [reflexivity|]). split; [|split]; now apply (in_force_get ncomb).
  - intros lo hi Fl Fh. exists (get_attr lo s), (get_attr hi s). repeat (split; [reflexivity|]). split; now apply (in_force_get ncomb).
  - intros c Fc. exists (get_attr c s). repeat (split; [reflexivity|]). now apply (in_force_get ncomb).
  - intros c lo hi subs Fc Fs. exists (get_attr c s), (map (fun sl => get_attr (fst sl) s) subs), (map (fun sl => get_attr (snd sl) s) subs). split; [reflexivity|]. split; [now apply (in_force_get ncomb)|].
    split; [|split; [|split; [|split; [|split]]]].
    + induction Fs as [|sl subs [Fl Fh] Fs IH]; constructor; [now apply (in_force_get ncomb)|exact IH].
    + induction Fs as [|sl subs [Fl Fh] Fs IH]; constructor; [now apply (in_force_get ncomb)|exact IH].
    + intros N. apply esum_sums in N. exact N.
    + exact (esum_nan _).
    + exact (esum_nan _).
    + intros N. apply esum_sums in N. exact N.
Qed.
Print Assumptions C105_classes.

(** C105 fails for PiecewiseLink: the scalar methods give the sum over the sublinks, the vectors (which TablesRecorder writes) those of the
    node itself, which nothing looks at in solving. *)
Theorem C105_piecewise_refuted : exists n, fitting 1 n /\ get_all_max_flow 1 n <> map (get_max_flow n) (seq 0 1).
Proof.
  exists (Piecewise (fresh NodeCost) (fresh NodeMinFlow) (fresh NodeMaxFlow) [(fresh NodeMinFlow, Attr (Fin 2) None); (fresh NodeMinFlow, Attr (Fin 3) None)]).
  split; [cbn; auto|vm_compute; discriminate].
Qed.
Print Assumptions C105_piecewise_refuted.

(** C105: a fixed bound is the bound in force in every combination; otherwise NaN. *)
Theorem C105_fixed : forall lo hi a, a = lo \/ a = hi ->
  (forall x, get_fixed lo hi a = Some x -> forall s, get_attr a s = x) /\
  (get_fixed lo hi a = None <-> a_param lo <> None \/ a_param hi <> None).
Proof.
  intros lo hi a E. unfold get_fixed, is_fixed. split.
  - destruct (a_param hi) eqn:H, (a_param lo) eqn:L; cbn [andb]; try discriminate. intros x [= <-] s. unfold get_attr. destruct E; subst a; now rewrite ?L, ?H.
  - destruct (a_param hi), (a_param lo); cbn [andb]; split; intros; try discriminate; try (left; discriminate); try (right; discriminate); try reflexivity.
    destruct H as [H|H]; congruence.
Qed.
Print Assumptions C105_fixed.

Example C105_example :
  let c := assign StorageCost (fresh StorageCost) [ANumber (Fin 3); AParam [Fin 5; Fin 7]] in
  get_all_cost 2 (IntoNetwork c) = [Some (Fin (-5)); Some (Fin (-7))] /\ get_all_cost 2 (IntoStore (assign StorageCost c [ANumber (Fin 4)])) = [Some (Fin 4); Some (Fin 4)] /\
  get_max_flow (Piecewise (fresh NodeCost) (fresh NodeMinFlow) (fresh NodeMaxFlow) [(fresh NodeMinFlow, Attr (Fin 2) None); (fresh NodeMinFlow, fresh NodeMaxFlow)]) 0 = Some PInf.
Proof. vm_compute. repeat split. Qed.
