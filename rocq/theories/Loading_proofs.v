From Verif Require Import Base Sorting Loading_model Loading_spec.
Local Close Scope string_scope.
Local Open Scope nat_scope.
Local Open Scope list_scope.

(** ** Induction over data *)
Section DataInd.
  Variable Q : data -> Prop.
  Hypothesis HL : Q Literal.
  Hypothesis HR : forall k n, Q (Ref k n).
  Hypothesis HU : forall k, Q (Untyped k).
  Hypothesis HI : forall k t n g c, Forall Q c -> Q (Inline k t n g c).
  Fixpoint data_ind' (d : data) : Q d :=
    match d with
    | Literal => HL
    | Ref k n => HR k n
    | Untyped k => HU k
    | Inline k t n g c =>
        HI k t n g c ((fix go (l : list data) : Forall Q l :=
                         match l with [] => Forall_nil _ | x :: r => Forall_cons x (data_ind' x) (go r) end) c)
    end.
End DataInd.

(** ** The loaders step by step *)
Definition list_with (f : data -> state -> result value) : list data -> state -> result (list value) :=
  fix go (l : list data) (s : state) : result (list value) :=
  match l with
  | [] => Ok [] s
  | c :: r => bind (f c s) (fun v s1 => bind (go r s1) (fun vs s2 => Ok (v :: vs) s2))
  end.
Lemma list_with_cons : forall f c r s, list_with f (c :: r) s = bind (f c s) (fun v s1 => bind (list_with f r s1) (fun vs s2 => Ok (v :: vs) s2)).
Proof. reflexivity. Qed.

Lemma load_with_inline : forall rec k t n g c s,
  load_with rec (Inline k t n g c) s =
  bind (list_with (load_with rec) c s) (fun vs s' => if g then build k t n (Inline k t n g c) vs s' else Failed).
Proof. reflexivity. Qed.
Lemma load_list_with : forall fuel l s, load_list fuel l s = list_with (load fuel) l s.
Proof. intros fuel l; induction l as [|c r IH]; intro s; cbn [load_list]; [reflexivity|rewrite list_with_cons]. destruct (load fuel c s); cbn [bind]; auto. rewrite IH. reflexivity. Qed.

Definition rec_of (fuel : nat) : data -> state -> result value := match fuel with O => fun _ _ => Stuck | S f => load f end.
Lemma load_unfold : forall fuel, load fuel = load_with (rec_of fuel).
Proof. intros [|f]; reflexivity. Qed.
Lemma load_inline : forall fuel k t n g c s,
  load fuel (Inline k t n g c) s =
  bind (load_list fuel c s) (fun vs s' => if g then build k t n (Inline k t n g c) vs s' else Failed).
Proof. intros. rewrite load_list_with, load_unfold, load_with_inline. reflexivity. Qed.
Lemma load_ref : forall fuel k n s,
  load fuel (Ref k n) s =
  match lookup k n (objects s) with
  | Some o => Ok (Obj (o_id o)) s
  | None => match take k n (to_load s) with
            | None => Failed
            | Some (d', rest) => rec_of fuel d' (State rest (objects s))
            end
  end.
Proof. intros. rewrite load_unfold. reflexivity. Qed.

(** A property of all successful loads from one of the four ways to load. *)
Section LoadInd.
  Variable Q : data -> state -> value -> state -> Prop.
  Variable QL : list data -> state -> list value -> state -> Prop.
  Hypothesis HLit : forall s, Q Literal s Number s.
  Hypothesis HUnt : forall s, Q (Untyped P) s Number s.
  Hypothesis HFound : forall k n s o, lookup k n (objects s) = Some o -> Q (Ref k n) s (Obj (o_id o)) s.
  Hypothesis HPop : forall k n s d rest v s', lookup k n (objects s) = None -> take k n (to_load s) = Some (d, rest) ->
    Q d (State rest (objects s)) v s' -> Q (Ref k n) s v s'.
  Hypothesis HInl : forall k t n c s vs s1 v s2, QL c s vs s1 -> build k t n (Inline k t n true c) vs s1 = Ok v s2 ->
    Q (Inline k t n true c) s v s2.
  Hypothesis HNil : forall s, QL [] s [] s.
  Hypothesis HCons : forall c r s v s1 vs s2, Q c s v s1 -> QL r s1 vs s2 -> QL (c :: r) s (v :: vs) s2.

  Lemma list_scheme : forall fuel l, Forall (fun d => forall s v s', load fuel d s = Ok v s' -> Q d s v s') l ->
    forall s vs s', load_list fuel l s = Ok vs s' -> QL l s vs s'.
  Proof.
    intros fuel l; induction l as [|c r IH]; intros HF s vs s' E; cbn [load_list] in E.
    - inversion E; subst. apply HNil.
    - destruct (load fuel c s) as [v s1| |] eqn:E1; cbn [bind] in E; try discriminate.
      destruct (load_list fuel r s1) as [vs2 s2| |] eqn:E2; cbn [bind] in E; try discriminate. inversion E; subst.
      eapply HCons; [exact (Forall_inv HF _ _ _ E1)|]. apply (IH (Forall_inv_tail HF)). exact E2.
  Qed.
  Lemma load_scheme : forall fuel d s v s', load fuel d s = Ok v s' -> Q d s v s'.
  Proof.
    induction fuel as [|f IHf]; intro d; induction d as [|k n|k|k t n g c IHc] using data_ind'; intros s v s' E.
    1,5: rewrite load_unfold in E; inversion E; subst; apply HLit.
    1,4: rewrite load_ref in E; destruct (lookup k n (objects s)) as [o|] eqn:El;
        [inversion E; subst; apply HFound; exact El|];
        destruct (take k n (to_load s)) as [[d' rest]|] eqn:Et; [|discriminate].
    - discriminate.
    - cbn [rec_of] in E. eapply HPop; eauto.
    - rewrite load_unfold in E. destruct k; inversion E; subst. apply HUnt.
    - rewrite load_inline in E. destruct (load_list 0 c s) as [vs s1| |] eqn:E1; cbn [bind] in E; try discriminate.
      destruct g; [|discriminate]. eapply HInl; [|exact E]. eapply list_scheme; eauto.
    - rewrite load_unfold in E. destruct k; inversion E; subst. apply HUnt.
    - rewrite load_inline in E. destruct (load_list (S f) c s) as [vs s1| |] eqn:E1; cbn [bind] in E; try discriminate.
      destruct g; [|discriminate]. eapply HInl; [|exact E]. eapply list_scheme; eauto.
  Qed.
  Lemma load_list_scheme : forall fuel l s vs s', load_list fuel l s = Ok vs s' -> QL l s vs s'.
  Proof. intros fuel l s vs s'. apply list_scheme. apply Forall_forall. intros; eapply load_scheme; eauto. Qed.
End LoadInd.

(** ** Taking entries out of the dictionaries *)
Lemma kind_eqb_eq : forall a b, kind_eqb a b = true <-> a = b.
Proof. intros [] []; cbn; split; intro; congruence. Qed.
Lemma kind_eqb_refl : forall a, kind_eqb a a = true. Proof. intros []; reflexivity. Qed.

Lemma take_perm : forall k n l d r, take k n l = Some (d, r) -> Permutation l (((k, n), d) :: r).
Proof.
  intros k n l; induction l as [|[[k0 n0] d0] t IH]; intros d r E; cbn [take fst snd] in E; [discriminate|].
  destruct (kind_eqb k0 k && String.eqb n0 n)%bool eqn:Ek.
  - apply andb_true_iff in Ek. destruct Ek as [Ek En]. apply kind_eqb_eq in Ek. apply String.eqb_eq in En. inversion E; subst. reflexivity.
  - destruct (take k n t) as [[d1 r1]|] eqn:Et; [|discriminate]. inversion E; subst.
    rewrite (IH _ _ eq_refl). apply perm_swap.
Qed.
Lemma take_none : forall k n l, take k n l = None -> ~ In (k, n) (map fst l).
Proof.
  intros k n l; induction l as [|[[k0 n0] d0] t IH]; intros E; cbn [take fst snd map] in *; [auto|].
  destruct (kind_eqb k0 k && String.eqb n0 n)%bool eqn:Ek; [discriminate|].
  destruct (take k n t) as [[d1 r1]|] eqn:Et; [discriminate|]. intros [H|H].
  - inversion H; subst. rewrite kind_eqb_refl, String.eqb_refl in Ek. discriminate.
  - exact (IH eq_refl H).
Qed.
Lemma take_first_perm : forall k l n d r, take_first k l = Some ((n, d), r) -> Permutation l (((k, n), d) :: r).
Proof.
  intros k l; induction l as [|[[k0 n0] d0] t IH]; intros n d r E; cbn [take_first fst snd] in E; [discriminate|].
  destruct (kind_eqb k0 k) eqn:Ek.
  - apply kind_eqb_eq in Ek. inversion E; subst. reflexivity.
  - destruct (take_first k t) as [[[n1 d1] r1]|] eqn:Et; [|discriminate]. inversion E; subst.
    rewrite (IH _ _ _ eq_refl). apply perm_swap.
Qed.
Lemma take_first_none : forall k l, take_first k l = None -> Forall (fun e => fst (fst e) <> k) l.
Proof.
  intros k l; induction l as [|[[k0 n0] d0] t IH]; intro E; cbn [take_first fst snd] in E; constructor.
  - destruct (kind_eqb k0 k) eqn:Ek; [discriminate|]. cbn. intro; subst. rewrite kind_eqb_refl in Ek. discriminate.
  - apply IH. destruct (kind_eqb k0 k); [discriminate|]. destruct (take_first k t) as [[? ?]|]; congruence.
Qed.
Lemma popitem_perm : forall k l n d r, popitem k l = Some ((n, d), r) -> Permutation l (((k, n), d) :: r).
Proof.
  intros k l n d r E. unfold popitem in E. destruct (take_first k (rev l)) as [[x r1]|] eqn:Et; [|discriminate]. inversion E; subst.
  apply take_first_perm in Et. rewrite (Permutation_rev l), Et. constructor. apply Permutation_rev.
Qed.
Lemma popitem_none : forall k l, popitem k l = None -> Forall (fun e => fst (fst e) <> k) l.
Proof.
  intros k l E. unfold popitem in E. destruct (take_first k (rev l)) as [[x r1]|] eqn:Et; [discriminate|].
  apply take_first_none in Et. apply Forall_forall. intros e He. rewrite Forall_forall in Et. apply Et. apply -> in_rev. exact He.
Qed.

(** ** Conservation: what is constructed is what is in the data *)
Definition pending (l : list ((kind * string) * data)) : list data := flat_map (fun e => dictionaries (snd e)) l.
Definition sources (l : list object) : list data := map o_data l.

Lemma pending_perm : forall l l', Permutation l l' -> Permutation (pending l) (pending l').
Proof. intros. unfold pending. apply Permutation_flat_map. assumption. Qed.

Lemma build_ok : forall k t n d vs s v s', build k t n d vs s = Ok v s' ->
  v = Obj (List.length (objects s)) /\ to_load s' = to_load s /\
  objects s' = objects s ++ [Object (List.length (objects s)) k (own_name k t n) d vs] /\
  (forall m, own_name k t n = Some m -> existsb (named m) (objects s) = false).
Proof.
  intros k t n d vs s v s' E. unfold build in E. cbv zeta in E.
  destruct (own_name k t n) as [m|] eqn:En.
  - destruct (existsb (named m) (objects s)) eqn:Ex; [discriminate|]. inversion E; subst. cbn. repeat split; auto. intros m' [= <-]. exact Ex.
  - inversion E; subst. cbn. repeat split; auto. discriminate.
Qed.

Definition grows (s s' : state) : Prop := exists new, objects s' = objects s ++ new.
Definition shrinks (s s' : state) : Prop := exists gone, Permutation (to_load s) (gone ++ to_load s').
Definition conserved (ds : list data) (s s' : state) : Prop :=
  Permutation (sources (objects s') ++ pending (to_load s')) (sources (objects s) ++ ds ++ pending (to_load s)).

Lemma grows_refl : forall s, grows s s. Proof. intro s. exists []. rewrite app_nil_r. reflexivity. Qed.
Lemma grows_trans : forall a b c, grows a b -> grows b c -> grows a c.
Proof. intros a b c [n E] [m F]. exists (n ++ m). rewrite F, E, app_assoc. reflexivity. Qed.
Lemma shrinks_refl : forall s, shrinks s s. Proof. intro s. exists []. reflexivity. Qed.
Lemma shrinks_trans : forall a b c, shrinks a b -> shrinks b c -> shrinks a c.
Proof. intros a b c [n E] [m F]. exists (n ++ m). rewrite E, F, app_assoc. reflexivity. Qed.

Definition basic (ds : list data) (s s' : state) : Prop := grows s s' /\ shrinks s s' /\ conserved ds s s'.

Lemma basic_refl : forall s, basic [] s s.
Proof. intro s. repeat split; [apply grows_refl|apply shrinks_refl|]. unfold conserved. reflexivity. Qed.
Lemma basic_trans : forall d1 d2 a b c, basic d1 a b -> basic d2 b c -> basic (d1 ++ d2) a c.
Proof.
  intros d1 d2 a b c (G1 & S1 & C1) (G2 & S2 & C2). repeat split; [eapply grows_trans; eauto|eapply shrinks_trans; eauto|].
  unfold conserved in *. rewrite C2.
  rewrite (Permutation_app_comm d2), app_assoc, C1, <- !app_assoc. apply Permutation_app_head. apply Permutation_app_head. apply Permutation_app_comm.
Qed.
Lemma basic_pop : forall k n d rest ds s s', Permutation (to_load s) (((k, n), d) :: rest) -> basic (dictionaries d ++ ds) (State rest (objects s)) s' -> basic ds s s'.
Proof.
  intros k n d rest ds s s' Hp ((new & G) & (gone & Hg) & C). cbn [objects to_load] in *. repeat split.
  - exists new. exact G.
  - exists (((k, n), d) :: gone). cbn [app]. rewrite Hp. constructor. exact Hg.
  - unfold conserved in *. cbn [objects to_load] in C. rewrite C. apply Permutation_app_head. rewrite (pending_perm _ _ Hp).
    cbn [pending flat_map snd]. fold (pending rest). rewrite !app_assoc. apply Permutation_app_tail. apply Permutation_app_comm.
Qed.

Lemma load_basic_both : forall fuel,
  (forall d s v s', load fuel d s = Ok v s' -> basic (dictionaries d) s s') /\
  (forall l s vs s', load_list fuel l s = Ok vs s' -> basic (flat_map dictionaries l) s s').
Proof.
  intro fuel.
  assert (HInl : forall k t n c s (vs : list value) s1 v s2, basic (flat_map dictionaries c) s s1 -> build k t n (Inline k t n true c) vs s1 = Ok v s2 ->
    basic (dictionaries (Inline k t n true c)) s s2).
  { intros k t n c s vs s1 v s2 (G & Sh & C) E. apply build_ok in E. destruct E as (-> & El & Eo & _). repeat split.
    - eapply grows_trans; [exact G|]. eexists. exact Eo.
    - destruct Sh as [gone Hg]. exists gone. rewrite El. exact Hg.
    - unfold conserved in *. rewrite Eo, El. unfold sources in *. rewrite map_app. cbn [map o_data]. rewrite <- app_assoc. cbn [app].
      rewrite <- Permutation_middle, C. cbn [dictionaries]. rewrite Permutation_middle. reflexivity. }
  split.
  - apply load_scheme with (QL := fun l s vs s' => basic (flat_map dictionaries l) s s'); intros; try apply basic_refl; eauto.
    + eapply basic_pop; [eapply take_perm; eauto|]. cbn [dictionaries]. rewrite app_nil_r. assumption.
    + cbn [flat_map]. eapply basic_trans; eauto.
  - apply load_list_scheme with (Q := fun d s v s' => basic (dictionaries d) s s'); intros; try apply basic_refl; eauto.
    + eapply basic_pop; [eapply take_perm; eauto|]. cbn [dictionaries]. rewrite app_nil_r. assumption.
    + cbn [flat_map]. eapply basic_trans; eauto.
Qed.
Definition load_basic fuel := proj1 (load_basic_both fuel).
Definition load_list_basic fuel := proj2 (load_basic_both fuel).

(** ** Enough fuel *)
Lemma build_not_stuck : forall k t n d vs s, build k t n d vs s <> Stuck.
Proof. intros k t n d vs s. unfold build. cbv zeta. destruct (own_name k t n) as [m|]; [destruct (existsb (named m) (objects s))|]; discriminate. Qed.

Lemma shrinks_length : forall s s', shrinks s s' -> List.length (to_load s') <= List.length (to_load s).
Proof. intros s s' [gone E]. apply Permutation_length in E. rewrite app_length in E. lia. Qed.

Lemma list_not_stuck : forall fuel l, Forall (fun d => forall s, List.length (to_load s) <= fuel -> load fuel d s <> Stuck) l ->
  forall s, List.length (to_load s) <= fuel -> load_list fuel l s <> Stuck.
Proof.
  intros fuel l; induction l as [|c r IH]; intros HF s Hl; cbn [load_list]; [discriminate|].
  pose proof (Forall_inv HF s Hl) as H1. destruct (load fuel c s) as [v s1| |] eqn:E1; cbn [bind]; try congruence.
  pose proof (IH (Forall_inv_tail HF) s1) as H2.
  destruct (load_list fuel r s1) as [vs s2| |] eqn:E2; cbn [bind]; try congruence.
  exfalso. apply H2; [|reflexivity]. apply load_basic in E1. destruct E1 as (_ & Sh & _). apply shrinks_length in Sh. lia.
Qed.
Lemma load_not_stuck : forall fuel d s, List.length (to_load s) <= fuel -> load fuel d s <> Stuck.
Proof.
  induction fuel as [|f IHf]; intro d; induction d as [|k n|k|k t n g c IHc] using data_ind'; intros s Hl.
  1,5: rewrite load_unfold; discriminate.
  2,5: rewrite load_unfold; destruct k; discriminate.
  1,3: rewrite load_ref; destruct (lookup k n (objects s)); [discriminate|];
       destruct (take k n (to_load s)) as [[d' rest]|] eqn:Et; [|discriminate]; apply take_perm in Et; apply Permutation_length in Et; cbn [List.length] in Et.
  - lia.
  - cbn [rec_of]. apply IHf. cbn [to_load]. lia.
  - rewrite load_inline. pose proof (list_not_stuck _ _ IHc s Hl). destruct (load_list 0 c s); cbn [bind]; try congruence.
    destruct g; [|discriminate]. apply build_not_stuck.
  - rewrite load_inline. pose proof (list_not_stuck _ _ IHc s Hl). destruct (load_list (S f) c s); cbn [bind]; try congruence.
    destruct g; [|discriminate]. apply build_not_stuck.
Qed.
Lemma load_list_not_stuck : forall fuel l s, List.length (to_load s) <= fuel -> load_list fuel l s <> Stuck.
Proof. intros fuel l. apply list_not_stuck. apply Forall_forall. intros; apply load_not_stuck; assumption. Qed.

(** ** All the definitions of one kind *)
Lemma load_all_unfold : forall f k s,
  load_all (S f) k s =
  match popitem k (to_load s) with
  | None => Ok tt s
  | Some ((n, d), rest) =>
      let s1 := State rest (objects s) in
      match k, lookup R n (objects s) with
      | R, Some _ => load_all f k s1
      | _, _ => bind (load f d s1) (fun v s2 => match k, v with P, Number => Failed | _, _ => load_all f k s2 end)
      end
  end.
Proof. reflexivity. Qed.

Lemma load_all_not_stuck : forall fuel k s, List.length (to_load s) <= fuel -> load_all fuel k s <> Stuck.
Proof.
  induction fuel as [|f IH]; intros k s Hl.
  - cbn [load_all]. destruct (popitem k (to_load s)) as [[[n d] rest]|] eqn:E; [|discriminate].
    apply popitem_perm in E. apply Permutation_length in E. cbn in E. lia.
  - rewrite load_all_unfold. destruct (popitem k (to_load s)) as [[[n d] rest]|] eqn:E; [|discriminate].
    apply popitem_perm in E. apply Permutation_length in E. cbn [List.length] in E.
    assert (Hr : List.length (to_load (State rest (objects s))) <= f) by (cbn [to_load]; lia).
    assert (Hmain : bind (load f d (State rest (objects s))) (fun v s2 => match k, v with P, Number => Failed | _, _ => load_all f k s2 end) <> Stuck).
    { pose proof (load_not_stuck f d _ Hr) as H1. destruct (load f d (State rest (objects s))) as [v s2| |] eqn:E1; cbn [bind]; try congruence.
      apply load_basic in E1. destruct E1 as (_ & Sh & _). apply shrinks_length in Sh.
      destruct k, v; try discriminate; apply IH; lia. }
    destruct k; [exact Hmain|]. destruct (lookup R n (objects s)); [apply IH; exact Hr|exact Hmain].
Qed.

(** A property kept by taking an entry and loading it, or dropping a recorder, is kept by the loop. *)
Lemma load_all_rule : forall (Inv : state -> Prop) k,
  (forall fuel s n d rest v s', Inv s -> Permutation (to_load s) (((k, n), d) :: rest) ->
     load fuel d (State rest (objects s)) = Ok v s' -> Inv s') ->
  (k = R -> forall s n d rest o, Inv s -> Permutation (to_load s) (((k, n), d) :: rest) -> lookup R n (objects s) = Some o -> Inv (State rest (objects s))) ->
  forall fuel s s', Inv s -> load_all fuel k s = Ok tt s' -> Inv s' /\ Forall (fun e => fst (fst e) <> k) (to_load s').
Proof.
  intros Inv k Hstep Hdrop fuel; induction fuel as [|f IH]; intros s s' Hi E.
  - cbn [load_all] in E. destruct (popitem k (to_load s)) eqn:Ep; [discriminate|]. inversion E; subst. split; [assumption|apply popitem_none; exact Ep].
  - rewrite load_all_unfold in E. destruct (popitem k (to_load s)) as [[[n d] rest]|] eqn:Ep; [|inversion E; subst; split; [assumption|apply popitem_none; exact Ep]].
    apply popitem_perm in Ep. cbv zeta in E.
    assert (Hmain : bind (load f d (State rest (objects s))) (fun v s2 => match k, v with P, Number => Failed | _, _ => load_all f k s2 end) = Ok tt s' ->
                    Inv s' /\ Forall (fun e => fst (fst e) <> k) (to_load s')).
    { intro E'. destruct (load f d (State rest (objects s))) as [v s2| |] eqn:E1; cbn [bind] in E'; try discriminate.
      assert (Hi2 : Inv s2) by eauto. destruct k, v; try discriminate; eapply IH; eauto. }
    destruct k; [auto|]. destruct (lookup R n (objects s)) as [o|] eqn:El; [|auto]. eapply IH; [|exact E]. eapply Hdrop; eauto.
Qed.

Lemma load_all_shrinks : forall fuel k s s', load_all fuel k s = Ok tt s' -> shrinks s s'.
Proof.
  intros fuel k s s' E.
  refine (proj1 (load_all_rule (fun x => shrinks s x) k _ _ fuel s s' (shrinks_refl s) E)).
  - intros fuel' x n d rest v x' Hs Hp El. eapply shrinks_trans; [exact Hs|]. apply load_basic in El. destruct El as (_ & [gone Hg] & _).
    exists (((k, n), d) :: gone). rewrite Hp. cbn [app to_load] in *. constructor. exact Hg.
  - intros _ x n d rest o Hs Hp _. eapply shrinks_trans; [exact Hs|]. exists [((k, n), d)]. exact Hp.
Qed.

(** ** Names and contents of components *)
Definition wf_entry (e : (kind * string) * data) : Prop :=
  exists t g c, snd e = Inline (fst (fst e)) t (Some (snd (fst e))) g c.
Definition wf_objects (l : list object) : Prop := forall i o, nth_error l i = Some o -> faithful l i o.
Definition names (l : list object) : list string := flat_map (fun o => name_of (o_data o)) l.

Lemma own_name_of : forall k t n g c, own_name k t n = nth_error (name_of (Inline k t n g c)) 0.
Proof. intros [] t [n|] g c; reflexivity. Qed.

Lemma nth_error_grow : forall {A} (l m : list A) i x, nth_error l i = Some x -> nth_error (l ++ m) i = Some x.
Proof. intros. rewrite nth_error_app1; [assumption|]. apply nth_error_Some. congruence. Qed.
Lemma denotes_grow : forall l m d v, denotes l d v -> denotes (l ++ m) d v.
Proof.
  intros l m [|k n|[]|k t n g c] [|i] H; cbn [denotes] in *; auto.
  - destruct H as (o & E & H). exists o. split; [apply nth_error_grow; exact E|exact H].
  - destruct H as (o & E & H). exists o. split; [apply nth_error_grow; exact E|exact H].
Qed.
Lemma Forall2_impl : forall {A B} (Q1 Q2 : A -> B -> Prop) l m, (forall a b, Q1 a b -> Q2 a b) -> Forall2 Q1 l m -> Forall2 Q2 l m.
Proof. intros A B Q1 Q2 l m H HF. induction HF; constructor; auto. Qed.
Lemma wf_objects_snoc : forall l o, wf_objects l -> faithful (l ++ [o]) (List.length l) o -> wf_objects (l ++ [o]).
Proof.
  intros l o Hl Ho i x E. destruct (Nat.lt_ge_cases i (List.length l)) as [Hi|Hi].
  - rewrite nth_error_app1 in E by assumption. destruct (Hl i x E) as [Hid Hx]. split; [exact Hid|].
    destruct (o_data x) as [| | |k t n g c]; try contradiction. destruct Hx as (Hk & Hn & HF). repeat split; auto.
    rewrite firstn_app. replace (i - List.length l) with 0 by lia. cbn [firstn]. rewrite app_nil_r. exact HF.
  - assert (i = List.length l). { assert (i < List.length (l ++ [o])) by (apply nth_error_Some; congruence). rewrite app_length in H. cbn in H. lia. }
    subst i. rewrite nth_error_app2, Nat.sub_diag in E by lia. cbn in E. inversion E; subst. exact Ho.
Qed.

Lemma lookup_some : forall k n l o, lookup k n l = Some o -> In o l /\ o_kind o = k /\ o_name o = Some n.
Proof.
  intros k n l o E. apply find_some in E. destruct E as [Hin E]. apply andb_true_iff in E. destruct E as [Ek En].
  apply kind_eqb_eq in Ek. unfold named in En. destruct (o_name o) as [m|] eqn:Em; [|discriminate]. apply String.eqb_eq in En. subst. auto.
Qed.
Lemma lookup_none : forall k n l o, lookup k n l = None -> In o l -> o_kind o = k -> o_name o <> Some n.
Proof.
  intros k n l o E Hin Hk Hn. apply find_none with (x := o) in E; [|assumption].
  rewrite Hk, kind_eqb_refl in E. unfold named in E. rewrite Hn, String.eqb_refl in E. discriminate.
Qed.

Definition inv (s : state) : Prop :=
  wf_objects (objects s) /\ Forall wf_entry (to_load s) /\ NoDup (map fst (to_load s)) /\ NoDup (names (objects s)).

Lemma inv_shrink : forall l s, inv s -> (exists gone, Permutation (to_load s) (gone ++ l)) -> inv (State l (objects s)).
Proof.
  intros l s (Hw & He & Hd & Hn) [gone Hp]. split; [|split; [|split]]; cbn [objects to_load]; auto.
  - eapply Permutation_Forall in He; [|exact Hp]. apply Forall_app in He. apply He.
  - apply (Permutation_NoDup (Permutation_map fst Hp)) in Hd. rewrite map_app in Hd. clear -Hd. induction (map fst gone); [assumption|]. cbn in Hd. inversion Hd; auto.
Qed.

Lemma existsb_named_false : forall l n, wf_objects l -> existsb (named n) l = false -> ~ In n (names l).
Proof.
  intros l n Hw Hx Hin. unfold names in Hin. apply in_flat_map in Hin. destruct Hin as (o & Ho & Hn).
  apply not_true_iff_false in Hx. apply Hx. apply existsb_exists. exists o. split; [exact Ho|].
  apply In_nth_error in Ho. destruct Ho as (i & Ei). destruct (Hw i o Ei) as [_ Hf]. unfold named.
  destruct (o_data o) as [| | |[] t [m|] g c] eqn:Ed; try contradiction; cbn [name_of] in *; destruct Hf as (_ & Hm & _); rewrite Hm; cbn [nth_error];
    destruct Hn as [->|[]]; apply String.eqb_refl.
Qed.

Definition good_load (d : data) (s : state) (v : value) (s' : state) : Prop :=
  inv s -> inv s' /\ grows s s' /\ denotes (objects s') d v.
Definition good_loads (l : list data) (s : state) (vs : list value) (s' : state) : Prop :=
  inv s -> inv s' /\ grows s s' /\ Forall2 (denotes (objects s')) l vs.

Lemma NoDup_snoc_names : forall l o, NoDup (names l) -> (forall n, nth_error (name_of (o_data o)) 0 = Some n -> ~ In n (names l)) -> NoDup (names (l ++ [o])).
Proof.
  intros l o Hd Hn. unfold names in *. rewrite flat_map_app. cbn [flat_map]. rewrite app_nil_r.
  assert (name_of (o_data o) = [] \/ exists n, name_of (o_data o) = [n]) as [E|[n E]].
  { destruct (o_data o) as [| | |[] t [m|] g c]; cbn; eauto. }
  - rewrite E, app_nil_r. exact Hd.
  - rewrite E in *. cbn [nth_error] in Hn. specialize (Hn n eq_refl).
    apply (Permutation_NoDup (Permutation_app_comm [n] _)). cbn. constructor; assumption.
Qed.

Lemma good_both : forall fuel,
  (forall d s v s', load fuel d s = Ok v s' -> good_load d s v s') /\
  (forall l s vs s', load_list fuel l s = Ok vs s' -> good_loads l s vs s').
Proof.
  intro fuel.
  assert (HFound : forall k n s o, lookup k n (objects s) = Some o -> good_load (Ref k n) s (Obj (o_id o)) s).
  { intros k n s o E Hi. split; [exact Hi|]. split; [apply grows_refl|]. apply lookup_some in E. destruct E as (Hin & Hk & Hn).
    apply In_nth_error in Hin. destruct Hin as (i & Ei). cbn [denotes]. exists o. destruct Hi as (Hw & _). destruct (Hw i o Ei) as [<- _]. auto. }
  assert (HPop : forall k n s d rest v s', lookup k n (objects s) = None -> take k n (to_load s) = Some (d, rest) ->
    good_load d (State rest (objects s)) v s' -> good_load (Ref k n) s v s').
  { intros k n s d rest v s' _ Et Hg Hi. apply take_perm in Et.
    assert (Hi' : inv (State rest (objects s))) by (apply inv_shrink; [exact Hi|exists [((k, n), d)]; exact Et]).
    destruct (Hg Hi') as (H1 & H2 & H3). split; [exact H1|]. split; [exact H2|].
    destruct Hi as (_ & He & _). eapply Permutation_Forall in He; [|exact Et]. apply Forall_inv in He. destruct He as (t & g & c & Ed). cbn [fst snd] in Ed. subst d.
    destruct v as [|i]; cbn [denotes] in *; [contradiction|]. destruct H3 as (o & Eo & Hd). exists o. split; [exact Eo|].
    destruct H1 as (Hw & _). destruct (Hw i o Eo) as [_ Hf]. rewrite Hd in Hf. destruct Hf as (Hk & Hn & _). split; [exact Hk|]. rewrite Hn. destruct k; reflexivity. }
  assert (HInl : forall k t n c s vs s1 v s2, good_loads c s vs s1 -> build k t n (Inline k t n true c) vs s1 = Ok v s2 ->
    good_load (Inline k t n true c) s v s2).
  { intros k t n c s vs s1 v s2 Hg E Hi. destruct (Hg Hi) as ((Hw & He & Hd & Hn) & Hgr & HF). apply build_ok in E. destruct E as (-> & El & Eo & Hfree).
    split; [|split].
    - split; [|split; [|split]].
      + rewrite Eo. apply wf_objects_snoc; [exact Hw|]. split; [reflexivity|]. cbn [o_data o_kind o_name o_children]. repeat split.
        * apply own_name_of.
        * rewrite firstn_app, firstn_all, Nat.sub_diag. cbn [firstn]. rewrite app_nil_r. exact HF.
      + rewrite El. exact He.
      + rewrite El. exact Hd.
      + rewrite Eo. apply NoDup_snoc_names; [exact Hn|]. cbn [o_data]. intros m Hm. rewrite <- own_name_of in Hm.
        apply existsb_named_false; [exact Hw|]. apply Hfree. exact Hm.
    - eapply grows_trans; [exact Hgr|]. eexists. exact Eo.
    - cbn [denotes]. eexists. split; [rewrite Eo, nth_error_app2, Nat.sub_diag by lia; reflexivity|]. reflexivity. }
  assert (HCons : forall c r s v s1 vs s2, good_load c s v s1 -> good_loads r s1 vs s2 -> good_loads (c :: r) s (v :: vs) s2).
  { intros c r s v s1 vs s2 H1 H2 Hi. destruct (H1 Hi) as (Hi1 & G1 & D1). destruct (H2 Hi1) as (Hi2 & G2 & D2).
    split; [exact Hi2|]. split; [eapply grows_trans; eauto|]. constructor; [|exact D2]. destruct G2 as [new ->]. apply denotes_grow. exact D1. }
  split.
  - apply load_scheme with (QL := good_loads); eauto; intros s Hi; (split; [exact Hi|split; [apply grows_refl|]]); cbn; auto.
  - apply load_list_scheme with (Q := good_load); eauto; intros s Hi; (split; [exact Hi|split; [apply grows_refl|]]); cbn; auto.
Qed.
Definition load_good fuel := proj1 (good_both fuel).
Definition load_list_good fuel := proj2 (good_both fuel).

Lemma load_all_good : forall fuel k s s', load_all fuel k s = Ok tt s' -> inv s -> inv s' /\ grows s s'.
Proof.
  intros fuel k s s' E Hi.
  refine (proj1 (load_all_rule (fun x => inv x /\ grows s x) k _ _ fuel s s' (conj Hi (grows_refl s)) E)).
  - intros fuel' x n d rest v x' [Hx Hg] Hp El.
    assert (Hx' : inv (State rest (objects x))) by (apply inv_shrink; [exact Hx|exists [((k, n), d)]; exact Hp]).
    destruct (load_good _ _ _ _ _ El Hx') as (H1 & H2 & _). split; [exact H1|]. eapply grows_trans; [exact Hg|]. exact H2.
  - intros _ x n d rest o [Hx Hg] Hp _. split; [apply inv_shrink; [exact Hx|exists [((k, n), d)]; exact Hp]|exact Hg].
Qed.

Lemma load_nodes_good : forall l s vss s', load_nodes l s = Ok vss s' -> inv s ->
  inv s' /\ grows s s' /\ Forall2 (Forall2 (denotes (objects s'))) l vss.
Proof.
  induction l as [|ds r IH]; intros s vss s' E Hi; cbn [load_nodes] in E.
  - inversion E; subst. split; [exact Hi|]. split; [apply grows_refl|constructor].
  - destruct (load_list 0 ds s) as [vs s1| |] eqn:E1; cbn [bind] in E; try discriminate.
    destruct (load_nodes r s1) as [vss2 s2| |] eqn:E2; cbn [bind] in E; try discriminate. inversion E; subst.
    destruct (load_list_good _ _ _ _ _ E1 Hi) as (Hi1 & G1 & D1). destruct (IH _ _ _ E2 Hi1) as (Hi2 & G2 & D2).
    split; [exact Hi2|]. split; [eapply grows_trans; eauto|]. constructor; [|exact D2]. destruct G2 as [new ->].
    eapply Forall2_impl; [|exact D1]. intros; apply denotes_grow; assumption.
Qed.
Lemma load_nodes_basic : forall l s vss s', load_nodes l s = Ok vss s' -> basic (flat_map dictionaries (List.concat l)) s s'.
Proof.
  induction l as [|ds r IH]; intros s vss s' E; cbn [load_nodes] in E.
  - inversion E; subst. apply basic_refl.
  - destruct (load_list 0 ds s) as [vs s1| |] eqn:E1; cbn [bind] in E; try discriminate.
    destruct (load_nodes r s1) as [vss2 s2| |] eqn:E2; cbn [bind] in E; try discriminate. inversion E; subst.
    cbn [List.concat]. rewrite flat_map_app. eapply basic_trans; [eapply load_list_basic; eauto|eauto].
Qed.
Lemma load_nodes_not_stuck : forall l s, to_load s = [] -> load_nodes l s <> Stuck.
Proof.
  induction l as [|ds r IH]; intros s Hs; cbn [load_nodes]; [discriminate|].
  pose proof (load_list_not_stuck 0 ds s) as H1. rewrite Hs in H1. specialize (H1 (le_n 0)).
  destruct (load_list 0 ds s) as [vs s1| |] eqn:E1; cbn [bind]; try congruence.
  assert (Hs1 : to_load s1 = []). { apply load_list_basic in E1. destruct E1 as (_ & Sh & _). apply shrinks_length in Sh. rewrite Hs in Sh. destruct (to_load s1); [reflexivity|cbn in Sh; lia]. }
  pose proof (IH s1 Hs1) as H2. destruct (load_nodes r s1); cbn [bind]; congruence.
Qed.

(** ** The definitions of the document *)
Lemma collect_keys : forall k l x, collect k l = Some x -> map fst x = map (fun e => (k, fst e)) l.
Proof.
  intros k l; induction l as [|[n d] r IH]; intros x E; cbn [collect] in E; [inversion E; reflexivity|].
  destruct (put_name k (n, d)) as [a|] eqn:Ea; [|discriminate]. destruct (collect k r) as [b|] eqn:Eb; [|discriminate]. inversion E; subst.
  cbn [map]. rewrite (IH b eq_refl). f_equal. unfold put_name in Ea. destruct d; cbn in Ea; inversion Ea; reflexivity.
Qed.
Lemma collect_typed : forall k l, Forall (fun e => exists k typ name good children, snd e = Inline k typ name good children) l ->
  collect k l = Some (map (definition k) l).
Proof.
  intros k l HF; induction HF as [|[n d] r (k0 & t & nm & g & c & Ed) HF IH]; [reflexivity|]. cbn [snd] in Ed. subst d.
  cbn [collect]. rewrite IH. reflexivity.
Qed.
Lemma definition_wf : forall k l, Forall (fun e => exists k typ name good children, snd e = Inline k typ name good children) l ->
  Forall wf_entry (map (definition k) l).
Proof.
  intros k l HF; induction HF as [|[n d] r (k0 & t & nm & g & c & Ed) HF IH]; [constructor|]. cbn [snd] in Ed. subst d.
  constructor; [|exact IH]. cbn. exists t, g, c. reflexivity.
Qed.
Lemma definition_keys : forall k l, map fst (map (definition k) l) = map (fun e => (k, fst e)) l.
Proof. intros k l. rewrite map_map. apply map_ext. intros [n d]. unfold definition. cbn [snd]. destruct d; reflexivity. Qed.

Lemma load_document_typed : forall doc, typed doc ->
  load_document doc =
  bind (load_all (List.length (definitions doc)) R (State (definitions doc) []))
       (fun _ s1 => bind (load_all (List.length (definitions doc)) P s1) (fun _ s2 => load_nodes (d_nodes doc) s2)).
Proof.
  intros doc Ht. unfold typed in Ht. apply Forall_app in Ht. destruct Ht as [Hp Hr]. unfold load_document.
  rewrite (collect_typed P _ Hp), (collect_typed R _ Hr). reflexivity.
Qed.
Lemma definitions_wf : forall doc, typed doc -> Forall wf_entry (definitions doc).
Proof.
  intros doc Ht. unfold typed in Ht. apply Forall_app in Ht. destruct Ht as [Hp Hr]. apply Forall_app. split; apply definition_wf; assumption.
Qed.
Lemma definitions_keys : forall doc, keyed doc -> NoDup (map fst (definitions doc)).
Proof.
  intros doc [Hp Hr]. unfold definitions. rewrite map_app, !definition_keys.
  assert (Hinj : forall (k : kind) (l : list (string * data)), NoDup (map fst l) -> NoDup (map (fun e => (k, fst e)) l)).
  { intros k l Hd. rewrite <- (map_map fst (fun n => (k, n))). induction Hd as [|x l' Hx Hd IH]; [constructor|]. cbn. constructor; [|exact IH].
    intro Hin. apply in_map_iff in Hin. destruct Hin as (y & Ey & Hy). inversion Ey; subst. contradiction. }
  assert (Hdis : forall l1 l2 : list (kind * string), NoDup l1 -> NoDup l2 -> (forall x, In x l1 -> ~ In x l2) -> NoDup (l1 ++ l2)).
  { intros l1 l2 H1 H2 H. induction H1 as [|x l1 Hx H1 IH]; [exact H2|]. cbn. constructor.
    - rewrite in_app_iff. intros [Hin|Hin]; [contradiction|]. apply (H x); [left; reflexivity|exact Hin].
    - apply IH. intros y Hy. apply H. right. exact Hy. }
  apply Hdis; auto. intros x H1 H2. apply in_map_iff in H1. apply in_map_iff in H2.
  destruct H1 as (a & <- & _). destruct H2 as (b & Eb & _). discriminate.
Qed.
Lemma inv_start : forall doc, typed doc -> keyed doc -> inv (State (definitions doc) []).
Proof.
  intros doc Ht Hk. split; [|split; [|split]]; cbn [objects to_load].
  - intros i o E. destruct i; discriminate.
  - apply definitions_wf; exact Ht.
  - apply definitions_keys; exact Hk.
  - constructor.
Qed.

Lemma only_other : forall l : list ((kind * string) * data), Forall (fun e => fst (fst e) <> R) l -> Forall (fun e => fst (fst e) <> P) l -> l = [].
Proof. intros [|e l] H1 H2; [reflexivity|]. apply Forall_inv in H1. apply Forall_inv in H2. destruct (fst (fst e)); congruence. Qed.

Lemma load_all_empties : forall fuel k s s', load_all fuel k s = Ok tt s' -> Forall (fun e => fst (fst e) <> k) (to_load s').
Proof.
  intros fuel k s s' E. refine (proj2 (load_all_rule (fun _ => True) k _ _ fuel s s' _ E)); auto.
Qed.
Lemma loaded_all : forall doc s1 s2, load_all (List.length (definitions doc)) R (State (definitions doc) []) = Ok tt s1 ->
  load_all (List.length (definitions doc)) P s1 = Ok tt s2 -> to_load s2 = [].
Proof.
  intros doc s1 s2 E1 E2. apply only_other; [|eapply load_all_empties; exact E2].
  pose proof (load_all_empties _ _ _ _ E1) as H1. destruct (load_all_shrinks _ _ _ _ E2) as [gone Hg].
  eapply Permutation_Forall in H1; [|exact Hg]. apply Forall_app in H1. apply H1.
Qed.

(** ** The document as a whole *)
Lemma collect_not_stuck : forall doc, load_document doc <> Stuck.
Proof.
  intro doc. unfold load_document. destruct (collect P (d_parameters doc)) as [ps|]; [|discriminate]. destruct (collect R (d_recorders doc)) as [rs|]; [|discriminate].
  cbv zeta. pose proof (load_all_not_stuck (List.length (ps ++ rs)) R (State (ps ++ rs) []) (le_n _)) as H1.
  destruct (load_all (List.length (ps ++ rs)) R (State (ps ++ rs) [])) as [[] s1| |] eqn:E1; cbn [bind]; try congruence.
  pose proof (load_all_shrinks _ _ _ _ E1) as Sh. pose proof (shrinks_length _ _ Sh) as Hl. cbn [to_load] in Hl.
  pose proof (load_all_not_stuck _ P s1 Hl) as H2.
  destruct (load_all (List.length (ps ++ rs)) P s1) as [[] s2| |] eqn:E2; cbn [bind]; try congruence.
  apply load_nodes_not_stuck. apply only_other; [|eapply load_all_empties; exact E2].
  pose proof (load_all_empties _ _ _ _ E1) as H3. destruct (load_all_shrinks _ _ _ _ E2) as [gone Hg].
  eapply Permutation_Forall in H3; [|exact Hg]. apply Forall_app in H3. apply H3.
Qed.

Lemma load_document_good : forall doc vss s, typed doc -> keyed doc -> load_document doc = Ok vss s ->
  inv s /\ Forall2 (Forall2 (denotes (objects s))) (d_nodes doc) vss /\ to_load s = [].
Proof.
  intros doc vss s Ht Hk E. rewrite (load_document_typed doc Ht) in E.
  destruct (load_all _ R _) as [[] s1| |] eqn:E1; cbn [bind] in E; try discriminate.
  destruct (load_all _ P s1) as [[] s2| |] eqn:E2; cbn [bind] in E; try discriminate.
  destruct (load_all_good _ _ _ _ E1 (inv_start doc Ht Hk)) as (Hi1 & _). destruct (load_all_good _ _ _ _ E2 Hi1) as (Hi2 & _).
  destruct (load_nodes_good _ _ _ _ E Hi2) as (Hi3 & _ & HF). split; [exact Hi3|]. split; [exact HF|].
  pose proof (loaded_all _ _ _ E1 E2) as He. apply load_nodes_basic in E. destruct E as (_ & Sh & _). apply shrinks_length in Sh. rewrite He in Sh.
  destruct (to_load s); [reflexivity|cbn in Sh; lia].
Qed.

(** Nothing is dropped when no nested recorder has the name of a definition. *)
Definition taken_ok (doc : document) (s : state) : Prop :=
  inv s /\ exists gone, Permutation (definitions doc) (gone ++ to_load s) /\
  Permutation (sources (objects s) ++ pending (to_load s)) (pending (definitions doc)).

Lemma pending_app : forall l m, pending (l ++ m) = pending l ++ pending m.
Proof. intros. unfold pending. apply flat_map_app. Qed.

Lemma not_dropped : forall doc s n d rest o, typed doc -> keyed doc -> apart doc -> taken_ok doc s ->
  Permutation (to_load s) (((R, n), d) :: rest) -> lookup R n (objects s) = Some o -> False.
Proof.
  intros doc s n d rest o Ht Hk Ha (Hi & gone & Hp & Hc) Hl El. apply lookup_some in El. destruct El as (Hin & Hkd & Hn).
  pose proof (definitions_keys _ Hk) as Hnd. pose proof (definitions_wf _ Ht) as Hwf.
  (* what o was made from is a dictionary of a definition taken before *)
  rewrite (pending_perm _ _ Hp), pending_app in Hc.
  apply Permutation_app_inv_r in Hc.
  assert (Hsrc : In (o_data o) (pending gone)). { eapply Permutation_in; [exact Hc|]. apply in_map. exact Hin. }
  unfold pending in Hsrc. apply in_flat_map in Hsrc. destruct Hsrc as (e & He & Hde).
  assert (Hed : In e (definitions doc)). { eapply Permutation_in; [symmetry; exact Hp|]. apply in_or_app. left. exact He. }
  assert (Hrd : In (R, n) (map fst (definitions doc)) /\ fst e <> (R, n)).
  { rewrite Hl in Hp. split.
    - apply (Permutation_in (R, n) (Permutation_map fst (Permutation_sym Hp))). rewrite map_app. apply in_or_app. right. left. reflexivity.
    - intro Ee. apply (Permutation_NoDup (Permutation_map fst Hp)) in Hnd. rewrite map_app in Hnd. cbn [map fst] in Hnd.
      apply NoDup_remove_2 in Hnd. apply Hnd. apply in_or_app. left. rewrite <- Ee. apply in_map. exact He. }
  destruct Hrd as [Hrd Hne].
  assert (Hrn : In n (map fst (d_recorders doc))).
  { unfold definitions in Hrd. rewrite map_app, !definition_keys in Hrd. apply in_app_or in Hrd. destruct Hrd as [H|H]; apply in_map_iff in H; destruct H as (a & Ea & Hin').
    - discriminate.
    - inversion Ea; subst. apply in_map. exact Hin'. }
  pose proof (proj1 (Forall_forall _ _) Hwf e Hed) as (t & g & c & Ed). rewrite Ed in Hde. cbn [dictionaries] in Hde.
  destruct Hi as (Hw & _). apply In_nth_error in Hin. destruct Hin as (i & Ei). destruct (Hw i o Ei) as [_ Hf].
  destruct Hde as [Ehd|Hnest].
  - rewrite <- Ehd in Hf. destruct Hf as (Hk' & Hn' & _). rewrite Hkd in Hk'. destruct e as [[ke ne] de]. cbn [fst snd] in *. subst ke.
    rewrite Hn in Hn'. cbn [name_of nth_error] in Hn'. inversion Hn'; subst. apply Hne. reflexivity.
  - destruct (o_data o) as [| | |k1 t1 n1 g1 c1] eqn:Eo; try contradiction. destruct Hf as (Hk1 & Hn1 & _). rewrite Hkd in Hk1. subst k1.
    apply (Ha (Inline R t1 n1 g1 c1) n); [| |exact Hrn].
    + unfold nested_recorders. apply filter_In. split; [|reflexivity]. apply in_flat_map. exists e. split; [exact Hed|]. rewrite Ed. exact Hnest.
    + rewrite Hn in Hn1. cbn [name_of nth_error] in Hn1. inversion Hn1; subst. left. reflexivity.
Qed.

Lemma taken_ok_step : forall doc s k n d rest fuel v s', taken_ok doc s -> Permutation (to_load s) (((k, n), d) :: rest) ->
  load fuel d (State rest (objects s)) = Ok v s' -> taken_ok doc s'.
Proof.
  intros doc s k n d rest fuel v s' (Hi & gone & Hp & Hc) Hl El.
  assert (Hx' : inv (State rest (objects s))) by (apply inv_shrink; [exact Hi|exists [((k, n), d)]; exact Hl]).
  destruct (load_good _ _ _ _ _ El Hx') as (H1 & _). split; [exact H1|].
  apply load_basic in El. assert (Hb : basic [] s s'). { eapply basic_pop; [exact Hl|]. rewrite app_nil_r. exact El. }
  destruct Hb as (_ & [g2 Hg2] & Hcons). exists (gone ++ g2). split.
  - rewrite Hp, Hg2, app_assoc. reflexivity.
  - unfold conserved in Hcons. cbn [app] in Hcons. rewrite Hcons. exact Hc.
Qed.
Lemma load_all_taken : forall doc fuel k s s', typed doc -> keyed doc -> apart doc -> taken_ok doc s -> load_all fuel k s = Ok tt s' -> taken_ok doc s'.
Proof.
  intros doc fuel k s s' Ht Hk Ha Hs E. refine (proj1 (load_all_rule (taken_ok doc) k _ _ fuel s s' Hs E)).
  - intros fuel' x n d rest v x' Hx Hp El. eapply taken_ok_step; eauto.
  - intros -> x n d rest o Hx Hp El. exfalso. eapply not_dropped; eauto.
Qed.
Lemma load_document_once : forall doc vss s, typed doc -> keyed doc -> apart doc -> load_document doc = Ok vss s ->
  Permutation (sources (objects s)) (flat_map dictionaries (all_data doc)).
Proof.
  intros doc vss s Ht Hk Ha E. pose proof (load_document_good _ _ _ Ht Hk E) as (_ & _ & Hend). rewrite (load_document_typed doc Ht) in E.
  destruct (load_all _ R _) as [[] s1| |] eqn:E1; cbn [bind] in E; try discriminate.
  destruct (load_all _ P s1) as [[] s2| |] eqn:E2; cbn [bind] in E; try discriminate.
  assert (H0 : taken_ok doc (State (definitions doc) [])).
  { split; [apply inv_start; assumption|]. exists []. split; reflexivity. }
  pose proof (load_all_taken _ _ _ _ _ Ht Hk Ha H0 E1) as H1. pose proof (load_all_taken _ _ _ _ _ Ht Hk Ha H1 E2) as H2.
  destruct H2 as (_ & gone & Hp & Hc). pose proof (loaded_all _ _ _ E1 E2) as He. rewrite He in *. cbn [pending flat_map] in Hc. rewrite app_nil_r in Hc.
  apply load_nodes_basic in E. destruct E as (_ & _ & Hcons). unfold conserved in Hcons. rewrite Hend, He in Hcons. cbn [pending flat_map] in Hcons. rewrite !app_nil_r in Hcons.
  rewrite Hcons. unfold all_data. rewrite flat_map_app. apply Permutation_app_tail. rewrite Hc. unfold pending. rewrite !flat_map_concat_map, map_map. reflexivity.
Qed.

(** ** Order of the references *)
Lemma NoDup_names_index : forall l i j o p n, wf_objects l -> NoDup (names l) -> nth_error l i = Some o -> nth_error l j = Some p ->
  o_name o = Some n -> o_name p = Some n -> i = j.
Proof.
  intros l i j o p n Hw Hd Ei Ej Hn Hm.
  assert (Hin : forall x m, faithful l x m -> o_name m = Some n -> In n (name_of (o_data m))).
  { intros x m [_ Hf] Hnm. destruct (o_data m) as [| | |k t nm g c]; try contradiction. destruct Hf as (_ & E & _). rewrite Hnm in E.
    symmetry in E. apply nth_error_In in E. exact E. }
  pose proof (Hin _ _ (Hw _ _ Ei) Hn) as Ho. pose proof (Hin _ _ (Hw _ _ Ej) Hm) as Hp. clear Hin Hw Hn Hm. unfold names in Hd.
  revert l j Ei Ej Hd. induction i as [|i IH]; intros [|a l] [|j] Ei Ej Hd; try discriminate; cbn [nth_error] in *; auto.
  - inversion Ei; subst. cbn [flat_map] in Hd. exfalso. apply nth_error_In in Ej.
    assert (In n (flat_map (fun o => name_of (o_data o)) l)) by (apply in_flat_map; eauto). clear -Hd Ho H.
    induction (name_of (o_data o)) as [|x r IHr]; [contradiction|]. cbn in Hd. inversion Hd; subst. destruct Ho as [->|Ho]; [apply H2; apply in_or_app; auto|auto].
  - inversion Ej; subst. cbn [flat_map] in Hd. exfalso. apply nth_error_In in Ei.
    assert (In n (flat_map (fun o => name_of (o_data o)) l)) by (apply in_flat_map; eauto). clear -Hd Hp H.
    induction (name_of (o_data p)) as [|x r IHr]; [contradiction|]. cbn in Hd. inversion Hd; subst. destruct Hp as [->|Hp]; [apply H2; apply in_or_app; auto|auto].
  - f_equal. apply (IH l j); auto. cbn [flat_map] in Hd. clear -Hd. induction (name_of (o_data a)); [assumption|]. cbn in Hd. inversion Hd; auto.
Qed.

Fixpoint position (k : kind) (n : string) (l : list object) : nat :=
  match l with [] => 0 | o :: r => if kind_eqb (o_kind o) k && named n o then 0 else S (position k n r) end.
Lemma position_first : forall k n l i o, nth_error l i = Some o -> o_kind o = k -> o_name o = Some n -> position k n l <= i.
Proof.
  intros k n l; induction l as [|a r IH]; intros [|i] o E Hk Hn; cbn [nth_error position] in *; try discriminate.
  - inversion E; subst. unfold named. rewrite kind_eqb_refl, Hn, String.eqb_refl. cbn. lia.
  - destruct (kind_eqb (o_kind a) k && named n a); [lia|]. specialize (IH i o E Hk Hn). lia.
Qed.
Lemma position_exact : forall k n l i o, wf_objects l -> NoDup (names l) -> nth_error l i = Some o -> o_kind o = k -> o_name o = Some n -> position k n l = i.
Proof.
  intros k n l i o Hw Hd E Hk Hn.
  assert (Hgen : forall m j p, nth_error m j = Some p -> o_kind p = k -> o_name p = Some n ->
     exists q, nth_error m (position k n m) = Some q /\ o_name q = Some n).
  { clear. intros m; induction m as [|a r IH]; intros [|j] p E Hk Hn; cbn [nth_error position] in *; try discriminate.
    - inversion E; subst. unfold named. rewrite kind_eqb_refl, Hn, String.eqb_refl. cbn. exists p. auto.
    - destruct (kind_eqb (o_kind a) k && named n a)%bool eqn:Ea; [|cbn [nth_error]; eapply IH; eauto].
      cbn. exists a. split; [reflexivity|]. apply andb_true_iff in Ea. destruct Ea as [_ Ea]. unfold named in Ea. destruct (o_name a) as [m|]; [|discriminate]. apply String.eqb_eq in Ea. congruence. }
  destruct (Hgen l i o E Hk Hn) as (q & Eq & Hq). eapply NoDup_names_index; eauto.
Qed.

Lemma references_below : forall l d i o, wf_objects l -> NoDup (names l) -> nth_error l i = Some o -> o_data o = d ->
  forall r, In r (references d) -> position (fst r) (snd r) l < i.
Proof.
  intros l d; induction d as [|k n|k|k t n g c IHc] using data_ind'; intros i o Hw Hd Ei Eo r Hr; try contradiction.
  - destruct (Hw i o Ei) as [_ Hf]. rewrite Eo in Hf. contradiction.
  - destruct (Hw i o Ei) as [_ Hf]. rewrite Eo in Hf. destruct Hf as (_ & _ & HF). cbn [references] in Hr. apply in_flat_map in Hr. destruct Hr as (d & Hdc & Hr).
    assert (Hv : exists v, denotes (firstn i l) d v).
    { clear -HF Hdc. induction HF as [|x y c vs Hxy HF IH]; [contradiction|]. destruct Hdc as [->|Hdc]; eauto. }
    destruct Hv as [v Hv]. destruct d as [|k1 n1|[]|k1 t1 n1 g1 c1], v as [|j]; cbn [denotes] in Hv; try contradiction.
    + destruct Hv as (p & Ep & Hk1 & Hn1). destruct Hr as [<-|[]]. cbn [fst snd].
      assert (j < i /\ nth_error l j = Some p) as [Hj Ej].
      { assert (j < List.length (firstn i l)) by (apply nth_error_Some; congruence). rewrite firstn_length in H. split; [lia|].
        rewrite <- (firstn_skipn i l). apply nth_error_grow. exact Ep. }
      pose proof (position_first k1 n1 l j p Ej Hk1 Hn1). lia.
    + destruct Hv as (p & Ep & Hp).
      assert (j < i /\ nth_error l j = Some p) as [Hj Ej].
      { assert (j < List.length (firstn i l)) by (apply nth_error_Some; congruence). rewrite firstn_length in H. split; [lia|].
        rewrite <- (firstn_skipn i l). apply nth_error_grow. exact Ep. }
      pose proof (proj1 (Forall_forall _ _) IHc _ Hdc j p Hw Hd Ej Hp r Hr). lia.
Qed.
