(** Lemmas about the documents of recorders. *)
From Coq Require Import Strings.Ascii Strings.String.
From Verif Require Import Base NodeLoad_proofs Documents_proofs Documents_model DataLoad_proofs DataLoad_props DataLoad_model
  ParamLoad_model ParamLoad_spec ParamLoad_proofs RecLoad_model RecLoad_spec.
Local Open Scope string_scope.
Local Open Scope nat_scope.
Local Open Scope list_scope.

Lemma call_with_some c g b : call_with c g = Some b <->
  NoDup (map fst g) /\ (forall n, In n (map fst g) -> In n (map f_name (formals c))) /\ bound (formals c) g = Some b /\ extra c b = true.
Proof.
  unfold call_with. split.
  - destruct (nodupb (map fst g)) eqn:E1; cbn; [|discriminate].
    destruct (forallb _ (map fst g)) eqn:E2; [|discriminate]. destruct (bound (formals c) g) as [b'|]; [|discriminate].
    destruct (extra c b') eqn:E3; [|discriminate]. intros H. assert (b' = b) by congruence. subst. rewrite <- nodupb_spec. repeat split; auto.
    intros n Hn. rewrite forallb_forall in E2. now apply existsb_In, E2.
  - intros (H1 & H2 & H3 & H4). apply (proj2 (nodupb_spec _)) in H1. rewrite H1, H3, H4. cbn.
    replace (forallb _ (map fst g)) with true; [easy|]. symmetry. apply forallb_forall. intros n Hn. now apply existsb_In, H2.
Qed.

(** ** Whole parts *)
Lemma quot_whole q : whole_part q (Z.quot (Qnum q) (Z.pos (Qden q))).
Proof.
  destruct q as [n p]. cbn [Qnum Qden]. unfold whole_part, Qle, Qlt, Qminus, Qplus, Qopp, inject_Z. cbn [Qnum Qden Qopp].
  pose proof (Z.quot_rem' n (Z.pos p)) as E. rewrite !Z.mul_1_r, ?Z.mul_1_l, ?Pos.mul_1_r. generalize dependent (Z.quot n (Z.pos p)). intros z E.
  split; intros H.
  - pose proof (Z.rem_bound_pos n (Z.pos p)) as R. destruct R as [R1 R2]; [lia | lia |]. generalize dependent (Z.rem n (Z.pos p)). intros r E R1 R2. split; nia.
  - pose proof (Z.rem_bound_pos_neg n (Z.pos p)) as R. destruct R as [R1 R2]; [lia | lia |]. generalize dependent (Z.rem n (Z.pos p)). intros r E R1 R2. split; nia.
Qed.
Lemma whole_unique q z z' : whole_part q z -> whole_part q z' -> z = z'.
Proof.
  unfold whole_part. intros [H1 H2] [H3 H4]. destruct q as [n p]. unfold Qle, Qlt, Qminus, Qplus, Qopp, inject_Z in *. cbn [Qnum Qden Qopp] in *.
  assert (Hc : (0 <= n \/ n <= 0)%Z) by lia. destruct Hc as [Hc|Hc].
  - destruct H1 as [H1 H1']; [lia|]. destruct H3 as [H3 H3']; [lia|]. nia.
  - destruct H2 as [H2 H2']; [lia|]. destruct H4 as [H4 H4']; [lia|]. nia.
Qed.
Lemma whole_nonzero q z : whole_part q z -> negb (qeqb (inject_Z z) 0) = true <-> (1 <= q \/ q <= -(1))%Q.
Proof.
  intros [H1 H2]. rewrite negb_true_iff. assert (E : qeqb (inject_Z z) 0 = false <-> z <> 0%Z).
  { destruct (qeqbP (inject_Z z) 0) as [H|H]; split; intros; try easy.
    - exfalso. apply H0. unfold Qeq, inject_Z in H. cbn in H. lia.
    - intros ->. apply H. reflexivity. }
  rewrite E. clear E. destruct q as [n p]. unfold Qle, Qlt, Qminus, Qplus, Qopp, inject_Z in *. cbn [Qnum Qden Qopp] in *.
  assert (Hc : (0 <= n \/ n <= 0)%Z) by lia. destruct Hc as [Hc|Hc].
  - destruct H1 as [H1 H1']; [lia|]. split; intros; nia.
  - destruct H2 as [H2 H2']; [lia|]. split; intros; nia.
Qed.

(** ** Files *)
Lemma is_abs_spec u : is_abs u = true <-> exists s, u = String "/" s.
Proof.
  unfold is_abs. destruct u as [|c u]; [split; [discriminate | intros [s H]; discriminate]|].
  split; [intros H; apply Ascii.eqb_eq in H; subst; eauto | intros [s H]; assert (c = "/"%char) by congruence; subst; apply Ascii.eqb_refl].
Qed.
Lemma ends_slash p : ends_with "/" p = true <-> exists s, p = (s ++ "/")%string.
Proof. split; [apply ends_with_app | intros [s ->]; apply app_ends]. Qed.
Lemma located_resolve path u f : located path u f <-> f = resolve path u.
Proof.
  unfold resolve, join. split.
  - intros H. destruct H as [u Ha|u Hp|u p Hp Ha He Hs|u p Hp Ha Hs].
    + apply is_abs_spec in Ha. rewrite Ha. destruct path; easy.
    + now rewrite Hp.
    + rewrite Hp. destruct (is_abs u) eqn:E; [apply is_abs_spec in E; contradiction|]. destruct (String.eqb_spec p "") as [E1|E1]; [contradiction|].
      destruct (ends_with "/" p) eqn:E2; [|easy]. apply ends_slash in E2. destruct E2 as [s E2]. now destruct (Hs s).
    + rewrite Hp. destruct (is_abs u) eqn:E; [apply is_abs_spec in E; contradiction|]. destruct Hs as [-> | Hs]; [easy|]. apply ends_slash in Hs. rewrite Hs, orb_true_r. easy.
  - intros ->. destruct path as [p|]; [|now apply nowhere]. destruct (is_abs u) eqn:E; [apply absolute; now apply is_abs_spec|].
    assert (Ha : ~ (exists s, u = String "/" s)) by (intros H; apply is_abs_spec in H; congruence).
    destruct (String.eqb_spec p "") as [->|E1]; cbn [orb].
    + apply (inside (Some "") u ""); auto.
    + destruct (ends_with "/" p) eqn:E2; cbn [orb].
      * apply (inside (Some p)); auto. right. now apply ends_slash.
      * apply (beside (Some p)); auto. intros s Hs. assert (ends_with "/" p = true) by (apply ends_slash; eauto). congruence.
Qed.

Section World.
Variable named : string -> option obj.
Variable made : dict json -> option obj.
Variable missing : dict json -> bool.
Variable rec_named : string -> option nat.
Variable rec_made : dict json -> option nat.
Variable node : string -> option sort.
Variable scenario : string -> bool.
Variable path : option string.
Variable file : dict json -> option (array * dict json).
Local Notation means := (means named made missing rec_named rec_made node scenario path file).
Local Notation argument := (argument named made missing rec_named rec_made node scenario path file).
Local Notation document_of := (document_of named made missing rec_named rec_made node scenario path file).
Local Notation refers := (refers named made).

(** * Kinds *)

Definition read_target (d : dict json) (j : json) : option obj :=
  match j with
  | JDict e => match get "percentiles" d with
               | Some p => load_target file p (Some j)
               | None => match get "values" e with Some _ => load_target file JNull (Some j) | None => None end
               end
  | _ => Some (raw j)
  end.
Lemma read_target_some d p j : get "percentiles" d = Some p -> read_target d j = load_target file p (Some j).
Proof. intros H. unfold read_target. rewrite H. destruct j; easy. Qed.
Definition reads (d : dict json) (kd : kind) (j : json) : option obj :=
  match kd with
  | KRaw | KText => Some (raw j)
  | KInt => to_int j
  | KPath => to_path path j
  | KNode | KStorage => find_node node j
  | KNodes => find_nodes node j
  | KScenarioNull => match j with JNull => Some ONone | _ => find_scenario scenario j end
  | KRecorder => load_recorder rec_named rec_made j
  | KRecorders => load_recorders rec_named rec_made j
  | KPar | KParOnly | KParIndex => load_parameter named made j
  | KParsLoose => load_list named made j
  | KObserved => load_threshold named made missing rec_named rec_made j
  | KTracked => load_tracked named made (Some j)
  | KTarget => read_target d j
  end.
Definition for_type (kd : kind) (t : ptype) : bool :=
  match kd, t with
  | KRaw, TAny | KText, TText | KInt, TAny | KPath, TAny | KNode, TAny | KStorage, TStore | KNodes, TAny | KScenarioNull, TScenNone | KRecorder, TAny | KRecorders, TAny
  | KPar, TPar | KParOnly, TComp | KParIndex, TIndex | KParsLoose, TAny | KObserved, TObserved | KTracked, TCompNone | KTarget, TAny => true
  | _, _ => false
  end.

Lemma load_recorder_some j o : load_recorder rec_named rec_made j = Some o <-> a_recorder rec_named rec_made j o.
Proof.
  split.
  - destruct j as [| |s| |d]; cbn; try discriminate.
    + destruct (rec_named s) eqn:E; [|discriminate]. cbn. intros H. assert (o = ORec n) by congruence. subst. now constructor.
    + destruct (rec_made d) eqn:E; [|discriminate]. cbn. intros H. assert (o = ORec n) by congruence. subst. now constructor.
  - intros H. destruct H as [s n H|d n H]; cbn; now rewrite H.
Qed.
Lemma each_all (f : json -> option obj) (P : json -> obj -> Prop) j o : (forall j o, f j = Some o <-> P j o) ->
  each P j o <-> match items j with Some l => option_map OList (all f l) | None => None end = Some o.
Proof.
  intros HP. unfold each. split.
  - intros (l & os & He & HF & ->). apply items_some in He. rewrite He. replace (all f l) with (Some os); [easy|]. symmetry. apply all_some.
    eapply Forall2_impl; [|exact HF]. intros x y. apply HP.
  - destruct (items j) as [l|] eqn:E; [|discriminate]. destruct (all f l) as [os|] eqn:E2; [|discriminate]. cbn. intros H.
    exists l, os. split; [now apply items_some|]. split; [|congruence]. apply all_some in E2. eapply Forall2_impl; [|exact E2]. intros x y. apply HP.
Qed.
Lemma find_node_some j o : find_node node j = Some o <-> a_node node j o.
Proof.
  unfold a_node, find_node. split.
  - destruct j as [| |s| |]; try discriminate. destruct (node s) as [k|] eqn:E; [|discriminate]. cbn. intros H. exists s, k. repeat split; auto; congruence.
  - intros (s & k & -> & H & ->). now rewrite H.
Qed.
Lemma get_put k v (e : dict json) k' : k <> k' -> get k (put k' v e) = get k e.
Proof.
  intros H. unfold dict in *. induction e as [|[a b] e IH]; cbn.
  - destruct (String.eqb_spec k' k); [congruence | easy].
  - destruct (String.eqb_spec a k') as [->|E]; cbn.
    + destruct (String.eqb_spec k' k); [congruence | easy].
    + destruct (String.eqb a k); [easy | apply IH].
Qed.
Lemma raw_stands j o : as_it_stands j o <-> raw j = o.
Proof.
  split.
  - intros [[-> ->]|[H ->]]; [easy|]. destruct j; [contradiction|easy..].
  - intros <-. destruct j; [left; easy | right; split; [discriminate | easy]..].
Qed.

Lemma means_reads d kd t j o : for_type kd t = true -> means d kd j o <-> exists o', reads d kd j = Some o' /\ fit t o' = Some o.
Proof.
  intros Ht.
  assert (Hsimple : (forall o', fit t o' = Some o') -> (means d kd j o <-> reads d kd j = Some o) -> means d kd j o <-> exists o', reads d kd j = Some o' /\ fit t o' = Some o).
  { intros H1 H2. rewrite H2. split; [intros H; exists o; easy | intros (o' & H3 & H4); rewrite H1 in H4; congruence]. }
  destruct kd; destruct t; try discriminate Ht; clear Ht; cbn [RecLoad_spec.means reads].
  - apply Hsimple; [easy|]. cbn [RecLoad_spec.means reads]. rewrite raw_stands. split; congruence.
  - split.
    + intros [[-> ->]|(s & -> & ->)]; eexists; split; reflexivity.
    + intros (o' & H & Hf). assert (o' = raw j) by congruence. subst o'. destruct j; try discriminate Hf; cbn in Hf.
      * left. split; [easy | congruence].
      * right. eexists. split; [reflexivity | congruence].
  - apply Hsimple; [easy|]. cbn [RecLoad_spec.means reads]. split.
    + intros (q & z & -> & Hw & ->). cbn. repeat f_equal. apply (whole_unique q); [apply quot_whole | easy].
    + destruct j; cbn; try discriminate. intros H. exists q, (Z.quot (Qnum q) (Z.pos (Qden q))). split; [easy|]. split; [apply quot_whole | congruence].
  - apply Hsimple; [easy|]. cbn [RecLoad_spec.means reads]. split.
    + intros (u & f & -> & Hl & ->). apply located_resolve in Hl. subst f. easy.
    + destruct j as [| |u| |]; cbn; try discriminate. intros H. exists u, (resolve path u). split; [easy|]. split; [now apply located_resolve | congruence].
  - apply Hsimple; [easy|]. cbn [RecLoad_spec.means reads]. symmetry. apply find_node_some.
  - unfold find_node. split.
    + intros (s & -> & H & ->). exists (ONode s Storing). now rewrite H.
    + intros (o' & H & Hf). destruct j as [| |s| |]; try discriminate. destruct (node s) as [k|] eqn:E; [|discriminate]. cbn in H.
      assert (o' = ONode s k) by congruence. subst o'. destruct k; try discriminate. cbn in Hf. exists s. repeat split; auto; congruence.
  - apply Hsimple; [easy|]. cbn [RecLoad_spec.means reads]. apply each_all. apply find_node_some.
  - unfold a_scenario, find_scenario. split.
    + intros [(s & -> & H & ->)|[-> ->]]; [exists (OScen s); now rewrite H | exists ONone; easy].
    + intros (o' & H & Hf). destruct j as [| |s| |]; try discriminate.
      * assert (o' = ONone) by congruence. subst o'. cbn in Hf. right. split; [easy | congruence].
      * left. destruct (scenario s) eqn:E; [|discriminate]. assert (o' = OScen s) by congruence. subst o'.
        cbn in Hf. exists s. repeat split; auto; congruence.
  - apply Hsimple; [easy|]. cbn [RecLoad_spec.means reads]. symmetry. apply load_recorder_some.
  - apply Hsimple; [easy|]. cbn [RecLoad_spec.means reads]. apply each_all. apply load_recorder_some.
  - split.
    + intros [H Ho]. exists o. split; [now apply load_parameter_refers|]. destruct Ho as [Hp| ->]; [inversion Hp; easy | easy].
    + intros (o' & H & Hf). apply load_parameter_refers in H.
      destruct o'; try discriminate; cbn in Hf; assert (E : o = _) by (symmetry; injection Hf as Hf; exact Hf); subst o; (split; [easy|]);
        first [right; reflexivity | left; constructor].
  - split.
    + intros [H Ho]. exists o. split; [now apply load_parameter_refers|]. cbn. now apply comp_some.
    + intros (o' & H & Hf). apply load_parameter_refers in H. cbn in Hf. apply comp_some in Hf. destruct Hf as [-> Hp]. easy.
  - split.
    + intros [H (n & ->)]. exists (OPar n true). split; [now apply load_parameter_refers | easy].
    + intros (o' & H & Hf). apply load_parameter_refers in H. destruct o' as [| | |n ix| | | | | | |]; try discriminate. destruct ix; [|discriminate]. cbn in Hf.
      assert (o = OPar n true) by congruence. subst o. split; [easy | eauto].
  - apply Hsimple; [easy|]. cbn [RecLoad_spec.means reads]. apply each_all. apply load_parameter_refers.
  - (* KObserved *)
    assert (Hfit : forall o', fit TObserved o' = Some o <-> o' = o /\ (a_parameter o \/ exists n, o = ORec n)).
    { intros o'. split.
      - destruct o'; cbn; try discriminate; intros H; (assert (E : o = _) by (symmetry; injection H as H; exact H)); subst o; (split; [easy|]);
          first [left; constructor | right; eexists; reflexivity].
      - intros [-> [H|(n & ->)]]; [inversion H; easy | easy]. }
    split.
    + intros [[Hr Hp]|[(s & n & -> & H1 & H2 & ->)|[(s & n & -> & H1 & ->)|[(e & n & -> & H1 & H2 & H3 & ->)|(e & n & -> & H1 & ->)]]]].
      * exists o. split; [|apply Hfit; auto]. inversion Hr; subst; cbn.
        -- now rewrite H.
        -- now rewrite H.
        -- inversion Hp.
        -- inversion Hp.
      * exists (ORec n). cbn. rewrite H1, H2. easy.
      * exists (ORec n). cbn. rewrite H1. easy.
      * exists (ORec n). cbn. rewrite H1, H2, H3. easy.
      * exists (ORec n). cbn. rewrite H1. easy.
    + intros (o' & H & Hf). apply Hfit in Hf. destruct Hf as [-> Ho]. destruct j as [|q|s|l|e]; cbn in H; try discriminate.
      * exfalso. assert (o = ONone) by congruence. subst. destruct Ho as [Ho|[n Ho]]; [inversion Ho | discriminate].
      * exfalso. assert (o = ONum q) by congruence. subst. destruct Ho as [Ho|[n Ho]]; [inversion Ho | discriminate].
      * destruct (named s) as [o2|] eqn:E.
        -- assert (o2 = o) by congruence. subst o2. destruct Ho as [Ho|[n ->]]; [left; split; [now constructor | easy] | right; right; left; eauto].
        -- destruct (rec_named s) as [n|] eqn:E2; [|discriminate]. cbn in H. assert (o = ORec n) by congruence. subst. right. left. exists s, n. easy.
      * destruct (made e) as [o2|] eqn:E.
        -- assert (o2 = o) by congruence. subst o2. destruct Ho as [Ho|[n ->]]; [left; split; [now constructor | easy] | right; right; right; right; eauto].
        -- destruct (missing e) eqn:Em; [|discriminate]. destruct (rec_made e) as [n|] eqn:E2; [|discriminate]. cbn in H. assert (o = ORec n) by congruence. subst.
           right. right. right. left. exists e, n. easy.
  - (* KTracked *)
    assert (Hfit : forall o', fit TCompNone o' = Some o <-> o' = o /\ (a_parameter o \/ o = ONone)).
    { intros o'. split.
      - destruct o'; cbn; try discriminate; intros H; (assert (E : o = _) by (symmetry; injection H as H; exact H)); subst o; (split; [easy|]);
          first [left; constructor | right; reflexivity].
      - intros [-> [H| ->]]; [inversion H; easy | easy]. }
    split.
    + intros (Hr & Ho & N1 & N2). exists o. split; [|apply Hfit; auto]. unfold load_tracked. inversion Hr; subst; cbn [falsy].
      * destruct (String.eqb_spec s ""); [congruence|]. cbn. easy.
      * destruct d0; [congruence|]. cbn. easy.
      * destruct Ho as [Ho|Ho]; [inversion Ho | discriminate].
      * easy.
    + intros (o' & H & Hf). apply Hfit in Hf. destruct Hf as [-> Ho]. unfold load_tracked in H. destruct j as [|q|s|l|e]; cbn [falsy] in H.
      * assert (o = ONone) by (cbn in H; congruence). subst. split; [constructor|]. split; [now right|]. split; discriminate.
      * destruct (qeqb q 0); cbn in H; assert (E : o = _) by (symmetry; injection H as H; exact H); subst o; destruct Ho as [Ho|Ho]; try discriminate; inversion Ho.
      * destruct (String.eqb_spec s "") as [E|E].
        -- cbn in H. assert (o = ORaw (JString s)) by congruence. subst o. destruct Ho as [Ho|Ho]; try discriminate; inversion Ho.
        -- apply load_parameter_refers in H. split; [easy|]. split; [easy|]. split; congruence.
      * destruct l; cbn in H; [|discriminate]. assert (o = ORaw (JList [])) by congruence. subst o. destruct Ho as [Ho|Ho]; try discriminate; inversion Ho.
      * destruct e as [|x e].
        -- cbn in H. assert (o = ORaw (JDict [])) by congruence. subst o. destruct Ho as [Ho|Ho]; try discriminate; inversion Ho.
        -- apply load_parameter_refers in H. split; [easy|]. split; [easy|]. split; congruence.
  - (* KTarget *)
    apply Hsimple; [easy|]. cbn [RecLoad_spec.means reads]. unfold read_target.
    assert (Hval : forall p e, load_target file p (Some (JDict e)) = Some o <->
              (exists v, get "values" e = Some v /\ numbers v o)
              \/ (exists a rest, get "values" e = None /\ (get "url" e <> None \/ get "table" e <> None) /\ file (put "indexes" p e) = Some (a, rest) /\ o = OVal a)).
    { intros p e. unfold load_target, values, present. rewrite !get_put by discriminate. destruct (get "values" e) as [v|].
      - unfold numbers. split.
        + destruct (to_array v) as [a|] eqn:E; [|discriminate]. cbn. intros H. left. exists v. split; [easy|]. exists a. split; [easy | congruence].
        + intros [(v' & E & a & H & ->)|(a & rest & E & _)]; [|discriminate]. assert (v' = v) by congruence. subst. rewrite H. easy.
      - split.
        + destruct (get "url" e) eqn:Eu, (get "table" e) eqn:Et; cbn [orb]; try discriminate; (destruct (file (put "indexes" p e)) as [[a rest]|] eqn:Ef; [|discriminate]);
            cbn; intros H; right; exists a, rest; (split; [easy|]); (split; [first [now left | now right]|]); (split; [easy | congruence]).
        + intros [(v' & E & _)|(a & rest & _ & Hu & Hf & ->)]; [discriminate|]. rewrite Hf.
          destruct (get "url" e); [easy|]. destruct (get "table" e); [easy|]. destruct Hu as [Hu|Hu]; contradiction. }
    destruct j as [|q|s|l|e].
    1-4: split; [intros [[_ H]|[(e & v & H & _)|(e & p & a & rest & H & _)]]; [apply raw_stands in H; congruence | discriminate..]
                | intros H; left; split; [intros e; discriminate | apply raw_stands; congruence]].
    destruct (get "percentiles" d) as [p|] eqn:Ep.
    + rewrite (Hval p e). split.
      * intros [[H _]|[(e' & v & E & H)|(e' & p' & a & rest & E & H1 & H2 & H3 & H4)]]; [now destruct (H e)| |].
        -- assert (e' = e) by congruence. subst. left. eauto.
        -- assert (e' = e) by congruence. assert (p' = p) by congruence. subst. right. exists a, rest. easy.
      * intros [(v & H)|(a & rest & H1 & H2 & H3 & H4)]; right; [left; exists e, v; easy | right; exists e, p, a, rest; easy].
    + destruct (get "values" e) as [v|] eqn:Ev.
      * rewrite (Hval JNull e). split.
        -- intros [[H _]|[(e' & v' & E & H)|(e' & p' & a & rest & E & H1 & H2 & H3 & H4)]]; [now destruct (H e)| |discriminate].
           assert (e' = e) by congruence. subst. left. eauto.
        -- intros [(v' & H)|(a & rest & H1 & H2 & H3 & H4)]; right; [left; exists e, v'; easy | congruence].
      * split; [|discriminate]. intros [[H _]|[(e' & v' & E & H & _)|(e' & p' & a & rest & E & H1 & H2 & H3 & H4)]]; [now destruct (H e)| |discriminate].
        assert (e' = e) by congruence. subst. congruence.
Qed.

(** * Tables *)

Definition taken_raw (c : class) (k : string) : bool :=
  existsb (String.eqb k) match c with DurationDeviation => ["percentiles"] | _ => [] end.
Definition as_raw (kd : kind) : bool := match kd with KRaw | KText => true | _ => false end.
Definition through (c : class) (f : field) : bool :=
  match a_keys f, a_need f with
  | _, Default _ => false
  | [(k, kd)], _ => as_raw kd && String.eqb k (a_name f) && negb (taken_raw c k)
  | _, _ => false
  end.
Definition is_required (n : need) : bool := match n with Required => true | _ => false end.
Definition quiet (c : class) (k : string) : bool :=
  existsb (String.eqb k) (map fst (checked c)) || match c with RollingMean => negb (existsb (String.eqb k) ["node"; "timesteps"; "days"; "name"]) | _ => false end.
Definition fits_default (t : ptype) (o : obj) : bool :=
  match o, t with ONone, (TAny | TPar | TScenNone | TCompNone) => true | _, _ => false end.
Definition field_ok (c : class) (f : field) : bool :=
  existsb (fun fm => String.eqb (f_name fm) (a_name f)
    && forallb (fun kk => for_type (snd kk) (f_type fm)) (a_keys f)
    && (if through c f then Bool.eqb (f_required fm) (is_required (a_need f)) && negb (quiet c (a_name f))
        else match a_need f with Left => false | Required => true | Default o => fits_default (f_type fm) o end)) (formals c).
Definition all_keys (fs : list field) : list string := flat_map (fun f => map fst (a_keys f)) fs.
(** An argument that no entry is for is optional, and the entry of its name is not passed on. *)
Definition table_ok (c : class) : bool :=
  let fs := table c in
  nodupb (map a_name fs) && nodupb (all_keys fs) && nodupb (map f_name (formals c))
  && forallb (field_ok c) fs
  && forallb (fun fm => existsb (String.eqb (f_name fm)) (map a_name fs) || negb (f_required fm) && quiet c (f_name fm)) (formals c)
  && forallb (fun kk => for_type (snd kk) TAny || for_type (snd kk) TScenNone) (checked c).
Lemma tables_ok c : table_ok c = true.
Proof. destruct c; vm_compute; reflexivity. Qed.

(** ** Reading by a table *)
Fixpoint pick (d0 : dict json) (ks : list (string * kind)) (n : need) (d : dict json) : option (obj * dict json) :=
  match ks with
  | [] => match n with Default o => Some (o, d) | _ => None end
  | (k, kd) :: ks => match get k d with
                     | Some j => match reads d0 kd j with Some o => Some (o, pop k d) | None => None end
                     | None => pick d0 ks n d
                     end
  end.
Fixpoint run (d0 : dict json) (fs : list field) (d : dict json) : option (list (string * obj) * dict json) :=
  match fs with
  | [] => Some ([], d)
  | f :: fs => match pick d0 (a_keys f) (a_need f) d with
               | None => None
               | Some (o, d') => match run d0 fs d' with Some (g, r) => Some ((a_name f, o) :: g, r) | None => None end
               end
  end.
Definition hush (c : class) (d : dict json) : dict json := filter (fun kv => negb (quiet c (fst kv))) d.
Definition checked_ok (c : class) (d : dict json) : bool :=
  forallb (fun kk => match get (fst kk) d with Some j => match reads d (snd kk) j with Some _ => true | None => false end | None => true end) (checked c).
Definition popped (c : class) (fs : list field) : list field := filter (fun f => negb (through c f)) fs.
Definition interp (c : class) (fs : list field) (d : dict json) : option bindings :=
  if checked_ok c d then
    match run d (popped c fs) d with Some (g, r) => call_with c (g ++ raws (hush c r)) | None => None end
  else None.

(** The same without a changing document. *)
Fixpoint value_of (d0 : dict json) (ks : list (string * kind)) (n : need) (d : dict json) : option obj :=
  match ks with
  | [] => match n with Default o => Some o | _ => None end
  | (k, kd) :: ks => match get k d with Some j => reads d0 kd j | None => value_of d0 ks n d end
  end.
Fixpoint key_of (ks : list (string * kind)) (d : dict json) : list string :=
  match ks with [] => [] | (k, _) :: ks => match get k d with Some _ => [k] | None => key_of ks d end end.
Lemma key_of_in ks d k : In k (key_of ks d) -> In k (map fst ks).
Proof. induction ks as [|[k' kd] ks IH]; cbn; [easy|]. destruct (get k' d); cbn; [intros [<-|[]]; now left | intros H; right; auto]. Qed.
Lemma pick_value d0 ks n d : pick d0 ks n d = option_map (fun o => (o, pop_all (key_of ks d) d)) (value_of d0 ks n d).
Proof.
  induction ks as [|[k kd] ks IH]; cbn.
  - destruct n; easy.
  - destruct (get k d) as [j|]; [|easy]. destruct (reads d0 kd j); easy.
Qed.
Lemma value_of_get d0 ks n d d' : (forall k, In k (map fst ks) -> get k d = get k d') -> value_of d0 ks n d = value_of d0 ks n d' /\ key_of ks d = key_of ks d'.
Proof.
  induction ks as [|[k kd] ks IH]; cbn; intros H; [easy|]. rewrite <- (H k (or_introl eq_refl)).
  destruct (get k d); [easy|]. apply IH. intros k' Hk. apply H. now right.
Qed.
Lemma run_values d0 fs : forall d, NoDup (all_keys fs) ->
  run d0 fs d = option_map (fun g => (g, pop_all (flat_map (fun f => key_of (a_keys f) d) fs) d))
                        (all (fun f => option_map (pair (a_name f)) (value_of d0 (a_keys f) (a_need f) d)) fs).
Proof.
  induction fs as [|f fs IH]; intros d Hnd; cbn [run all flat_map]; [easy|].
  unfold all_keys in Hnd. cbn [flat_map] in Hnd. destruct (NoDup_app_parts _ _ Hnd) as [_ Hnd'].
  rewrite pick_value. destruct (value_of d0 (a_keys f) (a_need f) d) as [o|]; cbn [option_map]; [|easy].
  rewrite (IH _ Hnd').
  assert (Hsame : forall f', In f' fs -> forall k, In k (map fst (a_keys f')) -> get k (pop_all (key_of (a_keys f) d) d) = get k d).
  { intros f' Hf' k Hk. rewrite get_pop_all. destruct (existsb (String.eqb k) (key_of (a_keys f) d)) eqn:E; [|easy]. exfalso.
    apply existsb_In, key_of_in in E. apply (NoDup_app_disjoint _ _ Hnd k E). apply in_flat_map. now exists f'. }
  set (d' := pop_all (key_of (a_keys f) d) d) in *.
  assert (Ha : all (fun f => option_map (pair (a_name f)) (value_of d0 (a_keys f) (a_need f) d')) fs
               = all (fun f => option_map (pair (a_name f)) (value_of d0 (a_keys f) (a_need f) d)) fs
               /\ flat_map (fun f => key_of (a_keys f) d') fs = flat_map (fun f => key_of (a_keys f) d) fs).
  { clear IH Hnd Hnd'. clearbody d'. induction fs as [|f' fs IH]; cbn; [easy|].
    destruct (value_of_get d0 (a_keys f') (a_need f') d' d (Hsame f' (or_introl eq_refl))) as [-> ->].
    destruct IH as [-> ->]; [intros f2 H2; apply Hsame; now right|]. easy. }
  destruct Ha as [-> ->]. destruct (all _ fs) as [g|]; cbn; [|easy]. f_equal. f_equal.
  unfold d', pop_all. now rewrite fold_left_app.
Qed.

(** ** Keys and fields *)
Lemma comes_from_key f d k kd j : comes_from d f k kd j -> key_of (a_keys f) d = [k] /\ forall d0 n, value_of d0 (a_keys f) n d = reads d0 kd j.
Proof.
  intros (bs & as_ & E & Hb & Hg). rewrite E. clear E. induction bs as [|[k' kd'] bs IH]; cbn.
  - rewrite Hg. easy.
  - rewrite (Hb k' kd' (or_introl eq_refl)). apply IH. intros k2 kd2 H. apply (Hb k2 kd2). now right.
Qed.
Lemma not_given_key f d : not_given d f -> key_of (a_keys f) d = [] /\ forall d0 n, value_of d0 (a_keys f) n d = match n with Default o => Some o | _ => None end.
Proof.
  unfold not_given. generalize (a_keys f). intros ks H. induction ks as [|[k kd] ks IH]; cbn; [easy|].
  rewrite (H k kd (or_introl eq_refl)). apply IH. intros k2 kd2 H2. apply (H k2 kd2). now right.
Qed.
Lemma given_or_not f (d : dict json) : (exists k kd j, comes_from d f k kd j) \/ not_given d f.
Proof.
  unfold comes_from, not_given. generalize (a_keys f). intros ks. induction ks as [|[k kd] ks IH].
  - right. intros; easy.
  - destruct (get k d) as [j|] eqn:E.
    + left. exists k, kd, j, [], ks. repeat split; auto. intros; easy.
    + destruct IH as [(k2 & kd2 & j2 & bs & as_ & E2 & Hb & Hg)|H].
      * left. exists k2, kd2, j2, ((k, kd) :: bs), as_. subst ks. repeat split; auto. intros k' kd' [H|H]; [congruence | eauto].
      * right. intros k' kd' [H2|H2]; [congruence | eauto].
Qed.
Lemma comes_from_in d f k kd j : comes_from d f k kd j -> In (k, kd) (a_keys f) /\ get k d = Some j.
Proof. intros (bs & as_ & E & _ & Hg). split; [rewrite E; apply in_elt | easy]. Qed.

Lemma through_form c f : through c f = true -> exists k kd, a_keys f = [(k, kd)] /\ as_raw kd = true /\ a_name f = k /\ (a_need f = Required \/ a_need f = Left).
Proof.
  unfold through. destruct (a_keys f) as [|[k kd] [|]]; destruct (a_need f); try discriminate;
    rewrite !andb_true_iff; intros [[H1 H2] H3]; apply String.eqb_eq in H2; exists k, kd; auto.
Qed.
Lemma fits_default_fit t o : fits_default t o = true -> fit t o = Some o.
Proof. destruct o; destruct t; try discriminate; intros _; reflexivity. Qed.
Lemma as_raw_reads d kd j : as_raw kd = true -> reads d kd j = Some (raw j).
Proof. destruct kd; try discriminate; reflexivity. Qed.

Section Class.
Variable c : class.
Variable fs : list field.
Hypothesis Hfs : table c = fs.

Lemma ok_parts : NoDup (map a_name fs) /\ NoDup (all_keys fs) /\ NoDup (map f_name (formals c))
  /\ (forall f, In f fs -> field_ok c f = true)
  /\ (forall fm, In fm (formals c) -> In (f_name fm) (map a_name fs) \/ f_required fm = false /\ quiet c (f_name fm) = true)
  /\ (forall k kd, In (k, kd) (checked c) -> for_type kd TAny = true \/ for_type kd TScenNone = true).
Proof.
  pose proof (tables_ok c) as H. unfold table_ok in H. rewrite Hfs in H. cbv zeta in H. rewrite !andb_true_iff in H. destruct H as (((((H1 & H2) & H3) & H4) & H5) & H6).
  apply (proj1 (nodupb_spec _)) in H1. apply (proj1 (nodupb_spec _)) in H2. apply (proj1 (nodupb_spec _)) in H3.
  rewrite forallb_forall in H4, H5, H6. split; [easy|]. split; [easy|]. split; [easy|]. split; [easy|]. split.
  - intros fm Hfm. specialize (H5 fm Hfm). apply orb_true_iff in H5. destruct H5 as [H5|H5]; [left; now apply existsb_In|right].
    apply andb_true_iff in H5. destruct H5 as [H5 H7]. apply negb_true_iff in H5. easy.
  - intros k kd Hk. specialize (H6 _ Hk). now apply orb_true_iff in H6.
Qed.
Lemma field_formal f : In f fs -> exists fm, In fm (formals c) /\ f_name fm = a_name f
  /\ (forall k kd, In (k, kd) (a_keys f) -> for_type kd (f_type fm) = true)
  /\ (through c f = true -> f_required fm = is_required (a_need f) /\ quiet c (a_name f) = false)
  /\ (through c f = false -> match a_need f with Left => False | Required => True | Default o => fit (f_type fm) o = Some o end).
Proof.
  intros Hf. destruct ok_parts as (_ & _ & _ & H & _). specialize (H f Hf). unfold field_ok in H. apply existsb_exists in H. destruct H as (fm & Hin & H).
  rewrite !andb_true_iff in H. destruct H as [[Hn Hk] H]. apply String.eqb_eq in Hn. exists fm. split; [easy|]. split; [easy|].
  rewrite forallb_forall in Hk. split; [intros k kd Hkk; exact (Hk _ Hkk)|].
  destruct (through c f).
  - split; [|discriminate]. intros _. rewrite !andb_true_iff in H. destruct H as (H2 & H3).
    split; [now apply Bool.eqb_prop|]. now apply negb_true_iff in H3.
  - split; [discriminate|]. intros _. destruct (a_need f); [easy | now apply fits_default_fit | discriminate].
Qed.
Lemma formal_field fm : In fm (formals c) -> (exists f, In f fs /\ a_name f = f_name fm)
  \/ (~ In (f_name fm) (map a_name fs) /\ f_required fm = false /\ quiet c (f_name fm) = true).
Proof.
  intros H. destruct ok_parts as (_ & _ & _ & _ & H' & _). destruct (in_dec string_dec (f_name fm) (map a_name fs)) as [Hin|Hnin].
  - left. apply in_map_iff in Hin. destruct Hin as (f & E & Hf). exists f. easy.
  - right. destruct (H' fm H) as [H1|H1]; [contradiction | easy].
Qed.
Lemma same_field f f' : In f fs -> In f' fs -> a_name f = a_name f' -> f = f'.
Proof. intros H1 H2. destruct ok_parts as (H & _). exact (same_image a_name fs H f f' H1 H2). Qed.
Lemma same_formal f f' : In f (formals c) -> In f' (formals c) -> f_name f = f_name f' -> f = f'.
Proof. intros H1 H2. destruct ok_parts as (_ & _ & H & _). exact (same_image f_name (formals c) H f f' H1 H2). Qed.
Lemma in_popped f : In f (popped c fs) <-> In f fs /\ through c f = false.
Proof. unfold popped. rewrite filter_In, negb_true_iff. easy. Qed.
Lemma key_field f f' k : In f fs -> In f' fs -> In k (map fst (a_keys f)) -> In k (map fst (a_keys f')) -> f = f'.
Proof.
  destruct ok_parts as (_ & H & _). unfold all_keys in H. clear Hfs. induction fs as [|x l IH]; [easy|]. cbn in H. destruct (NoDup_app_parts _ _ H) as [_ H'].
  intros [->|H1] [->|H2] Hk1 Hk2; [easy | | | now apply IH]; exfalso; apply (NoDup_app_disjoint _ _ H k); auto; apply in_flat_map; eauto.
Qed.
Lemma popped_keys : NoDup (all_keys (popped c fs)).
Proof.
  destruct ok_parts as (_ & H & _). unfold all_keys in *. clear Hfs. unfold popped. induction fs as [|x l IH]; cbn in *; [constructor|].
  destruct (NoDup_app_parts _ _ H) as [Hx Hl]. destruct (through c x); cbn; [now apply IH|].
  specialize (IH Hl). assert (Hd : forall k, In k (map fst (a_keys x)) -> In k (flat_map (fun f => map fst (a_keys f)) (filter (fun f => negb (through c f)) l)) -> False).
  { intros k H1 H2. apply (NoDup_app_disjoint _ _ H k H1). apply in_flat_map in H2. destruct H2 as (f & Hf & Hk). apply filter_In in Hf. apply in_flat_map. exists f. tauto. }
  revert Hx Hd. generalize (map fst (a_keys x)). intros ks Hx Hd. induction ks as [|k ks IHk]; cbn; [easy|]. inversion Hx as [|? ? N1 N2]; subst.
  constructor; [|apply IHk; [easy | intros k' Hk'; apply Hd; now right]]. intros Hin. apply in_app_or in Hin. destruct Hin as [Hin|Hin]; [contradiction|].
  apply (Hd k); [now left | easy].
Qed.

(** The values of the popped fields. *)
Definition pairs (d : dict json) : option (list (string * obj)) :=
  all (fun f => option_map (pair (a_name f)) (value_of d (a_keys f) (a_need f) d)) (popped c fs).
Definition chosen (d : dict json) : list string := flat_map (fun f => key_of (a_keys f) d) (popped c fs).
Lemma pairs_names d g : pairs d = Some g -> map fst g = map a_name (popped c fs).
Proof.
  unfold pairs. intros H. apply all_some in H. revert H. generalize (popped c fs). intros l H. induction H as [|f y l r H H' IH]; cbn; [easy|].
  rewrite IH. f_equal. destruct (value_of d _ _ d); [|discriminate]. cbn in H. assert (E : y = (a_name f, o)) by congruence. now subst.
Qed.
Lemma popped_names : NoDup (map a_name (popped c fs)).
Proof.
  destruct ok_parts as (H & _). clear Hfs. unfold popped. induction fs as [|x l IH]; cbn in *; [constructor|]. inversion H as [|? ? H1 H2]; subst.
  destruct (through c x); cbn; [now apply IH|]. constructor; [|now apply IH]. intros Hin. apply H1. apply in_map_iff in Hin. destruct Hin as (f & E & Hf).
  apply filter_In in Hf. apply in_map_iff. exists f. tauto.
Qed.
Lemma pairs_get d g f : pairs d = Some g -> In f (popped c fs) -> exists o, value_of d (a_keys f) (a_need f) d = Some o /\ get (a_name f) g = Some o.
Proof.
  intros H Hf. pose proof (pairs_names _ _ H) as Hnames. pose proof popped_names as Hnd. unfold pairs in H. apply all_some in H.
  apply In_nth_error in Hf. destruct Hf as [i Hi]. destruct (Forall2_nth_l _ _ _ _ _ H Hi) as (y & Hy & Hv).
  destruct (value_of d (a_keys f) (a_need f) d) as [o|]; [|discriminate]. exists o. split; [easy|]. cbn in Hv. assert (y = (a_name f, o)) by congruence. subst y.
  apply get_of_pair; [rewrite Hnames; easy | eapply nth_error_In; eauto].
Qed.
Lemma pairs_goes d : (forall f, In f (popped c fs) -> value_of d (a_keys f) (a_need f) d <> None) -> exists g, pairs d = Some g.
Proof.
  unfold pairs. generalize (popped c fs). intros l H. induction l as [|f l IH]; cbn; [eauto|].
  destruct IH as [g Hg]; [intros f' Hf'; apply H; now right|]. rewrite Hg. specialize (H f (or_introl eq_refl)).
  destruct (value_of d (a_keys f) (a_need f) d); [cbn; eauto | contradiction].
Qed.
Lemma interp_some d b : interp c fs d = Some b <->
  checked_ok c d = true /\ exists g, pairs d = Some g /\ call_with c (g ++ raws (hush c (pop_all (chosen d) d))) = Some b.
Proof.
  unfold interp. rewrite (run_values d _ d popped_keys). fold (pairs d). fold (chosen d). destruct (checked_ok c d); [|split; [discriminate | intros [? _]; discriminate]].
  destruct (pairs d) as [g|]; cbn; split; intros H; try discriminate.
  - split; [easy|]. exists g. easy.
  - destruct H as (_ & g' & E & H). congruence.
  - destruct H as (_ & g' & E & H). discriminate.
Qed.
Lemma checked_spec d : checked_ok c d = true <-> forall k kd j, In (k, kd) (checked c) -> get k d = Some j -> exists o, means d kd j o.
Proof.
  assert (Hm : forall k kd j, In (k, kd) (checked c) -> (exists o, means d kd j o) <-> exists o, reads d kd j = Some o).
  { intros k kd j Hk. destruct ok_parts as (_ & _ & _ & _ & _ & H). destruct (H k kd Hk) as [Ht|Ht].
    - split; intros [o Ho]; [apply (means_reads d kd TAny j o Ht) in Ho; destruct Ho as (o' & H1 & _); eauto|].
      exists o. apply (means_reads d kd TAny j o Ht). exists o. easy.
    - destruct kd; try discriminate Ht. split; intros [o Ho]; [apply (means_reads d _ TScenNone j o Ht) in Ho; destruct Ho as (o' & H1 & _); eauto|].
      exists o. apply (means_reads d _ TScenNone j o Ht). exists o. split; [easy|]. cbn in Ho. unfold find_scenario in Ho. destruct j as [| |s| |]; try discriminate.
      + assert (o = ONone) by congruence. now subst.
      + destruct (scenario s); [|discriminate]. assert (o = OScen s) by congruence. now subst. }
  unfold checked_ok. rewrite forallb_forall. split.
  - intros H k kd j Hk Hj. specialize (H _ Hk). cbn in H. rewrite Hj in H. apply (Hm k kd j Hk). destruct (reads d kd j); [eauto | discriminate].
  - intros H [k kd] Hk. cbn. destruct (get k d) as [j|] eqn:E; [|easy]. pose proof (H k kd j Hk E) as Ho. apply (Hm k kd j Hk) in Ho. destruct Ho as [o ->]. easy.
Qed.

(** What is left for the constructor. *)
Lemma rest_get d k j : NoDup (map fst d) ->
  get k (hush c (pop_all (chosen d) d)) = Some j <-> get k d = Some j /\ ~ In k (chosen d) /\ quiet c k = false.
Proof.
  intros Hnd. unfold hush. rewrite get_filter by now apply NoDup_pop_all. rewrite get_pop_all.
  destruct (existsb (String.eqb k) (chosen d)) eqn:E.
  - apply existsb_In in E. split; [discriminate | tauto].
  - assert (Hn : ~ In k (chosen d)) by (intros H; apply existsb_In in H; congruence).
    destruct (get k d) as [j'|]; [|split; [discriminate | intros (? & _); discriminate]].
    cbn [fst]. destruct (quiet c k) eqn:Eq; cbn [negb].
    + split; [discriminate|]. intros (H & _ & H'). congruence.
    + split; [intros H; assert (j' = j) by congruence; subst; auto | intros (H & _); easy].
Qed.
Lemma chosen_spec d k : In k (chosen d) <-> exists f kd j, In f (popped c fs) /\ comes_from d f k kd j.
Proof.
  unfold chosen. rewrite in_flat_map. split.
  - intros (f & Hf & Hk). destruct (given_or_not f d) as [(k' & kd & j & H)|H].
    + destruct (comes_from_key _ _ _ _ _ H) as [E _]. rewrite E in Hk. destruct Hk as [->|[]]. eauto.
    + destruct (not_given_key _ _ H) as [E _]. rewrite E in Hk. destruct Hk.
  - intros (f & kd & j & Hf & H). exists f. split; [easy|]. destruct (comes_from_key _ _ _ _ _ H) as [-> _]. now left.
Qed.
Lemma through_rest d f j : NoDup (map fst d) -> In f fs -> through c f = true ->
  get (a_name f) (hush c (pop_all (chosen d) d)) = Some j <-> get (a_name f) d = Some j.
Proof.
  intros Hnd Hf Ht. rewrite (rest_get d _ _ Hnd). split; [tauto|]. intros H. split; [easy|].
  destruct (through_form _ _ Ht) as (k & kd0 & Hk & _ & Hn & _). split.
  - intros Hc. apply chosen_spec in Hc. destruct Hc as (f' & kd & j' & Hf' & Hcf). apply in_popped in Hf'. destruct Hf' as [Hf' Ht'].
    apply comes_from_in in Hcf. destruct Hcf as [Hin _]. assert (f' = f); [|congruence]. apply (key_field f' f (a_name f)); auto.
    + apply in_map_iff. now exists (a_name f, kd).
    + rewrite Hk, Hn. now left.
  - destruct (field_formal f Hf) as (fm & _ & _ & _ & Hthr & _). destruct (Hthr Ht) as (_ & Hq). exact Hq.
Qed.

Lemma quiet_effect k : quiet c k = true <-> without_effect c k.
Proof.
  unfold quiet, without_effect. rewrite orb_true_iff, existsb_In. split; (intros [H|H]; [now left|right]).
  - destruct c; try discriminate H. split; [easy|]. apply negb_true_iff in H. intros Hin. apply existsb_In in Hin. congruence.
  - destruct H as [-> H]. apply negb_true_iff. destruct (existsb _ _) eqn:E; [|easy]. apply existsb_In in E. contradiction.
Qed.
(** ** What constructors ask of several arguments *)
Section Extra.
Variable d : dict json.
Variable b : string -> option obj.
Variable g : bindings.
Hypothesis Hg : forall n, get n g = b n.
Hypothesis Harg : forall f, In f fs -> argument d f b.
Lemma raw_argument n : In (Field n [(n, KRaw)] Left) fs -> get n g = option_map raw (get n d).
Proof.
  intros Hin. rewrite Hg. destruct (Harg _ Hin) as [(k & kd & j & o & Hc & Hm & Hb)|[Hn Hb]]; cbn in Hb.
  - destruct Hc as (bs & as_ & E & _ & Hj). cbn in E. destruct bs as [|? [|? ?]]; try discriminate E. cbn in E.
    assert (k = n) by congruence. assert (kd = KRaw) by congruence. subst. rewrite Hj, Hb. cbn in Hm |- *. apply raw_stands in Hm. congruence.
  - rewrite (Hn n KRaw (or_introl eq_refl)). easy.
Qed.
Lemma or_argument n kd : In (entry_or n kd ONone) fs -> match get n d with Some j => exists o, means d kd j o /\ get n g = Some o | None => get n g = Some ONone end.
Proof.
  intros Hin. rewrite Hg. destruct (Harg _ Hin) as [(k & kd' & j & o & Hc & Hm & Hb)|[Hn Hb]]; cbn in Hb.
  - destruct Hc as (bs & as_ & E & _ & Hj). cbn in E. destruct bs as [|? [|? ?]]; try discriminate E. cbn in E.
    assert (k = n) by congruence. assert (kd' = kd) by congruence. subst. rewrite Hj. eauto.
  - rewrite (Hn n kd (or_introl eq_refl)). easy.
Qed.
Lemma target_some kd j o : kd = KTarget -> means d kd j o -> some_object (Some o) = true <-> j <> JNull.
Proof.
  intros -> [[H1 [[-> ->]|[H2 ->]]]|[(e & v & -> & _ & a & _ & ->)|(e & p & a & rest & -> & _ & _ & _ & _ & ->)]]; cbn; split; try easy.
Qed.
Lemma extra_together : extra c g = true <-> together c d.
Proof.
  destruct c eqn:Ec; try (cbn; easy); rewrite <- Ec in *; assert (Hfs' : fs = table c) by easy; rewrite Ec in Hfs'.
  - (* Aggregated *)
    assert (E1 : get "recorder_agg_func" g = option_map raw (get "recorder_agg_func" d)) by (apply raw_argument; rewrite Hfs'; cbn; tauto).
    assert (E2 : get "agg_func" g = option_map raw (get "agg_func" d)) by (apply raw_argument; rewrite Hfs'; cbn; tauto).
    rewrite Ec. unfold extra, given_arg. rewrite E1, E2. cbn [together]. destruct (get "recorder_agg_func" d) as [j|]; cbn.
    + destruct j; cbn; split; try discriminate; try (intros [s [H|[H _]]]; discriminate); eauto.
    + destruct (get "agg_func" d) as [j|]; cbn; [|split; [discriminate | intros [s [H|[_ H]]]; discriminate]].
      destruct j; cbn; split; try discriminate; try (intros [s [H|[_ H]]]; discriminate); eauto.
  - assert (E1 : get "fdc_agg_func" g = option_map raw (get "fdc_agg_func" d)) by (apply raw_argument; rewrite Hfs'; cbn; tauto).
    assert (E2 : get "temporal_agg_func" g = option_map raw (get "temporal_agg_func" d)) by (apply raw_argument; rewrite Hfs'; cbn; tauto).
    rewrite Ec. unfold extra, given_arg. rewrite E1, E2. cbn [together]. unfold not_both.
    destruct (get "fdc_agg_func" d), (get "temporal_agg_func" d); cbn; split; auto; try discriminate. intros [H|H]; discriminate.
  - assert (E1 : get "fdc_agg_func" g = option_map raw (get "fdc_agg_func" d)) by (apply raw_argument; rewrite Hfs'; cbn; tauto).
    assert (E2 : get "temporal_agg_func" g = option_map raw (get "temporal_agg_func" d)) by (apply raw_argument; rewrite Hfs'; cbn; tauto).
    rewrite Ec. unfold extra, given_arg. rewrite E1, E2. cbn [together]. unfold not_both.
    destruct (get "fdc_agg_func" d), (get "temporal_agg_func" d); cbn; split; auto; try discriminate. intros [H|H]; discriminate.
  - (* DurationDeviation *)
    assert (E1 : get "fdc_agg_func" g = option_map raw (get "fdc_agg_func" d)) by (apply raw_argument; rewrite Hfs'; cbn; tauto).
    assert (E2 : get "temporal_agg_func" g = option_map raw (get "temporal_agg_func" d)) by (apply raw_argument; rewrite Hfs'; cbn; tauto).
    assert (H3 := or_argument "lower_target_fdc" KTarget ltac:(rewrite Hfs'; cbn; tauto)). assert (H4 := or_argument "upper_target_fdc" KTarget ltac:(rewrite Hfs'; cbn; tauto)).
    rewrite Ec. unfold extra, given_arg. rewrite E1, E2. cbn [together]. unfold not_both. rewrite andb_true_iff, orb_true_iff.
    assert (Hx : forall n, match get n d with Some j => exists o, means d KTarget j o /\ get n g = Some o | None => get n g = Some ONone end ->
              some_object (get n g) = true <-> exists j, get n d = Some j /\ j <> JNull).
    { intros n H. destruct (get n d) as [j|].
      - destruct H as (o & Hm & ->). rewrite (target_some KTarget j o eq_refl Hm). split; [eauto | intros (j' & E & H'); congruence].
      - rewrite H. cbn. split; [discriminate | intros (j' & E & _); discriminate]. }
    rewrite (Hx _ H3), (Hx _ H4).
    assert (Hboth : negb (match option_map raw (get "fdc_agg_func" d) with Some _ => true | None => false end
                          && match option_map raw (get "temporal_agg_func" d) with Some _ => true | None => false end) = true
                    <-> get "fdc_agg_func" d = None \/ get "temporal_agg_func" d = None).
    { destruct (get "fdc_agg_func" d), (get "temporal_agg_func" d); cbn; split; auto; try discriminate. intros [H|H]; discriminate. }
    rewrite Hboth. split; intros [H1 H2]; (split; [easy|]).
    + destruct H2 as [(j & Hj & Hn)|(j & Hj & Hn)]; eexists _, j; (split; [|split; eassumption]); cbn; tauto.
    + destruct H2 as (k & j & [<-|[<-|[]]] & Hj & Hn); [left | right]; eauto.
  - assert (E1 : get "sdc_agg_func" g = option_map raw (get "sdc_agg_func" d)) by (apply raw_argument; rewrite Hfs'; cbn; tauto).
    assert (E2 : get "temporal_agg_func" g = option_map raw (get "temporal_agg_func" d)) by (apply raw_argument; rewrite Hfs'; cbn; tauto).
    rewrite Ec. unfold extra, given_arg. rewrite E1, E2. cbn [together]. unfold not_both.
    destruct (get "sdc_agg_func" d), (get "temporal_agg_func" d); cbn; split; auto; try discriminate. intros [H|H]; discriminate.
  - (* RollingMean *)
    assert (H3 := or_argument "timesteps" KInt ltac:(rewrite Hfs'; cbn; tauto)). assert (H4 := or_argument "days" KInt ltac:(rewrite Hfs'; cbn; tauto)).
    rewrite Ec. unfold extra. cbn [together]. rewrite orb_true_iff.
    assert (Hx : forall n, match get n d with Some j => exists o, means d KInt j o /\ get n g = Some o | None => get n g = Some ONone end ->
              nonzero (get n g) = true <-> exists q, get n d = Some (JNumber q) /\ (1 <= q \/ q <= -(1))%Q).
    { intros n H. destruct (get n d) as [j|].
      - destruct H as (o & (q & z & -> & Hw & ->) & ->). cbn [nonzero]. rewrite (whole_nonzero q z Hw). split; [eauto|]. intros (q' & E & H'). assert (q' = q) by congruence. now subst.
      - rewrite H. cbn. split; [discriminate | intros (j' & E & _); discriminate]. }
    rewrite (Hx _ H3), (Hx _ H4). split.
    + intros [(q & Hj & Hn)|(q & Hj & Hn)]; eexists _, q; (split; [|split; eassumption]); cbn; tauto.
    + intros (k & q & [<-|[<-|[]]] & Hj & Hn); [left | right]; eauto.
  - (* Event *)
    assert (E1 : get "minimum_event_length" g = option_map raw (get "minimum_event_length" d)) by (apply raw_argument; rewrite Hfs'; cbn; tauto).
    rewrite Ec. unfold extra. rewrite E1. cbn [together]. destruct (get "minimum_event_length" d) as [j|]; cbn; [|split; auto].
    destruct j; cbn; split; try discriminate; try (intros [H|(q' & H & _)]; discriminate).
    + intros H. right. exists q. split; [easy|]. now apply (reflect_iff _ _ (qlebP 1 q)).
    + intros [H|(q' & H & Hq)]; [discriminate|]. assert (q' = q) by congruence. subst. now apply (reflect_iff _ _ (qlebP 1 q)).
Qed.
End Extra.

Theorem interp_document d b : NoDup (map fst d) -> interp c fs d = Some b -> document_of c d (fun n => get n b).
Proof.
  intros Hnd H. apply interp_some in H. destruct H as (Hto & g & Hg & Hc). apply call_with_some in Hc. destruct Hc as (Hn & Hk & Hb & He).
  destruct ok_parts as (_ & _ & Hform & _ & _).
  destruct (bound_get _ _ _ Hform Hb) as [B1 B2].
  rewrite map_app, raws_names, (pairs_names _ _ Hg) in Hn, Hk.
  assert (Harg : forall f, In f fs -> argument d f (fun n => get n b)).
  { intros f Hf. destruct (field_formal f Hf) as (fm & Hfm & Hname & Hkt & Hthr & Hpop). specialize (B1 fm Hfm). rewrite Hname in B1. rewrite get_app, get_raws in B1.
    destruct (through c f) eqn:Et.
    - destruct (Hthr eq_refl) as (Hrq & _). clear Hpop Hthr. destruct (through_form _ _ Et) as (k & kd & Hks & Hkr & Hkn & Hneed).
      assert (Hng : get (a_name f) g = None).
      { apply get_none_key. rewrite (pairs_names _ _ Hg). intros Hin. apply in_map_iff in Hin. destruct Hin as (f' & E & Hf').
        apply in_popped in Hf'. destruct Hf' as [Hf' Ht']. assert (f' = f) by now apply same_field. congruence. }
      rewrite Hng in B1.
      destruct (get (a_name f) (hush c (pop_all (chosen d) d))) as [j|] eqn:Er; cbn in B1.
      + apply (proj1 (through_rest d f j Hnd Hf Et)) in Er. destruct B1 as (o' & E1 & E2). left. exists k, kd, j, o'. rewrite Hkn in Er. split; [|split; [|easy]].
        * exists [], []. rewrite Hks. split; [easy|]. split; [intros; easy|easy].
        * apply (means_reads d kd (f_type fm) j o'); [apply (Hkt k); rewrite Hks; now left|]. exists (raw j). split; [now apply as_raw_reads | easy].
      + right. destruct B1 as [R1 R2]. split.
        * intros k' kd' Hin. rewrite Hks in Hin. destruct Hin as [E|[]]. assert (k' = a_name f) by congruence. subst k'.
          destruct (get (a_name f) d) as [j|] eqn:Ed; [|easy]. apply (proj2 (through_rest d f j Hnd Hf Et)) in Ed. congruence.
        * rewrite Hrq in R1. destruct Hneed as [E|E]; rewrite E in *; [discriminate | easy].
    - pose proof (Hpop eq_refl) as Hdef. clear Hthr Hpop.
      assert (Hfp : In f (popped c fs)) by (apply in_popped; easy).
      destruct (pairs_get _ _ _ Hg Hfp) as (o & Hv & Hgo). rewrite Hgo in B1. destruct B1 as (o' & F1 & F2).
      destruct (given_or_not f d) as [(k & kd & j & Hcf)|Hng].
      + left. exists k, kd, j, o'. split; [easy|]. split; [|easy]. destruct (comes_from_key _ _ _ _ _ Hcf) as [_ Hv']. rewrite Hv' in Hv.
        destruct (comes_from_in _ _ _ _ _ Hcf) as [Hin _]. apply (means_reads d kd (f_type fm) j o' (Hkt _ _ Hin)). eauto.
      + right. split; [easy|]. destruct (not_given_key _ _ Hng) as [_ Hv']. rewrite Hv' in Hv. destruct (a_need f) as [|o0|]; [discriminate| |discriminate].
        assert (o0 = o) by congruence. subst o0. congruence. }
  unfold RecLoad_spec.document_of. rewrite Hfs. split; [easy|]. split; [now apply checked_spec|]. split; [|split].
  - intros k j Hj. destruct (in_dec string_dec k (chosen d)) as [Hin|Hnin].
    + left. apply chosen_spec in Hin. destruct Hin as (f & kd & j' & Hf & Hcf). exists f, kd. apply in_popped in Hf. split; [easy|].
      destruct (comes_from_in _ _ _ _ _ Hcf) as [_ E]. assert (j' = j) by congruence. now subst.
    + destruct (quiet c k) eqn:Eq; [right; now apply quiet_effect|]. left.
      assert (Hr : get k (hush c (pop_all (chosen d) d)) = Some j) by (apply rest_get; auto).
      assert (Hkr : In k (map fst (hush c (pop_all (chosen d) d)))) by (apply get_key; eauto).
      assert (Hkf : In k (map f_name (formals c))) by (apply Hk, in_or_app; now right).
      apply in_map_iff in Hkf. destruct Hkf as (fm & Ek & Hfm). destruct (formal_field fm Hfm) as [(f & Hf & En)|(_ & _ & Hq)]; [|congruence].
      destruct (through c f) eqn:Et.
      * destruct (through_form _ _ Et) as (k' & kd & Hks & _ & Hkn & _). assert (E' : k' = k) by congruence. rewrite E' in Hks. exists f, kd. split; [easy|].
        exists [], []. rewrite Hks. split; [easy|]. split; [intros; easy | easy].
      * exfalso. apply (NoDup_app_disjoint _ _ Hn k); [|easy]. apply in_map_iff. exists f. split; [congruence | apply in_popped; easy].
  - intros n Hnn. destruct (in_dec string_dec n (map f_name (formals c))) as [Hin|Hnin]; [|now rewrite B2 in Hnn].
    apply in_map_iff in Hin. destruct Hin as (fm & En & Hfm). destruct (formal_field fm Hfm) as [(f & Hf & E)|(Hno & _ & Hq)]; [exists f; split; [easy | congruence]|].
    exfalso. specialize (B1 fm Hfm). rewrite En in *. rewrite get_app, get_raws in B1.
    assert (E1 : get n g = None).
    { apply get_none_key. rewrite (pairs_names _ _ Hg). intros Hin. apply Hno. apply in_map_iff in Hin. destruct Hin as (f & E & Hf). apply in_popped in Hf. apply in_map_iff. exists f. tauto. }
    assert (E2 : get n (hush c (pop_all (chosen d) d)) = None).
    { destruct (get n (hush c (pop_all (chosen d) d))) as [j|] eqn:E; [|easy]. apply (proj1 (rest_get d n j Hnd)) in E. destruct E as (_ & _ & E). congruence. }
    rewrite E1, E2 in B1. cbn in B1. now destruct B1.
  - apply (extra_together d (fun n => get n b) b); easy.
Qed.

(** A document has one meaning. *)
Lemma means_functional d kd j o o' : means d kd j o -> means d kd j o' -> o = o'.
Proof.
  assert (Ht : exists t, for_type kd t = true).
  { destruct kd; first [exists TAny; reflexivity | exists TPar; reflexivity | exists TIndex; reflexivity | exists TComp; reflexivity | exists TScenNone; reflexivity
      | exists TStore; reflexivity | exists TText; reflexivity | exists TObserved; reflexivity | exists TCompNone; reflexivity]. }
  destruct Ht as [t Ht]. rewrite !(means_reads d kd t j _ Ht). intros (x & H1 & H2) (y & H3 & H4). congruence.
Qed.
Lemma comes_from_functional d f k kd j k' kd' j' : In f fs -> comes_from d f k kd j -> comes_from d f k' kd' j' -> k = k' /\ kd = kd' /\ j = j'.
Proof.
  intros Hf H1 H2. destruct (comes_from_key _ _ _ _ _ H1) as [E1 _]. destruct (comes_from_key _ _ _ _ _ H2) as [E2 _].
  assert (k = k') by congruence. subst k'. destruct (comes_from_in _ _ _ _ _ H1) as [I1 G1]. destruct (comes_from_in _ _ _ _ _ H2) as [I2 G2].
  split; [easy|]. split; [|congruence].
  assert (Hnd : NoDup (map fst (a_keys f))).
  { destruct ok_parts as (_ & H & _). unfold all_keys in H. clear - Hf H. induction fs as [|x l IH]; [destruct Hf|]. cbn in H.
    destruct (NoDup_app_parts _ _ H) as [Hx Hl]. destruct Hf as [->|Hf]; [easy | now apply IH]. }
  assert (E : (k, kd) = (k, kd')) by (apply (same_image fst (a_keys f) Hnd); easy). congruence.
Qed.
Lemma argument_functional d f b b' : In f fs -> argument d f b -> argument d f b' -> b (a_name f) = b' (a_name f).
Proof.
  intros Hf [(k & kd & j & o & H1 & H2 & H3)|[H1 H2]] [(k' & kd' & j' & o' & H1' & H2' & H3')|[H1' H2']].
  - destruct (comes_from_functional _ _ _ _ _ _ _ _ Hf H1 H1') as (-> & -> & ->). rewrite H3, H3'. f_equal. eapply means_functional; eauto.
  - destruct (comes_from_in _ _ _ _ _ H1) as [Hi Hg]. rewrite (H1' _ _ Hi) in Hg. discriminate.
  - destruct (comes_from_in _ _ _ _ _ H1') as [Hi Hg]. rewrite (H1 _ _ Hi) in Hg. discriminate.
  - destruct (a_need f); [easy | congruence | congruence].
Qed.
Lemma document_functional d b b' : document_of c d b -> document_of c d b' -> forall n, b n = b' n.
Proof.
  intros (A1 & _ & _ & N1 & _) (A2 & _ & _ & N2 & _) n. rewrite Hfs in *.
  destruct (in_dec string_dec n (map a_name fs)) as [Hin|Hnin].
  - apply in_map_iff in Hin. destruct Hin as (f & <- & Hf). apply (argument_functional d f); auto.
  - destruct (b n) eqn:Eb; [exfalso; destruct (N1 n) as (f & Hf & <-); [congruence | apply Hnin; now apply in_map]|].
    destruct (b' n) eqn:Eb'; [exfalso; destruct (N2 n) as (f & Hf & <-); [congruence | apply Hnin; now apply in_map] | easy].
Qed.

Theorem document_interp d b : NoDup (map fst d) -> document_of c d b -> exists b', interp c fs d = Some b' /\ forall n, get n b' = b n.
Proof.
  intros Hnd (Harg & Hchk & Hkeys & Hnames & Hto). rewrite Hfs in *.
  destruct ok_parts as (_ & _ & Hform & _ & _).
  assert (Hval : forall f, In f (popped c fs) -> value_of d (a_keys f) (a_need f) d <> None).
  { intros f Hf. apply in_popped in Hf. destruct Hf as [Hf Et]. destruct (field_formal f Hf) as (fm & _ & _ & Hkt & _ & Hpop). pose proof (Hpop Et) as Hdef.
    destruct (Harg f Hf) as [(k & kd & j & o & H1 & H2 & _)|[H1 H2]].
    - destruct (comes_from_key _ _ _ _ _ H1) as [_ ->]. destruct (comes_from_in _ _ _ _ _ H1) as [Hi _].
      apply (means_reads d kd (f_type fm) j o (Hkt _ _ Hi)) in H2. destruct H2 as (o' & -> & _). discriminate.
    - destruct (not_given_key _ _ H1) as [_ ->]. destruct (a_need f); [easy | discriminate | easy]. }
  destruct (pairs_goes d Hval) as [g Hg].
  assert (Hrest : forall k j, get k (hush c (pop_all (chosen d) d)) = Some j -> exists f, In f fs /\ through c f = true /\ a_name f = k).
  { intros k j Hr. apply (rest_get d k j Hnd) in Hr. destruct Hr as (Hj & Hnc & Hq). destruct (Hkeys k j Hj) as [(f & kd & Hf & Hcf)|He].
    - destruct (through c f) eqn:Et.
      + exists f. split; [easy|]. split; [easy|]. destruct (through_form _ _ Et) as (k' & kd' & Hks & _ & Hkn & _). destruct (comes_from_in _ _ _ _ _ Hcf) as [Hi _].
        rewrite Hks in Hi. destruct Hi as [E|[]]. congruence.
      + exfalso. apply Hnc. apply chosen_spec. exists f, kd, j. split; [apply in_popped; easy | easy].
    - apply quiet_effect in He. congruence. }
  set (given := g ++ raws (hush c (pop_all (chosen d) d))) in *.
  assert (Hgiven : forall f, In f fs -> exists fm, In fm (formals c) /\ f_name fm = a_name f /\
            match get (a_name f) given with Some o => fit (f_type fm) o = b (a_name f) /\ b (a_name f) <> None | None => f_required fm = false /\ b (a_name f) = None end).
  { intros f Hf. destruct (field_formal f Hf) as (fm & Hfm & Hn & Hkt & Hthr & Hpop). exists fm. split; [easy|]. split; [easy|].
    unfold given. rewrite get_app, get_raws. destruct (through c f) eqn:Et.
    - destruct (Hthr eq_refl) as (Hrq & _). destruct (through_form _ _ Et) as (k & kd0 & Hks & Hkr & Hkn & Hneed).
      assert (Hng : get (a_name f) g = None).
      { apply get_none_key. rewrite (pairs_names _ _ Hg). intros Hin. apply in_map_iff in Hin. destruct Hin as (f' & E & Hf').
        apply in_popped in Hf'. destruct Hf' as [Hf' Ht']. assert (f' = f) by now apply same_field. congruence. }
      rewrite Hng. destruct (Harg f Hf) as [(k' & kd & j & o & H1 & H2 & H3)|[H1 H2]].
      + destruct (comes_from_in _ _ _ _ _ H1) as [Hi Hgj]. pose proof (Hkt _ _ Hi) as Hty. rewrite Hks in Hi. destruct Hi as [E|[]]. assert (k' = a_name f) by congruence. assert (kd = kd0) by congruence. subst k' kd.
        apply (proj2 (through_rest d f j Hnd Hf Et)) in Hgj. rewrite Hgj. cbn. rewrite H3. split; [|discriminate].
        apply (means_reads d kd0 (f_type fm) j o Hty) in H2. destruct H2 as (o' & H4 & H5). rewrite (as_raw_reads d kd0 j Hkr) in H4. assert (o' = raw j) by congruence. subst o'. exact H5.
      + destruct (get (a_name f) (hush c (pop_all (chosen d) d))) as [j|] eqn:Er; cbn.
        * exfalso. apply (proj1 (through_rest d f j Hnd Hf Et)) in Er. rewrite (H1 (a_name f) kd0) in Er; [discriminate|]. rewrite Hks, Hkn. now left.
        * rewrite Hrq. destruct Hneed as [E|E]; rewrite E in *; easy.
    - pose proof (Hpop eq_refl) as Hdef. assert (Hfp : In f (popped c fs)) by (apply in_popped; easy).
      destruct (pairs_get _ _ _ Hg Hfp) as (o & Hv & Hgo). rewrite Hgo. destruct (Harg f Hf) as [(k & kd & j & o' & H1 & H2 & H3)|[H1 H2]].
      + destruct (comes_from_key _ _ _ _ _ H1) as [_ Hv']. rewrite Hv' in Hv. destruct (comes_from_in _ _ _ _ _ H1) as [Hi _].
        apply (means_reads d kd (f_type fm) j o' (Hkt _ _ Hi)) in H2. destruct H2 as (o2 & H4 & H5). rewrite H3. split; [congruence | discriminate].
      + destruct (not_given_key _ _ H1) as [_ Hv']. rewrite Hv' in Hv. destruct (a_need f) as [|o0|]; try discriminate. assert (o0 = o) by congruence. subst o0.
        rewrite H2. split; [easy | discriminate]. }
  assert (Hsilent : forall n, ~ In n (map a_name fs) -> get n given = None).
  { intros n Hno. unfold given. rewrite get_app, get_raws.
    assert (E1 : get n g = None).
    { apply get_none_key. rewrite (pairs_names _ _ Hg). intros Hin. apply Hno. apply in_map_iff in Hin. destruct Hin as (f & E & Hf). apply in_popped in Hf. apply in_map_iff. exists f. tauto. }
    rewrite E1. destruct (get n (hush c (pop_all (chosen d) d))) as [j|] eqn:E; [|easy]. exfalso. destruct (Hrest n j E) as (f & Hf & _ & En). apply Hno. rewrite <- En. now apply in_map. }
  assert (Hbound : exists b', bound (formals c) given = Some b').
  { apply bound_goes. intros fm Hfm. destruct (formal_field fm Hfm) as [(f & Hf & En)|(Hno & Hr & _)].
    - destruct (Hgiven f Hf) as (fm' & Hfm' & En' & H).
      assert (fm' = fm) by (apply same_formal; congruence). subst fm'. rewrite <- En. destruct (get (a_name f) given) as [o|]; [destruct H as [-> H]; exact H | tauto].
    - rewrite (Hsilent _ Hno). exact Hr. }
  destruct Hbound as [b' Hb']. destruct (bound_get _ _ _ Hform Hb') as [B1 B2].
  assert (Hsame : forall n, get n b' = b n).
  { intros n. destruct (in_dec string_dec n (map f_name (formals c))) as [Hin|Hnin].
    - apply in_map_iff in Hin. destruct Hin as (fm & <- & Hfm). specialize (B1 fm Hfm). destruct (formal_field fm Hfm) as [(f & Hf & En)|(Hno & Hr & _)].
      + destruct (Hgiven f Hf) as (fm' & Hfm' & En' & H).
        assert (fm' = fm) by (apply same_formal; congruence). subst fm'. rewrite <- En in *. destruct (get (a_name f) given) as [o|].
        * destruct B1 as (o' & E1 & E2). destruct H as [H _]. congruence.
        * destruct B1 as [_ ->]. destruct H as [_ ->]. easy.
      + rewrite (Hsilent _ Hno) in B1. destruct B1 as [_ ->]. destruct (b (f_name fm)) eqn:Eb; [|easy]. exfalso. destruct (Hnames (f_name fm)) as (f & Hf & En); [congruence|].
        apply Hno. rewrite <- En. now apply in_map.
    - rewrite (B2 n Hnin). destruct (b n) eqn:Eb; [|easy]. exfalso. destruct (Hnames n) as (f & Hf & <-); [congruence|].
      destruct (field_formal f Hf) as (fm & Hfm & En & _). apply Hnin. rewrite <- En. now apply in_map. }
  exists b'. split; [|easy]. apply interp_some. split; [now apply checked_spec|].
  exists g. split; [easy|]. fold given. apply call_with_some. repeat split.
    + unfold given. rewrite map_app, raws_names, (pairs_names _ _ Hg).
      assert (Hnr : NoDup (map fst (hush c (pop_all (chosen d) d)))) by (apply NoDup_filter_keys, NoDup_pop_all; easy).
      pose proof popped_names as Hnp.
      assert (Hdis : forall n, In n (map a_name (popped c fs)) -> In n (map fst (hush c (pop_all (chosen d) d))) -> False).
      { intros n H1 H2. apply in_map_iff in H1. destruct H1 as (f & En & Hf). apply in_popped in Hf. destruct Hf as [Hf Et].
        apply get_key in H2. destruct H2 as [j Hj]. destruct (Hrest n j Hj) as (f' & Hf' & Et' & En'). assert (f = f') by (apply same_field; congruence). congruence. }
      revert Hnp Hnr Hdis. generalize (map a_name (popped c fs)), (map fst (hush c (pop_all (chosen d) d))). intros l m Hl Hm Hd.
      induction l as [|x l IH]; cbn; [easy|]. inversion Hl as [|? ? N1 N2]; subst. constructor.
      * intros Hin. apply in_app_or in Hin. destruct Hin as [Hin|Hin]; [contradiction|]. apply (Hd x); [now left | easy].
      * apply IH; [easy|]. intros n Hn1. apply Hd. now right.
    + intros n Hin. assert (Hfld : exists f, In f fs /\ a_name f = n).
      { unfold given in Hin. rewrite map_app, raws_names, (pairs_names _ _ Hg) in Hin. apply in_app_or in Hin. destruct Hin as [Hin|Hin].
        - apply in_map_iff in Hin. destruct Hin as (f & En & Hf). apply in_popped in Hf. exists f. tauto.
        - apply get_key in Hin. destruct Hin as [j Hj]. destruct (Hrest n j Hj) as (f & Hf & _ & En). eauto. }
      destruct Hfld as (f & Hf & <-). destruct (field_formal f Hf) as (fm & Hfm & En & _). rewrite <- En. now apply in_map.
    + easy.
    + apply (extra_together d b b'); easy.
Qed.
End Class.
End World.
