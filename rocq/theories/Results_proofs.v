(** Lemmas on the results file. *)
From Coq Require Import Ascii String.
From Verif Require Import Base Ring Tables_model Tables_proofs Results_model.
Local Open Scope nat_scope.
Local Open Scope list_scope.

Lemma name_eqbP a b : reflect (a = b) (name_eqb a b).
Proof. unfold name_eqb. destruct (list_eq_dec ascii_dec a b); constructor; assumption. Qed.
Lemma path_eqbP a b : reflect (a = b) (path_eqb a b).
Proof. unfold path_eqb. destruct (list_eq_dec (list_eq_dec ascii_dec) a b); constructor; assumption. Qed.
Lemma path_eqb_refl a : path_eqb a a = true.
Proof. destruct (path_eqbP a a); congruence. Qed.
Lemma prefix_refl p : prefix p p = true.
Proof. induction p as [|n p IH]; [reflexivity|]. cbn. rewrite IH. destruct (name_eqbP n n); [reflexivity|congruence]. Qed.

Lemma app_eq_app_len {X} : forall (l1 k1 l2 k2 : list X), l1 ++ l2 = k1 ++ k2 -> List.length l1 = List.length k1 -> l1 = k1 /\ l2 = k2.
Proof.
  induction l1 as [|a l1 IH]; intros [|b k1] l2 k2 E L; cbn in *; try lia; [now split|]. injection E as -> E. destruct (IH k1 l2 k2 E ltac:(lia)) as [-> ->]. now split.
Qed.

Section Recorder.
Variable refused : name -> bool.
Context {A : Type}.
Notation file := (@file A).
Notation leaf := (@leaf A).

Lemma look_app (f : file) p l q :
  look (f ++ [(p, l)]) q = match look f q with Some x => Some x | None => if path_eqb p q then Some l else None end.
Proof.
  unfold look. induction f as [|[p' l'] f IH]; cbn [app find fst].
  - destruct (path_eqb p q); reflexivity.
  - destruct (path_eqb p' q); [reflexivity|exact IH].
Qed.

Lemma look_create (f f' : file) p l : create f p l = Some f' -> look f p = None /\ forall q, look f' q = if path_eqb p q then Some l else look f q.
Proof.
  unfold create. destruct (existsb (fun e => prefix (fst e) p || prefix p (fst e)) f) eqn:E; [discriminate|]. intros H. injection H as <-.
  assert (N : look f p = None).
  { unfold look. destruct (find (fun e => path_eqb (fst e) p) f) as [e|] eqn:F; [|reflexivity]. apply find_some in F as [I P].
    destruct (path_eqbP (fst e) p) as [<-|]; [|discriminate]. exfalso.
    assert (X : existsb (fun e0 => prefix (fst e0) (fst e) || prefix (fst e) (fst e0)) f = true) by
      (apply existsb_exists; exists e; split; [exact I|]; rewrite prefix_refl; reflexivity).
    congruence. }
  split; [exact N|]. intros q. rewrite look_app. destruct (path_eqbP p q) as [<-|Ne].
  - rewrite N. reflexivity.
  - destruct (look f q); reflexivity.
Qed.

Lemma look_put (f : file) p l q :
  look (put f p l) q = if path_eqb p q then match look f p with Some _ => Some l | None => None end else look f q.
Proof.
  unfold look, put. induction f as [|[p' l'] f IH]; cbn [map find fst].
  - destruct (path_eqb p q); reflexivity.
  - destruct (path_eqbP p' p) as [->|N1]; cbn [fst].
    + destruct (path_eqb p q) eqn:E2; [reflexivity|exact IH].
    + destruct (path_eqbP p' q) as [->|N2].
      * destruct (path_eqbP p q) as [->|N3]; [congruence|reflexivity].
      * exact IH.
Qed.

Lemma look_remove (f f' : file) p : remove f p = Some f' -> forall q, look f' q = if path_eqb p q then None else look f q.
Proof.
  unfold remove. destruct (look f p) as [l|] eqn:L.
  - intros H. injection H as <-. intros q. clear L. unfold look. induction f as [|[p' l'] f IH]; cbn [filter find fst].
    + destruct (path_eqb p q); reflexivity.
    + destruct (path_eqbP p' p) as [->|N]; cbn [negb].
      * destruct (path_eqb p q) eqn:E; exact IH.
      * cbn [find fst]. destruct (path_eqbP p' q) as [->|N2]; [|exact IH]. destruct (path_eqbP p q) as [->|]; [congruence|reflexivity].
  - destruct (existsb (fun e => prefix p (fst e)) f); [discriminate|]. intros H. injection H as <-. intros q.
    destruct (path_eqbP p q) as [<-|]; [exact L|reflexivity].
Qed.

(** * Setup *)

Notation path_of := (path_of refused).
Definition paths (items : list (name * nat)) : list (option path) := map (fun i => path_of (fst i)) items.

Lemma create_arrays_ok zeros : forall items (f f' : file), create_arrays refused f zeros items = Some f' ->
  NoDup (paths items) /\ (forall q, In (Some q) (paths items) -> look f q = None) /\ ~ In None (paths items) /\
  forall q, look f' q = if existsb (fun i => match path_of (fst i) with Some p => path_eqb p q | None => false end) items then Some (Array zeros) else look f q.
Proof.
  induction items as [|[w o] items IH]; intros f f' H; cbn [create_arrays] in H.
  - injection H as <-. cbn. repeat split; try constructor; intuition.
  - destruct (path_of w) as [p|] eqn:P; [|discriminate]. destruct (create f p (Array zeros)) as [f1|] eqn:C; [|discriminate].
    destruct (look_create f f1 p _ C) as [L0 L1]. destruct (IH f1 f' H) as [ND [FR [NN LK]]].
    unfold paths in *. cbn [map existsb fst]. rewrite P. split; [|split; [|split]].
    + constructor; [|exact ND]. intros I. specialize (FR p I). rewrite L1, path_eqb_refl in FR. discriminate.
    + intros q [E|I]; [injection E as <-; exact L0|]. specialize (FR q I). rewrite L1 in FR. destruct (path_eqb p q); [discriminate|exact FR].
    + intros [E|I]; [discriminate|contradiction].
    + intros q. rewrite LK, L1. destruct (existsb _ items), (path_eqb p q); reflexivity.
Qed.

(** * The arrays by object *)

Lemma set_array_keys o p : forall arrays, NoDup (map fst arrays) -> NoDup (map fst (set_array arrays o p)) /\
  forall o' p', In (o', p') (set_array arrays o p) <-> (o' = o /\ p' = p) \/ (o' <> o /\ In (o', p') arrays).
Proof.
  induction arrays as [|[o1 p1] arrays IH]; intros ND; cbn [set_array].
  - split; [repeat constructor; intros []|]. intros o' p'. cbn. split; [intros [E|[]]; left; split; congruence|intros [[-> ->]|[_ []]]; now left].
  - cbn [map fst] in ND. inversion ND as [|x l NI ND' E]; subst. destruct (Nat.eqb_spec o1 o) as [->|N].
    + split; [exact ND|]. intros o' p'. cbn. split.
      * intros [E|I]; [left; split; congruence|]. right. split; [|now right]. intros ->. apply NI. apply in_map_iff. now exists (o, p').
      * intros [[-> ->]|[N [E|I]]]; [now left|congruence|now right].
    + destruct (IH ND') as [ND1 C]. cbn [map fst]. split.
      * constructor; [|exact ND1]. intros I. apply in_map_iff in I as [[o2 p2] [E I]]. cbn in E. subst o2. apply C in I as [[E _]|[_ I]]; [congruence|].
        apply NI. apply in_map_iff. now exists (o1, p2).
      * intros o' p'. cbn. rewrite C. split; [intros [E|[X|[X Y]]]; [right; split; [congruence|left; exact E]|now left|right; split; [exact X|now right]]|].
        intros [X|[X [Y|Y]]]; [right; now left|now left|right; right; now split].
Qed.

Lemma get_arrays_ok (f : file) : forall items arrays res, get_arrays refused f items arrays = Some res -> NoDup (map fst arrays) ->
  NoDup (map fst res) /\
  forall o p, In (o, p) res <-> (In (o, p) arrays /\ ~ In o (map snd items)) \/
    (exists l1 w l2, items = l1 ++ (w, o) :: l2 /\ path_of w = Some p /\ ~ In o (map snd l2)).
Proof.
  induction items as [|[w0 o0] items IH]; intros arrays res H ND; cbn [get_arrays] in H.
  - injection H as <-. split; [exact ND|]. intros o p. split; [intros I; left; split; [exact I|intros []]|].
    intros [[I _]|[l1 [w [l2 [E _]]]]]; [exact I|destruct l1; discriminate].
  - destruct (path_of w0) as [p0|] eqn:P; [|discriminate]. destruct (look f p0) as [l|]; [|discriminate].
    destruct (set_array_keys o0 p0 arrays ND) as [ND1 C]. destruct (IH _ _ H ND1) as [NDr R]. split; [exact NDr|].
    intros o p. rewrite R, C. cbn [map snd]. split.
    + intros [[[[-> ->]|[N I]] NI]|[l1 [w [l2 [-> [Q NI]]]]]].
      * right. exists [], w0, items. repeat split; assumption.
      * left. split; [exact I|]. intros [E|E]; [congruence|contradiction].
      * right. exists ((w0, o0) :: l1), w, l2. repeat split; assumption.
    + intros [[I NI]|[l1 [w [l2 [E [Q NI]]]]]].
      * left. split; [right; split; [|exact I]; intros ->; apply NI; now left|intros X; apply NI; now right].
      * destruct l1 as [|i l1]; cbn [app] in E; injection E as E1 E2.
        -- left. split; [left|subst items; exact NI]. subst. split; congruence.
        -- right. exists l1, w, l2. repeat split; assumption.
Qed.

(** A complete look-up is possible where every item has something in the file. *)
Lemma get_arrays_total (f : file) : forall items arrays,
  (forall w o, In (w, o) items -> exists p l, path_of w = Some p /\ look f p = Some l) -> exists res, get_arrays refused f items arrays = Some res.
Proof.
  induction items as [|[w o] items IH]; intros arrays H; cbn [get_arrays]; [eexists; reflexivity|].
  destruct (H w o (or_introl eq_refl)) as [p [l [P L]]]. rewrite P, L. apply IH. intros w' o' I. apply (H w' o'). now right.
Qed.

Lemma arrays_paths (f : file) items res : get_arrays refused f items [] = Some res -> NoDup (paths items) -> NoDup (map snd res).
Proof.
  intros H ND. destruct (get_arrays_ok f items [] res H (NoDup_nil _)) as [NDr R].
  assert (INJ : forall o o' p, In (o, p) res -> In (o', p) res -> o = o').
  { intros o o' p I I'. apply R in I as [[[] _]|[l1 [w [l2 [E [P _]]]]]]. apply R in I' as [[[] _]|[k1 [v [k2 [E' [P' _]]]]]].
    assert (N1 : nth_error items (List.length l1) = Some (w, o)) by (rewrite E, nth_error_app2, Nat.sub_diag by lia; reflexivity).
    assert (N2 : nth_error items (List.length k1) = Some (v, o')) by (rewrite E', nth_error_app2, Nat.sub_diag by lia; reflexivity).
    assert (LE : List.length l1 = List.length k1).
    { apply (proj1 (NoDup_nth_error (paths items)) ND); [apply nth_error_Some; unfold paths; rewrite nth_error_map, N1; discriminate|].
      unfold paths. rewrite !nth_error_map, N1, N2. cbn. now rewrite P, P'. }
    rewrite LE in N1. congruence. }
  clear R H. induction res as [|[o p] res IH]; cbn [map snd]; [constructor|]. cbn [map fst] in NDr. inversion NDr as [|x l NI ND' E]; subst. constructor.
  - intros I. apply in_map_iff in I as [[o' p'] [E I]]. cbn in E. subst p'. apply NI.
    rewrite (INJ o o' p (or_introl eq_refl) (or_intror I)). apply in_map_iff. now exists (o', p).
  - apply IH; [exact ND'|]. intros o1 o2 p1 I1 I2. apply (INJ o1 o2 p1); now right.
Qed.

(** * The timesteps *)

Lemma write_rows_ok kind_of (r : readings) idx : forall arrays (f f' : file), NoDup (map snd arrays) ->
  write_rows kind_of r f idx arrays = Some f' ->
  (forall q, ~ In q (map snd arrays) -> look f' q = look f q) /\
  forall o p, In (o, p) arrays -> exists rows v, look f p = Some (Array rows) /\ reading kind_of r o = Some v /\ look f' p = Some (Array (upd rows idx v)).
Proof.
  induction arrays as [|[o p] arrays IH]; intros f f' ND H; cbn [write_rows] in H.
  - injection H as <-. split; [reflexivity|intros o p []].
  - destruct (reading kind_of r o) as [v|] eqn:RD; [|discriminate]. unfold write_row in H.
    destruct (look f p) as [[rows| |]|] eqn:L; try discriminate. cbn [map snd] in *. inversion ND as [|x l NI ND' E]; subst.
    destruct (IH _ _ ND' H) as [K1 K2]. split.
    + intros q NQ. rewrite K1 by (intros I; apply NQ; now right). rewrite look_put. destruct (path_eqbP p q) as [->|]; [|reflexivity].
      exfalso. apply NQ. now left.
    + intros o1 p1 [E|I].
      * injection E as <- <-. exists rows, v. rewrite L, RD, K1 by exact NI. rewrite look_put, path_eqb_refl, L. now repeat split.
      * destruct (K2 o1 p1 I) as [rows1 [v1 [E1 [E2 E3]]]]. rewrite look_put in E1. destruct (path_eqbP p p1) as [->|N].
        -- exfalso. apply NI. apply in_map_iff. now exists (o1, p1).
        -- exists rows1, v1. now repeat split.
Qed.

Lemma write_rows_total kind_of (r : readings) idx : forall arrays (f : file), (forall o p, In (o, p) arrays -> kind_of o <> KUnknown /\ exists rows, look f p = Some (Array rows)) ->
  exists f', write_rows kind_of r f idx arrays = Some f'.
Proof.
  induction arrays as [|[o p] arrays IH]; intros f H; cbn [write_rows]; [eexists; reflexivity|].
  destruct (H o p (or_introl eq_refl)) as [K [rows L]]. assert (RD : exists v, reading kind_of r o = Some v).
  { unfold reading. destruct (kind_of o); try (eexists; reflexivity). now destruct K. }
  destruct RD as [v RD]. rewrite RD. unfold write_row. rewrite L. apply IH. intros o1 p1 I. destruct (H o1 p1 (or_intror I)) as [K1 [rows1 L1]].
  split; [exact K1|]. rewrite look_put. destruct (path_eqb p p1); [rewrite L; now eexists|now exists rows1].
Qed.

Definition time_path (o : options) : option path := match o_time o with Some w => path_of w | None => None end.

Lemma after_ok o kind_of (f f' : file) arrays idx r : NoDup (map snd arrays) -> results_after refused o kind_of f arrays idx r = Some f' ->
  (forall q, ~ In q (map snd arrays) -> time_path o <> Some q -> look f' q = look f q) /\
  (forall ob p, In (ob, p) arrays -> time_path o <> Some p /\
     exists rows v, look f p = Some (Array rows) /\ reading kind_of r ob = Some v /\ look f' p = Some (Array (upd rows idx v))) /\
  (forall w, o_time o = Some w -> exists p l, path_of w = Some p /\ look f p = Some (Time l) /\ look f' p = Some (Time (l ++ [idx]))).
Proof.
  intros ND H. unfold results_after in H. unfold time_path. destruct (o_time o) as [w|].
  - destruct (path_of w) as [pt|] eqn:P; [|discriminate]. destruct (look f pt) as [[|l|]|] eqn:L; try discriminate.
    destruct (write_rows_ok kind_of r idx arrays _ f' ND H) as [K1 K2]. split; [|split].
    + intros q N1 N2. rewrite K1 by exact N1. rewrite look_put. destruct (path_eqbP pt q) as [->|]; [congruence|reflexivity].
    + intros ob p I. destruct (K2 ob p I) as [rows [v [E1 [E2 E3]]]]. rewrite look_put in E1. destruct (path_eqbP pt p) as [->|N].
      * rewrite L in E1. discriminate.
      * split; [congruence|]. now exists rows, v.
    + intros w' E. injection E as <-. exists pt, l. split; [exact P|]. split; [exact L|].
      destruct (in_dec (list_eq_dec (list_eq_dec ascii_dec)) pt (map snd arrays)) as [I|I].
      * apply in_map_iff in I as [[ob p'] [E I]]. cbn in E. subst p'. destruct (K2 ob pt I) as [rows [v [E1 _]]].
        rewrite look_put, path_eqb_refl, L in E1. discriminate.
      * rewrite K1 by exact I. rewrite look_put, path_eqb_refl, L. reflexivity.
  - destruct (write_rows_ok kind_of r idx arrays _ f' ND H) as [K1 K2]. split; [|split].
    + intros q N1 _. apply K1. exact N1.
    + intros ob p I. split; [discriminate|]. apply K2. exact I.
    + discriminate.
Qed.

Lemma steps_ok o kind_of arrays : NoDup (map snd arrays) -> forall rs (f f' : file) idx, results_steps refused o kind_of f arrays idx rs = Some f' ->
  (forall q, ~ In q (map snd arrays) -> time_path o <> Some q -> look f' q = look f q) /\
  (forall ob p, In (ob, p) arrays -> rs <> [] -> time_path o <> Some p /\
     exists rows vs, look f p = Some (Array rows) /\ map Some vs = map (fun r => reading kind_of r ob) rs /\ look f' p = Some (Array (write rows idx vs))) /\
  (forall w, o_time o = Some w -> rs <> [] -> exists p l, path_of w = Some p /\ look f p = Some (Time l) /\
     look f' p = Some (Time (l ++ seq idx (List.length rs)))).
Proof.
  intros ND. induction rs as [|r rs IH]; intros f f' idx H; cbn [results_steps] in H.
  - injection H as <-. split; [reflexivity|]. split; intros; congruence.
  - destruct (results_after refused o kind_of f arrays idx r) as [f1|] eqn:A1; [|discriminate].
    destruct (after_ok o kind_of f f1 arrays idx r ND A1) as [K1 [K2 K3]]. destruct (IH f1 f' (S idx) H) as [J1 [J2 J3]]. split; [|split].
    + intros q N1 N2. rewrite J1, K1 by assumption. reflexivity.
    + intros ob p I _. destruct (K2 ob p I) as [NT [rows [v [E1 [E2 E3]]]]]. split; [exact NT|]. destruct rs as [|r' rs'].
      * cbn [results_steps] in H. injection H as <-. exists rows, [v]. cbn [map write]. rewrite E2. now repeat split.
      * destruct (J2 ob p I ltac:(discriminate)) as [_ [rows1 [vs [F1 [F2 F3]]]]]. exists rows, (v :: vs). split; [exact E1|]. split.
        -- cbn [map] in *. rewrite E2, F2. reflexivity.
        -- cbn [write]. rewrite F1 in E3. injection E3 as ->. exact F3.
    + intros w E _. destruct (K3 w E) as [p [l [P [E1 E2]]]]. exists p, l. split; [exact P|]. split; [exact E1|]. destruct rs as [|r' rs'].
      * cbn [results_steps] in H. injection H as <-. exact E2.
      * destruct (J3 w E ltac:(discriminate)) as [p' [l' [P' [F1 F2]]]]. assert (p' = p) by congruence. subst p'. rewrite F1 in E2. injection E2 as ->.
        rewrite F2. rewrite <- app_assoc. reflexivity.
Qed.

(** What [reset] leaves. *)
Lemma reset_ok o items (f f' : file) arrays : results_reset refused o items f = Some (f', arrays) ->
  get_arrays refused f items [] = Some arrays /\
  (forall q, time_path o <> Some q -> look f' q = look f q) /\
  (forall w, o_time o = Some w -> exists p, path_of w = Some p /\ look f' p = Some (Time [])).
Proof.
  unfold results_reset, time_path. destruct (get_arrays refused f items []) as [ar|]; [|discriminate]. destruct (o_time o) as [w|].
  - destruct (path_of w) as [p|] eqn:P; [|discriminate]. destruct (remove f p) as [f1|] eqn:R; [|discriminate].
    destruct (create f1 p (Time [])) as [f2|] eqn:C; cbn [option_map]; [|discriminate]. intros H. injection H as <- <-. split; [reflexivity|].
    destruct (look_create _ _ _ _ C) as [L0 L1]. pose proof (look_remove _ _ _ R) as L2. split.
    + intros q N. rewrite L1, L2. destruct (path_eqbP p q) as [->|]; [congruence|reflexivity].
    + intros w' E. injection E as <-. exists p. split; [exact P|]. rewrite L1, path_eqb_refl. reflexivity.
  - intros H. injection H as <- <-. split; [reflexivity|]. split; [reflexivity|discriminate].
Qed.

(** What holds of the file after [setup] and after each run. *)
Definition holds_items (o : options) (T : nat) (items : list (name * nat)) (f : file) : Prop :=
  NoDup (paths items) /\
  forall w ob, In (w, ob) items -> exists p, path_of w = Some p /\ (time_path o = Some p \/ exists rows, look f p = Some (Array rows) /\ List.length rows = T).

Lemma create_at_ok w l (f f' : file) : create_at refused f w l = Some f' -> forall q x, look f q = Some x -> look f' q = Some x.
Proof.
  unfold create_at. destruct w as [w|]; [|intros H; injection H as <-; auto]. destruct (path_of w) as [p|]; [|discriminate]. intros H q x L.
  destruct (look_create _ _ _ _ H) as [L0 L1]. rewrite L1. destruct (path_eqbP p q) as [->|]; [congruence|exact L].
Qed.

Lemma setup_holds o zeros items (f : file) : results_setup refused o zeros items = Some f ->
  NoDup (paths items) /\ forall w ob, In (w, ob) items -> exists p, path_of w = Some p /\ look f p = Some (Array zeros).
Proof.
  unfold results_setup. destruct (create_arrays refused [] zeros items) as [f1|] eqn:C; [|discriminate].
  destruct (create_at refused f1 (o_scenarios o) Other) as [f2|] eqn:C2; [|discriminate]. intros C3.
  destruct (create_arrays_ok zeros items [] f1 C) as [ND [_ [NN LK]]]. split; [exact ND|]. intros w ob I.
  assert (IP : In (path_of w) (paths items)) by (unfold paths; apply in_map_iff; now exists (w, ob)).
  destruct (path_of w) as [p|] eqn:P; [|contradiction]. exists p. split; [reflexivity|].
  apply (create_at_ok _ _ _ _ C3), (create_at_ok _ _ _ _ C2). rewrite LK.
  replace (existsb _ items) with true; [reflexivity|]. symmetry. apply existsb_exists. exists (w, ob). split; [exact I|]. cbn [fst]. rewrite P. apply path_eqb_refl.
Qed.

Lemma run_holds o kind_of T items (f f' : file) rs : holds_items o T items f -> List.length rs = T ->
  results_run refused o kind_of items f rs = Some f' -> holds_items o T items f'.
Proof.
  intros [ND H] LT R. split; [exact ND|]. intros w ob I. destruct (H w ob I) as [p [P [TP|[rows [L LR]]]]]; exists p; (split; [exact P|]); [now left|].
  unfold results_run in R. destruct (results_reset refused o items f) as [[f1 arrays]|] eqn:RS; [|discriminate].
  destruct (reset_ok o items f f1 arrays RS) as [G [K1 K2]]. pose proof (arrays_paths f items arrays G ND) as NDp.
  destruct (list_eq_dec (list_eq_dec ascii_dec) (match time_path o with Some q => q | None => [] end) p) as [E|E].
  - destruct (time_path o) as [q|] eqn:TP; [left; congruence|]. subst p. exfalso.
    unfold Results_model.path_of in P. destruct (split w) as [|[|] ?]; try discriminate. destruct (forallb _ l); [|discriminate]. destruct l; discriminate.
  - right. assert (NT : time_path o <> Some p) by (destruct (time_path o); congruence). rewrite <- K1 in L by exact NT.
    destruct (steps_ok o kind_of arrays NDp rs f1 f' 0 R) as [J1 [J2 _]].
    destruct (in_dec (list_eq_dec (list_eq_dec ascii_dec)) p (map snd arrays)) as [IA|IA].
    + apply in_map_iff in IA as [[ob' p'] [E' IA]]. cbn in E'. subst p'. destruct rs as [|r rs].
      * cbn [results_steps] in R. injection R as <-. now exists rows.
      * destruct (J2 ob' p IA ltac:(discriminate)) as [_ [rows1 [vs [F1 [F2 F3]]]]]. exists (write rows1 0 vs). split; [exact F3|]. rewrite write_length. congruence.
    + rewrite J1 by assumption. now exists rows.
Qed.
End Recorder.
