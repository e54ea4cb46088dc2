(** The GLPK problem kept between calls is the one that belongs to the data. *)
From Verif Require Import Base Paths Sorting Routes_model Routes_proofs LP_model Sys_model RouteLP_model RouteLP_spec RouteLP_proofs RouteLP_flow EdgeLP_model
  FixedOnce_model FixedOnce_spec.
From Coq Require Import Permutation.
Open Scope Q_scope.

(** ** Results *)
Lemma bindR_Ok {A B} (x : result A) (f : A -> result B) b : bindR x f = Ok b <-> exists a, x = Ok a /\ f a = Ok b.
Proof. destruct x as [a|e]; cbn [bindR]; split; [eauto|intros [a' [E H]]; now injection E as <-|discriminate|intros [a' [E _]]; discriminate]. Qed.
Lemma mapM_bind {A B C} (f : A -> result C) (g : A -> result B) (h : B -> C) l :
  (forall a, f a = bindR (g a) (fun b => Ok (h b))) -> forall r, mapM f l = Ok r <-> exists bs, mapM g l = Ok bs /\ r = map h bs.
Proof.
  intros E. induction l as [|a l IH]; intros r; cbn [mapM].
  - split; [intros H; injection H as <-; now exists []|intros [bs [H ->]]; injection H as <-; reflexivity].
  - rewrite E. destruct (g a) as [b|e]; cbn [bindR]; [|split; [discriminate|intros [bs [H _]]; discriminate]].
    destruct (mapM f l) as [r'|e] eqn:E1.
    + destruct (proj1 (IH r') eq_refl) as [bs [-> ->]]. split; [intros H; injection H as <-; now exists (b :: bs)|].
      intros [bs' [H ->]]. injection H as <-. reflexivity.
    + split; [discriminate|]. intros [bs [H ->]]. destruct (mapM g l) as [bs'|]; [|discriminate].
      specialize (IH (map h bs')). destruct IH as [_ IH]. discriminate IH. eauto.
Qed.
Lemma mapM_total_map {A B} (g : A -> result B) (z : B) l r : mapM g l = Ok r -> r = map (fun a => match g a with Ok b => b | Err _ => z end) l.
Proof.
  revert r. induction l as [|a l IH]; intros r H; cbn [mapM map] in *; [now injection H as <-|].
  destruct (g a); [|discriminate]. destruct (mapM g l) as [s|]; [|discriminate]. injection H as <-. f_equal. now apply IH.
Qed.
Lemma mapM_length {A B} (g : A -> result B) l r : mapM g l = Ok r -> length r = length l.
Proof.
  revert r. induction l as [|a l IH]; intros r H; cbn [mapM] in *; [now injection H as <-|].
  destruct (g a); [|discriminate]. destruct (mapM g l) as [s|]; [|discriminate]. injection H as <-. cbn [length]. f_equal. now apply IH.
Qed.
Lemma set_row_entries c t lb ub : set_row c t lb ub = bindR (entries c) (fun c => Ok (with_limits (t, lb, ub) c)).
Proof. unfold set_row, entries. destruct (nodupb (map fst c) && _); reflexivity. Qed.

(** ** Rows in their places *)
Lemma update_app i g A B : update (length A + i) g (A ++ B) = A ++ update i g B.
Proof. induction A as [|r A IH]; [reflexivity|]. cbn [length app Nat.add update]. now rewrite IH. Qed.

(** Setting something in the rows of the selected ones of a stretch of rows. *)
Lemma stretch {X} (f : X -> row -> row) (q : nat * X -> bool) (p : X -> bool) (A B C : list row) (b : X -> row) (xs : list X) k off :
  (forall kx, q kx = p (snd kx)) -> (off + k = length A)%nat ->
  fold_left (fun rows kx => update (off + fst kx) (f (snd kx)) rows) (filter q (combine (seq k (length xs)) xs)) (A ++ map b xs ++ C) =
  A ++ map (fun x => if p x then f x (b x) else b x) xs ++ C.
Proof.
  intros Q. revert A k. induction xs as [|x xs IH]; intros A k E; cbn [length seq combine filter map app]; [reflexivity|].
  rewrite Q. cbn [snd].
  assert (forall r, A ++ r :: map b xs ++ C = (A ++ [r]) ++ map b xs ++ C) as Sh by (intros; now rewrite <- app_assoc).
  destruct (p x); cbn [fold_left fst snd].
  - replace (off + k)%nat with (length A + 0)%nat by lia. rewrite update_app. cbn [update]. rewrite Sh, (IH (A ++ [f x (b x)]) (Datatypes.S k)).
    + now rewrite <- app_assoc.
    + rewrite app_length. cbn [length]. lia.
  - rewrite Sh, (IH (A ++ [b x]) (Datatypes.S k)).
    + now rewrite <- app_assoc.
    + rewrite app_length. cbn [length]. lia.
Qed.
Lemma fold_rows_from (f : nat -> row -> row) (q : nat * nat -> bool) (p : nat -> bool) A C (b : nat * coefs -> row) xs off :
  (forall rn, q rn = p (snd rn)) -> off = length A ->
  fold_left (fun rows rn => update (fst rn) (f (snd rn)) rows) (filter q (rows_from off xs)) (A ++ map b xs ++ C) =
  A ++ map (fun x => if p (fst x) then f (fst x) (b x) else b x) xs ++ C.
Proof.
  intros Q E. unfold rows_from.
  assert (forall l : list (nat * (nat * coefs)), filter q (map (fun c => (off + fst c, fst (snd c))%nat) l) =
    map (fun c => (off + fst c, fst (snd c))%nat) (filter (fun c => p (fst (snd c))) l)) as F.
  { induction l as [|c l IH]; [reflexivity|]. cbn [map filter]. rewrite Q. cbn [snd]. destruct (p (fst (snd c))); cbn [map]; now rewrite IH. }
  rewrite F. clear F. unfold enumerate.
  rewrite <- (stretch (fun x => f (fst x)) (fun c => p (fst (snd c))) (fun x => p (fst x)) A (map b xs) C b xs 0 off); [|reflexivity|lia].
  generalize (A ++ map b xs ++ C) as R. induction (filter (fun c => p (fst (snd c))) (combine (seq 0 (length xs)) xs)) as [|c l IH]; intros R; [reflexivity|].
  cbn [map fold_left fst snd]. apply IH.
Qed.
(** The same when a value may be missing. *)
Lemma fold_rows_from_opt (g : nat -> option (row -> row)) (q : nat * nat -> bool) (p : nat -> bool) A C (b : nat * coefs -> row) xs off e :
  (forall rn, q rn = p (snd rn)) -> off = length A -> (forall x, In x xs -> p (fst x) = true -> g (fst x) <> None) ->
  fold_left (fun acc rn => bindR acc (fun rows => match g (snd rn) with Some f => Ok (update (fst rn) f rows) | None => Err e end))
    (filter q (rows_from off xs)) (Ok (A ++ map b xs ++ C)) =
  Ok (A ++ map (fun x => if p (fst x) then match g (fst x) with Some f => f (b x) | None => b x end else b x) xs ++ C).
Proof.
  intros Q E H. rewrite <- (fold_rows_from (fun n r => match g n with Some f => f r | None => r end) q p A C b xs off Q E).
  generalize (A ++ map b xs ++ C) as R.
  assert (forall rn, In rn (filter q (rows_from off xs)) -> g (snd rn) <> None) as G.
  { intros rn Hr. apply filter_In in Hr as [Hr Hp]. unfold rows_from in Hr. apply in_map_iff in Hr as [[k x] [<- Hx]]. rewrite Q in Hp.
    cbn [fst snd] in *. apply H; [|exact Hp]. unfold enumerate in Hx. now apply in_combine_r in Hx. }
  induction (filter q (rows_from off xs)) as [|rn l IH]; intros R; [reflexivity|]. cbn [fold_left bindR].
  destruct (g (snd rn)) as [f|] eqn:Ef; [|now elim (G rn (or_introl eq_refl))]. apply IH. intros z Hz. apply G. now right.
Qed.

(** ** The problem in sections *)
Definition flow_part (p : plan) (bf : nat -> limits) := map (fun x => with_limits (bf (fst x)) (snd x)) (p_flow p).
Definition fixed_part (p : plan) := map (with_limits zero_limits) (p_fixed p).
Definition storage_part (p : plan) (bs : nat -> limits) := map (fun x => with_limits (bs (fst x)) (snd x)) (p_storage p).
Definition virtual_part (p : plan) (bv : nat -> limits) := map (fun x => with_limits (bv (fst x)) (snd x)) (p_virtual p).
Definition factor_block (ef : factored -> list coefs) (f : factored) := map (with_limits zero_limits) (ef f).
Definition agg_part (p : plan) (ba : nat -> limits) := map (fun x => with_limits (ba (fst x)) (snd x)) (p_agg p).
Definition assemble (p : plan) (bf bs bv ba : nat -> limits) (ef : factored -> list coefs) : list row :=
  flow_part p bf ++ fixed_part p ++ storage_part p bs ++ virtual_part p bv ++ flat_map (factor_block ef) (p_factor p) ++ agg_part p ba.
Definition fits (ef : factored -> list coefs) (l : list factored) : Prop := forall f, In f l -> length (ef f) = length (snd (snd f)).

Lemma filter_all {A} (l : list A) : filter (fun _ => true) l = l.
Proof. induction l as [|a l IH]; [reflexivity|]. cbn [filter]. now rewrite IH. Qed.
Lemma factor_part_length ef l : fits ef l -> length (flat_map (factor_block ef) l) = length (flat_map (fun f => snd (snd f)) l).
Proof.
  induction l as [|f l IH]; intros H; cbn [flat_map]; [reflexivity|]. rewrite !app_length, IH by (intros g Hg; apply H; now right).
  unfold factor_block. rewrite map_length, (H f (or_introl eq_refl)). reflexivity.
Qed.
Definition choose (pr : nat -> bool) (B b : nat -> limits) : nat -> limits := fun n => if pr n then B n else b n.
Lemma choose_part (pr : nat -> bool) (B b : nat -> limits) (xs : list (nat * coefs)) :
  map (fun x => if pr (fst x) then with_limits (B (fst x)) (r_coef (with_limits (b (fst x)) (snd x))) else with_limits (b (fst x)) (snd x)) xs =
  map (fun x => with_limits (choose pr B b (fst x)) (snd x)) xs.
Proof. apply map_ext. intros x. unfold choose. destruct (pr (fst x)); reflexivity. Qed.

Section Loops.
  Variables (p : plan) (bf bs bv ba : nat -> limits) (ef : factored -> list coefs) (B : nat -> limits).

  Lemma flow_loop q pr : (forall rn, q rn = pr (snd rn)) ->
    fold_left (fun rows rn => set_bounds (fst rn) (B (snd rn)) rows) (filter q (rows_from 0 (p_flow p))) (assemble p bf bs bv ba ef) =
    assemble p (choose pr B bf) bs bv ba ef.
  Proof.
    intros Q. unfold assemble at 1, flow_part at 1. unfold set_bounds.
    pose proof (fold_rows_from (fun n r => with_limits (B n) (r_coef r)) q pr []
      (fixed_part p ++ storage_part p bs ++ virtual_part p bv ++ flat_map (factor_block ef) (p_factor p) ++ agg_part p ba)
      (fun x => with_limits (bf (fst x)) (snd x)) (p_flow p) 0 Q eq_refl) as L. cbn [app] in L. rewrite L. clear L.
    unfold assemble, flow_part. now rewrite choose_part.
  Qed.
  Lemma storage_loop : fold_left (fun rows rn => set_bounds (fst rn) (B (snd rn)) rows)
      (rows_from (length (p_flow p) + length (p_fixed p)) (p_storage p)) (assemble p bf bs bv ba ef) = assemble p bf B bv ba ef.
  Proof.
    unfold assemble at 1. rewrite (app_assoc (flow_part p bf)). rewrite <- (filter_all (rows_from _ _)).
    unfold storage_part at 1, set_bounds.
    rewrite (fold_rows_from (fun n r => with_limits (B n) (r_coef r)) (fun _ => true) (fun _ => true) (flow_part p bf ++ fixed_part p)).
    - unfold assemble. now rewrite <- app_assoc.
    - reflexivity.
    - unfold flow_part, fixed_part. now rewrite app_length, !map_length.
  Qed.
  Lemma virtual_loop : fold_left (fun rows rn => set_bounds (fst rn) (B (snd rn)) rows)
      (rows_from (length (p_flow p) + length (p_fixed p) + length (p_storage p)) (p_virtual p)) (assemble p bf bs bv ba ef) = assemble p bf bs B ba ef.
  Proof.
    unfold assemble at 1. rewrite (app_assoc (flow_part p bf)), (app_assoc (flow_part p bf ++ fixed_part p)). rewrite <- (filter_all (rows_from _ _)).
    unfold virtual_part at 1, set_bounds.
    rewrite (fold_rows_from (fun n r => with_limits (B n) (r_coef r)) (fun _ => true) (fun _ => true) ((flow_part p bf ++ fixed_part p) ++ storage_part p bs)).
    - unfold assemble. now rewrite <- !app_assoc.
    - reflexivity.
    - unfold flow_part, fixed_part, storage_part. now rewrite !app_length, !map_length.
  Qed.
  Lemma agg_loop : fits ef (p_factor p) -> fold_left (fun rows rn => set_bounds (fst rn) (B (snd rn)) rows)
      (rows_from (length (p_flow p) + length (p_fixed p) + length (p_storage p) + length (p_virtual p) + length (flat_map (fun f => snd (snd f)) (p_factor p))) (p_agg p))
      (assemble p bf bs bv ba ef) = assemble p bf bs bv B ef.
  Proof.
    intros F. unfold assemble at 1.
    rewrite <- (app_nil_r (agg_part p ba)).
    replace (flow_part p bf ++ fixed_part p ++ storage_part p bs ++ virtual_part p bv ++ flat_map (factor_block ef) (p_factor p) ++ agg_part p ba ++ []) with
      ((flow_part p bf ++ fixed_part p ++ storage_part p bs ++ virtual_part p bv ++ flat_map (factor_block ef) (p_factor p)) ++ agg_part p ba ++ [])
      by (now rewrite <- !app_assoc).
    rewrite <- (filter_all (rows_from _ _)). unfold agg_part at 1, set_bounds.
    rewrite (fold_rows_from (fun n r => with_limits (B n) (r_coef r)) (fun _ => true) (fun _ => true)).
    - unfold assemble. rewrite <- !app_assoc, app_nil_r. reflexivity.
    - reflexivity.
    - rewrite !app_length, factor_part_length by exact F. unfold flow_part, fixed_part, storage_part, virtual_part. rewrite !map_length. lia.
  Qed.
End Loops.

(** ** Factors *)
Lemma factor_entries_length S fs f es : length (s_members S (fst f)) = Datatypes.S (length (snd (snd f))) ->
  factor_entries S fs f = Ok es -> length es = length (snd (snd f)).
Proof.
  intros L. unfold factor_entries. destruct (factors_usable (s_members S (fst f)) fs) eqn:U; [|discriminate]. intros H. apply mapM_length in H.
  rewrite H, combine_length. unfold factors_norm. apply factors_usable_length in U.
  destruct fs as [|g fs]; cbn [map tl length] in *; [lia|]. rewrite map_length. lia.
Qed.
Lemma block_loop row (b : nat -> coefs) es A C : row = length A ->
  forall cs, length cs = length es ->
  fold_left (fun rows ke => set_entries (row + fst ke) (snd ke) rows) (enumerate es) (A ++ map (with_limits zero_limits) cs ++ C) =
  A ++ map (with_limits zero_limits) es ++ C.
Proof.
  intros E. unfold enumerate. assert (row + 0 = length A)%nat as E' by lia. revert E'. generalize 0%nat as k. clear E.
  revert A. induction es as [|e es IH]; intros A k E cs L; cbn [length seq combine fold_left]; [now destruct cs|].
  destruct cs as [|c cs]; [discriminate|]. cbn [map app fst snd].
  unfold set_entries at 2. replace (row + k)%nat with (length A + 0)%nat by lia. rewrite update_app. cbn [update].
  replace (A ++ with_limits (r_type (with_limits zero_limits c), r_lb (with_limits zero_limits c), r_ub (with_limits zero_limits c)) e :: map (with_limits zero_limits) cs ++ C)
    with ((A ++ [with_limits zero_limits e]) ++ map (with_limits zero_limits) cs ++ C) by (now rewrite <- app_assoc).
  rewrite (IH (A ++ [with_limits zero_limits e]) (Datatypes.S k)).
  - now rewrite <- app_assoc.
  - rewrite app_length. cbn [length]. lia.
  - now injection L.
Qed.
Definition pick (q : factored -> bool) (g : factored -> result (list coefs)) (ef : factored -> list coefs) : factored -> result (list coefs) :=
  fun f => if q f then g f else Ok (ef f).
Lemma fold_err {A X} (step : X -> A -> result A) l e : fold_left (fun acc x => bindR acc (step x)) l (Err e) = Err e.
Proof. induction l as [|x l IH]; [reflexivity|]. cbn [fold_left bindR]. exact IH. Qed.
Lemma factor_loop S (g : factored -> result (list Q)) (q : nat * factored -> bool) (pr : factored -> bool) (ef : factored -> list coefs) fs :
  (forall rf, q rf = pr (snd rf)) -> (forall f, In f fs -> length (s_members S (fst f)) = Datatypes.S (length (snd (snd f)))) -> fits ef fs ->
  forall A C row, row = length A ->
  forall res, fold_left (fun acc rf => bindR acc (fun rows => bindR (g (snd rf)) (fun v => set_factors S v rf rows))) (filter q (placed row fs))
    (Ok (A ++ flat_map (factor_block ef) fs ++ C)) = res ->
  match mapM (pick pr (fun f => bindR (g f) (fun v => factor_entries S v f)) ef) fs with
  | Ok es => res = Ok (A ++ flat_map (map (with_limits zero_limits)) es ++ C)
  | Err _ => exists e, res = Err e
  end.
Proof.
  intros Q. induction fs as [|f fs IH]; intros M F A C row E res; cbn [placed filter flat_map mapM].
  - intros <-. reflexivity.
  - rewrite Q. cbn [snd]. unfold pick at 1. intros H.
    assert (forall es, length es = length (snd (snd f)) ->
      fold_left (fun acc rf => bindR acc (fun rows => bindR (g (snd rf)) (fun v => set_factors S v rf rows))) (filter q (placed (row + length (snd (snd f))) fs))
        (Ok (A ++ map (with_limits zero_limits) es ++ flat_map (factor_block ef) fs ++ C)) = res ->
      match mapM (pick pr (fun f => bindR (g f) (fun v => factor_entries S v f)) ef) fs with
      | Ok s => res = Ok (A ++ (map (with_limits zero_limits) es ++ flat_map (map (with_limits zero_limits)) s) ++ C)
      | Err _ => exists e, res = Err e
      end) as Step.
    { intros es L H'. specialize (IH (fun z Hz => M z (or_intror Hz)) (fun z Hz => F z (or_intror Hz)) (A ++ map (with_limits zero_limits) es) C (row + length (snd (snd f)))%nat).
      rewrite <- app_assoc in IH. specialize (IH ltac:(rewrite app_length, map_length; lia) res H').
      destruct (mapM (pick pr _ ef) fs); [|exact IH]. rewrite IH. now rewrite <- !app_assoc. }
    destruct (pr f).
    + cbn [fold_left snd bindR] in H. destruct (g f) as [v|e] eqn:Eg; cbn [bindR] in *.
      * unfold set_factors at 2 in H. cbn [fst snd] in H. destruct (factor_entries S v f) as [es|e] eqn:Ee; cbn [bindR] in H.
        -- pose proof (factor_entries_length S v f es (M f (or_introl eq_refl)) Ee) as L.
           rewrite <- app_assoc in H. unfold factor_block at 1 in H. rewrite (block_loop row (fun _ => []) es A _ E (ef f)) in H; [|rewrite L; apply F; now left].
           specialize (Step es L H). destruct (mapM (pick pr _ ef) fs) as [s|]; [|exact Step]. cbn [flat_map]. exact Step.
        -- rewrite fold_err in H. eauto.
      * rewrite fold_err in H. eauto.
    + rewrite <- app_assoc in H. specialize (Step (ef f) (F f (or_introl eq_refl)) H).
      destruct (mapM (pick pr _ ef) fs) as [s|]; [|exact Step]. cbn [flat_map]. exact Step.
Qed.

(** ** The rows that belong to the data *)
Definition fb (d : data) (n : nat) : limits := flow_bounds (d_min d n) (d_max d n).
Definition sb (d : data) (n : nat) : limits := storage_bounds (d_vol d n) (d_minvol d n) (d_maxvol d n) (d_days d).
Definition vb (d : data) (n : nat) : limits := virtual_bounds (d_active d n) (d_vol d n) (d_minvol d n) (d_maxvol d n) (d_days d).
Definition rows_wanted (S : sys) (p : plan) (d : data) : result (list row) :=
  bindR (mapM (fun f => factor_entries S (d_factors d (fst f)) f) (p_factor p)) (fun es =>
  Ok (flow_part p (fb d) ++ fixed_part p ++ storage_part p (sb d) ++ virtual_part p (vb d) ++ flat_map (map (with_limits zero_limits)) es ++ agg_part p (fb d))).

Lemma mapM_bind2 {A B C D} (f : A -> result D) (g : A -> result B) (k : B -> result C) (h : C -> D) l :
  (forall a, f a = bindR (g a) (fun b => bindR (k b) (fun c => Ok (h c)))) ->
  forall r, mapM f l = Ok r <-> exists bs cs, mapM g l = Ok bs /\ mapM k bs = Ok cs /\ r = map h cs.
Proof.
  intros E. induction l as [|a l IH]; intros r; cbn [mapM].
  - split; [intros H; injection H as <-; now exists [], []|]. intros (bs & cs & H & K & ->). injection H as <-. cbn [mapM] in K. now injection K as <-.
  - rewrite E. split.
    + destruct (g a) as [b|]; [|discriminate]. cbn [bindR]. destruct (k b) as [c|] eqn:Ek; [|discriminate]. cbn [bindR].
      destruct (mapM f l) as [s|]; [|discriminate]. intros H. injection H as <-.
      destruct (proj1 (IH s) eq_refl) as (bs & cs & H & K & ->). exists (b :: bs), (c :: cs). rewrite H. cbn [mapM]. now rewrite Ek, K.
    + intros (bs & cs & H & K & ->). destruct (g a) as [b|]; [|discriminate]. destruct (mapM g l) as [bs'|]; [|discriminate]. injection H as <-.
      cbn [mapM] in K. destruct (k b) as [c|] eqn:Ek; [|discriminate]. destruct (mapM k bs') as [cs'|] eqn:Ek'; [|discriminate]. injection K as <-.
      cbn [bindR map]. rewrite Ek. cbn [bindR]. rewrite (proj2 (IH (map h cs')) (ex_intro _ bs' (ex_intro _ cs' (conj eq_refl (conj Ek' eq_refl))))). reflexivity.
Qed.

(** Rows of non-storage nodes with rows of crossings among them. *)
Lemma interleaved (F G : nat -> result coefs) (b : nat -> bool) (B : nat -> limits) (NS : nat -> result (list row)) l :
  (forall n, NS n = bindR (F n) (fun c => if b n then bindR (G n) (fun c2 => Ok [with_limits (B n) c; with_limits zero_limits c2]) else Ok [with_limits (B n) c])) ->
  (forall rss, mapM NS l = Ok rss -> exists flow fixed, mapM (named F) l = Ok flow /\ mapM G (filter b l) = Ok fixed /\
     Permutation (map (fun x => with_limits (B (fst x)) (snd x)) flow ++ map (with_limits zero_limits) fixed) (concat rss)) /\
  (forall flow fixed, mapM (named F) l = Ok flow -> mapM G (filter b l) = Ok fixed -> exists rss, mapM NS l = Ok rss).
Proof.
  intros E. induction l as [|n l [IH1 IH2]]; cbn [mapM filter]; split.
  - intros rss H. injection H as <-. exists [], []. repeat split. constructor.
  - intros flow fixed _ _. now exists [].
  - intros rss. rewrite E. unfold named at 1. destruct (F n) as [c|]; [|discriminate]. cbn [bindR]. destruct (b n).
    + cbn [mapM]. destruct (G n) as [c2|]; [|discriminate]. cbn [bindR]. destruct (mapM NS l) as [s|]; [|discriminate]. intros H. injection H as <-.
      destruct (IH1 s eq_refl) as (flow & fixed & -> & -> & P). exists ((n, c) :: flow), (c2 :: fixed). repeat split.
      cbn [map concat app fst snd]. apply perm_skip. rewrite <- P. symmetry. apply Permutation_middle.
    + cbn [bindR]. destruct (mapM NS l) as [s|]; [|discriminate]. intros H. injection H as <-.
      destruct (IH1 s eq_refl) as (flow & fixed & -> & -> & P). exists ((n, c) :: flow), fixed. repeat split.
      cbn [map concat app fst snd]. apply perm_skip. exact P.
  - intros flow fixed. rewrite E. unfold named at 1. destruct (F n) as [c|]; [|discriminate]. cbn [bindR].
    destruct (mapM (named F) l) as [fl|]; [|discriminate]. intros _. destruct (b n).
    + cbn [mapM]. destruct (G n) as [c2|]; [|discriminate]. destruct (mapM G (filter b l)) as [fx|]; [|discriminate]. intros _. cbn [bindR].
      destruct (IH2 fl fx eq_refl eq_refl) as [rss ->]. eauto.
    + intros H. cbn [bindR]. destruct (IH2 fl fixed eq_refl H) as [rss ->]. eauto.
Qed.
Lemma mapM_map {A B C} (f : B -> result C) (g : A -> B) l : mapM f (map g l) = mapM (fun a => f (g a)) l.
Proof. induction l as [|a l IH]; [reflexivity|]. cbn [map mapM]. rewrite IH. reflexivity. Qed.

(** [rows_of] with a plan: a row of its own for each node. *)
Lemma own_rows (F : nat -> result coefs) (R : nat -> result row) (B : nat -> limits) l :
  (forall n, R n = bindR (F n) (fun c => Ok (with_limits (B n) c))) ->
  forall r, mapM R l = Ok r <-> exists x, mapM (named F) l = Ok x /\ r = map (fun x => with_limits (B (fst x)) (snd x)) x.
Proof. intros E. apply mapM_bind. intros n. rewrite E. unfold named. destruct (F n); reflexivity. Qed.
Lemma factor_rows_of (S : sys) (d : data) (columns : nat -> list nat) (R : nat -> result (list row)) l :
  (forall a, R a = match s_members S a with
    | [] => Err (BadFactors a)
    | m0 :: ms =>
      if factors_usable (m0 :: ms) (d_factors d a) then
      mapM (fun nf => set_row (map (fun c => (c, 1)) (columns m0) ++ map (fun c => (c, - snd nf)) (columns (fst nf))) FX (Fin 0) (Fin 0))
           (combine ms (tl (factors_norm (d_factors d a))))
      else Err (BadFactors a)
    end) ->
  forall rss, mapM R l = Ok rss <-> exists fs es, mapM (factor_cols S columns) l = Ok fs /\
    mapM (fun f => factor_entries S (d_factors d (fst f)) f) fs = Ok es /\ rss = map (map (with_limits zero_limits)) es.
Proof.
  intros E. apply mapM_bind2. intros a. rewrite E. unfold factor_cols.
  destruct (s_members S a) as [|m0 [|m1 ms]] eqn:Em; [reflexivity| |].
  - unfold factors_usable. cbn [length Nat.leb andb bindR]. reflexivity.
  - cbn [bindR fst snd]. unfold factor_entries. cbn [fst snd]. rewrite Em. destruct (factors_usable (m0 :: m1 :: ms) (d_factors d a)); [|reflexivity]. cbn [tl].
    assert (forall us gs, mapM (fun nf => set_row (map (fun c => (c, 1)) (columns m0) ++ map (fun c => (c, - snd nf)) (columns (fst nf))) FX (Fin 0) (Fin 0)) (combine us gs) =
      bindR (mapM (fun cf => entries (ones (columns m0) ++ map (fun c => (c, - snd cf)) (fst cf))) (combine (map columns us) gs)) (fun c => Ok (map (with_limits zero_limits) c))) as L.
    { clear. induction us as [|u us IH]; intros gs; [reflexivity|]. destruct gs as [|g gs]; [reflexivity|]. cbn [map combine mapM fst snd].
      rewrite set_row_entries. unfold ones. destruct (entries _) as [c|]; [|reflexivity]. cbn [bindR]. rewrite IH. unfold ones.
      destruct (mapM _ (combine (map columns us) gs)); reflexivity. }
    apply (L (m1 :: ms)).
Qed.
Lemma let3 {A} (x : limits) (f : rtype -> ext -> ext -> A) : (let '(t, lb, ub) := x in f t lb ub) = f (fst (fst x)) (snd (fst x)) (snd x).
Proof. destruct x as [[t lb] ub]. reflexivity. Qed.
Lemma limits_eta (x : limits) : (fst (fst x), snd (fst x), snd x) = x.
Proof. now destruct x as [[t lb] ub]. Qed.
Lemma concatR_Ok {A} (r : result (list (list A))) l : concatR r = Ok l <-> exists ll, r = Ok ll /\ l = concat ll.
Proof. destruct r as [ll|e]; cbn [concatR]; split; [intros H; injection H as <-; eauto|intros [ll' [H ->]]; now injection H as <-|discriminate|intros [ll [H _]]; discriminate]. Qed.

Definition wanted_obj (s : which) (triv : bool) (S : sys) (d : data) : nat -> Q :=
  match s with ByRoutes => fun c => route_cost S d (nth c (routes triv S) []) | ByEdges => edge_costs S d end.
Definition ncols_of (s : which) (triv : bool) (S : sys) : nat := match s with ByRoutes => length (routes triv S) | ByEdges => length (s_edges S) end.

(** The plan with the rows that belong to the data is the problem posed. *)
Definition agrees (s : which) (triv : bool) (S : sys) (d : data) (p : plan) (rows : list row) (P : lp) : Prop :=
  lp_ncols P = p_ncols p /\ Permutation rows (lp_rows P) /\ lp_obj P = wanted_obj s triv S d.

Lemma mapM_None {A B} (f : A -> result B) l : (forall r, mapM f l <> Ok r) -> exists e, mapM f l = Err e.
Proof. intros H. destruct (mapM f l) as [r|e]; [now elim (H r)|eauto]. Qed.
Ltac ok_inv H := let a := fresh "r" in let Ha := fresh "E" in apply (proj1 (bindR_Ok _ _ _)) in H as [a [Ha H]].

Lemma route_storage_row_eq S d rs st : storage_row S d rs st = bindR (route_storage_entries S rs st) (fun c => Ok (with_limits (sb d st) c)).
Proof. unfold storage_row. rewrite let3, set_row_entries. unfold route_storage_entries, ones, minus_ones, sb. now rewrite limits_eta. Qed.
Lemma route_virtual_row_eq S d rs v : virtual_row S d rs v = bindR (route_virtual_entries S rs v) (fun c => Ok (with_limits (vb d v) c)).
Proof. unfold virtual_row. rewrite let3, set_row_entries. unfold route_virtual_entries, vb. now rewrite limits_eta. Qed.
Lemma route_agg_row_eq S d rs a : agg_row S d rs a = bindR (route_agg_entries S rs a) (fun c => Ok (with_limits (fb d a) c)).
Proof. unfold agg_row. rewrite let3, set_row_entries. unfold route_agg_entries, fb. now rewrite limits_eta. Qed.
Lemma route_non_storage_eq S d rs cross n : non_storage_rows S d rs cross n =
  bindR (route_flow_entries S rs n) (fun c => if in_cross cross n
    then bindR (route_cross_entries S rs cross n) (fun c2 => Ok [with_limits (fb d n) c; with_limits zero_limits c2]) else Ok [with_limits (fb d n) c]).
Proof.
  unfold non_storage_rows, route_flow_entries, route_cross_entries. destruct (node_cols S rs n) as [|c0 cs]; [reflexivity|].
  rewrite let3, set_row_entries. rewrite limits_eta. unfold ones. destruct (entries (map _ (c0 :: cs))) as [c|]; [|reflexivity]. cbn [bindR].
  destruct (in_cross cross n); [|reflexivity]. rewrite set_row_entries. unfold minus_ones. destruct (entries _); reflexivity.
Qed.
Lemma edge_storage_row_eq S d st : edge_storage_row S d st = bindR (edge_storage_entries S st) (fun c => Ok (with_limits (sb d st) c)).
Proof. unfold edge_storage_row. rewrite let3, set_row_entries. unfold edge_storage_entries, ones, minus_ones, sb. now rewrite limits_eta. Qed.
Lemma edge_virtual_row_eq S d v : edge_virtual_row S d v = bindR (edge_virtual_entries S v) (fun c => Ok (with_limits (vb d v) c)).
Proof. unfold edge_virtual_row. rewrite let3, set_row_entries. unfold edge_virtual_entries, vb. now rewrite limits_eta. Qed.
Lemma edge_agg_row_eq S d a : edge_agg_row S d a = bindR (edge_agg_entries S a) (fun c => Ok (with_limits (fb d a) c)).
Proof. unfold edge_agg_row. rewrite let3, set_row_entries. unfold edge_agg_entries, fb. now rewrite limits_eta. Qed.
Lemma edge_balance_eq S n : balance_row S n = bindR (edge_balance_entries S n) (fun c => Ok (with_limits zero_limits c)).
Proof. unfold balance_row. apply set_row_entries. Qed.
Lemma ecols_checked_cols S n cs : ecols_checked S n = Ok cs -> cs = node_ecols S n.
Proof. unfold ecols_checked. destruct (match s_kind S n with KInput => _ | KOutput => _ | _ => _ end); [discriminate|]. destruct (node_ecols S n); [discriminate|]. intros H. now injection H as <-. Qed.
Lemma edge_non_storage_eq S d cross n : edge_non_storage_rows S d cross n =
  bindR (edge_flow_entries S n) (fun c => if in_cross cross n
    then bindR (edge_cross_entries S cross n) (fun c2 => Ok [with_limits (fb d n) c; with_limits zero_limits c2]) else Ok [with_limits (fb d n) c]).
Proof.
  unfold edge_non_storage_rows, edge_flow_entries, edge_cross_entries. destruct (ecols_checked S n) as [cs|] eqn:E; [|reflexivity]. cbn [bindR].
  rewrite let3, set_row_entries. rewrite limits_eta. unfold ones. destruct (entries (map _ cs)) as [c|]; [|reflexivity]. cbn [bindR].
  destruct (in_cross cross n); [|reflexivity]. rewrite set_row_entries. unfold minus_ones. rewrite (ecols_checked_cols S n cs E). destruct (entries _); reflexivity.
Qed.

Lemma flat_concat (es : list (list coefs)) : concat (map (map (with_limits zero_limits)) es) = flat_map (map (with_limits zero_limits)) es.
Proof. now rewrite flat_map_concat_map. Qed.
Lemma route_posed_plan triv S d P : posed triv S d = Ok P ->
  exists p rows, route_plan triv S = Ok p /\ rows_wanted S p d = Ok rows /\ agrees ByRoutes triv S d p rows P.
Proof.
  unfold posed, route_plan. destruct (all_nodes S) eqn:E1; [discriminate|]. destruct (routes triv S) eqn:E2; [discriminate|].
  destruct (of_kind S is_flow_node) eqn:E3; [discriminate|]. rewrite <- E2, <- E3. clear E1 E2 E3. intros H.
  ok_inv H. ok_inv H. ok_inv H. ok_inv H. ok_inv H. injection H as <-.
  apply (proj1 (concatR_Ok _ _)) in E as [ll [E ->]]. apply (proj1 (concatR_Ok _ _)) in E2 as [fss [E2 ->]].
  destruct (interleaved _ _ _ _ _ (of_kind S is_flow_node) (route_non_storage_eq S d (routes triv S) (cross_domain_routes triv S))) as [I _].
  apply I in E as (flow & fixed & -> & -> & Pe). cbn [bindR]. clear I.
  apply (proj1 (own_rows _ _ _ _ (route_storage_row_eq S d (routes triv S)) _)) in E0 as [st [-> ->]]. cbn [bindR].
  apply (proj1 (own_rows _ _ _ _ (route_virtual_row_eq S d (routes triv S)) _)) in E1 as [vs [-> ->]]. cbn [bindR].
  apply (proj1 (own_rows _ _ _ _ (route_agg_row_eq S d (routes triv S)) _)) in E3 as [ag [-> ->]]. cbn [bindR].
  apply (proj1 (factor_rows_of S d (fun m => cols (routes triv S) (fun r => memb m r)) _ _ (fun a => eq_refl) _)) in E2 as (fs & es & -> & Ef & ->). cbn [bindR].
  eexists _, _. split; [reflexivity|]. unfold rows_wanted. cbn [p_factor]. rewrite Ef. cbn [bindR]. split; [reflexivity|].
  split; [reflexivity|]. split; [|reflexivity]. cbn [lp_rows]. rewrite flat_concat.
  rewrite app_assoc. apply Permutation_app_tail. exact Pe.
Qed.
Lemma route_plan_posed triv S d p rows : route_plan triv S = Ok p -> rows_wanted S p d = Ok rows -> exists P, posed triv S d = Ok P.
Proof.
  unfold posed, route_plan. destruct (all_nodes S) eqn:E1; [discriminate|]. destruct (routes triv S) eqn:E2; [discriminate|].
  destruct (of_kind S is_flow_node) eqn:E3; [discriminate|]. rewrite <- E2, <- E3. clear E1 E2 E3. intros H K.
  do 6 ok_inv H. injection H as <-. unfold rows_wanted in K. cbn [p_factor] in K. apply (proj1 (bindR_Ok _ _ _)) in K as [es [Ee _]].
  destruct (interleaved _ _ _ _ _ (of_kind S is_flow_node) (route_non_storage_eq S d (routes triv S) (cross_domain_routes triv S))) as [_ I].
  destruct (I _ _ E E0) as [rss ->]. cbn [concatR bindR].
  rewrite (proj2 (own_rows _ _ _ _ (route_storage_row_eq S d (routes triv S)) _) (ex_intro _ _ (conj E1 eq_refl))). cbn [bindR].
  rewrite (proj2 (own_rows _ _ _ _ (route_virtual_row_eq S d (routes triv S)) _) (ex_intro _ _ (conj E2 eq_refl))). cbn [bindR].
  rewrite (proj2 (factor_rows_of S d (fun m => cols (routes triv S) (fun r => memb m r)) (factor_rows S d (routes triv S)) _ (fun a => eq_refl) _) (ex_intro _ _ (ex_intro _ _ (conj E3 (conj Ee eq_refl))))).
  cbn [concatR bindR].
  rewrite (proj2 (own_rows _ _ _ _ (route_agg_row_eq S d (routes triv S)) _) (ex_intro _ _ (conj E4 eq_refl))). cbn [bindR]. eauto.
Qed.
Lemma edge_posed_plan triv S d P : eposed triv S d = Ok P ->
  exists p rows, edge_plan triv S = Ok p /\ rows_wanted S p d = Ok rows /\ agrees ByEdges triv S d p rows P.
Proof.
  unfold eposed, edge_plan. destruct (all_nodes S) eqn:E1; [discriminate|]. destruct (s_edges S) eqn:E2; [discriminate|].
  destruct (of_kind S is_flow_node) eqn:E3; [discriminate|]. rewrite <- E2, <- E3. clear E1 E2 E3. intros H.
  do 6 ok_inv H. injection H as <-.
  apply (proj1 (concatR_Ok _ _)) in E as [ll [E ->]]. apply (proj1 (concatR_Ok _ _)) in E3 as [fss [E3 ->]].
  destruct (interleaved _ _ _ _ _ (of_kind S is_flow_node) (edge_non_storage_eq S d (cross_domain_routes triv S))) as [I _].
  apply I in E as (flow & fixed & -> & -> & Pe). cbn [bindR]. clear I.
  apply (proj1 (mapM_bind _ _ _ _ (edge_balance_eq S) _)) in E0 as [ba [-> ->]]. cbn [bindR].
  apply (proj1 (own_rows _ _ _ _ (edge_storage_row_eq S d) _)) in E1 as [st [-> ->]]. cbn [bindR].
  apply (proj1 (own_rows _ _ _ _ (edge_virtual_row_eq S d) _)) in E2 as [vs [-> ->]]. cbn [bindR].
  apply (proj1 (own_rows _ _ _ _ (edge_agg_row_eq S d) _)) in E4 as [ag [-> ->]]. cbn [bindR].
  apply (proj1 (factor_rows_of S d (node_ecols S) _ _ (fun a => eq_refl) _)) in E3 as (fs & es & -> & Ef & ->). cbn [bindR].
  eexists _, _. split; [reflexivity|]. unfold rows_wanted. cbn [p_factor]. rewrite Ef. cbn [bindR]. split; [reflexivity|].
  split; [reflexivity|]. split; [|reflexivity]. cbn [lp_rows]. rewrite flat_concat. unfold flow_part, fixed_part. cbn [p_flow p_fixed].
  rewrite map_app, <- app_assoc, app_assoc. apply Permutation_app_tail. exact Pe.
Qed.
Lemma edge_plan_posed triv S d p rows : edge_plan triv S = Ok p -> rows_wanted S p d = Ok rows -> exists P, eposed triv S d = Ok P.
Proof.
  unfold eposed, edge_plan. destruct (all_nodes S) eqn:E1; [discriminate|]. destruct (s_edges S) eqn:E2; [discriminate|].
  destruct (of_kind S is_flow_node) eqn:E3; [discriminate|]. rewrite <- E2, <- E3. clear E1 E2 E3. intros H K.
  do 7 ok_inv H. injection H as <-. unfold rows_wanted in K. cbn [p_factor] in K. apply (proj1 (bindR_Ok _ _ _)) in K as [es [Ee _]].
  destruct (interleaved _ _ _ _ _ (of_kind S is_flow_node) (edge_non_storage_eq S d (cross_domain_routes triv S))) as [_ I].
  destruct (I _ _ E E0) as [rss ->]. cbn [concatR bindR].
  rewrite (proj2 (mapM_bind _ _ _ _ (edge_balance_eq S) _) (ex_intro _ _ (conj E1 eq_refl))). cbn [bindR].
  rewrite (proj2 (own_rows _ _ _ _ (edge_storage_row_eq S d) _) (ex_intro _ _ (conj E2 eq_refl))). cbn [bindR].
  rewrite (proj2 (own_rows _ _ _ _ (edge_virtual_row_eq S d) _) (ex_intro _ _ (conj E3 eq_refl))). cbn [bindR].
  rewrite (proj2 (factor_rows_of S d (node_ecols S) (edge_factor_rows S d) _ (fun a => eq_refl) _) (ex_intro _ _ (ex_intro _ _ (conj E4 (conj Ee eq_refl))))).
  cbn [concatR bindR].
  rewrite (proj2 (own_rows _ _ _ _ (edge_agg_row_eq S d) _) (ex_intro _ _ (conj E5 eq_refl))). cbn [bindR]. eauto.
Qed.
Lemma wanted_plan s triv S w si : 
  match plan_of s triv S with
  | Err _ => exists e, wanted s triv S (w, si) = Err e
  | Ok p => match rows_wanted S p (data_of w si) with
            | Err _ => exists e, wanted s triv S (w, si) = Err e
            | Ok rows => exists P, wanted s triv S (w, si) = Ok P /\ agrees s triv S (data_of w si) p rows P
            end
  end.
Proof.
  assert (match wanted s triv S (w, si) with
          | Err _ => True
          | Ok P => exists p rows, plan_of s triv S = Ok p /\ rows_wanted S p (data_of w si) = Ok rows /\ agrees s triv S (data_of w si) p rows P end) as A.
  { destruct (wanted s triv S (w, si)) as [P|] eqn:E; [|exact I]. destruct s; [now apply route_posed_plan|now apply edge_posed_plan]. }
  destruct (plan_of s triv S) as [p|e] eqn:Ep.
  - destruct (rows_wanted S p (data_of w si)) as [rows|e] eqn:Er.
    + assert (exists P, wanted s triv S (w, si) = Ok P) as [P EP].
      { destruct s; [eapply route_plan_posed|eapply edge_plan_posed]; eauto. }
      rewrite EP in A. destruct A as (p' & rows' & H1 & H2 & H3). injection H1 as <-. rewrite Er in H2. injection H2 as <-. eauto.
    + destruct (wanted s triv S (w, si)) as [P|]; [|eauto]. destruct A as (p' & rows' & H1 & H2 & _). injection H1 as <-. rewrite Er in H2. discriminate.
  - destruct (wanted s triv S (w, si)) as [P|]; [|eauto]. destruct A as (p' & rows' & H1 & _). discriminate.
Qed.
Lemma plan_members s triv S p f : plan_of s triv S = Ok p -> In f (p_factor p) -> length (s_members S (fst f)) = Datatypes.S (length (snd (snd f))).
Proof.
  assert (forall columns l fs, mapM (factor_cols S columns) l = Ok fs -> In f fs -> length (s_members S (fst f)) = Datatypes.S (length (snd (snd f)))) as L.
  { intros columns l fs H I. destruct (mapM_In_inv _ _ _ H f I) as [a [Ha _]]. unfold factor_cols in Ha.
    destruct (s_members S a) as [|m0 [|m1 ms]] eqn:Em; try discriminate. injection Ha as <-. cbn [fst snd]. rewrite Em. cbn [length map]. now rewrite map_length. }
  destruct s; cbn [plan_of]; unfold route_plan, edge_plan.
  - destruct (all_nodes S); [discriminate|]. destruct (routes triv S); [discriminate|]. destruct (of_kind S is_flow_node); [discriminate|].
    intros H. do 6 ok_inv H. injection H as <-. cbn [p_factor]. eauto.
  - destruct (all_nodes S); [discriminate|]. destruct (s_edges S); [discriminate|]. destruct (of_kind S is_flow_node); [discriminate|].
    intros H. do 7 ok_inv H. injection H as <-. cbn [p_factor]. eauto.
Qed.
Lemma plan_ncols s triv S p : plan_of s triv S = Ok p -> p_ncols p = ncols_of s triv S.
Proof.
  destruct s; cbn [plan_of]; unfold route_plan, edge_plan.
  - destruct (all_nodes S); [discriminate|]. destruct (routes triv S) eqn:E2; [discriminate|]. destruct (of_kind S is_flow_node); [discriminate|].
    rewrite <- E2. intros H. do 6 ok_inv H. now injection H as <-.
  - destruct (all_nodes S); [discriminate|]. destruct (s_edges S) eqn:E2; [discriminate|]. destruct (of_kind S is_flow_node); [discriminate|].
    rewrite <- E2. intros H. do 7 ok_inv H. now injection H as <-.
Qed.

(** ** Costs *)
Lemma overwritten (V : nat -> Q) l arr k : fold_left (fun arr n k => if Nat.eqb k n then V n else arr k) l arr k = if memb k l then V k else arr k.
Proof.
  revert arr. induction l as [|n l IH]; intros arr; [reflexivity|]. cbn [fold_left]. rewrite IH. unfold memb. cbn [existsb].
  destruct (existsb (Nat.eqb k) l) eqn:E; [now rewrite orb_true_r|]. rewrite orb_false_r. destruct (Nat.eqb k n) eqn:En; [|reflexivity].
  apply Nat.eqb_eq in En. now subst.
Qed.
Lemma add_many l v arr k : fold_left (fun arr c => add arr c v) l arr k == arr k + qsum (map (fun c => if Nat.eqb k c then v else 0) l).
Proof.
  revert arr. induction l as [|c l IH]; intros arr; cbn [fold_left map qsum]; [ring|]. rewrite IH. unfold add. destruct (Nat.eqb k c); ring.
Qed.
Definition edge_share (S : sys) (d : data) (k n : nat) : Q :=
  let v := if is_link (s_kind S n) then get_cost S d n / 2 else get_cost S d n in
  qsum (map (fun c => if Nat.eqb k c then v else 0) (in_edges S n)) + qsum (map (fun c => if Nat.eqb k c then v else 0) (out_edges S n)).
Lemma add_edge_costs_sum S d l arr k : add_edge_costs S d l arr k == arr k + qsum (map (edge_share S d k) l).
Proof.
  unfold add_edge_costs. revert arr. induction l as [|n l IH]; intros arr; cbn [fold_left map qsum]; [ring|]. rewrite IH, !add_many. unfold edge_share. ring.
Qed.
Lemma sum_split (q : nat -> bool) (g h : nat -> Q) l : (forall n, In n l -> q n = true -> g n == h n) ->
  qsum (map g (filter q l)) + qsum (map h (filter (fun n => negb (q n)) l)) == qsum (map h l).
Proof.
  induction l as [|n l IH]; intros H; cbn [filter map qsum]; [ring|]. specialize (IH (fun m Hm => H m (or_intror Hm))).
  destruct (q n) eqn:E; cbn [negb map qsum]; [rewrite (H n (or_introl eq_refl) E)|]; rewrite <- IH; ring.
Qed.

(** ** What is known of the solver between calls *)
Definition fixed_cost (o : options) (S : sys) (w0 : world) (n : nat) : bool := o_costs o && has_fixed_cost S w0 n.
Definition constant_flow (o : options) (w0 : world) (n : nat) : bool := o_flows o && has_constant_flows w0 n.
Definition constant_factor (o : options) (w0 : world) (f : factored) : bool := o_factors o && has_constant_factors w0 (fst f).
Record shaped (s : which) (o : options) (triv : bool) (S : sys) (p : plan) (w0 : world) (v : solver)
    (bf bs bv ba : nat -> limits) (ef : factored -> list coefs) : Prop := {
  sh_plan : plan_of s triv S = Ok p;
  sh_ncols : v_ncols v = p_ncols p;
  sh_rows : v_rows v = assemble p bf bs bv ba ef;
  sh_fits : fits ef (p_factor p);
  sh_costs : forall n, In n (all_nodes S) -> fixed_cost o S w0 n = true -> v_node_costs v n = get_cost S (data_of w0 0) n;
  sh_edge : v_edge_fixed v = add_edge_costs S (data_of w0 0) (filter (fixed_cost o S w0) (all_nodes S)) (fun _ => 0);
  sh_dynamic_cost : v_dynamic_cost v = filter (fun n => negb (fixed_cost o S w0 n)) (all_nodes S);
  sh_constant_flow : v_constant_flow v = filter (fun rn => constant_flow o w0 (snd rn)) (rows_from 0 (p_flow p));
  sh_dynamic_flow : v_dynamic_flow v = filter (fun rn => negb (constant_flow o w0 (snd rn))) (rows_from 0 (p_flow p));
  sh_constant_factor : v_constant_factor v = filter (fun rf => constant_factor o w0 (snd rf))
    (placed (length (p_flow p) + length (p_fixed p) + length (p_storage p) + length (p_virtual p)) (p_factor p));
  sh_dynamic_factor : v_dynamic_factor v = filter (fun rf => negb (constant_factor o w0 (snd rf)))
    (placed (length (p_flow p) + length (p_fixed p) + length (p_storage p) + length (p_virtual p)) (p_factor p));
  sh_storage : v_storage v = rows_from (length (p_flow p) + length (p_fixed p)) (p_storage p);
  sh_virtual : v_virtual v = rows_from (length (p_flow p) + length (p_fixed p) + length (p_storage p)) (p_virtual p);
  sh_agg : v_agg v = rows_from (length (p_flow p) + length (p_fixed p) + length (p_storage p) + length (p_virtual p) +
    length (flat_map (fun f => snd (snd f)) (p_factor p))) (p_agg p)
}.

Lemma setup_shaped s o triv S w mem : match plan_of s triv S with
  | Err e => setup s o triv S w mem = Err e
  | Ok p => exists v bf bs bv ba ef, setup s o triv S w mem = Ok v /\ shaped s o triv S p w v bf bs bv ba ef
  end.
Proof.
  unfold setup. destruct (plan_of s triv S) as [p|e] eqn:Ep; [|reflexivity]. cbn [bindR].
  eexists _, (fun _ => zero_limits), (fun _ => no_limits), (fun _ => no_limits), (fun _ => zero_limits), (fun f => map (fun _ => []) (snd (snd f))).
  split; [reflexivity|]. constructor; cbn [v_ncols v_rows v_obj v_node_costs v_edge_fixed v_dynamic_cost v_constant_flow v_dynamic_flow v_constant_factor v_dynamic_factor v_storage v_virtual v_agg];
    try reflexivity.
  - exact Ep.
  - unfold assemble, flow_part, fixed_part, storage_part, virtual_part, agg_part. do 4 f_equal. f_equal. unfold factor_block.
    apply flat_map_ext. intros f. now rewrite map_map.
  - intros f _. now rewrite map_length.
  - intros n Hn Hf. unfold fixed_node_costs. rewrite (overwritten (get_cost S (data_of w 0))).
    replace (memb n _) with true; [reflexivity|]. symmetry. apply existsb_exists. exists n. split; [|apply Nat.eqb_refl].
    apply filter_In. split; [exact Hn|exact Hf].
Qed.

Lemma fold_left_ext {A X} (f g : A -> X -> A) l a : (forall a x, f a x = g a x) -> fold_left f l a = fold_left g l a.
Proof. intros E. revert a. induction l as [|x l IH]; intros a; [reflexivity|]. cbn [fold_left]. rewrite E. apply IH. Qed.

Definition constant_factors (w : world) (f : factored) : result (list Q) :=
  match constants (w_factors w (fst f)) with Some fs => Ok fs | None => Err (BadFactors (fst f)) end.
Definition constant_limits (w : world) (n : nat) : limits :=
  match constant (w_min w n), constant (w_max w n) with Some mn, Some mx => flow_bounds mn mx | _, _ => zero_limits end.
Definition got (q : factored -> result (list coefs)) (f : factored) : list coefs := match q f with Ok es => es | Err _ => [] end.

Lemma got_flat q l es : mapM q l = Ok es -> flat_map (map (with_limits zero_limits)) es = flat_map (factor_block (got q)) l.
Proof.
  intros H. apply mapM_total_map with (z := []) in H. subst es. rewrite !flat_map_concat_map, map_map. reflexivity.
Qed.
Lemma pick_fits S pr (g : factored -> result (list Q)) ef l es :
  (forall f, In f l -> length (s_members S (fst f)) = Datatypes.S (length (snd (snd f)))) -> fits ef l ->
  mapM (pick pr (fun f => bindR (g f) (fun v => factor_entries S v f)) ef) l = Ok es ->
  fits (got (pick pr (fun f => bindR (g f) (fun v => factor_entries S v f)) ef)) l.
Proof.
  intros M F H f I. destruct (mapM_In _ _ _ H f I) as [b [Hb _]]. unfold got. rewrite Hb. unfold pick in Hb. destruct (pr f).
  - apply (proj1 (bindR_Ok _ _ _)) in Hb as [v [_ Hb]]. apply (factor_entries_length S v f); [now apply M|exact Hb].
  - injection Hb as <-. now apply F.
Qed.

Lemma reset_shaped s o triv S p w0 w v bf bs bv ba ef : shaped s o triv S p w0 v bf bs bv ba ef ->
  (forall n, constant_flow o w0 n = true -> constant (w_min w n) <> None /\ constant (w_max w n) <> None) ->
  let q := pick (constant_factor o w0) (fun f => bindR (constant_factors w f) (fun fs => factor_entries S fs f)) ef in
  match mapM q (p_factor p) with
  | Err _ => exists e, reset S w v = Err e
  | Ok _ => exists v', reset S w v = Ok v' /\ shaped s o triv S p w0 v' (choose (constant_flow o w0) (constant_limits w) bf) bs bv ba (got q)
  end.
Proof.
  intros H C q. unfold reset.
  assert (fold_left (fun acc rn => bindR acc (fun rows =>
      match constant (w_min w (snd rn)), constant (w_max w (snd rn)) with
      | Some mn, Some mx => Ok (set_bounds (fst rn) (flow_bounds mn mx) rows)
      | _, _ => Err GlpkError
      end)) (v_constant_flow v) (Ok (v_rows v)) = Ok (assemble p (choose (constant_flow o w0) (constant_limits w) bf) bs bv ba ef)) as ->.
  { rewrite (sh_constant_flow _ _ _ _ _ _ _ _ _ _ _ _ H), (sh_rows _ _ _ _ _ _ _ _ _ _ _ _ H).
    rewrite (fold_left_ext _ (fun acc rn => bindR acc (fun rows => match (fun n => match constant (w_min w n), constant (w_max w n) with
        Some mn, Some mx => Some (fun r => with_limits (flow_bounds mn mx) (r_coef r)) | _, _ => None end) (snd rn) with Some f => Ok (update (fst rn) f rows) | None => Err GlpkError end))).
    2:{ intros acc rn. destruct acc as [rows|]; [|reflexivity]. cbn [bindR]. destruct (constant (w_min w (snd rn))), (constant (w_max w (snd rn))); reflexivity. }
    unfold assemble, flow_part.
    pose proof (fold_rows_from_opt (fun n => match constant (w_min w n), constant (w_max w n) with
        Some mn, Some mx => Some (fun r => with_limits (flow_bounds mn mx) (r_coef r)) | _, _ => None end) (fun rn => constant_flow o w0 (snd rn)) (constant_flow o w0) []
      (fixed_part p ++ storage_part p bs ++ virtual_part p bv ++ flat_map (factor_block ef) (p_factor p) ++ agg_part p ba)
      (fun x => with_limits (bf (fst x)) (snd x)) (p_flow p) 0 GlpkError (fun _ => eq_refl) eq_refl) as L. cbn [app] in L. rewrite L; clear L.
    - do 2 f_equal. apply map_ext. intros x. unfold choose, constant_limits. destruct (constant_flow o w0 (fst x)) eqn:E; [|reflexivity].
      specialize (C _ E). destruct (constant (w_min w (fst x))), (constant (w_max w (fst x))); try reflexivity; now destruct C.
    - intros x _ E. specialize (C _ E). destruct (constant (w_min w (fst x))), (constant (w_max w (fst x))); try discriminate; now destruct C. }
  set (bf' := choose _ _ bf).
  rewrite (fold_left_ext _ (fun acc rf => bindR acc (fun rows => bindR (constant_factors w (snd rf)) (fun fs => set_factors S fs rf rows)))).
  2:{ intros acc [row [a cs]]. destruct acc as [rows|]; [|reflexivity]. unfold constant_factors. cbn [bindR fst snd]. destruct (constants (w_factors w a)); reflexivity. }
  rewrite (sh_constant_factor _ _ _ _ _ _ _ _ _ _ _ _ H).
  pose proof (plan_members s triv S p) as M. pose proof (sh_fits _ _ _ _ _ _ _ _ _ _ _ _ H) as F.
  replace (assemble p bf' bs bv ba ef) with ((flow_part p bf' ++ fixed_part p ++ storage_part p bs ++ virtual_part p bv) ++ flat_map (factor_block ef) (p_factor p) ++ agg_part p ba)
    by (unfold assemble; now rewrite <- !app_assoc).
  pose proof (factor_loop S (constant_factors w) (fun rf => constant_factor o w0 (snd rf)) (constant_factor o w0) ef (p_factor p) (fun _ => eq_refl)
    (fun f => M f (sh_plan _ _ _ _ _ _ _ _ _ _ _ _ H)) F (flow_part p bf' ++ fixed_part p ++ storage_part p bs ++ virtual_part p bv) (agg_part p ba)
    (length (p_flow p) + length (p_fixed p) + length (p_storage p) + length (p_virtual p))) as L.
  specialize (L ltac:(unfold flow_part, fixed_part, storage_part, virtual_part; rewrite !app_length, !map_length; lia) _ eq_refl). fold q in L.
  destruct (mapM q (p_factor p)) as [es|e] eqn:Eq.
  - rewrite L. cbn [bindR]. eexists. split; [reflexivity|]. destruct H. constructor; cbn [v_ncols v_rows v_obj v_node_costs v_edge_fixed v_dynamic_cost v_constant_flow v_dynamic_flow v_constant_factor v_dynamic_factor v_storage v_virtual v_agg with_rows]; try assumption.
    + rewrite (got_flat _ _ _ Eq). unfold assemble. now rewrite <- !app_assoc.
    + eapply pick_fits; eauto.
  - destruct L as [e' ->]. cbn [bindR]. eauto.
Qed.

Lemma solve_shaped s o triv S p w0 w si v bf bs bv ba ef : shaped s o triv S p w0 v bf bs bv ba ef ->
  let d := data_of w si in
  let q := pick (fun f => negb (constant_factor o w0 f)) (fun f => factor_entries S (d_factors d (fst f)) f) ef in
  match mapM q (p_factor p) with
  | Err _ => exists e, solve s triv S w si v = Err e
  | Ok _ => exists v', solve s triv S w si v = Ok v' /\
      shaped s o triv S p w0 v' (choose (fun n => negb (constant_flow o w0 n)) (fb d) bf) (sb d) (vb d) (fb d) (got q) /\
      v_obj v' = match s with
                 | ByRoutes => fun c => round8 (fold_left (fun cost n => cost + v_node_costs v' n) (route_cost_nodes S (nth c (routes triv S) [])) 0)
                 | ByEdges => add_edge_costs S d (v_dynamic_cost v) (v_edge_fixed v)
                 end /\
      (s = ByRoutes -> forall n, In n (v_dynamic_cost v) -> v_node_costs v' n = get_cost S d n)
  end.
Proof.
  intros H d q. unfold solve. fold d.
  rewrite (fold_left_ext _ (fun acc (rf : nat * factored) => bindR acc (fun rows => bindR (Ok (d_factors d (fst (snd rf)))) (fun fs => set_factors S fs rf rows)))) by reflexivity.
  rewrite (sh_rows _ _ _ _ _ _ _ _ _ _ _ _ H), (sh_dynamic_factor _ _ _ _ _ _ _ _ _ _ _ _ H).
  pose proof (plan_members s triv S p) as M. pose proof (sh_fits _ _ _ _ _ _ _ _ _ _ _ _ H) as F.
  replace (assemble p bf bs bv ba ef) with ((flow_part p bf ++ fixed_part p ++ storage_part p bs ++ virtual_part p bv) ++ flat_map (factor_block ef) (p_factor p) ++ agg_part p ba)
    by (unfold assemble; now rewrite <- !app_assoc).
  pose proof (factor_loop S (fun f => Ok (d_factors d (fst f))) (fun rf => negb (constant_factor o w0 (snd rf))) (fun f => negb (constant_factor o w0 f)) ef (p_factor p) (fun _ => eq_refl)
    (fun f => M f (sh_plan _ _ _ _ _ _ _ _ _ _ _ _ H)) F (flow_part p bf ++ fixed_part p ++ storage_part p bs ++ virtual_part p bv) (agg_part p ba)
    (length (p_flow p) + length (p_fixed p) + length (p_storage p) + length (p_virtual p))) as L.
  specialize (L ltac:(unfold flow_part, fixed_part, storage_part, virtual_part; rewrite !app_length, !map_length; lia) _ eq_refl).
  revert L. change (mapM (pick _ _ ef) (p_factor p)) with (mapM q (p_factor p)) at 1. intros L.
  destruct (mapM q (p_factor p)) as [es|e] eqn:Eq.
  2:{ destruct L as [e1 L]. rewrite L. cbn [bindR]. eauto. }
  rewrite L. cbn [bindR].
  assert (fits (got q) (p_factor p)) as F' by (eapply (pick_fits S _ (fun f => Ok (d_factors d (fst f)))); [intros f; apply M, (sh_plan _ _ _ _ _ _ _ _ _ _ _ _ H)|exact F|exact Eq]).
  rewrite (got_flat _ _ _ Eq).
  replace ((flow_part p bf ++ fixed_part p ++ storage_part p bs ++ virtual_part p bv) ++ flat_map (factor_block (got q)) (p_factor p) ++ agg_part p ba)
    with (assemble p bf bs bv ba (got q)) by (unfold assemble; now rewrite <- !app_assoc).
  rewrite (sh_dynamic_flow _ _ _ _ _ _ _ _ _ _ _ _ H), (sh_agg _ _ _ _ _ _ _ _ _ _ _ _ H), (sh_storage _ _ _ _ _ _ _ _ _ _ _ _ H), (sh_virtual _ _ _ _ _ _ _ _ _ _ _ _ H).
  change (fun (rows : list row) (rn : nat * nat) => set_bounds (fst rn) (flow_bounds (d_min d (snd rn)) (d_max d (snd rn))) rows) with
    (fun (rows : list row) (rn : nat * nat) => set_bounds (fst rn) (fb d (snd rn)) rows).
  change (fun (rows : list row) (rn : nat * nat) => set_bounds (fst rn) (storage_bounds (d_vol d (snd rn)) (d_minvol d (snd rn)) (d_maxvol d (snd rn)) (d_days d)) rows) with
    (fun (rows : list row) (rn : nat * nat) => set_bounds (fst rn) (sb d (snd rn)) rows).
  change (fun (rows : list row) (rn : nat * nat) => set_bounds (fst rn)
      (virtual_bounds (d_active d (snd rn)) (d_vol d (snd rn)) (d_minvol d (snd rn)) (d_maxvol d (snd rn)) (d_days d)) rows) with
    (fun (rows : list row) (rn : nat * nat) => set_bounds (fst rn) (vb d (snd rn)) rows).
  rewrite (flow_loop p bf bs bv ba (got q) (fb d) _ (fun n => negb (constant_flow o w0 n)) (fun _ => eq_refl)).
  rewrite (agg_loop p _ bs bv ba (got q) (fb d) F').
  rewrite (storage_loop p _ bs bv (fb d) (got q) (sb d)), (virtual_loop p _ (sb d) bv (fb d) (got q) (vb d)).
  eexists. split; [reflexivity|]. split; [|split].
  - destruct H. constructor; cbn [v_ncols v_rows v_obj v_node_costs v_edge_fixed v_dynamic_cost v_constant_flow v_dynamic_flow v_constant_factor v_dynamic_factor v_storage v_virtual v_agg]; try assumption; try reflexivity.
    intros n Hn Hf. destruct s; [|now apply sh_costs0]. rewrite (overwritten (get_cost S d)). replace (memb n (v_dynamic_cost v)) with false; [now apply sh_costs0|].
    symmetry. apply not_true_iff_false. intros K. apply existsb_exists in K as [m [Hm E]]. apply Nat.eqb_eq in E. subst m.
    rewrite sh_dynamic_cost0 in Hm. apply filter_In in Hm as [_ Hm]. now rewrite Hf in Hm.
  - cbn [v_obj v_node_costs]. destruct s; reflexivity.
  - cbn [v_node_costs]. intros -> n Hn. rewrite (overwritten (get_cost S d)). replace (memb n (v_dynamic_cost v)) with true; [reflexivity|].
    symmetry. apply existsb_exists. exists n. split; [exact Hn|apply Nat.eqb_refl].
Qed.

(** ** Histories *)
Lemma constants_map l qs : map constant l = map Some qs -> constants l = Some qs.
Proof.
  revert qs. induction l as [|a l IH]; intros [|q qs] H; try discriminate; [reflexivity|]. cbn [map constants] in *. injection H as H1 H2.
  rewrite H1, (IH qs H2). reflexivity.
Qed.
Lemma fixed_cost_same o S w0 w1 w si n : held o S w0 w1 (w, si) -> fixed_cost o S w0 n = true -> get_cost S (data_of w0 0) n = get_cost S (data_of w si) n.
Proof.
  intros [H _] F. apply andb_true_iff in F as [O F]. specialize (H O). cbn [fst snd] in H. unfold has_fixed_cost in F. unfold get_cost. cbn [d_cost data_of].
  assert (forall k, is_literal (w_cost w0 k) = true -> get (w_cost w0 k) 0 = get (w_cost w k) si) as L.
  { intros k Hk. destruct (w_cost w0 k) as [c|c f] eqn:E; [|discriminate]. cbn [get]. symmetry. now apply H. }
  destruct (s_slot S n) as [|st|st]; [|now rewrite (L _ F)|now rewrite (L _ F)].
  destruct (is_flow_node (s_kind S n) || is_storage (s_kind S n)); [now apply L|reflexivity].
Qed.

(** What is known between the solves of a pass. *)
Definition ready (s : which) (o : options) (triv : bool) (S : sys) (w0 w1 : world) (v : solver) : Prop :=
  exists p bf bs bv ba ef, shaped s o triv S p w0 v bf bs bv ba ef /\
    (forall n, constant_flow o w0 n = true -> bf n = constant_limits w1 n) /\
    (forall f, In f (p_factor p) -> constant_factor o w0 f = true -> Ok (ef f) = bindR (constant_factors w1 f) (fun fs => factor_entries S fs f)).
Definition set_up (s : which) (o : options) (triv : bool) (S : sys) (w0 : world) (v : solver) : Prop :=
  exists p bf bs bv ba ef, shaped s o triv S p w0 v bf bs bv ba ef.

Lemma mapM_ext_in {A B} (f g : A -> result B) l : (forall a, In a l -> f a = g a) -> mapM f l = mapM g l.
Proof.
  induction l as [|a l IH]; intros H; [reflexivity|]. cbn [mapM]. rewrite (H a (or_introl eq_refl)), IH; [reflexivity|]. intros b Hb. apply H. now right.
Qed.
Lemma mapM_Err {A B} (f : A -> result B) l e : mapM f l = Err e -> exists a e', In a l /\ f a = Err e'.
Proof.
  induction l as [|a l IH]; cbn [mapM]; [discriminate|]. destruct (f a) as [b|e0] eqn:E; [|intros _; exists a, e0; split; [now left|exact E]].
  destruct (mapM f l); [discriminate|]. intros H. destruct IH as (a' & e' & I & Ha); [injection H as ->; reflexivity|]. exists a', e'. split; [now right|exact Ha].
Qed.
Lemma mapM_Err_In {A B} (f : A -> result B) l a e : In a l -> f a = Err e -> exists e', mapM f l = Err e'.
Proof.
  intros I H. apply mapM_None. intros r E. destruct (mapM_In _ _ _ E a I) as [b [K _]]. rewrite H in K. discriminate.
Qed.

Lemma held_factors o S w0 w1 w si f : held o S w0 w1 (w, si) -> constant_factor o w0 f = true -> constant_factors w1 f = Ok (d_factors (data_of w si) (fst f)).
Proof.
  intros (_ & _ & H) F. apply andb_true_iff in F as [O F]. specialize (H O _ F). cbn [fst snd] in H. unfold constant_factors.
  rewrite (constants_map _ (d_factors (data_of w si) (fst f))); [reflexivity|]. cbn [d_factors data_of]. now rewrite H, map_map.
Qed.
Lemma held_limits o S w0 w1 w si n : held o S w0 w1 (w, si) -> constant_flow o w0 n = true ->
  constant_limits w1 n = fb (data_of w si) n /\ constant (w_min w1 n) <> None /\ constant (w_max w1 n) <> None.
Proof.
  intros (_ & H & _) F. apply andb_true_iff in F as [O F]. destruct (H O _ F) as [H1 H2]. cbn [fst snd] in *. unfold constant_limits.
  rewrite H1, H2. repeat split; discriminate.
Qed.

(** A route's nodes are nodes of the model. *)
Lemma cost_nodes_known triv S c n : wf_sys S -> (c < length (routes triv S))%nat -> In n (route_cost_nodes S (nth c (routes triv S) [])) -> In n (all_nodes S).
Proof.
  intros W L H. apply all_nodes_In. pose proof (routes_facts triv S (nth c (routes triv S) []) W (nth_In _ _ L)) as F.
  apply (rf_nodes _ _ F). pose proof (rf_length _ _ F) as L2. assert (nth c (routes triv S) [] <> []) as N by (intros E; rewrite E in L2; cbn in L2; lia).
  unfold route_cost_nodes in H. apply in_app_iff in H as [[<-|[]]|H]; [now apply first_in|]. apply in_app_iff in H as [H|[<-|[]]]; [|now apply last_in].
  apply filter_In in H as [H _]. rewrite (interior_split _ L2). right. apply in_app_iff. now left.
Qed.

Lemma solve_ready s o triv S w0 w1 v w si : wf_sys S -> ready s o triv S w0 w1 v -> held o S w0 w1 (w, si) ->
  match solve s triv S w si v with
  | Ok v' => ready s o triv S w0 w1 v' /\ exists P, wanted s triv S (w, si) = Ok P /\ same_problem (problem v') P
  | Err _ => exists e, wanted s triv S (w, si) = Err e
  end.
Proof.
  intros W (p & bf & bs & bv & ba & ef & Sh & Hb & Hf) Hd. pose proof (solve_shaped s o triv S p w0 w si v bf bs bv ba ef Sh) as L. cbv zeta in L.
  pose proof (wanted_plan s triv S w si) as X. rewrite (sh_plan _ _ _ _ _ _ _ _ _ _ _ _ Sh) in X. set (d := data_of w si) in *.
  set (q := pick _ _ ef) in *.
  assert (mapM q (p_factor p) = mapM (fun f => factor_entries S (d_factors d (fst f)) f) (p_factor p)) as Eq.
  { apply mapM_ext_in. intros f If. unfold q, pick. destruct (constant_factor o w0 f) eqn:Ec; cbn [negb]; [|reflexivity].
    rewrite (Hf f If Ec), (held_factors _ _ _ _ _ _ _ Hd Ec). reflexivity. }
  unfold rows_wanted in X. rewrite <- Eq in X. destruct (mapM q (p_factor p)) as [es|e] eqn:Em; cbn [bindR] in X.
  - destruct L as (v' & -> & Sh' & Ho & Hc). split.
    + eexists p, _, _, _, _, _. split; [exact Sh'|]. split.
      * intros n Hn. unfold choose. rewrite Hn. cbn [negb]. now apply Hb.
      * intros f If Ec. unfold got, q, pick. rewrite Ec. cbn [negb]. now apply Hf.
    + destruct X as (P & -> & A1 & A2 & A3). exists P. split; [reflexivity|]. split; [|split].
      * cbn [problem lp_ncols]. rewrite (sh_ncols _ _ _ _ _ _ _ _ _ _ _ _ Sh'). now symmetry.
      * cbn [problem lp_rows]. rewrite (sh_rows _ _ _ _ _ _ _ _ _ _ _ _ Sh'). unfold assemble. rewrite <- (got_flat q (p_factor p) es Em).
        replace (flow_part p (choose (fun n => negb (constant_flow o w0 n)) (fb d) bf)) with (flow_part p (fb d)); [exact A2|].
        unfold flow_part. apply map_ext. intros x. unfold choose. destruct (constant_flow o w0 (fst x)) eqn:Ec; cbn [negb]; [|reflexivity].
        rewrite (Hb _ Ec). now destruct (held_limits _ _ _ _ _ _ _ Hd Ec) as [-> _].
      * cbn [problem lp_ncols lp_obj]. rewrite (sh_ncols _ _ _ _ _ _ _ _ _ _ _ _ Sh'), (plan_ncols _ _ _ _ (sh_plan _ _ _ _ _ _ _ _ _ _ _ _ Sh)).
        intros c Hcol. rewrite Ho, A3. destruct s; cbn [wanted_obj ncols_of] in *.
        -- unfold route_cost. replace (fold_left (fun cost n => cost + v_node_costs v' n) (route_cost_nodes S (nth c (routes triv S) [])) 0)
             with (fold_left (fun c n => c + get_cost S d n) (route_cost_nodes S (nth c (routes triv S) [])) 0); [reflexivity|].
           assert (forall n, In n (route_cost_nodes S (nth c (routes triv S) [])) -> get_cost S d n = v_node_costs v' n) as K.
           { intros n Hn. pose proof (cost_nodes_known triv S c n W Hcol Hn) as Hn'. destruct (fixed_cost o S w0 n) eqn:Ef.
             - rewrite (sh_costs _ _ _ _ _ _ _ _ _ _ _ _ Sh' n Hn' Ef). symmetry. now apply (fixed_cost_same o S w0 w1).
             - symmetry. apply (Hc eq_refl). rewrite (sh_dynamic_cost _ _ _ _ _ _ _ _ _ _ _ _ Sh). apply filter_In. split; [exact Hn'|]. now rewrite Ef. }
           generalize 0 as a. revert K. clear. induction (route_cost_nodes S (nth c (routes triv S) [])) as [|n l IH]; intros K a; [reflexivity|]. cbn [fold_left].
           rewrite (K n (or_introl eq_refl)). apply IH. intros m Hm. apply K. now right.
        -- change (edge_costs S d c) with (add_edge_costs S d (all_nodes S) (fun _ => 0) c).
           rewrite (sh_dynamic_cost _ _ _ _ _ _ _ _ _ _ _ _ Sh), (sh_edge _ _ _ _ _ _ _ _ _ _ _ _ Sh), !add_edge_costs_sum.
           rewrite <- (sum_split (fixed_cost o S w0) (edge_share S (data_of w0 0) c) (edge_share S d c) (all_nodes S)); [ring|].
           intros n _ Ef. unfold edge_share. rewrite (fixed_cost_same o S w0 w1 w si n Hd Ef). reflexivity.
  - destruct L as [e' ->]. exact X.
Qed.
Lemma ready_set_up s o triv S w0 w1 v : ready s o triv S w0 w1 v -> set_up s o triv S w0 v.
Proof. intros (p & bf & bs & bv & ba & ef & Sh & _). now exists p, bf, bs, bv, ba, ef. Qed.

Lemma reset_ready s o triv S w0 w1 v ws : set_up s o triv S w0 v -> held o S w0 w1 ws ->
  match reset S w1 v with
  | Ok v' => ready s o triv S w0 w1 v'
  | Err _ => exists e, wanted s triv S ws = Err e
  end.
Proof.
  intros (p & bf & bs & bv & ba & ef & Sh) Hd. destruct ws as [w si].
  pose proof (reset_shaped s o triv S p w0 w1 v bf bs bv ba ef Sh (fun n Hn => proj2 (held_limits _ _ _ _ _ _ _ Hd Hn))) as L. cbv zeta in L.
  set (q := pick _ _ ef) in *. destruct (mapM q (p_factor p)) as [es|e] eqn:Em.
  - destruct L as (v' & -> & Sh'). eexists p, _, _, _, _, _. split; [exact Sh'|]. split.
    + intros n Hn. unfold choose. now rewrite Hn.
    + intros f If Ec. destruct (mapM_In _ _ _ Em f If) as [b [Hq _]]. unfold got. rewrite Hq. unfold q, pick in Hq. rewrite Ec in Hq. now symmetry.
  - destruct L as [e' ->]. destruct (mapM_Err _ _ _ Em) as (f & e2 & If & He). unfold q, pick in He. destruct (constant_factor o w0 f) eqn:Ec; [|discriminate].
    rewrite (held_factors _ _ _ _ _ _ _ Hd Ec) in He. cbn [bindR] in He.
    pose proof (wanted_plan s triv S w si) as X. rewrite (sh_plan _ _ _ _ _ _ _ _ _ _ _ _ Sh) in X. unfold rows_wanted in X.
    destruct (mapM_Err_In (fun f => factor_entries S (d_factors (data_of w si) (fst f)) f) _ f e2 If He) as [e3 E3]. rewrite E3 in X. cbn [bindR] in X. exact X.
Qed.

(** The problem solved for a timestep and scenario is the wanted one. *)
Definition as_wanted (s : which) (triv : bool) (S : sys) (ws : world * nat) (P : lp) : Prop := exists W, wanted s triv S ws = Ok W /\ same_problem P W.
Lemma solves_ready s o triv S w0 w1 : wf_sys S -> forall l v, ready s o triv S w0 w1 v -> (forall ws, In ws l -> held o S w0 w1 ws) ->
  match solves s triv S l v with
  | Ok r => ready s o triv S w0 w1 (fst r) /\ Forall2 (as_wanted s triv S) l (snd r)
  | Err _ => exists ws e, In ws l /\ wanted s triv S ws = Err e
  end.
Proof.
  intros W. induction l as [|[w si] l IH]; intros v R H; cbn [solves]; [split; [exact R|constructor]|].
  pose proof (solve_ready s o triv S w0 w1 v w si W R (H _ (or_introl eq_refl))) as L. destruct (solve s triv S w si v) as [v1|e]; cbn [bindR].
  - destruct L as [R1 A]. specialize (IH v1 R1 (fun ws I => H ws (or_intror I))). destruct (solves s triv S l v1) as [[v2 lps]|e]; cbn [bindR fst snd].
    + destruct IH as [R2 F]. split; [exact R2|]. constructor; [exact A|exact F].
    + destruct IH as (ws & e' & I & E). exists ws, e'. split; [now right|exact E].
  - destruct L as [e' E]. exists (w, si), e'. split; [now left|exact E].
Qed.
Lemma run_wanted s o triv S : wf_sys S -> forall l w0 v, steady o S w0 l ->
  match w0, v with Some w, Some v => set_up s o triv S w v | None, _ => True | Some _, None => False end ->
  match run s o triv S l v with
  | Ok lps => Forall2 (as_wanted s triv S) (all_solves l) lps
  | Err _ => exists ws e, In ws (all_solves l) /\ wanted s triv S ws = Err e
  end.
Proof.
  intros W. induction l as [|h l IH]; intros w0 v St Hv; cbn [run]; [constructor|]. destruct St as (w & Hw & Ne & Hd & St).
  destruct (h_solves h) as [|ws0 rest] eqn:El; [congruence|]. rewrite <- El in *.
  assert (In ws0 (h_solves h)) as I0 by (rewrite El; now left).
  assert (match start s o triv S h v with Ok v' => ready s o triv S w (h_start h) v' | Err _ => exists e, wanted s triv S ws0 = Err e end) as Hs.
  { unfold start. destruct (h_setup h) as [mem|].
    - subst w. pose proof (setup_shaped s o triv S (h_start h) mem) as L. destruct ws0 as [w si]. pose proof (wanted_plan s triv S w si) as X.
      destruct (plan_of s triv S) as [p|e]; [|rewrite L; cbn [bindR]; exact X]. destruct L as (v1 & bf & bs & bv & ba & ef & -> & Sh). cbn [bindR].
      apply (reset_ready s o triv S (h_start h) (h_start h) v1 (w, si)); [now exists p, bf, bs, bv, ba, ef|now apply Hd].
    - destruct w0 as [w'|]; [|contradiction]. subst w'. destruct v as [v|]; [|contradiction]. apply (reset_ready s o triv S w (h_start h) v ws0 Hv). now apply Hd. }
  destruct (start s o triv S h v) as [v1|e]; cbn [bindR].
  - pose proof (solves_ready s o triv S w (h_start h) W (h_solves h) v1 Hs Hd) as L. destruct (solves s triv S (h_solves h) v1) as [[v2 lps]|e]; cbn [bindR fst snd].
    + destruct L as [R2 F]. specialize (IH (Some w) (Some v2) St (ready_set_up _ _ _ _ _ _ _ R2)). destruct (run s o triv S l (Some v2)) as [more|e]; cbn [bindR].
      * unfold all_solves. cbn [flat_map]. now apply Forall2_app.
      * destruct IH as (ws & e' & I & E). exists ws, e'. split; [|exact E]. unfold all_solves. cbn [flat_map]. apply in_app_iff. now right.
    + destruct L as (ws & e' & I & E). exists ws, e'. split; [|exact E]. unfold all_solves. cbn [flat_map]. apply in_app_iff. now left.
  - destruct Hs as [e' E]. exists ws0, e'. split; [|exact E]. unfold all_solves. cbn [flat_map]. apply in_app_iff. now left.
Qed.
