(** C118: a profile lists every node and component set up or reset once, with its own time, and profiling changes nothing. *)
From Verif Require Import Base Run_model Profile_model Profile_spec.
Local Open Scope nat_scope.
Local Open Scope list_scope.

Section proofs.
Variables (raises : call -> bool) (clock : nat -> nat -> Q).

Lemma perform_app profile a b p :
  perform raises clock profile (a ++ b) p =
  match perform raises clock profile a p with
  | (t, Some q) => let (t', r) := perform raises clock profile b q in (t ++ t', r)
  | (t, None) => (t, None)
  end.
Proof.
  revert p. induction a as [|x a IH]; intros p; cbn [perform app].
  - destruct (perform raises clock profile b p). reflexivity.
  - destruct x as [e|e|]; [|apply IH|apply IH]. destruct (raises e); [reflexivity|]. rewrite IH.
    destruct (perform raises clock profile a (called p)) as [t [q|]]; [|reflexivity]. destruct (perform raises clock profile b q). reflexivity.
Qed.

Definition calls_of (acts : list action) : list call := flat_map (fun a => match a with ACall e => [e] | _ => [] end) acts.
Lemma calls_loop l : calls_of (loop l) = l.
Proof. induction l as [|e l IH]; [reflexivity|]. cbn [loop calls_of flat_map app]. unfold loop, calls_of in IH. now rewrite IH. Qed.
Lemma calls_app a b : calls_of (a ++ b) = calls_of a ++ calls_of b.
Proof. apply flat_map_app. Qed.

(** Calls and exceptions do not depend on the profiler. *)
Lemma perform_calls profile acts p :
  fst (perform raises clock profile acts p) = fst (attempt raises (calls_of acts)) /\
  (snd (perform raises clock profile acts p) <> None <-> snd (attempt raises (calls_of acts)) = true).
Proof.
  revert p. induction acts as [|x acts IH]; intros p; [easy|]. destruct x as [e|e|]; cbn [perform calls_of flat_map app attempt]; [|apply IH|apply IH].
  destruct (raises e); [easy|]. fold (calls_of acts). specialize (IH (called p)). destruct (perform raises clock profile acts (called p)), (attempt raises (calls_of acts)).
  cbn [fst snd] in *. destruct IH as [-> IH]. easy.
Qed.

Lemma perform_loop l p q t : perform raises clock true (loop l) p = (t, Some q) ->
  p_entries q = p_entries p ++ map (fun j => Entry (nth j l Cyclic) (if j =? 0 then clock (p_calls p + 1) (p_reads p) - p_last p else clock (p_calls p + j + 1) (p_reads p + 2 * j) - clock (p_calls p + j) (p_reads p + 2 * j - 1))) (seq 0 (length l)) /\
  p_reads q = p_reads p + 2 * length l /\ p_calls q = p_calls p + length l.
Proof.
  revert p t. induction l as [|e l IH]; intros p t H.
  - cbn in H. assert (q = p) as -> by congruence. cbn. rewrite app_nil_r. split; [reflexivity|split; lia].
  - cbn [loop flat_map app perform] in H. destruct (raises e); [discriminate|]. fold (loop l) in H.
    destruct (perform raises clock true (loop l) (checkpoint clock e (called p))) as [t' r] eqn:E. assert (r = Some q) as -> by congruence.
    destruct (IH _ _ E) as [HE [HR HN]]. cbn [checkpoint restart called p_entries p_reads p_calls p_last] in HE, HR, HN. split; [|split].
    + rewrite HE, <- app_assoc. f_equal. cbn [length seq map app]. f_equal; [cbn [nth Nat.eqb]; do 3 f_equal; lia|]. rewrite <- seq_shift, map_map. apply map_ext. intros j.
      cbn [nth Nat.eqb]. f_equal. destruct j as [|j]; cbn [Nat.eqb]; (f_equal; f_equal; lia).
    + rewrite HR. cbn [length]. lia.
    + rewrite HN. cbn [length]. lia.
Qed.

(** A restart and a loop: one segment. *)
Lemma perform_segment l rest p q t : perform raises clock true (AStart :: loop l ++ rest) p = (t, Some q) ->
  exists t' p', perform raises clock true rest p' = (t', Some q) /\ p_reads p' = p_reads p + 2 * length l + 1 /\ p_calls p' = p_calls p + length l /\
    p_entries p' = p_entries p ++ map (fun j => Entry (nth j l Cyclic) (clock (p_calls p + j + 1) (p_reads p + 2 * j + 1) - clock (p_calls p + j) (p_reads p + 2 * j))) (seq 0 (length l)).
Proof.
  cbn [perform]. rewrite perform_app. destruct (perform raises clock true (loop l) (restart clock p)) as [t1 [p'|]] eqn:E; [|discriminate].
  destruct (perform raises clock true rest p') as [t' r] eqn:E'. intros H. assert (r = Some q) as -> by congruence.
  exists t', p'. split; [exact E'|]. destruct (perform_loop _ _ _ _ E) as [HE [HR HN]]. cbn [restart p_reads p_calls p_last p_entries] in HE, HR, HN.
  split; [lia|]. split; [lia|]. rewrite HE. f_equal. apply map_ext. intros j. f_equal. destruct (j =? 0) eqn:J.
  - apply Nat.eqb_eq in J. subst j. f_equal; f_equal; lia.
  - apply Nat.eqb_neq in J. f_equal; f_equal; lia.
Qed.
Lemma perform_last e p q t : perform raises clock true [ACall e] p = (t, Some q) -> q = called p.
Proof. cbn [perform]. destruct (raises e); congruence. Qed.
End proofs.

Lemma attempt_all {E} (raises : E -> bool) l : snd (attempt raises l) = true -> fst (attempt raises l) = l.
Proof.
  induction l as [|e l IH]; [reflexivity|]. cbn [attempt]. destruct (raises e); [discriminate|]. destruct (attempt raises l).
  cbn [fst snd] in *. intros H. now rewrite IH.
Qed.
Lemma attempt_app {E} (raises : E -> bool) a b :
  attempt raises (a ++ b) = if snd (attempt raises a) then (fst (attempt raises a) ++ fst (attempt raises b), snd (attempt raises b)) else attempt raises a.
Proof.
  induction a as [|e a IH]; cbn [app attempt]; [now destruct (attempt raises b)|]. destruct (raises e); [reflexivity|]. rewrite IH.
  destruct (attempt raises a) as [t []]; reflexivity.
Qed.
Lemma calls_start l : calls_of (AStart :: l) = calls_of l.
Proof. reflexivity. Qed.
Lemma calls_reset m flat : calls_of (reset_actions m flat) = reset_calls m flat.
Proof.
  unfold reset_actions, reset_calls. rewrite calls_start, calls_app, calls_loop, calls_start, calls_app, calls_loop. reflexivity.
Qed.
Definition first_calls (m : model) : list call :=
  map SetupNode (m_nodes m) ++ match m_tree m with None => [Cyclic] | Some flat => map SetupComponent flat ++ [SetupSolver] end.
Lemma calls_setup m : calls_of (setup_actions m) = first_calls m.
Proof.
  unfold setup_actions, first_calls. rewrite calls_start, calls_app, calls_loop.
  destruct (m_tree m); [rewrite calls_start, calls_app, calls_loop|]; reflexivity.
Qed.

(** The entries of a profiled reset that does not raise. *)
Lemma reset_entries raises clock c k m flat q t : perform (raising raises) clock true (reset_actions m flat) (Profiler c k 0 []) = (t, Some q) ->
  p_entries q = entries_of clock k [(c, map ResetNode (m_visible m)); (c + length (m_visible m), map ResetComponent flat)].
Proof.
  unfold reset_actions. intros E. apply perform_segment in E. destruct E as [t1 [p1 [E [R1 [N1 L1]]]]]. apply perform_segment in E. destruct E as [t2 [p2 [E [R2 [N2 L2]]]]].
  apply perform_last in E. subst q. cbn [called p_entries]. rewrite L2, L1, R1, N1. cbn [p_reads p_calls p_entries app entries_of]. rewrite app_nil_r, !map_length. reflexivity.
Qed.
Lemma setup_entries raises clock m flat q t : m_tree m = Some flat -> perform (raising raises) clock true (setup_actions m) (Profiler 0 0 0 []) = (t, Some q) ->
  p_entries q = entries_of clock 0 [(0, map SetupNode (m_nodes m)); (length (m_nodes m), map SetupComponent flat)] /\ p_reads q = 2 * length (m_nodes m) + 1 + 2 * length flat + 1 /\
  p_calls q = length (m_nodes m) + length flat + 1.
Proof.
  unfold setup_actions. intros -> E. apply perform_segment in E. destruct E as [t1 [p1 [E [R1 [N1 L1]]]]]. apply perform_segment in E. destruct E as [t2 [p2 [E [R2 [N2 L2]]]]].
  apply perform_last in E. subst q. cbn [called p_entries p_reads p_calls]. rewrite L2, L1, R2, R1, N2, N1. cbn [p_reads p_calls p_entries app entries_of]. rewrite app_nil_r, !map_length.
  split; [reflexivity|split; lia].
Qed.
Lemma entries_app clock k a b :
  entries_of clock k (a ++ b) = entries_of clock k a ++ entries_of clock (k + fold_right (fun s n => 2 * length (snd s) + 1 + n) 0 a) b.
Proof.
  revert k. induction a as [|[c s] a IH]; intros k; cbn [app entries_of fold_right snd]; [now rewrite Nat.add_0_r|]. rewrite IH, app_assoc. f_equal. f_equal. lia.
Qed.

(** Profiling changes neither the calls made nor whether there is an exception: with and without it setup makes the calls it should, and as
    long as nothing is written to a file it raises only if a hook does. *)
Theorem C118_transparent (raises : call -> bool) (clock : nat -> nat -> Q) (profile dump : bool) (m : model) :
  fst (fst (setup raises clock profile dump m)) = fst (attempt (raising raises) (setup_calls m)) /\
  (dump = false -> (snd (fst (setup raises clock profile dump m)) = Raises <-> snd (attempt (raising raises) (setup_calls m)) = false)).
Proof.
  pose proof (perform_calls (raising raises) clock profile (setup_actions m) (Profiler 0 0 0 [])) as [HC HS]. rewrite calls_setup in HC, HS.
  assert (ES : setup_calls m = first_calls m ++ match m_tree m with Some flat => reset_calls m flat | None => [] end).
  { unfold setup_calls, first_calls. destruct (m_tree m); rewrite ?app_nil_r, <- ?app_assoc; reflexivity. }
  rewrite ES, attempt_app. unfold setup.
  destruct (perform (raising raises) clock profile (setup_actions m) (Profiler 0 0 0 [])) as [t [q|]]; cbn [fst snd] in HC, HS.
  2:{ destruct (snd (attempt (raising raises) (first_calls m))) eqn:F; [destruct (proj2 HS eq_refl); reflexivity|]. cbn [fst snd]. rewrite F. split; [exact HC|easy]. }
  assert (F : snd (attempt (raising raises) (first_calls m)) = true) by (apply HS; discriminate). rewrite F.
  destruct (m_tree m) as [flat|] eqn:T.
  2:{ exfalso. unfold first_calls in F. rewrite T, attempt_app in F. destruct (snd (attempt (raising raises) (map SetupNode (m_nodes m)))) eqn:F2; [discriminate|congruence]. }
  unfold reset. pose proof (perform_calls (raising raises) clock profile (reset_actions m flat) (Profiler (p_calls q) (p_reads q) 0 [])) as [HC2 HS2]. rewrite calls_reset in HC2, HS2.
  destruct (perform (raising raises) clock profile (reset_actions m flat) (Profiler (p_calls q) (p_reads q) 0 [])) as [t2 [q2|]]; cbn [fst snd] in HC2, HS2 |- *.
  2:{ cbn [fst snd]. rewrite <- HC, <- HC2. split; [reflexivity|]. destruct (snd (attempt (raising raises) (reset_calls m flat))); [destruct (proj2 HS2 eq_refl); reflexivity|easy]. }
  assert (F2 : snd (attempt (raising raises) (reset_calls m flat)) = true) by (apply HS2; discriminate). rewrite F2, <- HC, <- HC2.
  destruct profile; cbn [fst snd]; [|easy]. destruct dump; [destruct (to_dataframe (p_entries q ++ p_entries q2))|]; easy.
Qed.
Print Assumptions C118_transparent.

(** C118: the profile of a setup has one entry for every node set up, component set up, visible node reset and component reset, in this
    order; the time of an entry is that between two readings directly around its call; what comes between the loops (building the component
    tree, the solver's setup) is in none of them. *)
Theorem C118_entries (raises : call -> bool) (clock : nat -> nat -> Q) (m : model) (flat : list nat) :
  m_tree m = Some flat -> snd (attempt (raising raises) (setup_calls m)) = true ->
  snd (fst (setup raises clock true false m)) = Returns (Some (entries_of clock 0 (setup_segments m flat))).
Proof.
  intros T H. destruct (C118_transparent raises clock true false m) as [_ HR]. specialize (HR eq_refl). revert HR. unfold setup.
  destruct (perform (raising raises) clock true (setup_actions m) (Profiler 0 0 0 [])) as [t [q|]] eqn:E; cbn [fst snd].
  2:{ intros HR. exfalso. assert (X : snd (attempt (raising raises) (setup_calls m)) = false) by now apply HR. congruence. }
  rewrite T. unfold reset. destruct (perform (raising raises) clock true (reset_actions m flat) (Profiler (p_calls q) (p_reads q) 0 [])) as [t2 [q2|]] eqn:E2; cbn [fst snd].
  2:{ intros HR. exfalso. assert (X : snd (attempt (raising raises) (setup_calls m)) = false) by now apply HR. congruence. }
  intros _. destruct (setup_entries _ _ _ _ _ _ T E) as [L [R NC]]. rewrite L, (reset_entries _ _ _ _ _ _ _ _ E2), R, NC.
  change (setup_segments m flat) with
    ([(0, map SetupNode (m_nodes m)); (length (m_nodes m), map SetupComponent flat)] ++
     [(length (m_nodes m) + length flat + 1, map ResetNode (m_visible m)); (length (m_nodes m) + length flat + 1 + length (m_visible m), map ResetComponent flat)]).
  rewrite entries_app. apply f_equal, f_equal. apply (f_equal (app _)). apply (f_equal (fun k => entries_of clock k _)). cbn [fold_right snd]. rewrite !map_length. lia.
Qed.
Print Assumptions C118_entries.

(** With a clock that does not go back no time is negative and together they are at most the time taken. *)
Fixpoint in_order (c : nat) (segments : list (nat * list call)) : Prop :=
  match segments with [] => True | (d, s) :: r => c <= d /\ in_order (d + length s) r end.
Theorem C118_times (clock : nat -> nat -> Q) (k c last : nat) (segments : list (nat * list call)) :
  (forall c c' k k', (c <= c')%nat -> (k <= k')%nat -> clock c k <= clock c' k')%Q ->
  in_order c segments -> (forall d s, In (d, s) segments -> d + length s <= last) -> c <= last ->
  let l := entries_of clock k segments in
  (forall e, In e l -> 0 <= e_time e)%Q /\
  (qsum (map e_time l) <= clock last (k + fold_right (fun s n => 2 * length (snd s) + 1 + n) 0 segments)%nat - clock c k)%Q.
Proof.
  intros M. revert k c. induction segments as [|[d s] r IH]; intros k c O B HL; cbn [entries_of fold_right snd].
  - split; [easy|]. cbn [map qsum]. pose proof (M c last k (k + 0)%nat HL ltac:(lia)). lra.
  - destruct O as [O1 O2]. pose proof (B d s (or_introl eq_refl)) as B1. destruct (IH (k + 2 * length s + 1) (d + length s) O2) as [IP IS]; [intros d' s' H; apply B; now right|exact B1|]. split.
    + intros e He. apply in_app_or in He. destruct He as [He|He]; [|now apply IP]. apply in_map_iff in He. destruct He as [j [<- _]]. cbn [e_time].
      assert (X : (clock (d + j)%nat (k + 2 * j)%nat <= clock (d + j + 1)%nat (k + 2 * j + 1)%nat)%Q) by (apply M; lia). lra.
    + rewrite map_app, qsum_app.
      assert (E : forall n, (qsum (map e_time (map (fun j => Entry (nth j s Cyclic) (clock (d + j + 1)%nat (k + 2 * j + 1)%nat - clock (d + j)%nat (k + 2 * j)%nat)) (seq 0 n))) <= clock (d + n)%nat (k + 2 * n)%nat - clock d k)%Q).
      { intros n. rewrite map_map. cbn [e_time]. clear -M. induction n as [|n IHn]; [cbn; rewrite !Nat.add_0_r; lra|].
        rewrite seq_S, map_app, qsum_app. cbn [map qsum Nat.add]. assert (M1 : (clock (d + n + 1)%nat (k + 2 * n + 1)%nat <= clock (d + S n)%nat (k + 2 * S n)%nat)%Q) by (apply M; lia). lra. }
      specialize (E (length s)).
      assert (M1 : (clock c k <= clock d k)%Q) by (apply M; lia). assert (M2 : (clock (d + length s)%nat (k + 2 * length s)%nat <= clock (d + length s)%nat (k + 2 * length s + 1)%nat)%Q) by (apply M; lia).
      replace (k + (2 * length s + 1 + fold_right (fun s n => 2 * length (snd s) + 1 + n) 0 r)) with (k + 2 * length s + 1 + fold_right (fun s n => 2 * length (snd s) + 1 + n) 0 r) by lia.
      lra.
Qed.
Print Assumptions C118_times.

(** A profiled reset: the visible nodes and the components; the same into the file. *)
Theorem C118_reset (raises : call -> bool) (clock : nat -> nat -> Q) (c k : nat) (m : model) (flat : list nat) :
  snd (attempt (raising raises) (reset_calls m flat)) = true -> m_visible m <> [] ->
  let l := entries_of clock k [(c, map ResetNode (m_visible m)); (c + length (m_visible m), map ResetComponent flat)] in
  reset raises clock true true c k m flat = (reset_calls m flat, Returns (Some l), Some l) /\ reset raises clock true false c k m flat = (reset_calls m flat, Returns (Some l), None).
Proof.
  intros H V l. unfold reset. pose proof (perform_calls (raising raises) clock true (reset_actions m flat) (Profiler c k 0 [])) as [HC HS]. rewrite calls_reset in HC, HS.
  destruct (perform (raising raises) clock true (reset_actions m flat) (Profiler c k 0 [])) as [t [q|]] eqn:E; cbn [fst snd] in HC, HS; [|now destruct (proj2 HS H)].
  rewrite (attempt_all _ _ H) in HC. subst t. rewrite (reset_entries _ _ _ _ _ _ _ _ E). fold l. split; [|reflexivity].
  replace (to_dataframe l) with (Some l); [reflexivity|]. unfold l. destruct (m_visible m); [easy|]. reflexivity.
Qed.
Print Assumptions C118_reset.

(** Writing the profile of a setup: the rows are the entries.  A model without nodes and components cannot be profiled into a file. *)
Theorem C118_dump (raises : call -> bool) (clock : nat -> nat -> Q) (m : model) (flat : list nat) :
  m_tree m = Some flat -> snd (attempt (raising raises) (setup_calls m)) = true ->
  let l := entries_of clock 0 (setup_segments m flat) in
  setup raises clock true true m = (setup_calls m, if l then Raises else Returns (Some l), match l with [] => None | _ => Some l end) /\
  (l = [] <-> m_nodes m = [] /\ m_visible m = [] /\ flat = []).
Proof.
  intros T H l. split.
  - destruct (C118_transparent raises clock true true m) as [HC _]. rewrite (attempt_all _ _ H) in HC.
    pose proof (C118_entries raises clock m flat T H) as HE. fold l in HE. revert HC HE. unfold setup.
    destruct (perform (raising raises) clock true (setup_actions m) (Profiler 0 0 0 [])) as [t [q|]]; rewrite ?T; [|discriminate].
    destruct (reset raises clock true false (p_calls q) (p_reads q) m flat) as [[t' [|[l'|]]] o]; cbn [fst snd]; [discriminate| |discriminate].
    intros HC HE. assert (E : p_entries q ++ l' = l) by congruence. rewrite E in HC |- *. destruct l as [|e l0]; cbn [to_dataframe fst] in HC |- *; congruence.
  - unfold l, setup_segments. cbn [entries_of]. rewrite !map_length. split.
    + intros E. apply app_eq_nil in E. destruct E as [E1 E]. apply app_eq_nil in E. destruct E as [E2 E]. apply app_eq_nil in E. destruct E as [E3 _].
      apply map_eq_nil in E1, E2, E3. destruct (m_nodes m); [|discriminate]. destruct flat; [|discriminate]. destruct (m_visible m); [|discriminate]. easy.
    + intros [-> [-> ->]]. reflexivity.
Qed.
Print Assumptions C118_dump.

(** A file for several models has the rows of each under its name; it cannot be written if one of them has none. *)
Theorem C118_multi (profiles : list (nat * list entry)) :
  (forall rows, multi_rows true true profiles = Some rows -> forall k e, In (k, e) rows <-> exists l, In (k, l) profiles /\ In e l) /\
  (multi_rows true true profiles = None <-> exists k, In (k, []) profiles).
Proof.
  unfold multi_rows. cbn [andb]. destruct profiles as [|p0 ps0] eqn:P.
  { split; [|split; [discriminate|intros [k []]]]. intros rows E k e. assert (rows = []) as -> by congruence. split; [easy|intros [l [[] _]]]. }
  rewrite <- P. clear P p0 ps0. destruct (forallb _ profiles) eqn:F.
  - split.
    + intros rows E k e. assert (E' : rows = flat_map (fun p => map (pair (fst p)) (snd p)) profiles) by congruence. rewrite E', in_flat_map. split.
      * intros [[k' l] [Hp He]]. cbn [fst snd] in He. apply in_map_iff in He. destruct He as [e' [Ee He]]. exists l. split; [|congruence]. replace k with k' by congruence. exact Hp.
      * intros [l [Hp He]]. exists (k, l). split; [exact Hp|]. cbn [fst snd]. now apply in_map.
    + split; [discriminate|]. intros [k Hk]. rewrite forallb_forall in F. specialize (F _ Hk). discriminate.
  - split; [discriminate|]. split; [intros _|reflexivity]. clear -F. induction profiles as [|[k l] ps IH]; [discriminate|]. cbn [forallb snd] in F.
    destruct l as [|e l]; [exists k; now left|]. cbn [to_dataframe andb] in F. destruct (IH F) as [k' Hk]. exists k'. now right.
Qed.
Print Assumptions C118_multi.

Example profile_example :
  let m := Model [0; 1; 2] [0; 2] (Some [5]) [] true true (fun _ => true) in
  let clock c k := inject_Z (Z.of_nat (k * k + 100 * c)) in
  fst (setup (fun _ => false) clock true false m) =
  ([SetupNode 0; SetupNode 1; SetupNode 2; SetupComponent 5; SetupSolver; ResetNode 0; ResetNode 2; ResetComponent 5; ResetSolver],
   Returns (Some (map (fun p => Entry (fst p) (snd p)) [(SetupNode 0, 101); (SetupNode 1, 105); (SetupNode 2, 109); (SetupComponent 5, 115); (ResetNode 0, 121); (ResetNode 2, 125); (ResetComponent 5, 131)])))%Q.
Proof. vm_compute. reflexivity. Qed.
