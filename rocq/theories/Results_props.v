(** C101: what TablesRecorder and CSVRecorder write. *)
From Coq Require Import Ascii String.
From Verif Require Import Base Ring Eval_proofs Tables_model Tables_proofs Results_model Results_proofs.
Local Open Scope nat_scope.
Local Open Scope list_scope.

(** The file as it was set up for [T] timesteps, or as a number of complete runs of [T] timesteps have left it. *)
Inductive results_file {A} refused o kind_of (zero : A) T items : @file A -> Prop :=
| Fresh f : results_setup refused o (repeat zero T) items = Some f -> results_file refused o kind_of zero T items f
| Again f f' rs : results_file refused o kind_of zero T items f -> List.length rs = T ->
    results_run refused o kind_of items f rs = Some f' -> results_file refused o kind_of zero T items f'.

Lemma results_file_holds A refused o kind_of (zero : A) T items f :
  results_file refused o kind_of zero T items f -> holds_items refused o T items f.
Proof.
  intros H. induction H as [f S|f f' rs H IH L R].
  - destruct (setup_holds refused o _ items f S) as [ND K]. split; [exact ND|]. intros w ob I. destruct (K w ob I) as [p [P Lk]]. exists p. split; [exact P|].
    right. eexists. split; [exact Lk|]. apply repeat_length.
  - exact (run_holds refused o kind_of T items f f' rs IH L R).
Qed.

(** What is recorded of an object: the volume of a storage, the flow of another node, the index of an index parameter, the value of another parameter. *)
Inductive recorded {A} (kind_of : nat -> kind) (ob : nat) (r : @readings A) : A -> Prop :=
| OfStorage : kind_of ob = KStorage -> recorded kind_of ob r (volume r ob)
| OfNode : kind_of ob = KNode -> recorded kind_of ob r (flow r ob)
| OfIndex : kind_of ob = KIndexParameter -> recorded kind_of ob r (index r ob)
| OfParameter : kind_of ob = KParameter -> recorded kind_of ob r (value r ob).
Lemma reading_recorded A kind_of ob : forall (rs : list (@readings A)) rows, map Some rows = map (fun r => reading kind_of r ob) rs -> Forall2 (recorded kind_of ob) rs rows.
Proof.
  induction rs as [|r rs IH]; intros [|v rows] E; cbn [map] in E; try discriminate; [constructor|]. injection E as E1 E2. constructor; [|now apply IH].
  unfold reading in E1. destruct (kind_of ob) eqn:K; try discriminate E1; injection E1 as ->; now constructor.
Qed.

(** C101: after a complete run, be it the first or not, the array at the path of a recorded object has in row [i] the volume (flow,
    index, value, according to its type) of the object in timestep [i] of that run.  The object must not appear a second time
    further on in the list.  *)
Lemma arrays_read : forall A refused o kind_of (zero : A) T items f rs f',
  results_file refused o kind_of zero T items f -> List.length rs = T -> 0 < T ->
  results_run refused o kind_of items f rs = Some f' ->
  forall l1 w ob l2, items = l1 ++ (w, ob) :: l2 -> ~ In ob (map snd l2) ->
  exists p rows, path_of refused w = Some p /\ look f' p = Some (Array rows) /\ map Some rows = map (fun r => reading kind_of r ob) rs.
Proof.
  intros A refused o kind_of zero T items f rs f' H LT TP R l1 w ob l2 E NI.
  destruct (results_file_holds A refused o kind_of zero T items f H) as [ND HI].
  unfold results_run in R. destruct (results_reset refused o items f) as [[f1 arrays]|] eqn:RS; [|discriminate].
  destruct (reset_ok refused o items f f1 arrays RS) as [G [K1 K2]]. pose proof (arrays_paths refused f items arrays G ND) as NDp.
  assert (I : In (w, ob) items) by (rewrite E; apply in_or_app; right; now left).
  destruct (HI w ob I) as [p [P X]]. destruct (get_arrays_ok refused f items [] arrays G (NoDup_nil _)) as [_ C].
  assert (IA : In (ob, p) arrays) by (apply C; right; now exists l1, w, l2).
  destruct (steps_ok refused o kind_of arrays NDp rs f1 f' 0 R) as [_ [J _]].
  destruct (J ob p IA ltac:(intros ->; cbn in LT; lia)) as [NT [rows [vs [F1 [F2 F3]]]]].
  destruct X as [X|[rows' [L LR]]]; [congruence|]. rewrite (K1 p NT), L in F1. injection F1 as ->.
  assert (LV : List.length vs = T) by (apply (f_equal (@List.length _)) in F2; rewrite !map_length in F2; lia).
  exists p, vs. split; [exact P|]. split; [|exact F2]. rewrite F3. do 2 f_equal. apply Eval_proofs.nth_error_ext. intros i. rewrite write_nth by lia.
  cbn [Nat.leb andb Nat.add]. rewrite Nat.sub_0_r. destruct (Nat.ltb_spec i (List.length vs)) as [Hi|Hi]; [reflexivity|].
  transitivity (@None A); [apply nth_error_None; lia|symmetry; apply nth_error_None; lia].
Qed.
Theorem C101_arrays_partial : forall A refused o kind_of (zero : A) T items f rs f',
  results_file refused o kind_of zero T items f -> List.length rs = T -> 0 < T ->
  results_run refused o kind_of items f rs = Some f' ->
  forall l1 w ob l2, items = l1 ++ (w, ob) :: l2 -> ~ In ob (map snd l2) ->
  exists p rows, path_of refused w = Some p /\ look f' p = Some (Array rows) /\ Forall2 (recorded kind_of ob) rs rows.
Proof.
  intros A refused o kind_of zero T items f rs f' H LT TP R l1 w ob l2 E NI.
  destruct (arrays_read A refused o kind_of zero T items f rs f' H LT TP R l1 w ob l2 E NI) as (p & rows & P & L & M).
  exists p, rows. split; [exact P|]. split; [exact L|]. now apply reading_recorded.
Qed.
Print Assumptions C101_arrays_partial.

(** C101: the time table has one row per timestep of the run, however often the model was run. *)
Theorem C101_time : forall A refused o kind_of (zero : A) T items f rs f' w,
  results_file refused o kind_of zero T items f -> List.length rs = T -> 0 < T ->
  results_run refused o kind_of items f rs = Some f' -> o_time o = Some w ->
  exists p, path_of refused w = Some p /\ look f' p = Some (Time (seq 0 T)).
Proof.
  intros A refused o kind_of zero T items f rs f' w H LT TP R W.
  destruct (results_file_holds A refused o kind_of zero T items f H) as [ND HI].
  unfold results_run in R. destruct (results_reset refused o items f) as [[f1 arrays]|] eqn:RS; [|discriminate].
  destruct (reset_ok refused o items f f1 arrays RS) as [G [K1 K2]]. pose proof (arrays_paths refused f items arrays G ND) as NDp.
  destruct (steps_ok refused o kind_of arrays NDp rs f1 f' 0 R) as [_ [_ J]].
  destruct (J w W ltac:(intros ->; cbn in LT; lia)) as [p [l [P [L L']]]]. destruct (K2 w W) as [p' [P' L'']]. exists p. split; [exact P|].
  assert (p' = p) by congruence. subst p'. assert (l = []) by congruence. subst l. rewrite L', LT. reflexivity.
Qed.
Print Assumptions C101_time.

(** * The names of the arrays *)

(** A name that can be used as it is. *)
Definition plain (refused : name -> bool) (n : name) : Prop := n <> [] /\ refused n = false /\ ~ In slash n.

Lemma is_slash_false n : ~ In slash n -> forall c, In c n -> is_slash c = false.
Proof. intros N c I. unfold is_slash. destruct (ascii_dec c slash) as [->|]; [contradiction|reflexivity]. Qed.

Lemma replace2_plain n : ~ In slash n -> replace2 n = n.
Proof.
  intros N. pose proof (is_slash_false n N) as H. clear N. induction n as [|a n IH]; [reflexivity|]. cbn [replace2]. destruct n as [|b n]; [reflexivity|].
  rewrite (H a (or_introl eq_refl)). cbn [andb]. f_equal. apply IH. intros c I. apply H. now right.
Qed.

Lemma split_plain n : ~ In slash n -> split n = [n].
Proof.
  intros N. pose proof (is_slash_false n N) as H. clear N. induction n as [|a n IH]; [reflexivity|]. cbn [split].
  rewrite (H a (or_introl eq_refl)), IH by (intros c I; apply H; now right). reflexivity.
Qed.

Lemma path_plain refused n : plain refused n -> path_of refused (slash :: n) = Some [n].
Proof.
  intros [N0 [NR NS]]. unfold path_of. cbn [split]. change (is_slash slash) with true. cbv iota. rewrite (split_plain n NS). cbn [forallb].
  destruct (name_eqbP n []); [contradiction|]. rewrite NR. reflexivity.
Qed.

(** Recording everything at the root, the default: recorders.py:425-430. *)
Definition all_items (nodes : list (name * nat)) : list (name * nat) :=
  map (fun i => (replace2 (str "/" ++ str "/" ++ fst i), snd i)) nodes.

Lemma all_items_path refused n : plain refused n -> path_of refused (replace2 (str "/" ++ str "/" ++ n)) = Some [n].
Proof.
  intros P. cbn [app str list_ascii_of_string]. cbn [replace2]. change (is_slash "/"%char) with true. cbn [andb].
  rewrite replace2_plain by apply P. apply path_plain. exact P.
Qed.

Lemma create_arrays_plain A refused (zeros : list A) : forall nodes (f : file),
  (forall n o, In (n, o) nodes -> plain refused n) -> NoDup (map fst nodes) ->
  (forall n, In n (map fst nodes) -> ~ In [n] (map fst f)) -> (forall p, In p (map fst f) -> exists n, p = [n]) ->
  create_arrays refused f zeros (all_items nodes) = Some (f ++ map (fun i => ([fst i], Array zeros)) nodes).
Proof.
  induction nodes as [|[n o] nodes IH]; intros f P ND NI S; [cbn; now rewrite app_nil_r|].
  cbn [all_items map fst snd create_arrays]. rewrite all_items_path by (apply (P n o); now left). cbn [map fst] in ND. inversion ND as [|x l N ND' E]; subst.
  unfold create. replace (existsb _ f) with false.
  - rewrite IH; [rewrite <- app_assoc; reflexivity| | | |].
    + intros n' o' I. apply (P n' o'). now right.
    + exact ND'.
    + intros n' I. rewrite map_app. intros J. apply in_app_or in J as [J|J]; [exact (NI n' (or_intror I) J)|].
      cbn in J. destruct J as [J|[]]. injection J as <-. contradiction.
    + intros p I. rewrite map_app in I. apply in_app_or in I as [I|[I|[]]]; [apply S; exact I|]. exists n. now symmetry.
  - symmetry. match goal with |- context [existsb ?g f] => destruct (existsb g f) eqn:X end; [|reflexivity]. exfalso. apply existsb_exists in X as [[p l] [I X]]. cbn [fst] in X.
    assert (IM : In p (map fst f)) by (apply in_map_iff; now exists (p, l)). destruct (S p IM) as [m ->]. cbn [prefix] in X.
    apply (NI n (or_introl eq_refl)). rewrite !andb_true_r in X. destruct (name_eqbP m n) as [->|N1]; [exact IM|]. destruct (name_eqbP n m) as [->|N2]; [exact IM|discriminate].
Qed.

(** A path of plain names, each with a "/" before it. *)
Definition written (p : path) : name := concat (map (cons slash) p).
Lemma split_app n s : ~ In slash n -> split (n ++ slash :: s) = n :: split s.
Proof.
  intros N. pose proof (is_slash_false n N) as H. clear N. induction n as [|a n IH]; [reflexivity|]. cbn [app split].
  rewrite (H a (or_introl eq_refl)), IH by (intros c I; apply H; now right). reflexivity.
Qed.
Lemma split_written p : (forall n, In n p -> ~ In slash n) -> split (written p) = [] :: p.
Proof.
  induction p as [|n p IH]; intros H; [reflexivity|]. unfold written. cbn [map concat app split]. change (is_slash slash) with true. cbv iota. f_equal.
  assert (IH' := IH (fun n I => H n (or_intror I))). assert (Hn := H n (or_introl eq_refl)). clear IH H. destruct p as [|m p].
  - cbn [map concat]. rewrite app_nil_r. now apply split_plain.
  - unfold written in IH'. cbn [map concat app split] in *. change (is_slash slash) with true in IH'. cbv iota in IH'.
    rewrite split_app by exact Hn. f_equal. congruence.
Qed.
Lemma beside_written g n x : (forall m, In m (g ++ [n]) -> ~ In slash m) -> beside (written (g ++ [n])) x = written g ++ slash :: x.
Proof.
  intros H. unfold beside. rewrite split_written by exact H. change ([] :: g ++ [n]) with (([] :: g) ++ [n]). rewrite rev_app_distr. cbn [rev app].
  rewrite rev_app_distr, rev_involutive. cbn [rev app map concat]. unfold written. clear H. induction g as [|m g IH]; [reflexivity|].
  cbn [map concat app] in *. rewrite <- !app_assoc. cbn [app]. apply (f_equal (cons slash)). apply (f_equal (app m)). exact IH.
Qed.

(** C101: the table of the scenarios is where it was asked for, and that of the user's combinations or slices is in the same group. *)
Theorem C101_scenario_tables : forall A refused o (zeros : list A) items f g n x,
  o_scenarios o = Some (written (g ++ [n])) -> o_beside o = Some x -> (forall m, In m (x :: g ++ [n]) -> ~ In slash m) ->
  results_setup refused o zeros items = Some f ->
  look f (g ++ [n]) = Some Other /\ look f (g ++ [x]) = Some Other.
Proof.
  intros A refused o zeros items f g n x Ho Hb NS S. unfold results_setup in S. destruct (create_arrays refused [] zeros items) as [f0|]; [|discriminate].
  rewrite Ho, Hb in S. unfold create_at in S.
  assert (P : forall q, (forall m, In m q -> ~ In slash m) -> forall r, path_of refused (written q) = Some r -> r = q).
  { intros q Hq r. unfold path_of. rewrite split_written by exact Hq. destruct (forallb _ q); [|discriminate]. destruct q; congruence. }
  assert (Hg : forall m, In m (g ++ [n]) -> ~ In slash m) by (intros m I; apply NS; now right).
  assert (Hx : forall m, In m (g ++ [x]) -> ~ In slash m).
  { intros m I. apply in_app_or in I as [I|[<-|[]]]; apply NS; [right; apply in_or_app; now left|now left]. }
  destruct (path_of refused (written (g ++ [n]))) as [r|] eqn:E1; [|discriminate]. apply P in E1; [subst r|exact Hg].
  destruct (create f0 (g ++ [n]) Other) as [f1|] eqn:C1; [|discriminate].
  rewrite beside_written in S by exact Hg.
  replace (written g ++ slash :: x) with (written (g ++ [x])) in S by (unfold written; rewrite map_app, concat_app; cbn [map concat]; now rewrite app_nil_r).
  destruct (path_of refused (written (g ++ [x]))) as [r|] eqn:E2; [|discriminate]. apply P in E2; [subst r|exact Hx].
  destruct (look_create _ _ _ _ C1) as [_ L1]. destruct (look_create _ _ _ _ S) as [N2 L2]. rewrite !L2, path_eqb_refl. split; [|reflexivity].
  destruct (path_eqbP (g ++ [x]) (g ++ [n])); [reflexivity|]. rewrite L1, path_eqb_refl. reflexivity.
Qed.
Print Assumptions C101_scenario_tables.
Example C101_scenario_tables_example : exists f, results_setup (fun _ => false) (Options None (Some (str "/a/b/scenarios")) (Some (str "scenario_combinations"))) [0; 0] [(str "/a/n", 1)] = Some f /\
  look f [str "a"; str "b"; str "scenario_combinations"] = Some Other.
Proof. eexists. split; vm_compute; reflexivity. Qed.

(** C101: by default (all nodes, root group, time and scenario tables) the recorder works for every model whose nodes have distinct names
    without "/" that are neither "time" nor "scenarios" nor refused by PyTables; the array of a node has its name, and there is
    nothing else in the file. *)
Theorem C101_all_nodes : forall A refused kind_of (zero : A) nodes rs,
  (forall n o, In (n, o) nodes -> plain refused n /\ n <> str "time" /\ n <> str "scenarios" /\ kind_of o <> KUnknown) ->
  refused (str "time") = false -> refused (str "scenarios") = false ->
  NoDup (map fst nodes) -> NoDup (map snd nodes) -> rs <> [] ->
  let o := Options (Some (str "/time")) (Some (str "/scenarios")) None in
  exists f, results refused o kind_of zero (all_items nodes) rs = Some f /\
    (forall n ob, In (n, ob) nodes -> exists rows, look f [n] = Some (Array rows) /\ Forall2 (recorded kind_of ob) rs rows) /\
    (forall p, look f p <> None <-> p = [str "time"] \/ p = [str "scenarios"] \/ exists n, In n (map fst nodes) /\ p = [n]).
Proof.
  intros A refused kind_of zero nodes rs HN RT RC ND NDo R0 o.
  set (zeros := repeat zero (List.length rs)).
  assert (PT : path_of refused (str "/time") = Some [str "time"]).
  { apply (path_plain refused (str "time")). split; [discriminate|]. split; [exact RT|]. cbn. intuition discriminate. }
  assert (PS : path_of refused (str "/scenarios") = Some [str "scenarios"]).
  { apply (path_plain refused (str "scenarios")). split; [discriminate|]. split; [exact RC|]. cbn. intuition discriminate. }
  assert (CA := create_arrays_plain A refused zeros nodes [] (fun n ob I => proj1 (HN n ob I)) ND (fun n _ X => X) (fun p X => match X with end)).
  cbn [app] in CA. set (f0 := map (fun i : name * nat => ([fst i], Array zeros)) nodes) in *.
  assert (LK0 : forall q, look f0 q <> None <-> exists n, In n (map fst nodes) /\ q = [n]).
  { intros q. unfold look, f0. clear. induction nodes as [|[n ob] nodes IH]; cbn [map find fst].
    - cbn. split; [intros H; now destruct H|intros [n [[] _]]].
    - destruct (path_eqbP [n] q) as [<-|N].
      + cbn. split; [intros _; exists n; split; [now left|reflexivity]|discriminate].
      + rewrite IH. split; intros [m [I E]]; exists m; (split; [|exact E]); [now right|]. destruct I as [I|I]; [congruence|exact I]. }
  assert (CR : forall (f : @file A) m l, (forall p, In p (map fst f) -> exists n, p = [n]) -> look f [m] = None -> create f [m] l = Some (f ++ [([m], l)])).
  { intros f m l S L. unfold create. replace (existsb _ f) with false; [reflexivity|]. symmetry.
    match goal with |- context [existsb ?g f] => destruct (existsb g f) eqn:X end; [|reflexivity]. exfalso. apply existsb_exists in X as [[p l'] [I X]]. cbn [fst] in X.
    assert (IM : In p (map fst f)) by (apply in_map_iff; now exists (p, l')). destruct (S p IM) as [k ->]. cbn [prefix] in X. rewrite !andb_true_r in X.
    assert (k = m) by (destruct (name_eqbP k m); [assumption|destruct (name_eqbP m k); [now symmetry|discriminate]]). subst k.
    unfold look in L. destruct (find (fun e => path_eqb (fst e) [m]) f) eqn:FD; [discriminate|]. apply (find_none _ _ FD) in I. cbn [fst] in I. rewrite path_eqb_refl in I. discriminate. }
  assert (S0 : forall p, In p (map fst f0) -> exists n, p = [n]).
  { intros p I. unfold f0 in I. rewrite map_map in I. apply in_map_iff in I as [[n ob] [<- _]]. now exists n. }
  assert (NF : forall m, (forall n ob, In (n, ob) nodes -> n <> m) -> look f0 [m] = None).
  { intros m N. destruct (look f0 [m]) eqn:L; [|reflexivity]. destruct (proj1 (LK0 [m]) ltac:(congruence)) as [n [I E]]. injection E as <-.
    apply in_map_iff in I as [[n' ob] [E I]]. cbn in E. subst n'. now destruct (N m ob I). }
  set (f1 := f0 ++ [([str "scenarios"], Other)]).
  assert (SU : results_setup refused o zeros (all_items nodes) = Some f1).
  { unfold results_setup. rewrite CA. cbn [o o_scenarios o_beside create_at]. rewrite PS, (CR f0 _ _ S0); [reflexivity|]. apply NF. intros n ob I. apply (HN n ob I). }
  assert (S1 : forall p, In p (map fst f1) -> exists n, p = [n]).
  { intros p I. unfold f1 in I. rewrite map_app in I. apply in_app_or in I as [I|[<-|[]]]; [apply S0; exact I|]. now eexists. }
  assert (LT1 : look f1 [str "time"] = None).
  { unfold f1. rewrite look_app, NF by (intros n ob I; apply (HN n ob I)). destruct (path_eqbP [str "scenarios"] [str "time"]) as [E|E]; [discriminate|reflexivity]. }
  destruct (setup_holds refused o zeros (all_items nodes) f1 SU) as [NDP HI].
  destruct (get_arrays_total refused f1 (all_items nodes) []) as [arrays G].
  { intros w ob I. destruct (HI w ob I) as [p [P L]]. now exists p, (Array zeros). }
  set (f2 := f1 ++ [([str "time"], Time [])]).
  assert (NX : existsb (fun e : path * leaf => prefix [str "time"] (fst e)) f1 = false).
  { destruct (existsb (fun e : path * leaf => prefix [str "time"] (fst e)) f1) eqn:X; [|reflexivity]. exfalso. apply existsb_exists in X as [[p l'] [I X]]. cbn [fst] in X.
    assert (IM : In p (map fst f1)) by (apply in_map_iff; now exists (p, l')). destruct (S1 p IM) as [k ->]. cbn [prefix] in X. rewrite andb_true_r in X.
    destruct (name_eqbP (str "time") k) as [<-|]; [|discriminate].
    unfold look in LT1. destruct (find (fun e => path_eqb (fst e) [str "time"]) f1) eqn:FD; [discriminate|]. apply (find_none _ _ FD) in I. cbn [fst] in I. rewrite path_eqb_refl in I. discriminate. }
  assert (RS : results_reset refused o (all_items nodes) f1 = Some (f2, arrays)).
  { unfold results_reset. rewrite G. cbn [o o_time]. rewrite PT. unfold remove. rewrite LT1.
    rewrite NX. cbv iota. rewrite (CR f1 _ _ S1 LT1). reflexivity. }
  pose proof (arrays_paths refused f1 (all_items nodes) arrays G NDP) as NDp.
  destruct (get_arrays_ok refused f1 (all_items nodes) [] arrays G (NoDup_nil _)) as [_ C].
  assert (LK2 : forall q, look f2 q = if path_eqb [str "time"] q then Some (Time []) else look f1 q).
  { intros q. unfold f2. rewrite look_app. destruct (path_eqbP [str "time"] q) as [<-|]; [rewrite LT1; reflexivity|]. destruct (look f1 q); reflexivity. }
  assert (LK1 : forall q, look f1 q <> None <-> q = [str "scenarios"] \/ exists n, In n (map fst nodes) /\ q = [n]).
  { intros q. unfold f1. rewrite look_app. specialize (LK0 q). destruct (look f0 q) as [x|].
    - split; [intros _; right; apply LK0; discriminate|discriminate].
    - destruct (path_eqbP [str "scenarios"] q) as [<-|N]; split.
      + intros _. now left.
      + intros _ X. discriminate X.
      + intros X. congruence.
      + intros [E|E]; [congruence|apply LK0 in E; congruence]. }
  assert (AP : forall ob p, In (ob, p) arrays -> kind_of ob <> KUnknown /\ p <> [str "time"] /\ look f1 p = Some (Array zeros) /\ exists n, In n (map fst nodes) /\ p = [n]).
  { intros ob p I. apply C in I as [[[] _]|[l1 [w [l2 [E [P _]]]]]]. assert (I : In (w, ob) (all_items nodes)) by (rewrite E; apply in_or_app; right; now left).
    destruct (HI w ob I) as [p' [P' L]]. assert (p' = p) by congruence. subst p'. unfold all_items in I. apply in_map_iff in I as [[n ob'] [E2 I]]. cbn [fst snd] in E2.
    pose proof (f_equal fst E2) as Ew. pose proof (f_equal snd E2) as Eo. cbn [fst snd] in Ew, Eo. clear E2. subst ob.
    destruct (HN n ob' I) as [PL [N1 [N2 K]]]. rewrite <- Ew, all_items_path in P by exact PL. injection P as <-. split; [exact K|]. split; [congruence|].
    split; [exact L|]. exists n. split; [apply in_map_iff; now exists (n, ob')|reflexivity]. }
  assert (TOT : forall rs (f : @file A) idx, (exists l, look f [str "time"] = Some (Time l)) -> (forall ob p, In (ob, p) arrays -> exists rows, look f p = Some (Array rows)) ->
    exists f', results_steps refused o kind_of f arrays idx rs = Some f').
  { clear R0 RS LK2 f2. clear - AP PT NDp. intros rs0. induction rs0 as [|r rs0 IH]; intros f idx [l LT] LA; [eexists; reflexivity|]. cbn [results_steps].
    unfold results_after. cbn [o o_time]. rewrite PT, LT.
    destruct (write_rows_total kind_of r idx arrays (put f [str "time"] (Time (l ++ [idx])))) as [f' W].
    { intros ob p I. split; [apply (AP ob p I)|]. rewrite look_put. destruct (path_eqbP [str "time"] p) as [<-|]; [now destruct (proj1 (proj2 (AP ob _ I)))|apply (LA ob p I)]. }
    rewrite W. destruct (write_rows_ok kind_of r idx arrays _ f' NDp W) as [K1 K2]. apply IH.
    - exists (l ++ [idx]). rewrite K1; [rewrite look_put, path_eqb_refl, LT; reflexivity|]. intros I. apply in_map_iff in I as [[ob p] [E I]]. cbn in E. subst p.
      now destruct (proj1 (proj2 (AP ob _ I))).
    - intros ob p I. destruct (K2 ob p I) as [rows [v [_ [_ L]]]]. eexists. exact L. }
  destruct (TOT rs f2 0) as [f' R].
  { exists []. rewrite LK2, path_eqb_refl. reflexivity. }
  { intros ob p I. destruct (AP ob p I) as [_ [N [L _]]]. exists zeros. rewrite LK2. destruct (path_eqbP [str "time"] p) as [<-|]; [congruence|exact L]. }
  exists f'. assert (RR : results_run refused o kind_of (all_items nodes) f1 rs = Some f') by (unfold results_run; rewrite RS; exact R).
  split; [unfold results; fold zeros; rewrite SU; exact RR|]. split.
  - intros n ob I. assert (IW : In (replace2 (str "/" ++ str "/" ++ n), ob) (all_items nodes)) by (unfold all_items; apply in_map_iff; now exists (n, ob)).
    apply in_split in IW as [l1 [l2 E]]. assert (NI : ~ In ob (map snd l2)).
    { intros X. assert (M : map snd (all_items nodes) = map snd nodes) by (unfold all_items; rewrite map_map; reflexivity).
      rewrite <- M, E, map_app in NDo. cbn [map snd] in NDo. apply NoDup_remove_2 in NDo. apply NDo. apply in_or_app. now right. }
    destruct (C101_arrays_partial A refused o kind_of zero (List.length rs) (all_items nodes) f1 rs f' (Fresh _ _ _ _ _ _ f1 SU) eq_refl
      ltac:(destruct rs; [congruence|cbn; lia]) RR l1 _ ob l2 E NI) as [p [rows [P [L M]]]].
    exists rows. rewrite all_items_path in P by (apply (HN n ob I)). injection P as <-. now split.
  - destruct (steps_ok refused o kind_of arrays NDp rs f2 f' 0 R) as [J1 [J2 J3]].
    destruct (J3 (str "/time") eq_refl R0) as [pt [l [P [_ LT]]]]. assert (EP : pt = [str "time"]) by congruence. subst pt.
    intros p. destruct (path_eqbP [str "time"] p) as [<-|NT]; [rewrite LT; split; [now left|discriminate]|].
    destruct (in_dec (list_eq_dec (list_eq_dec ascii_dec)) p (map snd arrays)) as [IA|IA].
    + apply in_map_iff in IA as [[ob p'] [E IA]]. cbn in E. subst p'. destruct (J2 ob p IA R0) as [_ [rows [vs [_ [_ L]]]]].
      rewrite L. split; [intros _; right; right; apply (AP ob p IA)|discriminate].
    + rewrite J1; [|exact IA|unfold time_path; cbn [o o_time]; rewrite PT; congruence]. rewrite LK2. destruct (path_eqbP [str "time"] p); [congruence|].
      rewrite LK1. intuition congruence.
Qed.
Print Assumptions C101_all_nodes.

(** * Names that do not work *)

(** C101: a node given by name is recorded under this name, unless the name has two characters. *)
Theorem C101_named : forall refused find n o, plain refused n -> find n = Some o -> List.length n <> 2 ->
  exists w, node_item (str "/") find (Named n) = Some (w, o) /\ path_of refused w = Some [n].
Proof.
  intros refused find n o P F L. exists (replace2 (str "/" ++ str "/" ++ n)). split; [|apply all_items_path; exact P].
  unfold node_item. replace (unpack (Named n)) with (Named n) by (destruct n as [|a [|b [|c n]]]; try reflexivity; now destruct L).
  cbn [option_map]. rewrite F. reflexivity.
Qed.
Print Assumptions C101_named.

(** C101: a parameter is recorded under its name with underscores for slashes, given by name or as an object. *)
Definition translated : name -> name -> Prop := Forall2 (fun c d => c = "/"%char /\ d = "_"%char \/ c <> "/"%char /\ d = c).
Theorem C101_parameter : forall refused find name_of o n p, name_of o = n -> find n = Some o -> List.length n <> 2 -> translated n p -> plain refused p ->
  exists w, parameter_item (str "/") find name_of (Named n) = Some (w, o) /\ parameter_item (str "/") find name_of (Object o) = Some (w, o) /\ path_of refused w = Some [p].
Proof.
  intros refused find name_of o n p N F L T P. exists (replace2 (str "/" ++ str "/" ++ p)).
  assert (U : underscored n = p).
  { clear - T. induction T as [|c d n p H T IH]; [reflexivity|]. unfold underscored in *. cbn [map]. rewrite IH. f_equal. unfold is_slash, slash.
    destruct (ascii_dec c "/"%char) as [->|NE]; destruct H as [[Y ->]|[X ->]]; congruence. }
  assert (Z : name_eqb (name_of o) [] = false).
  { rewrite N. unfold name_eqb. destruct (list_eq_dec ascii_dec n []) as [->|]; [exfalso|reflexivity]. inversion T; subst. now destruct P as [P _]. }
  unfold parameter_item. replace (unpack (Named n)) with (Named n) by (destruct n as [|a [|b [|c n]]]; try reflexivity; now destruct L).
  cbn [unpack]. rewrite F, Z, N, U. repeat split. now apply all_items_path.
Qed.
Print Assumptions C101_parameter.
Example C101_parameter_example : forall find, find (str "a/b/c") = Some 3 ->
  option_map (fun p => path_of (fun _ => false) (fst p)) (parameter_item (str "/") find (fun _ => str "a/b/c") (Named (str "a/b/c"))) = Some (Some [str "a_b_c"]).
Proof. intros find F. cbn -[str]. change (find (str "a/b/c")) with (find (str "a/b/c")). vm_compute in F |- *. rewrite F. reflexivity. Qed.

(** C101 fails for two characters, whatever the names in the model: the entry is taken as a pair of a path and a name. *)
Theorem C101_two_characters_refuted : forall refused where_ find a b,
  match node_item where_ find (Named [a; b]) with None => True | Some (w, _) => path_of refused w = None end.
Proof.
  intros refused where_ find a b. unfold node_item. cbn [unpack]. destruct (find [b]) as [o|]; cbn [option_map]; [|exact I].
  cbn [replace2]. unfold path_of. cbn [split]. destruct (is_slash a); reflexivity.
Qed.
Print Assumptions C101_two_characters_refuted.

(** C101 fails for node objects, which the documentation allows. *)
Theorem C101_objects_refuted : forall where_ find o, node_item where_ find (Object o) = None.
Proof. reflexivity. Qed.
Print Assumptions C101_objects_refuted.

(** C101 fails for an object recorded at two paths: the first array is never written. *)
Theorem C101_twice_refuted : forall A refused o kind_of (zero : A) T items f rs f',
  results_setup refused o (repeat zero T) items = Some f -> List.length rs = T ->
  results_run refused o kind_of items f rs = Some f' ->
  forall l1 w ob l2, items = l1 ++ (w, ob) :: l2 -> In ob (map snd l2) ->
  exists p, path_of refused w = Some p /\ (time_path refused o = Some p \/ look f' p = Some (Array (repeat zero T))).
Proof.
  intros A refused o kind_of zero T items f rs f' S LT R l1 w ob l2 E NI.
  destruct (setup_holds refused o _ items f S) as [ND HI].
  unfold results_run in R. destruct (results_reset refused o items f) as [[f1 arrays]|] eqn:RS; [|discriminate].
  destruct (reset_ok refused o items f f1 arrays RS) as [G [K1 K2]]. pose proof (arrays_paths refused f items arrays G ND) as NDp.
  assert (I : In (w, ob) items) by (rewrite E; apply in_or_app; right; now left).
  destruct (HI w ob I) as [p [P L]]. exists p. split; [exact P|].
  destruct (list_eq_dec (list_eq_dec ascii_dec) (match time_path refused o with Some q => q | None => [] end) p) as [EQ|EQ].
  - left. destruct (time_path refused o) as [q|]; [congruence|]. subst p. unfold path_of in P. destruct (split w) as [|[|] l]; try discriminate.
    destruct (forallb _ l); [|discriminate]. destruct l; discriminate.
  - right. assert (NT : time_path refused o <> Some p) by (destruct (time_path refused o); congruence).
    destruct (get_arrays_ok refused f items [] arrays G (NoDup_nil _)) as [_ C].
    destruct (steps_ok refused o kind_of arrays NDp rs f1 f' 0 R) as [J _].
    assert (NA : ~ In p (map snd arrays)).
    { intros IA. apply in_map_iff in IA as [[ob' p'] [E' IA]]. cbn in E'. subst p'. apply C in IA as [[[] _]|[k1 [v [k2 [E' [P' N']]]]]].
      assert (N1 : nth_error items (List.length l1) = Some (w, ob)) by (rewrite E, nth_error_app2, Nat.sub_diag by lia; reflexivity).
      assert (N2 : nth_error items (List.length k1) = Some (v, ob')) by (rewrite E', nth_error_app2, Nat.sub_diag by lia; reflexivity).
      assert (LE : List.length l1 = List.length k1).
      { apply (proj1 (NoDup_nth_error (paths refused items)) ND); [apply nth_error_Some; unfold paths; rewrite nth_error_map, N1; discriminate|].
        unfold paths. rewrite !nth_error_map, N1, N2. cbn. now rewrite P, P'. }
      rewrite E in E'. apply app_eq_app_len in E' as [_ E']; [|exact LE]. injection E' as _ <- <-. contradiction. }
    rewrite (J p NA NT), (K1 p NT).
    exact L.
Qed.
Print Assumptions C101_twice_refuted.

(** C101 fails for a node called "time" (the time table replaces its array, which is then written to), for one called "scenarios" (the
    table cannot be created), and for a node and a parameter of the same name. *)
Theorem C101_names_refuted :
  let o := Options (Some (str "/time")) (Some (str "/scenarios")) None in
  let r := Readings (fun _ => 5) (fun _ => 6) (fun _ => 7) (fun _ => 8) in
  let kind_of := fun ob => if ob =? 9 then KParameter else KNode in
  let items := fun l => results (fun _ => false) o kind_of 0 (all_items l) [r] in
  items [(str "reservoir", 1); (str "time", 2)] = None /\
  items [(str "reservoir", 1); (str "scenarios", 2)] = None /\
  items [(str "demand", 1); (str "demand", 9)] = None /\
  items [(str "reservoir", 1); (str "demand", 9)] <> None.
Proof. vm_compute. repeat split; discriminate. Qed.
Print Assumptions C101_names_refuted.

(** * CSVRecorder *)

(** C101: the lines of the CSV file: one per timestep; the value in each column is the volume of the storage or the flow of the node
    with the name in the header.  It works exactly if all names are of nodes of the model. *)
Theorem C101_csv : forall A find kind_of names (rs : list (@readings A)),
  (forall n, In n names -> exists o, find n = Some o /\ (kind_of o = KStorage \/ kind_of o = KNode)) ->
  exists lines, csv_lines find kind_of names rs = Some lines /\ List.length lines = List.length rs /\
  forall t line r, nth_error lines t = Some line -> nth_error rs t = Some r ->
    List.length line = List.length names /\
    forall j n v, nth_error names j = Some n -> nth_error line j = Some v ->
      exists o, find n = Some o /\ (kind_of o = KStorage /\ v = volume r o \/ kind_of o = KNode /\ v = flow r o).
Proof.
  intros A find kind_of names rs H.
  assert (CL : forall r, exists line, csv_line find kind_of r names = Some line /\ List.length line = List.length names /\
    forall j n (v : A), nth_error names j = Some n -> nth_error line j = Some v ->
      exists o, find n = Some o /\ (kind_of o = KStorage /\ v = volume r o \/ kind_of o = KNode /\ v = flow r o)).
  { intros r. induction names as [|n names IH].
    - exists []. repeat split. intros [|j] n v; discriminate.
    - destruct IH as [line [E [L K]]]; [intros m I; apply H; now right|]. destruct (H n (or_introl eq_refl)) as [o [F [KO|KO]]];
        cbn [csv_line]; rewrite F, KO, E; cbn [option_map]; (eexists; split; [reflexivity|]); (split; [cbn; now rewrite L|]);
        intros [|j] m v E1 E2; try (apply (K j m v E1 E2)); cbn in E1, E2; injection E1 as <-; injection E2 as <-; exists o; (split; [exact F|]); [left|right]; now split. }
  induction rs as [|r rs IH].
  - exists []. repeat split; destruct t; discriminate.
  - destruct IH as [lines [E [L K]]]. destruct (CL r) as [line [E1 [L1 K1]]]. cbn [csv_lines]. rewrite E1, E. exists (line :: lines). split; [reflexivity|]. split; [cbn; now rewrite L|].
    intros [|t] l r' N1 N2; [|apply (K t l r' N1 N2)]. cbn in N1, N2. injection N1 as <-. injection N2 as <-. split; [exact L1|exact K1].
Qed.
Print Assumptions C101_csv.

(** C101: an unknown name or something that is not a node is refused in the first timestep. *)
Theorem C101_csv_refused : forall A find kind_of names (r : @readings A) rs n, In n names ->
  (find n = None \/ exists o, find n = Some o /\ kind_of o <> KStorage /\ kind_of o <> KNode) -> csv_lines find kind_of names (r :: rs) = None.
Proof.
  intros A find kind_of names r rs n I H. cbn [csv_lines]. replace (csv_line find kind_of r names) with (@None (list A)); [reflexivity|]. symmetry.
  induction names as [|m names IH]; [destruct I|]. cbn [csv_line]. destruct I as [->|I].
  - destruct H as [->|[o [-> [N1 N2]]]]; [reflexivity|]. destruct (kind_of o); congruence.
  - rewrite (IH I). destruct (find m) as [o|]; [|reflexivity]. destruct (kind_of o); reflexivity.
Qed.
Print Assumptions C101_csv_refused.

(** A reservoir and a demand over three timesteps, in two runs. *)
Example C101_example :
  let o := Options (Some (str "/time")) (Some (str "/scenarios")) None in
  let r := fun k => Readings (fun _ => 100 + k) (fun _ => k) (fun _ => 0) (fun _ => 0) in
  let kind_of := fun ob => if ob =? 1 then KStorage else KNode in
  let items := all_items [(str "reservoir", 1); (str "demand", 2)] in
  let no := fun _ : name => false in
  match results no o kind_of 0 items [r 1; r 2; r 3] with
  | None => False
  | Some f =>
      look f [str "reservoir"] = Some (Array [101; 102; 103]) /\ look f [str "demand"] = Some (Array [1; 2; 3]) /\
      look f [str "time"] = Some (Time [0; 1; 2]) /\
      match results_run no o kind_of items f [r 7; r 8; r 9] with
      | None => False
      | Some f => look f [str "reservoir"] = Some (Array [107; 108; 109]) /\ look f [str "time"] = Some (Time [0; 1; 2])
      end
  end.
Proof. vm_compute. repeat split. Qed.
