(** C103: what the solver remembers. *)
From Verif Require Import Base Ring Eval_proofs Tables_proofs Memory_model.
Local Open Scope nat_scope.
Local Open Scope list_scope.

Section Memory.
Variables problem basis answer : Type.
Variables (adv std : problem -> basis) (simplex : problem -> basis -> bool -> option answer * basis).
Variables (use_presolve retry : bool).
Variable pose : nat -> list answer -> problem.
Notation memory := (@memory basis).
Notation attempt := (attempt problem basis answer std simplex retry).
Notation alone := (alone problem basis answer adv std simplex retry pose).
Notation solve_scenario := (solve_scenario problem basis answer adv std simplex retry).
Notation solve_scenarios := (solve_scenarios problem basis answer adv std simplex retry pose).
Notation solve := (solve problem basis answer adv std simplex use_presolve retry pose).
Notation solve_steps := (solve_steps problem basis answer adv std simplex use_presolve retry pose).
Notation solver_run := (solver_run problem basis answer adv std simplex use_presolve retry pose).

Definition start (m : memory) (s : nat) (h : list answer) : option basis :=
  if first m then Some (adv (pose s h)) else match nth_error (bases m) s with Some b => b | None => None end.

Lemma scenario_attempt presolve m s h : solve_scenario presolve m s (pose s h) =
  match start m s h with
  | None => Uninitialised
  | Some b => match attempt (pose s h) b presolve with
              | Some (a, b) => Solved (a, Memory (upd (bases m) s (Some b)) (first m) (presolved m))
              | None => NotSolved
              end
  end.
Proof.
  unfold Memory_model.solve_scenario, start, Memory_model.attempt.
  destruct (if first m then Some (adv (pose s h)) else match nth_error (bases m) s with Some b => b | None => None end) as [b|]; [|reflexivity].
  destruct (simplex (pose s h) b presolve) as [[a|] b1]; cbn [fst]; [reflexivity|]. destruct retry; [|reflexivity].
  destruct (simplex (pose s h) (std (pose s h)) presolve) as [[a|] b2]; reflexivity.
Qed.

Lemma scenarios_ok presolve : forall found m s, s + length found <= length (bases m) ->
  match solve_scenarios presolve m s found with
  | Solved (found', m') =>
      first m' = first m /\ presolved m' = presolved m /\ length (bases m') = length (bases m) /\ length found' = length found /\
      (forall j, j < s -> nth_error (bases m') j = nth_error (bases m) j) /\
      forall k h, nth_error found k = Some h -> exists b a b', start m (s + k) h = Some b /\ attempt (pose (s + k) h) b presolve = Some (a, b') /\
        nth_error found' k = Some (a :: h) /\ nth_error (bases m') (s + k) = Some (Some b')
  | NotSolved => exists k h b, nth_error found k = Some h /\ start m (s + k) h = Some b /\ attempt (pose (s + k) h) b presolve = None
  | Uninitialised => exists k h, nth_error found k = Some h /\ start m (s + k) h = None
  end.
Proof.
  induction found as [|h found IH]; intros m s L; cbn [Memory_model.solve_scenarios length] in *.
  - repeat split. intros k h. destruct k; discriminate.
  - rewrite scenario_attempt. destruct (start m s h) as [b|] eqn:S0.
    2: { exists 0, h. rewrite Nat.add_0_r. now split. }
    destruct (attempt (pose s h) b presolve) as [[a b']|] eqn:A0.
    2: { exists 0, h, b. rewrite Nat.add_0_r. now repeat split. }
    set (m1 := Memory (upd (bases m) s (Some b')) (first m) (presolved m)).
    assert (L1 : length (bases m1) = length (bases m)) by apply upd_length.
    assert (ST : forall j x, s < j -> start m1 j x = start m j x).
    { intros j x Hj. unfold start, m1. cbn [first bases]. destruct (first m); [reflexivity|]. rewrite nth_error_upd by lia.
      destruct (Nat.eqb_spec j s); [lia|reflexivity]. }
    specialize (IH m1 (S s) ltac:(lia)). destruct (solve_scenarios presolve m1 (S s) found) as [[found' m']| |].
    + destruct IH as [I1 [I2 [I3 [I4 [I5 I6]]]]]. split; [exact I1|]. split; [exact I2|]. split; [lia|]. split; [cbn [length]; lia|]. split.
      * intros j Hj. rewrite I5 by lia. unfold m1. cbn [bases]. rewrite nth_error_upd by lia. destruct (Nat.eqb_spec j s); [lia|reflexivity].
      * intros [|k] h' N.
        -- cbn in N. injection N as <-. exists b, a, b'. rewrite Nat.add_0_r. split; [exact S0|]. split; [exact A0|]. split; [reflexivity|].
           rewrite I5 by lia. unfold m1. cbn [bases]. rewrite nth_error_upd by lia. now rewrite Nat.eqb_refl.
        -- destruct (I6 k h' N) as [c [a' [c' [J1 [J2 [J3 J4]]]]]]. exists c, a', c'. replace (s + S k) with (S s + k) by lia.
           rewrite ST in J1 by lia. repeat split; assumption.
    + destruct IH as [k [h' [c [J1 [J2 J3]]]]]. exists (S k), h', c. replace (s + S k) with (S s + k) by lia. rewrite ST in J2 by lia. repeat split; assumption.
    + destruct IH as [k [h' [J1 J2]]]. exists (S k), h'. replace (s + S k) with (S s + k) by lia. rewrite ST in J2 by lia. now split.
Qed.

(** What holds after [t] timesteps of a run; [p]: presolve in the first. *)
Definition holds (p : bool) (n t : nat) (m : memory) (found : list (list answer)) : Prop :=
  length (bases m) = n /\ length found = n /\ first m = (t =? 0) /\ use_presolve && negb (presolved m) = p && (t =? 0) /\
  forall s h, nth_error found s = Some h -> exists b, alone p s t = Some (h, b) /\ (0 < t -> nth_error (bases m) s = Some b /\ b <> None).

Lemma step_holds p n t m found : holds p n t m found ->
  match solve m found with
  | Solved (found', m') => holds p n (S t) m' found'
  | NotSolved => exists s, s < n /\ alone p s (S t) = None
  | Uninitialised => False
  end.
Proof.
  intros [L1 [L2 [F [PR H]]]]. unfold Memory_model.solve. set (presolve := use_presolve && negb (presolved m)) in *.
  set (m1 := Memory (bases m) (first m) (presolved m || presolve)).
  assert (ST : forall s h, nth_error found s = Some h -> exists b0 b1, alone p s t = Some (h, b0) /\ start m1 s h = Some b1 /\
    b1 = match b0 with Some b => b | None => adv (pose s h) end).
  { intros s h N. destruct (H s h N) as [b [A B]]. exists b. unfold start, m1. cbn [first bases]. rewrite F. destruct (Nat.eqb_spec t 0) as [->|T].
    - exists (adv (pose s h)). split; [exact A|]. split; [reflexivity|]. cbn in A. injection A as _ <-. reflexivity.
    - destruct (B ltac:(lia)) as [B1 B2]. rewrite B1. destruct b as [b|]; [|congruence]. exists b. now repeat split. }
  assert (PT : presolve = p && match t with 0 => true | _ => false end) by (rewrite PR; destruct t; reflexivity).
  pose proof (scenarios_ok presolve found m1 0 ltac:(cbn [m1 bases]; lia)) as K. destruct (solve_scenarios presolve m1 0 found) as [[found' m']| |].
  - destruct K as [K1 [K2 [K3 [K4 [_ K6]]]]]. cbn [m1 first presolved bases] in K1, K2, K3. unfold holds. cbn [bases first presolved].
    split; [lia|]. split; [lia|]. split; [reflexivity|]. split.
    + rewrite K2. cbn [Nat.eqb]. rewrite andb_false_r. unfold presolve. destruct use_presolve, (presolved m); reflexivity.
    + intros s h' N. assert (LS : s < length found) by (rewrite <- K4; apply nth_error_Some; congruence).
      destruct (nth_error found s) as [h|] eqn:E; [|apply nth_error_None in E; lia]. destruct (K6 s h E) as [b [a [b' [J1 [J2 [J3 J4]]]]]]. cbn [Nat.add] in *.
      destruct (ST s h E) as [b0 [b1 [A [S1 EB]]]]. assert (EQ : b = b1) by congruence. rewrite EQ, EB in J2. exists (Some b'). rewrite J3 in N. injection N as <-. split.
      * cbn [Memory_model.alone]. rewrite A, <- PT. cbv zeta. rewrite J2. reflexivity.
      * intros _. split; [exact J4|discriminate].
  - destruct K as [s [h [b [N [S1 A1]]]]]. cbn [Nat.add] in *. destruct (ST s h N) as [b0 [b1 [A [S2 EB]]]]. assert (EQ : b = b1) by congruence. rewrite EQ, EB in A1.
    exists s. split; [rewrite <- L2; apply nth_error_Some; congruence|]. cbn [Memory_model.alone]. rewrite A, <- PT. cbv zeta. rewrite A1. reflexivity.
  - destruct K as [s [h [N S1]]]. cbn [Nat.add] in *. destruct (ST s h N) as [b0 [b1 [A [S2 EB]]]]. congruence.
Qed.

Lemma alone_stays p s : forall k t, alone p s t = None -> alone p s (k + t) = None.
Proof. induction k as [|k IH]; intros t H; [exact H|]. cbn [Nat.add Memory_model.alone]. now rewrite IH. Qed.

Lemma steps_holds p n : forall T t m found, holds p n t m found ->
  match solve_steps T m found with
  | Solved (found', m') => holds p n (T + t) m' found'
  | NotSolved => exists s, s < n /\ alone p s (T + t) = None
  | Uninitialised => False
  end.
Proof.
  induction T as [|T IH]; intros t m found H; cbn [Memory_model.solve_steps]; [exact H|].
  pose proof (step_holds p n t m found H) as K. destruct (solve m found) as [[found' m']| |].
  - specialize (IH (S t) m' found' K). replace (S T + t) with (T + S t) by lia. exact IH.
  - destruct K as [s [L A]]. exists s. split; [exact L|]. replace (S T + t) with (T + S t) by lia. apply alone_stays. exact A.
  - exact K.
Qed.

Lemma reset_holds m : holds (use_presolve && negb (presolved m)) (length (bases m)) 0 (memory_reset m) (repeat [] (length (bases m))).
Proof.
  unfold holds, memory_reset. cbn [bases first presolved]. split; [reflexivity|]. split; [apply repeat_length|]. split; [reflexivity|].
  split; [now rewrite andb_true_r|]. intros s h N. assert (E : h = []) by (apply nth_error_In, repeat_spec in N; exact N). subst h.
  exists None. split; [reflexivity|lia].
Qed.

(** C103: in a run with any number of scenarios and from any state of the solver, each scenario has exactly the answers it would have if
    it were solved alone: at first from the advanced basis of its own problem, then from its own last basis.  The run fails exactly
    if one of the scenarios alone does.  No basis is read before it was saved. *)
Theorem C103_isolated : forall m T,
  match solver_run m T with
  | Solved (found, _) => length found = length (bases m) /\
      forall s h, nth_error found s = Some h -> exists b, alone (use_presolve && negb (presolved m)) s T = Some (h, b)
  | NotSolved => exists s, s < length (bases m) /\ alone (use_presolve && negb (presolved m)) s T = None
  | Uninitialised => False
  end.
Proof.
  intros m T. unfold Memory_model.solver_run. pose proof (steps_holds _ _ T 0 _ _ (reset_holds m)) as K. rewrite Nat.add_0_r in K.
  destruct (solve_steps T (memory_reset m) (repeat [] (length (bases m)))) as [[found m']| |]; [|exact K|exact K].
  destruct K as [_ [L [_ [_ H]]]]. split; [exact L|]. intros s h N. destruct (H s h N) as [b [A _]]. now exists b.
Qed.

(** C103: without presolve every run of a model that is not set up anew in between has the same answers, whatever was solved before. *)
Theorem C103_rerun_partial : forall m m' T, length (bases m) = length (bases m') -> use_presolve && negb (presolved m) = use_presolve && negb (presolved m') ->
  match solver_run m T, solver_run m' T with
  | Solved (found, _), Solved (found', _) => found = found'
  | NotSolved, NotSolved => True
  | _, _ => False
  end.
Proof.
  intros m m' T L P. pose proof (C103_isolated m T) as K. pose proof (C103_isolated m' T) as K'. rewrite <- P, <- L in K'.
  destruct (solver_run m T) as [[found m1]| |], (solver_run m' T) as [[found' m1']| |]; try contradiction; try exact I.
  - destruct K as [LF K], K' as [LF' K']. apply Eval_proofs.nth_error_ext. intros s. destruct (nth_error found s) as [h|] eqn:N.
    + destruct (K s h N) as [b A]. destruct (nth_error found' s) as [h'|] eqn:N'; [destruct (K' s h' N') as [b' A']; congruence|].
      apply nth_error_None in N'. assert (s < length found) by (apply nth_error_Some; congruence). lia.
    + apply nth_error_None in N. symmetry. apply nth_error_None. lia.
  - destruct K as [LF K], K' as [s [LS A]]. destruct (nth_error found s) as [h|] eqn:N; [destruct (K s h N); congruence|]. apply nth_error_None in N. lia.
  - destruct K' as [LF K'], K as [s [LS A]]. destruct (nth_error found' s) as [h|] eqn:N; [destruct (K' s h N); congruence|]. apply nth_error_None in N. lia.
Qed.
End Memory.
Print Assumptions C103_isolated.
Print Assumptions C103_rerun_partial.

(** C103 fails with `use_presolve`: only the first run after a set-up presolves, so where GLPK finds another of several optima with
    presolve, the second run differs. *)
Theorem C103_presolve_refuted : exists (simplex : unit -> unit -> bool -> option nat * unit),
  let run := solver_run unit unit nat (fun _ => tt) (fun _ => tt) simplex true true (fun _ _ => tt) in
  match run (memory_setup 1) 2 with
  | Solved (found, m) => match run m 2 with Solved (found', _) => found <> found' | _ => False end
  | _ => False
  end.
Proof. exists (fun _ _ (p : bool) => (Some (if p then 1 else 2), tt)). vm_compute. discriminate. Qed.
Print Assumptions C103_presolve_refuted.

(** Two scenarios, three timesteps; the "simplex" returns the basis it starts from plus the problem, and keeps it as basis: each scenario
    sees its own bases only. *)
Example C103_example :
  let run := solver_run nat nat nat (fun P => 100 * P) (fun _ => 0) (fun P b (_ : bool) => (Some (b + P), b + P)) false true (fun s (_ : list nat) => S s) in
  match run (memory_setup 2) 3 with
  | Solved (found, m) => found = [[103; 102; 101]; [206; 204; 202]] /\ match run m 3 with Solved (found', _) => found' = found | _ => False end
  | _ => False
  end.
Proof. vm_compute. repeat split. Qed.
