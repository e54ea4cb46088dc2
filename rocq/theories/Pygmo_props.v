(** Property theorems about the pygmo wrapper (C79, C80). *)
From Verif Require Import Base LP_model Constraints_model Constraints_spec Constraints_proofs Optimisation_model Optimisation_spec Optimisation_proofs
  Pygmo_model Pygmo_spec Pygmo_proofs.

(** C79: the evaluation never fails for want of bounds, and the vector has as many entries as pygmo was told. *)
Theorem C79_shape : forall rs, exists f, fitness rs = Some f /\ length f = (get_nobj rs + get_nec rs + get_nic rs)%nat.
Proof.
  intros rs. unfold fitness. destruct (constraints_spec (constraints_of rs)) as (eqs & ineqs & E & L1 & L2 & _).
  { apply Forall_forall. intros r H. apply filter_In in H. tauto. }
  rewrite E. eexists. split; [reflexivity|]. rewrite !app_length, L1, L2. unfold objectives. rewrite map_length. unfold get_nobj, get_nec, get_nic. lia.
Qed.
Print Assumptions C79_shape.

(** C79, the part about feasibility that holds (bounds that are not plus infinity): pygmo accepts the candidate if and only if no lower,
    upper or double bounded constraint is violated and every equality constraint has the value 0.  Missing: equality with another value. *)
Theorem C79_feasible_partial : forall rs f, (forall r, In r rs -> c_lower (r_bounds r) <> PInf) -> fitness rs = Some f ->
  (accepted (get_nobj rs) (get_nec rs) (get_nic rs) f <->
   forall r, In r rs -> is_constraint (r_bounds r) = true ->
     if is_equality (r_bounds r) then exists q, r_value r = Some (Fin q) /\ q == 0 else is_violated (r_bounds r) (r_value r) = Some false).
Proof.
  intros rs f N E. unfold fitness in E. destruct (constraints_spec (constraints_of rs)) as (eqs & ineqs & E' & L1 & L2 & H).
  { apply Forall_forall. intros r Hr. apply filter_In in Hr. tauto. }
  rewrite E' in E. injection E as <-.
  assert (Forall presented (constraints_of rs) <-> forall r, In r rs -> is_constraint (r_bounds r) = true ->
     if is_equality (r_bounds r) then exists q, r_value r = Some (Fin q) /\ q == 0 else is_violated (r_bounds r) (r_value r) = Some false) as K.
  { rewrite Forall_forall. unfold constraints_of. split; intros X r.
    - intros A B. specialize (X r). rewrite filter_In in X. specialize (X (conj A B)). unfold presented in X.
      destruct (is_equality (r_bounds r)); [|exact X]. unfold satisfied_eq in X. destruct (r_value r) as [[|q|]|]; try contradiction. eauto.
    - rewrite filter_In. intros [A B]. specialize (X r A B). unfold presented. destruct (is_equality (r_bounds r)); [|exact X].
      destruct X as (q & -> & Z). exact Z. }
  rewrite <- K. rewrite <- H; [|apply Forall_forall; intros r Hr; apply N; apply filter_In in Hr; tauto].
  assert (length (objectives rs) = get_nobj rs) as LO by (unfold objectives; rewrite map_length; reflexivity).
  unfold accepted. split.
  - intros (o & e & i & E & A & B & C & D & F).
    destruct (app_same_length _ _ _ _ E) as [_ E2]; [lia|]. destruct (app_same_length _ _ _ _ E2) as [-> ->]; [unfold get_nec in B; lia|]. auto.
  - intros [A B]. exists (objectives rs), eqs, ineqs. split; [reflexivity|]. split; [exact LO|]. split; [exact L1|]. split; [exact L2|]. auto.
Qed.
Print Assumptions C79_feasible_partial.

(** C79: without equality constraints other than with 0, pygmo accepts exactly the candidates for which [Model.is_feasible] is true. *)
Theorem C79_same_as_model : forall rs f, (forall r, In r rs -> c_lower (r_bounds r) <> PInf) ->
  (forall r, In r rs -> is_equality (r_bounds r) = true -> exists z, c_lower (r_bounds r) = Fin z /\ z == 0) ->
  fitness rs = Some f ->
  (accepted (get_nobj rs) (get_nec rs) (get_nic rs) f <-> is_feasible (map (fun r => (r_bounds r, r_value r)) rs) = Some true).
Proof.
  intros rs f N Z E. rewrite (C79_feasible_partial rs f N E). destruct (feasible_spec (map (fun r => (r_bounds r, r_value r)) rs)) as (g & G & H).
  rewrite G. transitivity (g = true); [|split; [intros ->; reflexivity|intros X; injection X as ->; reflexivity]]. rewrite H.
  assert (forall r, In r rs -> is_constraint (r_bounds r) = true ->
    ((if is_equality (r_bounds r) then exists q, r_value r = Some (Fin q) /\ q == 0 else is_violated (r_bounds r) (r_value r) = Some false) <->
     is_violated (r_bounds r) (r_value r) = Some false)) as K.
  { intros r Hr C. destruct (is_equality (r_bounds r)) eqn:EQ; [|tauto]. destruct (Z r Hr EQ) as (z & Lz & Z0).
    unfold is_violated. rewrite EQ. unfold get_lower. rewrite Lz. destruct (r_value r) as [[|v|]|]; cbn; unfold ext_eqb; cbn.
    - split; [intros (q & X & _); discriminate|discriminate].
    - destruct (qlebP v z) as [A|A], (qlebP z v) as [B|B]; cbn; (split; [intros (q & X & Y); injection X as ->; try reflexivity; exfalso; lra|]); intros X; try discriminate.
      exists v. split; [reflexivity|lra].
    - split; [intros (q & X & _); discriminate|discriminate].
    - split; [intros (q & X & _); discriminate|discriminate]. }
  split.
  - intros X b v Hin C. apply in_map_iff in Hin as (r & E1 & Hr). injection E1 as <- <-. apply (K r Hr C), X; auto.
  - intros X r Hr C. apply (K r Hr C). apply X; [apply in_map_iff; eauto|exact C].
Qed.
Print Assumptions C79_same_as_model.

(** C79: entry [i] of the vector is the [i]-th objective; for two outcomes of the same model the smaller entry is the smaller value of an
    objective to be minimised and the larger value of one to be maximised. *)
Theorem C79_direction : forall rs f i, fitness rs = Some f -> (i < get_nobj rs)%nat -> forall rs' f', map r_objective rs' = map r_objective rs -> fitness rs' = Some f' ->
  exists r r' minimise, nth_error (objectives_of rs) i = Some r /\ nth_error (objectives_of rs') i = Some r' /\
    r_objective r = Some minimise /\ r_objective r' = Some minimise /\
    (at_most (nth i f None) (nth i f' None) <-> if minimise then at_most (r_value r) (r_value r') else at_most (r_value r') (r_value r)).
Proof.
  intros rs f i E I rs' f' M E'.
  assert (map r_objective (objectives_of rs') = map r_objective (objectives_of rs)) as M'.
  { unfold objectives_of. clear - M. revert rs' M. induction rs as [|r rs IH]; intros [|r' rs'] M; cbn in M; try discriminate; [reflexivity|].
    injection M as M1 M2. cbn [filter]. rewrite M1. destruct (r_objective r) eqn:O; cbn [map]; [|auto]. rewrite M1, O. f_equal. auto. }
  unfold get_nobj in I. destruct (nth_error (objectives_of rs) i) as [r|] eqn:R; [|apply nth_error_None in R; lia].
  assert (nth_error (map r_objective (objectives_of rs')) i = Some (r_objective r)) as R'.
  { rewrite M'. apply map_nth_error. exact R. }
  destruct (nth_error (objectives_of rs') i) as [r'|] eqn:R2.
  2:{ exfalso. apply nth_error_None in R2. assert (nth_error (map r_objective (objectives_of rs')) i = None) as X by (apply nth_error_None; rewrite map_length; lia). congruence. }
  rewrite (map_nth_error _ _ _ R2) in R'. injection R' as R'.
  assert (In r (objectives_of rs)) as Hin by (eapply nth_error_In; eauto). apply filter_In in Hin as [_ Hin].
  destruct (r_objective r) as [m|] eqn:O; [|discriminate].
  exists r, r', m. split; [reflexivity|]. split; [reflexivity|]. split; [exact O|]. split; [exact R'|].
  assert (forall rs f r, fitness rs = Some f -> nth_error (objectives_of rs) i = Some r -> r_objective r = Some m -> nth i f None = signed m (r_value r)) as K.
  { clear. intros rs f r E R O. unfold fitness in E. destruct (fitness_constraints (constraints_of rs)) as [[e ineqs]|]; [|discriminate]. injection E as <-.
    apply nth_error_nth. rewrite nth_error_app1; [|unfold objectives; rewrite map_length; apply nth_error_Some; congruence].
    unfold objectives. rewrite (map_nth_error _ _ _ R), O. reflexivity. }
  rewrite (K rs f r E R O), (K rs' f' r' E' R2 R').
  destruct m; cbn [signed]; [tauto|]. destruct (r_value r) as [[|x|]|], (r_value r') as [[|y|]|]; cbn; try tauto. lra.
Qed.
Print Assumptions C79_direction.

(** A cost to be minimised, a reliability to be maximised that is also a constraint (at least 1/2), and a flow between 3 and 10. *)
Example C79_example :
  let rs := [Recorder (Some true) (Bounds NInf PInf) (Some (Fin 7)); Recorder (Some false) (Bounds (Fin (1#2)) PInf) (Some (Fin (3#4)));
             Recorder None (Bounds (Fin 3) (Fin 10)) (Some (Fin 12))] in
  fitness rs = Some [Some (Fin 7); Some (Fin (- (3#4))); Some (Fin ((1#2) - (3#4))); Some (Fin (3 - 12)); Some (Fin (12 - 10))] /\
  (get_nobj rs, get_nec rs, get_nic rs) = (2, 0, 3)%nat /\
  is_feasible (map (fun r => (r_bounds r, r_value r)) rs) = Some false.
Proof. repeat split. Qed.

(** C79 (refuted part): with an equality constraint at 5 pygmo rejects the candidate whose value is 5, for which the model is feasible, and
    accepts the one whose value is 0, for which it is not. *)
Theorem C79_equality_refuted : exists good bad f g,
  map r_bounds good = map r_bounds bad /\ fitness good = Some f /\ fitness bad = Some g /\
  is_feasible (map (fun r => (r_bounds r, r_value r)) good) = Some true /\ ~ accepted (get_nobj good) (get_nec good) (get_nic good) f /\
  is_feasible (map (fun r => (r_bounds r, r_value r)) bad) = Some false /\ accepted (get_nobj bad) (get_nec bad) (get_nic bad) g.
Proof.
  set (rec v := [Recorder (Some true) (Bounds NInf PInf) (Some (Fin 1)); Recorder None (Bounds (Fin 5) (Fin 5)) (Some (Fin v))]).
  exists (rec 5), (rec 0), [Some (Fin 1); Some (Fin 5)], [Some (Fin 1); Some (Fin 0)].
  split; [reflexivity|]. split; [reflexivity|]. split; [reflexivity|]. split; [reflexivity|]. split; [|split; [reflexivity|]].
  - intros (o & e & i & E & A & B & C & D & _). destruct o as [|a [|b o]]; try discriminate. destruct e as [|c [|d e]]; try discriminate.
    injection E as <- <- _. apply Forall_inv in D. cbn in D. lra.
  - exists [Some (Fin 1)], [Some (Fin 0)], []. repeat split; repeat constructor.
Qed.
Print Assumptions C79_equality_refuted.

(** C80: if no variable parameter has integer variables, a candidate of the right length is written exactly as by the platypus wrapper
    ([C63_own_segment] applies). *)
Theorem C80_doubles : forall vars solution, Forall (fun p => 0 < double_size p)%nat vars -> Forall (fun p => integer_size p = 0%nat) vars ->
  length solution = fold_right Nat.add 0%nat (map double_size vars) -> fitness_variables solution vars = evaluate solution vars.
Proof.
  intros vars sol F G L. unfold fitness_variables, evaluate. destruct (variable_map 0 vars) as [m|] eqn:M; [|reflexivity].
  apply (write_doubles_same sol vars 0 m).
  - rewrite Forall_forall in *. intros p Hp. specialize (F p Hp). unfold size. lia.
  - exact G.
  - rewrite L. replace (map size vars) with (map double_size vars); [lia|]. apply map_ext_in. intros p Hp. rewrite Forall_forall in G. specialize (G p Hp). unfold size. lia.
  - exact M.
Qed.
Print Assumptions C80_doubles.

(** C80: hence reading the variables afterwards gives the candidate back, piece by piece. *)
Theorem C80_read_back : forall vars solution vars', Forall well_formed vars -> Forall distinct vars ->
  Forall (fun p => 0 < double_size p)%nat vars -> Forall (fun p => integer_size p = 0%nat) vars ->
  length solution = fold_right Nat.add 0%nat (map double_size vars) -> fitness_variables solution vars = Some vars' ->
  pieces solution (map double_size vars) (map get_double vars').
Proof.
  intros vars sol vars' W D F G L E. rewrite C80_doubles in E by assumption.
  assert (map size vars = map double_size vars) as SZ.
  { apply map_ext_in. intros p Hp. rewrite Forall_forall in G. specialize (G p Hp). unfold size. lia. }
  destruct (pieces_exist (map size vars) sol) as [xs P]; [rewrite SZ; exact L|].
  rewrite (evaluate_pieces vars sol xs) in E; [|rewrite Forall_forall in *; intros p Hp; specialize (F p Hp); unfold size; lia|exact P].
  rewrite <- SZ. clear SZ L F. revert sol xs vars' P E.
  induction vars as [|v vars IH]; intros sol xs vars' P E; inversion P as [|x sol' n ns ps Hx Hp]; subst; cbn [write_pieces] in E.
  - injection E as <-. constructor.
  - destruct (write_piece x v) as [v'|] eqn:V; [|discriminate]. destruct (write_pieces ps vars) as [r'|] eqn:R; [|discriminate]. injection E as <-.
    destruct (write_piece_spec x v v' (Forall_inv W) (Forall_inv D) Hx V) as (A & _ & _ & _).
    cbn [map]. rewrite A, firstn_all2 by (rewrite Hx; unfold size; pose proof (Forall_inv G) as G1; cbv beta in G1; lia).
    constructor; [exact Hx|]. eapply IH; eauto using Forall_inv_tail.
Qed.
Print Assumptions C80_read_back.

(** C80 (refuted part): a parameter with integer variables can not be optimised at all: whatever the other variables are, every candidate of
    the right length is refused, whereas the platypus wrapper can write it. *)
Theorem C80_integers_refuted : 
  (forall vars solution p, In p vars -> well_formed p -> (0 < integer_size p)%nat ->
     length solution = fold_right Nat.add 0%nat (map (fun p => double_size p + integer_size p)%nat vars) -> fitness_variables solution vars = None) /\
  exists vars solution vars', fitness_variables solution vars = None /\ evaluate solution vars = Some vars'.
Proof.
  split.
  - intros vars sol p Hp W P L. unfold fitness_variables. destruct (variable_map 0 vars) as [m|] eqn:M; [|reflexivity].
    eapply (write_doubles_integer sol vars 0 m); eauto. rewrite L. unfold size. cbn. lia.
  - exists [Rbf [1; 2; 3] [1; 100; 200]%Z (Some [(90, 110); (190, 210)]%Z)], [4; 5; 6; 95; 205],
      [Rbf [4; 5; 6] [1; 95; 205]%Z (Some [(90, 110); (190, 210)]%Z)]. split; reflexivity.
Qed.
Print Assumptions C80_integers_refuted.

(** A constant and a monthly profile. *)
Example C80_example :
  let vars := [Single 0 0 10; Curve [1; 2; 3] [0%nat; 2%nat]] in
  fitness_variables [5; 7; 8] vars = Some [Single 5 0 10; Curve [7; 2; 8] [0%nat; 2%nat]].
Proof. reflexivity. Qed.
