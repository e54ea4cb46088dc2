(** C116: what optimisers are given. *)
From Coq Require Import Strings.String Lia.
From Verif Require Import Base LP_model Documents_model Search_model Search_spec Search_proofs.
Local Open Scope string_scope.
Local Open Scope nat_scope.
Local Open Scope list_scope.

(** A problem for platypus is made exactly if there are variables and objectives, no variable is empty and all have the bounds they need. *)
Theorem C116_platypus : forall vars objectives,
  (exists n types, platypus_problem vars objectives = Some (n, types)) <->
  vars <> [] /\ objectives >= 1 /\ Forall (fun v => size v > 0) vars /\ Forall (bounded_by le) vars.
Proof.
  intros vars objectives. unfold platypus_problem. rewrite <- exists_empty, <- make_variables_iff.
  destruct (existsb _ vars); [split; [intros [n [t H]]; discriminate H|intros [_ [_ [H _]]]; discriminate H]|].
  destruct (Nat.ltb_spec (List.length vars) 1) as [L|L].
  { split; [intros [n [t H]]; discriminate H|]. intros [H _]. destruct vars; [contradiction|cbn [List.length] in L; lia]. }
  destruct (Nat.ltb_spec objectives 1) as [O|O].
  { split; [intros [n [t H]]; discriminate H|]. intros [_ [H _]]. lia. }
  split.
  - intros [n [t H]]. destruct (make_variables vars) as [x|]; [|discriminate H]. repeat split; [destruct vars; [cbn [List.length] in L; lia|discriminate]|lia|now exists x].
  - intros [_ [_ [_ [x E]]]]. rewrite E. now exists (number vars), x.
Qed.
Print Assumptions C116_platypus.

(** Its types are the bounds, each number's at the number's place. *)
Theorem C116_platypus_places : forall vars objectives n types,
  platypus_problem vars objectives = Some (n, types) -> n = total vars /\ placed vars bounds_of types.
Proof.
  intros vars objectives n types H. unfold platypus_problem in H. destruct (existsb _ vars); [discriminate H|].
  destruct (List.length vars <? 1); [discriminate H|]. destruct (objectives <? 1); [discriminate H|].
  destruct (make_variables vars) as [x|] eqn:E; [|discriminate H]. cbn [option_map] in H.
  assert (En : n = number vars) by congruence. assert (Et : types = x) by congruence. subst n x.
  split; [apply number_total|]. now apply make_variables_placed.
Qed.
Print Assumptions C116_platypus_places.

(** pygmo is given the same bounds, if every parameter has as many as it needs. *)
Theorem C116_pygmo : forall vars, Forall (bounded_by eq) vars -> total vars > 0 ->
  exists lower upper, pygmo_bounds vars = Some (lower, upper) /\
    List.length lower = total vars /\ List.length upper = total vars /\ placed vars bounds_of (combine lower upper).
Proof.
  intros vars H T. destruct (parts_join vars H) as [l [u [El [Eu [Ll [Lu P]]]]]]. exists l, u. unfold pygmo_bounds.
  assert (N : flat_map parts_of vars <> []) by (intros G; apply (proj1 (parts_none vars)) in G; lia).
  destruct (flat_map parts_of vars) as [|x r]; [contradiction|]. unfold concatenate. cbn [map] in El, Eu |- *. rewrite El, Eu.
  rewrite Ll, Lu, Nat.eqb_refl. repeat split; try assumption; apply P.
Qed.
Print Assumptions C116_pygmo.

(** Both get the same pairs. *)
Theorem C116_same : forall vars objectives n types lower upper,
  Forall (bounded_by eq) vars -> platypus_problem vars objectives = Some (n, types) -> pygmo_bounds vars = Some (lower, upper) ->
  types = combine lower upper.
Proof.
  intros vars objectives n types lower upper H E1 E2. destruct (C116_platypus_places _ _ _ _ E1) as [_ [L1 N1]].
  assert (T : total vars > 0).
  { destruct (proj1 (C116_platypus vars objectives)) as [A [_ [B _]]]; [now exists n, types|]. destruct vars as [|v r]; [contradiction|].
    inversion B as [|v' r' Hv Hr]; subst. rewrite total_cons. lia. }
  destruct (C116_pygmo vars H T) as [l [u [E3 [_ [_ [L2 N2]]]]]]. assert (El : l = lower) by congruence. assert (Eu : u = upper) by congruence. subst l u.
  apply nth_error_ext. intros k. destruct (Nat.lt_ge_cases k (total vars)) as [K|K].
  - assert (W : exists before v after i, vars = before ++ v :: after /\ i < size v /\ k = total before + i).
    { clear - K. revert k K. induction vars as [|v r IH]; intros k K; [cbn in K; lia|]. rewrite total_cons in K.
      destruct (Nat.lt_ge_cases k (size v)) as [J|J]; [exists [], v, r, k; repeat split; assumption|].
      destruct (IH (k - size v)) as [b [w [a [i [E [Hi Ek]]]]]]; [lia|]. exists (v :: b), w, a, i. rewrite total_cons. cbn [app]. repeat split; [congruence|exact Hi|lia]. }
    destruct W as [before [v [after [i [Ev [Hi ->]]]]]].
    destruct (N1 before v after i Ev Hi) as [a [Ha Ba]]. destruct (N2 before v after i Ev Hi) as [b [Hb Bb]]. rewrite Ha, Hb. f_equal.
    clear - Ba Bb. inversion Ba; subst; inversion Bb; subst; try lia; try congruence.
    match goal with H : _ + _ = _ + _ |- _ => apply Nat.add_cancel_l in H; subst end. congruence.
  - transitivity (@None (ext * ext)); [apply nth_error_None; lia|symmetry; apply nth_error_None; lia].
Qed.
Print Assumptions C116_same.

(** Without numbers to vary pygmo's wrapper fails. *)
Theorem C116_pygmo_none : forall vars, total vars = 0 -> pygmo_bounds vars = None.
Proof. intros vars H. unfold pygmo_bounds. apply parts_none in H. now rewrite H. Qed.
Print Assumptions C116_pygmo_none.

(** Parameters with different numbers of bounds that add up are not noticed: here the only upper bound of "a" is 1, but its bounds are given
    as those of the candidate's first number, and the second upper bound of "b" is paired with a lower bound of "b" that is not its own. *)
Theorem C116_pygmo_refuted : exists vars lower upper,
  pygmo_bounds vars = Some (lower, upper) /\ List.length lower <> total vars /\ ~ placed vars bounds_of (combine lower upper).
Proof.
  exists [Var "a" 1 0 (Some [Fin 0; Fin 0]) (Some [Fin 1]) [] [] [0%Q] []; Var "b" 1 0 (Some [Fin 5]) (Some [Fin 7; Fin 8]) [] [] [0%Q] []].
  eexists. eexists. split; [reflexivity|]. split; [discriminate|]. intros [L _]. discriminate L.
Qed.
Print Assumptions C116_pygmo_refuted.

(** A given candidate that has values for all variables becomes, at each number's place, the value nearest to the given one within the bounds;
    values for integers are first cut off towards zero, and one value may be given for all. *)
Theorem C116_given : forall g vars, Forall (bounded_by eq) vars -> Forall (gives g) vars ->
  exists l, given_solution g vars = Some l /\
    placed vars (fun v i y => exists x lo hi, given_at g v i x /\ bounds_of v i (lo, hi) /\ (ele lo hi -> nearest lo hi x y)) l.
Proof. intros g vars H G. exact (given_solution_placed g vars H G). Qed.
Print Assumptions C116_given.

(** A candidate without one of the variables fails. *)
Theorem C116_given_missing : forall g vars v, In v vars -> size v > 0 -> get (v_name v) g = None -> given_solution g vars = None.
Proof. exact given_missing. Qed.
Print Assumptions C116_given_missing.

(** The first candidate is the model as it is, unless that is not wanted; then come the given ones in their order, then random ones.
    A given candidate that fails is tried again, and those after it are not reached. *)
Theorem C116_order : forall current solutions calls,
  let given := match solutions with Some l => l | None => [] end in
  match current, calls with
  | true, vars :: rest => exists l, generated (new_generator true current solutions) calls = Solution (present_values vars) :: l /\ in_order given rest l
  | _, _ => in_order given calls (generated (new_generator true current solutions) calls)
  end.
Proof.
  intros current solutions calls given. destruct current.
  - destruct calls as [|vars rest]; [constructor|]. eexists. split; [reflexivity|].
    apply (generated_rest rest (Generator true true solutions true 0)); [reflexivity|right; reflexivity].
  - assert (H := generated_rest calls (new_generator true false solutions) eq_refl (or_introl eq_refl)). destruct calls; exact H.
Qed.
Print Assumptions C116_order.

(** The model as it is has each present value at its place. *)
Theorem C116_present : forall vars,
  Forall (fun v => List.length (v_now v) = v_doubles v /\ List.length (v_inow v) = v_integers v) vars -> placed vars now_at (present_values vars).
Proof. exact present_placed. Qed.
Print Assumptions C116_present.

(** Without a wrapper all candidates are random. *)
Theorem C116_no_wrapper : forall current solutions calls, Forall (eq Random) (generated (new_generator false current solutions) calls).
Proof. intros current solutions calls. induction calls as [|vars r IH]; cbn [generated]; constructor; [reflexivity|exact IH]. Qed.
Print Assumptions C116_no_wrapper.

(** Two uses of models are of the same model exactly if they are of the same wrapper (uid) and the cache was not cleared between. *)
Theorem C116_cache : forall before u b between u' b' after m m',
  let ms := fst (uses (Process [] 0) (before ++ Access u b :: between ++ Access u' b' :: after)) in
  nth_error ms (List.length before) = Some (Some m) ->
  nth_error ms (List.length before + 1 + List.length between) = Some (Some m') ->
  (m = m' <-> u = u' /\ ~ In Clear between).
Proof. intros before u b between u' b' after m m'. apply cache_same. apply empty_sound. Qed.
Print Assumptions C116_cache.

(** A model that could be made is given, whatever failed before; and one that was given once is given again without being made. *)
Theorem C116_cache_given : forall before u b, b = true \/ (exists b' early late, before = early ++ Access u b' :: late /\ ~ In Clear late /\
    exists m, nth_error (fst (uses (Process [] 0) before)) (List.length early) = Some (Some m)) ->
  exists m, nth_error (fst (uses (Process [] 0) (before ++ [Access u b]))) (List.length before) = Some (Some m).
Proof.
  intros before u b H. rewrite uses_app, nth_error_app2, uses_length, Nat.sub_diag, uses_fst by (rewrite uses_length; lia). cbn [nth_error access].
  destruct (find_model u (snd (uses (Process [] 0) before))) as [m|] eqn:E; [cbn [fst]; now exists m|]. destruct H as [->|H]; [cbn [fst]; eexists; reflexivity|].
  exfalso. destruct H as [b' [early [late [-> [N [m Hm]]]]]]. rewrite uses_app, nth_error_app2, uses_length, Nat.sub_diag, uses_fst in Hm by (rewrite uses_length; lia).
  cbn [nth_error] in Hm. assert (F : find_model u (snd (access (snd (uses (Process [] 0) early)) (Access u b'))) = Some m) by (apply access_found; congruence).
  rewrite uses_snd_app, uses_snd in E. rewrite (uses_keeps late u m _ N F) in E. discriminate E.
Qed.
Print Assumptions C116_cache_given.

(** A profile of two reals and one integer, and a constant. *)
Definition profile := Var "profile" 2 1 (Some [Fin 0; NInf]) (Some [Fin 10; PInf]) [1%Z] [5%Z] [3%Q; 4%Q] [2%Z].
Definition constant := Var "constant" 1 0 (Some [Fin 1]) (Some [Fin 2]) [] [] [1%Q] [].
Example C116_example_bounds :
  platypus_problem [profile; constant] 1 = Some (4, [(Fin 0, Fin 10); (NInf, PInf); (Fin 1, Fin 5); (Fin 1, Fin 2)]) /\
  pygmo_bounds [profile; constant] = Some ([Fin 0; NInf; Fin 1; Fin 1], [Fin 10; PInf; Fin 5; Fin 2]) /\
  platypus_problem [profile; constant] 0 = None /\ platypus_problem [] 1 = None /\
  platypus_problem [Var "curve" 1 0 None None [] [] [0%Q] []] 1 = None.
Proof. repeat split. Qed.
(** 12 is above 10, 6.9 is cut to 6, which is above 5; 0 is below 1. *)
Example C116_example_given :
  given_solution [("profile", Given (Some [12%Q; -7%Q]) (Some [69 # 10])); ("constant", Given (Some [0%Q]) None)] [profile; constant]
  = Some [Fin 10; Fin (-7); Fin 5; Fin 1].
Proof. vm_compute. reflexivity. Qed.
Example C116_example_one_for_all :
  given_solution [("profile", Given (Some [7%Q]) (Some [-(3 # 2)]))] [profile] = Some [Fin 7; Fin 7; Fin 1].
Proof. vm_compute. reflexivity. Qed.
(** The second given candidate lacks "constant"; the third is never reached. *)
Example C116_example_order :
  let vars := [constant] in
  let g q := [("constant", Given (Some [q]) None)] in
  generated (new_generator true true (Some [g (3 # 2); g 9%Q])) [vars; vars; vars; vars] = [Solution [Fin 1]; Solution [Fin (3 # 2)]; Solution [Fin 2]; Random] /\
  generated (new_generator true false (Some [g 9%Q; []; g 1%Q])) [vars; vars; vars; vars] = [Solution [Fin 2]; Failed; Failed; Failed].
Proof. vm_compute. repeat split. Qed.
Example C116_example_cache :
  fst (uses (Process [] 0) [Access 1 true; Access 2 true; Access 1 false; Clear; Access 1 false; Access 1 true; Access 2 true])
  = [Some 0; Some 1; Some 0; None; None; Some 3; Some 4].
Proof. reflexivity. Qed.
