(** C104: solver and options. *)
From Coq Require Import Strings.Ascii Strings.String.
From Verif Require Import Base Documents_model Options_model.
Local Open Scope string_scope.
Local Open Scope nat_scope.
Local Open Scope list_scope.

(** * Specification *)

(** Names are compared without regard to case. *)
Definition same_name (a b : string) : Prop := lower a = lower b.

(** The value of a switch: what the user gave, else what the environment says, else off. *)
Definition switch (args : dict optval) (k : string) (env : option string) : bool :=
  match get k args with
  | Some v => truth v
  | None => match env with Some v => String.eqb v "1" || String.eqb (lower v) "true" | None => false end
  end.

(** * Names *)

Lemma choose_fold n : forall reg acc,
  fold_left (fun acc c => if String.eqb (lower n) (lower (class_name c)) then Some c else acc) reg acc =
  match find (fun c => String.eqb (lower n) (lower (class_name c))) (rev reg) with Some c => Some c | None => acc end.
Proof.
  induction reg as [|c reg IH] using rev_ind; intros acc; [reflexivity|]. rewrite fold_left_app, rev_app_distr. cbn [fold_left rev app find].
  destruct (String.eqb (lower n) (lower (class_name c))); [reflexivity|]. apply IH.
Qed.

Lemma lower_names c c' : same_name (class_name c) (class_name c') -> c = c'.
Proof. unfold same_name. destruct c, c'; vm_compute; congruence. Qed.

Lemma choose_named reg env n :
  (forall c, choose reg env (Some n) = Done c <-> In c reg /\ same_name n (class_name c)) /\
  (choose reg env (Some n) = Raise UnknownSolver <-> forall c, In c reg -> ~ same_name n (class_name c)).
Proof.
  unfold choose. rewrite choose_fold.
  destruct (find (fun c => String.eqb (lower n) (lower (class_name c))) (rev reg)) as [c0|] eqn:F.
  - apply find_some in F. destruct F as [I E]. apply in_rev in I. apply String.eqb_eq in E. split.
    + intros c. split.
      * intros [= <-]. now split.
      * intros [_ H]. f_equal. apply lower_names. unfold same_name in *. congruence.
    + split; [discriminate|]. intros H. destruct (H c0 I). exact E.
  - assert (N : forall c, In c reg -> ~ same_name n (class_name c)).
    { intros c I H. rewrite in_rev in I. pose proof (find_none _ _ F c I) as K. cbv beta in K. apply String.eqb_neq in K. contradiction. }
    split.
    + intros c. split; [discriminate|]. intros [I H]. destruct (N c I H).
    + split; [intros _; exact N|reflexivity].
Qed.

(** C104: the solver is the one named by the argument, else by the document, else by the environment, whatever the case of letters, and if none is
    named the first one that was built; a name that is none of those built is an error. *)
Theorem C104_choice : forall glpk lpsolve env doc name args,
  let reg := registry glpk lpsolve in
  let named := match name, doc with
               | Some n, _ => Some n
               | None, Some d => match get "name" d with Some (VText n) => Some n | _ => get "PYWR_SOLVER" env end
               | None, None => get "PYWR_SOLVER" env
               end in
  (forall s, load_solver reg env doc name args = Done s ->
     match named with
     | Some n => In (s_class s) reg /\ same_name n (class_name (s_class s))
     | None => nth_error reg 0 = Some (s_class s)
     end) /\
  (load_solver reg env doc name args = Raise UnknownSolver ->
     exists n, named = Some n /\ forall c, In c reg -> ~ same_name n (class_name c)).
Proof.
  intros glpk lpsolve env doc name args reg named.
  assert (CL : forall c a s, construct env c a = Done s -> s_class s = c).
  { intros c a s. unfold construct, accept. destruct c.
    1, 2: destruct (find _ _); [discriminate|]; destruct (level_ok _); [|discriminate]; now intros [= <-].
    - destruct (find _ _); [discriminate|]. now intros [= <-].
    - now intros [= <-]. }
  assert (CU : forall c a, construct env c a <> Raise UnknownSolver).
  { intros c a. unfold construct, accept. destruct c.
    1, 2: destruct (find _ _); [discriminate|]; destruct (level_ok _); discriminate.
    - destruct (find _ _); discriminate.
    - discriminate. }
  assert (K : forall nm a,
    (forall s, make_solver reg env nm a = Done s ->
       match (match nm with Some n => Some n | None => get "PYWR_SOLVER" env end) with
       | Some n => In (s_class s) reg /\ same_name n (class_name (s_class s)) | None => nth_error reg 0 = Some (s_class s) end) /\
    (make_solver reg env nm a = Raise UnknownSolver ->
       exists n, (match nm with Some n => Some n | None => get "PYWR_SOLVER" env end) = Some n /\ forall c, In c reg -> ~ same_name n (class_name c))).
  { intros nm a. unfold make_solver. set (nm' := match nm with Some n => Some n | None => get "PYWR_SOLVER" env end).
    replace (choose reg env nm) with (match nm' with Some n => choose reg env (Some n) | None => Done (hd Null reg) end)
      by (unfold nm', choose; destruct nm; [reflexivity|]; destruct (get "PYWR_SOLVER" env); reflexivity).
    destruct nm' as [n|].
    - destruct (choose_named reg env n) as [C1 C2]. destruct (choose reg env (Some n)) as [c|e] eqn:E.
      + pose proof (proj1 (C1 c) eq_refl) as H. split; [intros s S0; now rewrite (CL _ _ _ S0)|]. intros X. destruct (CU _ _ X).
      + split; [discriminate|]. intros [= ->]. exists n. split; [reflexivity|]. now apply C2.
    - split.
      + intros s S0. rewrite (CL _ _ _ S0). unfold reg, registry. destruct glpk, lpsolve; reflexivity.
      + intros X. destruct (CU _ _ X). }
  unfold load_solver. destruct name as [n|]; [exact (K (Some n) args)|]. destruct doc as [d|]; [|exact (K None args)].
  destruct (get "name" d) as [[| | |n]|]; cbv beta iota zeta in named; subst named.
  - exact (K None (del "name" d)).
  - split; discriminate.
  - split; discriminate.
  - exact (K (Some n) (del "name" d)).
  - split; discriminate.
Qed.
Print Assumptions C104_choice.

(** * Options *)

Lemma get_put {V} k k' (v : V) : forall d, get k (put k' v d) = if String.eqb k' k then Some v else get k d.
Proof.
  induction d as [|[k1 v1] d IH]; cbn [put get].
  - destruct (String.eqb k' k); reflexivity.
  - destruct (String.eqb_spec k1 k') as [->|N]; cbn [get].
    + destruct (String.eqb k' k); reflexivity.
    + rewrite IH. destruct (String.eqb_spec k1 k) as [->|N2]; [|reflexivity]. destruct (String.eqb_spec k' k); [congruence|reflexivity].
Qed.

Definition env_value (env : dict string) (n : string) : option optval :=
  option_map (fun v => VBool (String.eqb v "1" || String.eqb (lower v) "true")) (get n env).
Lemma get_parse env en k kw k' : get k' (parse_env_bool env en k kw) =
  match get k' kw with Some v => Some v | None => if String.eqb k k' then env_value env en else None end.
Proof.
  unfold parse_env_bool, env_value. destruct (get k kw) as [v0|] eqn:E.
  - destruct (String.eqb_spec k k') as [<-|N]; [now rewrite E|]. destruct (get k' kw); reflexivity.
  - destruct (get en env) as [v|]; cbn [option_map].
    + rewrite get_put. destruct (String.eqb_spec k k') as [<-|N]; [now rewrite E|]. destruct (get k' kw); reflexivity.
    + destruct (get k' kw), (String.eqb k k'); reflexivity.
Qed.

Lemma bool_switch env args k : bool_arg k (glpk_kwargs env args) =
  switch args k (if String.eqb "set_fixed_flows_once" k then get "PYWR_SOLVER_GLPK_FIXED_FLOWS_ONCE" env
                 else if String.eqb "set_fixed_costs_once" k then get "PYWR_SOLVER_GLPK_FIXED_COSTS_ONCE" env
                 else if String.eqb "set_fixed_factors_once" k then get "PYWR_SOLVER_GLPK_FIXED_FACTORS_ONCE" env
                 else if String.eqb "use_unsafe_api" k then get "PYWR_SOLVER_GLPK_UNSAFE_API" env else None).
Proof.
  unfold bool_arg, switch, glpk_kwargs. rewrite !get_parse. destruct (get k args) as [v|]; [reflexivity|]. unfold env_value.
  repeat match goal with |- context [if ?c then _ else _] =>
    destruct c eqn:?; [repeat match goal with |- context [get ?a env] => destruct (get a env); cbn [option_map truth] end|] end;
  repeat match goal with H : String.eqb _ _ = true |- _ => apply String.eqb_eq in H end; try congruence; try reflexivity; subst; try discriminate.
Qed.

(** C104: each switch of a GLPK solver is what the user gave, else what its own environment variable says, else off; the environment does
    not matter to anything the user gave, nor to the switches without a variable. *)
Theorem C104_options : forall env c args s, c = Glpk \/ c = GlpkEdge -> construct env c args = Done s ->
  use_presolve s = switch args "use_presolve" None /\
  (c = Glpk -> save_routes_flows s = switch args "save_routes_flows" None) /\
  retry_solve s = switch args "retry_solve" None /\
  fixed_flows s = switch args "set_fixed_flows_once" (get "PYWR_SOLVER_GLPK_FIXED_FLOWS_ONCE" env) /\
  fixed_costs s = switch args "set_fixed_costs_once" (get "PYWR_SOLVER_GLPK_FIXED_COSTS_ONCE" env) /\
  fixed_factors s = switch args "set_fixed_factors_once" (get "PYWR_SOLVER_GLPK_FIXED_FACTORS_ONCE" env) /\
  unsafe_api s = switch args "use_unsafe_api" (get "PYWR_SOLVER_GLPK_UNSAFE_API" env).
Proof.
  intros env c args s C H.
  assert (X : Done s = Done (Solver c (bool_arg "use_presolve" (glpk_kwargs env args)) (match c with Glpk => bool_arg "save_routes_flows" (glpk_kwargs env args) | _ => false end)
     (bool_arg "retry_solve" (glpk_kwargs env args)) (bool_arg "set_fixed_flows_once" (glpk_kwargs env args)) (bool_arg "set_fixed_costs_once" (glpk_kwargs env args))
     (bool_arg "set_fixed_factors_once" (glpk_kwargs env args)) (bool_arg "use_unsafe_api" (glpk_kwargs env args)))).
  { rewrite <- H. destruct C as [-> | ->]; unfold construct, accept in *; destruct (find _ _); try discriminate; destruct (level_ok _); try discriminate; reflexivity. }
  assert (Y : s = Solver c (bool_arg "use_presolve" (glpk_kwargs env args)) (match c with Glpk => bool_arg "save_routes_flows" (glpk_kwargs env args) | _ => false end)
     (bool_arg "retry_solve" (glpk_kwargs env args)) (bool_arg "set_fixed_flows_once" (glpk_kwargs env args)) (bool_arg "set_fixed_costs_once" (glpk_kwargs env args))
     (bool_arg "set_fixed_factors_once" (glpk_kwargs env args)) (bool_arg "use_unsafe_api" (glpk_kwargs env args))) by congruence.
  rewrite Y. cbn [use_presolve save_routes_flows retry_solve fixed_flows fixed_costs fixed_factors unsafe_api]. rewrite !bool_switch.
  repeat split. intros ->. reflexivity.
Qed.
Print Assumptions C104_options.

(** C104: a keyword the GLPK solvers do not have is an error, whatever the environment. *)
Theorem C104_keywords : forall env c args, c = Glpk \/ c = GlpkEdge ->
  (exists s, construct env c args = Done s) <->
  (forall k, get k args <> None -> In k glpk_args) /\ (forall v, get "message_level" args = Some v -> exists l, v = VText l /\ In l ["off"; "error"; "normal"; "all"; "debug"]%string).
Proof.
  intros env c args C.
  assert (KN : forall k l, known k l = true <-> In k l).
  { intros k l. unfold known. rewrite existsb_exists. split; [intros [x [I E]]; apply String.eqb_eq in E; now subst|intros I; exists k; split; [exact I|apply String.eqb_refl]]. }
  assert (GI : forall V k (d : dict V), get k d <> None <-> In k (map fst d)).
  { intros V k d. induction d as [|[k1 v1] d IH]; cbn [get map fst In]; [tauto|]. destruct (String.eqb_spec k1 k) as [->|N]; [split; [now left|discriminate]|].
    rewrite IH. split; [now right|]. intros [?|?]; [contradiction|assumption]. }
  assert (GL : get "message_level" (glpk_kwargs env args) = get "message_level" args).
  { unfold glpk_kwargs. rewrite !get_parse. destruct (get "message_level" args); reflexivity. }
  assert (GK : forall k, get k (glpk_kwargs env args) <> None -> get k args <> None \/ In k glpk_args).
  { intros k. unfold glpk_kwargs. rewrite !get_parse. destruct (get k args); [left; discriminate|].
    repeat match goal with |- context [String.eqb ?a k] => destruct (String.eqb_spec a k) as [<-|?]; [right; cbn; tauto|] end. congruence. }
  assert (GA : forall k, get k args <> None -> get k (glpk_kwargs env args) <> None).
  { intros k. unfold glpk_kwargs. rewrite !get_parse. destruct (get k args); congruence. }
  assert (LV : level_ok (get "message_level" args) = true <->
    (forall v, get "message_level" args = Some v -> exists l, v = VText l /\ In l ["off"; "error"; "normal"; "all"; "debug"]%string)).
  { unfold level_ok. destruct (get "message_level" args) as [v|]; [|split; [discriminate|reflexivity]]. destruct v as [| | |s].
    1-3: split; [discriminate|]; intros H; destruct (H _ eq_refl) as [l [X _]]; discriminate.
    rewrite KN. split; [intros I v [= <-]; now exists s|]. intros H. destruct (H _ eq_refl) as [l [[= <-] I]]. exact I. }
  assert (ST : (exists s, construct env c args = Done s) <-> find (fun kv => negb (known (fst kv) glpk_args)) (glpk_kwargs env args) = None /\ level_ok (get "message_level" args) = true).
  { destruct C as [-> | ->]; unfold construct, accept; rewrite GL; destruct (find _ _); (split; [intros [s H]; try discriminate|intros [H1 H2]; try discriminate]);
      destruct (level_ok _); try discriminate; try (now split); eexists; reflexivity. }
  rewrite ST, LV. split; intros [H1 H2]; split; try exact H2.
  - intros k K. apply GA in K. apply GI in K. apply in_map_iff in K. destruct K as [kv [<- I]]. pose proof (find_none _ _ H1 kv I) as X. cbv beta in X.
    apply negb_false_iff in X. now apply KN.
  - destruct (find _ _) as [kv|] eqn:F; [|reflexivity]. apply find_some in F. destruct F as [I X]. apply negb_true_iff in X.
    assert (Y : In (fst kv) glpk_args).
    { destruct (GK (fst kv)) as [G|G]; [apply GI; now apply in_map|apply H1; exact G|exact G]. }
    apply KN in Y. congruence.
Qed.
Print Assumptions C104_keywords.

(** C104: the settings reported with the results are those in force. *)
Theorem C104_settings : forall env c args s k b, construct env c args = Done s -> get k (settings s) = Some b ->
  b = switch args k (match c with Glpk | GlpkEdge =>
                       if String.eqb "set_fixed_flows_once" k then get "PYWR_SOLVER_GLPK_FIXED_FLOWS_ONCE" env
                       else if String.eqb "set_fixed_costs_once" k then get "PYWR_SOLVER_GLPK_FIXED_COSTS_ONCE" env
                       else if String.eqb "set_fixed_factors_once" k then get "PYWR_SOLVER_GLPK_FIXED_FACTORS_ONCE" env else None
                     | _ => None end).
Proof.
  intros env c args s k b H. destruct c.
  1, 2: unfold construct, accept in H; destruct (find _ _); try discriminate; destruct (level_ok _); try discriminate; injection H as <-;
    unfold settings; cbn [s_class get use_presolve save_routes_flows retry_solve fixed_flows fixed_costs fixed_factors];
    repeat match goal with |- context [String.eqb ?a ?k] => is_var k; destruct (String.eqb_spec a k) as [<-|?]; [intros [= <-]; rewrite bool_switch; reflexivity|] end; discriminate.
  - unfold construct, accept in H; destruct (find _ _); try discriminate. injection H as <-. unfold settings. cbn [s_class get save_routes_flows].
    destruct (String.eqb_spec "save_routes_flows" k) as [<-|?]; [|discriminate]. intros [= <-]. unfold bool_arg, switch. destruct (get _ _); reflexivity.
  - cbn [construct] in H. injection H as <-. discriminate.
Qed.
Print Assumptions C104_settings.

(** C104 fails for the unsafe interface: results do not tell whether it was used. *)
Theorem C104_unsafe_refuted : exists args1 args2, forall env,
  match construct env Glpk args1, construct env Glpk args2 with
  | Done s1, Done s2 => settings s1 = settings s2 /\ unsafe_api s1 <> unsafe_api s2
  | _, _ => False
  end.
Proof.
  exists [("use_unsafe_api", VBool true); ("set_fixed_flows_once", VBool false); ("set_fixed_costs_once", VBool false); ("set_fixed_factors_once", VBool false)]%string,
         [("use_unsafe_api", VBool false); ("set_fixed_flows_once", VBool false); ("set_fixed_costs_once", VBool false); ("set_fixed_factors_once", VBool false)]%string.
  intros env. vm_compute. split; [reflexivity|discriminate].
Qed.
Print Assumptions C104_unsafe_refuted.

(** C104 fails for the options given to `load` when the document names a solver: they are dropped without a word. *)
Theorem C104_args_refuted : exists doc args,
  match load_solver (registry true false) [] (Some doc) None args, load_solver (registry true false) [] None None args with
  | Done s1, Done s2 => s_class s1 = s_class s2 /\ use_presolve s2 = true /\ use_presolve s1 = false
  | _, _ => False
  end.
Proof. exists [("name", VText "glpk")]%string, [("use_presolve", VBool true)]%string. vm_compute. repeat split. Qed.
Print Assumptions C104_args_refuted.

(** An option that comes from JSON as a string is on whatever it says. *)
Example C104_example_text : match construct [] Glpk [("retry_solve", VText "false")]%string with Done s => retry_solve s = true | _ => False end.
Proof. reflexivity. Qed.
Example C104_example : let env := [("PYWR_SOLVER", "GLPK-Edge"); ("PYWR_SOLVER_GLPK_FIXED_COSTS_ONCE", "True"); ("PYWR_SOLVER_GLPK_FIXED_FLOWS_ONCE", "1")]%string in
  load_solver (registry true true) env None None [("set_fixed_flows_once", VBool false)]%string =
  Done (Solver GlpkEdge false false false false true false false) /\
  load_solver (registry true true) env (Some [("name", VText "lpsolve"); ("retry_solve", VBool true)]%string) None [] = Raise (UnexpectedKeyword "retry_solve") /\
  load_solver (registry true false) env (Some [("name", VText "lpsolve")]%string) None [] = Raise UnknownSolver.
Proof. vm_compute. repeat split. Qed.
