(** C128: table recorders close the files they opened, and no others. *)
From Verif Require Import Base Store_model.

(** The handles of the user that the user has not closed. *)
Definition closed_by (es : list event) (h : nat) : bool := existsb (fun e => match e with UserClose k => Nat.eqb k h | _ => false end) es.
Definition still_open (w : world) (es : list event) : list (nat * mode) := filter (fun p => negb (closed_by es (fst p))) (w_open w).
(** Handles are older than the next; the user closes handles that were there before the recorder opened any. *)
Definition older (w : world) : Prop := Forall (fun p => (fst p < w_next w)%nat) (w_open w).
Definition own_only (w : world) (es : list event) : Prop := Forall (fun e => match e with UserClose h => (h < w_next w)%nat | _ => True end) es.

Lemma filter_all {A} (f : A -> bool) l : Forall (fun x => f x = true) l -> filter f l = l.
Proof. induction 1 as [|x l H _ IH]; cbn; [reflexivity|]. rewrite H, IH. reflexivity. Qed.
Lemma close_newer u h : Forall (fun p : nat * mode => (fst p < h)%nat) u -> filter (fun p => negb (Nat.eqb (fst p) h)) u = u.
Proof. intros H. apply filter_all. refine (Forall_impl _ _ H). intros p P. cbn in P. destruct (Nat.eqb_spec (fst p) h); [lia|reflexivity]. Qed.

(** The state: the recorder's handle, if it has one, above those of the user. *)
Definition mine (s : option store) : list (nat * mode) := match s with Some s => if st_opened s then [(st_file s, MPlus)] else [] | None => [] end.
Definition inv (n : nat) (u : list (nat * mode)) (s : option store) (w : world) : Prop :=
  w_open w = mine s ++ u /\ (n <= w_next w)%nat /\ Forall (fun p => (fst p < n)%nat) u
  /\ match s with Some s => if st_opened s then (n <= st_file s < w_next w)%nat else (st_file s < n)%nat | None => True end.
Lemma drop_mine n u s w : inv n u s w -> w_open (drop s w) = u.
Proof.
  intros (O & L & U & S). destruct s as [[h b]|]; cbn in *; [|exact O]. destruct b; cbn in *; [|exact O].
  unfold is_open. rewrite O. cbn. rewrite Nat.eqb_refl. cbn. rewrite O. cbn. rewrite Nat.eqb_refl. cbn.
  apply close_newer. refine (Forall_impl _ _ U). cbn. intros p P. lia.
Qed.
Lemma drop_next s w : w_next (drop s w) = w_next w.
Proof. destruct s as [[h b]|]; cbn; [|reflexivity]. destruct (b && is_open h w); reflexivity. Qed.
(** Letting the old store go leaves the new one. *)
Lemma drop_old n u s w m : inv n u s w ->
  w_open (drop s {| w_open := (w_next w, m) :: w_open w; w_next := S (w_next w) |}) = (w_next w, m) :: u.
Proof.
  intros (O & L & U & S). destruct s as [[h b]|]; cbn in *; [|congruence]. destruct b; cbn in *; [|congruence].
  unfold is_open. cbn. rewrite O. cbn. rewrite Nat.eqb_refl. rewrite Bool.orb_true_r. cbn. rewrite ?O. cbn.
  destruct (Nat.eqb_spec (w_next w) h); [lia|]. cbn. rewrite Nat.eqb_refl. cbn.
  f_equal. apply close_newer. refine (Forall_impl _ _ U). cbn. intros p P. lia.
Qed.
Definition user_rest (e : event) (u : list (nat * mode)) : list (nat * mode) :=
  match e with UserClose h => filter (fun p => negb (Nat.eqb (fst p) h)) u | _ => u end.
Lemma forall_filter {A} (P : A -> Prop) f l : Forall P l -> Forall P (filter f l).
Proof. induction 1 as [|x l H _ IH]; cbn; [constructor|]. destruct (f x); [constructor|]; assumption. Qed.
Definition given_old (src : source) (n : nat) : Prop := match src with Path => True | File h => (h < n)%nat end.
Lemma step_inv src m e n u s w : given_old src n -> match e with UserClose h => (h < n)%nat | _ => True end -> inv n u s w ->
  let '(s1, w1, _) := handle src m e s w in inv n (user_rest e u) s1 w1.
Proof.
  intros G E I. pose proof I as (O & L & U & S). destruct e as [| | |h]; cbn [handle user_rest].
  - destruct src as [|g]; cbn [new_store].
    + destruct (forallb _ _); [|exact I].
      pose proof (drop_old n u s w m I) as D. set (w' := drop s _) in *.
      assert (N : w_next w' = Datatypes.S (w_next w)) by (unfold w'; rewrite drop_next; reflexivity).
      unfold inv. rewrite drop_next, N. split; [|split; [lia|split; [exact U|exact Logic.I]]].
      cbn [drop st_opened st_file andb mine app]. unfold is_open. rewrite D. cbn. rewrite Nat.eqb_refl. cbn. rewrite D. cbn. rewrite Nat.eqb_refl. cbn.
      apply close_newer. refine (Forall_impl _ _ U). cbn. intros p P. lia.
    + destruct (is_open g w); [|exact I]. cbn [drop st_opened andb]. unfold inv. rewrite drop_next, (drop_mine n u s w I). cbn. repeat split; assumption.
  - destruct src as [|g]; cbn [new_store].
    + destruct (forallb _ _); [|exact I]. unfold inv. rewrite drop_next, (drop_old n u s w MPlus I). cbn. repeat split; try assumption; lia.
    + destruct (is_open g w); [|exact I]. unfold inv. rewrite drop_next, (drop_mine n u s w I). cbn. repeat split; assumption.
  - unfold inv. rewrite drop_next, (drop_mine n u s w I). cbn. repeat split; assumption.
  - unfold inv, close. cbn [w_open w_next]. rewrite O, filter_app. split; [|split; [exact L|split; [apply forall_filter, U|exact S]]].
    f_equal. destruct s as [[k b]|]; cbn in *; [|reflexivity]. destruct b; cbn; [|reflexivity]. destruct (Nat.eqb_spec k h); [lia|reflexivity].
Qed.
Lemma filter_filter {A} (f g : A -> bool) l : filter f (filter g l) = filter (fun x => g x && f x) l.
Proof. induction l as [|x l IH]; cbn; [reflexivity|]. destruct (g x); cbn; [destruct (f x)|]; rewrite ?IH; reflexivity. Qed.
Lemma filter_true {A} (l : list A) : filter (fun _ => true) l = l.
Proof. apply filter_all. induction l; constructor; auto. Qed.
Lemma run_inv src m n : given_old src n -> forall es u s w, Forall (fun e => match e with UserClose h => (h < n)%nat | _ => True end) es -> inv n u s w ->
  let '(s1, w1, _) := history src m es s w in inv n (filter (fun p => negb (closed_by es (fst p))) u) s1 w1.
Proof.
  intros G. induction es as [|e r IH]; intros u s w F I; cbn [history].
  - cbn. rewrite filter_true. exact I.
  - inversion F as [|? ? E F']; subst. pose proof (step_inv src m e n u s w G E I) as J. destruct (handle src m e s w) as [[s1 w1] ok].
    specialize (IH _ _ _ F' J). destruct (history src m r s1 w1) as [[s2 w2] oks].
    replace (filter (fun p => negb (closed_by (e :: r) (fst p))) u) with (filter (fun p => negb (closed_by r (fst p))) (user_rest e u)); [exact IH|].
    destruct e as [| | |h]; cbn [user_rest closed_by existsb]; try reflexivity. rewrite filter_filter. apply filter_ext. intros p.
    rewrite Bool.negb_orb, (Nat.eqb_sym h). reflexivity.
Qed.

(** C128: whatever is called, in whatever order and whether it is refused or not: what is open is what the user had open and has not closed, and besides at most
    one handle, that of the store the recorder holds. A file that was handed over open is never closed. *)
Theorem C128_open : forall src m es w, older w -> own_only w es -> given_old src (w_next w) ->
  let '(s, w', _) := history src m es None w in
  match src, s with
  | Path, Some s => w_open w' = (st_file s, MPlus) :: still_open w es
  | _, _ => w_open w' = still_open w es
  end.
Proof.
  intros src m es w O F G.
  assert (I : inv (w_next w) (w_open w) None w) by (repeat split; [lia|exact O]).
  pose proof (run_inv src m _ G es _ _ _ F I) as J.
  assert (K : forall es s w, match s with Some s => st_opened s = match src with Path => true | File _ => false end | None => True end ->
    let '(s1, _, _) := history src m es s w in match s1 with Some s => st_opened s = match src with Path => true | File _ => false end | None => True end).
  { clear. induction es as [|e r IH]; intros s w H; cbn [history]; [exact H|].
    assert (Q : let '(s1, _, _) := handle src m e s w in match s1 with Some s => st_opened s = match src with Path => true | File _ => false end | None => True end).
    { destruct e; cbn [handle]; try exact H; try exact Logic.I.
      - destruct (new_store src m w) as [[]|]; [exact Logic.I|exact H].
      - destruct src as [|g]; cbn [new_store].
        + destruct (forallb _ _); [reflexivity|exact H].
        + destruct (is_open g w); [reflexivity|exact H]. }
    destruct (handle src m e s w) as [[s1 w1] ok]. specialize (IH s1 w1 Q). destruct (history src m r s1 w1) as [[s2 w2] oks]. exact IH. }
  specialize (K es None w Logic.I). destruct (history src m es None w) as [[s w'] oks]. destruct J as [J _]. fold (still_open w es) in J.
  destruct s as [[h b]|]; cbn in *; [|destruct src; exact J]. subst b. destruct src; exact J.
Qed.
Print Assumptions C128_open.

Lemma history_app src m a b s w : history src m (a ++ b) s w =
  let '(s1, w1, o1) := history src m a s w in let '(s2, w2, o2) := history src m b s1 w1 in (s2, w2, o1 ++ o2).
Proof.
  revert s w. induction a as [|e a IH]; intros s w; cbn [history app]; [destruct (history src m b s w) as [[? ?] ?]; reflexivity|].
  destruct (handle src m e s w) as [[s1 w1] ok]. rewrite IH. destruct (history src m a s1 w1) as [[s2 w2] o1]. destruct (history src m b s2 w2) as [[s3 w3] o2]. reflexivity.
Qed.
(** C128: finish() always succeeds, and afterwards nothing of the recorder is open. *)
Theorem C128_finished : forall src m es w, older w -> own_only w es -> given_old src (w_next w) ->
  let '(s, w', oks) := history src m (es ++ [Finish]) None w in s = None /\ w_open w' = still_open w es /\ last oks false = true.
Proof.
  intros src m es w O F G. rewrite history_app.
  assert (I : inv (w_next w) (w_open w) None w) by (repeat split; [lia|exact O]).
  pose proof (run_inv src m _ G es _ _ _ F I) as J. destruct (history src m es None w) as [[s w'] oks]. cbn [history handle].
  split; [reflexivity|]. split; [exact (drop_mine _ _ _ _ J)|]. apply last_last.
Qed.
Print Assumptions C128_finished.

(** C128: a recorder of a path that nothing else has open can be set up, and then run any number of times; nothing is refused. *)
Theorem C128_runs : forall m n k, 
  let '(s, w, oks) := history Path m (Setup :: concat (repeat [Reset; Finish] k)) None {| w_open := []; w_next := n |} in
  s = None /\ w_open w = [] /\ Forall (fun b => b = true) oks.
Proof.
  intros m n k.
  assert (H : forall k n, let '(s, w, oks) := history Path m (concat (repeat [Reset; Finish] k)) None {| w_open := []; w_next := n |} in
    s = None /\ w_open w = [] /\ Forall (fun b => b = true) oks).
  { clear. induction k as [|k IH]; intros n; [cbn; repeat split; constructor|]. change (concat (repeat [Reset; Finish] (S k))) with (Reset :: Finish :: concat (repeat [Reset; Finish] k)).
    cbn [history handle new_store w_open forallb drop w_next st_opened st_file andb]. unfold is_open, close. cbn [w_open w_next existsb fst filter]. rewrite Nat.eqb_refl. cbn.
    specialize (IH (S n)). destruct (history Path m _ None {| w_open := []; w_next := S n |}) as [[s w] oks]. destruct IH as (A & B & C). repeat split; auto. }
  specialize (H k (S n)). cbn [history handle new_store w_open forallb drop w_next st_opened st_file andb]. unfold is_open, close. cbn [w_open w_next existsb fst filter]. rewrite Nat.eqb_refl. cbn [orb negb w_open w_next].
  destruct (history Path m _ None _) as [[s w] oks]. destruct H as (A & B & C). repeat split; auto.
Qed.
Print Assumptions C128_runs.

(** C128: a file handed over is as good as it is open: every setup and reset succeeds exactly while the user has not closed it. *)
Theorem C128_handed_over : forall h m s w, let '(_, w', ok) := handle (File h) m Setup s w in let '(s2, w2, ok2) := handle (File h) m Reset s w in
  ok = is_open h w /\ ok2 = is_open h w /\ (ok2 = true -> s2 = Some {| st_file := h; st_opened := false |}).
Proof. intros h m s w. cbn. destruct (is_open h w); cbn; repeat split; congruence. Qed.
Print Assumptions C128_handed_over.

(** C128: after whatever has been called, a recorder of a path can be reset exactly if the user has no reader open on it; and set up anew (mode "w") exactly if
    the user has nothing open on it and the recorder is not between reset and finish. *)
Theorem C128_refused : forall m es w, older w -> own_only w es ->
  let '(s, w', _) := history Path m es None w in
  (snd (handle Path m Reset s w') = true <-> forall h, ~ In (h, MR) (still_open w es))
  /\ (snd (handle Path MW Setup s w') = true <-> still_open w es = [] /\ s = None).
Proof.
  intros m es w O F. pose proof (C128_open Path m es w O F Logic.I) as P. destruct (history Path m es None w) as [[s w'] oks].
  assert (R : forallb (fun p => compatible MPlus (snd p)) (still_open w es) = true <-> forall h, ~ In (h, MR) (still_open w es)).
  { rewrite forallb_forall. split.
    - intros H h I. specialize (H _ I). discriminate.
    - intros H [h o] I. destruct o; try reflexivity. destruct (H h I). }
  cbn [handle new_store]. destruct s as [s|]; rewrite P; cbn [forallb snd compatible andb].
  - split; [|split; [discriminate|intros [_ X]; discriminate]]. rewrite <- R. destruct (forallb _ _); cbn; split; congruence.
  - split; [rewrite <- R; destruct (forallb _ _); cbn; split; congruence|]. destruct (still_open w es); cbn; [split; auto|split; [discriminate|intros [X _]; discriminate]].
Qed.
Print Assumptions C128_refused.

(** A run with a reader of the user that is open on the path: resets are refused, and the reader stays as it is; once it is closed they succeed. *)
Example store_example : history Path MW [Setup; Reset; UserClose 0; Setup; Reset; Reset; Finish] None {| w_open := [(0%nat, MR)]; w_next := 1 |}
  = (None, {| w_open := []; w_next := 4 |}, [false; false; true; true; true; true; true]).
Proof. vm_compute. reflexivity. Qed.

(** A recorder that is set up again without having finished is refused its own file: Model.setup() ends with a reset
    (_model.pyx:735), so that this is what a model does that is set up twice, or set up, changed and run. (A run that fails does finish, _model.pyx:653-654.) *)
Theorem C128_again_refuted : exists w, w_open w = [] /\ snd (history Path MW [Setup; Reset; Setup] None w) = [true; true; false].
Proof. exists {| w_open := []; w_next := 0 |}. split; reflexivity. Qed.
Print Assumptions C128_again_refuted.
