(** Proofs about the order of calls. *)
From Verif Require Import Base Run_model Run_spec.
Local Open Scope nat_scope.
Local Open Scope list_scope.

(** ** Attempts *)

Section Attempt.
Context {E : Type} (raises : E -> bool).

Lemma attempt_none l : (forall e, In e l -> raises e = false) -> attempt raises l = (l, true).
Proof.
  induction l as [|e l IH]; intros H; [reflexivity|]. cbn [attempt]. rewrite (H e) by now left. rewrite IH; [reflexivity|]. intros x Hx. apply H. now right.
Qed.
Lemma attempt_prefix l : exists rest, l = fst (attempt raises l) ++ rest.
Proof.
  induction l as [|e l [rest IH]]; cbn [attempt]; [exists []; reflexivity|]. destruct (raises e); cbn [fst]; [exists l; reflexivity|].
  destruct (attempt raises l) as [t b]. cbn [fst] in *. exists rest. cbn. congruence.
Qed.
Lemma attempt_true l : snd (attempt raises l) = true -> fst (attempt raises l) = l /\ forall e, In e l -> raises e = false.
Proof.
  induction l as [|e l IH]; cbn [attempt]; intros H; [split; [reflexivity|easy]|]. destruct (raises e) eqn:R; [discriminate|].
  destruct (attempt raises l) as [t b]. cbn [fst snd] in *. destruct (IH H) as [-> K]. split; [reflexivity|]. intros x [<-|Hx]; auto.
Qed.
Lemma attempt_false l : snd (attempt raises l) = false -> exists l1 e l2, l = l1 ++ e :: l2 /\ fst (attempt raises l) = l1 ++ [e] /\ raises e = true /\
  forall x, In x l1 -> raises x = false.
Proof.
  induction l as [|e l IH]; cbn [attempt]; intros H; [discriminate|]. destruct (raises e) eqn:R.
  - exists [], e, l. repeat split; auto. easy.
  - destruct (attempt raises l) as [t b]. cbn [fst snd] in *. destruct (IH H) as (l1 & x & l2 & -> & -> & Rx & K). exists (e :: l1), x, l2.
    repeat split; auto. intros y [<-|Hy]; auto.
Qed.
Lemma attempt_app l1 l2 : attempt raises (l1 ++ l2) =
  if snd (attempt raises l1) then (l1 ++ fst (attempt raises l2), snd (attempt raises l2)) else attempt raises l1.
Proof.
  induction l1 as [|e l1 IH]; [cbn; destruct (attempt raises l2); reflexivity|]. cbn [attempt app]. destruct (raises e); [reflexivity|].
  rewrite IH. destruct (attempt raises l1) as [t [|]]; cbn [fst snd]; reflexivity.
Qed.
End Attempt.

(** ** Orders *)

Lemma once_intro {E} (l : list E) e : NoDup l -> In e l -> once l e.
Proof.
  intros N H. apply in_split in H as (l1 & l2 & ->). exists l1, l2. split; [reflexivity|]. apply NoDup_remove_2 in N. rewrite in_app_iff in N. tauto.
Qed.
Lemma earlier_intro {E} (l l1 l2 : list E) a b : l = l1 ++ l2 -> In a l1 -> In b l2 -> earlier l a b.
Proof.
  intros -> Ha Hb. apply in_split in Ha as (x & y & ->). apply in_split in Hb as (z & w & ->). exists x, (y ++ z), w. rewrite <- !app_assoc. reflexivity.
Qed.

Lemma NoDup_app' {E} (a b : list E) : NoDup a -> NoDup b -> (forall x, In x a -> In x b -> False) -> NoDup (a ++ b).
Proof.
  intros A B D. induction A as [|x a Hx A IH]; [exact B|]. cbn. constructor.
  - rewrite in_app_iff. intros [X|X]; [auto|]. apply (D x); [now left|exact X].
  - apply IH. intros y Hy. apply D. now right.
Qed.
Lemma NoDup_map' {A B} (f : A -> B) l : (forall x y, f x = f y -> x = y) -> NoDup l -> NoDup (map f l).
Proof. intros H. apply NoDup_map_inj. auto. Qed.
Lemma NoDup_flat_map {A B} (f : A -> list B) l : NoDup l -> (forall x, In x l -> NoDup (f x)) ->
  (forall x y b, In b (f x) -> In b (f y) -> x = y) -> NoDup (flat_map f l).
Proof.
  intros N H D. induction N as [|x l Hx N IH]; cbn; [constructor|]. apply NoDup_app'.
  - apply H. now left.
  - apply IH. intros y Hy. apply H. now right.
  - intros b H1 H2. apply in_flat_map in H2 as (y & Hy & H2). assert (x = y) by (eapply D; eauto). subst. contradiction.
Qed.

Ltac calls H := repeat first
  [ rewrite !in_app_iff in H | rewrite !in_map_iff in H | destruct H as [H|H] | (let x := fresh "x" in destruct H as (x & H & ?)) | contradiction | (destruct H as [H|[]]) ].

(** The time of a call in a timestep. *)
Definition time_of (e : call) : option nat :=
  match e with
  | BeforeNode t _ | BeforeComponent t _ | CalcValues t _ | Solve t | AfterNode t _ | AfterComponent t _ => Some t
  | _ => None
  end.
(** Position of a call within a timestep. *)
Definition phase (e : call) : nat :=
  match e with
  | SetupNode _ => 0 | SetupComponent _ => 1 | SetupSolver => 2 | Cyclic => 3 | ResetNode _ => 4 | ResetComponent _ => 5 | ResetSolver => 6
  | BeforeNode _ _ => 7 | BeforeComponent _ _ => 8 | CalcValues _ _ => 9 | Solve _ => 10 | AfterNode _ _ => 11 | AfterComponent _ _ => 12
  | FinishNode _ => 13 | FinishComponent _ => 14
  end.

Lemma NoDup_phase (a b : list call) k : NoDup a -> NoDup b -> (forall e, In e a -> phase e < k) -> (forall e, In e b -> k <= phase e) -> NoDup (a ++ b).
Proof. intros A B HA HB. apply NoDup_app'; auto. intros x H1 H2. specialize (HA x H1). specialize (HB x H2). lia. Qed.

Lemma in_map_phase {A} (f : A -> call) l e k : (forall x, phase (f x) = k) -> In e (map f l) -> phase e = k.
Proof. intros H X. apply in_map_iff in X as (x & <- & _). apply H. Qed.

Definition within (lo hi : nat) (l : list call) : Prop := forall e, In e l -> lo <= phase e < hi.
Lemma within_map {A} (f : A -> call) l k lo hi : (forall x, phase (f x) = k) -> lo <= k < hi -> within lo hi (map f l).
Proof. intros H K e X. rewrite (in_map_phase f l e k H X). exact K. Qed.
Lemma within_one e lo hi : lo <= phase e < hi -> within lo hi [e].
Proof. intros H x [<-|[]]. exact H. Qed.
Lemma within_nil lo hi : within lo hi [].
Proof. intros x []. Qed.
Lemma within_app lo hi a b : within lo hi a -> within lo hi b -> within lo hi (a ++ b).
Proof. intros A B e X. apply in_app_iff in X as [X|X]; auto. Qed.
Lemma within_wider lo hi lo' hi' a : within lo hi a -> lo' <= lo -> hi <= hi' -> within lo' hi' a.
Proof. intros A L H e X. specialize (A e X). lia. Qed.
Lemma NoDup_within lo k hi a b : NoDup a -> NoDup b -> within lo k a -> within k hi b -> NoDup (a ++ b).
Proof. intros A B WA WB. apply (NoDup_phase a b k); auto; intros e X; [apply WA in X|apply WB in X]; lia. Qed.

Lemma within_reset m flat : within 4 7 (reset_calls m flat).
Proof.
  unfold reset_calls. repeat apply within_app; [apply (within_map ResetNode _ 4)|apply (within_map ResetComponent _ 5)|apply within_one]; cbn; auto; lia.
Qed.
Lemma within_setup m : within 0 7 (setup_calls m).
Proof.
  unfold setup_calls. apply within_app; [apply (within_map SetupNode _ 0); auto; lia|]. destruct (m_tree m) as [flat|]; [|apply within_one; cbn; lia].
  apply within_app; [apply (within_map SetupComponent _ 1); auto; lia|]. apply within_app; [apply within_one; cbn; lia|].
  eapply within_wider; [apply within_reset|lia|lia].
Qed.
Lemma within_step m flat t : within 7 13 (step_calls m flat t).
Proof.
  unfold step_calls. apply within_app; [apply (within_map (BeforeNode t) _ 7); auto; lia|]. apply within_app; [apply (within_map (BeforeComponent t) _ 8); auto; lia|].
  apply within_app; [apply (within_map (CalcValues t) _ 9); auto; lia|]. apply within_app; [apply within_one; cbn; lia|].
  apply within_app; [apply (within_map (AfterNode t) _ 11); auto; lia|]. apply (within_map (AfterComponent t) _ 12); auto; lia.
Qed.
Lemma within_steps m flat ts : within 7 13 (flat_map (step_calls m flat) ts).
Proof. intros e H. apply in_flat_map in H as (t & _ & H). eapply within_step; eauto. Qed.
Lemma within_finish m flat : within 13 15 (finish_calls m flat).
Proof. unfold finish_calls. apply within_app; [apply (within_map FinishNode _ 13); auto; lia|apply (within_map FinishComponent _ 14); auto; lia]. Qed.

Section NoDups.
Context (m : model) (flat : list nat) (Nn : NoDup (m_nodes m)) (Nv : NoDup (m_visible m)) (Nf : NoDup flat).

Lemma NoDup_one (e : call) : NoDup [e].
Proof. repeat constructor. auto. Qed.
Ltac nmap := apply NoDup_map'; [intros ? ? X; injection X; auto|].
Lemma NoDup_reset : NoDup (reset_calls m flat).
Proof.
  unfold reset_calls. apply (NoDup_within 4 5 7); [nmap; exact Nv| |apply (within_map _ _ 4); auto; lia|].
  - apply (NoDup_within 5 6 7); [nmap; exact Nf|apply NoDup_one|apply (within_map _ _ 5); auto; lia|apply within_one; cbn; lia].
  - apply within_app; [apply (within_map _ _ 5); auto; lia|apply within_one; cbn; lia].
Qed.
Lemma NoDup_setup : m_tree m = Some flat -> NoDup (setup_calls m).
Proof.
  intros E. unfold setup_calls. rewrite E. apply (NoDup_within 0 1 7); [nmap; exact Nn| |apply (within_map _ _ 0); auto; lia|].
  - apply (NoDup_within 1 2 7); [nmap; exact Nf| |apply (within_map _ _ 1); auto; lia|].
    + apply (NoDup_within 2 4 7); [apply NoDup_one|apply NoDup_reset|apply within_one; cbn; lia|apply within_reset].
    + apply within_app; [apply within_one; cbn; lia|]. eapply within_wider; [apply within_reset|lia|lia].
  - apply within_app; [apply (within_map _ _ 1); auto; lia|]. apply within_app; [apply within_one; cbn; lia|]. eapply within_wider; [apply within_reset|lia|lia].
Qed.
Lemma NoDup_step t : NoDup (step_calls m flat t).
Proof.
  unfold step_calls.
  assert (within 12 13 (map (AfterComponent t) flat)) as W12 by (apply (within_map _ _ 12); auto; lia).
  assert (within 11 12 (map (AfterNode t) (m_nodes m))) as W11 by (apply (within_map _ _ 11); auto; lia).
  assert (within 10 11 [Solve t]) as W10 by (apply within_one; cbn; lia).
  assert (within 9 10 (map (CalcValues t) (filter (m_parameter m) flat))) as W9 by (apply (within_map _ _ 9); auto; lia).
  assert (within 8 9 (map (BeforeComponent t) flat)) as W8 by (apply (within_map _ _ 8); auto; lia).
  assert (within 7 8 (map (BeforeNode t) (m_nodes m))) as W7 by (apply (within_map _ _ 7); auto; lia).
  apply (NoDup_within 7 8 13); [nmap; exact Nn| |exact W7|].
  2:{ repeat apply within_app; eapply within_wider; eauto; lia. }
  apply (NoDup_within 8 9 13); [nmap; exact Nf| |exact W8|].
  2:{ repeat apply within_app; eapply within_wider; eauto; lia. }
  apply (NoDup_within 9 10 13); [nmap; apply NoDup_filter; exact Nf| |exact W9|].
  2:{ repeat apply within_app; eapply within_wider; eauto; lia. }
  apply (NoDup_within 10 11 13); [apply NoDup_one| |exact W10|].
  2:{ repeat apply within_app; eapply within_wider; eauto; lia. }
  apply (NoDup_within 11 12 13); [nmap; exact Nn|nmap; exact Nf|exact W11|exact W12].
Qed.
Lemma NoDup_finish : NoDup (finish_calls m flat).
Proof. unfold finish_calls. apply (NoDup_within 13 14 15); [nmap; exact Nn|nmap; exact Nf|apply (within_map _ _ 13); auto; lia|apply (within_map _ _ 14); auto; lia]. Qed.

Lemma step_time t e : In e (step_calls m flat t) -> time_of e = Some t.
Proof. unfold step_calls. rewrite !in_app_iff, !in_map_iff. intros [(x & <- & _)|[(x & <- & _)|[(x & <- & _)|[[<-|[]]|[(x & <- & _)|(x & <- & _)]]]]]; reflexivity. Qed.
Lemma NoDup_steps T : NoDup (flat_map (step_calls m flat) (seq 0 T)).
Proof.
  apply NoDup_flat_map; [apply seq_NoDup|intros; apply NoDup_step|]. intros x y b H1 H2. apply step_time in H1, H2. congruence.
Qed.
End NoDups.

(** Parts of a list of timesteps. *)
Lemma steps_split m flat T t : t < T -> flat_map (step_calls m flat) (seq 0 T) =
  flat_map (step_calls m flat) (seq 0 t) ++ step_calls m flat t ++ flat_map (step_calls m flat) (seq (S t) (T - S t)).
Proof.
  intros H. replace T with (t + S (T - S t)) at 1 by lia. rewrite seq_app, flat_map_app. cbn [seq flat_map Nat.add]. reflexivity.
Qed.

(** ** MultiModel *)

Lemma heads_spec {A} (ls : list (list A)) : match heads ls with
  | Some (xs, rest) => Forall2 (fun l xr => l = fst xr :: snd xr) ls (combine xs rest) /\ List.length xs = List.length ls /\ List.length rest = List.length ls
  | None => In [] ls
  end.
Proof.
  induction ls as [|l ls IH]; cbn [heads]; [repeat split; constructor|]. destruct l as [|x l]; [now left|].
  destruct (heads ls) as [[xs rest]|]; [|now right]. destruct IH as (H1 & H2 & H3). cbn [combine List.length]. repeat split; [constructor; auto|lia|lia].
Qed.

(** Every model has a timestep [i] and they are all at the same date. *)
Definition agree (ls : list (list Z)) (i : nat) : Prop := exists d, forall l, In l ls -> nth_error l i = Some d.
Definition present (ls : list (list Z)) (i : nat) : Prop := forall l, In l ls -> nth_error l i <> None.

Lemma heads_nth {A} (ls rest : list (list A)) xs : heads ls = Some (xs, rest) -> rest = map (@tl A) ls /\ map (fun l => nth_error l 0) ls = map Some xs.
Proof.
  revert xs rest. induction ls as [|l ls IH]; cbn [heads]; intros xs rest H; [injection H as <- <-; split; reflexivity|].
  destruct l as [|x l]; [discriminate|]. destruct (heads ls) as [[xs' rest']|]; [|discriminate]. injection H as <- <-.
  destruct (IH _ _ eq_refl) as [-> E]. cbn [map tl]. split; [reflexivity|]. rewrite E. reflexivity.
Qed.
Lemma heads_none {A} (ls : list (list A)) : heads ls = None -> In [] ls.
Proof. intros H. pose proof (heads_spec ls) as K. rewrite H in K. exact K. Qed.

Lemma nth_error_tl {A} (l : list A) i : nth_error (tl l) i = nth_error l (S i).
Proof. destruct l; [destruct i; reflexivity|reflexivity]. Qed.
Lemma agree_tl ls i : agree (map (@tl Z) ls) i <-> agree ls (S i).
Proof.
  split; intros [d H]; exists d; intros l Hl.
  - rewrite <- nth_error_tl. apply H. now apply in_map.
  - apply in_map_iff in Hl as (l0 & <- & Hl). rewrite nth_error_tl. auto.
Qed.
Lemma present_tl ls i : present (map (@tl Z) ls) i <-> present ls (S i).
Proof.
  split; intros H l Hl.
  - rewrite <- nth_error_tl. apply H. now apply in_map.
  - apply in_map_iff in Hl as (l0 & <- & Hl). rewrite nth_error_tl. auto.
Qed.

Lemma heads_present (ls : list (list Z)) xs rest : heads ls = Some (xs, rest) -> present ls 0 /\ List.length xs = List.length ls.
Proof.
  intros H. destruct (heads_nth _ _ _ H) as [_ E]. split.
  - intros l Hl N. assert (In None (map (fun l => nth_error l 0) ls)) as X by (rewrite <- N; apply (in_map (fun l => nth_error l 0)), Hl).
    rewrite E in X. apply in_map_iff in X as (x & X & _). discriminate.
  - pose proof (f_equal (@List.length _) E) as L. rewrite !map_length in L. auto.
Qed.

Lemma heads_agree (ls : list (list Z)) x xs rest : heads ls = Some (x :: xs, rest) ->
  reflect (agree ls 0) (forallb (fun y => (y =? x)%Z) (x :: xs)).
Proof.
  intros H. destruct (heads_nth _ _ _ H) as [_ E]. destruct (forallb (fun y => (y =? x)%Z) (x :: xs)) eqn:F; constructor.
  - exists x. intros l Hl. assert (In (nth_error l 0) (map Some (x :: xs))) as X by (rewrite <- E; apply (in_map (fun l => nth_error l 0)), Hl).
    apply in_map_iff in X as (y & <- & Hy). rewrite forallb_forall in F. specialize (F y Hy). apply Z.eqb_eq in F. congruence.
  - intros [d D]. assert (forall y, In y (x :: xs) -> y = d) as X.
    { intros y Hy. assert (In (Some y) (map (fun l => nth_error l 0) ls)) as Y by (rewrite E; apply in_map, Hy).
      apply in_map_iff in Y as (l & Y & Hl). rewrite (D l Hl) in Y. congruence. }
    assert (forallb (fun y => (y =? x)%Z) (x :: xs) = true); [|congruence]. apply forallb_forall. intros y Hy. apply Z.eqb_eq.
    rewrite (X y Hy). symmetry. apply X. now left.
Qed.

Lemma rounds_spec K : forall fuel ls t, ls <> [] -> (forall l ls', ls = l :: ls' -> List.length l <= fuel) ->
  exists n, (forall i, i < n -> agree ls i) /\
    (rounds fuel K t ls = flat_map (multi_step K) (seq t n) /\ ~ present ls n \/
     rounds fuel K t ls = flat_map (multi_step K) (seq t n) ++ [MSync (t + n)] /\ present ls n /\ ~ agree ls n).
Proof.
  induction fuel as [|fuel IH]; intros ls t NE L.
  - exists 0. split; [lia|]. left. split; [reflexivity|]. destruct ls as [|l ls]; [congruence|]. specialize (L l ls eq_refl).
    destruct l; [|cbn in L; lia]. intros P. apply (P []); [now left|reflexivity].
  - cbn [rounds]. destruct (heads ls) as [[[|x xs] rest]|] eqn:H.
    + exfalso. destruct (heads_present _ _ _ H) as [_ X]. destruct ls; [congruence|discriminate].
    + destruct (heads_agree _ _ _ _ H) as [A|A].
      * destruct (heads_nth _ _ _ H) as [-> _]. destruct (IH (map (@tl Z) ls) (S t)) as (n & N1 & N2).
        -- destruct ls; [congruence|discriminate].
        -- intros l ls' E. destruct ls as [|l0 ls0]; [discriminate|]. cbn in E. injection E as <- <-. specialize (L l0 ls0 eq_refl). destruct l0; cbn in *; lia.
        -- exists (S n). split.
           ++ intros [|i] Hi; [exact A|]. apply agree_tl, N1. lia.
           ++ cbn [seq flat_map]. destruct N2 as [[-> N]|(-> & N & N')]; [left|right].
              ** split; [reflexivity|]. intros X. apply N, present_tl, X.
              ** split; [rewrite <- app_assoc; replace (t + S n) with (S t + n) by lia; reflexivity|]. split; [apply present_tl, N|]. intros X. apply N', agree_tl, X.
      * exists 0. split; [lia|]. right. cbn [seq flat_map]. split; [rewrite Nat.add_0_r; reflexivity|]. split; [eapply heads_present; eauto|exact A].
    + exists 0. split; [lia|]. left. split; [reflexivity|]. intros P. apply (P []); [apply heads_none, H|reflexivity].
Qed.

Lemma eqb_list_spec {A} (eqb : A -> A -> bool) : (forall a b, eqb a b = true <-> a = b) -> forall l1 l2, eqb_list eqb l1 l2 = true <-> l1 = l2.
Proof.
  intros H. induction l1 as [|a l1 IH]; destruct l2 as [|b l2]; cbn; split; intros E; try discriminate; auto.
  - apply andb_prop in E as [E1 E2]. f_equal; [apply H, E1|apply IH, E2].
  - injection E as <- <-. rewrite (proj2 (H a a) eq_refl). apply IH. reflexivity.
Qed.

(** ** A run *)

(** The components that take part: those in the tree at a setup, those of the last setup otherwise. *)
Definition takes_part (m : model) (flat : list nat) : Prop :=
  if m_dirty m || m_tdirty m then m_tree m = Some flat else m_flat m = flat.

Definition start_calls (m : model) : list call := if m_dirty m || m_tdirty m then setup_calls m else reset_calls m (m_flat m).

Lemma within_start m : within 0 7 (start_calls m).
Proof. unfold start_calls. destruct (m_dirty m || m_tdirty m); [apply within_setup|]. eapply within_wider; [apply within_reset|lia|lia]. Qed.

Lemma within_prefix {lo hi} (l p rest : list call) : within lo hi l -> l = p ++ rest -> within lo hi p.
Proof. intros W -> e H. apply W. apply in_app_iff. auto. Qed.

Lemma run_calm raises T m flat : takes_part m flat ->
  (forall e, In e (start_calls m ++ flat_map (step_calls m flat) (seq 0 T) ++ finish_calls m flat) -> raises e = false) ->
  run raises T m = (start_calls m ++ flat_map (step_calls m flat) (seq 0 T) ++ finish_calls m flat, if T =? 0 then NothingToRun else Done,
                    Model (m_nodes m) (m_visible m) (m_tree m) flat false false (m_parameter m)).
Proof.
  intros P R. unfold run.
  assert (forall e, In e (start_calls m) -> raising raises e = false) as R1.
  { intros e H. assert (raises e = false) as X by (apply R, in_app_iff; auto). destruct e; cbn; auto.
    exfalso. unfold start_calls in H. unfold takes_part in P. destruct (m_dirty m || m_tdirty m).
    - unfold setup_calls in H. rewrite P in H. unfold reset_calls in H. rewrite !in_app_iff, !in_map_iff in H. cbn in H.
      repeat match goal with H : _ \/ _ |- _ => destruct H | H : exists _, _ |- _ => destruct H | H : _ /\ _ |- _ => destruct H end; discriminate || contradiction.
    - unfold reset_calls in H. rewrite !in_app_iff, !in_map_iff in H. cbn in H.
      repeat match goal with H : _ \/ _ |- _ => destruct H | H : exists _, _ |- _ => destruct H | H : _ /\ _ |- _ => destruct H end; discriminate || contradiction. }
  assert ((if m_dirty m || m_tdirty m then flat_after_setup raises m else m_flat m) = flat) as EF.
  { unfold takes_part in P. unfold flat_after_setup. unfold start_calls in R1. destruct (m_dirty m || m_tdirty m); [|exact P].
    rewrite attempt_none; [cbn; rewrite P; reflexivity|]. intros e H. apply R1. unfold setup_calls. apply in_app_iff. auto. }
  cbv zeta. rewrite EF. fold (start_calls m). rewrite (attempt_none _ (start_calls m) R1). cbn [fst snd].
  rewrite (attempt_none _ (flat_map _ _)).
  2:{ intros e H. assert (raises e = false) as X by (apply R; rewrite !in_app_iff; auto). apply within_steps in H. destruct e; cbn in *; auto; lia. }
  rewrite (attempt_none _ (finish_calls m flat)).
  2:{ intros e H. assert (raises e = false) as X by (apply R; rewrite !in_app_iff; auto). apply within_finish in H. destruct e; cbn in *; auto; lia. }
  reflexivity.
Qed.

(** The flattened list used by [finish]. *)
Definition flat_used (raises : call -> bool) (m : model) : list nat := m_flat (snd (run raises 0 m)).
Lemma run_flat raises T m : m_flat (snd (run raises T m)) = flat_used raises m.
Proof. reflexivity. Qed.

(** Whatever raises before: the calls made are a first part of those of an undisturbed run, and then everything is finished. *)
Lemma run_any raises T m flat : m_flat (snd (run raises T m)) = flat ->
  (forall e, In e (finish_calls m flat) -> raises e = false) ->
  exists p rest, fst (fst (run raises T m)) = p ++ finish_calls m flat /\ start_calls m ++ flat_map (step_calls m flat) (seq 0 T) = p ++ rest /\
    (snd (fst (run raises T m)) <> Raised <-> rest = [] /\ forall e, In e p -> raising raises e = false).
Proof.
  intros EF R. unfold run in EF |- *. cbv zeta in EF |- *. cbn [fst snd m_flat] in EF |- *. rewrite EF. fold (start_calls m).
  rewrite (attempt_none _ (finish_calls m flat)).
  2:{ intros e H. specialize (R e H). apply within_finish in H. destruct e; cbn in *; auto; lia. }
  cbn [fst snd]. rewrite andb_true_r. destruct (snd (attempt (raising raises) (start_calls m))) eqn:S1.
  - destruct (attempt_true _ _ S1) as [E1 C1]. rewrite E1. cbn [andb].
    destruct (snd (attempt (raising raises) (flat_map (step_calls m flat) (seq 0 T)))) eqn:S2.
    + destruct (attempt_true _ _ S2) as [E2 C2]. rewrite E2. exists (start_calls m ++ flat_map (step_calls m flat) (seq 0 T)), [].
      split; [now rewrite app_assoc|]. split; [now rewrite app_nil_r|]. split; [intros _; split; [reflexivity|]|intros _; destruct (T =? 0); discriminate].
      intros e H. apply in_app_iff in H as [H|H]; auto.
    + destruct (attempt_false _ _ S2) as (l1 & e & l2 & L & L' & Re & _). rewrite L'. exists (start_calls m ++ l1 ++ [e]), l2.
      split; [rewrite <- !app_assoc; reflexivity|]. split; [rewrite L, <- !app_assoc; reflexivity|]. split; [congruence|].
      intros [_ C]. exfalso. rewrite (C e) in Re; [discriminate|]. rewrite !in_app_iff. cbn. auto.
  - destruct (attempt_false _ _ S1) as (l1 & e & l2 & L & L' & Re & _). rewrite L'. cbn [andb fst app].
    exists (l1 ++ [e]), (l2 ++ flat_map (step_calls m flat) (seq 0 T)). split; [reflexivity|]. split; [rewrite L, <- !app_assoc; reflexivity|]. split; [congruence|].
    intros [_ C]. exfalso. rewrite (C e) in Re; [discriminate|]. rewrite in_app_iff. cbn. auto.
Qed.
