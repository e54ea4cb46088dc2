(** Volumes of the storages in a run, and when licences are reset in it. *)
From Verif Require Import Base Ring Calendar_spec LP_model Storage_model Periodic_model Nodes_model Nodes_spec Nodes_proofs.
Local Open Scope nat_scope.
Local Open Scope list_scope.
Local Open Scope Q_scope.

(** In a state that follows [x], the beginning of a timestep, node [n] has taken up its flow and [extra]. *)
Definition takes_up (b : bounds) (days : Q) (x h : nstate) (n : nat) (extra : option Q) : Prop :=
  vol h = volume_after (vol x) (flow h) days (b_max b n) (b_min b n) extra
  /\ pc h = ratio (vol h) (b_max b n).

Lemma at_node g b0 b t cs st n d : nth_error g n = Some d -> length st = length g ->
  exists st1 y, get (node_step g b0 b t cs st) n = after_node (n_class d) n b (ts_days t) st1
    /\ get st1 n = with_flow (get (before_all g b0 t st) n) y.
Proof.
  intros H L. unfold node_step. destruct (commits_other g cs n (before_all g b0 t st)) as [y Y].
  set (mid := fold_left (commit g) cs (before_all g b0 t st)) in *.
  assert (length mid = length g) as LM by (unfold mid; now rewrite commits_length, before_length).
  destruct (after_get g b (ts_days t) mid n d H LM) as [st1 [E [_ [D _]]]]. exists st1, y. split; [exact E|]. rewrite D by lia. exact Y.
Qed.

Lemma storage_takes g b0 b t cs st n d i : nth_error g n = Some d -> length st = length g -> n_class d = Storage i ->
  takes_up b (ts_days t) (get (before_all g b0 t st) n) (get (node_step g b0 b t cs st) n) n None.
Proof.
  intros H L K. destruct (at_node g b0 b t cs st n d H L) as [st1 [y [E F]]]. rewrite E, K. cbn [after_node]. rewrite F. split; reflexivity.
Qed.

Lemma virtual_takes g b0 b t cs st n d i ms v : nth_error g n = Some d -> length st = length g -> n_class d = Virtual i ms v ->
  (forall k u, v <> Rolling k u) -> active (get (before_all g b0 t st) n) = true ->
  takes_up b (ts_days t) (get (before_all g b0 t st) n) (get (node_step g b0 b t cs st) n) n None.
Proof.
  intros H L K R A. destruct (at_node g b0 b t cs st n d H L) as [st1 [y [E F]]]. rewrite E, K.
  assert (active (get st1 n) = true) as AC by (rewrite F; exact A).
  destruct v; try (exfalso; now eapply R); cbn [after_node]; rewrite AC, F; split; reflexivity.
Qed.

Lemma virtual_idle g b0 b t cs st n d i ms v : nth_error g n = Some d -> length st = length g -> n_class d = Virtual i ms v ->
  (forall k u, v <> Rolling k u) -> active (get (before_all g b0 t st) n) = false ->
  vol (get (node_step g b0 b t cs st) n) = vol (get (before_all g b0 t st) n) /\ pc (get (node_step g b0 b t cs st) n) = pc (get (before_all g b0 t st) n).
Proof.
  intros H L K R A. destruct (at_node g b0 b t cs st n d H L) as [st1 [y [E F]]]. rewrite E, K.
  assert (active (get st1 n) = false) as AC by (rewrite F; exact A).
  destruct v; try (exfalso; now eapply R); cbn [after_node]; rewrite AC, F; split; reflexivity.
Qed.

(** What [after] leaves of the licence's counters. *)
Lemma virtual_counters g b0 b t cs st n d i ms v : nth_error g n = Some d -> length st = length g -> n_class d = Virtual i ms v ->
  season (get (node_step g b0 b t cs st) n) = season (get (before_all g b0 t st) n)
  /\ monthcount (get (node_step g b0 b t cs st) n) = monthcount (get (before_all g b0 t st) n).
Proof.
  intros H L K. destruct (at_node g b0 b t cs st n d H L) as [st1 [y [E F]]]. rewrite E, K.
  destruct v; cbn [after_node]; destruct (active (get st1 n)); rewrite F; split; reflexivity.
Qed.

(** ** Rolling storages *)
Lemma rolling_takes g b0 b t cs st n d i ms k u : nth_error g n = Some d -> length st = length g -> n_class d = Virtual i ms (Rolling k u) ->
  active (get st n) = true -> let h := node_step g b0 b t cs st in
  takes_up b (ts_days t) (get st n) (get h n) n (Some (nth (ptr (get st n)) (mem (get st n)) 0))
  /\ mem (get h n) = upd (mem (get st n)) (ptr (get st n)) (- flow (get h n) * ts_days t)
  /\ ptr (get h n) = ((ptr (get st n) + 1) mod (k - 1))%nat
  /\ active (get h n) = true.
Proof.
  intros H L K A h. destruct (at_node g b0 b t cs st n d H L) as [st1 [y [E F]]].
  rewrite (before_get g b0 t st n d H L), K in F. cbn [before_node] in F. subst h. rewrite E, K. cbn [after_node].
  assert (active (get st1 n) = true) as AC by (rewrite F; exact A).
  rewrite AC, F. repeat split; try reflexivity. exact A.
Qed.

(** What has been charged in the timesteps: minus flow times days. *)
Fixpoint charges (steps : list (tstep * bounds * bounds * list (nat * Q))) (hs : list state) (n : nat) : list Q :=
  match steps, hs with
  | (t, _, _, _) :: r, h :: hs => - flow (get h n) * ts_days t :: charges r hs n
  | _, _ => []
  end.

Lemma nth_tl_app {A} (l : list A) c r d j : l <> [] -> nth j (tl l ++ c :: r) d = nth (S j) (l ++ c :: r) d.
Proof. intros H. destruct l as [|a l]; [easy|]. reflexivity. Qed.

Lemma rolling_run g n d i ms k u : nth_error g n = Some d -> n_class d = Virtual i ms (Rolling k u) ->
  forall steps st j p h t b0 b cs, length st = length g -> active (get st n) = true ->
  length (mem (get st n)) = (k - 1)%nat -> (ptr (get st n) < k - 1)%nat ->
  nth_error (st :: history g steps st) j = Some p -> nth_error (history g steps st) j = Some h -> nth_error steps j = Some (t, b0, b, cs) ->
  takes_up b (ts_days t) (get p n) (get h n) n
    (Some (nth j (unroll (mem (get st n)) (ptr (get st n)) ++ charges steps (history g steps st) n) 0)).
Proof.
  intros H K. induction steps as [|[[[t b0] b] cs] r IH]; intros st j p h t' b0' b' cs' L A LM P Ep Eh Es; [destruct j; discriminate|].
  destruct (rolling_takes g b0 b t cs st n d i ms k u H L K A) as [T [M [PT AC]]]. cbn [history charges] in *.
  set (st' := node_step g b0 b t cs st) in *.
  assert (unroll (mem (get st n)) (ptr (get st n)) <> []) as NE.
  { intros Z. apply (f_equal (@length Q)) in Z. rewrite unroll_length in Z by lia. cbn in Z. lia. }
  destruct j as [|j].
  - cbn in Ep, Eh, Es. injection Ep as <-. injection Eh as <-. injection Es as <- <- <- <-.
    rewrite app_nth1 by (rewrite unroll_length by lia; lia).
    rewrite <- (unroll_head (mem (get st n)) (ptr (get st n)) 0) in T by lia.
    destruct (unroll (mem (get st n)) (ptr (get st n))) as [|a l]; [easy|]. exact T.
  - cbn [nth_error] in Ep, Eh, Es.
    assert (length st' = length g) as L' by (unfold st'; now rewrite step_length).
    specialize (IH st' j p h t' b0' b' cs' L' AC). rewrite M, upd_length, PT in IH.
    specialize (IH LM). rewrite <- LM in IH at 1. rewrite <- LM in IH.
    assert ((ptr (get st n) + 1) mod length (mem (get st n)) < length (mem (get st n)))%nat as B by (apply Nat.mod_upper_bound; lia).
    specialize (IH B Ep Eh Es). rewrite unroll_step in IH by lia. rewrite <- app_assoc in IH. cbn [app] in IH.
    rewrite nth_tl_app in IH by exact NE. exact IH.
Qed.

Lemma charges_nth g n : forall steps st j h t b0 b cs, nth_error (history g steps st) j = Some h -> nth_error steps j = Some (t, b0, b, cs) ->
  nth j (charges steps (history g steps st) n) 0 = - flow (get h n) * ts_days t.
Proof.
  induction steps as [|[[[t0 b00] b1] cs0] r IH]; intros st j h t b0 b cs Eh Es; [destruct j; discriminate|].
  cbn [history charges] in *. destruct j as [|j]; cbn [nth_error nth] in *.
  - now injection Eh as <-; injection Es as <- <- <- <-.
  - now apply (IH _ j h t b0 b cs).
Qed.

Lemma rolling_reset g b st n d i ms k u : nth_error g n = Some d -> n_class d = Virtual i ms (Rolling k u) -> n_child d = false -> length st = length g ->
  let s := get (reset_all g b st) n in active s = true /\ mem s = repeat u (k - 1) /\ ptr s = 0%nat.
Proof. intros H K C L. cbv zeta. rewrite (reset_get g b st n d H L), C, K. repeat split; reflexivity. Qed.

(** ** Licences that reset themselves *)
Definition put_back (i : initial) (now : Q) (r : option bool) (v : Q) : Q :=
  match r with
  | Some use => match reset_storage_only i now use with Some (w, _) => w | None => v end
  | None => v
  end.

Lemma put_volume_vol s r : vol (put_volume s r) = match r with Some (v, _) => v | None => vol s end.
Proof. now destruct r as [[v p]|]. Qed.

Lemma annual_steps g n d i ms c : nth_error g n = Some d -> n_class d = Virtual i ms (Annual c) ->
  forall steps st j p x t b0 b cs, length st = length g ->
  nth_error (st :: history g steps st) j = Some p -> nth_error (during g steps st) j = Some x -> nth_error steps j = Some (t, b0, b, cs) ->
  exists r, nth_error (annual_run c (e_annual (season (get st n))) (map (fun s => ts_p (fst (fst (fst s)))) steps)) j = Some r
    /\ vol (get x n) = put_back i (b_now b0 n) r (vol (get p n)).
Proof.
  intros H K. induction steps as [|[[[t b0] b] cs] r IH]; intros st j p x t' b0' b' cs' L Ep Ex Es; [destruct j; discriminate|].
  cbn [map fst annual_run]. cbn [history during] in *.
  pose proof (before_get g b0 t st n d H L) as BG. rewrite K in BG. cbn [before_node] in BG.
  change (season (with_flow (get st n) 0)) with (season (get st n)) in BG.
  destruct (annual_before c (e_annual (season (get st n))) (ts_p t)) as [a e] eqn:AB.
  destruct j as [|j]; cbn [nth_error] in *.
  - injection Ep as <-. injection Ex as <-. injection Es as <- <- <- <-. exists e. split; [reflexivity|].
    rewrite BG. destruct e as [use|]; [|reflexivity]. rewrite put_volume_vol. unfold put_back. now destruct (reset_storage_only _ _ _) as [[v q]|].
  - assert (length (node_step g b0 b t cs st) = length g) as L' by (now rewrite step_length).
    destruct (IH (node_step g b0 b t cs st) j p x t' b0' b' cs' L' Ep Ex Es) as [e' [E1 E2]]. exists e'. split; [|exact E2].
    destruct (virtual_counters g b0 b t cs st n d i ms (Annual c) H L K) as [CS _]. rewrite CS, BG in E1.
    destruct e as [use|]; [rewrite put_volume_season in E1|]; exact E1.
Qed.

Lemma seasonal_steps g n d i ms c : nth_error g n = Some d -> n_class d = Virtual i ms (Seasonal c) ->
  forall steps st j x, length st = length g -> nth_error (during g steps st) j = Some x ->
  nth_error (fst (seasonal_run c (season (get st n)) (map (fun s => ts_p (fst (fst (fst s)))) steps))) j = Some (active (get x n)).
Proof.
  intros H K. induction steps as [|[[[t b0] b] cs] r IH]; intros st j x L Ex; [destruct j; discriminate|].
  cbn [map fst seasonal_run]. cbn [during] in *.
  pose proof (before_get g b0 t st n d H L) as BG. rewrite K in BG. cbn [before_node] in BG.
  change (season (with_flow (get st n) 0)) with (season (get st n)) in BG.
  destruct (seasonal_before c (season (get st n)) (ts_p t)) as [a e] eqn:AB.
  assert (season (get (before_all g b0 t st) n) = a) as SA by (rewrite BG; destruct e as [use|]; [now rewrite put_volume_season|reflexivity]).
  assert (length (node_step g b0 b t cs st) = length g) as L' by (now rewrite step_length).
  destruct (virtual_counters g b0 b t cs st n d i ms (Seasonal c) H L K) as [CS _].
  specialize (IH (node_step g b0 b t cs st)). rewrite CS, SA in IH.
  destruct (seasonal_run c a (map _ r)) as [l s''] eqn:SR. cbn [fst] in *.
  destruct j as [|j]; cbn [nth_error] in *.
  - injection Ex as <-. unfold active. now rewrite SA.
  - now apply IH.
Qed.

Lemma monthly_steps g n d i ms k init use : nth_error g n = Some d -> n_class d = Virtual i ms (Monthly k init use) ->
  forall steps st j p x t b0 b cs, length st = length g ->
  nth_error (st :: history g steps st) j = Some p -> nth_error (during g steps st) j = Some x -> nth_error steps j = Some (t, b0, b, cs) ->
  exists r, nth_error (monthly_run k (monthcount (get st n)) (map (fun s => mon (p_date (ts_p (fst (fst (fst s)))))) steps)) j = Some r
    /\ vol (get x n) = put_back i (b_now b0 n) (if r then Some use else None) (vol (get p n)).
Proof.
  intros H K. induction steps as [|[[[t b0] b] cs] r IH]; intros st j p x t' b0' b' cs' L Ep Ex Es; [destruct j; discriminate|].
  cbn [map fst monthly_run]. cbn [history during] in *.
  pose proof (before_get g b0 t st n d H L) as BG. rewrite K in BG. cbn [before_node] in BG.
  change (monthcount (with_flow (get st n) 0)) with (monthcount (get st n)) in BG.
  destruct (monthly_before k (monthcount (get st n)) (mon (p_date (ts_p t)))) as [a e] eqn:AB.
  destruct j as [|j]; cbn [nth_error] in *.
  - injection Ep as <-. injection Ex as <-. injection Es as <- <- <- <-. exists e. split; [reflexivity|].
    rewrite BG. destruct e; [|reflexivity]. rewrite put_volume_vol. unfold put_back. now destruct (reset_storage_only _ _ _) as [[v q]|].
  - assert (length (node_step g b0 b t cs st) = length g) as L' by (now rewrite step_length).
    destruct (IH (node_step g b0 b t cs st) j p x t' b0' b' cs' L' Ep Ex Es) as [e' [E1 E2]]. exists e'. split; [|exact E2].
    destruct (virtual_counters g b0 b t cs st n d i ms _ H L K) as [_ CS]. rewrite CS, BG in E1.
    destruct e; [|exact E1].
    destruct (put_volume_rest (with_month (with_flow (get st n) 0) a) (reset_storage_only i (b_now b0 n) use)) as [_ [_ Z]]. rewrite Z in E1. exact E1.
Qed.

Lemma periodic_reset g b st n d i ms v : nth_error g n = Some d -> n_class d = Virtual i ms v -> n_child d = false -> length st = length g ->
  let s := get (reset_all g b st) n in
  match v with
  | Annual _ => e_annual (season s) = annual_reset
  | Seasonal _ => season s = {| e_annual := annual_reset; e_last_active_year := e_last_active_year (season (get st n)) |}
  | Monthly _ init _ => monthcount s = monthly_reset init
  | _ => True
  end.
Proof. intros H K C L. cbv zeta. rewrite (reset_get g b st n d H L), C, K. destruct v; reflexivity. Qed.

Lemma reset_volume g b st n d i : nth_error g n = Some d -> n_child d = false -> length st = length g ->
  (n_class d = Storage i \/ exists ms v, n_class d = Virtual i ms v) -> starts i ->
  get_initial_volume i = Some (vol (get (reset_all g b st) n)) /\ get_initial_pc i = Some (pc (get (reset_all g b st) n)).
Proof.
  intros H C L K [v0 [p0 [V P]]]. rewrite (reset_get g b st n d H L), C.
  destruct K as [->|[ms [v ->]]]; cbn [reset_node]; unfold reset_storage_only; rewrite V, P; [split; reflexivity|].
  destruct v; split; reflexivity.
Qed.

(** The state before a timestep and the one at its beginning. *)
Lemma step_between g steps st j p h x t b0 b cs :
  nth_error (st :: history g steps st) j = Some p -> nth_error (history g steps st) j = Some h -> nth_error (during g steps st) j = Some x ->
  nth_error steps j = Some (t, b0, b, cs) -> h = node_step g b0 b t cs p /\ x = before_all g b0 t p /\ length p = length st.
Proof.
  revert st j. induction steps as [|[[[t' b0'] b'] cs'] r IH]; intros st j Ep Eh Ex Es; [destruct j; discriminate|].
  cbn [history during] in *. destruct j as [|j]; cbn [nth_error] in *.
  - injection Ep as <-. injection Eh as <-. injection Ex as <-. injection Es as <- <- <- <-. easy.
  - destruct (IH _ j Ep Eh Ex Es) as [A [B D]]. now rewrite step_length in D.
Qed.
