(** C45 for a node of a model: what the licence offers is the node's max_flow, what the solver commits is what it takes. *)
From Verif Require Import Base Calendar_spec Calendar_proofs LP_model Sys_model RouteLP_model RouteLP_spec EdgeLP_model EdgeLP_spec LP_check RouteLP_props EdgeLP_props.
From Verif Require Import Licences_model Licences_spec Licences_proofs Licences_props.
From Coq Require Import Qround.
Local Open Scope Q_scope.

(** Bounds reach the solver rounded, so the flow can be above the offer by 1e-8. *)
Definition nearly (s : step) (v : Q) : Prop := 0 <= s_flow s <= v + eps8.
Definition whole (steps : list step) : Prop := forall s, In s steps -> exists n : Z, s_time s == inject_Z n.

(** A licence whose rest [r'] is so much larger that flows nearly within the one with rest [r] are within it, with [L] days left. *)
Definition roomier (L r r' : Q) : Prop := r + eps8 * L <= r' /\ (r < 0 -> r + 2 * eps8 * L <= r').
Definition slack : Q := 1000 * eps8.

Lemma whole_left y s : starts_in y s -> (exists n : Z, s_time s == inject_Z n) -> days_left y (s_time s) == year_start (y + 1) - s_time s.
Proof. intros H [n N]. unfold days_left. assert (E : Qfloor (s_time s) = n) by (rewrite N; apply Qfloor_Z). rewrite E, N. reflexivity. Qed.
Lemma left_small y s : starts_in y s -> year_start (y + 1) - s_time s <= 366.
Proof.
  intros [H _]. unfold year_start in *. rewrite jan1_succ, inject_Z_plus. pose proof (year_days_bounds y).
  assert (inject_Z (year_days y) <= inject_Z 366) by (rewrite <- Zle_Qle; lia). change (inject_Z 366) with 366 in *. lra.
Qed.
Lemma eps8_pos : 0 < eps8. Proof. reflexivity. Qed.

Lemma room_step L d v r r' q : 0 < d -> d < L -> v * L == r -> roomier L r r' -> 0 <= q <= v + eps8 ->
  roomier (L - d) (storage_after r q d) (storage_after r' q d).
Proof.
  intros D0 D1 V [Ra Rb] [N1 N2]. pose proof eps8_pos as EP. revert EP Ra Rb N2. unfold roomier. generalize eps8 as e. intros e EP Ra Rb N2.
  assert (FD : q * d <= (v + e) * d) by (apply Qmult_le_compat_r; lra).
  assert (F0 : 0 <= q * d) by (apply Qmult_le_0_compat; lra).
  assert (VD : v * d == r - v * (L - d)) by lra.
  assert (E0 : 0 <= e * (L - d)) by (apply Qmult_le_0_compat; lra). assert (E1 : 0 <= e * d) by (apply Qmult_le_0_compat; lra).
  assert (G : r - q * d < 0 -> 0 + e * (L - d) <= r' - q * d).
  { intros H. destruct (Qlt_le_dec r 0) as [Z0|Z0].
    - specialize (Rb Z0). assert (VE : - e <= v) by lra. assert (- e * (L - d) <= v * (L - d)) by (apply Qmult_le_compat_r; lra). lra.
    - assert (0 <= v) by (destruct (Qlt_le_dec v 0) as [X|X]; [exfalso; assert (0 < - v * L) by (apply Qmult_lt_0_compat; lra); lra|exact X]).
      assert (0 <= v * (L - d)) by (apply Qmult_le_0_compat; lra). lra. }
  unfold storage_after. cbv zeta. destruct (qltbP (r - q * d) 0) as [A|A]; destruct (qltbP (r' - q * d) 0) as [B|B]; try specialize (G A); split; try (intros; lra); lra.
Qed.
Lemma room amount : forall steps st st' p, consecutive steps -> whole steps -> l_prev_year st = l_prev_year st' ->
  (forall x r, steps = x :: r -> l_prev_year st = Some (step_year (s_time x)) ->
     roomier (year_start (step_year (s_time x) + 1) - s_time x) (l_remaining st) (l_remaining st')) ->
  Forall2 nearly steps (annual_run amount st p steps) -> complies steps (annual_run (amount + slack) st' p steps).
Proof.
  induction steps as [|x r IH]; intros st st' p C W Y R F; [constructor|].
  cbn [annual_run] in *. inversion F as [|? ? ? ? N F']; subst. clear F.
  pose proof (starts_in_year x) as SI. set (y := step_year (s_time x)) in *.
  pose proof (whole_left y x SI (W x (or_introl eq_refl))) as WL. pose proof (left_small y x SI) as LS. set (L := year_start (y + 1) - s_time x) in *.
  assert (LP : 0 < L) by (unfold L; destruct SI; lra). pose proof eps8_pos as EP.
  set (s1 := annual_before amount st p (s_time x)) in *. set (s1' := annual_before (amount + slack) st' p (s_time x)).
  assert (R1 : roomier L (l_remaining s1) (l_remaining s1')).
  { assert (DEC : l_prev_year st = Some y \/ l_prev_year st <> Some y) by (destruct (l_prev_year st) as [z|]; [destruct (Z.eq_dec z y); [left|right]; congruence|right; discriminate]).
    destruct DEC as [E|E].
    - unfold s1, s1'. rewrite (annual_before_same amount st p y x SI E), (annual_before_same (amount + slack) st' p y x SI) by congruence. exact (R x r eq_refl E).
    - destruct (annual_before_new amount st p y x SI E) as [A _]. destruct (annual_before_new (amount + slack) st' p y x SI) as [B _]; [congruence|].
      fold s1 in A. fold s1' in B. unfold roomier. rewrite A, B. assert (eps8 * L <= eps8 * 366) by (apply Qmult_le_l; lra). unfold slack. split; [|intros _]; lra. }
  pose proof (annual_value_left y s1 x SI) as V. pose proof (annual_value_left y s1' x SI) as V'. rewrite WL in V, V'.
  set (v := annual_value s1 (s_time x)) in *. set (v' := annual_value s1' (s_time x)) in *.
  assert (VV : v + eps8 <= v').
  { apply (Qmult_le_r _ _ L LP). destruct R1 as [R1 _]. rewrite Qmult_plus_distr_l, V, V'. exact R1. }
  destruct N as [N1 N2]. constructor; [split; lra|].
  apply IH with (p := s_flow x) (st := annual_after s1 (s_flow x) (s_days x)); [exact (consecutive_tail _ _ C)|intros s I; apply W; now right|unfold s1, s1'; cbn [annual_after l_prev_year]; rewrite !annual_before_year; reflexivity| |exact F'].
  intros x' r' -> E. cbn [annual_after l_prev_year l_remaining] in *. unfold s1 in E. rewrite annual_before_year in E. fold y in E. assert (E' : step_year (s_time x') = y) by congruence. rewrite E'.
  destruct C as [DP [T _]]. pose proof (starts_in_year x') as SI'. rewrite E' in SI'.
  assert (DL : year_start (y + 1) - s_time x' == L - s_days x) by (unfold L; rewrite T; ring).
  assert (D1 : s_days x < L) by (destruct SI' as [_ SI']; unfold L; lra).
  destruct (room_step L (s_days x) v (l_remaining s1) (l_remaining s1') (s_flow x)) as [X1 X2]; try assumption; [split; assumption|].
  unfold roomier. rewrite DL. split; assumption.
Qed.

Lemma nearly_licensed amount licence y steps : consecutive steps -> whole steps -> (exists s, In s steps /\ starts_in y s) ->
  Forall2 nearly steps (annual_run amount (annual_reset amount licence) 0 steps) -> year_volume y steps <= amount + (1 # 100000).
Proof.
  intros C W Y F. assert (E : amount + (1 # 100000) == amount + slack) by (unfold slack, eps8; ring). rewrite E.
  apply (C45_whole_days (amount + slack) licence y steps C W Y). apply (room amount steps (annual_reset amount licence) (annual_reset (amount + slack) licence) 0 C W); [reflexivity| |exact F].
  intros x r -> _. cbn [annual_reset l_remaining]. pose proof (left_small _ x (starts_in_year x)) as LS. set (L := year_start (step_year (s_time x) + 1) - s_time x) in *.
  pose proof eps8_pos. assert (eps8 * L <= eps8 * 366) by (apply Qmult_le_l; lra). unfold roomier, slack. split; [|intros _]; lra.
Qed.

(** C45: if the max_flow of a node is an annual licence, the year's total of what the solver commits to the node is no more than the licence, but
    for 1e-5 (timesteps of whole days; any network, costs and demands; any feasible answers). *)
Record solved_step := Solved { w_time : Q; w_data : data; w_answer : nat -> Q }.
Theorem C45_in_model (triv : bool) (S : sys) (n : nat) (amount : Q) (licence : annual) (y : Z) (run : list solved_step) : wf_sys S ->
  In n (s_nodes S) -> is_flow_node (s_kind S n) = true ->
  let steps := map (fun w => {| s_time := w_time w; s_days := d_days (w_data w); s_flow := committed triv S (w_answer w) n |}) run in
  consecutive steps -> (forall w, In w run -> exists k : Z, w_time w == inject_Z k) -> (exists s, In s steps /\ starts_in y s) ->
  Forall2 (fun w v => solved triv S (w_data w) (w_answer w) /\ d_max (w_data w) n = Fin v) run (annual_run amount (annual_reset amount licence) 0 steps) ->
  year_volume y steps <= amount + (1 # 100000).
Proof.
  intros W I K steps C H Y F. apply (nearly_licensed amount licence y steps C).
  - intros s J. apply in_map_iff in J as [w [<- J]]. exact (H w J).
  - exact Y.
  - revert F. generalize (annual_run amount (annual_reset amount licence) 0 steps). unfold steps. clear -W I K. induction run as [|w run IH]; intros l F; inversion F as [|? v ? l' [A B] F']; subst; constructor.
    + destruct (C13_flow_in_bounds triv S _ _ n W A I K) as [P [_ U]]. rewrite B in U. split; [exact P|exact U].
    + exact (IH l' F').
Qed.
Print Assumptions C45_in_model.

(** The same for the edge solver. *)
Theorem C45_edge_in_model (triv : bool) (S : sys) (n : nat) (amount : Q) (licence : annual) (y : Z) (run : list solved_step) : regular S ->
  In n (s_nodes S) -> is_flow_node (s_kind S n) = true ->
  let steps := map (fun w => {| s_time := w_time w; s_days := d_days (w_data w); s_flow := ecommitted S (w_answer w) n |}) run in
  consecutive steps -> (forall w, In w run -> exists k : Z, w_time w == inject_Z k) -> (exists s, In s steps /\ starts_in y s) ->
  Forall2 (fun w v => (edge_solved triv S (w_data w) (w_answer w) /\ inner_only S (w_answer w)) /\ d_max (w_data w) n = Fin v)
    run (annual_run amount (annual_reset amount licence) 0 steps) ->
  year_volume y steps <= amount + (1 # 100000).
Proof.
  intros W I K steps C H Y F. apply (nearly_licensed amount licence y steps C).
  - intros s J. apply in_map_iff in J as [w [<- J]]. exact (H w J).
  - exact Y.
  - revert F. generalize (annual_run amount (annual_reset amount licence) 0 steps). unfold steps. clear -W I K. induction run as [|w run IH]; intros l F; inversion F as [|? v ? l' [[A1 A2] B] F']; subst; constructor.
    + destruct (C13_edge_flow_in_bounds triv S _ _ n W A2 A1 I K) as [P [_ U]]. rewrite B in U. split; [exact P|exact U].
    + exact (IH l' F').
Qed.
Print Assumptions C45_edge_in_model.

(** C123: if the max_flow of a node is a storage licence, what the solver commits to it in the whole run is no more than the licence, but for 1e-8
    in each timestep (timesteps of at most a day). *)
Theorem C123_in_model (triv : bool) (S : sys) (n : nat) (amount : Q) (run : list solved_step) : wf_sys S -> 0 <= amount ->
  In n (s_nodes S) -> is_flow_node (s_kind S n) = true -> (forall w, In w run -> 0 <= d_days (w_data w) <= 1) ->
  let steps := map (fun w => {| s_time := w_time w; s_days := d_days (w_data w); s_flow := committed triv S (w_answer w) n |}) run in
  Forall2 (fun w v => solved triv S (w_data w) (w_answer w) /\ d_max (w_data w) n = Fin v) run (storage_offers (storage_reset amount) steps) ->
  qsum (map (fun w => committed triv S (w_answer w) n * d_days (w_data w)) run) <= amount + eps8 * inject_Z (Z.of_nat (length run)).
Proof.
  intros W A I K D steps F. replace (length run) with (length steps) by apply map_length.
  assert (T : qsum (map (fun w => committed triv S (w_answer w) n * d_days (w_data w)) run) == taken steps) by (unfold taken, steps; rewrite map_map; reflexivity).
  rewrite T. apply storage_taken; [pose proof eps8_pos; lra|exact A| |].
  - intros s J. apply in_map_iff in J as [w [<- J]]. exact (D w J).
  - revert F. unfold storage_reset. generalize (storage_offers amount steps). unfold steps. clear -W I K. induction run as [|w run IH]; intros l F; inversion F as [|? v ? l' [X B] F']; subst; constructor.
    + destruct (C13_flow_in_bounds triv S _ _ n W X I K) as [P [_ U]]. rewrite B in U. split; [exact P|exact U].
    + exact (IH l' F').
Qed.
Print Assumptions C123_in_model.

(** The network of RouteLP_props.v for two timesteps of two days, input 1 (which takes 13 a day) having a licence of 7300 a year: it is offered 20
    a day, then 7274 / 363. *)
Definition licensed (v : Q) : data := {| d_cost := d_cost ex_data; d_min := d_min ex_data; d_max := fun n => if Nat.eqb n 1 then Fin v else d_max ex_data n; d_factors := d_factors ex_data;
  d_minvol := d_minvol ex_data; d_maxvol := d_maxvol ex_data; d_vol := d_vol ex_data; d_active := d_active ex_data; d_days := 2 |}.
Definition ex_start : Z := day_number (Date 2015 1 1).
Definition ex_steps : list step := map (fun k => {| s_time := inject_Z (ex_start + k); s_days := 2; s_flow := committed false ex_sys ex_x 1 |}) [0; 2]%Z.
Definition ex_offers : list Q := annual_run 7300 (annual_reset 7300 {| l_remaining := 0; l_prev_year := None |}) 0 ex_steps.
Definition ex_run : list solved_step :=
  [Solved (inject_Z ex_start) (licensed (nth 0 ex_offers 0)) ex_x; Solved (inject_Z (ex_start + 2)) (licensed (nth 1 ex_offers 0)) ex_x].
Example licensed_example : map Qred ex_offers = [20; 7274 # 363] /\ consecutive ex_steps /\ year_volume 2015 ex_steps == 52 /\
  Forall2 (fun w v => solved false ex_sys (w_data w) (w_answer w) /\ d_max (w_data w) 1%nat = Fin v) ex_run ex_offers.
Proof.
  split; [vm_compute; reflexivity|]. split; [vm_compute; repeat split; reflexivity|]. split; [vm_compute; reflexivity|].
  constructor; [|constructor; [|constructor]]; (split; [apply solved_check_sound; vm_compute; reflexivity|reflexivity]).
Qed.
