(** C15, C22-C25 for the storages of a model that is run: what the other files prove about the formulas holds of the volumes in it. *)
From Verif Require Import Base Ring Calendar_spec LP_model Storage_model Periodic_model Periodic_spec Periodic_proofs
  Nodes_model Nodes_spec Nodes_proofs Nodes_volumes Nodes_props.
Local Open Scope nat_scope.
Local Open Scope list_scope.
Local Open Scope Q_scope.

(** A run, timestep number [j]: the state before it, the state that the solver sees, the state after it. *)
Definition timestep (g : list node) (steps : steps_t) (st : state) (j : nat) (p x h : state) (t : tstep) (b0 b : bounds) : Prop :=
  nth_error (st :: history g steps st) j = Some p /\ nth_error (during g steps st) j = Some x /\ nth_error (history g steps st) j = Some h
  /\ exists cs, nth_error steps j = Some (t, b0, b, cs).

(** [v] is farther than the tolerance from the bounds of [n] and between them. *)
Definition well_inside (b : bounds) (n : nat) (v : Q) : Prop :=
  b_min b n + eps6 <= v /\ match b_max b n with Fin m => v <= m - eps6 | PInf => True | NInf => False end.
(** [w] is [v], or a bound of [n] that is nearer to it than the tolerance. *)
Definition nearly (b : bounds) (n : nat) (v w : Q) : Prop :=
  w == v \/ (qabs (v - w) < eps6 /\ (w == b_min b n \/ b_max b n = Fin w)) \/
  (exists m, b_max b n = Fin m /\ qabs (v - m) < eps6 /\ qabs (m - b_min b n) < eps6 /\ w == b_min b n).

Lemma snap_inside b n v : well_inside b n v -> snap v (b_max b n) (b_min b n) == v.
Proof.
  intros [A B]. unfold snap. assert (0 < eps6) as E by (unfold eps6; lra).
  assert (qltb (qabs (v - b_min b n)) eps6 = false) as M.
  { destruct (qltbP (qabs (v - b_min b n)) eps6) as [K|K]; [|reflexivity]. exfalso. revert K. unfold qabs. qifs; lra. }
  destruct (b_max b n) as [|m|].
  - easy.
  - assert (qltb (qabs (v - m)) eps6 = false) as X.
    { destruct (qltbP (qabs (v - m)) eps6) as [K|K]; [|reflexivity]. exfalso. revert K. unfold qabs. qifs; lra. }
    rewrite X, M. reflexivity.
  - rewrite M. reflexivity.
Qed.

Lemma snap_nearly b n v : nearly b n v (snap v (b_max b n) (b_min b n)).
Proof.
  unfold snap, nearly. destruct (b_max b n) as [|m|].
  - destruct (qltbP (qabs (v - b_min b n)) eps6) as [K|K]; [right; left; split; [exact K|left; reflexivity]|left; reflexivity].
  - destruct (qltbP (qabs (v - m)) eps6) as [J|J].
    + destruct (qltbP (qabs (m - b_min b n)) eps6) as [K|K].
      * right. right. exists m. split; [reflexivity|]. split; [exact J|]. split; [exact K|reflexivity].
      * right. left. split; [exact J|]. right. reflexivity.
    + destruct (qltbP (qabs (v - b_min b n)) eps6) as [K|K]; [right; left; split; [exact K|left; reflexivity]|left; reflexivity].
  - destruct (qltbP (qabs (v - b_min b n)) eps6) as [K|K]; [right; left; split; [exact K|left; reflexivity]|left; reflexivity].
Qed.

Lemma clamp_inside b n v : well_inside b n v -> clamp v (b_max b n) (b_min b n) == v.
Proof.
  intros [A B]. unfold clamp. assert (0 < eps6) as E by (unfold eps6; lra). destruct (b_max b n) as [|m|]; qmm; lra.
Qed.

Lemma well_inside_eq b n v w : v == w -> well_inside b n v -> well_inside b n w.
Proof. intros E [A B]. split; [lra|]. destruct (b_max b n); try easy; lra. Qed.
Lemma nearly_refl b n v w : w == v -> nearly b n v w.
Proof. intros. now left. Qed.

Lemma takes_inside b days x h n extra : takes_up b days x h n extra ->
  well_inside b n (vol x + flow h * days + match extra with Some e => e | None => 0 end) ->
  vol h == vol x + flow h * days + match extra with Some e => e | None => 0 end.
Proof.
  intros [T _] W. rewrite T. unfold volume_after. destruct extra as [e|].
  - rewrite (snap_inside b n); [now apply clamp_inside|]. apply (well_inside_eq b n (vol x + flow h * days + e)); [|exact W]. symmetry. now apply clamp_inside.
  - rewrite snap_inside; [ring|]. apply (well_inside_eq b n (vol x + flow h * days + 0)); [ring|exact W].
Qed.
Lemma takes_nearly b days x h n : takes_up b days x h n None -> nearly b n (vol x + flow h * days) (vol h).
Proof. intros [T _]. rewrite T. apply snap_nearly. Qed.

(** ** C15 *)
(** The volume of a storage at the end of a timestep is the one before plus its flow times the days, up to snapping to a bound nearer
    than 1e-6. *)
Theorem C15_in_model g n i (steps : steps_t) st j p x h t b0 b :
  length st = length g -> is_class g n (Storage i) -> timestep g steps st j p x h t b0 b ->
  nearly b n (vol (get p n) + flow (get h n) * ts_days t) (vol (get h n))
  /\ (well_inside b n (vol (get p n) + flow (get h n) * ts_days t) -> vol (get h n) == vol (get p n) + flow (get h n) * ts_days t)
  /\ pc (get h n) = ratio (vol (get h n)) (b_max b n).
Proof.
  intros L [d [H K]] [Ep [Ex [Eh [cs Es]]]]. destruct (step_between g steps st j p h x t b0 b cs Ep Eh Ex Es) as [-> [-> LP]].
  rewrite L in LP. pose proof (storage_takes g b0 b t cs p n d i H LP K) as T.
  assert (vol (get (before_all g b0 t p) n) = vol (get p n)) as V by (rewrite (before_get g b0 t p n d H LP), K; reflexivity).
  pose proof (takes_nearly _ _ _ _ _ T) as N. pose proof (takes_inside _ _ _ _ _ _ T) as W. rewrite V in N, W.
  split; [exact N|]. split; [|exact (proj2 T)]. intros I. rewrite W; [ring|]. apply (well_inside_eq b n (vol (get p n) + flow (get (node_step g b0 b t cs p) n) * ts_days t)); [ring|exact I].
Qed.
Print Assumptions C15_in_model.

(** A run starts with the initial volume. *)
Theorem C15_starts g n d i b st : length st = length g -> nth_error g n = Some d -> n_child d = false ->
  (n_class d = Storage i \/ exists ms v, n_class d = Virtual i ms v) -> starts i ->
  get_initial_volume i = Some (vol (get (reset_all g b st) n)) /\ get_initial_pc i = Some (pc (get (reset_all g b st) n)).
Proof. intros L H C K S. now apply (reset_volume g b st n d i). Qed.
Print Assumptions C15_starts.

(** ** C22 *)
(** A rolling storage over [k] timesteps takes up its flow and gets back what was charged [k]-1 timesteps ago, in the first [k]-1
    timesteps the initial utilisation. *)
Theorem C22_in_model g n d i ms k u b' (steps : steps_t) st0 j p x h t b0 b :
  let st := reset_all g b' st0 in
  length st0 = length g -> nth_error g n = Some d -> n_class d = Virtual i ms (Rolling k u) -> n_child d = false -> (2 <= k)%nat ->
  timestep g steps st j p x h t b0 b ->
  let back := match (if Nat.ltb j (k - 1) then None else nth_error (history g steps st) (j - (k - 1))),
                    (if Nat.ltb j (k - 1) then None else nth_error steps (j - (k - 1))) with
              | Some h', Some (t', _, _, _) => - flow (get h' n) * ts_days t'
              | _, _ => u
              end in
  let v := vol (get p n) + flow (get h n) * ts_days t + back in
  (well_inside b n v -> vol (get h n) == v)
  /\ pc (get h n) = ratio (vol (get h n)) (b_max b n)
  /\ (match b_max b n with Fin m => b_min b n <= m | PInf => True | NInf => False end ->
      b_min b n <= vol (get h n) /\ match b_max b n with Fin m => vol (get h n) <= m | _ => True end).
Proof.
  intros st L H K C K2 [Ep [Ex [Eh [cs Es]]]] back v.
  assert (length st = length g) as L' by (unfold st; now rewrite reset_length).
  destruct (rolling_reset g b' st0 n d i ms k u H K C L) as [A [M P]].
  assert (length (mem (get st n)) = (k - 1)%nat) as LM by (unfold st; now rewrite M, repeat_length).
  assert (ptr (get st n) < k - 1)%nat as PM by (unfold st; rewrite P; lia).
  pose proof (rolling_run g n d i ms k u H K steps st j p h t b0 b cs L' A LM PM Ep Eh Es) as T.
  assert (nth j (unroll (mem (get st n)) (ptr (get st n)) ++ charges steps (history g steps st) n) 0 = back) as B.
  { unfold st at 1 2. rewrite M, P. unfold unroll. rewrite firstn_O, skipn_O, app_nil_r. unfold back.
    destruct (Nat.ltb_spec j (k - 1)) as [J|J].
    - rewrite app_nth1 by (rewrite repeat_length; lia).
      clear - J. revert j J. induction (k - 1)%nat as [|m IH]; intros j J; [lia|]. destruct j as [|j]; [reflexivity|]. apply IH. lia.
    - rewrite app_nth2 by (rewrite repeat_length; lia). rewrite repeat_length.
      destruct (nth_error (history g steps st) (j - (k - 1))) as [h'|] eqn:E1.
      + destruct (history_nth g steps st _ h' E1) as [s1 [t1 [c0 [c1 [cs1 [A1 _]]]]]]. rewrite A1. now apply (charges_nth g n steps st _ h' t1 c0 c1 cs1).
      + exfalso. apply nth_error_None in E1. assert (j < length (history g steps st))%nat by (apply nth_error_Some; congruence). lia. }
  rewrite B in T. split; [|split; [exact (proj2 T)|]].
  - intros W. exact (takes_inside _ _ _ _ _ _ T W).
  - intros O. destruct T as [T _]. rewrite T. unfold volume_after, snap, clamp.
    destruct (b_max b n) as [|m|]; [easy| |]; unfold qabs; repeat qif; repeat split; try (qmm; lra).
Qed.
Print Assumptions C22_in_model.

(** What a licence is put back to: the initial volume, or the maximum (of a parameter, what it says at that moment). *)
Definition refilled (i : initial) (now : Q) (use_initial : bool) (v : Q) : Prop :=
  if use_initial then get_initial_volume i = Some v else v = match i_max i with MaxNumber q => q | _ => now end.
Lemma put_back_refilled i now use v : starts i -> refilled i now use (put_back i now (Some use) v).
Proof.
  intros [v0 [p0 [V P]]]. unfold put_back, refilled, reset_storage_only. rewrite V, P. now destruct use.
Qed.

Lemma dates_of l (steps : steps_t) j t b0 b cs : map (fun s => ts_p (fst (fst (fst s)))) steps = run_of l -> nth_error steps j = Some (t, b0, b, cs) ->
  nth_error l j = Some (p_date (ts_p t)) /\ p_index (ts_p t) = j.
Proof.
  intros E Es. apply (map_nth_error (fun s => ts_p (fst (fst (fst s))))) in Es. rewrite E in Es. cbn in Es. unfold run_of in Es.
  rewrite nth_error_map in Es. destruct (nth_error (combine (seq 0 (length l)) l) j) as [[a c]|] eqn:X; [|discriminate]. cbn in Es. injection Es as Es.
  rewrite <- Es. cbn. clear - X. assert (forall (l : list date) s j a c, nth_error (combine (seq s (length l)) l) j = Some (a, c) -> nth_error l j = Some c /\ a = (s + j)%nat) as G.
  { clear. induction l as [|y l IH]; intros s [|j] a c H; cbn in H; try discriminate.
    - injection H as <- <-. split; [reflexivity|lia].
    - destruct (IH (S s) j a c H) as [A B]. split; [exact A|lia]. }
  exact (G l 0%nat j a c X).
Qed.

(** ** C23 *)
(** In a model that is run over the dates [l], an annual storage is put back in the first timestep on or after the reset date of every
    year (not in that of the start, if the run starts after it), and its volume is changed by nothing but its flow otherwise. *)
Theorem C23_in_model g n d i ms c b' (steps : steps_t) st0 l j p x h t b0 b :
  let st := reset_all g b' st0 in
  length st0 = length g -> nth_error g n = Some d -> n_class d = Virtual i ms (Annual c) -> n_child d = false -> starts i ->
  map (fun s => ts_p (fst (fst (fst s)))) steps = run_of l -> ascending l -> timestep g steps st j p x h t b0 b ->
  let due := first_on_or_after (c_reset_month c, c_reset_day c) l j
             /\ (j = 0%nat -> ~ day_lt (c_reset_month c, c_reset_day c) (md (p_date (ts_p t)))) in
  (due -> refilled i (b_now b0 n) (if Nat.eqb j 0 && c_max_is_parameter c then true else c_to_initial c) (vol (get x n)))
  /\ (~ due -> vol (get x n) = vol (get p n))
  /\ nearly b n (vol (get x n) + flow (get h n) * ts_days t) (vol (get h n))
  /\ (well_inside b n (vol (get x n) + flow (get h n) * ts_days t) -> vol (get h n) == vol (get x n) + flow (get h n) * ts_days t).
Proof.
  intros st L H K C SI D AL [Ep [Ex [Eh [cs Es]]]] due.
  assert (length st = length g) as L' by (unfold st; now rewrite reset_length).
  destruct (annual_steps g n d i ms c H K steps st j p x t b0 b cs L' Ep Ex Es) as [r [R V]].
  destruct (dates_of l steps j t b0 b cs D Es) as [DT _].
  pose proof (periodic_reset g b' st0 n d i ms (Annual c) H K C L) as PR. cbv zeta in PR.
  unfold st in R. rewrite PR, D in R.
  destruct (annual_reset_when c l AL j) as [u [e [E1 [E2 [E3 E4]]]]]; [apply nth_error_Some; congruence|].
  rewrite DT in E1. injection E1 as <-. rewrite R in E2. injection E2 as <-.
  split; [|split].
  - intros DU. apply (proj2 E3) in DU. destruct r as [use|]; [|easy]. rewrite <- (E4 use eq_refl), V. now apply put_back_refilled.
  - intros ND. destruct r as [use|]; [|exact V]. exfalso. apply ND. apply E3. discriminate.
  - pose proof (C78_always_active g n d i ms (Annual c) b' steps st0 j x H K C ltac:(discriminate) L Ex) as A.
    destruct (step_between g steps st j p h x t b0 b cs Ep Eh Ex Es) as [-> [-> LP]]. rewrite L' in LP.
    pose proof (virtual_takes g b0 b t cs p n d i ms (Annual c) H LP K ltac:(discriminate) A) as T.
    split; [exact (takes_nearly _ _ _ _ _ T)|]. intros I. rewrite (takes_inside _ _ _ _ _ _ T); [ring|].
    apply (well_inside_eq b n (vol (get (before_all g b0 t p) n) + flow (get (node_step g b0 b t cs p) n) * ts_days t)); [ring|exact I].
Qed.
Print Assumptions C23_in_model.

(** ** C24 *)
Theorem C24_in_model g n d i ms k init use b' (steps : steps_t) st0 j p x h t b0 b :
  let st := reset_all g b' st0 in
  let months := map (fun s => mon (p_date (ts_p (fst (fst (fst s)))))) steps in
  length st0 = length g -> nth_error g n = Some d -> n_class d = Virtual i ms (Monthly k init use) -> n_child d = false -> starts i ->
  (1 <= k)%Z -> (0 <= init <= k)%Z -> timestep g steps st j p x h t b0 b ->
  let due := new_month months j /\ (0 < init - 1 + month_changes None months j)%Z /\ ((init - 1 + month_changes None months j) mod k = 0)%Z in
  (due -> refilled i (b_now b0 n) use (vol (get x n)))
  /\ (~ due -> vol (get x n) = vol (get p n))
  /\ nearly b n (vol (get x n) + flow (get h n) * ts_days t) (vol (get h n))
  /\ (well_inside b n (vol (get x n) + flow (get h n) * ts_days t) -> vol (get h n) == vol (get x n) + flow (get h n) * ts_days t).
Proof.
  intros st months L H K C SI K1 IN [Ep [Ex [Eh [cs Es]]]] due.
  assert (length st = length g) as L' by (unfold st; now rewrite reset_length).
  destruct (monthly_steps g n d i ms k init use H K steps st j p x t b0 b cs L' Ep Ex Es) as [r [R V]].
  pose proof (periodic_reset g b' st0 n d i ms (Monthly k init use) H K C L) as PR. cbv zeta in PR.
  unfold st in R. rewrite PR in R.
  assert (j < length months)%nat as JL by (unfold months; rewrite map_length; apply nth_error_Some; congruence).
  destruct (monthly_when k init months K1 IN j JL) as [r' [R1 R2]]. unfold months in R1. rewrite R in R1. injection R1 as <-.
  split; [|split].
  - intros DU. apply (proj2 R2) in DU. rewrite V, DU. now apply put_back_refilled.
  - intros ND. destruct r; [|exact V]. exfalso. apply ND. now apply R2.
  - pose proof (C78_always_active g n d i ms (Monthly k init use) b' steps st0 j x H K C ltac:(discriminate) L Ex) as A.
    destruct (step_between g steps st j p h x t b0 b cs Ep Eh Ex Es) as [-> [-> LP]]. rewrite L' in LP.
    pose proof (virtual_takes g b0 b t cs p n d i ms _ H LP K ltac:(discriminate) A) as T.
    split; [exact (takes_nearly _ _ _ _ _ T)|]. intros I. rewrite (takes_inside _ _ _ _ _ _ T); [ring|].
    apply (well_inside_eq b n (vol (get (before_all g b0 t p) n) + flow (get (node_step g b0 b t cs p) n) * ts_days t)); [ring|exact I].
Qed.
Print Assumptions C24_in_model.

(** ** C25 *)
(** A model's first run: the licence is active in exactly the timesteps of the season; in the others its volume stays as it is. *)
Theorem C25_in_model_partial g n d i ms c b' (steps : steps_t) s0 l j p x h t b0 b :
  let st := reset_all g b' (new_model g) in
  let r := (c_reset_month (c_annual c), c_reset_day (c_annual c)) in
  let e := (c_end_month c, c_end_day c) in
  nth_error g n = Some d -> n_class d = Virtual i ms (Seasonal c) -> n_child d = false ->
  map (fun s => ts_p (fst (fst (fst s)))) steps = run_of (s0 :: l) ->
  day_lt r e \/ day_lt e r -> in_season r e (md s0) \/ (day_lt r e /\ day_lt (md s0) r) -> fine r e (s0 :: l) ->
  timestep g steps st j p x h t b0 b ->
  (active (get x n) = true <-> in_season r e (md (p_date (ts_p t))))
  /\ (in_season r e (md (p_date (ts_p t))) ->
      nearly b n (vol (get x n) + flow (get h n) * ts_days t) (vol (get h n))
      /\ (well_inside b n (vol (get x n) + flow (get h n) * ts_days t) -> vol (get h n) == vol (get x n) + flow (get h n) * ts_days t))
  /\ (~ in_season r e (md (p_date (ts_p t))) -> vol (get h n) = vol (get x n)).
Proof.
  intros st r e H K C D RE S0 F [Ep [Ex [Eh [cs Es]]]].
  assert (length (new_model g) = length g) as LN by (unfold new_model; apply map_length).
  assert (length st = length g) as L' by (unfold st; now rewrite reset_length).
  pose proof (seasonal_steps g n d i ms c H K steps st j x L' Ex) as A.
  pose proof (periodic_reset g b' (new_model g) n d i ms (Seasonal c) H K C LN) as PR. cbv zeta in PR.
  assert (get (new_model g) n = blank) as NB.
  { unfold get, new_model. change blank with (new_node Plain) at 1. 
    rewrite (nth_indep _ (new_node Plain) (new_node (n_class d))) by (rewrite map_length; apply nth_error_Some; congruence).
    rewrite (map_nth (fun d => new_node (n_class d)) g d n). rewrite (nth_error_nth g n d H), K. reflexivity. }
  rewrite NB in PR. change {| e_annual := annual_reset; e_last_active_year := e_last_active_year (season blank) |} with seasonal_new in PR.
  unfold st in A. rewrite PR, D in A. destruct (dates_of (s0 :: l) steps j t b0 b cs D Es) as [DT _].
  destruct (seasonal_run_spec c s0 l RE S0 F j _ DT) as [v [V1 V2]]. rewrite A in V1. injection V1 as <-.
  split; [exact V2|]. destruct (step_between g steps st j p h x t b0 b cs Ep Eh Ex Es) as [-> [-> LP]]. rewrite L' in LP. split.
  - intros I. apply (proj2 V2) in I.
    pose proof (virtual_takes g b0 b t cs p n d i ms _ H LP K ltac:(discriminate) I) as T.
    split; [exact (takes_nearly _ _ _ _ _ T)|]. intros W. rewrite (takes_inside _ _ _ _ _ _ T); [ring|].
    apply (well_inside_eq b n (vol (get (before_all g b0 t p) n) + flow (get (node_step g b0 b t cs p) n) * ts_days t)); [ring|exact W].
  - intros I. apply (virtual_idle g b0 b t cs p n d i ms (Seasonal c) H LP K ltac:(discriminate)).
    destruct (active (get (before_all g b0 t p) n)) eqn:Z; [|reflexivity]. exfalso. apply I. now apply V2.
Qed.
Print Assumptions C25_in_model_partial.

(** An example: a node with a licence of 20 over two timesteps, starting with 10 and an initial utilisation of 1, and one of 100 that is put back
    on 3 January, and one that is put back every month. *)
Definition vol_i : initial := {| i_volume := Some 10; i_pc := None; i_max := MaxNumber 20 |}.
Definition vol_g : list node :=
  [Node Plain false; Node (Virtual vol_i [(0%nat, 1)] (Rolling 2 1)) false;
   Node (Virtual ex_i [(0%nat, 1)] (Annual {| c_reset_month := 1; c_reset_day := 3; c_to_initial := false; c_max_is_parameter := false |})) false].
Definition vol_b : bounds := Bounds (fun _ => Fin 100) (fun _ => 0) (fun _ => 0).
Definition vol_steps : steps_t := map (fun k => (day k 2015 1 (Z.of_nat k + 1), vol_b, vol_b, [(0%nat, inject_Z (Z.of_nat k) + 2)])) (seq 0 4).
Example volumes_example :
  map (fun h => map (fun n => Qred (vol (get h n))) [1; 2]%nat) (history vol_g vol_steps (reset_all vol_g vol_b (new_model vol_g)))
  = [[9; 8]; [8; 5]; [7; 96]; [6; 91]]
  /\ map (fun s => ts_p (fst (fst (fst s)))) vol_steps = run_of [Date 2015 1 1; Date 2015 1 2; Date 2015 1 3; Date 2015 1 4].
Proof. vm_compute. split; reflexivity. Qed.
