(** Parameters that remember something from one timestep to the next, as components of a [program]: FlowDelayParameter,
    RollingMeanFlowNodeParameter, FlowParameter, DeficitParameter, the threshold parameters (ratchet), StorageLicense, AnnualLicense.
    Their methods are those of Buffers_model.v, Thresholds_model.v and Licences_model.v; here they are run together. *)
From Verif Require Import Base Ring LP_model Storage_model Periodic_model Nodes_model Nodes_spec Nodes_proofs Nodes_rerun.
From Verif Require Buffers_model Thresholds_model Licences_model.
Local Open Scope nat_scope.
Local Open Scope list_scope.
Local Open Scope Q_scope.

Inductive memory :=
| MBuffer (b : Buffers_model.buffer)
| MFlags (l : list bool)
| MAmount (q : Q)
| MAnnual (a : Licences_model.annual).

Inductive kind (V : Type) :=
| KDelay (steps : nat) (n : nat) (initial : Q)
| KMean (steps : nat) (n : nat)
| KFlow (n : nat) (initial : Q)
| KDeficit (n : nat) (max_flow : V -> Q)
| KThreshold (c : Thresholds_model.config) (combinations : nat) (inputs : tstep -> state -> list (Q * Q))
| KStorageLicence (amount : Q) (n : nat)
| KAnnualLicence (amount : Q) (n : nat) (day : tstep -> Q).
Arguments KDelay {V}. Arguments KMean {V}. Arguments KFlow {V}. Arguments KDeficit {V}. Arguments KThreshold {V}. Arguments KStorageLicence {V}. Arguments KAnnualLicence {V}.

(** _parameters.pyx 2131-2143, 2225-2236, 1981-1988; _thresholds.pyx 62-65 (np.empty: any flags); licenses.py 82-85, 120-123. *)
Definition c_setup {V} (k : kind V) : memory :=
  match k with
  | KDelay steps _ _ => MBuffer (Buffers_model.delay_setup steps)
  | KMean steps _ => MBuffer (Buffers_model.mean_setup steps)
  | KFlow _ _ | KDeficit _ _ => MAmount 0
  | KThreshold _ combinations _ => MFlags (repeat true combinations)
  | KStorageLicence amount _ => MAmount amount
  | KAnnualLicence amount _ _ => MAnnual {| Licences_model.l_remaining := amount; Licences_model.l_prev_year := None |}
  end.
(** _parameters.pyx 2144-2146, 2238-2241, 1990-1992, 1934-1935; _thresholds.pyx 67-69; licenses.py 94-95. *)
Definition c_reset {V} (k : kind V) (m : memory) : memory :=
  match k, m with
  | KDelay _ _ initial, MBuffer b => MBuffer (Buffers_model.delay_reset initial b)
  | KMean _ _, MBuffer b => MBuffer (Buffers_model.mean_reset b)
  | KFlow _ initial, MAmount _ => MAmount initial
  | KDeficit _ _, MAmount _ => MAmount 0
  | KThreshold _ _ _, MFlags l => MFlags (Thresholds_model.triggered_reset l)
  | KStorageLicence amount _, MAmount _ => MAmount (Licences_model.storage_reset amount)
  | KAnnualLicence amount _ _, MAnnual a => MAnnual (Licences_model.annual_reset amount a)
  | _, _ => m
  end.
(** [before] (licences) and what calculating the values changes (the flags of thresholds). *)
Definition c_before {V} (k : kind V) (t : tstep) (st : state) (m : memory) : memory :=
  match k, m with
  | KAnnualLicence amount n day, MAnnual a => MAnnual (Licences_model.annual_before amount a (prev (get st n)) (day t))
  | KThreshold c _ inputs, MFlags l => MFlags (snd (Thresholds_model.calc_indices c (p_index (ts_p t)) l 0 (inputs t st)))
  | _, _ => m
  end.
Definition c_after {V} (k : kind V) (t : tstep) (st : state) (v : V) (m : memory) : memory :=
  match k, m with
  | KDelay steps n _, MBuffer b => MBuffer (Buffers_model.delay_after steps b (flow (get st n)))
  | KMean steps n, MBuffer b => MBuffer (Buffers_model.mean_after steps b (flow (get st n)))
  | KFlow n _, MAmount _ => MAmount (flow (get st n))
  | KDeficit n max_flow, MAmount _ => MAmount (max_flow v - flow (get st n))
  | KStorageLicence _ n, MAmount q => MAmount (Licences_model.storage_after q (flow (get st n)) (ts_days t))
  | KAnnualLicence _ n _, MAnnual a => MAnnual (Licences_model.annual_after a (flow (get st n)) (ts_days t))
  | _, _ => m
  end.

Fixpoint zip {A B C} (f : A -> B -> C) (a : list A) (b : list B) : list C :=
  match a, b with x :: r, y :: q => f x y :: zip f r q | _, _ => [] end.

(** A model whose components are [ks]; values, volume bounds and solver as they may be. *)
Definition components {V} (ks : list (kind V)) (values : tstep -> state -> list memory -> V) (bds : V -> bounds)
                      (solve : tstep -> state -> list memory -> V -> list (nat * Q)) : program (list memory) V :=
  {| p_reset := zip c_reset ks;
     p_before := fun t st => zip (fun k => c_before k t st) ks;
     p_values := values; p_bounds := bds; p_solve := solve;
     p_after := fun t st m v => zip (fun k => c_after k t st v) ks m |}.

(** Thresholds look at numbers that are not hidden; annual licences are on nodes that are not. *)
Definition looks {V} (g : list node) (k : kind V) : Prop :=
  match k with
  | KThreshold _ _ inputs => forall t a b, p_index (ts_p t) = 0%nat -> alike g a b -> inputs t a = inputs t b
  | KAnnualLicence _ n _ => exists d, nth_error g n = Some d /\ hidden d = false
  | _ => True
  end.

Definition fits {V} (k : kind V) (m : memory) : Prop :=
  match k, m with
  | KDelay steps _ _, MBuffer b | KMean steps _, MBuffer b => length (Buffers_model.b_mem b) = steps
  | KFlow _ _, MAmount _ | KDeficit _ _, MAmount _ | KStorageLicence _ _, MAmount _ | KAnnualLicence _ _ _, MAnnual _ => True
  | KThreshold _ n _, MFlags l => length l = n
  | _, _ => False
  end.

Lemma fits_setup {V} (k : kind V) : fits k (c_setup k).
Proof. destruct k; cbn; auto; apply repeat_length. Qed.
Lemma fits_reset {V} (k : kind V) m : fits k m -> fits k (c_reset k m).
Proof. destruct k, m; cbn; auto; intros H; unfold Thresholds_model.triggered_reset; now rewrite map_length. Qed.

Lemma calc_length c i inputs : forall l id, length (snd (Thresholds_model.calc_indices c i l id inputs)) = length l.
Proof.
  induction inputs as [|[x th] r IH]; intros l id; cbn; [easy|].
  destruct (Thresholds_model.threshold_index c i l id x th) as [ix tr] eqn:E. specialize (IH tr (S id)).
  destruct (Thresholds_model.calc_indices c i tr (S id) r) as [is tr']. cbn in *. rewrite IH.
  unfold Thresholds_model.threshold_index, Thresholds_model.base_index in E.
  destruct (Thresholds_model.c_first c); [|destruct (Nat.eqb i 0); [now injection E as <- <-|]];
    (destruct (Thresholds_model.c_ratchet c && nth id l false); injection E as <- <-; rewrite ?upd_length; reflexivity).
Qed.
Lemma fits_before {V} (k : kind V) t st m : fits k m -> fits k (c_before k t st m).
Proof. destruct k, m; cbn; auto. intros H. now rewrite calc_length. Qed.
Lemma fits_after {V} (k : kind V) t st v m : fits k m -> fits k (c_after k t st v m).
Proof. destruct k, m; cbn; auto; intros H; now rewrite upd_length. Qed.

Lemma zip_fits {V} (f : kind V -> memory -> memory) : (forall k m, fits k m -> fits k (f k m)) ->
  forall ks ms, Forall2 fits ks ms -> Forall2 fits ks (zip f ks ms).
Proof. intros H ks ms F. induction F; cbn; constructor; auto. Qed.

Lemma reached_fits {V} g (ks : list (kind V)) values bds solve v w :
  reached g (components ks values bds solve) (map c_setup ks) v w -> Forall2 fits ks (w_memory w).
Proof.
  induction 1 as [|w R IH|w t R IH]; cbn.
  - induction ks; cbn; constructor; auto using fits_setup.
  - apply zip_fits; auto using fits_reset.
  - apply (zip_fits (fun k => c_after k t _ _)); [auto using fits_after|]. apply (zip_fits (fun k => c_before k t _)); auto using fits_before.
Qed.

Lemma map_const_length {A B} (x : B) (l l' : list A) : length l = length l' -> map (fun _ => x) l = map (fun _ => x) l'.
Proof. revert l'. induction l as [|a l IH]; intros [|b l'] H; cbn in *; try discriminate; auto. f_equal. apply IH. lia. Qed.

Lemma minus_nothing (a : Q) (z : Z) : a - inject_Z z * 0 = a.
Proof. destruct a as [n d]. unfold Qminus, Qmult, Qopp, Qplus, inject_Z. cbn. rewrite Z.mul_0_r. cbn. rewrite Z.mul_1_r, Z.add_0_r, Pos.mul_1_r. reflexivity. Qed.

Lemma component_fresh {V} g (k : kind V) t a b m m' : p_index (ts_p t) = 0%nat -> alike g a b -> rested g a -> rested g b -> looks g k ->
  fits k m -> fits k m' -> c_before k t a (c_reset k m) = c_before k t b (c_reset k m').
Proof.
  intros T A RA RB L F F'. destruct k, m; cbn in F; try contradiction; destruct m'; cbn in F'; try contradiction; cbn.
  - unfold Buffers_model.delay_reset. do 2 f_equal. apply map_const_length. congruence.
  - unfold Buffers_model.mean_reset. do 2 f_equal. apply map_const_length. congruence.
  - reflexivity.
  - reflexivity.
  - cbn in L. rewrite (L t a b T A). unfold Thresholds_model.triggered_reset. rewrite (map_const_length false l l0) by congruence. reflexivity.
  - reflexivity.
  - destruct L as [d [H HD]]. destruct (RA n d H HD) as [_ PA], (RB n d H HD) as [_ PB]. rewrite PA, PB.
    f_equal. unfold Licences_model.annual_before, Licences_model.annual_reset. cbn [Licences_model.l_prev_year Licences_model.l_remaining].
    rewrite minus_nothing.
    assert (forall o, match o with
      | Some y => if (y =? Licences_model.step_year (day t))%Z then {| Licences_model.l_remaining := amount; Licences_model.l_prev_year := o |}
                  else {| Licences_model.l_remaining := amount; Licences_model.l_prev_year := Some (Licences_model.step_year (day t)) |}
      | None => {| Licences_model.l_remaining := amount; Licences_model.l_prev_year := Some (Licences_model.step_year (day t)) |}
      end = {| Licences_model.l_remaining := amount; Licences_model.l_prev_year := Some (Licences_model.step_year (day t)) |}) as E.
    { intros [y|]; [|reflexivity]. destruct (Z.eqb_spec y (Licences_model.step_year (day t))) as [->|]; reflexivity. }
    rewrite (E (Licences_model.l_prev_year a0)), (E (Licences_model.l_prev_year a1)). reflexivity.
Qed.

Lemma components_fresh {V} g (ks : list (kind V)) values bds solve v : Forall (looks g) ks ->
  fresh g (components ks values bds solve) (map c_setup ks) v.
Proof.
  intros L t a b w w' T A RA RB R R'. apply reached_fits in R. apply reached_fits in R'. cbn.
  generalize dependent (w_memory w'). generalize dependent (w_memory w). induction L as [|k ks LK L IH]; intros ms F ms' F'.
  - inversion F; inversion F'; reflexivity.
  - inversion F as [|? m ? mr FK FR]; subst. inversion F' as [|? m' ? mr' FK' FR']; subst. cbn. f_equal; [|now apply IH].
    now apply (component_fresh g k t a b m m').
Qed.
