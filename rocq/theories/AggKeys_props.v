(** C124: which function a recorder aggregates with. *)
From Coq Require Import Strings.Ascii Strings.String Lia.
From Verif Require Import Base Documents_model AggKeys_model AggKeys_spec.
From Verif Require Hash_model.
Local Open Scope string_scope.
Local Open Scope list_scope.

Lemma lower_letter a b : (nat_of_ascii b < 65 \/ 90 < nat_of_ascii b)%nat -> (Hash_model.lower_char a = b <-> same_letter a b).
Proof.
  unfold Hash_model.lower_char, same_letter. intros Hb. cbv zeta.
  pose proof (nat_ascii_bounded a) as Ba.
  destruct (Nat.leb_spec 65 (nat_of_ascii a)); destruct (Nat.leb_spec (nat_of_ascii a) 90); cbn [andb]; split; intros E; try subst b; auto; try lia;
    try (destruct E as [E|[E|E]]; [exact E|lia|lia]).
  - right. left. rewrite nat_ascii_embedding by lia. lia.
  - destruct E as [E|[E|E]]; [subst b; lia| |lia]. rewrite <- (ascii_nat_embedding b). f_equal. lia.
Qed.
Fixpoint no_capitals (s : string) : Prop :=
  match s with EmptyString => True | String c r => (nat_of_ascii c < 65 \/ 90 < nat_of_ascii c)%nat /\ no_capitals r end.
Lemma lower_text : forall n s, no_capitals n -> (Hash_model.lower s = n <-> same_text s n).
Proof.
  induction n as [|b n IH]; intros [|a s] N; cbn [Hash_model.lower].
  - split; intros; [constructor|reflexivity].
  - split; intros E; [discriminate|inversion E].
  - split; intros E; [discriminate|inversion E].
  - destruct N as [Nb Nn]. split; intros E.
    + assert (E1 : Hash_model.lower_char a = b) by congruence. assert (E2 : Hash_model.lower s = n) by congruence.
      constructor; [apply (proj1 (lower_letter a b Nb)), E1|apply (proj1 (IH s Nn)), E2].
    + inversion E; subst. f_equal; [apply (proj2 (lower_letter a b Nb)); assumption|apply (proj2 (IH s Nn)); assumption].
Qed.
Lemma called_plain f n : called f n -> no_capitals n.
Proof. intros []; cbn; repeat split; lia. Qed.
Lemma lookup_called n f : get n lookup = Some f <-> called f n.
Proof.
  split.
  - unfold lookup. cbn [get]. repeat (match goal with |- context [String.eqb ?a ?b] => destruct (String.eqb_spec a b) as [<-|] end;
      [intros E; injection E as <-; constructor|]). discriminate.
  - intros []; reflexivity.
Qed.

(** C124: an aggregator is made of what is given for it exactly if that names a function, the case of letters making no difference in a text, or is a
    callable. *)
Theorem C124_aggregator : forall v a, construct v = Ok a <-> denotes v a.
Proof.
  unfold construct, set_func. intros v a. split.
  - destruct v as [s|[n|] args kwargs|g|]; try discriminate.
    + destruct (get (Hash_model.lower s) lookup) as [f|] eqn:E; [|discriminate]. intros H. injection H as <-.
      apply (proj1 (lookup_called _ _)) in E. apply d_text with (Hash_model.lower s); [exact E|].
      apply (proj1 (lower_text _ s (called_plain _ _ E))). reflexivity.
    + destruct (get n lookup) as [f|] eqn:E; [|discriminate]. intros H. injection H as <-. apply d_dict, (proj1 (lookup_called _ _)), E.
    + intros H. injection H as <-. constructor.
  - intros [f n s C T|f n args kwargs C|g].
    + apply (proj2 (lower_text n s (called_plain _ _ C))) in T. rewrite T, (proj2 (lookup_called _ _) C). reflexivity.
    + rewrite (proj2 (lookup_called _ _) C). reflexivity.
    + reflexivity.
Qed.
Print Assumptions C124_aggregator.
Example aggregator_example : construct (Text "Mean") = Ok (Aggregator Mean None [] []) /\ construct (Dict (Some "Mean") [] []) = Err KeyError
  /\ construct (Dict (Some "percentile") [95] []) = Ok (Aggregator Percentile None [95] []).
Proof. repeat split; vm_compute; reflexivity. Qed.

Lemma construct_err v e : construct v = Err e -> forall a, ~ denotes v a.
Proof. intros E a D. apply (proj2 (C124_aggregator v a)) in D. rewrite E in D. discriminate. Qed.

(** The function over time that the constructors use is the one that is meant, and two that are given by both names are refused. *)
Definition conflict (c : family) (kwargs : dict given) : Prop :=
  exists k v w, old_name c k /\ is_given kwargs k v /\ is_given kwargs "temporal_agg_func" w.
Lemma given_conflict c kwargs : conflict c kwargs <-> time_given c kwargs = Err ValueError.
Proof.
  unfold conflict, is_given, time_given, renamed, has. split.
  - intros (k & v & w & O & G & T). destruct O; rewrite G, T; reflexivity.
  - destruct c; try discriminate.
    + destruct (get "fdc_agg_func" kwargs) as [v|] eqn:E; [|discriminate]. destruct (get "temporal_agg_func" kwargs) as [w|] eqn:T; [|discriminate].
      intros _. exists "fdc_agg_func", v, w. split; [constructor|auto].
    + destruct (get "sdc_agg_func" kwargs) as [v|] eqn:E; [|discriminate]. destruct (get "temporal_agg_func" kwargs) as [w|] eqn:T; [|discriminate].
      intros _. exists "sdc_agg_func", v, w. split; [constructor|auto].
Qed.
Lemma given_none c kwargs : time_given c kwargs = Ok None <-> ~ timed c.
Proof.
  unfold timed, time_given, renamed. split.
  - destruct c; intros E D; try discriminate; try (intuition discriminate).
    + destruct (get "fdc_agg_func" kwargs); [destruct (has "temporal_agg_func" kwargs)|]; discriminate.
    + destruct (get "sdc_agg_func" kwargs); [destruct (has "temporal_agg_func" kwargs)|]; discriminate.
  - destruct c; intros N; try reflexivity; exfalso; apply N; tauto.
Qed.
Ltac absurd_family := match goal with H : timed _ |- _ => unfold timed in H; intuition discriminate | H : old_name _ _ |- _ => solve [inversion H] | H : _ = _ |- _ => discriminate H end.
Lemma given_meant c kwargs w : time_given c kwargs = Ok (Some w) -> forall v, meant_for_time c kwargs v <-> v = w.
Proof.
  intros G v. split.
  - intros M. destruct M as [v T I|k v O I|v R N I|T N O R]; unfold is_given, not_given in *.
    + destruct c; try absurd_family; cbn [time_given] in G; unfold renamed, has, or_else in G; rewrite ?I in G.
      * congruence.
      * congruence.
      * destruct (get "fdc_agg_func" kwargs); [discriminate|congruence].
      * destruct (get "sdc_agg_func" kwargs); [discriminate|congruence].
      * rewrite andb_false_r in G. congruence.
    + destruct O; cbn [time_given] in G; unfold renamed in G; rewrite I in G; destruct (has "temporal_agg_func" kwargs); congruence.
    + subst c. cbn [time_given] in G. unfold has, or_else in G. rewrite I, N in G. cbn in G. congruence.
    + destruct c; try absurd_family; cbn [time_given] in G; unfold renamed, has, or_else in G.
      * rewrite N in G. congruence.
      * rewrite N in G. congruence.
      * rewrite (O _ o_flow), N in G. congruence.
      * rewrite (O _ o_storage), N in G. congruence.
      * rewrite (R eq_refl), N in G. cbn in G. congruence.
  - intros ->. destruct c; try discriminate; cbn [time_given] in G; unfold renamed, has, or_else in G.
    + destruct (get "temporal_agg_func" kwargs) as [u|] eqn:N.
      * apply m_new; [unfold timed; tauto|]. unfold is_given. congruence.
      * replace w with (Text "mean") by congruence. apply (m_default Array); [unfold timed; tauto|exact N|intros k O; inversion O|discriminate].
    + destruct (get "temporal_agg_func" kwargs) as [u|] eqn:N.
      * apply m_new; [unfold timed; tauto|]. unfold is_given. congruence.
      * replace w with (Text "sum") by congruence. apply (m_default Annual); [unfold timed; tauto|exact N|intros k O; inversion O|discriminate].
    + destruct (get "fdc_agg_func" kwargs) as [u|] eqn:F.
      * apply (m_old _ _ "fdc_agg_func"); [constructor|]. unfold is_given. destruct (get "temporal_agg_func" kwargs); congruence.
      * destruct (get "temporal_agg_func" kwargs) as [u|] eqn:N.
        -- apply m_new; [unfold timed; tauto|]. unfold is_given. congruence.
        -- replace w with (Text "mean") by congruence. apply (m_default FlowCurve); [unfold timed; tauto|exact N|intros k O; inversion O; exact F|discriminate].
    + destruct (get "sdc_agg_func" kwargs) as [u|] eqn:F.
      * apply (m_old _ _ "sdc_agg_func"); [constructor|]. unfold is_given. destruct (get "temporal_agg_func" kwargs); congruence.
      * destruct (get "temporal_agg_func" kwargs) as [u|] eqn:N.
        -- apply m_new; [unfold timed; tauto|]. unfold is_given. congruence.
        -- replace w with (Text "mean") by congruence. apply (m_default StorageCurve); [unfold timed; tauto|exact N|intros k O; inversion O; exact F|discriminate].
    + destruct (get "temporal_agg_func" kwargs) as [u|] eqn:N.
      * rewrite andb_false_r in G. apply m_new; [unfold timed; tauto|]. unfold is_given. congruence.
      * destruct (get "agg_func" kwargs) as [u|] eqn:A; cbn in G.
        -- apply m_rolling; [reflexivity|exact N|unfold is_given; congruence].
        -- replace w with (Text "mean") by congruence. apply (m_default Rolling); [unfold timed; tauto|exact N|intros k O; inversion O|intros _; exact A].
Qed.

(** C124: a recorder that is made aggregates over time with the function meant for that, if it is one that aggregates over time; over scenarios with
    "agg_func", or else the mean; over the values and the number of events with what is given for that or else "agg_func". *)
Theorem C124_used : forall c kwargs s, make c kwargs = Ok s ->
  ~ conflict c kwargs
  /\ (forall a, over_time s = Some a <-> exists v, meant_for_time c kwargs v /\ denotes v a)
  /\ (over_time s = None <-> ~ timed c)
  /\ (exists v, first_of kwargs ["agg_func"] (Some (Text "mean")) (Some v) /\ denotes v (over_scenarios s))
  /\ (c = Event -> first_of kwargs ["event_agg_func"; "agg_func"] None (over_values s))
  /\ (c = EventStatistic -> first_of kwargs ["event_agg_func"; "agg_func"] (Some (Text "mean")) (over_values s))
  /\ (c = EventDuration \/ c = EventStatistic -> first_of kwargs ["recorder_agg_func"; "agg_func"] (Some (Text "mean")) (over_events s)).
Proof.
  intros c kwargs s. unfold make. destruct (time_given c kwargs) as [t|e] eqn:G; [|discriminate].
  destruct (construct (or_else "agg_func" kwargs (Text "mean"))) as [sc|e] eqn:S1; [|discriminate].
  assert (Ev : forall k1 k2 d, first_of kwargs [k1; k2] (Some d) (Some (or_else k1 kwargs (or_else k2 kwargs d)))).
  { intros k1 k2 d. unfold first_of, is_given, not_given, or_else. destruct (get k1 kwargs) as [u|]; [left; eauto|right; split; [reflexivity|]].
    destruct (get k2 kwargs) as [u|]; [left; eauto|right; auto]. }
  intros H.
  assert (H2 : over_scenarios s = sc /\ over_values s = event_given c kwargs /\ over_events s = recorder_given c kwargs
               /\ match t with None => over_time s = None | Some v => exists a, over_time s = Some a /\ construct v = Ok a end).
  { destruct t as [v|]; [destruct (construct v) as [a|e] eqn:C; [|discriminate]|]; injection H as <-; cbn; eauto 6. }
  destruct H2 as (Hs & Hv & He & Ht). split.
  { intros K. apply (proj1 (given_conflict c kwargs)) in K. congruence. }
  split; [|split; [|split; [|split; [|split]]]].
  - intros a. destruct t as [v|].
    + destruct Ht as (b & Hb & Cb). split.
      * intros E. exists v. split; [apply (proj2 (given_meant _ _ _ G v)); reflexivity|]. apply (proj1 (C124_aggregator v a)). congruence.
      * intros (u & M & D). apply (proj1 (given_meant _ _ _ G u)) in M. subst u. apply (proj2 (C124_aggregator v a)) in D. congruence.
    + split; [congruence|]. intros (u & M & D). apply (proj1 (given_none c kwargs)) in G. exfalso. apply G.
      destruct M as [? T _|? ? O _|? R _ _|T _ _ _]; [exact T|destruct O; unfold timed; tauto|subst; unfold timed; tauto|exact T].
  - rewrite <- (given_none c kwargs). rewrite G. destruct t as [v|]; [destruct Ht as (b & Hb & _)|]; split; congruence.
  - exists (or_else "agg_func" kwargs (Text "mean")). split.
    + unfold first_of, is_given, not_given, or_else. destruct (get "agg_func" kwargs); [left; eauto|right; auto].
    + rewrite Hs. apply (proj1 (C124_aggregator _ _)), S1.
  - intros ->. rewrite Hv. cbn [event_given]. unfold first_of, is_given, not_given. destruct (get "event_agg_func" kwargs); [left; eauto|right; split; [reflexivity|]].
    destruct (get "agg_func" kwargs); [left; eauto|right; auto].
  - intros ->. rewrite Hv. apply Ev.
  - intros [-> | ->]; rewrite He; apply Ev.
Qed.
Print Assumptions C124_used.

(** C124: a recorder is refused exactly if the function over time is given by both its names, or one that is meant does not name anything. *)
Theorem C124_refused : forall c kwargs, (exists e, make c kwargs = Err e) <->
  conflict c kwargs \/ exists v, (meant_for_time c kwargs v \/ first_of kwargs ["agg_func"] (Some (Text "mean")) (Some v)) /\ forall a, ~ denotes v a.
Proof.
  intros c kwargs. split.
  - intros (e & H). unfold make in H. destruct (time_given c kwargs) as [t|e'] eqn:G.
    + destruct (construct (or_else "agg_func" kwargs (Text "mean"))) as [sc|e'] eqn:C.
      * destruct t as [v|]; [|discriminate]. destruct (construct v) as [a|e'] eqn:Cv; [discriminate|]. right. exists v. split.
        { left. apply (proj2 (given_meant _ _ _ G v)). reflexivity. }
        { eapply construct_err, Cv. }
      * right. eexists. split; [right|eapply construct_err, C].
        unfold first_of, is_given, not_given, or_else. destruct (get "agg_func" kwargs); [left; eauto|right; auto].
    + left. apply (proj2 (given_conflict c kwargs)). rewrite G. f_equal.
      destruct c; try discriminate; cbn [time_given] in G; unfold renamed in G.
      * destruct (get "fdc_agg_func" kwargs); [destruct (has "temporal_agg_func" kwargs)|]; congruence.
      * destruct (get "sdc_agg_func" kwargs); [destruct (has "temporal_agg_func" kwargs)|]; congruence.
  - intros D. destruct (make c kwargs) as [s|e] eqn:M; [|eauto]. exfalso. destruct (C124_used c kwargs s M) as (K & T & N & Sc & _).
    destruct D as [D|(v & [D|D] & A)]; [auto| |].
    + destruct (over_time s) as [a|] eqn:O.
      * destruct (proj1 (T a) eq_refl) as (u & Mu & Du). unfold make in M.
        destruct (time_given c kwargs) as [[w|]|] eqn:G; [| |discriminate].
        -- apply (proj1 (given_meant _ _ _ G v)) in D. apply (proj1 (given_meant _ _ _ G u)) in Mu. subst. exact (A _ Du).
        -- apply (proj1 (given_none c kwargs)) in G. apply (proj2 N) in G. discriminate.
      * apply (proj1 N eq_refl). destruct D as [? T' _|? ? O' _|? R _ _|T' _ _ _]; [exact T'|destruct O'; unfold timed; tauto|subst; unfold timed; tauto|exact T'].
    + destruct Sc as (u & F & Du). unfold first_of, is_given, not_given in *.
      assert (E : u = v) by (destruct D as [(x & X1 & X2)|(X1 & X2)], F as [(y & Y1 & Y2)|(Y1 & Y2)]; congruence). subst u. exact (A _ Du).
Qed.
Print Assumptions C124_refused.

Example used_example :
  make FlowCurve [("fdc_agg_func", Text "Median"); ("agg_func", Text "max")]
    = Ok (Settings (Some (Aggregator Median None [] [])) (Aggregator Max None [] []) None None)
  /\ make FlowCurve [("fdc_agg_func", Text "median"); ("temporal_agg_func", Text "median")] = Err ValueError
  /\ make Rolling [("agg_func", Text "sum")] = Ok (Settings (Some (Aggregator Sum None [] [])) (Aggregator Sum None [] []) None None)
  /\ make Annual [] = Ok (Settings (Some (Aggregator Sum None [] [])) (Aggregator Mean None [] []) None None)
  /\ make EventStatistic [("agg_func", Text "max"); ("event_agg_func", Text "min")]
    = Ok (Settings None (Aggregator Max None [] []) (Some (Text "min")) (Some (Text "max"))).
Proof. repeat split; vm_compute; reflexivity. Qed.

(** C124: a function that is set replaces the one before; what is read of one given by a name is the name in small letters, and setting that changes
    nothing. *)
Theorem C124_set : forall a v b, set_func a v = (b, None) -> denotes v b.
Proof.
  intros a v b H. apply (proj1 (C124_aggregator v b)). unfold construct. destruct v as [s|[n|] args kwargs|g|]; cbn [set_func] in *; try discriminate.
  - destruct (get (Hash_model.lower s) lookup); [congruence|discriminate].
  - destruct (get n lookup); [congruence|discriminate].
  - congruence.
Qed.
Print Assumptions C124_set.
Theorem C124_read_back : forall v a, construct v = Ok a ->
  (forall s, v = Text s -> ~ same_text s "custom" -> exists n, get_func a = Text n /\ called (a_func a) n /\ same_text s n)
  /\ (forall g, v = Callable g -> get_func a = v)
  /\ (a_args a = [] -> a_kwargs a = [] -> get_func a <> Other -> forall b, set_func b (get_func a) = (a, None)).
Proof.
  intros v a C. apply (proj1 (C124_aggregator v a)) in C. destruct C as [f n s Cf T|f n args kwargs Cf|g].
  - split; [|split; [discriminate|]].
    + intros s' E N. assert (s' = s) by congruence. subst s'. exists n. destruct Cf; cbn; repeat split; auto; try constructor. exfalso. auto.
    + intros _ _ O b. destruct Cf; cbn in *; try reflexivity. congruence.
  - split; [discriminate|split; [discriminate|]]. cbn. intros -> -> O b. destruct Cf; cbn in *; try reflexivity. congruence.
  - split; [discriminate|split; [intros g' E; cbn; congruence|]]. intros. reflexivity.
Qed.
Print Assumptions C124_read_back.

(** ... but of one given by a dictionary only the name is read, so that the percentile is lost; *)
Theorem C124_read_back_refuted : exists v a, construct v = Ok a /\ forall b, fst (set_func b (get_func a)) <> a.
Proof. exists (Dict (Some "percentile") [95] []), (Aggregator Percentile None [95] []). split; [reflexivity|]. intros b. cbn. discriminate. Qed.
Print Assumptions C124_read_back_refuted.

(** C124: a function that is refused leaves an aggregator as it was if that was not made of a callable; *)
Theorem C124_set_refused : forall a v b e, set_func a v = (b, Some e) -> a_user a = None -> b = a.
Proof.
  intros [f u args kwargs] v b e H U. cbn in U. subst u.
  destruct v as [s|[n|] ? ?|g|]; cbn [set_func a_func a_user a_args a_kwargs] in H; try congruence.
  - destruct (get (Hash_model.lower s) lookup); congruence.
  - destruct (get n lookup); congruence.
Qed.
Print Assumptions C124_set_refused.
(** ... but the callable is lost of one that was, with nothing in its place. *)
Theorem C124_set_refused_refuted : exists a v b e, construct (Callable 0) = Ok a /\ set_func a v = (b, Some e) /\ b <> a /\ get_func b = Other.
Proof. exists (Aggregator Custom (Some O) [] []), (Text "mode"). exists (Aggregator Custom None [] []), KeyError. split; [reflexivity|]. split; [vm_compute; reflexivity|]. split; [discriminate|reflexivity]. Qed.
Print Assumptions C124_set_refused_refuted.
