(** C96: in every timestep the values of the parameters are those of their expressions. *)
From Verif Require Import Base LP_model Graph_model Aggregate_model Eval_model Eval_spec Eval_proofs.
Local Open Scope Q_scope.
Local Open Scope list_scope.

(** Parameters made before they are used can always be put in order. *)
Theorem C96_order : forall ks, made_before ks -> exists order, order_of ks = Some order.
Proof. exact order_exists. Qed.
Print Assumptions C96_order.

(** Whatever the arrays held before, one pass leaves in every array, for every combination, the value its expression has. *)
Theorem C96_values : forall n ks order w w', made_before ks -> functions_of_numbers ks -> (0 < n)%nat ->
  order_of ks = Some order -> pass n ks order w = Some w' ->
  forall c, (1 <= c <= length ks)%nat ->
  length (w' c) = n /\ forall i, (i < n)%nat -> means ks i c (nth i (w' c) (0, None)).
Proof.
  intros n ks order w w' Hb Hf Hn Ho Hp c Hc. destruct (order_good ks order Hb Ho) as [H1 [H2 H3]].
  pose proof (pass_right n ks Hb Hf Hn order [] w) as K. rewrite Hp in K. cbn [app] in K.
  apply K; auto.
  - intros d Hd. apply H2 in Hd. destruct (nth_error ks (d - 1)) as [k|] eqn:E; [eauto|].
    apply nth_error_None in E. lia.
  - intros d [].
  - now apply H2.
Qed.
Print Assumptions C96_values.

(** An expression has at most one value. *)
Theorem C96_unique : forall ks i c e e', made_before ks -> functions_of_numbers ks ->
  means ks i c e -> means ks i c e' -> same e e'.
Proof. intros ks i c e e' Hb Hf. now apply means_unique. Qed.
Print Assumptions C96_unique.

(** The pass ends with an exception exactly if some expression has no value in some combination. *)
Theorem C96_succeeds : forall n ks order w, made_before ks -> functions_of_numbers ks -> (0 < n)%nat ->
  order_of ks = Some order ->
  ((exists w', pass n ks order w = Some w') <->
   (forall c i, (1 <= c <= length ks)%nat -> (i < n)%nat -> exists e, means ks i c e)).
Proof.
  intros n ks order w Hb Hf Hn Ho. split.
  - intros [w' Hp] c i Hc Hi. destruct (C96_values n ks order w w' Hb Hf Hn Ho Hp c Hc) as [_ M]. eauto.
  - intros H. destruct (order_good ks order Hb Ho) as [H1 [H2 H3]].
    pose proof (pass_right n ks Hb Hf Hn order [] w) as K. destruct (pass n ks order w) as [w'|]; [eauto|exfalso].
    cbn [app] in K. apply K; auto.
    + intros d Hd. apply H2 in Hd. destruct (nth_error ks (d - 1)) as [k|] eqn:E; [eauto|]. apply nth_error_None in E. lia.
    + intros d [].
    + intros c i Hc Hi. apply H; [now apply H2|exact Hi].
Qed.
Print Assumptions C96_succeeds.

(** The arrays after a pass do not depend on what they held before it. *)
Theorem C96_forgets : forall n ks order w1 w2 w1' w2', made_before ks -> functions_of_numbers ks -> (0 < n)%nat ->
  order_of ks = Some order -> pass n ks order w1 = Some w1' -> pass n ks order w2 = Some w2' ->
  forall c i, (1 <= c <= length ks)%nat -> (i < n)%nat -> same (nth i (w1' c) (0, None)) (nth i (w2' c) (0, None)).
Proof.
  intros n ks order w1 w2 w1' w2' Hb Hf Hn Ho P1 P2 c i Hc Hi.
  destruct (C96_values n ks order w1 w1' Hb Hf Hn Ho P1 c Hc) as [_ M1].
  destruct (C96_values n ks order w2 w2' Hb Hf Hn Ho P2 c Hc) as [_ M2].
  apply (C96_unique ks i c); auto.
Qed.
Print Assumptions C96_forgets.

(** Eight parameters, two combinations, storage at 70% and 20%.  1 and 2: constants 6 and 4.  3: 6 / 4.  4: the larger of 3/2 and 2.
    5: the curve at one half.  6: the index of the curve.  7: one of parameters 3 and 2, by index.  8: sum of 4, 7 and 2. *)
Definition ex_ks : list cls :=
  [Given (fun _ => Some (6, None)); Given (fun _ => Some (4, None)); Division 1 2; Max 3 2; Given (fun _ => Some (1 # 2, None));
   ControlCurveIndex (fun i => if Nat.eqb i 0 then 7 # 10 else 2 # 10) [5%nat]; IndexedArray 6 [3%nat; 2%nat];
   Aggregated (fun _ => 0) ASum [4%nat; 7%nat; 2%nat]].
Example ex_made : made_before ex_ks /\ functions_of_numbers ex_ks.
Proof.
  split.
  - intros c k p Hk Hp. destruct c as [|[|[|[|[|[|[|[|[|c]]]]]]]]]; cbn in Hk;
      try (injection Hk as <-; cbn in Hp; try contradiction; intuition lia).
    destruct c; discriminate.
  - intros k Hk. cbn in Hk. repeat (destruct Hk as [<-|Hk]; [try exact I; intros; reflexivity|]). contradiction.
Qed.
Example C96_example : exists order w', order_of ex_ks = Some order /\ pass 2 ex_ks order (fun _ => []) = Some w' /\
  map (fun e => (Qred (fst e), snd e)) (w' 8%nat) = [(15 # 2, None); (10, None)] /\
  map (fun e => (Qred (fst e), snd e)) (w' 6%nat) = [(0, Some 0%Z); (1, Some 1%Z)].
Proof.
  destruct (order_of ex_ks) as [order|] eqn:E; [|vm_compute in E; discriminate].
  exists order. vm_compute in E. injection E as <-. eexists. split; [reflexivity|]. split; [reflexivity|]. split; vm_compute; reflexivity.
Qed.
(** With a zero divisor in the first combination the pass fails. *)
Definition ex_zero : list cls := [Given (fun _ => Some (6, None)); Given (fun i => Some (inject_Z (Z.of_nat i), None)); Division 1 2].
Example C96_example_fails : match order_of ex_zero with Some order => pass 2 ex_zero order (fun _ => []) = None | None => False end.
Proof. vm_compute. reflexivity. Qed.
