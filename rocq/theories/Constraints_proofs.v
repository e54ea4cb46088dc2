(** Proofs about recorder constraints. *)
From Verif Require Import Base LP_model Constraints_model Constraints_spec.

(** ** Bounds as assigned *)

Definition of_setting (s : setting) : bounds :=
  Bounds (match fst s with Some l => Fin l | None => NInf end) (match snd s with Some u => Fin u | None => PInf end).

Lemma get_lower_of s : get_lower (of_setting s) = option_map Fin (fst s).
Proof. destruct s as [[l|] u]; reflexivity. Qed.
Lemma get_upper_of s : get_upper (of_setting s) = option_map Fin (snd s).
Proof. destruct s as [l [u|]]; reflexivity. Qed.

Definition assign (b : bounds) (a : assignment) : option bounds :=
  match a with Lower v => set_lower (option_map Fin v) b | Upper v => set_upper (option_map Fin v) b end.

(** One assignment: refused if and only if the bounds would be out of order. *)
Lemma assign_spec s a : 
  (in_order (assigned s a) -> assign (of_setting s) a = Some (of_setting (assigned s a))) /\
  (in_order s -> ~ in_order (assigned s a) -> assign (of_setting s) a = None).
Proof.
  destruct s as [l u], a as [v|v]; cbn [assign assigned fst snd]; unfold set_lower, set_upper;
    rewrite ?get_upper_of, ?get_lower_of; cbn [fst snd]; unfold of_setting; cbn [fst snd c_lower c_upper option_map].
  - destruct v as [v|]; cbn [option_map]; [|cbn; tauto].
    destruct u as [u|]; cbn [option_map in_order]; [|cbn; tauto].
    unfold ext_ltb; cbn [ext_leb]. destruct (qlebP v u); cbn; tauto.
  - destruct v as [v|]; cbn [option_map]; [|destruct l; cbn; tauto].
    destruct l as [l|]; cbn [option_map in_order]; [|cbn; tauto].
    unfold ext_ltb; cbn [ext_leb]. destruct (qlebP l v); cbn; tauto.
Qed.

Definition assign_all := fold_left (fun b a => match assign b a with Some b' => b' | None => b end).

(** What the user expects: the assignments that keep the bounds in order take effect, the others are refused. *)
Definition in_orderb (s : setting) : bool := match s with (Some l, Some u) => qleb l u | _ => true end.
Lemma in_orderP s : reflect (in_order s) (in_orderb s).
Proof. destruct s as [[l|] [u|]]; cbn; try (constructor; exact Logic.I). apply qlebP. Qed.

Definition expected : list assignment -> setting -> setting :=
  fold_left (fun s a => if in_orderb (assigned s a) then assigned s a else s).

Lemma assign_all_spec l : forall s, in_order s -> assign_all l (of_setting s) = of_setting (expected l s) /\ in_order (expected l s).
Proof.
  unfold assign_all, expected. induction l as [|a l IH]; intros s O; cbn [fold_left]; [auto|].
  destruct (assign_spec s a) as [A B]. destruct (in_orderP (assigned s a)) as [P|P].
  - rewrite (A P). apply IH, P.
  - rewrite (B O P). apply IH, O.
Qed.

(** ** Classification and violation *)

Lemma ext_leb_fin x y : ext_leb (Fin x) (Fin y) = qleb x y.
Proof. reflexivity. Qed.

Lemma violated_spec s v : in_order s ->
  match is_violated (of_setting s) v with
  | None => s = (None, None)
  | Some b => s <> (None, None) /\ (b = true <-> ~ inside s v)
  end.
Proof.
  intros O. unfold is_violated, is_equality, is_double_bounded, is_lower_bounded, is_upper_bounded.
  rewrite get_lower_of, get_upper_of. destruct s as [[l|] [u|]]; cbn [fst snd option_map].
  - unfold ext_eqb. cbn [ext_leb]. cbn [in_order] in O. destruct (qlebP l u) as [_|N]; [|contradiction]. cbn [andb].
    destruct (qlebP u l) as [E|E]; cbn [negb].
    + split; [congruence|]. destruct v as [[|v|]|]; cbn; unfold ext_eqb; cbn; rewrite ?negb_true_iff, ?negb_false_iff; try tauto.
      destruct (qlebP v l), (qlebP l v); cbn; intuition (try discriminate; try lra).
    + split; [congruence|]. destruct v as [[|v|]|]; cbn; try tauto.
      destruct (qlebP v u), (qlebP l v); cbn; intuition (try discriminate; try lra).
  - split; [congruence|]. destruct v as [[|v|]|]; cbn; try tauto; try (intuition discriminate).
    destruct (qlebP l v); cbn; intuition (try discriminate; try lra).
  - split; [congruence|]. destruct v as [[|v|]|]; cbn; try tauto; try (intuition discriminate).
    destruct (qlebP v u); cbn; intuition (try discriminate; try lra).
  - reflexivity.
Qed.

Lemma classification b :
  (is_constraint b = false -> is_equality b = false /\ is_double_bounded b = false /\ is_lower_bounded b = false /\ is_upper_bounded b = false) /\
  (is_constraint b = true -> countb (fun x => x) [is_equality b; is_double_bounded b; is_lower_bounded b; is_upper_bounded b] = 1%nat).
Proof.
  unfold is_constraint, is_equality, is_double_bounded, is_lower_bounded, is_upper_bounded.
  destruct (get_upper b) as [u|], (get_lower b) as [l|]; cbn; try (split; [easy|reflexivity]); try (split; [auto|easy]).
  split; [easy|]. intros _. destruct (ext_eqb l u); reflexivity.
Qed.

Lemma violated_constraint b v : is_constraint b = true <-> is_violated b v <> None.
Proof.
  unfold is_violated, is_constraint, is_equality, is_double_bounded, is_lower_bounded, is_upper_bounded.
  destruct (get_upper b) as [u|], (get_lower b) as [l|]; try destruct (ext_eqb l u); cbn; split; congruence.
Qed.

Lemma feasible_spec rs : exists f, is_feasible rs = Some f /\
  (f = true <-> forall b v, In (b, v) rs -> is_constraint b = true -> is_violated b v = Some false).
Proof.
  unfold is_feasible, constraints. induction rs as [|[b v] rs (f & IH1 & IH2)]; cbn [filter fst].
  - exists true. split; [reflexivity|]. split; [easy|reflexivity].
  - destruct (is_constraint b) eqn:C.
    + cbn [any_violated]. pose proof (proj1 (violated_constraint b v) C) as NE.
      destruct (is_violated b v) as [[|]|] eqn:V; [| |congruence].
      * exists false. split; [reflexivity|]. split; [discriminate|]. intros H.
        specialize (H b v (or_introl eq_refl) C). congruence.
      * exists f. split; [exact IH1|]. rewrite IH2. split; intros H b' v'.
        -- intros [E|Hin]; [injection E as <- <-; auto|]. apply H, Hin.
        -- intros Hin. apply H. now right.
    + exists f. split; [exact IH1|]. rewrite IH2. split; intros H b' v'.
      * intros [E|Hin]; [injection E as <- <-; congruence|]. apply H, Hin.
      * intros Hin. apply H. now right.
Qed.

(** ** platypus *)

Definition holds (c : operator * option ext) (v : option ext) : Prop :=
  match fst c with
  | GE => holds_ge v (snd c)
  | LE => holds_le v (snd c)
  | EQ => holds_ge v (snd c) /\ holds_le v (snd c)
  end.

Lemma fle_ge l v : fle (Some l) v = true <-> holds_ge v (Some l).
Proof. destruct l as [|l|], v as [[|v|]|]; cbn; try (split; easy). destruct (qlebP l v); split; easy. Qed.
Lemma fle_le v u : fle v (Some u) = true <-> holds_le v (Some u).
Proof. destruct u as [|u|], v as [[|v|]|]; cbn; try (split; easy). destruct (qlebP v u); split; easy. Qed.
Lemma feq_both v l : feq v (Some l) = true <-> holds_ge v (Some l) /\ holds_le v (Some l).
Proof.
  destruct l as [|l|], v as [[|v|]|]; cbn; try (split; easy); try (split; [easy|intros [? ?]; easy]).
  unfold ext_eqb; cbn. rewrite andb_true_iff. destruct (qlebP v l), (qlebP l v); split; intros [? ?]; split; easy.
Qed.

Lemma platypus_spec cs : Forall (fun c => is_constraint (fst c) = true) cs ->
  exists l, make_constraints (map fst cs) = Some l /\
    count_constraints (map fst cs) = Some (length l) /\ length (evaluate_constraints cs) = length l /\
    (Forall2 holds l (evaluate_constraints cs) <-> forall b v, In (b, v) cs -> is_violated b v = Some false).
Proof.
  induction 1 as [|[b v] cs C F (l & M & N & L & H)]; cbn [map fst make_constraints count_constraints evaluate_constraints flat_map snd].
  - exists []. split; [reflexivity|]. split; [reflexivity|]. split; [reflexivity|]. split; [easy|constructor].
  - rewrite M, N. cbn [fst] in C. rewrite C. fold (evaluate_constraints cs).
    assert (forall P : Prop, (P <-> is_violated b v = Some false) ->
      (P /\ Forall2 holds l (evaluate_constraints cs) <-> forall b' v', In (b', v') ((b, v) :: cs) -> is_violated b' v' = Some false)) as K.
    { intros P HP. rewrite HP, H. split.
      - intros [A B] b' v' [E|Hin]; [injection E as <- <-; exact A|auto].
      - intros A. split; [apply A; now left|]. intros b' v' Hin. apply A. now right. }
    revert K C. unfold is_violated, is_constraint, is_equality, is_double_bounded, is_lower_bounded, is_upper_bounded.
    destruct (get_upper b) as [u|] eqn:GU, (get_lower b) as [lo|] eqn:GL; [destruct (ext_eqb lo u) eqn:EE| | |discriminate]; cbn [negb]; intros K _.
    + eexists. split; [reflexivity|]. cbn [length app]. split; [reflexivity|]. split; [lia|].
      rewrite <- (K (holds_ge v (Some lo) /\ holds_le v (Some lo))).
      * split; [intros X; inversion X; subst; auto|intros [? ?]; constructor; auto].
      * rewrite <- feq_both. destruct (feq v (Some lo)); cbn; split; congruence.
    + eexists. split; [reflexivity|]. cbn [length app]. split; [reflexivity|]. split; [lia|].
      rewrite <- (K (holds_ge v (Some lo) /\ holds_le v (Some u))).
      * split.
        -- intros X. inversion X as [|? ? ? ? X1 X2]; subst. inversion X2; subst. auto.
        -- intros [[? ?] ?]. constructor; [assumption|]. constructor; assumption.
      * rewrite <- fle_ge, <- fle_le. destruct (fle (Some lo) v), (fle v (Some u)); cbn; intuition congruence.
    + eexists. split; [reflexivity|]. cbn [length app]. split; [reflexivity|]. split; [lia|].
      rewrite <- (K (holds_le v (Some u))).
      * split; [intros X; inversion X; subst; auto|intros [? ?]; constructor; auto].
      * rewrite <- fle_le. destruct (fle v (Some u)); cbn; split; congruence.
    + eexists. split; [reflexivity|]. cbn [length app]. split; [reflexivity|]. split; [lia|].
      rewrite <- (K (holds_ge v (Some lo))).
      * split; [intros X; inversion X; subst; auto|intros [? ?]; constructor; auto].
      * rewrite <- fle_ge. destruct (fle (Some lo) v); cbn; split; congruence.
Qed.
