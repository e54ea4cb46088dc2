(** Proofs about what optimisers are given. *)
From Coq Require Import Strings.String QArith.Qround Lia.
From Verif Require Import Base LP_model Documents_model Search_model Search_spec.
Local Open Scope nat_scope.
Local Open Scope list_scope.

(** * Places *)

Lemma total_cons v r : total (v :: r) = size v + total r.
Proof. reflexivity. Qed.
Lemma placed_nil {A} (R : var -> nat -> A -> Prop) : placed [] R [].
Proof. split; [reflexivity|]. intros before v after i E. destruct before; discriminate E. Qed.
Lemma placed_cons {A} (R : var -> nat -> A -> Prop) v r l m :
  List.length l = size v -> (forall i, i < size v -> exists a, nth_error l i = Some a /\ R v i a) ->
  placed r R m -> placed (v :: r) R (l ++ m).
Proof.
  intros L H [Lm Hm]. split.
  - rewrite app_length, total_cons. lia.
  - intros before w after i E Hi. destruct before as [|b before].
    + cbn [app] in E. assert (Ew : w = v) by congruence. subst w. destruct (H i Hi) as [a [Ha Hr]]. exists a. split; [|exact Hr].
      change (total [] + i) with i. rewrite nth_error_app1; [exact Ha|lia].
    + cbn [app] in E. assert (Eb : b = v) by congruence. assert (Er : r = before ++ w :: after) by congruence. subst b.
      destruct (Hm before w after i Er Hi) as [a [Ha Hr]]. exists a. split; [|exact Hr].
      rewrite total_cons, nth_error_app2 by lia. replace (size v + total before + i - List.length l) with (total before + i) by lia. exact Ha.
Qed.
(** Reals, then integers. *)
Lemma two_parts {A} (R : var -> nat -> A -> Prop) v l m :
  List.length l = v_doubles v -> List.length m = v_integers v ->
  (forall i, i < v_doubles v -> exists a, nth_error l i = Some a /\ R v i a) ->
  (forall i, i < v_integers v -> exists a, nth_error m i = Some a /\ R v (v_doubles v + i) a) ->
  List.length (l ++ m) = size v /\ forall i, i < size v -> exists a, nth_error (l ++ m) i = Some a /\ R v i a.
Proof.
  intros Ll Lm Hl Hm. unfold size. split; [rewrite app_length; lia|]. intros i Hi.
  destruct (Nat.lt_ge_cases i (v_doubles v)) as [H|H].
  - destruct (Hl i H) as [a [Ha Hr]]. exists a. split; [|exact Hr]. rewrite nth_error_app1 by lia. exact Ha.
  - destruct (Hm (i - v_doubles v)) as [a [Ha Hr]]; [lia|]. exists a. rewrite nth_error_app2 by lia. rewrite Ll. split; [exact Ha|].
    replace i with (v_doubles v + (i - v_doubles v)) by lia. exact Hr.
Qed.
Lemma nth_some {A} (l : list A) i : i < List.length l -> exists a, nth_error l i = Some a.
Proof. intros H. destruct (nth_error l i) as [a|] eqn:E; [exists a; reflexivity|]. apply nth_error_None in E. lia. Qed.

Lemma nth_error_ext {A} (l m : list A) : (forall i, nth_error l i = nth_error m i) -> l = m.
Proof.
  revert m. induction l as [|x l IH]; intros [|y m] H; [reflexivity|now specialize (H 0%nat)|now specialize (H 0%nat)|].
  pose proof (H 0%nat) as E. cbn in E. injection E as ->. f_equal. apply IH. intros i. exact (H (S i)).
Qed.

(** * Bounds *)

Lemma reals_iff n : forall l u, (exists t, reals n l u = Some t) <-> n <= List.length l /\ n <= List.length u.
Proof.
  induction n as [|n IH]; intros l u; cbn [reals].
  - split; [intros _; lia|intros _; now exists []].
  - destruct l as [|a l], u as [|b u]; cbn [List.length]; try (split; [intros [t H]; discriminate H|intros H; lia]).
    specialize (IH l u). split.
    + intros [t H]. destruct (reals n l u) as [t'|]; [|discriminate H]. destruct (proj1 IH (ex_intro _ t' eq_refl)). lia.
    + intros H. destruct (proj2 IH) as [t E]; [lia|]. rewrite E. now eexists.
Qed.
Lemma reals_nth n : forall l u t, reals n l u = Some t ->
  List.length t = n /\ forall i, i < n -> exists a b, nth_error t i = Some (a, b) /\ nth_error l i = Some a /\ nth_error u i = Some b.
Proof.
  induction n as [|n IH]; intros l u t H; cbn [reals] in H.
  - assert (E : t = []) by congruence. subst t. split; [reflexivity|intros i Hi; lia].
  - destruct l as [|a l], u as [|b u]; try discriminate H. destruct (reals n l u) as [t'|] eqn:E; [|discriminate H].
    cbn [option_map] in H. assert (Et : t = (a, b) :: t') by congruence. subst t. destruct (IH l u t' E) as [L N]. split; [cbn [List.length]; lia|].
    intros [|i] Hi; [exists a, b; repeat split|]. destruct (N i) as [x [y Hxy]]; [lia|]. exists x, y. exact Hxy.
Qed.
Lemma as_reals_length l : List.length (integers_as_reals l) = List.length l.
Proof. apply map_length. Qed.
Lemma as_reals_nth l i e : nth_error (integers_as_reals l) i = Some e -> exists z, nth_error l i = Some z /\ e = Fin (inject_Z z).
Proof.
  unfold integers_as_reals. rewrite nth_error_map. destruct (nth_error l i) as [z|]; [|discriminate]. cbn [option_map]. intros H. exists z. split; [reflexivity|congruence].
Qed.

Lemma types_of_iff v : (exists t, types_of v = Some t) <-> bounded_by le v.
Proof.
  unfold types_of, bounded_by.
  set (a := if 0 <? v_doubles v then _ else _). set (b := if 0 <? v_integers v then _ else _).
  assert (Ha : (exists t, a = Some t) <-> (v_doubles v > 0 -> exists l u, v_lower v = Some l /\ v_upper v = Some u /\ v_doubles v <= List.length l /\ v_doubles v <= List.length u)).
  { unfold a. destruct (Nat.ltb_spec 0 (v_doubles v)) as [H|H].
    - destruct (v_lower v) as [l|]; [destruct (v_upper v) as [u|]|].
      + rewrite reals_iff. split; [intros Hn _; exists l, u; repeat split; apply Hn|]. intros G. destruct (G H) as [l' [u' [El [Eu Hn]]]].
        assert (l' = l) by congruence. assert (u' = u) by congruence. subst. exact Hn.
      + split; [intros [t Ht]; discriminate Ht|]. intros G. destruct (G H) as [l' [u' [El [Eu Hn]]]]. discriminate Eu.
      + split; [intros [t Ht]; discriminate Ht|]. intros G. destruct (G H) as [l' [u' [El [Eu Hn]]]]. discriminate El.
    - split; [intros _ G; lia|intros _; now exists []]. }
  assert (Hb : (exists t, b = Some t) <-> (v_integers v > 0 -> v_integers v <= List.length (v_ilower v) /\ v_integers v <= List.length (v_iupper v))).
  { unfold b. destruct (Nat.ltb_spec 0 (v_integers v)) as [H|H].
    - rewrite reals_iff, !as_reals_length. split; [intros Hn _; exact Hn|intros G; exact (G H)].
    - split; [intros _ G; lia|intros _; now exists []]. }
  rewrite <- Ha, <- Hb. destruct a as [x|], b as [y|].
  - split; [intros _; split; eauto|intros _; eauto].
  - split; [intros [t H]; discriminate H|intros [_ [t H]]; discriminate H].
  - split; [intros [t H]; discriminate H|intros [[t H] _]; discriminate H].
  - split; [intros [t H]; discriminate H|intros [_ [t H]]; discriminate H].
Qed.
Lemma types_of_nth v t : types_of v = Some t -> List.length t = size v /\ forall i, i < size v -> exists a, nth_error t i = Some a /\ bounds_of v i a.
Proof.
  unfold types_of. intros H.
  destruct (if 0 <? v_doubles v then _ else _) as [x|] eqn:Ex; [|discriminate H].
  destruct (if 0 <? v_integers v then _ else _) as [y|] eqn:Ey; [|discriminate H].
  assert (Et : t = x ++ y) by congruence. subst t.
  assert (Hx : List.length x = v_doubles v /\ forall i, i < v_doubles v -> exists a, nth_error x i = Some a /\ bounds_of v i a).
  { destruct (Nat.ltb_spec 0 (v_doubles v)) as [P|P].
    - destruct (v_lower v) as [l|] eqn:El; [|discriminate Ex]. destruct (v_upper v) as [u|] eqn:Eu; [|discriminate Ex].
      destruct (reals_nth _ _ _ _ Ex) as [L N]. split; [exact L|]. intros i Hi. destruct (N i Hi) as [a [b [Hn [Ha Hb]]]].
      exists (a, b). split; [exact Hn|]. now apply (BoundsReal v i l u).
    - assert (E : x = []) by congruence. subst x. split; [cbn [List.length]; lia|intros i Hi; lia]. }
  assert (Hy : List.length y = v_integers v /\ forall i, i < v_integers v -> exists a, nth_error y i = Some a /\ bounds_of v (v_doubles v + i) a).
  { destruct (Nat.ltb_spec 0 (v_integers v)) as [P|P].
    - destruct (reals_nth _ _ _ _ Ey) as [L N]. split; [exact L|]. intros i Hi. destruct (N i Hi) as [a [b [Hn [Ha Hb]]]].
      destruct (as_reals_nth _ _ _ Ha) as [z [Hz Ez]]. destruct (as_reals_nth _ _ _ Hb) as [w [Hw Ew]]. subst a b.
      eexists. split; [exact Hn|]. now apply BoundsInteger.
    - assert (E : y = []) by congruence. subst y. split; [cbn [List.length]; lia|intros i Hi; lia]. }
  apply two_parts; [apply Hx|apply Hy|apply Hx|apply Hy].
Qed.
Lemma make_variables_iff vars : (exists t, make_variables vars = Some t) <-> Forall (bounded_by le) vars.
Proof.
  induction vars as [|v r IH]; cbn [make_variables]; [split; [constructor|intros _; now exists []]|].
  split.
  - intros [t H]. destruct (types_of v) as [a|] eqn:Ea; [|discriminate H]. destruct (make_variables r) as [b|] eqn:Eb; [|discriminate H].
    constructor; [apply types_of_iff; now exists a|apply IH; now exists b].
  - intros H. inversion H as [|v' r' Hv Hr]; subst. apply types_of_iff in Hv. apply IH in Hr. destruct Hv as [a Ea], Hr as [b Eb]. rewrite Ea, Eb. now eexists.
Qed.
Lemma make_variables_placed vars : forall t, make_variables vars = Some t -> placed vars bounds_of t.
Proof.
  induction vars as [|v r IH]; cbn [make_variables]; intros t H.
  - assert (E : t = []) by congruence. subst t. apply placed_nil.
  - destruct (types_of v) as [a|] eqn:Ea; [|discriminate H]. destruct (make_variables r) as [b|] eqn:Eb; [|discriminate H].
    assert (E : t = a ++ b) by congruence. subst t. destruct (types_of_nth v a Ea) as [L N]. apply placed_cons; [exact L|exact N|now apply IH].
Qed.
Lemma number_total vars : number vars = total vars.
Proof. induction vars as [|v r IH]; [reflexivity|]. rewrite total_cons, <- IH. reflexivity. Qed.
Lemma exists_empty vars : existsb (fun v => v_doubles v + v_integers v <=? 0) vars = false <-> Forall (fun v => size v > 0) vars.
Proof.
  induction vars as [|v r IH]; cbn [existsb]; [split; [constructor|reflexivity]|].
  rewrite Bool.orb_false_iff, IH, Nat.leb_gt. split.
  - intros [H1 H2]. constructor; [unfold size; lia|exact H2].
  - intros H. inversion H as [|v' r' Hv Hr]; subst. unfold size in Hv. split; [lia|exact Hr].
Qed.

(** * pygmo *)

Lemma join_app l m : join (l ++ m) = match join l, join m with Some a, Some b => Some (a ++ b) | _, _ => None end.
Proof.
  induction l as [|x l IH]; cbn [app join]; [now destruct (join m)|]. rewrite IH. destruct x as [a|]; [|reflexivity].
  destruct (join l) as [b|]; [|reflexivity]. destruct (join m) as [c|]; [|reflexivity]. now rewrite app_assoc.
Qed.
Definition lower_of (v : var) (lo : ext) (i : nat) : Prop := exists hi, bounds_of v i (lo, hi).
Lemma part_join v : bounded_by eq v -> exists l u,
  join (map fst (parts_of v)) = Some l /\ join (map snd (parts_of v)) = Some u /\ List.length l = size v /\ List.length u = size v /\
  forall i, i < size v -> exists a b, nth_error l i = Some a /\ nth_error u i = Some b /\ bounds_of v i (a, b).
Proof.
  intros [Hd Hi]. unfold parts_of. rewrite !map_app, !join_app.
  assert (Hx : exists x y, join (map fst (if 0 <? v_doubles v then [(v_lower v, v_upper v)] else [])) = Some x /\
                           join (map snd (if 0 <? v_doubles v then [(v_lower v, v_upper v)] else [])) = Some y /\
                           List.length x = v_doubles v /\ List.length y = v_doubles v /\
                           forall i, i < v_doubles v -> exists a b, nth_error x i = Some a /\ nth_error y i = Some b /\ bounds_of v i (a, b)).
  { destruct (Nat.ltb_spec 0 (v_doubles v)) as [P|P].
    - destruct (Hd P) as [l [u [El [Eu [Ll Lu]]]]]. rewrite El, Eu. exists l, u. cbn [map fst snd join]. rewrite !app_nil_r.
      repeat split; try lia. intros i Hn. destruct (nth_some l i) as [a Ha]; [lia|]. destruct (nth_some u i) as [b Hb]; [lia|].
      exists a, b. repeat split; try assumption. now apply (BoundsReal v i l u).
    - exists [], []. cbn [map join List.length]. repeat split; try lia; intros i Hn; lia. }
  assert (Hy : exists x y, join (map fst (if 0 <? v_integers v then [(Some (integers_as_reals (v_ilower v)), Some (integers_as_reals (v_iupper v)))] else [])) = Some x /\
                           join (map snd (if 0 <? v_integers v then [(Some (integers_as_reals (v_ilower v)), Some (integers_as_reals (v_iupper v)))] else [])) = Some y /\
                           List.length x = v_integers v /\ List.length y = v_integers v /\
                           forall i, i < v_integers v -> exists a b, nth_error x i = Some a /\ nth_error y i = Some b /\ bounds_of v (v_doubles v + i) (a, b)).
  { destruct (Nat.ltb_spec 0 (v_integers v)) as [P|P].
    - destruct (Hi P) as [Ll Lu]. eexists. eexists. cbn [map fst snd join]. rewrite !app_nil_r. split; [reflexivity|]. split; [reflexivity|].
      rewrite !as_reals_length. repeat split; try lia. intros i Hn.
      destruct (nth_some (v_ilower v) i) as [a Ha]; [lia|]. destruct (nth_some (v_iupper v) i) as [b Hb]; [lia|].
      exists (Fin (inject_Z a)), (Fin (inject_Z b)). unfold integers_as_reals. rewrite !nth_error_map, Ha, Hb. repeat split. now apply BoundsInteger.
    - exists [], []. cbn [map join List.length]. repeat split; try lia; intros i Hn; lia. }
  destruct Hx as [x1 [y1 [E1 [E2 [L1 [L2 N1]]]]]], Hy as [x2 [y2 [E3 [E4 [L3 [L4 N2]]]]]]. rewrite E1, E2, E3, E4.
  exists (x1 ++ x2), (y1 ++ y2). split; [reflexivity|]. split; [reflexivity|]. rewrite !app_length. unfold size. split; [lia|]. split; [lia|].
  intros i Hn. destruct (Nat.lt_ge_cases i (v_doubles v)) as [H|H].
  - destruct (N1 i H) as [a [b G]]. exists a, b. rewrite !nth_error_app1 by lia. exact G.
  - destruct (N2 (i - v_doubles v)) as [a [b G]]; [lia|]. exists a, b. rewrite !nth_error_app2 by lia. rewrite L1, L2.
    replace (v_doubles v + (i - v_doubles v)) with i in G by lia. exact G.
Qed.
Lemma combine_app {A B} (a : list A) (b : list B) : forall c d, List.length a = List.length b -> combine (a ++ c) (b ++ d) = combine a b ++ combine c d.
Proof. revert b. induction a as [|x a IH]; intros [|y b] c d H; try discriminate H; [reflexivity|]. cbn [app combine]. rewrite IH; [reflexivity|]. now apply Nat.succ_inj. Qed.
Lemma combine_nth {A B} (a : list A) (b : list B) i x y : nth_error a i = Some x -> nth_error b i = Some y -> nth_error (combine a b) i = Some (x, y).
Proof.
  revert b i. induction a as [|p a IH]; intros [|q b] [|i] Ha Hb; cbn [nth_error combine] in *; try discriminate; [congruence|]. now apply IH.
Qed.
Lemma parts_join vars : Forall (bounded_by eq) vars -> exists l u,
  join (map fst (flat_map parts_of vars)) = Some l /\ join (map snd (flat_map parts_of vars)) = Some u /\
  List.length l = total vars /\ List.length u = total vars /\ placed vars bounds_of (combine l u).
Proof.
  induction vars as [|v r IH]; intros H.
  - exists [], []. repeat split. intros before w after i E. destruct before; discriminate E.
  - inversion H as [|v' r' Hv Hr]; subst. destruct (IH Hr) as [l [u [El [Eu [Ll [Lu P]]]]]]. destruct (part_join v Hv) as [a [b [Ea [Eb [La [Lb N]]]]]].
    exists (a ++ l), (b ++ u). cbn [flat_map]. rewrite !map_app, !join_app, Ea, Eb, El, Eu, !app_length, total_cons.
    split; [reflexivity|]. split; [reflexivity|]. split; [lia|]. split; [lia|].
    rewrite combine_app by lia. apply placed_cons; [rewrite combine_length; lia| |exact P].
    intros i Hi. destruct (N i Hi) as [x [y [Hx [Hy B]]]]. exists (x, y). split; [now apply combine_nth|exact B].
Qed.
Lemma parts_none vars : flat_map parts_of vars = [] <-> total vars = 0.
Proof.
  induction vars as [|v r IH]; [split; reflexivity|]. cbn [flat_map]. rewrite total_cons. unfold size. split.
  - intros H. apply app_eq_nil in H. destruct H as [H1 H2]. apply IH in H2. unfold parts_of in H1. apply app_eq_nil in H1. destruct H1 as [H3 H4].
    destruct (Nat.ltb_spec 0 (v_doubles v)); [discriminate H3|]. destruct (Nat.ltb_spec 0 (v_integers v)); [discriminate H4|]. lia.
  - intros H. assert (E : total r = 0) by lia. apply IH in E. rewrite E, app_nil_r. unfold parts_of.
    destruct (Nat.ltb_spec 0 (v_doubles v)); [lia|]. destruct (Nat.ltb_spec 0 (v_integers v)); [lia|]. reflexivity.
Qed.

(** * Given candidates *)

Lemma eltb_false a b : eltb a b = false <-> ele b a.
Proof.
  destruct a as [|x|], b as [|y|]; cbn [eltb ele]; try (split; [intros; exact I|reflexivity]); try (split; [discriminate|contradiction]); try (split; [reflexivity|intros; exact I]).
  destruct (qltbP x y) as [H|H]; split; intros G; try discriminate; try reflexivity; lra.
Qed.
Lemma eltb_true a b : eltb a b = true -> ele a b.
Proof. destruct a as [|x|], b as [|y|]; cbn [eltb ele]; try discriminate; try (intros; exact I). destruct (qltbP x y) as [H|H]; [intros _; lra|discriminate]. Qed.
Lemma clip_nearest lo hi x : ele lo hi -> nearest lo hi x (clip lo hi x).
Proof.
  intros H. unfold clip, nearest. destruct (eltb x lo) eqn:E.
  - rewrite (proj2 (eltb_false hi lo) H). right. left. split; [now apply eltb_true|reflexivity].
  - apply (proj1 (eltb_false _ _)) in E. destruct (eltb hi x) eqn:F.
    + right. right. split; [now apply eltb_true|reflexivity].
    + apply (proj1 (eltb_false _ _)) in F. left. repeat split; assumption.
Qed.
Lemma cut_spec q : towards_zero q (cut q).
Proof.
  unfold cut, towards_zero. destruct (qltbP q 0) as [H|H].
  - right. rewrite inject_Z_opp. pose proof (Qfloor_le (- q)) as F. pose proof (Qlt_floor (- q)) as G. rewrite inject_Z_plus in G. change (inject_Z 1) with 1%Q in G. repeat split; lra.
  - left. pose proof (Qfloor_le q) as F. pose proof (Qlt_floor q) as G. rewrite inject_Z_plus in G. change (inject_Z 1) with 1%Q in G. repeat split; lra.
Qed.
Lemma broadcast2_nth {A B} (l : list A) (m : list B) : enough (List.length m) l -> exists r, broadcast2 l m = Some r /\ List.length r = List.length m /\
  forall i, i < List.length m -> exists a b, nth_error r i = Some (a, b) /\ value_at l i a /\ nth_error m i = Some b.
Proof.
  intros H. unfold broadcast2. destruct (Nat.eqb_spec (List.length l) (List.length m)) as [E|E].
  - exists (combine l m). split; [reflexivity|]. split; [rewrite combine_length; lia|]. intros i Hi.
    destruct (nth_some l i) as [a Ha]; [lia|]. destruct (nth_some m i) as [b Hb]; [lia|]. exists a, b. split; [now apply combine_nth|]. split; [right; exact Ha|exact Hb].
  - destruct H as [H|H]; [|contradiction]. destruct l as [|a [|a' l]]; try discriminate H. exists (map (fun b => (a, b)) m). split; [reflexivity|].
    split; [apply map_length|]. intros i Hi. destruct (nth_some m i) as [b Hb]; [lia|]. exists a, b. rewrite nth_error_map, Hb. repeat split. left. reflexivity.
Qed.
Lemma clip_all_nth values lower upper n : enough n values -> List.length lower = n -> List.length upper = n ->
  exists r, clip_all values lower upper = Some r /\ List.length r = n /\
  forall i, i < n -> exists x lo hi, nth_error r i = Some (clip lo hi x) /\ value_at values i x /\ nth_error lower i = Some lo /\ nth_error upper i = Some hi.
Proof.
  intros H Ll Lu. unfold clip_all. destruct (broadcast2_nth values lower) as [r [E [L N]]]; [now rewrite Ll|]. rewrite E.
  destruct (broadcast2_nth r upper) as [s [F [M O]]]; [right; lia|]. rewrite F. eexists. split; [reflexivity|]. rewrite map_length. split; [lia|].
  intros i Hi. destruct (O i) as [[x lo] [hi [Hs [Hr Hu]]]]; [lia|]. destruct (N i) as [x' [lo' [Hr' [Hx Hlo]]]]; [lia|].
  assert (Er : nth_error r i = Some (x, lo)).
  { destruct Hr as [Hr|Hr]; [|exact Hr]. rewrite Hr in L. cbn [List.length] in L. assert (i = 0) by lia. subst i. now rewrite Hr. }
  assert (x' = x) by congruence. assert (lo' = lo) by congruence. subst x' lo'.
  exists x, lo, hi. rewrite nth_error_map, Hs. repeat split; assumption.
Qed.
Lemma value_at_map {A B} (f : A -> B) l i b : value_at (map f l) i b -> exists a, value_at l i a /\ b = f a.
Proof.
  intros [H|H].
  - destruct l as [|a [|a' l]]; try discriminate H. exists a. split; [left; reflexivity|]. cbn [map] in H. congruence.
  - rewrite nth_error_map in H. destruct (nth_error l i) as [a|] eqn:E; [|discriminate H]. exists a. split; [right; exact E|]. cbn [option_map] in H. congruence.
Qed.

(** What becomes of a given value. *)
Definition taken (g : given) (v : var) (i : nat) (y : ext) : Prop :=
  exists x lo hi, given_at g v i x /\ bounds_of v i (lo, hi) /\ (ele lo hi -> nearest lo hi x y).

Lemma given_one_nth g v : bounded_by eq v -> gives g v -> exists l, given_one g v = Some l /\ List.length l = size v /\
  forall i, i < size v -> exists y, nth_error l i = Some y /\ taken g v i y.
Proof.
  intros [Hd Hi] [gv [Eg [Gd Gi]]]. unfold given_one. rewrite Eg.
  assert (Hx : exists x, (if 0 <? v_doubles v then match g_doubles gv, v_lower v, v_upper v with Some x, Some l, Some u => clip_all (map Fin x) l u | _, _, _ => None end else Some []) = Some x /\
    List.length x = v_doubles v /\ forall i, i < v_doubles v -> exists y, nth_error x i = Some y /\ taken g v i y).
  { destruct (Nat.ltb_spec 0 (v_doubles v)) as [P|P].
    - destruct (Gd P) as [d [Ed Ld]]. destruct (Hd P) as [l [u [El [Eu [Ll Lu]]]]]. rewrite Ed, El, Eu.
      destruct (clip_all_nth (map Fin d) l u (v_doubles v)) as [r [Er [Lr N]]]; [unfold enough; rewrite map_length; exact Ld|lia|lia|].
      exists r. split; [exact Er|]. split; [exact Lr|]. intros i Hn. destruct (N i Hn) as [x [lo [hi [Hr [Hv [Hlo Hhi]]]]]]. eexists. split; [exact Hr|].
      destruct (value_at_map _ _ _ _ Hv) as [q [Hq Eq]]. subst x. exists (Fin q), lo, hi. split; [now apply (GivenReal g v i gv d)|].
      split; [now apply (BoundsReal v i l u)|apply clip_nearest].
    - exists []. split; [reflexivity|]. split; [cbn [List.length]; lia|]. intros i Hn. lia. }
  assert (Hy : exists x, (if 0 <? v_integers v then match g_integers gv with Some x => clip_all (integers_as_reals (map cut x)) (integers_as_reals (v_ilower v)) (integers_as_reals (v_iupper v)) | None => None end else Some []) = Some x /\
    List.length x = v_integers v /\ forall i, i < v_integers v -> exists y, nth_error x i = Some y /\ taken g v (v_doubles v + i) y).
  { destruct (Nat.ltb_spec 0 (v_integers v)) as [P|P].
    - destruct (Gi P) as [d [Ed Ld]]. destruct (Hi P) as [Ll Lu]. rewrite Ed.
      destruct (clip_all_nth (integers_as_reals (map cut d)) (integers_as_reals (v_ilower v)) (integers_as_reals (v_iupper v)) (v_integers v)) as [r [Er [Lr N]]];
        [unfold enough; rewrite as_reals_length, map_length; exact Ld|rewrite as_reals_length; lia|rewrite as_reals_length; lia|].
      exists r. split; [exact Er|]. split; [exact Lr|]. intros i Hn. destruct (N i Hn) as [x [lo [hi [Hr [Hv [Hlo Hhi]]]]]]. eexists. split; [exact Hr|].
      destruct (value_at_map _ _ _ _ Hv) as [z [Hz Ez]]. destruct (value_at_map _ _ _ _ Hz) as [q [Hq Eq]]. subst x z.
      destruct (as_reals_nth _ _ _ Hlo) as [a [Ha Ea]]. destruct (as_reals_nth _ _ _ Hhi) as [b [Hb Eb]]. subst lo hi.
      exists (Fin (inject_Z (cut q))), (Fin (inject_Z a)), (Fin (inject_Z b)). split; [apply (GivenInteger g v i gv d q); try assumption; apply cut_spec|].
      split; [now apply BoundsInteger|apply clip_nearest].
    - exists []. split; [reflexivity|]. split; [cbn [List.length]; lia|]. intros i Hn. lia. }
  destruct Hx as [x [Ex [Lx Nx]]], Hy as [y [Ey [Ly Ny]]]. rewrite Ex, Ey. exists (x ++ y). split; [reflexivity|].
  exact (two_parts (taken g) v x y Lx Ly Nx Ny).
Qed.
Lemma given_solution_placed g vars : Forall (bounded_by eq) vars -> Forall (gives g) vars -> exists l, given_solution g vars = Some l /\ placed vars (taken g) l.
Proof.
  induction vars as [|v r IH]; intros H G; cbn [given_solution]; [exists []; split; [reflexivity|apply placed_nil]|].
  inversion H as [|v' r' Hv Hr]; subst. inversion G as [|v' r' Gv Gr]; subst.
  destruct (given_one_nth g v Hv Gv) as [a [Ea [La Na]]]. destruct (IH Hr Gr) as [b [Eb Pb]]. rewrite Ea, Eb. exists (a ++ b). split; [reflexivity|].
  now apply placed_cons.
Qed.
Lemma given_missing g vars v : In v vars -> size v > 0 -> get (v_name v) g = None -> given_solution g vars = None.
Proof.
  intros Hin Hs Hg. induction vars as [|w r IH]; [destruct Hin|]. cbn [given_solution]. destruct Hin as [E|Hin].
  - subst w. assert (E : given_one g v = None); [|now rewrite E]. unfold given_one. rewrite Hg. unfold size in Hs.
    destruct (Nat.ltb_spec 0 (v_doubles v)) as [P|P]; [reflexivity|]. destruct (Nat.ltb_spec 0 (v_integers v)) as [P'|P']; [reflexivity|lia].
  - rewrite (IH Hin). now destruct (given_one g w).
Qed.

Lemma present_placed vars : Forall (fun v => List.length (v_now v) = v_doubles v /\ List.length (v_inow v) = v_integers v) vars -> placed vars now_at (present_values vars).
Proof.
  induction vars as [|v r IH]; intros H; [apply placed_nil|]. inversion H as [|v' r' [Hd Hi] Hr]; subst. unfold present_values. cbn [flat_map].
  assert (P : List.length ((if 0 <? v_doubles v then map Fin (v_now v) else []) ++ (if 0 <? v_integers v then integers_as_reals (v_inow v) else [])) = size v /\
    forall i, i < size v -> exists a, nth_error ((if 0 <? v_doubles v then map Fin (v_now v) else []) ++ (if 0 <? v_integers v then integers_as_reals (v_inow v) else [])) i = Some a /\ now_at v i a).
  { apply two_parts.
    - destruct (Nat.ltb_spec 0 (v_doubles v)); [now rewrite map_length|cbn [List.length]; lia].
    - destruct (Nat.ltb_spec 0 (v_integers v)); [now rewrite as_reals_length|cbn [List.length]; lia].
    - intros i Hn. destruct (Nat.ltb_spec 0 (v_doubles v)); [|lia]. destruct (nth_some (v_now v) i) as [a Ha]; [lia|].
      exists (Fin a). rewrite nth_error_map, Ha. split; [reflexivity|now constructor].
    - intros i Hn. destruct (Nat.ltb_spec 0 (v_integers v)); [|lia]. destruct (nth_some (v_inow v) i) as [a Ha]; [lia|].
      exists (Fin (inject_Z a)). unfold integers_as_reals. rewrite nth_error_map, Ha. split; [reflexivity|now constructor]. }
  apply placed_cons; [apply P|apply P|now apply IH].
Qed.

(** * The order of candidates *)

Lemma generated_rest calls : forall g, g_wrapper g = true -> g_use_current g = false \/ g_generated g = true ->
  in_order (skipn (g_pointer g) match g_solutions g with Some l => l | None => [] end) calls (generated g calls).
Proof.
  induction calls as [|vars r IH]; intros g Hw Hc; cbn [generated]; [constructor|].
  assert (E : g_use_current g && negb (g_generated g) = false) by (destruct Hc as [-> | ->]; [reflexivity|apply Bool.andb_false_r]).
  unfold generate. rewrite Hw, E. destruct (g_solutions g) as [l|] eqn:Es.
  - destruct (nth_error l (g_pointer g)) as [s|] eqn:En.
    + assert (Ek : skipn (g_pointer g) l = s :: skipn (Datatypes.S (g_pointer g)) l).
      { clear - En. revert l En. induction (g_pointer g) as [|k IHk]; intros [|a l] En; cbn [nth_error] in En; try discriminate En; [cbn [skipn]; congruence|]. cbn [skipn]. apply IHk. exact En. }
      destruct (given_solution s vars) as [x|] eqn:Ex.
      * rewrite Ek. constructor; [exact Ex|]. specialize (IH (Generator true (g_use_current g) (Some l) (g_generated g) (Datatypes.S (g_pointer g))) eq_refl Hc).
        cbn [g_solutions g_pointer] in IH. exact IH.
      * rewrite Ek. constructor; [exact Ex|]. specialize (IH g Hw Hc). rewrite Es, Ek in IH. exact IH.
    + apply nth_error_None in En. specialize (IH g Hw Hc). rewrite Es in IH. rewrite skipn_all2 in IH |- * by exact En. constructor. exact IH.
  - specialize (IH g Hw Hc). rewrite Es in IH. rewrite skipn_nil in IH |- *. constructor. exact IH.
Qed.

(** * The cache *)

Definition sound (p : process) : Prop :=
  (forall u m, find_model u p = Some m -> m < made p) /\
  (forall u u' m, find_model u p = Some m -> find_model u' p = Some m -> u = u').
Lemma find_cons u m c k w : find_model w (Process ((u, m) :: c) k) = if Nat.eqb u w then Some m else find_model w (Process c k).
Proof. unfold find_model. cbn [cache find fst]. now destruct (Nat.eqb u w). Qed.
Lemma find_made w c k k' : find_model w (Process c k) = find_model w (Process c k').
Proof. reflexivity. Qed.
Lemma access_sound p x : sound p -> sound (snd (access p x)) /\ made p <= made (snd (access p x)).
Proof.
  intros [H1 H2]. destruct x as [u b|]; cbn [access].
  - destruct (find_model u p) as [m|] eqn:E; [cbn [snd]; repeat split; assumption || lia|]. destruct p as [c k]. cbn [cache made] in *. destruct b; cbn [snd made].
    + split; [|lia]. split.
      * intros w m. rewrite find_cons. cbn [made]. destruct (Nat.eqb u w).
        -- intros G. assert (m = k) by congruence. lia.
        -- intros G. specialize (H1 w m G). lia.
      * intros w w' m. rewrite !find_cons. destruct (Nat.eqb_spec u w) as [Ew|Ew], (Nat.eqb_spec u w') as [Ew'|Ew'].
        -- congruence.
        -- intros G G'. specialize (H1 w' m G'). assert (m = k) by congruence. lia.
        -- intros G G'. specialize (H1 w m G). assert (m = k) by congruence. lia.
        -- apply H2.
    + split; [|lia]. split.
      * intros w m G. rewrite (find_made w c _ k) in G. specialize (H1 w m G). cbn [made]. lia.
      * intros w w' m G G'. exact (H2 w w' m G G').
  - cbn [snd made]. split; [|lia]. split; [intros u m G; discriminate G|intros u u' m G; discriminate G].
Qed.
Lemma uses_snd p x r : snd (uses p (x :: r)) = snd (uses (snd (access p x)) r).
Proof. cbn [uses]. destruct (access p x) as [m p1]. cbn [snd]. now destruct (uses p1 r). Qed.
Lemma uses_fst p x r : fst (uses p (x :: r)) = fst (access p x) :: fst (uses (snd (access p x)) r).
Proof. cbn [uses]. destruct (access p x) as [m p1]. cbn [fst snd]. now destruct (uses p1 r). Qed.
Lemma uses_sound l : forall p, sound p -> sound (snd (uses p l)) /\ made p <= made (snd (uses p l)).
Proof.
  induction l as [|x r IH]; intros p H; [cbn [uses snd]; split; [exact H|lia]|]. rewrite uses_snd. destruct (access_sound p x H) as [A B]. destruct (IH _ A) as [C D]. split; [exact C|lia].
Qed.
Lemma uses_length l : forall p, List.length (fst (uses p l)) = List.length l.
Proof. induction l as [|x r IH]; intros p; [reflexivity|]. rewrite uses_fst. cbn [List.length]. now rewrite IH. Qed.
Lemma uses_app a : forall b p, fst (uses p (a ++ b)) = fst (uses p a) ++ fst (uses (snd (uses p a)) b).
Proof. induction a as [|x a IH]; intros b p; [reflexivity|]. cbn [app]. rewrite !uses_fst, uses_snd, IH. reflexivity. Qed.
Lemma uses_snd_app a : forall b p, snd (uses p (a ++ b)) = snd (uses (snd (uses p a)) b).
Proof. induction a as [|x a IH]; intros b p; [reflexivity|]. cbn [app]. rewrite !uses_snd. apply IH. Qed.
Lemma access_keeps p x u m : x <> Clear -> find_model u p = Some m -> find_model u (snd (access p x)) = Some m.
Proof.
  intros N H. destruct x as [w b|]; [|contradiction]. cbn [access]. destruct (find_model w p) as [k|] eqn:E; [exact H|]. destruct p as [c n], b; cbn [snd cache made]; [|exact H].
  rewrite find_cons. destruct (Nat.eqb_spec w u) as [Ew|Ew]; [subst w; congruence|exact H].
Qed.
Lemma uses_keeps l u m : forall p, ~ In Clear l -> find_model u p = Some m -> find_model u (snd (uses p l)) = Some m.
Proof.
  induction l as [|x r IH]; intros p N H; [exact H|]. rewrite uses_snd. apply IH; [intros G; apply N; now right|]. apply access_keeps; [|exact H]. intros E. apply N. now left.
Qed.
Lemma access_found p u b m : fst (access p (Access u b)) = Some m -> find_model u (snd (access p (Access u b))) = Some m.
Proof.
  cbn [access]. destruct (find_model u p) as [k|] eqn:E; [cbn [fst snd]; intros H; now rewrite E, H|]. destruct b; cbn [fst snd]; [|discriminate].
  intros H. rewrite find_cons, Nat.eqb_refl. exact H.
Qed.
(** Models made from some time on. *)
Definition since (k : nat) (p : process) : Prop := k <= made p /\ forall u m, find_model u p = Some m -> k <= m.
Lemma access_since k p x : since k p -> since k (snd (access p x)).
Proof.
  intros [H1 H2]. destruct x as [u b|]; cbn [access].
  - destruct (find_model u p) as [m|] eqn:E; [split; assumption|]. destruct p as [c n], b; cbn [snd cache made] in *; (split; [cbn [made]; lia|]).
    + intros w m. rewrite find_cons. destruct (Nat.eqb u w); [intros G; assert (m = n) by congruence; lia|]. intros G. exact (H2 w m G).
    + intros w m G. exact (H2 w m G).
  - split; [exact H1|]. intros u m G. discriminate G.
Qed.
Lemma uses_since k l : forall p, since k p -> since k (snd (uses p l)).
Proof. induction l as [|x r IH]; intros p H; [exact H|]. rewrite uses_snd. apply IH. now apply access_since. Qed.
Lemma cleared_since p x : x = Clear -> since (made p) (snd (access p x)).
Proof. intros ->. split; [cbn [access snd made]; lia|]. intros u m G. discriminate G. Qed.

Lemma cache_same p before u b between u' b' after m m' : sound p ->
  let ms := fst (uses p (before ++ Access u b :: between ++ Access u' b' :: after)) in
  nth_error ms (List.length before) = Some (Some m) ->
  nth_error ms (List.length before + 1 + List.length between) = Some (Some m') ->
  (m = m' <-> u = u' /\ ~ In Clear between).
Proof.
  intros Hp ms H1 H2. unfold ms in *. rewrite uses_app in H1, H2.
  rewrite nth_error_app2 in H1, H2 by (rewrite uses_length; lia). rewrite uses_length in H1, H2.
  destruct (uses_sound before p Hp) as [S0 _]. set (p0 := snd (uses p before)) in *. rewrite uses_fst in H1, H2.
  replace (List.length before - List.length before) with 0 in H1 by lia. cbn [nth_error] in H1.
  replace (List.length before + 1 + List.length between - List.length before) with (Datatypes.S (List.length between)) in H2 by lia. cbn [nth_error] in H2.
  destruct (access_sound p0 (Access u b) S0) as [S1 _]. assert (F1 : find_model u (snd (access p0 (Access u b))) = Some m) by (apply access_found; congruence).
  set (p1 := snd (access p0 (Access u b))) in *. rewrite uses_app in H2. rewrite nth_error_app2 in H2 by (rewrite uses_length; lia).
  rewrite uses_length, Nat.sub_diag, uses_fst in H2. cbn [nth_error] in H2.
  destruct (uses_sound between p1 S1) as [S2 _].
  destruct (access_sound (snd (uses p1 between)) (Access u' b') S2) as [S3 _].
  assert (F3 : find_model u' (snd (access (snd (uses p1 between)) (Access u' b'))) = Some m') by (apply access_found; congruence).
  destruct (in_dec (fun x y : use => ltac:(decide equality; [apply Bool.bool_dec|apply Nat.eq_dec])) Clear between) as [Hc|Hc].
  - split; [|intros [_ N]; contradiction]. intros E. exfalso. apply in_split in Hc. destruct Hc as [a [c Ec]]. subst between.
    assert (B1 : m < made p1) by (apply (proj1 S1 u); exact F1).
    destruct (uses_sound a p1 S1) as [_ B2].
    assert (B3 : since (made (snd (uses p1 a))) (snd (access (snd (uses p1 (a ++ Clear :: c))) (Access u' b')))).
    { apply access_since. rewrite uses_snd_app, uses_snd. apply uses_since. now apply cleared_since. }
    destruct B3 as [_ B3]. specialize (B3 _ _ F3). lia.
  - assert (F2 : find_model u (snd (access (snd (uses p1 between)) (Access u' b'))) = Some m).
    { apply access_keeps; [discriminate|]. now apply uses_keeps. }
    split.
    + intros E. subst m'. split; [exact (proj2 S3 u u' m F2 F3)|exact Hc].
    + intros [E _]. subst u'. congruence.
Qed.
Lemma empty_sound k : sound (Process [] k).
Proof. split; [intros u m G; discriminate G|intros u u' m G; discriminate G]. Qed.
