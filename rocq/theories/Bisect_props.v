(** Property theorems about the bisection search (C57). *)
From Verif Require Import Base Bisect_model Bisect_proofs.
From Coq Require Import Floats.SpecFloat QArith.Qpower QArith.Qround.

(** Number of halvings of the range needed to reach epsilon: the least k with (hi - lo) / 2^k <= eps. *)
Definition halvings (lo hi eps : Q) (k : nat) : Prop :=
  (hi - lo <= eps * 2 ^ Z.of_nat k) /\ forall j, (j < k)%nat -> eps * 2 ^ Z.of_nat j < hi - lo.

Lemma pow2_pos j : 0 < 2 ^ Z.of_nat j.
Proof. pose proof (pow2_ge j). assert (0 <= inject_Z (Z.of_nat j)) by (change 0 with (inject_Z 0); rewrite <- Zle_Qle; lia). lra. Qed.

Lemma halvings_gap lo hi eps k :
  halvings lo hi eps k <-> gap (hi - lo) k <= eps /\ forall j, (j < k)%nat -> eps < gap (hi - lo) j.
Proof.
  unfold halvings.
  assert (forall j, (hi - lo <= eps * 2 ^ Z.of_nat j <-> gap (hi - lo) j <= eps) /\ (eps * 2 ^ Z.of_nat j < hi - lo <-> eps < gap (hi - lo) j)) as K.
  { intros j. pose proof (gap_pow (hi - lo) j) as G. pose proof (pow2_pos j) as P. set (p := 2 ^ Z.of_nat j) in *. set (y := gap (hi - lo) j) in *.
    rewrite <- G. split; split; intros H.
    - apply (Qmult_le_r _ _ p P). exact H.
    - apply (Qmult_le_r _ _ p P) in H. exact H.
    - apply (Qmult_lt_r _ _ p P). exact H.
    - apply (Qmult_lt_r _ _ p P) in H. exact H. }
  split; intros [A B]; (split; [apply K, A|intros j Hj; apply K, B, Hj]).
Qed.

(** C57: with a finite range the search always stops; it simulates as often as the range has to be halved, and once more at
    the end if it returns.  Less fuel than that is not enough, so the count is exact. *)
Theorem C57_terminates : forall feasible lo hi eps err, lo < hi -> 0 < eps ->
  exists k, halvings lo hi eps k /\ forall fuel,
    if (fuel <? k)%nat then run exact feasible (Some (Xq eps)) (Some (1%nat, 0%nat, Xq lo, Xq hi)) err fuel = None
    else exists o, run exact feasible (Some (Xq eps)) (Some (1%nat, 0%nat, Xq lo, Xq hi)) err fuel = Some o /\
      match o with Raises _ l => length l = k | Ends _ l => length l = S k end.
Proof.
  intros f lo hi eps err H E. destruct (least_halvings eps E (hi - lo)) as (k & K1 & K2). exists k.
  split; [apply halvings_gap; auto|]. intros fuel.
  pose proof (loop_runs f eps E lo hi k fuel lo hi XNeg [] (good_start f lo hi H) K1 K2) as R.
  unfold run. cbn [exact num geb zero neg_inf xgeb Nat.eqb negb orb].
  destruct (qlebP hi lo); [lra|]. destruct (qlebP eps 0); [lra|].
  destruct (fuel <? k)%nat. { cbn [exact num] in *. rewrite R. reflexivity. }
  destruct R as (m & M & b & new & R & L & G & _). cbn [exact num] in *. rewrite R. eexists. split; [reflexivity|].
  unfold conclude. rewrite app_nil_r. destruct (is_neg_inf exact b); [destruct err|]; rewrite ?rev_length; cbn [length]; auto.
Qed.
Print Assumptions C57_terminates.

(** C57: what it returns.  [v] is the last value simulated; it was feasible when tested unless nothing was, in which case it is the
    lower bound (only with error_on_infeasible off).  If feasibility is monotone no feasible value of the range exceeds v + eps. *)
Theorem C57_result : forall feasible lo hi eps err fuel v l, lo < hi -> 0 < eps ->
  run exact feasible (Some (Xq eps)) (Some (1%nat, 0%nat, Xq lo, Xq hi)) err fuel = Some (Ends v l) ->
  exists tested q, l = tested ++ [v] /\ v = Xq q /\ lo <= q < hi /\
    (feasible v = true /\ In v tested \/ err = false /\ v = Xq lo /\ forall x, In x tested -> feasible x = false) /\
    ((forall x y, x <= y -> feasible (Xq y) = true -> feasible (Xq x) = true) ->
     forall x, lo <= x <= hi -> feasible (Xq x) = true -> x <= q + eps).
Proof.
  intros f lo hi eps err fuel v l H E R.
  destruct (least_halvings eps E (hi - lo)) as (k & K1 & K2).
  pose proof (loop_runs f eps E lo hi k fuel lo hi XNeg [] (good_start f lo hi H) K1 K2) as L.
  unfold run in R. cbn [exact num geb zero neg_inf xgeb Nat.eqb negb orb] in R.
  destruct (qlebP hi lo); [lra|]. destruct (qlebP eps 0); [lra|]. cbn [exact num] in *.
  destruct (fuel <? k)%nat. { rewrite L in R. discriminate. }
  destruct L as (m & M & b & new & L & _ & G & S). rewrite L in R. rewrite app_nil_r in *.
  destruct G as [(G1 & G2 & G3) Gb Gl Gh Gt].
  assert (forall q, q == m -> (forall x y, x <= y -> f (Xq y) = true -> f (Xq x) = true) ->
    forall x, lo <= x <= hi -> f (Xq x) = true -> x <= q + eps) as Bound.
  { intros q Eq Mono x Hx Fx. destruct (Qlt_le_dec M x) as [Lx|Lx]; [|lra].
    destruct Gh as [Gh|Gh]; [lra|]. unfold fin in Gh. rewrite (Mono M x) in Gh; [discriminate|lra|exact Fx]. }
  unfold conclude in R. destruct Gb as [[-> N]|(q & -> & I1 & I2)]; cbn [exact is_neg_inf] in R.
  - destruct err; [discriminate|]. injection R as <- <-. cbn in Gl.
    subst m.
    exists (rev new), lo. cbn [rev]. split; [reflexivity|]. split; [reflexivity|]. split; [lra|]. split; [|apply Bound; reflexivity].
    right. split; [reflexivity|]. split; [reflexivity|intros x Hx; apply N, in_rev, Hx].
  - injection R as <- <-. cbn in Gl. exists (rev new), q. cbn [rev]. split; [reflexivity|]. split; [reflexivity|]. split; [lra|].
    split; [left; split; [exact I2|apply in_rev in I1; exact I1]|]. apply Bound. lra.
Qed.
Print Assumptions C57_result.

(** C57: it raises exactly when asked to and no value was feasible when tested; a feasible value then lies within epsilon of
    the lower bound (monotone case). *)
Theorem C57_nothing_feasible : forall feasible lo hi eps err fuel why l, lo < hi -> 0 < eps ->
  run exact feasible (Some (Xq eps)) (Some (1%nat, 0%nat, Xq lo, Xq hi)) err fuel = Some (Raises why l) ->
  why = NothingFeasible /\ err = true /\ (forall x, In x l -> feasible x = false) /\
  ((forall x y, x <= y -> feasible (Xq y) = true -> feasible (Xq x) = true) ->
   forall x, lo <= x <= hi -> feasible (Xq x) = true -> x <= lo + eps).
Proof.
  intros f lo hi eps err fuel why l H E R.
  destruct (least_halvings eps E (hi - lo)) as (k & K1 & K2).
  pose proof (loop_runs f eps E lo hi k fuel lo hi XNeg [] (good_start f lo hi H) K1 K2) as L.
  unfold run in R. cbn [exact num geb zero neg_inf xgeb Nat.eqb negb orb] in R.
  destruct (qlebP hi lo); [lra|]. destruct (qlebP eps 0); [lra|]. cbn [exact num] in *.
  destruct (fuel <? k)%nat. { rewrite L in R. discriminate. }
  destruct L as (m & M & b & new & L & _ & G & S). rewrite L in R. rewrite app_nil_r in *.
  destruct G as [(G1 & G2 & G3) Gb Gl Gh Gt].
  unfold conclude in R. destruct Gb as [[-> N]|(q & -> & I1 & I2)]; cbn [exact is_neg_inf] in R; [|discriminate].
  destruct err; [|discriminate]. injection R as <- <-. subst m. split; [reflexivity|]. split; [reflexivity|].
  split; [intros x Hx; apply N, in_rev, Hx|]. intros Mono x Hx Fx.
  destruct (Qlt_le_dec M x) as [Lx|Lx]; [|lra].
  destruct Gh as [Gh|Gh]; [lra|]. unfold fin in Gh. rewrite (Mono M x) in Gh; [discriminate|lra|exact Fx].
Qed.
Print Assumptions C57_nothing_feasible.

(** C57: calls that are refused before any simulation, and why.  Of two numbers the first is at least the second: *)
Inductive at_least : xnum -> xnum -> Prop :=
| infinite b : b <> XNaN -> at_least XPos b
| unlimited a : a <> XNaN -> at_least a XNeg
| finite x y : y <= x -> at_least (Xq x) (Xq y).
Lemma xgeb_at_least a b : xgeb a b = true <-> at_least a b.
Proof.
  split.
  - destruct a, b; cbn; intros H; try discriminate H; try (now constructor). constructor. now destruct (qlebP q0 q).
  - intros [b' N|a' N|x y L]; [destruct b'|destruct a'|]; try reflexivity; try congruence. cbn. now destruct (qlebP y x).
Qed.
Theorem C57_refused : forall feasible eps param err fuel why,
  why <> NothingFeasible ->
  (run exact feasible eps param err fuel = Some (Raises why []) <->
   match eps, param with
   | None, _ => why = NoEpsilon
   | _, None => why = NoParameter
   | Some e, Some (d, i, lo, hi) =>
       (d <> 1%nat \/ i <> 0%nat) /\ why = WrongSize \/
       d = 1%nat /\ i = 0%nat /\ (at_least lo hi /\ why = EmptyRange \/ ~ at_least lo hi /\ at_least (Xq 0) e /\ why = EpsilonNotPositive)
   end).
Proof.
  intros f eps param err fuel why N. unfold run. destruct eps as [e|]; [|split; [congruence|now intros ->]].
  destruct param as [[[[d i] lo] hi]|]; [|split; [congruence|now intros ->]].
  destruct (Nat.eqb_spec d 1) as [D|D]; cbn [negb orb]; [|split; [intros H; left; split; [auto|congruence]|intros [[_ ->]|[H _]]; [reflexivity|contradiction]]].
  destruct (Nat.eqb_spec i 0) as [I|I]; cbn [negb orb]; [|split; [intros H; left; split; [auto|congruence]|intros [[_ ->]|[_ [H _]]]; [reflexivity|contradiction]]].
  cbn [exact geb zero]. destruct (xgeb lo hi) eqn:E1.
  { apply (proj1 (xgeb_at_least _ _)) in E1. split; [intros H; right; repeat split; auto; left; split; [auto|congruence]|].
    intros [[[H|H] _]|(_ & _ & [[_ ->]|[H _]])]; try contradiction. reflexivity. }
  assert (L : ~ at_least lo hi) by (intros H; apply (proj2 (xgeb_at_least _ _)) in H; congruence).
  destruct (xgeb (Xq 0) e) eqn:E2.
  { apply (proj1 (xgeb_at_least _ _)) in E2. split; [intros H; right; repeat split; auto; right; repeat split; auto; congruence|].
    intros [[[H|H] _]|(_ & _ & [[H _]|[_ [_ ->]]])]; try contradiction. reflexivity. }
  assert (P : ~ at_least (Xq 0) e) by (intros H; apply (proj2 (xgeb_at_least _ _)) in H; congruence). split.
  - intros H. exfalso. destruct (loop _ _ _ _ _ _ _ _) as [[[[m M] b] l]|]; [|discriminate]. unfold conclude in H.
    destruct (is_neg_inf exact b); [destruct err|]; try discriminate. apply N. congruence.
  - intros [[[H|H] _]|(_ & _ & [[H _]|[_ [H _]]])]; contradiction.
Qed.
Print Assumptions C57_refused.

(** Feasible up to 3 in [0, 8] with epsilon 1: tests 4, 2, 3 and simulates 3 once more. *)
Definition up_to (b : Q) (x : xnum) : bool := match x with Xq q => qleb q b | XNeg => true | _ => false end.
Definition values (o : option (outcome xnum)) : option (bool * list (option Q)) :=
  match o with
  | Some (Ends _ l) => Some (true, map (fun x => match x with Xq q => Some (Qred q) | _ => None end) l)
  | Some (Raises _ l) => Some (false, map (fun x => match x with Xq q => Some (Qred q) | _ => None end) l)
  | None => None
  end.
Example C57_example : values (run exact (up_to 3) (Some (Xq 1)) (Some (1%nat, 0%nat, Xq 0, Xq 8)) true 3) = Some (true, [Some 4; Some 2; Some 3; Some 3]).
Proof. vm_compute. reflexivity. Qed.
Example C57_example_error : values (run exact (up_to (-1)) (Some (Xq 1)) (Some (1%nat, 0%nat, Xq 0, Xq 8)) true 3) = Some (false, [Some 4; Some 2; Some 1]).
Proof. vm_compute. reflexivity. Qed.
Example C57_example_fallback : values (run exact (up_to (-1)) (Some (Xq 1)) (Some (1%nat, 0%nat, Xq 0, Xq 8)) false 3) = Some (true, [Some 4; Some 2; Some 1; Some 0]).
Proof. vm_compute. reflexivity. Qed.

(** C57 (refuted part): with the default upper bound of a constant parameter, infinity, the search goes on for ever as soon as
    an infinite value is infeasible. *)
Theorem C57_infinite_bound_refuted : exists feasible lo eps, 0 < eps /\
  (forall x y, x <= y -> feasible (Xq y) = true -> feasible (Xq x) = true) /\
  forall fuel, run exact feasible (Some (Xq eps)) (Some (1%nat, 0%nat, Xq lo, XPos)) true fuel = None.
Proof.
  exists (up_to 3), 0, 1. split; [lra|]. split.
  - intros x y H. cbn. destruct (qlebP y 3), (qlebP x 3); congruence || lra.
  - intros fuel. unfold run. cbn [exact num geb zero xgeb Nat.eqb negb orb]. destruct (qlebP 1 0); [lra|].
    pose proof (loop_fixed exact (up_to 3) (Xq 1) (Xq 0) XPos XPos eq_refl eq_refl (or_intror (conj eq_refl eq_refl)) fuel (neg_inf exact) []) as L.
    cbn [exact num] in *. rewrite L. reflexivity.
Qed.
Print Assumptions C57_infinite_bound_refuted.

(** C57 (refuted part): without any bounds the model is simulated once, with the value NaN, and then said to have no feasible value,
    whatever is feasible. *)
Theorem C57_unbounded_refuted : forall feasible eps fuel, 0 < eps ->
  run exact feasible (Some (Xq eps)) (Some (1%nat, 0%nat, XNeg, XPos)) true (S fuel) = Some (Raises NothingFeasible [XNaN]).
Proof.
  intros feasible eps fuel E. unfold run. cbn [exact num geb zero xgeb Nat.eqb negb orb]. destruct (qlebP eps 0); [lra|].
  cbn [loop exact gtb sub xadd xopp xgtb half add xhalf]. destruct (feasible XNaN).
  - unfold py_max. cbn [exact gtb xgtb neg_inf]. destruct fuel; reflexivity.
  - destruct fuel; reflexivity.
Qed.
Print Assumptions C57_unbounded_refuted.

(** C57 (refuted part): in double precision it can go on for ever with a finite range, here [2^53, 2^53 + 2] with epsilon 1:
    the middle rounds to the lower end. *)
Definition two53 : spec_float := S754_finite false 4503599627370496 1.
Definition two53_2 : spec_float := S754_finite false 4503599627370497 1.
Definition one : spec_float := S754_finite false 4503599627370496 (-52).
Theorem C57_double_refuted : exists lo hi eps feasible,
  SFltb lo hi = true /\ SFltb (S754_zero false) eps = true /\
  (forall x y, SFleb x y = true -> feasible y = true -> feasible x = true) /\
  forall fuel, run double feasible (Some eps) (Some (1%nat, 0%nat, lo, hi)) true fuel = None.
Proof.
  exists two53, two53_2, one, (fun _ => true). split; [reflexivity|]. split; [reflexivity|]. split; [auto|].
  intros fuel. unfold run. cbn [double num geb zero Nat.eqb negb orb].
  change (fgeb two53 two53_2) with false. change (fgeb (S754_zero false) one) with false. cbv iota.
  assert (gtb double (sub double two53_2 two53) one = true) as E1 by (vm_compute; reflexivity).
  assert (half double (add double two53_2 two53) = two53) as E2 by (vm_compute; reflexivity).
  pose proof (loop_fixed double (fun _ => true) one two53 two53_2 two53 E1 E2 (or_introl (conj eq_refl eq_refl)) fuel (neg_inf double) []) as L.
  cbn [double num] in *. rewrite L. reflexivity.
Qed.
Print Assumptions C57_double_refuted.

(** In double precision the model finds the same as with exact numbers where nothing is rounded: [0, 8], epsilon 1. *)
Definition sf (m : positive) (e : Z) : spec_float := S754_finite false m e.
Definition eight : spec_float := binary_normalize 53 1024 8 0 false.
Definition three : spec_float := binary_normalize 53 1024 3 0 false.
(** With any arithmetic, and in particular with doubles: a search that must find a feasible value ends with one that was simulated and feasible,
    and it fails as soon as no simulated value was. *)
Lemma loop_best (A : arithmetic) (feasible : num A -> bool) eps fuel : forall lo hi best l lo' hi' best' l',
  loop A feasible eps fuel lo hi best l = Some (lo', hi', best', l') ->
  (best = neg_inf A \/ (feasible best = true /\ In best l)) -> best' = neg_inf A \/ (feasible best' = true /\ In best' l').
Proof.
  induction fuel as [|fuel IH]; intros lo hi best l lo' hi' best' l'; cbn [loop].
  - destruct (gtb A (sub A hi lo) eps); [discriminate|]. intros H B. assert (E1 : best' = best) by congruence. assert (E2 : l' = l) by congruence. subst. exact B.
  - destruct (gtb A (sub A hi lo) eps).
    + set (m := half A (add A hi lo)). destruct (feasible m) eqn:F.
      * intros H B. apply (IH _ _ _ _ _ _ _ _ H). unfold py_max. destruct (gtb A m best); [right; split; [exact F|now left]|].
        destruct B as [B|[B1 B2]]; [now left|right; split; [exact B1|now right]].
      * intros H B. apply (IH _ _ _ _ _ _ _ _ H). destruct B as [B|[B1 B2]]; [now left|right; split; [exact B1|now right]].
    + intros H B. assert (E1 : best' = best) by congruence. assert (E2 : l' = l) by congruence. subst. exact B.
Qed.
Lemma run_feasible (A : arithmetic) (feasible : num A -> bool) eps parameter fuel v l : is_neg_inf A (neg_inf A) = true ->
  run A feasible eps parameter true fuel = Some (Ends v l) -> feasible v = true /\ exists tested, l = tested ++ [v] /\ In v tested.
Proof.
  intros N. unfold run. destruct eps as [eps|]; [|discriminate]. destruct parameter as [[[[d i] lo] hi]|]; [|discriminate].
  destruct (negb _ || negb _); [discriminate|]. destruct (geb A lo hi); [discriminate|]. destruct (geb A (zero A) eps); [discriminate|].
  destruct (loop A feasible eps fuel lo hi (neg_inf A) []) as [[[[lo' hi'] best] tested]|] eqn:E; [|discriminate].
  destruct (loop_best A feasible eps fuel _ _ _ _ _ _ _ _ E (or_introl eq_refl)) as [B|[B1 B2]]; unfold conclude.
  - rewrite B, N. discriminate.
  - destruct (is_neg_inf A best); [discriminate|]. intros H. assert (Ev : v = best) by congruence. assert (El : l = rev (best :: tested)) by congruence. subst.
    split; [exact B1|]. exists (rev tested). split; [reflexivity|]. now apply in_rev in B2.
Qed.
Theorem C57_double_feasible : forall feasible eps parameter fuel v l,
  run double feasible eps parameter true fuel = Some (Ends v l) -> feasible v = true /\ exists tested, l = tested ++ [v] /\ In v tested.
Proof. intros feasible eps parameter fuel v l. apply (run_feasible double). reflexivity. Qed.
Print Assumptions C57_double_feasible.

(** Comparisons of exact numbers: minus infinity, the numbers in their order, infinity; NaN compares with nothing. *)
Inductive xlt : xnum -> xnum -> Prop :=
| LtNegNumber q : xlt XNeg (Xq q) | LtNegPos : xlt XNeg XPos | LtNumberPos q : xlt (Xq q) XPos | LtNumbers p q : p < q -> xlt (Xq p) (Xq q).
Inductive xsame : xnum -> xnum -> Prop := SameNeg : xsame XNeg XNeg | SamePos : xsame XPos XPos | SameNumbers p q : p == q -> xsame (Xq p) (Xq q).
Theorem C57_comparisons : forall a b, (gtb exact a b = true <-> xlt b a) /\ (geb exact a b = true <-> xlt b a \/ xsame b a).
Proof.
  intros a b. cbn [exact gtb geb].
  assert (N : forall p q, (qltb q p = true <-> q < p) /\ (qleb q p = true <-> q < p \/ q == p)).
  { intros p q. destruct (qltbP q p), (qlebP q p); repeat split; intros G; try discriminate G; try reflexivity; lra. }
  destruct a as [| |p|], b as [| |q|]; cbn [xgtb xgeb]; split; split; intros H; try discriminate H; try reflexivity;
    try (now inversion H); try (destruct H as [H|H]; now inversion H); try (now constructor); try (left; now constructor); try (right; now constructor).
  - constructor. now apply N.
  - inversion H; subst. now apply N.
  - apply (proj2 (N p q)) in H. destruct H as [H|H]; [left|right]; now constructor.
  - apply (proj2 (N p q)). destruct H as [H|H]; inversion H; subst; [now left|now right].
Qed.
Print Assumptions C57_comparisons.

Example C57_double_example :
  match run double (fun x => SFleb x three) (Some one) (Some (1%nat, 0%nat, S754_zero false, eight)) true 3 with
  | Some (Ends v l) => SFeqb v three = true /\ length l = 4%nat
  | _ => False
  end.
Proof. vm_compute. auto. Qed.
