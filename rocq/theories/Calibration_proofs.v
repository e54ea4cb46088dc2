(** Proofs about comparison recorders. *)
From Coq Require Import Reals Qreals.
From Coq Require Import Lqa.
From Verif Require Import Base LP_model Aggregate_proofs Calibration_model.
Local Open Scope Q_scope.
Local Open Scope list_scope.

Lemma number_pos {A} (l : list A) : l <> [] -> 0 < number_of l.
Proof. intros N. unfold number_of. destruct l; [contradiction|]. unfold Qlt, inject_Z. cbn [Qnum Qden length]. lia. Qed.
Lemma sq_nonneg x : 0 <= sq x.
Proof. unfold sq. nra. Qed.
Lemma sq_zero x : sq x == 0 <-> x == 0.
Proof. unfold sq. split; [|intros ->; reflexivity]. intros H. apply Qmult_integral in H. tauto. Qed.
Lemma qsum_nonneg_all l : (forall x, In x l -> 0 <= x) -> 0 <= qsum l.
Proof. induction l as [|x l IH]; intros H; [apply Qle_refl|]. cbn. specialize (IH (fun y Hy => H y (or_intror Hy))). specialize (H x (or_introl eq_refl)). lra. Qed.
Lemma qsum_zero_all l : (forall x, In x l -> 0 <= x) -> (qsum l == 0 <-> forall x, In x l -> x == 0).
Proof.
  induction l as [|x l IH]; intros H; [split; [intros _ y []|reflexivity]|]. cbn [qsum]. assert (forall y, In y l -> 0 <= y) as Hl by (intros; apply H; now right).
  pose proof (qsum_nonneg_all l Hl) as P. pose proof (H x (or_introl eq_refl)) as Hx. destruct (IH Hl) as [A B]. split.
  - intros E y [<-|Hy]; [cbn in E; lra|]. apply A; [cbn in E; lra|exact Hy].
  - intros Z. assert (x == 0) as -> by (apply Z; now left). rewrite B; [reflexivity|]. intros y Hy. apply Z. now right.
Qed.
Lemma mean_nonneg l : l <> [] -> (forall x, In x l -> 0 <= x) -> 0 <= mean l.
Proof. intros N H. unfold mean. apply Qle_shift_div_l; [now apply number_pos|]. pose proof (qsum_nonneg_all l H). lra. Qed.
Lemma mean_zero l : l <> [] -> (forall x, In x l -> 0 <= x) -> (mean l == 0 <-> forall x, In x l -> x == 0).
Proof.
  intros N H. rewrite <- (qsum_zero_all l H). unfold mean. pose proof (number_pos l N) as P. split; intros E.
  - assert (qsum l == qsum l / number_of l * number_of l) as -> by (field; lra). rewrite E. ring.
  - rewrite E. field. lra.
Qed.
Lemma errors_zero l : (forall x, In x (errors l) -> x == 0) <-> forall p, In p l -> fst p == snd p.
Proof.
  unfold errors. split.
  - intros H p Hp. specialize (H (fst p - snd p) ltac:(now apply (in_map (fun p => fst p - snd p)))). lra.
  - intros H x Hx. apply in_map_iff in Hx as [p [<- Hp]]. specialize (H p Hp). lra.
Qed.
Lemma errors_ne l : l <> [] -> errors l <> [].
Proof. destruct l; [easy|discriminate]. Qed.
Lemma map_ne {A B} (f : A -> B) l : l <> [] -> map f l <> [].
Proof. destruct l; [easy|discriminate]. Qed.
Lemma number_map {A B} (f : A -> B) l : number_of (map f l) = number_of l.
Proof. unfold number_of. now rewrite map_length. Qed.

Lemma qabs_nonneg x : 0 <= qabs x.
Proof. unfold qabs. qifs; lra. Qed.
Lemma qabs_sq x : sq (qabs x) == sq x.
Proof. unfold qabs, sq. qifs; ring. Qed.

(** (sum of x)^2 <= n * (sum of x^2), from the sum of (x - mean)^2. *)
Lemma sum_sq_dev l m : qsum (map (fun x => sq (x - m)) l) == qsum (map sq l) - 2 * m * qsum l + number_of l * sq m.
Proof.
  induction l as [|x l IH]; [unfold number_of; cbn; unfold sq; ring|]. cbn [map qsum]. rewrite IH. unfold number_of. cbn [length]. rewrite Nat2Z.inj_succ, <- Z.add_1_l, inject_Z_plus. unfold sq. ring.
Qed.
Lemma jensen l : l <> [] -> sq (mean l) <= mean (map sq l).
Proof.
  intros N. pose proof (number_pos l N) as P. pose proof (sum_sq_dev l (mean l)) as D.
  assert (0 <= qsum (map (fun x => sq (x - mean l)) l)) as Z by (apply qsum_nonneg_all; intros x Hx; apply in_map_iff in Hx as [y [<- _]]; apply sq_nonneg).
  assert (qsum l == mean l * number_of l) as E by (unfold mean; field; lra).
  unfold mean at 2. rewrite number_map. apply Qle_shift_div_l; [exact P|]. rewrite E in D. unfold sq in *. nra.
Qed.
Lemma variance_sum l : l <> [] -> qsum (map (fun x => sq (x - mean l)) l) == variance l * number_of l.
Proof. intros N. unfold variance. unfold mean at 2. rewrite number_map. pose proof (number_pos l N). field. lra. Qed.

Lemma Q2R_nonneg q : 0 <= q -> (0 <= Q2R q)%R.
Proof. intros H. replace 0%R with (Q2R 0) by (unfold Q2R; cbn; ring). now apply Qle_Rle. Qed.
Lemma Q2R_pos q : 0 < q -> (0 < Q2R q)%R.
Proof. intros H. replace 0%R with (Q2R 0) by (unfold Q2R; cbn; ring). now apply Qlt_Rlt. Qed.
Lemma Q2R_one : Q2R 1 = 1%R.
Proof. unfold Q2R. cbn. field. Qed.
Lemma mse_sum l : l <> [] -> mse l * number_of l == qsum (map sq (errors l)).
Proof.
  intros N. unfold mse, mean. rewrite (number_map sq). assert (number_of (errors l) = number_of l) as -> by apply number_map. pose proof (number_pos l N). field. lra.
Qed.
Lemma mae_sum l : l <> [] -> mae l * number_of l == qsum (map qabs (errors l)).
Proof.
  intros N. unfold mae, mean. rewrite (number_map qabs). assert (number_of (errors l) = number_of l) as -> by apply number_map. pose proof (number_pos l N). field. lra.
Qed.
