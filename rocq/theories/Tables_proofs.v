(** Lemmas on buffered writing. *)
From Verif Require Import Base Ring Tables_model.
Local Open Scope nat_scope.
Local Open Scope list_scope.

Lemma nth_error_upd {A} (l : list A) : forall k v j, k < length l -> nth_error (upd l k v) j = if j =? k then Some v else nth_error l j.
Proof.
  induction l as [|a l IH]; intros [|k] v [|j] H; cbn in *; try lia; try reflexivity. apply IH. lia.
Qed.

Lemma write_length {A} : forall (rows file : list A) start, length (write file start rows) = length file.
Proof. induction rows as [|r rows IH]; intros file start; [reflexivity|]. cbn. now rewrite IH, upd_length. Qed.

Lemma write_nth {A} : forall (rows file : list A) start j, start + length rows <= length file ->
  nth_error (write file start rows) j =
  if (start <=? j) && (j <? start + length rows) then nth_error rows (j - start) else nth_error file j.
Proof.
  induction rows as [|r rows IH]; intros file start j H; cbn [write length] in *.
  - destruct (Nat.leb_spec start j), (Nat.ltb_spec j (start + 0)); cbn; try reflexivity; lia.
  - rewrite IH by (rewrite upd_length; lia). rewrite nth_error_upd by lia.
    destruct (Nat.leb_spec (S start) j), (Nat.ltb_spec j (S start + length rows)), (Nat.leb_spec start j), (Nat.ltb_spec j (start + S (length rows))),
      (Nat.eqb_spec j start); cbn [andb]; try lia; try reflexivity.
    + replace (j - start) with (S (j - S start)) by lia. reflexivity.
    + subst j. rewrite Nat.sub_diag. reflexivity.
Qed.

Lemma nth_error_firstn {A} (l : list A) : forall n j, nth_error (firstn n l) j = if j <? n then nth_error l j else None.
Proof.
  induction l as [|a l IH]; intros [|n] [|j]; cbn; try reflexivity.
  - match goal with |- context [if ?c then _ else _] => destruct c end; reflexivity.
  - rewrite IH. reflexivity.
Qed.

(** What the file and the buffer hold when the rows [done] have been recorded: whole blocks are in the file, the current block
    (or, if it is complete, still the last one) is in the buffer. *)
Definition inv {A} (file0 done : list A) (t : tables) : Prop :=
  length (t_file t) = length file0 /\
  match t_buffer t with
  | None => forall i, nth_error (t_file t) i = if i <? length done then nth_error done i else nth_error file0 i
  | Some buffer =>
      length buffer = t_steps t /\ 1 < t_steps t /\
      let q := t_steps t * (length done / t_steps t) in
      (forall i, nth_error (t_file t) i = if i <? q then nth_error done i else nth_error file0 i) /\
      (0 < length done -> let p := length done - 1 in
         forall i, i <= p mod t_steps t -> nth_error buffer i = nth_error done (t_steps t * (p / t_steps t) + i))
  end.

(** Writing the first [num] entries of the buffer up to row [last]. *)
Lemma flush_rows {A} (file0 done : list A) t buffer last num t' :
  inv file0 done t -> t_buffer t = Some buffer -> length done <= length file0 -> 0 < length done ->
  forall B p, t_steps t = B -> length done - 1 = p ->
  last - num = B * (p / B) -> num <= S (p mod B) -> num <= last -> last <= length done ->
  flush t last num = Some t' ->
  t_buffer t' = Some buffer /\ t_steps t' = t_steps t /\ length (t_file t') = length file0 /\
  forall i, nth_error (t_file t') i = if (B * (p / B) <=? i) && (i <? last) then nth_error done i else nth_error (t_file t) i.
Proof.
  intros [L I] EB LD P B p <- <- E N NL LL F. set (B := t_steps t) in *. set (p := length done - 1) in *. rewrite EB in I. destruct I as [LB [B1 [I1 I2]]]. unfold flush in F. rewrite EB in F.
  destruct (Nat.ltb_spec last num) as [C|C]; [discriminate|]. injection F as <-. cbn [t_buffer t_steps t_file].
  split; [reflexivity|]. split; [reflexivity|]. split; [rewrite write_length; exact L|]. intros i.
  fold B in LB, B1, I1, I2 |- *. fold p in I2. specialize (I2 P).
  assert (M : p mod B < B) by (apply Nat.mod_upper_bound; lia).
  assert (FL : length (firstn num buffer) = num) by (rewrite firstn_length; lia).
  rewrite write_nth by (rewrite FL, L; lia). rewrite FL, E.
  destruct (Nat.leb_spec (B * (p / B)) i) as [D|D]; cbn [andb]; [|reflexivity].
  replace (B * (p / B) + num) with last by lia. destruct (Nat.ltb_spec i last) as [G|G]; [|reflexivity].
  rewrite nth_error_firstn. destruct (Nat.ltb_spec (i - B * (p / B)) num) as [H|H]; [|lia].
  rewrite I2 by lia. f_equal. lia.
Qed.

Lemma div_mod_pred k B : 1 < B -> 0 < k ->
  (k mod B = 0 -> B * ((k - 1) / B) + B = k /\ S ((k - 1) mod B) = B /\ B * (k / B) = k) /\
  (k mod B <> 0 -> B * ((k - 1) / B) = B * (k / B) /\ S ((k - 1) mod B) = k mod B).
Proof.
  intros HB HK. pose proof (Nat.div_mod k B ltac:(lia)) as E. pose proof (Nat.mod_upper_bound k B ltac:(lia)) as M.
  split; intros Z.
  - assert (Q : 0 < k / B) by (destruct (k / B); lia).
    assert (E1 : (k - 1) / B = k / B - 1) by (symmetry; apply (Nat.div_unique _ _ _ (B - 1)); nia).
    assert (E2 : (k - 1) mod B = B - 1) by (symmetry; apply (Nat.mod_unique _ _ (k / B - 1)); nia).
    rewrite E1, E2. repeat split; nia.
  - assert (E1 : (k - 1) / B = k / B) by (symmetry; apply (Nat.div_unique _ _ _ (k mod B - 1)); lia).
    assert (E2 : (k - 1) mod B = k mod B - 1) by (symmetry; apply (Nat.mod_unique _ _ (k / B)); lia).
    rewrite E1, E2. split; lia.
Qed.

Lemma after_inv {A} (file0 done : list A) t v t' : inv file0 done t -> length done < length file0 ->
  tables_after t (length done) v = Some t' -> inv file0 (done ++ [v]) t' /\ t_steps t' = t_steps t.
Proof.
  intros [L I] LD F. unfold tables_after in F. destruct (t_buffer t) as [buffer|] eqn:EB.
  - destruct I as [LB [B1 [I1 I2]]]. set (B := t_steps t) in *. set (k := length done) in *.
    set (t1 := Tables (t_file t) (Some (upd buffer (k mod B) v)) B) in *.
    assert (LK : length (done ++ [v]) = S k) by (rewrite app_length; cbn; unfold k; lia).
    pose proof (Nat.mod_upper_bound k B ltac:(lia)) as M.
    assert (NV : forall i, i <= k mod B -> nth_error (upd buffer (k mod B) v) i = nth_error (done ++ [v]) (B * (k / B) + i)).
    { intros i Hi. rewrite nth_error_upd by lia. pose proof (Nat.div_mod k B ltac:(lia)) as E. destruct (Nat.eqb_spec i (k mod B)) as [->|Ne].
      - rewrite <- E. rewrite nth_error_app2 by (unfold k; lia). unfold k at 1. fold k. now rewrite Nat.sub_diag.
      - rewrite nth_error_app1 by (fold k; lia). assert (KM : k mod B <> 0) by lia.
        assert (K0 : 0 < k) by (destruct (Nat.eq_dec k 0) as [Z|Z]; [rewrite Z, Nat.mod_0_l in KM by lia; lia|lia]). specialize (I2 K0). cbv zeta in I2.
        destruct (div_mod_pred k B B1 K0) as [_ D]. destruct (D KM) as [D1 D2]. rewrite I2 by lia. now rewrite D1. }
    assert (K1 : S k - 1 = k) by lia.
    cbv zeta in F. change (t_steps t1) with B in F.
    destruct ((1 <? B) && (S k mod B =? 0)) eqn:C.
    + apply andb_true_iff in C as [_ C]. apply Nat.eqb_eq in C.
      destruct (div_mod_pred (S k) B B1 ltac:(lia)) as [D _]. destruct (D C) as [D1 [D2 D3]]. rewrite K1 in D1, D2.
      unfold flush in F. change (t_buffer t1) with (Some (upd buffer (k mod B) v)) in F. cbv iota in F. change (t_file t1) with (t_file t) in F.
      change (t_steps t1) with B in F. destruct (Nat.ltb_spec (S k) B) as [G|G]; [discriminate|].
      match type of F with Some ?x = _ => assert (F' : t' = x) by congruence end. clear F. subst t'.
      unfold inv. cbn [t_file t_buffer t_steps]. rewrite write_length, LK. split; [|reflexivity]. split; [exact L|].
      change (t_steps t1) with B. rewrite upd_length. split; [exact LB|]. split; [exact B1|]. cbv zeta. rewrite K1, D3. split.
      * intros i. rewrite write_nth by (rewrite firstn_length, upd_length, LB, Nat.min_id, L; lia).
        rewrite firstn_length, upd_length, LB, Nat.min_id. rewrite I1. fold k.
        destruct (Nat.leb_spec (S k - B) i) as [X|X]; cbn [andb].
        -- destruct (Nat.ltb_spec i (S k - B + B)) as [Y|Y], (Nat.ltb_spec i (S k)) as [W|W]; try lia.
           ++ rewrite nth_error_firstn. destruct (Nat.ltb_spec (i - (S k - B)) B); [|lia]. rewrite NV by lia. f_equal. lia.
           ++ destruct (Nat.ltb_spec i (B * (k / B))) as [U|U]; [lia|reflexivity].
        -- destruct (Nat.ltb_spec i (S k)) as [W|W]; [|lia]. destruct (Nat.ltb_spec i (B * (k / B))) as [U|U]; [|lia].
           rewrite nth_error_app1 by (fold k; lia). reflexivity.
      * intros _ i Hi. apply NV. exact Hi.
    + injection F as <-. unfold inv, t1. cbn [t_file t_buffer t_steps]. rewrite LK. split; [|reflexivity]. split; [exact L|].
      rewrite upd_length. split; [exact LB|]. split; [exact B1|]. cbv zeta. rewrite K1. split; [|intros _ i Hi; apply NV; exact Hi].
      apply andb_false_iff in C as [C|C]; [apply Nat.ltb_ge in C; lia|]. apply Nat.eqb_neq in C.
      destruct (div_mod_pred (S k) B B1 ltac:(lia)) as [_ D]. destruct (D C) as [D1 D2]. rewrite K1 in D1, D2. rewrite <- D1.
      intros i. rewrite I1. pose proof (Nat.div_mod k B ltac:(lia)) as E. destruct (Nat.ltb_spec i (B * (k / B))) as [U|U]; [|reflexivity].
      rewrite nth_error_app1 by (fold k; lia). reflexivity.
  - injection F as <-. unfold inv. cbn [t_file t_buffer t_steps]. split; [|reflexivity]. rewrite upd_length. split; [exact L|].
    intros i. rewrite nth_error_upd by lia. rewrite app_length. cbn [length]. rewrite I.
    destruct (Nat.eqb_spec i (length done)) as [->|N].
    + destruct (Nat.ltb_spec (length done) (length done + 1)); [|lia]. rewrite nth_error_app2, Nat.sub_diag by lia. reflexivity.
    + destruct (Nat.ltb_spec i (length done)), (Nat.ltb_spec i (length done + 1)); try lia; [|reflexivity].
      rewrite nth_error_app1 by lia. reflexivity.
Qed.

Lemma after_total {A} (file0 done : list A) t v : inv file0 done t -> exists t', tables_after t (length done) v = Some t'.
Proof.
  intros [L I]. unfold tables_after. destruct (t_buffer t) as [buffer|] eqn:EB; [|eexists; reflexivity].
  destruct I as [LB [B1 _]]. cbn [t_steps]. destruct ((1 <? t_steps t) && (S (length done) mod t_steps t =? 0)) eqn:C; [|eexists; reflexivity].
  apply andb_true_iff in C as [_ C]. apply Nat.eqb_eq in C. unfold flush. cbn [t_buffer].
  destruct (Nat.ltb_spec (S (length done)) (t_steps t)) as [G|G]; [|eexists; reflexivity]. rewrite Nat.mod_small in C by exact G. lia.
Qed.

Lemma steps_inv {A} (file0 : list A) : forall rows done t, inv file0 done t -> length done + length rows <= length file0 ->
  exists t', tables_steps t (length done) rows = Some t' /\ inv file0 (done ++ rows) t' /\ t_steps t' = t_steps t.
Proof.
  induction rows as [|v rows IH]; intros done t I LD.
  - exists t. rewrite app_nil_r. repeat split; auto; apply I.
  - cbn [tables_steps length] in *. destruct (after_total file0 done t v I) as [t1 E]. rewrite E.
    destruct (after_inv file0 done t v t1 I ltac:(lia) E) as [I1 S1].
    assert (LA : length (done ++ [v]) = S (length done)) by (rewrite app_length; cbn; lia).
    destruct (IH (done ++ [v]) t1 I1 ltac:(lia)) as [t2 [E2 [I2 S2]]]. rewrite LA in E2. exists t2. split; [exact E2|].
    rewrite <- app_assoc in I2. split; [exact I2|congruence].
Qed.

Lemma reset_inv {A} (file0 junk : list A) steps : length junk = steps -> inv file0 [] (tables_reset (Tables file0 None steps) junk).
Proof.
  intros LJ. unfold inv, tables_reset. cbn [t_file t_buffer t_steps]. split; [reflexivity|]. destruct (Nat.ltb_spec 1 steps) as [C|C].
  - split; [exact LJ|]. split; [exact C|]. cbn [length]. cbv zeta. rewrite Nat.div_0_l by lia. split; [|lia]. intros i. now rewrite Nat.mul_0_r.
  - intros i. reflexivity.
Qed.

Lemma steps_buffer {A} : forall (rows : list A) idx t0 t, t_buffer t0 <> None -> tables_steps t0 idx rows = Some t ->
  exists buffer, t_buffer t = Some buffer.
Proof.
  induction rows as [|v rows IH]; intros idx t0 t N H; cbn in H.
  - injection H as <-. destruct (t_buffer t0) as [b|]; [now exists b|now destruct N].
  - destruct (tables_after t0 idx v) as [t1|] eqn:A1; [|discriminate]. apply (IH (S idx) t1); [|exact H].
    unfold tables_after in A1. destruct (t_buffer t0) as [b|]; [|now destruct N]. cbn [t_steps] in A1.
    destruct ((1 <? t_steps t0) && (S idx mod t_steps t0 =? 0)); [|injection A1 as <-; discriminate].
    unfold flush in A1. cbn [t_buffer] in A1. match type of A1 with context [if ?c then _ else _] => destruct c end; [discriminate|].
    injection A1 as <-. discriminate.
Qed.

Lemma nth_error_skipn_at {A} (l : list A) : forall n j, nth_error (skipn n l) j = nth_error l (n + j).
Proof. induction l as [|a l IH]; intros [|n] j; cbn; try reflexivity; [destruct j; reflexivity|apply IH]. Qed.
