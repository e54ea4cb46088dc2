From Verif Require Import Base LP_model NodeArgs_model NodeArgs_spec.
Local Open Scope nat_scope.
Local Open Scope list_scope.

(** * Reading logs *)

Lemma read_from s w : forall acc, fold_left (fun acc p => if slot_eq_dec (fst p) s then Some (snd p) else acc) w acc =
  match read s w with Some v => Some v | None => acc end.
Proof.
  unfold read. induction w as [|[t v] w IH]; intros acc; cbn [fold_left fst snd]; [reflexivity|].
  rewrite IH. rewrite (IH (if slot_eq_dec t s then Some v else None)).
  destruct (fold_left _ w None); [reflexivity|]. now destruct (slot_eq_dec t s).
Qed.
Lemma read_nil s : read s [] = None.
Proof. reflexivity. Qed.
Lemma read_cons s t v w : read s ((t, v) :: w) = match read s w with Some u => Some u | None => if slot_eq_dec t s then Some v else None end.
Proof. unfold read at 1. cbn [fold_left fst snd]. now rewrite read_from. Qed.
Lemma read_app s u w : read s (u ++ w) = match read s w with Some v => Some v | None => read s u end.
Proof. unfold read at 1. rewrite fold_left_app. fold (read s u). now rewrite read_from. Qed.

Lemma accept_shown f v v' : accept f v = Some v' -> shown f v = v' \/ (f = MinVolume /\ v = VNone).
Proof. destruct f, v; cbn; intros H; try discriminate; injection H as <-; now left. Qed.
Lemma accept_shown' f v v' : accept f v = Some v' -> shown f v = v'.
Proof. intros H. destruct (accept_shown _ _ _ H) as [E|[-> ->]]; [exact E|discriminate]. Qed.

Lemma one_some p f a w : one p f a = Some w -> exists v, a = One v /\ w = [((p, f), shown f v)] /\ accept f v = Some (shown f v).
Proof.
  unfold one. destruct a as [v|l]; [|discriminate]. destruct (accept f v) as [v'|] eqn:A; [|discriminate].
  cbn [option_map]. intros H. injection H as <-. exists v. rewrite (accept_shown' _ _ _ A). now repeat split.
Qed.

Lemma many_read f : forall l p w, many p f l = Some w -> forall q g,
  read (q, g) w = (if slot_eq_dec (0, f) (0, g) then if (p <=? q) && (q <? p + List.length l) then Some (shown f (nth (q - p) l VOther)) else None else None).
Proof.
  induction l as [|v l IH]; intros p w H q g; cbn [many] in H.
  - injection H as <-. cbn [List.length]. rewrite read_nil. destruct (slot_eq_dec _ _); [|reflexivity].
    destruct (Nat.leb_spec p q), (Nat.ltb_spec q (p + 0)); cbn [andb]; try reflexivity. lia.
  - destruct (accept f v) as [v'|] eqn:A; [|discriminate]. destruct (many (S p) f l) as [w'|] eqn:M; [|discriminate].
    injection H as <-. rewrite read_cons, (IH _ _ M q g). cbn [List.length].
    rewrite <- (accept_shown' _ _ _ A).
    destruct (slot_eq_dec (0, f) (0, g)) as [E|N].
    + injection E as <-. destruct (Nat.leb_spec (S p) q), (Nat.ltb_spec q (S p + List.length l)); cbn [andb].
      * destruct (Nat.leb_spec p q), (Nat.ltb_spec q (p + S (List.length l))); cbn [andb]; try lia.
        destruct (q - p) as [|k] eqn:D; [lia|]. cbn [nth]. now replace (q - S p) with k by lia.
      * destruct (slot_eq_dec (p, f) (q, f)) as [E|N]; [injection E; lia|].
        destruct (Nat.leb_spec p q), (Nat.ltb_spec q (p + S (List.length l))); cbn [andb]; try lia; reflexivity.
      * destruct (slot_eq_dec (p, f) (q, f)) as [E|N].
        -- injection E as ->. destruct (Nat.leb_spec q q), (Nat.ltb_spec q (q + S (List.length l))); cbn [andb]; try lia.
           now rewrite Nat.sub_diag.
        -- destruct (Nat.leb_spec p q), (Nat.ltb_spec q (p + S (List.length l))); cbn [andb]; try lia; try reflexivity.
           exfalso. apply N. f_equal. lia.
      * lia.
    + destruct (slot_eq_dec (p, f) (q, g)) as [E|_]; [|reflexivity]. exfalso. apply N. now injection E as _ <-.
Qed.

Lemma per_sublink_some c f a w : per_sublink c f a = Some w -> exists l, a = Many l /\ List.length l = sublinks c /\ many 1 f l = Some w.
Proof.
  unfold per_sublink. destruct a as [v|l]; [discriminate|]. destruct (Nat.eqb_spec (List.length l) (sublinks c)); [|discriminate].
  intros M. now exists l.
Qed.

(** * Keys *)

Lemma key_eqb_eq a b : key_eqb a b = true <-> a = b.
Proof. unfold key_eqb. destruct (key_eq_dec a b); split; congruence. Qed.
Lemma key_eqb_refl a : key_eqb a a = true.
Proof. now apply key_eqb_eq. Qed.
Lemma mem_In k l : mem k l = true <-> In k l.
Proof.
  unfold mem. rewrite existsb_exists. split.
  - intros (x & I & E). apply key_eqb_eq in E. now subst.
  - intros I. exists k. split; [exact I|apply key_eqb_refl].
Qed.
Lemma lookup_without k k' (kw : kwargs) : k <> k' -> lookup k (without k' kw) = lookup k kw.
Proof.
  intros N. unfold without. induction kw as [|[j a] kw IH]; cbn [filter lookup fst]; [reflexivity|].
  destruct (key_eqb j k') eqn:E; cbn [negb].
  - apply key_eqb_eq in E as ->. unfold key_eqb. destruct (key_eq_dec k' k); [congruence|exact IH].
  - cbn [lookup]. now rewrite IH.
Qed.
Lemma lookup_without_same k (kw : kwargs) : lookup k (without k kw) = None.
Proof.
  unfold without. induction kw as [|[j a] kw IH]; cbn [filter lookup fst]; [reflexivity|].
  destruct (key_eqb j k) eqn:E; cbn [negb]; [exact IH|]. cbn [lookup]. now rewrite E.
Qed.
Lemma pick_without k k' kw d : k <> k' -> pick (without k' kw) k d = pick kw k d.
Proof. intros N. unfold pick. now rewrite lookup_without. Qed.
Lemma pick_without_same k kw d : pick (without k kw) k d = d.
Proof. unfold pick. now rewrite lookup_without_same. Qed.
Lemma pick_given kw k v d : pick kw k (One d) = One v -> given kw k d = v.
Proof. unfold pick, given. destruct (lookup k kw) as [[u|l]|]; intros H; try discriminate; now injection H. Qed.
Lemma or_zero_given kw k v f : (f = MinFlow \/ f = MinVolume) -> or_zero (pick kw k (num 0)) = One v -> shown f v = shown f (given kw k zero).
Proof.
  intros F. unfold num. change (VNum (Fin 0)) with zero. destruct (pick kw k (One zero)) as [u|l] eqn:P; cbn [or_zero].
  - apply pick_given in P. rewrite P. destruct u; intros H; injection H as <-; destruct F as [-> | ->]; reflexivity.
  - discriminate.
Qed.
Lemma the_given kw k d : the (pick kw k (One d)) = given kw k d.
Proof. unfold pick, given. now destruct (lookup k kw) as [[u|l]|]. Qed.

(** * Constructed nodes *)

Lemma assign_all_cons c k a l w : assign_all c ((k, a) :: l) = Some w -> exists u v, assign c k a = Some u /\ assign_all c l = Some v /\ w = u ++ v.
Proof.
  cbn [assign_all]. destruct (assign c k a) as [u|]; [|discriminate]. destruct (assign_all c l) as [v|]; [|discriminate].
  intros H. injection H as <-. now exists u, v.
Qed.
Lemma assign_all_app c l m w : assign_all c (l ++ m) = Some w <-> exists u v, assign_all c l = Some u /\ assign_all c m = Some v /\ w = u ++ v.
Proof.
  revert w. induction l as [|[k a] l IH]; intros w; cbn [app].
  - cbn [assign_all]. split; [intros H; now exists [], w|intros (u & v & U & V & ->); injection U as <-; exact V].
  - cbn [assign_all]. destruct (assign c k a) as [x|].
    + split.
      * intros H. assert (Y : exists y, assign_all c (l ++ m) = Some y /\ w = x ++ y).
        { clear IH. destruct (assign_all c (l ++ m)) as [y|]; [|discriminate]. injection H as <-. now exists y. }
        clear H. destruct Y as (y & Y & ->). apply IH in Y as (u & v & U & V & ->). rewrite U. exists (x ++ u), v. rewrite app_assoc. now repeat split.
      * intros (u & v & U & V & ->). destruct (assign_all c l) as [u'|] eqn:L; [|discriminate]. injection U as <-.
        replace (assign_all c (l ++ m)) with (Some (u' ++ v)); [now rewrite app_assoc|]. symmetry. apply IH. now exists u', v.
    + split; [discriminate|]. intros (u & v & U & _). discriminate.
Qed.
Lemma assign_all_nil c w : assign_all c [] = Some w -> w = [].
Proof. cbn. intros H. now injection H. Qed.

(** The four arguments of Node. *)
Lemma node_args_read c kw w : assign_all c (node_args kw) = Some w ->
  (match c with Aggregated => False | _ => True end) ->
  w = [((flow_part c, MinFlow), shown MinFlow (given kw KMinFlow zero)); ((flow_part c, MaxFlow), shown MaxFlow (given kw KMaxFlow infinite));
       ((cost_part c, Cost), shown Cost (given kw KCost zero)); ((0, Conversion), shown Conversion (given kw KConversion (VNum (Fin 1))))].
Proof.
  intros H NA. unfold node_args in H.
  apply assign_all_cons in H as (w1 & r1 & A1 & H & ->). apply assign_all_cons in H as (w2 & r2 & A2 & H & ->).
  apply assign_all_cons in H as (w3 & r3 & A3 & H & ->). apply assign_all_cons in H as (w4 & r4 & A4 & H & ->). apply assign_all_nil in H as ->.
  cbn [assign] in A1, A2, A3, A4.
  apply one_some in A3 as (v3 & P3 & -> & _), A4 as (v4 & P4 & -> & _). unfold num in P3, P4. apply pick_given in P3, P4. rewrite <- P3, <- P4.
  assert (F1 : (match c with Aggregated => AggMin | _ => MinFlow end) = MinFlow) by (destruct c; try reflexivity; contradiction).
  assert (F2 : (match c with Aggregated => AggMax | _ => MaxFlow end) = MaxFlow) by (destruct c; try reflexivity; contradiction).
  rewrite F1 in A1. rewrite F2 in A2. apply one_some in A1 as (v1 & P1 & -> & _), A2 as (v2 & P2 & -> & _).
  apply pick_given in P2. rewrite (or_zero_given _ _ _ MinFlow (or_introl eq_refl) P1). unfold infinite. rewrite P2. reflexivity.
Qed.

Lemma storage_args_read c kw w : assign_all c (storage_args kw) = Some w ->
  w = [((0, MinVolume), shown MinVolume (given kw KMinVolume zero)); ((0, MaxVolume), shown MaxVolume (given kw KMaxVolume zero));
       ((0, Initial), shown Initial (given kw KInitial VNone)); ((0, InitialPc), shown InitialPc (given kw KInitialPc VNone));
       ((cost_part c, Cost), shown Cost (given kw KCost zero)); ((0, Level), shown Level (given kw KLevel VNone)); ((0, Area), shown Area (given kw KArea VNone))] /\
  accept Cost (given kw KCost zero) <> None.
Proof.
  intros H. unfold storage_args in H.
  apply assign_all_cons in H as (w1 & r1 & A1 & H & ->). apply assign_all_cons in H as (w2 & r2 & A2 & H & ->).
  apply assign_all_cons in H as (w3 & r3 & A3 & H & ->). apply assign_all_cons in H as (w4 & r4 & A4 & H & ->).
  apply assign_all_cons in H as (w5 & r5 & A5 & H & ->). apply assign_all_cons in H as (w6 & r6 & A6 & H & ->).
  apply assign_all_cons in H as (w7 & r7 & A7 & H & ->). apply assign_all_nil in H as ->.
  cbn [assign] in A1, A2, A3, A4, A5, A6, A7.
  apply one_some in A1 as (v1 & P1 & -> & _), A2 as (v2 & P2 & -> & _), A3 as (v3 & P3 & -> & _), A4 as (v4 & P4 & -> & _), A5 as (v5 & P5 & -> & X5), A6 as (v6 & P6 & -> & _), A7 as (v7 & P7 & -> & _).
  unfold num in P2, P5. apply pick_given in P2, P3, P4, P5, P6, P7.
  rewrite (or_zero_given _ _ _ MinVolume (or_intror eq_refl) P1). unfold zero. rewrite P2, P3, P4, P5, P6, P7. split; [reflexivity|congruence].
Qed.
Lemma virtual_args_read c kw w : assign_all c (virtual_args kw) = Some w ->
  w = [((0, MinVolume), shown MinVolume (given kw KMinVolume zero)); ((0, MaxVolume), shown MaxVolume (given kw KMaxVolume zero));
       ((0, Initial), shown Initial (given kw KInitial VNone)); ((0, InitialPc), shown InitialPc (given kw KInitialPc VNone));
       ((cost_part c, Cost), shown Cost (given kw KCost zero))].
Proof.
  intros H. unfold virtual_args in H.
  apply assign_all_cons in H as (w1 & r1 & A1 & H & ->). apply assign_all_cons in H as (w2 & r2 & A2 & H & ->).
  apply assign_all_cons in H as (w3 & r3 & A3 & H & ->). apply assign_all_cons in H as (w4 & r4 & A4 & H & ->).
  apply assign_all_cons in H as (w5 & r5 & A5 & H & ->). apply assign_all_nil in H as ->.
  cbn [assign] in A1, A2, A3, A4, A5.
  apply one_some in A1 as (v1 & P1 & -> & _), A2 as (v2 & P2 & -> & _), A3 as (v3 & P3 & -> & _), A4 as (v4 & P4 & -> & _), A5 as (v5 & P5 & -> & _).
  unfold num in P2, P5. apply pick_given in P2, P3, P4, P5.
  rewrite (or_zero_given _ _ _ MinVolume (or_intror eq_refl) P1). unfold zero. rewrite P2, P3, P4, P5. reflexivity.
Qed.

(** The lists of a piecewise link. *)
Lemma optional_read c k f a w : (k = KCosts /\ f = Cost) \/ (k = KMaxFlows /\ f = MaxFlow) -> assign_all c (optional k a) = Some w ->
  (a = One VNone /\ w = []) \/ (exists l, a = Many l /\ List.length l = sublinks c /\ many 1 f l = Some w).
Proof.
  intros K H. assert (X : forall w', assign_all c [(k, a)] = Some w' -> exists l, a = Many l /\ List.length l = sublinks c /\ many 1 f l = Some w').
  { intros w' H'. apply assign_all_cons in H' as (u & r & A & R & ->). apply assign_all_nil in R as ->. rewrite app_nil_r.
    apply per_sublink_some. destruct K as [[-> ->]|[-> ->]]; exact A. }
  unfold optional in H. destruct a as [v|l]; [destruct v|].
  - left. split; [reflexivity|]. now apply assign_all_nil in H.
  - right. now apply X.
  - right. now apply X.
  - right. now apply X.
  - right. now apply X.
  - right. now apply X.
Qed.

Lemma piecewise_args_read c kw costs mf w : (match c with Aggregated => False | _ => True end) -> flow_part c = 0 ->
  assign_all c (piecewise_args kw costs mf) = Some w ->
  exists wc wm,
    (costs = One VNone /\ wc = [] \/ exists l, costs = Many l /\ List.length l = sublinks c /\ many 1 Cost l = Some wc) /\
    (mf = One VNone /\ wm = [] \/ exists l, mf = Many l /\ List.length l = sublinks c /\ many 1 MaxFlow l = Some wm) /\
    w = [((0, MinFlow), shown MinFlow (given kw KMinFlow zero)); ((0, MaxFlow), shown MaxFlow (given kw KMaxFlow infinite));
         ((cost_part c, Cost), shown Cost (given kw KCost zero)); ((0, Conversion), shown Conversion (given kw KConversion (VNum (Fin 1))))] ++ wc ++ wm.
Proof.
  intros NA FP H. unfold piecewise_args in H. apply assign_all_app in H as (w1 & r & H1 & H & ->). apply assign_all_app in H as (w2 & w3 & H2 & H3 & ->).
  apply node_args_read in H1; [|exact NA]. rewrite FP in H1. subst w1.
  exists w2, w3. split; [|split; [|reflexivity]].
  - apply (optional_read c KCosts Cost); [now left|exact H2].
  - apply (optional_read c KMaxFlows MaxFlow); [now right|exact H3].
Qed.

(** One list, read at one place. *)
Lemma list_read c f a w q g : (a = One VNone /\ w = [] \/ exists l, a = Many l /\ List.length l = sublinks c /\ many 1 f l = Some w) ->
  read (q, g) w = (if slot_eq_dec (0, f) (0, g)
                   then match q, a with S i, Many l => if i <? sublinks c then Some (shown f (nth i l VOther)) else None | _, _ => None end
                   else None).
Proof.
  intros [[-> ->]|(l & -> & L & M)].
  - rewrite read_nil. destruct (slot_eq_dec _ _); [now destruct q|reflexivity].
  - rewrite (many_read _ _ _ _ M). destruct (slot_eq_dec _ _); [|reflexivity]. destruct q as [|i]; [reflexivity|].
    rewrite L. cbn [Nat.leb Nat.add]. destruct (Nat.ltb_spec (S i) (S (sublinks c))), (Nat.ltb_spec i (sublinks c)); cbn [andb]; try lia; [|reflexivity].
    now replace (S i - 1) with i by lia.
Qed.

Lemma step_read n x a rest f i w (c : class) :
  sublinks c = n + x ->
  (pad x rest (match a with Some y => y | None => One VNone end) = One VNone /\ w = [] \/
   exists l, pad x rest (match a with Some y => y | None => One VNone end) = Many l /\ List.length l = sublinks c /\ many 1 f l = Some w) ->
  read (S i, f) w = step n x a rest f i.
Proof.
  intros S' H. rewrite (list_read c f _ w (S i) f H).
  destruct (slot_eq_dec (0, f) (0, f)) as [_|N]; [|congruence]. unfold step.
  destruct a as [[v|l]|]; cbn [pad] in *.
  - destruct v; reflexivity.
  - destruct H as [[H _]|(l' & E & L & _)]; [discriminate|]. injection E as <-. rewrite S' in L |- *. rewrite app_length, repeat_length in L.
    assert (LL : List.length l = n) by lia.
    destruct (Nat.ltb_spec i (n + x)) as [A|A], (Nat.ltb_spec i n) as [B|B]; try lia; try reflexivity.
    + rewrite app_nth1 by lia. do 2 f_equal. apply nth_indep. lia.
    + rewrite app_nth2 by lia. do 2 f_equal.
      assert (X : i - List.length l < x) by lia. revert X. generalize (i - List.length l). clear.
      induction x as [|x IH]; intros k X; [lia|]. cbn [repeat]. destruct k; [reflexivity|]. cbn [nth]. apply IH. lia.
  - reflexivity.
Qed.

Lemma step_read0 n a rest f i w (c : class) :
  sublinks c = n ->
  (match a with Some y => y | None => One VNone end = One VNone /\ w = [] \/
   exists l, match a with Some y => y | None => One VNone end = Many l /\ List.length l = sublinks c /\ many 1 f l = Some w) ->
  read (S i, f) w = step n 0 a rest f i.
Proof.
  intros S' H. apply (step_read n 0 a rest f i w c); [lia|]. destruct a as [[v|l]|]; cbn [pad repeat].
  - destruct H as [[E ->]|(l & E & _)]; [|discriminate]. injection E as ->. now left.
  - rewrite app_nil_r. exact H.
  - exact H.
Qed.

Lemma other_read c f g a w q : f <> g -> (a = One VNone /\ w = [] \/ exists l, a = Many l /\ List.length l = sublinks c /\ many 1 f l = Some w) -> read (q, g) w = None.
Proof.
  intros N H. rewrite (list_read c f a w q g H). destruct (slot_eq_dec (0, f) (0, g)) as [E|_]; [|reflexivity]. exfalso. apply N. now injection E.
Qed.
Lemma own_read c f g a w : (a = One VNone /\ w = [] \/ exists l, a = Many l /\ List.length l = sublinks c /\ many 1 f l = Some w) -> read (0, g) w = None.
Proof. intros H. rewrite (list_read c f a w 0 g H). now destruct (slot_eq_dec _ _). Qed.

Definition given_or (a : option arg) (d : arg) : arg := match a with Some y => y | None => d end.

(** A piecewise link whose lists are [ca] and [ma]. *)
Lemma piecewise_read c kw ca ma w n x s :
  (match c with Piecewise _ | MultiSplit _ _ | RiverSplit _ _ => True | _ => False end) -> sublinks c = n + x ->
  assign_all c (piecewise_args kw (pad x zero (given_or ca (One VNone))) (pad x VNone (given_or ma (One VNone)))) = Some w ->
  read s w = match s with
             | (0, Cost) => Some (shown Cost (given kw KCost zero))
             | (0, MinFlow) => Some (shown MinFlow (given kw KMinFlow zero))
             | (0, MaxFlow) => Some (shown MaxFlow (given kw KMaxFlow infinite))
             | (0, Conversion) => Some (shown Conversion (given kw KConversion (VNum (Fin 1))))
             | (S i, Cost) => step n x ca zero Cost i
             | (S i, MaxFlow) => step n x ma VNone MaxFlow i
             | _ => None
             end.
Proof.
  intros K S' H. assert (CP : cost_part c = 0 /\ flow_part c = 0 /\ match c with Aggregated => False | _ => True end) by (destruct c; try contradiction; now repeat split).
  destruct CP as (CP & FP & NA). apply piecewise_args_read in H as (wc & wm & HC & HM & ->); [|exact NA|exact FP]. rewrite CP.
  rewrite !read_app. destruct s as [[|i] f].
  - rewrite (own_read c MaxFlow f _ wm HM), (own_read c Cost f _ wc HC). destruct f; reflexivity.
  - destruct f.
    + rewrite (other_read c MaxFlow Cost _ wm (S i) ltac:(discriminate) HM), (step_read n x ca zero Cost i wc c S' HC). now destruct (step n x ca zero Cost i).
    + rewrite (other_read c MaxFlow MinFlow _ wm (S i) ltac:(discriminate) HM), (other_read c Cost MinFlow _ wc (S i) ltac:(discriminate) HC). reflexivity.
    + rewrite (step_read n x ma VNone MaxFlow i wm c S' HM), (other_read c Cost MaxFlow _ wc (S i) ltac:(discriminate) HC). now destruct (step n x ma VNone MaxFlow i).
    + rewrite (other_read c MaxFlow Conversion _ wm (S i) ltac:(discriminate) HM), (other_read c Cost Conversion _ wc (S i) ltac:(discriminate) HC). reflexivity.
    + rewrite (other_read c MaxFlow LossFactor _ wm (S i) ltac:(discriminate) HM), (other_read c Cost LossFactor _ wc (S i) ltac:(discriminate) HC). reflexivity.
    + rewrite (other_read c MaxFlow MinVolume _ wm (S i) ltac:(discriminate) HM), (other_read c Cost MinVolume _ wc (S i) ltac:(discriminate) HC). reflexivity.
    + rewrite (other_read c MaxFlow MaxVolume _ wm (S i) ltac:(discriminate) HM), (other_read c Cost MaxVolume _ wc (S i) ltac:(discriminate) HC). reflexivity.
    + rewrite (other_read c MaxFlow Level _ wm (S i) ltac:(discriminate) HM), (other_read c Cost Level _ wc (S i) ltac:(discriminate) HC). reflexivity.
    + rewrite (other_read c MaxFlow Area _ wm (S i) ltac:(discriminate) HM), (other_read c Cost Area _ wc (S i) ltac:(discriminate) HC). reflexivity.
    + rewrite (other_read c MaxFlow Initial _ wm (S i) ltac:(discriminate) HM), (other_read c Cost Initial _ wc (S i) ltac:(discriminate) HC). reflexivity.
    + rewrite (other_read c MaxFlow InitialPc _ wm (S i) ltac:(discriminate) HM), (other_read c Cost InitialPc _ wc (S i) ltac:(discriminate) HC). reflexivity.
    + rewrite (other_read c MaxFlow AggMin _ wm (S i) ltac:(discriminate) HM), (other_read c Cost AggMin _ wc (S i) ltac:(discriminate) HC). reflexivity.
    + rewrite (other_read c MaxFlow AggMax _ wm (S i) ltac:(discriminate) HM), (other_read c Cost AggMax _ wc (S i) ltac:(discriminate) HC). reflexivity.
Qed.

Lemma given_without kw k k' d : k <> k' -> given (without k' kw) k d = given kw k d.
Proof. intros N. unfold given. now rewrite lookup_without. Qed.
Lemma given_without_same kw k d : given (without k kw) k d = d.
Proof. unfold given. now rewrite lookup_without_same. Qed.

Lemma nth_repeat_lt {A} (v d : A) n i : i < n -> nth i (repeat v n) d = v.
Proof. revert i. induction n as [|n IH]; intros i L; [lia|]. destruct i; cbn [repeat nth]; [reflexivity|apply IH; lia]. Qed.

(** Gauges. *)
Lemma gauge_read c kw w x s : (match c with Gauge => x = 0 | SplitGauge y => y = x | _ => False end) ->
  assign_all c (piecewise_args (without KCost kw)
     (Many ([given kw KMrfCost zero; given kw KCost zero] ++ repeat zero x)) (Many ([given kw KMrf zero; VNone] ++ repeat VNone x))) = Some w ->
  read s w = match s with
             | (0, MinFlow) => Some (shown MinFlow (given kw KMinFlow zero))
             | (0, MaxFlow) => Some (shown MaxFlow (given kw KMaxFlow infinite))
             | (0, Conversion) => Some (shown Conversion (given kw KConversion (VNum (Fin 1))))
             | (1, Cost) => Some (shown Cost (given kw KMrfCost zero))
             | (2, Cost) => Some (shown Cost (given kw KCost zero))
             | (1, MaxFlow) => Some (shown MaxFlow (given kw KMrf zero))
             | (S i, Cost) => if i <? 2 + x then Some zero else None
             | (S i, MaxFlow) => if i <? 2 + x then Some infinite else None
             | _ => None
             end.
Proof.
  intros K H. assert (CP : cost_part c = 2 /\ flow_part c = 0 /\ sublinks c = 2 + x /\ match c with Aggregated => False | _ => True end) by (destruct c; try contradiction; subst; now repeat split).
  destruct CP as (CP & FP & SL & NA). apply piecewise_args_read in H as (wc & wm & HC & HM & ->); [|exact NA|exact FP]. rewrite CP.
  rewrite given_without_same, (given_without kw KMinFlow), (given_without kw KMaxFlow), (given_without kw KConversion) by discriminate.
  destruct s as [p f]. rewrite !read_app. rewrite (list_read c MaxFlow _ wm p f HM), (list_read c Cost _ wc p f HC), SL.
  destruct p as [|[|[|i]]]; [destruct f; reflexivity|destruct f; reflexivity|destruct f; reflexivity|].
  destruct f; try reflexivity; cbn [slot_eq_dec app nth];
    match goal with |- context [if ?b then _ else _] => set (dec := b) end.
  all: try reflexivity.
  - vm_compute in dec. subst dec. cbv iota. destruct (slot_eq_dec (0, Cost) (0, Cost)) as [_|N]; [|congruence].
    destruct (Nat.ltb_spec (S (S i)) (2 + x)) as [L|L]; [|reflexivity].
    rewrite nth_repeat_lt by lia. reflexivity.
  - vm_compute in dec. subst dec. cbv iota. destruct (Nat.ltb_spec (S (S i)) (2 + x)) as [L|L]; [|reflexivity].
    rewrite nth_repeat_lt by lia. reflexivity.
Qed.

Lemma constructed c kw w s : construct c kw = Some w -> read s w = expected c kw s.
Proof.
  unfold construct. destruct (forallb _ kw); [|discriminate]. destruct (steps c kw) as [l|] eqn:ST; [|discriminate].
  intros H. destruct c; cbn [steps] in ST; try (match type of ST with Some ?x = Some _ => assert (EL : l = x) by congruence; clear ST; subst l end).
  - apply node_args_read in H; [|exact I]. subst w. destruct s as [[|[|p]] []]; reflexivity.
  - apply node_args_read in H; [|exact I]. subst w. destruct s as [[|[|p]] []]; reflexivity.
  - apply assign_all_cons in H as (u & v & A & H & ->). apply node_args_read in H; [|exact I]. subst v.
    cbn [assign] in A. apply one_some in A as (x & P & -> & _). apply pick_given in P. subst x. destruct s as [[|[|p]] []]; reflexivity.
  - apply assign_all_app in H as (u & v & U & H & ->). apply node_args_read in U; [|exact I]. subst u.
    apply assign_all_cons in H as (u & r & A & H & ->). apply assign_all_nil in H as ->. cbn [assign] in A.
    destruct (one 0 MinFlow (pick kw KFlow (num 0))) as [u1|] eqn:A1; [|discriminate]. destruct (one 0 MaxFlow (pick kw KFlow (num 0))) as [u2|] eqn:A2; [|discriminate].
    injection A as <-. apply one_some in A1 as (x & P & -> & _), A2 as (y & Q & -> & _). rewrite P in Q. injection Q as <-. apply pick_given in P. subst x.
    rewrite !given_without by discriminate. destruct s as [[|[|p]] []]; reflexivity.
  - apply storage_args_read in H as [-> _]. destruct s as [[|[|p]] []]; reflexivity.
  - destruct (reservoir_cost kw) as [a|] eqn:RC; [|discriminate]. injection ST as <-. apply storage_args_read in H as [-> AC].
    assert (GC : given ((KCost, a) :: without KCost kw) KCost zero = the a) by (unfold given; cbn [lookup key_eqb]; destruct (key_eq_dec KCost KCost); [destruct a; reflexivity|congruence]).
    rewrite GC in *.
    assert (GO : forall k d, k <> KCost -> given ((KCost, a) :: without KCost kw) k d = given kw k d).
    { intros k d N. unfold given. cbn [lookup]. unfold key_eqb at 1. destruct (key_eq_dec KCost k); [congruence|]. now rewrite lookup_without. }
    rewrite !GO by discriminate.
    assert (CC : shown Cost (the a) = match given kw KAbove VNone with
                  | VNone => given kw KCost zero
                  | above => VCurve (match given kw KControl VNone with VNone => VNum (Fin 1) | v => v end) above (given kw KCost zero)
                  end).
    { clear GC GO. unfold reservoir_cost in RC. unfold num in RC. destruct (pick kw KAbove (One VNone)) as [ab|] eqn:PA; [|discriminate].
      apply pick_given in PA. rewrite PA. destruct ab as [|ab| | |]; try discriminate.
      - injection RC as <-. rewrite the_given in *. fold zero in *. unfold zero in *. destruct (given kw KCost (VNum (Fin 0))); try reflexivity.
      - destruct (pick kw KControl (One VNone)) as [cc|] eqn:PC.
        + apply pick_given in PC. rewrite PC. destruct cc; cbv zeta in RC; try discriminate;
            (destruct (pick kw KCost (One (VNum (Fin 0)))) as [cv|] eqn:PK; [|discriminate]; apply pick_given in PK; destruct cv; try discriminate;
             injection RC as <-; unfold zero; rewrite PK; reflexivity).
        + cbv zeta in RC. discriminate. }
    destruct s as [[|[|p]] f]; destruct f; try reflexivity.
    change (read (0, Cost) _) with (Some (shown Cost (the a))). rewrite CC. unfold expected. cbn [source].
    destruct (given kw KAbove VNone); reflexivity.
  - apply virtual_args_read in H as ->. destruct s as [[|[|p]] []]; reflexivity.
  - change (pick kw KCosts (One VNone)) with (given_or (lookup KCosts kw) (One VNone)) in H.
    change (pick kw KMaxFlows (One VNone)) with (given_or (lookup KMaxFlows kw) (One VNone)) in H.
    assert (H0 : assign_all (Piecewise nsteps) (piecewise_args kw (pad 0 zero (given_or (lookup KCosts kw) (One VNone))) (pad 0 VNone (given_or (lookup KMaxFlows kw) (One VNone)))) = Some w).
    { assert (PZ : forall a r, assign_all (Piecewise nsteps) (optional KCosts (pad 0 r a)) = assign_all (Piecewise nsteps) (optional KCosts a) /\
                               assign_all (Piecewise nsteps) (optional KMaxFlows (pad 0 r a)) = assign_all (Piecewise nsteps) (optional KMaxFlows a)).
      { intros a r. destruct a as [[]|]; cbn [pad repeat]; try rewrite app_nil_r; now split. }
      unfold piecewise_args in *. apply assign_all_app in H as (u & v & U & H & ->). apply assign_all_app in H as (v1 & v2 & V1 & V2 & ->).
      apply assign_all_app. exists u, (v1 ++ v2). split; [exact U|]. split; [|reflexivity]. apply assign_all_app. exists v1, v2.
      rewrite (proj1 (PZ _ zero)), (proj2 (PZ _ VNone)). now repeat split. }
    rewrite (piecewise_read (Piecewise nsteps) kw _ _ w nsteps 0 s I (eq_sym (Nat.add_0_r nsteps)) H0). destruct s as [[|i] []]; reflexivity.
  - rewrite (piecewise_read (MultiSplit nsteps extra) kw (lookup KCosts kw) (lookup KMaxFlows kw) w nsteps extra s I eq_refl H). destruct s as [[|i] []]; reflexivity.
  - assert (H0 : assign_all (RiverSplit nsteps extra) (piecewise_args kw (pad extra zero (given_or (or_else (lookup KCosts kw) (Many [zero])) (One VNone)))
                   (pad extra VNone (given_or (or_else (lookup KMaxFlows kw) (Many [VNone])) (One VNone)))) = Some w).
    { rewrite <- H. unfold pick. destruct (lookup KCosts kw), (lookup KMaxFlows kw); reflexivity. }
    rewrite (piecewise_read (RiverSplit nsteps extra) kw _ _ w nsteps extra s I eq_refl H0). destruct s as [[|i] []]; reflexivity.
  - unfold num in H. rewrite !the_given in H. fold zero in H. cbn [pad] in H.
    rewrite (gauge_read (SplitGauge extra) kw w extra s eq_refl H). destruct s as [[|[|[|i]]] []]; reflexivity.
  - unfold num in H. rewrite !the_given in H. fold zero in H.
    rewrite (gauge_read Gauge kw w 0 s eq_refl H). destruct s as [[|[|[|i]]] []]; reflexivity.
  - apply assign_all_nil in H as ->. destruct s as [[|i] []]; reflexivity.
Qed.

(** * Loaded nodes *)

(** The attributes an assignment to [k] writes, for the attributes documents defer. *)
Definition hits (c : class) (k : key) (s : slot) : Prop :=
  match k with
  | KCost => s = (cost_part c, Cost)
  | KMinFlow => s = (flow_part c, MinFlow)
  | KMaxFlow => s = (flow_part c, MaxFlow)
  | KFlow => s = (0, MinFlow) \/ s = (0, MaxFlow)
  | KLoss => s = (0, LossFactor)
  | KMinVolume => s = (0, MinVolume)
  | KMaxVolume => s = (0, MaxVolume)
  | KLevel => s = (0, Level)
  | KArea => s = (0, Area)
  | KCosts => snd s = Cost /\ 1 <= fst s <= sublinks c
  | KMaxFlows => snd s = MaxFlow /\ 1 <= fst s <= sublinks c
  | KMrf => s = (1, MaxFlow)
  | KMrfCost => s = (1, Cost)
  | _ => False
  end.
Definition field_eq_dec (a b : field) : {a = b} + {a <> b}.
Proof. decide equality. Defined.
Lemma hits_dec c k s : {hits c k s} + {~ hits c k s}.
Proof.
  destruct k; cbn [hits]; try apply slot_eq_dec; try (right; intros []; fail).
  - destruct (slot_eq_dec s (0, MinFlow)); [left; now left|]. destruct (slot_eq_dec s (0, MaxFlow)); [left; now right|right; intros []; contradiction].
  - destruct s as [p f]. cbn [fst snd]. destruct (field_eq_dec f Cost); [|right; intros []; contradiction].
    destruct (le_lt_dec 1 p), (le_lt_dec p (sublinks c)); [left; split; [assumption|lia]|right; intros [_ X]; lia|right; intros [_ X]; lia|right; intros [_ X]; lia].
  - destruct s as [p f]. cbn [fst snd]. destruct (field_eq_dec f MaxFlow); [|right; intros []; contradiction].
    destruct (le_lt_dec 1 p), (le_lt_dec p (sublinks c)); [left; split; [assumption|lia]|right; intros [_ X]; lia|right; intros [_ X]; lia|right; intros [_ X]; lia].
Qed.

Lemma hits_disjoint c k k' s : c <> Aggregated -> In k (parameters c) -> In k' (parameters c) -> hits c k s -> hits c k' s -> k = k'.
Proof.
  intros NA I I' H H'.
  destruct c; cbn [parameters In] in I, I'; try congruence;
    repeat match goal with X : _ \/ _ |- _ => destruct X as [X|X] end; try contradiction; subst k; subst k'; try reflexivity;
    cbn [hits cost_part flow_part] in H, H'; repeat match goal with X : _ \/ _ |- _ => destruct X as [X|X] end; subst; try discriminate;
    destruct H, H'; congruence.
Qed.

Lemma one_read p f a w s : one p f a = Some w -> s = (p, f) <-> read s w <> None.
Proof.
  intros H. apply one_some in H as (v & _ & -> & _). rewrite read_cons, read_nil.
  destruct (slot_eq_dec (p, f) s) as [<-|N]; split; congruence.
Qed.
Lemma list_hits c f a w s : per_sublink c f a = Some w -> (snd s = f /\ 1 <= fst s <= sublinks c) <-> read s w <> None.
Proof.
  intros H. apply per_sublink_some in H as (l & _ & L & M). destruct s as [q g]. rewrite (many_read _ _ _ _ M), L. cbn [fst snd].
  destruct (slot_eq_dec (0, f) (0, g)) as [E|N].
  - injection E as <-. destruct (Nat.leb_spec 1 q), (Nat.ltb_spec q (1 + sublinks c)); cbn [andb]; split; try congruence; try lia; try discriminate.
    split; [reflexivity|lia].
  - split; [intros [-> _]; congruence|congruence].
Qed.
Lemma assign_hits c k a w s : c <> Aggregated -> In k (parameters c) -> assign c k a = Some w -> hits c k s <-> read s w <> None.
Proof.
  intros NA I A.
  assert (F1 : (match c with Aggregated => AggMin | _ => MinFlow end) = MinFlow) by (destruct c; congruence).
  assert (F2 : (match c with Aggregated => AggMax | _ => MaxFlow end) = MaxFlow) by (destruct c; congruence).
  destruct k; cbn [assign hits] in *; rewrite ?F1, ?F2 in A; try (now apply one_read with a); try (now apply list_hits with a); try discriminate;
    try (exfalso; clear - I NA; destruct c; cbn in I; try congruence; intuition discriminate).
  destruct (one 0 MinFlow a) as [u|] eqn:A1; [|discriminate]. destruct (one 0 MaxFlow a) as [v|] eqn:A2; [|discriminate]. injection A as <-.
  rewrite read_app. apply (one_read 0 MinFlow a u s) in A1. apply (one_read 0 MaxFlow a v s) in A2. rewrite A1, A2.
  destruct (read s v) as [x|]; split.
  - discriminate.
  - intros _. right. discriminate.
  - intros [H|H]; [exact H|congruence].
  - intros H. now left.
Qed.

Lemma lookup_key {A} k (l : list (key * A)) a : lookup k l = Some a -> In (k, a) l.
Proof.
  induction l as [|[j b] l IH]; cbn [lookup]; [discriminate|]. destruct (key_eqb j k) eqn:E.
  - intros H. injection H as <-. apply key_eqb_eq in E as ->. now left.
  - intros H. right. auto.
Qed.
Lemma lookup_none {A} k (l : list (key * A)) : lookup k l = None <-> ~ In k (map fst l).
Proof.
  induction l as [|[j b] l IH]; cbn [lookup map fst In]; [now split|]. destruct (key_eqb j k) eqn:E.
  - apply key_eqb_eq in E. split; [discriminate|]. intros H. exfalso. apply H. now left.
  - rewrite IH. split; [|tauto]. intros H [X|X]; [|contradiction]. subst j. rewrite key_eqb_refl in E. discriminate.
Qed.
Lemma lookup_of {A} k (l : list (key * A)) a : NoDup (map fst l) -> In (k, a) l -> lookup k l = Some a.
Proof.
  induction l as [|[j b] l IH]; cbn [lookup map fst]; intros ND I; [destruct I|]. inversion ND; subst. destruct I as [E|I].
  - injection E as -> ->. now rewrite key_eqb_refl.
  - destruct (key_eqb j k) eqn:E; [|auto]. apply key_eqb_eq in E as ->. exfalso. apply H1. apply in_map_iff. now exists (k, a).
Qed.

Lemma deferred_read c s : c <> Aggregated -> forall D u, NoDup (map fst D) -> (forall k, In k (map fst D) -> In k (parameters c)) -> assign_all c D = Some u ->
  (forall k a w, lookup k D = Some a -> hits c k s -> assign c k a = Some w -> read s u = read s w) /\
  ((forall k, In k (map fst D) -> ~ hits c k s) -> read s u = None).
Proof.
  intros NA. induction D as [|[j b] D IH]; intros u ND IP H.
  - apply assign_all_nil in H as ->. split; [discriminate|reflexivity].
  - apply assign_all_cons in H as (u1 & u2 & A & H & ->). cbn [map fst] in ND, IP. inversion ND; subst.
    destruct (IH u2 H3 (fun k I => IP k (or_intror I)) H) as [I1 I2]. rewrite read_app. split.
    + intros k a w L Hk Aw. cbn [lookup] in L. destruct (key_eqb j k) eqn:E.
      * apply key_eqb_eq in E as ->. injection L as ->. rewrite I2.
        -- rewrite A in Aw. now injection Aw as <-.
        -- intros k' I' H'. apply H2. enough (E : k' = k) by (now rewrite <- E). apply (hits_disjoint c k' k s NA); [apply IP; now right|apply IP; now left|exact H'|exact Hk].
      * rewrite (I1 k a w L Hk Aw). pose proof (proj1 (assign_hits c k a w s NA ltac:(apply IP; right; apply in_map_iff; exists (k, a); split; [reflexivity|now apply lookup_key]) Aw) Hk) as R.
        destruct (read s w); [reflexivity|congruence].
    + intros N. rewrite I2.
      * destruct (read s u1) eqn:R; [|reflexivity]. exfalso. apply (N j); [now left|]. apply (assign_hits c j b u1 s NA (IP j (or_introl eq_refl)) A). congruence.
      * intros k I. apply N. now right.
Qed.

Lemma given_some kw k v d : lookup k kw = Some (One v) -> given kw k d = v.
Proof. intros H. unfold given. now rewrite H. Qed.

Lemma expected_param c kw k a w s :
  In k (parameters c) -> lookup k kw = Some a -> assign c k a = Some w -> hits c k s ->
  match c with Aggregated => False | Reservoir => k = KCost -> lookup KAbove kw = None | MultiSplit _ _ | RiverSplit _ _ => k <> KCosts /\ k <> KMaxFlows | _ => True end ->
  expected c kw s = read s w.
Proof.
  intros I L A H C.
  assert (ONE : forall p f, s = (p, f) -> one p f a = Some w -> forall d, Some (shown f (given kw k d)) = read s w).
  { intros p f -> O d. apply one_some in O as (v & -> & -> & _). rewrite (given_some _ _ _ d L), read_cons, read_nil.
    destruct (slot_eq_dec (p, f) (p, f)); [reflexivity|congruence]. }
  destruct c; cbn [parameters In] in I; try contradiction;
    repeat match goal with X : _ \/ _ |- _ => destruct X as [X|X] end; try contradiction; subst k; cbn [assign hits cost_part flow_part] in A, H;
    try (subst s; unfold expected; cbn [source snd]; exact (ONE _ _ eq_refl A _)).
  - (* flow *)
    destruct (one 0 MinFlow a) as [u|] eqn:A1; [|discriminate]. destruct (one 0 MaxFlow a) as [v|] eqn:A2; [|discriminate]. injection A as <-.
    apply one_some in A1 as (x & -> & -> & _), A2 as (y & E & -> & _). injection E as <-.
    destruct H as [-> | ->]; unfold expected; cbn [source snd]; rewrite (given_some _ _ _ zero L); reflexivity.
  - (* reservoir *)
    apply one_some in A as (v & -> & -> & AC). subst s. unfold expected. cbn [source]. unfold given at 1. rewrite (C eq_refl).
    rewrite (given_some _ _ _ zero L). change (read (0, Cost) [(0, Cost, shown Cost v)]) with (Some (shown Cost v)). now destruct v.
  - apply per_sublink_some in A as (l & -> & LL & M). destruct s as [p f]. cbn [fst snd] in H. destruct H as [-> H].
    destruct p as [|i]; [lia|]. unfold expected. cbn [source]. rewrite L. symmetry. cbn [sublinks] in *.
    apply (step_read0 nsteps (Some (Many l)) zero Cost i w (Piecewise nsteps) eq_refl). right. now exists l.
  - apply per_sublink_some in A as (l & -> & LL & M). destruct s as [p f]. cbn [fst snd] in H. destruct H as [-> H].
    destruct p as [|i]; [lia|]. unfold expected. cbn [source]. rewrite L. symmetry. cbn [sublinks] in *.
    apply (step_read0 nsteps (Some (Many l)) VNone MaxFlow i w (Piecewise nsteps) eq_refl). right. now exists l.
  - destruct C; congruence.
  - destruct C; congruence.
  - destruct C; congruence.
  - destruct C; congruence.
Qed.

Lemma step_ext n x a b r f i : (i < n + x -> a = b) -> (exists l, a = Some (Many l)) \/ True -> step n x a r f i = step n x b r f i.
Proof.
  intros H _. destruct (Nat.lt_ge_cases i (n + x)) as [L|L]; [now rewrite H|].
  assert (N : forall y, step n x y r f i = None).
  { intros y. unfold step. destruct y as [[v|l]|]; try reflexivity. destruct (Nat.ltb_spec i n), (Nat.ltb_spec i (n + x)); try lia. reflexivity. }
  now rewrite !N.
Qed.

Lemma expected_ext c kw1 kw2 s : (forall k, (In k (parameters c) -> hits c k s) -> lookup k kw1 = lookup k kw2) -> expected c kw1 s = expected c kw2 s.
Proof.
  intros H.
  assert (G : forall k d, (In k (parameters c) -> hits c k s) -> given kw1 k d = given kw2 k d) by (intros k d Hk; unfold given; now rewrite (H k Hk)).
  unfold expected. destruct (source c s) as [[k d]|] eqn:SR.
  - rewrite (G k d); [reflexivity|]. intros I.
    destruct c, s as [[|[|[|p]]] []]; cbn [source] in SR; try discriminate; injection SR as <- <-; cbn [hits cost_part flow_part]; try reflexivity;
      try (now left); try (now right); cbn in I; intuition discriminate.
  - destruct c; try reflexivity.
    + (* Reservoir *) destruct s as [[|p] f]; [|destruct f; reflexivity]. destruct f; try reflexivity; try discriminate.
      rewrite (G KAbove VNone), (G KCost zero), (G KControl VNone); [reflexivity| | |]; cbn; intuition discriminate.
    + destruct s as [[|i] f]; [destruct f; reflexivity|]. destruct f; try reflexivity.
      * apply step_ext; [|now right]. intros L. apply H. intros _. cbn [hits sublinks fst snd]. split; [reflexivity|lia].
      * apply step_ext; [|now right]. intros L. apply H. intros _. cbn [hits sublinks fst snd]. split; [reflexivity|lia].
    + destruct s as [[|i] f]; [destruct f; reflexivity|]. destruct f; try reflexivity.
      * apply step_ext; [|now right]. intros L. apply H. intros _. cbn [hits sublinks fst snd]. split; [reflexivity|lia].
      * apply step_ext; [|now right]. intros L. apply H. intros _. cbn [hits sublinks fst snd]. split; [reflexivity|lia].
    + destruct s as [[|i] f]; [destruct f; reflexivity|]. destruct f; try reflexivity.
      * apply step_ext; [|now right]. intros L. f_equal. apply H. intros _. cbn [hits sublinks fst snd]. split; [reflexivity|lia].
      * apply step_ext; [|now right]. intros L. f_equal. apply H. intros _. cbn [hits sublinks fst snd]. split; [reflexivity|lia].
Qed.

(** * Documents *)

Lemma load_data_keys env doc kw : load_data env doc = Some kw -> map fst kw = map fst doc.
Proof.
  revert kw. induction doc as [|[k d] doc IH]; intros kw H; cbn [load_data] in H.
  - injection H as <-. reflexivity.
  - destruct (load_datum env d); [|discriminate]. destruct (load_data env doc) as [kw'|]; [|discriminate]. injection H as <-.
    cbn [map fst]. now rewrite (IH kw' eq_refl).
Qed.
Lemma load_data_lookup env doc kw k : load_data env doc = Some kw ->
  lookup k kw = match lookup k doc with Some d => load_datum env d | None => None end.
Proof.
  revert kw. induction doc as [|[j d] doc IH]; intros kw H; cbn [load_data] in H.
  - injection H as <-. reflexivity.
  - destruct (load_datum env d) as [a|] eqn:D; [|discriminate]. destruct (load_data env doc) as [kw'|]; [|discriminate]. injection H as <-.
    cbn [lookup]. destruct (key_eqb j k); [now rewrite D|apply IH; reflexivity].
Qed.
Lemma load_data_filter env f doc kw : load_data env doc = Some kw -> load_data env (filter (fun p => f (fst p)) doc) = Some (filter (fun p => f (fst p)) kw).
Proof.
  revert kw. induction doc as [|[j d] doc IH]; intros kw H; cbn [load_data] in H.
  - injection H as <-. reflexivity.
  - destruct (load_datum env d) as [a|] eqn:D; [|discriminate]. destruct (load_data env doc) as [kw'|]; [|discriminate]. injection H as <-.
    cbn [filter fst]. destruct (f j); [|now apply IH]. cbn [load_data]. now rewrite D, (IH kw' eq_refl).
Qed.
Lemma lookup_filter {A} f k (l : list (key * A)) : lookup k (filter (fun p => f (fst p)) l) = if f k then lookup k l else None.
Proof.
  induction l as [|[j a] l IH]; cbn [filter lookup fst].
  - now destruct (f k).
  - destruct (f j) eqn:F; cbn [lookup].
    + destruct (key_eqb j k) eqn:E; [apply key_eqb_eq in E as ->; now rewrite F|exact IH].
    + rewrite IH. destruct (key_eqb j k) eqn:E; [apply key_eqb_eq in E as ->; now rewrite F|reflexivity].
Qed.
Lemma plain_load env d : plain d = true -> load_datum env d = Some (raw_datum d).
Proof.
  destruct d as [a|l]; cbn [plain load_datum raw_datum].
  - destruct a; cbn; intros H; [reflexivity|reflexivity|discriminate].
  - intros H. replace (load_atoms env l) with (Some (map raw_atom l)); [reflexivity|]. symmetry. induction l as [|a l IH]; [reflexivity|].
    cbn [forallb] in H. apply Bool.andb_true_iff in H as [H1 H2]. cbn [load_atoms map]. rewrite (IH H2). destruct a; try discriminate; reflexivity.
Qed.
Lemma immediate_lookup c doc k : lookup k (immediate c doc) = if mem k (parameters c) then None else option_map raw_datum (lookup k doc).
Proof.
  unfold immediate.
  assert (M : forall l : document, lookup k (map (fun p => (fst p, raw_datum (snd p))) l) = option_map raw_datum (lookup k l)).
  { induction l as [|[j d] l IH]; [reflexivity|]. cbn [map lookup fst snd]. destruct (key_eqb j k); [reflexivity|exact IH]. }
  rewrite M, (lookup_filter (fun j => negb (mem j (parameters c)))). now destruct (mem k (parameters c)).
Qed.

Section Direct.
Variables (env : nat -> option nat) (c : class) (doc : document) (kw : kwargs).
Hypothesis Di : direct c doc.
Hypothesis Ld : load_data env doc = Some kw.

Lemma immediate_same k : mem k (parameters c) = false -> lookup k (immediate c doc) = lookup k kw.
Proof.
  intros M. rewrite immediate_lookup, M, (load_data_lookup _ _ _ k Ld). destruct (lookup k doc) as [d|] eqn:L; [|reflexivity]. cbn [option_map].
  symmetry. apply plain_load. apply (d_plain _ _ Di k); [now apply lookup_key|exact M].
Qed.
Lemma not_aggregated : c <> Aggregated.
Proof. intros ->. exact (d_class _ _ Di). Qed.

Lemma special k : In k (parameters c) -> (exists a, lookup k kw = Some a) ->
  match c with Aggregated => False | Reservoir => k = KCost -> lookup KAbove kw = None | MultiSplit _ _ | RiverSplit _ _ => k <> KCosts /\ k <> KMaxFlows | _ => True end.
Proof.
  intros I [a L]. pose proof (d_class _ _ Di) as C.
  assert (K : has k doc).
  { unfold has. rewrite <- (load_data_keys _ _ _ Ld). apply in_map_iff. exists (k, a). split; [reflexivity|now apply lookup_key]. }
  destruct c; try exact Logic.I; try exact C.
  - intros ->. apply lookup_none. rewrite (load_data_keys _ _ _ Ld). now apply C.
  - destruct C as [C1 C2]. split; intros ->; contradiction.
  - destruct C as [C1 C2]. split; intros ->; contradiction.
Qed.

Lemma loaded w s : load env c doc = Some w -> read s w = expected c kw s.
Proof.
  unfold load, pre_load. destruct (forallb (value_ok c) doc); [|discriminate].
  destruct (construct c (immediate c doc)) as [w0|] eqn:Co; [|discriminate].
  unfold deferred. rewrite (load_data_filter env (fun k => mem k (parameters c)) doc kw Ld).
  set (D := filter (fun p => mem (fst p) (parameters c)) kw).
  destruct (assign_all c D) as [u|] eqn:A; [|discriminate]. intros H. injection H as <-.
  assert (KD : forall k, In k (map fst D) <-> In k (map fst kw) /\ In k (parameters c)).
  { intros k. unfold D. rewrite !in_map_iff. split.
    - intros ([j a] & <- & I). apply filter_In in I as [I M]. apply mem_In in M. split; [now exists (j, a)|exact M].
    - intros [([j a] & <- & I) P]. exists (j, a). split; [reflexivity|]. apply filter_In. split; [exact I|]. now apply mem_In. }
  assert (NK : NoDup (map fst kw)) by (rewrite (load_data_keys _ _ _ Ld); apply (d_keys _ _ Di)).
  assert (ND : NoDup (map fst D)).
  { unfold D. revert NK. clear. induction kw as [|[j a] l IH]; intros ND; [constructor|]. cbn [filter fst map] in *. inversion ND; subst.
    destruct (mem j (parameters c)); [|auto]. cbn [map fst]. constructor; [|auto]. intros I. apply H1. apply in_map_iff in I as ([j' a'] & <- & I).
    apply filter_In in I as [I _]. apply in_map_iff. now exists (j', a'). }
  destruct (deferred_read c s not_aggregated D u ND (fun k I => proj2 (proj1 (KD k) I)) A) as [R1 R2].
  rewrite read_app.
  assert (DEC : (exists k, In k (map fst D) /\ hits c k s) \/ (forall k, In k (map fst D) -> ~ hits c k s)).
  { clear. induction (map fst D) as [|j l IH]; [right; intros k []|]. destruct (hits_dec c j s) as [H|N]; [left; exists j; split; [now left|exact H]|].
    destruct IH as [(k & I & H)|N']; [left; exists k; split; [now right|exact H]|right]. intros k [<-|I]; [exact N|now apply N']. }
  destruct DEC as [(k & I & Hk)|N].
  - apply KD in I as [I P]. destruct (lookup k kw) as [a|] eqn:L.
    2:{ apply lookup_none in L. contradiction. }
    assert (LD : lookup k D = Some a).
    { unfold D. rewrite (lookup_filter (fun j => mem j (parameters c))). apply mem_In in P. now rewrite P. }
    assert (AW : exists w, assign c k a = Some w).
    { apply lookup_key in LD. revert LD A. clear. revert u. induction D as [|[j b] l IH]; intros u I A; [destruct I|].
      apply assign_all_cons in A as (u1 & u2 & A1 & A2 & _). destruct I as [E|I]; [injection E as -> ->; now exists u1|now apply (IH u2)]. }
    destruct AW as [w AW]. rewrite (R1 k a w LD Hk AW).
    rewrite (expected_param c kw k a w s P L AW Hk (special k P (ex_intro _ a L))).
    pose proof (proj1 (assign_hits c k a w s not_aggregated P AW) Hk) as NN. destruct (read s w); [reflexivity|congruence].
  - rewrite (R2 N). rewrite (constructed _ _ _ s Co). apply expected_ext. intros k Hk.
    destruct (mem k (parameters c)) eqn:M.
    + rewrite immediate_lookup, M. symmetry. apply lookup_none. intros I. apply (N k); [|apply Hk; now apply mem_In].
      apply KD. split; [exact I|now apply mem_In].
    + now apply immediate_same.
Qed.
End Direct.

(** * Which arguments are accepted *)

Definition okb {A} (o : option A) : bool := match o with Some _ => true | None => false end.
Definition ok (c : class) (k : key) (a : arg) : bool := okb (assign c k a).
Definition acc (f : field) (v : value) : bool := okb (accept f v).

Lemma ok_all c l : okb (assign_all c l) = forallb (fun p => ok c (fst p) (snd p)) l.
Proof.
  induction l as [|[k a] l IH]; [reflexivity|]. cbn [assign_all forallb fst snd]. rewrite <- IH. unfold ok.
  destruct (assign c k a); [|reflexivity]. now destruct (assign_all c l).
Qed.
Lemma ok_one p f a : f <> LossFactor -> okb (one p f a) = acc f (the a).
Proof.
  intros N. destruct a as [v|l]; cbn [one the]; unfold acc; [now destruct (accept f v)|]. destruct f; cbn; congruence.
Qed.
Lemma ok_many f : forall l p, okb (many p f l) = forallb (acc f) l.
Proof.
  induction l as [|v l IH]; intros p; [reflexivity|]. cbn [many forallb]. unfold acc at 1. rewrite <- (IH (S p)).
  destruct (accept f v); [|reflexivity]. now destruct (many (S p) f l).
Qed.
Lemma ok_list c f l : List.length l = sublinks c -> okb (per_sublink c f (Many l)) = forallb (acc f) l.
Proof. intros L. cbn [per_sublink]. rewrite L, Nat.eqb_refl. apply ok_many. Qed.

Lemma ok_construct c kw : okb (construct c kw) =
  forallb (fun p => mem (fst p) (keywords c)) kw && match steps c kw with Some l => forallb (fun p => ok c (fst p) (snd p)) l | None => false end.
Proof.
  unfold construct. destruct (forallb _ kw); [|reflexivity]. cbn [andb]. destruct (steps c kw); [apply ok_all|reflexivity].
Qed.

Definition okopt (c : class) (kw : kwargs) (k : key) : bool := match lookup k kw with Some a => ok c k a | None => true end.
Lemma ok_deferred c kw : NoDup (map fst kw) -> okb (assign_all c (filter (fun p => mem (fst p) (parameters c)) kw)) = forallb (okopt c kw) (parameters c).
Proof.
  intros ND. rewrite ok_all. apply Bool.eq_iff_eq_true. rewrite !forallb_forall. split.
  - intros H k I. unfold okopt. destruct (lookup k kw) as [a|] eqn:L; [|reflexivity].
    apply (H (k, a)). apply filter_In. split; [now apply lookup_key|]. cbn [fst]. now apply mem_In.
  - intros H [k a] I. apply filter_In in I as [I M]. cbn [fst snd] in *. apply mem_In in M. specialize (H k M). unfold okopt in H.
    now rewrite (lookup_of k kw a ND I) in H.
Qed.

Lemma pick_kw kw k d : pick kw k d = match lookup k kw with Some a => a | None => d end.
Proof. reflexivity. Qed.
Lemma ok_min_flow c a : ok c KMinFlow (or_zero a) = ok c KMinFlow a.
Proof. destruct a as [[]|l]; try reflexivity. unfold ok. cbn [assign or_zero]. now destruct c. Qed.

Section Accepted.
Variables (env : nat -> option nat) (c : class) (doc : document) (kw : kwargs).
Hypothesis Di : direct c doc.
Hypothesis Ld : load_data env doc = Some kw.

Lemma kw_nodup : NoDup (map fst kw).
Proof. rewrite (load_data_keys _ _ _ Ld). apply (d_keys _ _ Di). Qed.

Lemma value_all : forallb (value_ok c) doc = true.
Proof.
  apply forallb_forall. intros [k d] I. unfold value_ok.
  assert (N : k = KInitial -> d <> DOne ANull).
  { intros -> ->. apply (d_null _ _ Di KInitial); [cbn; tauto|exact I]. }
  destruct c; try reflexivity; destruct k; try reflexivity; destruct d as [[| |]|]; try reflexivity; now destruct (N eq_refl).
Qed.

Lemma allowed_same : forallb (fun p => mem (fst p) (keywords c)) (immediate c doc) = forallb (fun p => mem (fst p) (keywords c)) kw.
Proof.
  pose proof (not_aggregated c doc Di) as NA.
  assert (PK : forall k, In k (parameters c) -> mem k (keywords c) = true).
  { intros k I. apply mem_In. clear - I NA. destruct c; cbn in I |- *; try congruence; tauto. }
  assert (E : forall (l : list key), forallb (fun k => mem k (keywords c)) (filter (fun k => negb (mem k (parameters c))) l) = forallb (fun k => mem k (keywords c)) l).
  { induction l as [|k l IH]; [reflexivity|]. cbn [filter forallb]. destruct (mem k (parameters c)) eqn:M; cbn [negb].
    - rewrite IH. apply mem_In in M. now rewrite (PK k M).
    - cbn [forallb]. now rewrite IH. }
  assert (F : forall A (l : list (key * A)), forallb (fun p => mem (fst p) (keywords c)) l = forallb (fun k => mem k (keywords c)) (map fst l)).
  { intros A l. induction l as [|[k a] l IH]; [reflexivity|]. cbn [forallb map fst]. now rewrite IH. }
  rewrite !F, (load_data_keys _ _ _ Ld), <- (E (map fst doc)). f_equal. unfold immediate. rewrite map_map. cbn [fst].
  clear. induction doc as [|[k d] l IH]; [reflexivity|]. cbn [filter map fst]. destruct (negb (mem k (parameters c))); cbn [map fst]; now rewrite IH.
Qed.

Lemma ok_load : okb (load env c doc) = okb (construct c (immediate c doc)) && forallb (okopt c kw) (parameters c).
Proof.
  unfold load, pre_load. rewrite value_all. destruct (construct c (immediate c doc)) as [w|]; [|reflexivity].
  unfold deferred. rewrite (load_data_filter env (fun k => mem k (parameters c)) doc kw Ld). cbn [okb andb].
  rewrite <- (ok_deferred c kw kw_nodup). now destruct (assign_all c _).
Qed.

Lemma not_null k : In k [KMinVolume; KCosts; KMaxFlows; KInitial] -> lookup k kw <> Some (One VNone).
Proof.
  intros I H. rewrite (load_data_lookup _ _ _ k Ld) in H. destruct (lookup k doc) as [d|] eqn:L; [|discriminate].
  apply (d_null _ _ Di k I). apply lookup_key in L. destruct d as [[|x|n]|l]; cbn [load_datum load_atom option_map] in H.
  - exact L.
  - discriminate.
  - destruct (env n); discriminate.
  - destruct (load_atoms env l); discriminate.
Qed.

Lemma imm_param k : In k (parameters c) -> lookup k (immediate c doc) = None.
Proof. intros I. rewrite immediate_lookup. apply mem_In in I. now rewrite I. Qed.
Lemma imm_other k : ~ In k (parameters c) -> lookup k (immediate c doc) = lookup k kw.
Proof. intros I. apply (immediate_same env c doc kw Di Ld). apply Bool.not_true_iff_false. intros M. apply I. now apply mem_In. Qed.
End Accepted.

Ltac atoms := cbv beta iota; repeat match goal with
  | |- context [ok ?c ?k ?a] => change (ok c k a) with true
  | |- context [ok ?c ?k ?a] => let b := fresh "b" in set (b := ok c k a); clearbody b
  end.
Ltac bools := repeat match goal with b : bool |- _ => destruct b end; reflexivity.

Lemma ok_or_zero_volume (c : class) (kw : kwargs) : lookup KMinVolume kw <> Some (One VNone) -> forall a, lookup KMinVolume kw = Some a -> or_zero a = a.
Proof. intros N a L. destruct a as [[]|l]; try reflexivity. congruence. Qed.

Lemma accepted env c doc kw : direct c doc -> load_data env doc = Some kw -> okb (load env c doc) = okb (construct c kw).
Proof.
  intros Di Ld. rewrite (ok_load env c doc kw Di Ld), !ok_construct, (allowed_same env c doc kw Di Ld).
  destruct (forallb (fun p => mem (fst p) (keywords c)) kw); [|reflexivity]. cbn [andb].
  pose proof (imm_param c doc) as IP. pose proof (imm_other env c doc kw Di Ld) as IO. pose proof (not_null env c doc kw Di Ld) as NN.
  pose proof (d_class _ _ Di) as DC.
  assert (HK : forall k, lookup k kw <> None -> has k doc).
  { intros k N. unfold has. rewrite <- (load_data_keys _ _ _ Ld). destruct (in_dec key_eq_dec k (map fst kw)) as [I|I]; [exact I|].
    apply lookup_none in I. contradiction. }
  set (im := immediate c doc) in *. clearbody im. clear Di Ld.
  destruct c; cbn [parameters In] in IP, IO; cbn [steps parameters node_args forallb fst snd].
  - rewrite !ok_min_flow, !pick_kw. unfold okopt.
    rewrite (IP KCost), (IP KMinFlow), (IP KMaxFlow), (IO KConversion) by intuition discriminate.
    change (ok Simple KMinFlow (num 0)) with true. change (ok Simple KMaxFlow (One (VNum PInf))) with true. change (ok Simple KCost (num 0)) with true.
    destruct (lookup KCost kw), (lookup KMinFlow kw), (lookup KMaxFlow kw); atoms; bools.
  - rewrite !ok_min_flow, !pick_kw. unfold okopt.
    rewrite (IP KCost), (IP KMinFlow), (IP KMaxFlow), (IO KConversion) by intuition discriminate.
    change (ok Break KMinFlow (num 0)) with true. change (ok Break KMaxFlow (One (VNum PInf))) with true. change (ok Break KCost (num 0)) with true.
    destruct (lookup KCost kw), (lookup KMinFlow kw), (lookup KMaxFlow kw); atoms; bools.
  - rewrite !ok_min_flow, !pick_kw. unfold okopt.
    rewrite (IP KCost), (IP KMinFlow), (IP KMaxFlow), (IP KLoss), (IO KConversion) by intuition discriminate.
    change (ok Loss KMinFlow (num 0)) with true. change (ok Loss KMaxFlow (One (VNum PInf))) with true. change (ok Loss KCost (num 0)) with true. change (ok Loss KLoss (num 0)) with true.
    destruct (lookup KCost kw), (lookup KMinFlow kw), (lookup KMaxFlow kw), (lookup KLoss kw); atoms; bools.
  - cbn [node_args app forallb fst snd]. rewrite !ok_min_flow, !pick_without by discriminate. rewrite !pick_kw. unfold okopt.
    rewrite (IP KCost), (IP KFlow), (IO KConversion), (IO KMinFlow), (IO KMaxFlow) by intuition discriminate.
    change (ok Catchment KFlow (num 0)) with true. change (ok Catchment KCost (num 0)) with true.
    destruct (lookup KCost kw), (lookup KFlow kw); atoms; bools.
  - cbn [storage_args forallb fst snd]. rewrite !pick_kw. unfold okopt.
    rewrite (IP KCost), (IP KMinVolume), (IP KMaxVolume), (IP KLevel), (IP KArea), (IO KInitial), (IO KInitialPc) by intuition discriminate.
    change (ok Store KMinVolume (or_zero (num 0))) with true. change (ok Store KMaxVolume (num 0)) with true. change (ok Store KCost (num 0)) with true.
    change (ok Store KLevel (One VNone)) with true. change (ok Store KArea (One VNone)) with true.
    destruct (lookup KMinVolume kw) as [mv|] eqn:MV; [rewrite (ok_or_zero_volume Store kw (NN KMinVolume ltac:(cbn; tauto)) mv MV)|];
      destruct (lookup KCost kw), (lookup KMaxVolume kw), (lookup KLevel kw), (lookup KArea kw); atoms; bools.
  - (* Reservoir *)
    assert (GC : forall (a : arg) (l : kwargs) d, pick ((KCost, a) :: without KCost l) KCost d = a).
    { intros a l d. unfold pick. cbn [lookup]. now rewrite key_eqb_refl. }
    assert (GO : forall k (a : arg) (l : kwargs) d, k <> KCost -> pick ((KCost, a) :: without KCost l) k d = pick l k d).
    { intros k a l d N. unfold pick. cbn [lookup]. unfold key_eqb at 1. destruct (key_eq_dec KCost k); [congruence|]. now rewrite lookup_without. }
    assert (RC : forall l : kwargs, (match match reservoir_cost l with Some a => Some (storage_args ((KCost, a) :: without KCost l)) | None => None end with
                           Some x => forallb (fun p => ok Reservoir (fst p) (snd p)) x | None => false end) =
                  (okb (reservoir_cost l) && match reservoir_cost l with Some a => ok Reservoir KCost a | None => false end) &&
                  (ok Reservoir KMinVolume (or_zero (pick l KMinVolume (num 0))) && (ok Reservoir KMaxVolume (pick l KMaxVolume (num 0)) &&
                  (ok Reservoir KInitial (pick l KInitial (One VNone)) && (ok Reservoir KInitialPc (pick l KInitialPc (One VNone)) &&
                  (ok Reservoir KLevel (pick l KLevel (One VNone)) && ok Reservoir KArea (pick l KArea (One VNone)))))))).
    { intros l. destruct (reservoir_cost l) as [a|]; [|reflexivity]. cbn [okb storage_args forallb fst snd]. rewrite GC, !GO by discriminate. atoms. bools. }
    rewrite !RC. clear RC GC GO. rewrite !pick_kw. unfold okopt.
    assert (CO : okb (reservoir_cost im) && match reservoir_cost im with Some a => ok Reservoir KCost a | None => false end &&
                 match lookup KCost kw with Some a => ok Reservoir KCost a | None => true end =
                 okb (reservoir_cost kw) && match reservoir_cost kw with Some a => ok Reservoir KCost a | None => false end).
    { assert (IC : lookup KCost im = None) by (apply IP; tauto). assert (IA : lookup KAbove im = lookup KAbove kw) by (apply IO; intuition discriminate).
      assert (IK : lookup KControl im = lookup KControl kw) by (apply IO; intuition discriminate).
      destruct (lookup KCost kw) as [a|] eqn:KC.
      - assert (KA : lookup KAbove kw = None).
        { destruct (lookup KAbove kw) eqn:X; [|reflexivity]. exfalso. apply DC; apply HK; congruence. }
        unfold reservoir_cost. rewrite !pick_kw, IA, KA, IC, KC. cbn [okb andb]. change (ok Reservoir KCost (num 0)) with true. reflexivity.
      - assert (E : reservoir_cost im = reservoir_cost kw) by (unfold reservoir_cost; rewrite !pick_kw, IA, IK, IC, KC; reflexivity).
        rewrite E. now rewrite Bool.andb_true_r. }
    rewrite <- CO. clear CO.
    rewrite (IP KMinVolume), (IP KMaxVolume), (IP KLevel), (IP KArea), (IO KInitial), (IO KInitialPc) by intuition discriminate.
    change (ok Reservoir KMinVolume (or_zero (num 0))) with true. change (ok Reservoir KMaxVolume (num 0)) with true.
    change (ok Reservoir KLevel (One VNone)) with true. change (ok Reservoir KArea (One VNone)) with true.
    set (rc := okb (reservoir_cost im) && match reservoir_cost im with Some a => ok Reservoir KCost a | None => false end). clearbody rc.
    destruct (lookup KMinVolume kw) as [mv|] eqn:MV; [rewrite (ok_or_zero_volume Reservoir kw (NN KMinVolume ltac:(cbn; tauto)) mv MV)|];
      destruct (lookup KCost kw), (lookup KMaxVolume kw), (lookup KLevel kw), (lookup KArea kw); atoms; bools.
  - cbn [virtual_args forallb fst snd]. rewrite !pick_kw. unfold okopt.
    rewrite (IP KMinVolume), (IP KMaxVolume), (IO KInitial), (IO KInitialPc), (IO KCost) by intuition discriminate.
    change (ok Virtual KMinVolume (or_zero (num 0))) with true. change (ok Virtual KMaxVolume (num 0)) with true.
    destruct (lookup KMinVolume kw) as [mv|] eqn:MV; [rewrite (ok_or_zero_volume Virtual kw (NN KMinVolume ltac:(cbn; tauto)) mv MV)|];
      destruct (lookup KMaxVolume kw); atoms; bools.
  - unfold piecewise_args. cbn [node_args app forallb fst snd]. rewrite !ok_min_flow, !pick_kw, !forallb_app. unfold okopt.
    rewrite (IP KCosts), (IP KMaxFlows), (IO KMinFlow), (IO KMaxFlow), (IO KCost), (IO KConversion) by intuition discriminate.
    assert (OP : forall k a, a <> One VNone -> optional k a = [(k, a)]) by (intros k [[]|] N; try reflexivity; congruence).
    assert (X : forall k, In k [KCosts; KMaxFlows] -> forallb (fun p => ok (Piecewise nsteps) (fst p) (snd p)) (optional k (match lookup k kw with Some a => a | None => One VNone end)) =
                  match lookup k kw with Some a => ok (Piecewise nsteps) k a | None => true end).
    { intros k I. assert (I' : In k [KMinVolume; KCosts; KMaxFlows; KInitial]) by (cbn in I |- *; tauto). specialize (NN k I').
      destruct (lookup k kw) as [a|]; [|reflexivity]. rewrite OP by congruence. cbn [forallb fst snd]. apply Bool.andb_true_r. }
    rewrite !X by (cbn; tauto). cbn [optional forallb].
    destruct (lookup KCosts kw), (lookup KMaxFlows kw); atoms; bools.
  - (* MultiSplit *)
    destruct DC as [D1 D2].
    assert (K1 : lookup KCosts kw = None) by (destruct (lookup KCosts kw) eqn:X; [exfalso; apply D1, HK; congruence|reflexivity]).
    assert (K2 : lookup KMaxFlows kw = None) by (destruct (lookup KMaxFlows kw) eqn:X; [exfalso; apply D2, HK; congruence|reflexivity]).
    unfold piecewise_args. cbn [node_args app forallb fst snd]. rewrite !pick_kw. unfold okopt.
    rewrite (IP KCosts), (IP KMaxFlows), (IO KMinFlow), (IO KMaxFlow), (IO KCost), (IO KConversion), K1, K2 by intuition discriminate. cbn [andb]. now rewrite Bool.andb_true_r.
  - (* RiverSplit *)
    destruct DC as [D1 D2].
    assert (K1 : lookup KCosts kw = None) by (destruct (lookup KCosts kw) eqn:X; [exfalso; apply D1, HK; congruence|reflexivity]).
    assert (K2 : lookup KMaxFlows kw = None) by (destruct (lookup KMaxFlows kw) eqn:X; [exfalso; apply D2, HK; congruence|reflexivity]).
    unfold piecewise_args. cbn [node_args app forallb fst snd]. rewrite !pick_kw. unfold okopt.
    rewrite (IP KCosts), (IP KMaxFlows), (IO KMinFlow), (IO KMaxFlow), (IO KCost), (IO KConversion), K1, K2 by intuition discriminate. cbn [andb]. now rewrite Bool.andb_true_r.
  - (* SplitGauge *)
    assert (OC : forall a b, ok (SplitGauge extra) KCosts (Many (a :: b :: repeat zero extra)) = acc Cost a && acc Cost b).
    { intros a b. unfold ok. cbn [assign]. rewrite ok_list by (cbn [app List.length]; now rewrite repeat_length). cbn [app forallb].
      replace (forallb (acc Cost) (repeat zero extra)) with true; [now rewrite Bool.andb_true_r|]. symmetry. apply forallb_forall. intros v I. apply repeat_spec in I as ->. reflexivity. }
    assert (OM : forall a, ok (SplitGauge extra) KMaxFlows (Many (a :: VNone :: repeat VNone extra)) = acc MaxFlow a).
    { intros a. unfold ok. cbn [assign]. rewrite ok_list by (cbn [app List.length]; now rewrite repeat_length). cbn [app forallb].
      replace (forallb (acc MaxFlow) (repeat VNone extra)) with true; [now rewrite !Bool.andb_true_r|]. symmetry. apply forallb_forall. intros v I. apply repeat_spec in I as ->. reflexivity. }
    assert (O1 : forall a, ok (SplitGauge extra) KMrfCost a = acc Cost (the a)) by (intros a; unfold ok; cbn [assign]; now apply ok_one).
    assert (O2 : forall a, ok (SplitGauge extra) KCost a = acc Cost (the a)) by (intros a; unfold ok; cbn [assign]; now apply ok_one).
    assert (O3 : forall a, ok (SplitGauge extra) KMrf a = acc MaxFlow (the a)) by (intros a; unfold ok; cbn [assign]; now apply ok_one).
    unfold piecewise_args. cbn [node_args app forallb fst snd pad optional]. rewrite !ok_min_flow, !pick_without_same, !pick_without by discriminate.
    change (VNum (Fin 0)) with zero.
    rewrite !OC, !OM, !pick_kw. unfold okopt.
    rewrite (IP KCost), (IP KMrf), (IP KMrfCost), (IO KMinFlow), (IO KMaxFlow), (IO KConversion) by intuition discriminate. cbn [the num].
    rewrite !O2. destruct (lookup KCost kw), (lookup KMrf kw), (lookup KMrfCost kw); rewrite ?O1, ?O2, ?O3; cbn [the num];
      change (acc Cost (VNum (Fin 0))) with true; change (acc MaxFlow (VNum (Fin 0))) with true; atoms;
      repeat match goal with |- context [acc ?f ?v] => let b := fresh "b" in set (b := acc f v); clearbody b end; bools.
  - (* Gauge *)
    assert (OC : forall a b, ok Gauge KCosts (Many [a; b]) = acc Cost a && acc Cost b).
    { intros a b. unfold ok. cbn [assign]. rewrite ok_list by reflexivity. cbn [forallb]. now rewrite Bool.andb_true_r. }
    assert (OM : forall a, ok Gauge KMaxFlows (Many [a; VNone]) = acc MaxFlow a).
    { intros a. unfold ok. cbn [assign]. rewrite ok_list by reflexivity. cbn [forallb]. now rewrite !Bool.andb_true_r. }
    assert (O1 : forall a, ok Gauge KMrfCost a = acc Cost (the a)) by (intros a; unfold ok; cbn [assign]; now apply ok_one).
    assert (O2 : forall a, ok Gauge KCost a = acc Cost (the a)) by (intros a; unfold ok; cbn [assign]; now apply ok_one).
    assert (O3 : forall a, ok Gauge KMrf a = acc MaxFlow (the a)) by (intros a; unfold ok; cbn [assign]; now apply ok_one).
    unfold piecewise_args. cbn [node_args app forallb fst snd optional]. rewrite !ok_min_flow, !pick_without_same, !pick_without by discriminate.
    rewrite !OC, !OM, !pick_kw. unfold okopt.
    rewrite (IP KCost), (IP KMrf), (IP KMrfCost), (IO KMinFlow), (IO KMaxFlow), (IO KConversion) by intuition discriminate. cbn [the num].
    rewrite !O2. destruct (lookup KCost kw), (lookup KMrf kw), (lookup KMrfCost kw); rewrite ?O1, ?O2, ?O3; cbn [the num];
      change (acc Cost (VNum (Fin 0))) with true; change (acc MaxFlow (VNum (Fin 0))) with true; atoms;
      repeat match goal with |- context [acc ?f ?v] => let b := fresh "b" in set (b := acc f v); clearbody b end; bools.
  - contradiction.
Qed.
