From Coq Require Import Strings.String.
From Verif Require Import Base Documents_model Documents_proofs Options_props Scenario_model Scenario_spec Scenario_proofs Frames_model Frames_spec.
Local Open Scope string_scope.
Local Open Scope nat_scope.
Local Open Scope list_scope.

Lemma mk_frame_some {R L A} (index : list R) (columns : list L) (cells : list (list A)) :
  List.length cells = List.length index -> Forall (fun row => List.length row = List.length columns) cells -> mk_frame index columns cells = Some (Frame index columns cells).
Proof.
  intros E F. unfold mk_frame. rewrite E, Nat.eqb_refl. cbn [andb]. replace (forallb _ cells) with true; [reflexivity|]. symmetry.
  apply forallb_forall. rewrite Forall_forall in F. intros row I. apply Nat.eqb_eq. now apply F.
Qed.
Lemma mk_frame_inv {R L A} (index : list R) (columns : list L) (cells : list (list A)) f : mk_frame index columns cells = Some f ->
  f = Frame index columns cells /\ List.length cells = List.length index /\ Forall (fun row => List.length row = List.length columns) cells.
Proof.
  unfold mk_frame. destruct ((List.length cells =? List.length index) && _) eqn:E; [|discriminate]. intros [= <-]. apply andb_true_iff in E as [E1 E2].
  apply Nat.eqb_eq in E1. split; [reflexivity|]. split; [exact E1|]. apply Forall_forall. intros row I. rewrite forallb_forall in E2. apply Nat.eqb_eq. now apply E2.
Qed.

(** * Combinations *)
Lemma valid_rows ss idx : Forall2 (fun x s => 0 <= x < sc_size s)%Z idx (map n_scenario ss) <-> Forall2 (fun i s => 0 <= i < sc_size (n_scenario s))%Z idx ss.
Proof.
  revert idx. induction ss as [|s ss IH]; intros idx; cbn [map].
  - split; intros H; inversion H; constructor.
  - split; intros H; inversion H; subst; (constructor; [assumption|now apply IH]).
Qed.
Lemma combinations_ready ss user l : ready ss user -> get_combinations (collection_of ss user) = Some l ->
  map global_id l = seq 0 (List.length l) /\ forall si, In si l -> Forall2 (fun i s => 0 <= i < sc_size (n_scenario s))%Z (indices si) ss.
Proof.
  intros [N Sz _ U] G. assert (W : wf_coll (collection_of ss user)) by (unfold wf_coll; cbn [scenarios collection_of]; apply Forall_map; exact Sz).
  assert (NE : scenarios (collection_of ss user) <> []) by (cbn; destruct ss; [congruence|discriminate]).
  destruct user as [u|].
  - assert (E : l = enumerate_si u).
    { unfold get_combinations, collection_of in G. cbn [scenarios Scenario_model.user] in G. destruct ss as [|s ss]; [congruence|]. cbn [map] in G.
      destruct (enumerate_si u); [discriminate|congruence]. }
    subst l. rewrite enumerate_ids, enumerate_length. split; [reflexivity|]. intros si I. rewrite Forall_forall in U. apply U.
    rewrite <- (enumerate_indices u). now apply in_map.
  - destruct (default_combinations _ _ W NE eq_refl G) as (rs & _ & _ & I). split; [exact I|]. intros si J.
    apply valid_rows. now apply (default_combinations_valid _ _ _ W NE eq_refl G).
Qed.
Lemma nth_error_seq s n i : i < n -> nth_error (seq s n) i = Some (s + i).
Proof. intros H. rewrite (nth_error_nth' (seq s n) 0) by (rewrite seq_length; exact H). now rewrite seq_nth. Qed.
Lemma global_nth l : map global_id l = seq 0 (List.length l) -> forall si, In si l -> nth_error l (global_id si) = Some si.
Proof.
  intros E si I. apply In_nth_error in I as [j J]. assert (H : nth_error (map global_id l) j = Some (global_id si)) by (rewrite nth_error_map, J; reflexivity).
  rewrite E in H. assert (Lj : j < List.length l) by (apply nth_error_Some; congruence). rewrite nth_error_seq in H by exact Lj. cbn in H. injection H as <-. exact J.
Qed.

(** * Labels *)
Lemma labels_called ss idx : Forall (fun s => match n_ensemble s with None => True | Some l => Z.of_nat (List.length l) = sc_size (n_scenario s) end) ss ->
  Forall2 (fun i s => 0 <= i < sc_size (n_scenario s))%Z idx ss -> called ss idx (labels ss idx).
Proof.
  intros N H. induction H as [|i s idx ss B H IH]; [constructor|]. inversion N as [|? ? Ns N']; subst. unfold labels. cbn [combine map fst snd]. constructor; [|now apply IH].
  unfold member, ensemble_names. destruct (n_ensemble s) as [l|].
  - rewrite (nth_error_nth' l (Text "")) by lia. reflexivity.
  - rewrite nth_indep with (d' := Number (Z.of_nat 0)) by (rewrite map_length, seq_length; lia).
    rewrite (map_nth (fun i => Number (Z.of_nat i))), seq_nth by lia. cbn. f_equal. lia.
Qed.
Lemma called_fun ss idx ls ls' : called ss idx ls -> called ss idx ls' -> ls = ls'.
Proof.
  intros H. revert ls'. induction H as [|s ss i idx l ls M H IH]; intros ls' K; inversion K; subst; [reflexivity|]. f_equal; [|now apply IH].
  unfold member in *. destruct (n_ensemble s); congruence.
Qed.
Lemma called_inj ss : forall idx idx' ls, distinct ss -> Forall2 (fun i s => 0 <= i < sc_size (n_scenario s))%Z idx ss -> Forall2 (fun i s => 0 <= i < sc_size (n_scenario s))%Z idx' ss ->
  called ss idx ls -> called ss idx' ls -> idx = idx'.
Proof.
  induction ss as [|s ss IH]; intros idx idx' ls D V V' C C'; inversion C; subst; inversion C'; subst; [reflexivity|].
  inversion V; subst. inversion V'; subst. inversion D as [|? ? Ds D']; subst. f_equal; [|now apply (IH _ _ ls0)].
  match goal with M1 : member s ?a l, M2 : member s ?b l |- _ => unfold member in M1, M2 end.
  destruct (n_ensemble s) as [names|]; [|congruence].
  match goal with M1 : nth_error names (Z.to_nat ?a) = Some l, M2 : nth_error names (Z.to_nat ?b) = Some l |- _ =>
    assert (Z.to_nat a = Z.to_nat b); [apply (proj1 (NoDup_nth_error names) Ds); [apply nth_error_Some; congruence|congruence]|lia] end.
Qed.

Lemma NoDup_at {A B} (f : A -> B) l i j : NoDup (map f l) -> forall x, nth_error l i = Some x -> forall y, nth_error l j = Some y -> f x = f y -> i = j.
Proof.
  intros ND x X y Y E. apply (proj1 (NoDup_nth_error (map f l)) ND).
  - rewrite map_length. apply nth_error_Some. congruence.
  - rewrite !nth_error_map, X, Y; cbn [option_map]; now rewrite E.
Qed.

Section Recorded.
Context {R A : Type}.
Variables (ss : list named) (user : option (list (list Z))) (index : list R) (data : list (list A)) (l : list scenario_index).
Hypothesis Rd : ready ss user.
Hypothesis G : get_combinations (collection_of ss user) = Some l.
Hypothesis LI : List.length data = List.length index.
Hypothesis LR : Forall (fun row => List.length row = List.length l) data.

Lemma frame_recorded : exists f, to_dataframe ss user index data = Some f /\ f_index f = index /\
  forall i row si v, nth_error data i = Some row -> In si l -> nth_error row (global_id si) = Some v ->
  exists ls, called ss (indices si) ls /\ shows f i ls v /\ (distinct ss -> NoDup (map indices l) -> forall v', shows f i ls v' -> v' = v).
Proof.
  destruct (combinations_ready ss user l Rd G) as [Id V]. pose proof Rd as [N Sz Nm U].
  exists (Frame index (map (fun si => labels ss (indices si)) l) data). split; [|split; [reflexivity|]].
  - unfold to_dataframe, multiindex. rewrite G. destruct ss; [congruence|]. cbn [option_map]. apply mk_frame_some; [exact LI|]. rewrite map_length. exact LR.
  - intros i row si v Di I Rv. exists (labels ss (indices si)). pose proof (labels_called ss (indices si) Nm (V si I)) as C. split; [exact C|].
    pose proof (global_nth l Id si I) as Ni. split.
    + exists (global_id si), row. cbn [f_columns f_cells]. split; [|now split]. now rewrite nth_error_map, Ni.
    + intros D ND v' (j & row' & Cj & Di' & Rv'). cbn [f_columns f_cells] in *. rewrite nth_error_map in Cj. destruct (nth_error l j) as [sj|] eqn:Nj; [|discriminate].
      cbn [option_map] in Cj. injection Cj as Cj. assert (Ij : In sj l) by now apply nth_error_In in Nj.
      assert (E : indices sj = indices si).
      { apply (called_inj ss _ _ (labels ss (indices si)) D (V sj Ij) (V si I)); [|exact C]. rewrite <- Cj. apply labels_called; [exact Nm|now apply V]. }
      assert (J : j = global_id si) by (apply (NoDup_at indices l j (global_id si) ND sj Nj si Ni); exact E). congruence.
Qed.
End Recorded.

(** * Arrays *)
Lemma chunks_concat {A} : forall n size (l : list A), List.length l = n * size -> List.concat (chunks n size l) = l /\ Forall (fun c => List.length c = size) (chunks n size l).
Proof.
  induction n as [|n IH]; intros size l E; cbn [chunks List.concat].
  - destruct l; [split; [reflexivity|constructor]|discriminate].
  - cbn in E. destruct (IH size (skipn size l)) as [C F]; [rewrite skipn_length; lia|]. split.
    + rewrite C. apply firstn_skipn.
    + constructor; [|exact F]. rewrite firstn_length. lia.
Qed.
Lemma reshape_flatten {A} : forall sh (l : list A), List.length l = size_of sh -> exists x, reshape sh l = Some x /\ flatten x = l.
Proof.
  induction sh as [|n sh IH]; intros l E.
  - cbn in E. destruct l as [|a [|]]; try discriminate. exists (Cell a). now split.
  - cbn [size_of fold_right] in E. fold (size_of sh) in E. cbn [reshape]. rewrite E, Nat.eqb_refl.
    destruct (chunks_concat n (size_of sh) l E) as [C F].
    assert (H : exists xs, map (reshape sh) (chunks n (size_of sh) l) = map Some xs /\ map flatten xs = chunks n (size_of sh) l).
    { clear E C. induction F as [|c cs Hc F IHc]; [now exists []|]. destruct (IH c Hc) as (x & X & Fx). destruct IHc as (xs & Xs & Fs).
      exists (x :: xs). cbn [map]. now rewrite X, Xs, Fx, Fs. }
    destruct H as (xs & Xs & Fs). exists (Arr xs). rewrite (proj2 (sequence_spec _ _) Xs). split; [reflexivity|]. cbn [flatten].
    rewrite flat_map_concat_map, Fs. exact C.
Qed.
Lemma reshape_size {A} : forall sh (l : list A) x, reshape sh l = Some x -> List.length l = size_of sh.
Proof.
  intros [|n sh] l x H; cbn [reshape] in H.
  - destruct l as [|a [|]]; try discriminate. reflexivity.
  - destruct (Nat.eqb_spec (List.length l) (n * size_of sh)) as [E|]; [exact E|discriminate].
Qed.
Lemma reshape_all {A} sh (data : list (list A)) : Forall (fun row => List.length row = size_of sh) data ->
  exists xs, sequence (map (reshape sh) data) = Some xs /\ map flatten xs = data.
Proof.
  intros F. assert (H : exists xs, map (reshape sh) data = map Some xs /\ map flatten xs = data).
  { induction F as [|row data E F IH]; [now exists []|]. destruct (reshape_flatten sh row E) as (x & X & Fx). destruct IH as (xs & Xs & Fs).
    exists (x :: xs). cbn [map]. now rewrite X, Xs, Fx, Fs. }
  destruct H as (xs & X & Fs). exists xs. split; [now apply sequence_spec|exact Fs].
Qed.

(** The shape of the scenarios has as many places as there are combinations. *)
Lemma shape_size ss user l : ready ss user -> get_combinations (collection_of ss user) = Some l ->
  exists sh, shape (collection_of ss user) = Some sh /\ size_of (map Z.to_nat sh) = List.length l.
Proof.
  intros [N Sz Nm U] G. unfold shape, get_combinations, collection_of in *. cbn [scenarios Scenario_model.user] in *. destruct ss as [|s ss]; [congruence|]. cbn [map] in *.
  destruct user as [u|].
  - exists [Z.of_nat (List.length u)]. split; [reflexivity|]. assert (l = enumerate_si u) by (destruct (enumerate_si u); [discriminate|congruence]). subst l.
    rewrite enumerate_length. cbn. lia.
  - destruct (sequence (scenario_range (n_scenario s) :: map scenario_range (map n_scenario ss))) as [rs|] eqn:E; [|discriminate].
    assert (L : l = enumerate_si (product rs)) by (destruct (enumerate_si (product rs)); [discriminate|congruence]). subst l. rewrite enumerate_length, product_length.
    apply sequence_spec in E. exists (map (fun r => Z.of_nat (List.length r)) rs). split.
    + apply sequence_spec. change (map (fun s0 => option_map (fun l => Z.of_nat (List.length l)) (scenario_range s0)) (n_scenario s :: map n_scenario ss) = map Some (map (fun r => Z.of_nat (List.length r)) rs)).
      rewrite <- (map_map scenario_range (option_map (fun l => Z.of_nat (List.length l)))). change (map scenario_range (n_scenario s :: map n_scenario ss)) with (scenario_range (n_scenario s) :: map scenario_range (map n_scenario ss)).
      rewrite E, !map_map. reflexivity.
    + rewrite map_map. rewrite (map_ext _ (@List.length Z)) by (intros r; apply Nat2Z.id). induction (map (@List.length Z) rs) as [|a b IH]; [reflexivity|]. cbn [size_of fold_right nprod]. now rewrite <- IH.
Qed.
Lemma written ss user l {A} (data : list (list A)) : ready ss user -> get_combinations (collection_of ss user) = Some l -> Forall (fun row => List.length row = List.length l) data ->
  exists rows, write_array ss user data = Some rows /\ map flatten rows = data.
Proof.
  intros Rd G F. destruct (shape_size ss user l Rd G) as (sh & E & S). unfold write_array. rewrite E. apply reshape_all. now rewrite S.
Qed.

(** Scenarios without slices are run in full. *)
Lemma full_product ss l : ready ss None -> Forall (fun s => sc_slice (n_scenario s) = None) ss -> get_combinations (collection_of ss None) = Some l ->
  exists t, write_tables ss None = Some t /\ product_columns t = Some (map indices l).
Proof.
  intros [N Sz Nm U] F G. unfold write_tables. replace (existsb _ ss) with false.
  2:{ symmetry. apply not_true_iff_false. intros H. apply existsb_exists in H as (s & I & H). rewrite Forall_forall in F. now rewrite (F s I) in H. }
  eexists. split; [reflexivity|]. unfold product_columns. cbn [t_scenarios].
  assert (W : wf_coll (collection_of ss None)) by (unfold wf_coll; cbn [scenarios collection_of]; apply Forall_map; exact Sz).
  destruct (default_combinations _ _ W ltac:(cbn; destruct ss; [congruence|discriminate]) eq_refl G) as (rs & E & I & _). rewrite I.
  destruct ss as [|s ss]; [congruence|]. cbn [map]. do 2 f_equal.
  change (map (fun p : string * Z => map Z.of_nat (seq 0 (Z.to_nat (snd p)))) (map (fun s => (n_name s, sc_size (n_scenario s))) (s :: ss)) = rs).
  cbn [scenarios collection_of] in E. rewrite map_map. cbn [snd]. clear I G W N U Nm; revert rs E Sz F; generalize (s :: ss). clear ss l; intros ss0; clear s; induction ss0 as [|s ss IH]; intros [|r rs] E Sz F; try discriminate; [reflexivity|].
  inversion Sz; subst. inversion F; subst. cbn [map] in E |- *. injection E as E1 E2. rewrite (scenario_range_all _ H1 H3) in E1. injection E1 as <-. f_equal. now apply IH.
Qed.

(** * Tables *)
Lemma combination_row_get ss : NoDup (map n_name ss) -> forall comb, List.length comb = List.length ss -> forall d : dict Z,
  (forall s, In s ss -> get (n_name s) d = None) ->
  map (fun s => get (n_name s) (fold_left (fun d p => put (n_name (fst p)) (snd p) d) (combine ss comb) d)) ss = map Some comb /\
  forall k, ~ In k (map n_name ss) -> get k (fold_left (fun d p => put (n_name (fst p)) (snd p) d) (combine ss comb) d) = get k d.
Proof.
  induction ss as [|s ss IH]; intros ND [|i comb] L d H; try discriminate; [now split|]. cbn [combine fold_left fst snd map]. inversion ND as [|? ? NI ND']; subst. injection L as L.
  destruct (IH ND' comb L (put (n_name s) i d)) as [E K].
  { intros t I. rewrite get_put. destruct (String.eqb_spec (n_name s) (n_name t)) as [X|X]; [|apply H; now right]. exfalso. apply NI. rewrite X. now apply in_map. }
  split.
  - rewrite E, (K _ NI), get_put, String.eqb_refl. reflexivity.
  - intros k Nk. rewrite K by (intros I; apply Nk; now right). rewrite get_put. destruct (String.eqb_spec (n_name s) k) as [X|]; [exfalso; apply Nk; now left|reflexivity].
Qed.

Lemma slices_get ss : NoDup (map n_name ss) -> forall rows, map slice_row ss = map Some rows ->
  (forall s, In s ss -> match sc_slice (n_scenario s) with
                        | None => get (n_name s) (List.concat rows) = None
                        | Some sl => exists a b, sl_start sl = Some a /\ sl_stop sl = Some b /\
                                     get (n_name s) (List.concat rows) = Some (a, b, match sl_step sl with Some k => if (k =? 0)%Z then 1%Z else k | None => 1%Z end)
                        end) /\
  forall k, ~ In k (map n_name ss) -> get k (List.concat rows) = None.
Proof.
  induction ss as [|s ss IH]; intros ND [|r rows] E; try discriminate; [split; [intros s []|reflexivity]|]. cbn [map List.concat] in *. injection E as Er E.
  inversion ND as [|? ? NI ND']; subst. destruct (IH ND' rows E) as [H K].
  assert (GA : forall k, k <> n_name s -> get k (r ++ List.concat rows) = get k (List.concat rows)).
  { intros k Nk. unfold slice_row in Er. destruct (sc_slice (n_scenario s)) as [sl|]; [|injection Er as <-; reflexivity].
    destruct (sl_start sl), (sl_stop sl); try discriminate. injection Er as <-. cbn [app get]. destruct (String.eqb_spec (n_name s) k); [congruence|reflexivity]. }
  split.
  - intros t [<-|I].
    + unfold slice_row in Er. destruct (sc_slice (n_scenario s)) as [sl|].
      * destruct (sl_start sl) as [a|], (sl_stop sl) as [b|]; try discriminate. injection Er as <-. exists a, b. cbn [app get]. rewrite String.eqb_refl. now repeat split.
      * injection Er as <-. apply K. exact NI.
    + assert (X : n_name t <> n_name s) by (intros X; apply NI; rewrite <- X; now apply in_map). specialize (H t I). now rewrite (GA _ X).
  - intros k Nk. rewrite GA by (intros ->; apply Nk; now left). apply K. intros I. apply Nk. now right.
Qed.

Lemma sequence_map {A B} (f : A -> option B) (l : list A) (g : A -> B) : (forall x, In x l -> f x = Some (g x)) -> sequence (map f l) = Some (map g l).
Proof. intros H. apply sequence_spec. rewrite map_map. apply map_ext_in. exact H. Qed.

Lemma tables_told ss user l t : ready ss user -> NoDup (map n_name ss) -> get_combinations (collection_of ss user) = Some l -> write_tables ss user = Some t ->
  told t = Some (map indices l).
Proof.
  intros Rd ND G W. pose proof Rd as [N Sz Nm U]. unfold write_tables in W. destruct user as [u|].
  - injection W as <-. unfold told. cbn [t_combinations t_scenarios]. rewrite map_map.
    assert (El : map indices l = u).
    { unfold get_combinations, collection_of in G. cbn [scenarios Scenario_model.user] in G. destruct ss as [|s ss]; [congruence|]. cbn [map] in G.
      assert (l = enumerate_si u) by (destruct (enumerate_si u); [discriminate|congruence]). subst l. apply enumerate_indices. }
    rewrite El. transitivity (sequence (map Some u)); [|apply sequence_spec; reflexivity]. f_equal. apply map_ext_in. intros row I.
    apply sequence_spec. rewrite map_map. cbn [fst]. rewrite Forall_forall in U. specialize (U row I).
    assert (L : List.length row = List.length ss) by (clear - U; induction U; cbn; congruence).
    apply (proj1 (combination_row_get ss ND row L [] (fun _ _ => eq_refl))).
  - assert (Wf : wf_coll (collection_of ss None)) by (unfold wf_coll; cbn [scenarios collection_of]; apply Forall_map; exact Sz).
    destruct (default_combinations _ _ Wf ltac:(cbn; destruct ss; [congruence|discriminate]) eq_refl G) as (rs & E & I & _). rewrite I. cbn [scenarios collection_of] in E.
    assert (Q : forall sl, t_combinations t = None -> t_slices t = sl -> t_scenarios t = map (fun s => (n_name s, sc_size (n_scenario s))) ss ->
      (forall s, In s ss -> scenario_range (Scenario (sc_size (n_scenario s)) (match sl with None => None | Some sl => option_map (fun x => Slice (Some (fst (fst x))) (Some (snd (fst x))) (Some (snd x))) (get (n_name s) sl) end)) = scenario_range (n_scenario s)) ->
      told t = Some (product rs)).
    { intros sl T1 T2 T3 H. unfold told. rewrite T1, T2, T3, map_map. cbn [fst snd].
      replace (sequence _) with (Some rs); [reflexivity|]. symmetry. apply sequence_spec. rewrite <- E, map_map. apply map_ext_in. exact H. }
    destruct (existsb _ ss) eqn:X.
    + destruct (sequence (map slice_row ss)) as [rows|] eqn:Q1; [|discriminate]. injection W as <-. apply sequence_spec in Q1.
      apply (Q (Some (List.concat rows))); try reflexivity. intros s Is. destruct (slices_get ss ND rows Q1) as [H _]. specialize (H s Is).
      destruct (n_scenario s) as [sz sl] eqn:En. cbn [sc_slice sc_size] in *. destruct sl as [sl|]; [|rewrite H; reflexivity].
      destruct H as (a & b & Ha & Hb & Hg). rewrite Hg. cbn [option_map fst snd]. unfold scenario_range. cbn [sc_slice sc_size]. unfold slice_indices. cbn [sl_start sl_stop sl_step].
      destruct sl as [sa sb sk]. cbn [sl_start sl_stop sl_step] in *. subst sa sb. destruct sk as [k|]; [|reflexivity].
      destruct (Z.eqb_spec k 0) as [->|Nk]; [|cbn [fst snd]; apply Z.eqb_neq in Nk; rewrite ?Nk; reflexivity]. exfalso.
      assert (J : In (scenario_range (Scenario sz (Some (Slice (Some a) (Some b) (Some 0%Z))))) (map Some rs)).
      { rewrite <- E, map_map. apply in_map_iff. exists s. rewrite En. now split. }
      apply in_map_iff in J as (r & J & _). unfold scenario_range in J. cbn in J. discriminate.
    + injection W as <-. apply (Q None); try reflexivity. intros s Is. destruct (n_scenario s) as [sz sl] eqn:En. destruct sl as [sl|]; [|reflexivity]. exfalso.
      apply not_true_iff_false in X. apply X. apply existsb_exists. exists s. split; [exact Is|]. now rewrite En.
Qed.

(** * Concatenation *)
Section Concat.
Context {R L A : Type}.
Variable eqb : R -> R -> bool.
Hypothesis eqb_eq : forall a b, eqb a b = true <-> a = b.

Lemma row_at_some index cells ri r (row : list A) : NoDup index -> nth_error index ri = Some r -> nth_error cells ri = Some row -> row_at eqb r index cells = Some row.
Proof.
  revert cells ri. induction index as [|x index IH]; intros [|c cells] [|ri] ND I C; try discriminate; cbn [row_at nth_error] in *.
  - injection I as ->. rewrite (proj2 (eqb_eq r r) eq_refl). exact C.
  - inversion ND; subst. destruct (eqb x r) eqn:E; [|now apply (IH cells ri)]. apply eqb_eq in E as ->. exfalso. apply H1. now apply nth_error_In in I.
Qed.
Lemma row_at_none r index (cells : list (list A)) : ~ In r index -> row_at eqb r index cells = None.
Proof.
  revert cells. induction index as [|x index IH]; intros [|c cells] NI; try reflexivity. cbn [row_at]. destruct (eqb x r) eqn:E; [apply eqb_eq in E; exfalso; apply NI; now left|].
  apply IH. intros I. apply NI. now right.
Qed.
Definition good (f : frame R L A) : Prop := List.length (f_cells f) = List.length (f_index f) /\ Forall (fun row => List.length row = List.length (f_columns f)) (f_cells f).
Lemma row_of_length r f : good f -> List.length (row_of eqb r f) = List.length (f_columns f).
Proof.
  intros [Lc F]. unfold row_of. destruct (row_at eqb r (f_index f) (f_cells f)) as [row|] eqn:E; [|now rewrite map_length]. rewrite map_length.
  rewrite Forall_forall in F. apply F. clear Lc. revert E. generalize (f_index f). induction (f_cells f) as [|c cells IH]; intros [|x index] E; try discriminate.
  cbn [row_at] in E. destruct (eqb x r); [injection E as ->; now left|right; now apply (IH (fun x I => F x (or_intror I)) index)].
Qed.

(** Where the columns of a frame are. *)
Lemma place dfs : Forall (fun p => good (snd p)) dfs -> forall n (g : frame R L A) j l v r, In (n, g) dfs -> nth_error (f_columns g) j = Some l -> nth_error (row_of eqb r g) j = Some v ->
  exists k, nth_error (flat_map (fun p : string * frame R L A => map (pair (fst p)) (f_columns (snd p))) dfs) k = Some (n, l) /\ nth_error (flat_map (fun p => row_of eqb r (snd p)) dfs) k = Some v.
Proof.
  induction 1 as [|[m h] dfs Gh F IH]; intros n g j l v r I C V; [destruct I|]. cbn [flat_map fst snd] in *. destruct I as [E|I].
  - injection E as -> ->. exists j. rewrite !nth_error_app1; [split; [now rewrite nth_error_map, C|exact V]| |].
    + apply nth_error_Some. congruence.
    + rewrite map_length. apply nth_error_Some. congruence.
  - destruct (IH n g j l v r I C V) as (k & K1 & K2). exists (List.length (f_columns h) + k). split.
    + rewrite nth_error_app2 by (rewrite map_length; lia). rewrite map_length. now replace (List.length (f_columns h) + k - List.length (f_columns h)) with k by lia.
    + rewrite nth_error_app2 by (rewrite (row_of_length r h Gh); lia). rewrite (row_of_length r h Gh). now replace (List.length (f_columns h) + k - List.length (f_columns h)) with k by lia.
Qed.
(** What stands where. *)
Lemma place_inv dfs : Forall (fun p => good (snd p)) dfs -> forall k n l v r, 
  nth_error (flat_map (fun p : string * frame R L A => map (pair (fst p)) (f_columns (snd p))) dfs) k = Some (n, l) -> nth_error (flat_map (fun p => row_of eqb r (snd p)) dfs) k = Some v ->
  exists g j, In (n, g) dfs /\ nth_error (f_columns g) j = Some l /\ nth_error (row_of eqb r g) j = Some v.
Proof.
  induction 1 as [|[m h] dfs Gh F IH]; intros k n l v r C V; [destruct k; discriminate|]. cbn [flat_map fst snd] in *. destruct (Nat.lt_ge_cases k (List.length (f_columns h))) as [H|H].
  - rewrite nth_error_app1 in C by (rewrite map_length; exact H). rewrite nth_error_app1 in V by (rewrite (row_of_length r h Gh); exact H). rewrite nth_error_map in C.
    destruct (nth_error (f_columns h) k) as [l'|] eqn:E; [|discriminate]. injection C as -> ->. exists h, k. split; [now left|]. now split.
  - rewrite nth_error_app2 in C by (rewrite map_length; exact H). rewrite nth_error_app2 in V by (rewrite (row_of_length r h Gh); exact H). rewrite map_length in C. rewrite (row_of_length r h Gh) in V.
    destruct (IH _ n l v r C V) as (g & j & I & X). exists g, j. split; [now right|exact X].
Qed.

Lemma put_all (recs : list (string * frame R L A)) : forall d, NoDup (map fst d ++ map fst recs) -> fold_left (fun d p => put (fst p) (snd p) d) recs d = d ++ recs.
Proof.
  induction recs as [|[n g] recs IH]; intros d ND; [now rewrite app_nil_r|]. cbn [fold_left fst snd].
  assert (P : put n g d = d ++ [(n, g)]).
  { cbn [map fst] in ND. apply NoDup_remove_2 in ND. assert (NI : ~ In n (map fst d)) by (intros I; apply ND; apply in_or_app; now left). clear - NI.
    induction d as [|[m h] d IH]; [reflexivity|]. cbn [put app]. destruct (String.eqb_spec m n) as [->|]; [exfalso; apply NI; now left|]. f_equal. apply IH. intros I. apply NI. now right. }
  rewrite P, IH; [now rewrite <- app_assoc|]. rewrite map_app, <- app_assoc. exact ND.
Qed.
End Concat.

(** * Results *)
Lemma flattened_get {V} prefix : forall (d : dict V), NoDup (map fst d) -> forall into,
  (forall k, get (prefix ++ "." ++ k)%string (flattened prefix d into) = match get k d with Some v => Some v | None => get (prefix ++ "." ++ k)%string into end) /\
  (forall k, (forall j, k <> (prefix ++ "." ++ j)%string) -> get k (flattened prefix d into) = get k into).
Proof.
  assert (AI : forall p a b : string, (p ++ a)%string = (p ++ b)%string -> a = b) by (induction p as [|c p IH]; intros a b E; [exact E|cbn [append] in E; injection E as E; now apply IH]).
  induction d as [|[j v] d IH]; intros ND into; [split; [reflexivity|reflexivity]|]. unfold flattened. cbn [fold_left fst snd]. fold (flattened prefix d (put (prefix ++ "." ++ j)%string v into)).
  inversion ND as [|? ? NI ND']; subst. destruct (IH ND' (put (prefix ++ "." ++ j)%string v into)) as [A B]. split.
  - intros k. rewrite A. cbn [get]. rewrite get_put. destruct (String.eqb_spec j k) as [->|Nk].
    + rewrite String.eqb_refl. replace (get k d) with (@None V); [reflexivity|]. symmetry. destruct (get k d) as [w|] eqn:E; [|reflexivity]. exfalso. apply NI.
      clear - E. induction d as [|[i x] d IH]; [discriminate|]. cbn [get] in E. destruct (String.eqb_spec i k); [now left|right; now apply IH].
    + destruct (String.eqb_spec (prefix ++ "." ++ j)%string (prefix ++ "." ++ k)%string) as [E|]; [|reflexivity]. apply AI in E. injection E as E. congruence.
  - intros k Nk. rewrite B by exact Nk. rewrite get_put. destruct (String.eqb_spec (prefix ++ "." ++ j)%string k) as [E|]; [|reflexivity]. exfalso. now apply (Nk j).
Qed.
