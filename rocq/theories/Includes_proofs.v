(** Proofs about names of files and merged documents. *)
From Coq Require Import Strings.Ascii Strings.String.
From Verif Require Import Base Documents_model Documents_proofs Includes_model Includes_spec.
Local Open Scope string_scope.
Local Open Scope nat_scope.
Local Open Scope list_scope.

(** * Names *)

Lemma hasP c s : reflect (has c s) (hasb c s).
Proof.
  induction s as [|a s IH]; cbn [has hasb]; [constructor; tauto|]. destruct (Ascii.eqb_spec a c) as [E|E]; cbn [orb]; [constructor; now left|].
  destruct IH as [H|H]; constructor; [now right|tauto].
Qed.
Lemma has_app c a b : has c (a ++ b)%string <-> has c a \/ has c b.
Proof. induction a as [|x a IH]; cbn [append has]; [tauto|]. rewrite IH. tauto. Qed.
Lemma append_assoc (a b c : string) : ((a ++ b) ++ c = a ++ b ++ c)%string.
Proof. induction a as [|x a IH]; cbn [append]; [reflexivity|]. now rewrite IH. Qed.
Lemma append_nil (a : string) : (a ++ "" = a)%string.
Proof. induction a as [|x a IH]; cbn [append]; [reflexivity|]. now rewrite IH. Qed.

Lemma base_slashless b : ~ has "/" b -> base_name b = b.
Proof.
  induction b as [|a b IH]; [reflexivity|]. cbn [base_name has]. intros H. destruct (hasP "/" b); [tauto|]. destruct (Ascii.eqb_spec a "/"); [tauto|reflexivity].
Qed.
Lemma base_after d b : ~ has "/" b -> base_name (d ++ String "/" b)%string = b.
Proof.
  intros Hb. induction d as [|a d IH].
  - cbn [append base_name]. destruct (hasP "/" b); [contradiction|]. now rewrite Ascii.eqb_refl.
  - cbn [append]. cbn [base_name]. destruct (hasP "/" (d ++ String "/" b)) as [_|N]; [exact IH|]. exfalso. apply N. apply has_app. right. now left.
Qed.
Lemma base_split f : exists dir, f = (dir ++ base_name f)%string /\ (dir = "" \/ exists d, dir = (d ++ "/")%string) /\ ~ has "/" (base_name f).
Proof.
  induction f as [|a f (dir & E & D & H)]; [exists ""; repeat split; auto|]. cbn [base_name]. destruct (hasP "/" f) as [Hf|Hf].
  - exists (String a dir). split; [cbn [append]; now rewrite <- E|]. split; [|exact H]. right. destruct D as [->|[d ->]].
    + cbn [append] in E. rewrite <- E in H. contradiction.
    + now exists (String a d).
  - destruct (Ascii.eqb_spec a "/") as [->|N].
    + exists "/". repeat split; auto. right. now exists "".
    + exists "". repeat split; auto. cbn [has]. tauto.
Qed.
Lemma strip_split b : exists ds, b = (ds ++ strip_dots b)%string /\ (forall c, has c ds -> c = "."%char) /\ (forall a r, strip_dots b = String a r -> a <> "."%char).
Proof.
  induction b as [|a b (ds & E & D & H)]; [exists ""; repeat split; [intros c []|discriminate]|]. cbn [strip_dots]. destruct (Ascii.eqb_spec a ".") as [->|N].
  - exists (String "." ds). split; [cbn [append]; now rewrite <- E|]. split; [|exact H]. cbn [has]. intros c [X|X]; auto.
  - exists "". repeat split; [intros c []|]. intros a' r [= -> ->]. exact N.
Qed.
Lemma strip_app stem e c : has c stem -> c <> "."%char -> exists a r, strip_dots (stem ++ e)%string = String a (r ++ e)%string.
Proof.
  intros Hc Nc. induction stem as [|a stem IH]; [destruct Hc|]. cbn [append strip_dots]. destruct (Ascii.eqb_spec a ".") as [->|N].
  - apply IH. destruct Hc as [X|X]; [congruence|exact X].
  - now exists a, stem.
Qed.
Lemma last_dot_none s : from_last_dot s = None <-> ~ has "." s.
Proof.
  induction s as [|a s IH]; cbn [from_last_dot has]; [tauto|]. destruct (from_last_dot s) as [x|]; [split; [discriminate|]|].
  - intros H. assert (X : Some x = None) by (apply IH; tauto). discriminate.
  - destruct (Ascii.eqb_spec a "."); split; try discriminate; try tauto.
Qed.
Lemma last_dot_app p e : ~ has "." e -> from_last_dot (p ++ String "." e)%string = Some (String "." e).
Proof.
  intros H. induction p as [|a p IH]; cbn [append from_last_dot].
  - rewrite (proj2 (last_dot_none e) H), Ascii.eqb_refl. reflexivity.
  - now rewrite IH.
Qed.
Lemma last_dot_split s x : from_last_dot s = Some x -> exists p e, s = (p ++ x)%string /\ x = String "." e /\ ~ has "." e.
Proof.
  induction s as [|a s IH]; cbn [from_last_dot]; [discriminate|]. destruct (from_last_dot s) as [y|] eqn:E.
  - intros [= ->]. destruct (IH eq_refl) as (p & e & -> & Ex & H). now exists (String a p), e.
  - destruct (Ascii.eqb_spec a ".") as [->|]; [|discriminate]. intros [= <-]. exists "", s. repeat split. now apply last_dot_none.
Qed.

Lemma lower_char_upper a : 65 <= nat_of_ascii a <= 90 -> lower_char a = ascii_of_nat (nat_of_ascii a + 32).
Proof. intros H. unfold lower_char. cbv zeta. destruct (Nat.leb_spec 65 (nat_of_ascii a)); destruct (Nat.leb_spec (nat_of_ascii a) 90); try lia. reflexivity. Qed.
Lemma lower_char_other a : ~ 65 <= nat_of_ascii a <= 90 -> lower_char a = a.
Proof. intros H. unfold lower_char. cbv zeta. destruct (Nat.leb_spec 65 (nat_of_ascii a)); destruct (Nat.leb_spec (nat_of_ascii a) 90); try lia; reflexivity. Qed.
Lemma lower_char_spec a b : lower_char b = b -> (lower_char a = b <-> letters_alike a b).
Proof.
  intros Hb. unfold letters_alike. destruct (Nat.le_gt_cases 65 (nat_of_ascii a)) as [L|L].
  1: destruct (Nat.le_gt_cases (nat_of_ascii a) 90) as [U|U].
  - rewrite lower_char_upper by lia. split.
    + intros <-. right. exists (nat_of_ascii a). split; [lia|]. split; [reflexivity|]. apply nat_ascii_embedding. lia.
    + intros [->|(n & _ & E1 & E2)].
      * rewrite lower_char_upper in Hb by lia. exact Hb.
      * rewrite E1, <- E2. apply ascii_nat_embedding.
  - rewrite lower_char_other by lia. split; [auto|]. intros [->|(n & Hn & E & _)]; [reflexivity|lia].
  - rewrite lower_char_other by lia. split; [auto|]. intros [->|(n & Hn & E & _)]; [reflexivity|lia].
Qed.
Lemma lower_spec s : forall t, lower t = t -> (lower s = t <-> alike s t).
Proof.
  induction s as [|a s IH]; intros [|b t] H; cbn [lower alike] in *; try (split; [discriminate|tauto]); [tauto|].
  assert (Hb : lower_char b = b) by congruence. assert (Ht : lower t = t) by congruence. rewrite <- (lower_char_spec a b Hb), <- (IH t Ht).
  split; [intros E; split; congruence|intros [-> ->]; reflexivity].
Qed.
Lemma lower_has s c : ~ 65 <= nat_of_ascii c <= 122 -> (has c (lower s) <-> has c s).
Proof.
  intros Hc. induction s as [|a s IH]; cbn [lower has]; [tauto|]. rewrite IH. enough (E : lower_char a = c <-> a = c) by (rewrite E; tauto).
  destruct (Nat.le_gt_cases 65 (nat_of_ascii a)) as [L|L].
  1: destruct (Nat.le_gt_cases (nat_of_ascii a) 90) as [U|U].
  - rewrite lower_char_upper by lia. split; [|intros ->; lia]. intros E. exfalso. apply Hc. rewrite <- E, nat_ascii_embedding by lia. lia.
  - now rewrite lower_char_other by lia.
  - now rewrite lower_char_other by lia.
Qed.

(** The extension is [e], in any case, if the name ends in it. *)
Lemma extension_spec f e : lower e = e -> ~ has "." e -> ~ has "/" e ->
  (lower (extension f) = String "." e <-> ends_in f (String "." e)).
Proof.
  intros He Hd Hs. assert (Hle : lower (String "." e) = String "." e) by (cbn [lower]; now rewrite He). unfold extension, ends_in. split.
  - intros H. destruct (from_last_dot (strip_dots (base_name f))) as [x|] eqn:L; [|discriminate].
    destruct (last_dot_split _ _ L) as (p & y & E & -> & Hy). destruct (base_split f) as (dir & Ef & Hdir & Hb). destruct (strip_split (base_name f)) as (ds & Eb & Hds & Hf).
    exists dir, (ds ++ p)%string, (String "." y). split; [now rewrite append_assoc, <- E, <- Eb|]. split; [exact Hdir|]. split; [|split].
    + intros X. apply Hb. rewrite Eb, E. rewrite has_app in *. rewrite has_app. tauto.
    + destruct p as [|a p].
      * exfalso. cbn [append] in E. exact (Hf _ _ E eq_refl).
      * exists a. split; [apply has_app; right; now left|]. cbn [append] in E. exact (Hf _ _ E).
    + now apply (lower_spec (String "." y) _ Hle).
  - intros (dir & stem & x & -> & Hdir & Hstem & (c & Hc & Nc) & Hx). apply (lower_spec x _ Hle) in Hx.
    assert (Hxs : ~ has "/" x). { rewrite <- (lower_has x "/") by (vm_compute; lia). rewrite Hx. cbn [has]. intros [X|X]; [discriminate|contradiction]. }
    assert (B : base_name (dir ++ stem ++ x)%string = (stem ++ x)%string).
    { assert (~ has "/" (stem ++ x)%string) by (rewrite has_app; tauto). destruct Hdir as [->|[d ->]]; [now apply base_slashless|]. rewrite append_assoc. now apply base_after. }
    rewrite B. destruct (strip_app stem x c Hc Nc) as (a & r & ->).
    destruct x as [|b y]; [discriminate|]. cbn [lower] in Hx. assert (Eb : lower_char b = "."%char) by congruence. assert (Ey : lower y = e) by congruence.
    assert (b = "."%char) as ->. { destruct (Nat.le_gt_cases 65 (nat_of_ascii b)) as [L|L]; [destruct (Nat.le_gt_cases (nat_of_ascii b) 90) as [U|U]|].
      - exfalso. rewrite lower_char_upper in Eb by lia. assert (Z : nat_of_ascii (ascii_of_nat (nat_of_ascii b + 32)) = 46) by now rewrite Eb.
        rewrite nat_ascii_embedding in Z by lia. lia.
      - now rewrite lower_char_other in Eb by lia.
      - now rewrite lower_char_other in Eb by lia. }
    assert (Hy : ~ has "." y). { rewrite <- (lower_has y ".") by (vm_compute; lia). now rewrite Ey. }
    change (String a (r ++ String "." y)%string) with ((String a r ++ String "." y)%string). rewrite last_dot_app by exact Hy. cbn [lower]. now rewrite Ey, Eb.
Qed.

(** * Documents *)

(** The names in a list of includes. *)
Definition names (l : list json) : list string := flat_map (fun j => match j with JString s => [s] | _ => [] end) l.
Definition all_proper (inc : files) : Prop := forall f d, inc f = Some d -> proper d.

Lemma merge_none l : fold_left (fun o kv => match o with Some data => merge_item data kv | None => None end) l None = None.
Proof. induction l; auto. Qed.

Lemma skipn_cons {A} pos (l : list A) x : nth_error l pos = Some x -> skipn pos l = x :: skipn (S pos) l.
Proof. revert l. induction pos as [|pos IH]; intros [|y l] H; try discriminate; cbn in *; [congruence|now apply IH]. Qed.
Lemma nth_error_prefix {A} pos (l m : list A) x : nth_error l pos = Some x -> nth_error (l ++ m) pos = Some x.
Proof. intros H. rewrite nth_error_app1; [exact H|]. apply nth_error_Some. congruence. Qed.

(** A run of the loop: the documents of all names from [pos] on, as the list of includes is in the end. *)
Lemma load_includes_spec inc : all_proper inc -> forall fuel pos data data', load_includes fuel pos inc data = Ok data' ->
  exists docs more, Forall2 (fun f d => inc f = Some d) (names (skipn pos (list_at "includes" data'))) docs /\
    list_at "includes" data' = list_at "includes" data ++ more /\
    fold_left (fun o d => match o with Some x => merge d x | None => None end) docs (Some data) = Some data' /\
    Forall (fun j => exists s, j = JString s) (skipn pos (list_at "includes" data')).
Proof.
  intros AP. induction fuel as [|fuel IH]; intros pos data data' H; cbn [load_includes] in H.
  - destruct (get "includes" data) as [[]|] eqn:G; try discriminate.
    + destruct (nth_error l pos) as [j|] eqn:E.
      * destruct j; try discriminate. destruct (inc s); [|discriminate]. destruct (merge d data); discriminate.
      * injection H as <-. exists [], []. unfold list_at. rewrite G, skipn_all2 by (apply nth_error_None, E). repeat split; try constructor. now rewrite app_nil_r.
    + injection H as <-. exists [], []. unfold list_at. rewrite G, skipn_nil. repeat split; constructor.
  - destruct (get "includes" data) as [[]|] eqn:G; try discriminate.
    + destruct (nth_error l pos) as [j|] eqn:E.
      * destruct j; try discriminate. destruct (inc s) as [d|] eqn:F; [|discriminate]. destruct (merge d data) as [d1|] eqn:M; [|discriminate].
        destruct (IH (S pos) d1 data' H) as (docs & more & H1 & H2 & H3 & H4).
        assert (L : list_at "includes" d1 = l ++ list_at "includes" d). { rewrite (merge_list d data d1 "includes" (AP s d F) M). unfold list_at at 1. now rewrite G. }
        assert (X : nth_error (list_at "includes" data') pos = Some (JString s)). { rewrite H2, L. now do 2 apply nth_error_prefix. }
        exists (d :: docs), (list_at "includes" d ++ more). rewrite (skipn_cons _ _ _ X). split; [|split; [|split]].
        -- cbn [names flat_map app]. constructor; [exact F|exact H1].
        -- rewrite H2, L. unfold list_at at 2. now rewrite G, <- app_assoc.
        -- cbn [fold_left]. now rewrite M.
        -- constructor; [now exists s|exact H4].
      * injection H as <-. exists [], []. unfold list_at. rewrite G, skipn_all2 by (apply nth_error_None, E). repeat split; try constructor. now rewrite app_nil_r.
    + injection H as <-. exists [], []. unfold list_at. rewrite G, skipn_nil. repeat split; constructor.
Qed.

(** What the merges make of each key. *)
Lemma merges_list k docs : Forall proper docs -> forall data data',
  fold_left (fun o d => match o with Some x => merge d x | None => None end) docs (Some data) = Some data' -> list_at k data' = list_at k data ++ flat_map (list_at k) docs.
Proof.
  induction docs as [|d docs IH]; intros W data data' E; cbn [fold_left flat_map] in *.
  - injection E as <-. now rewrite app_nil_r.
  - apply Forall_cons_iff in W as [Wd W]. destruct (merge d data) as [d1|] eqn:M.
    + rewrite (IH W d1 data' E), (merge_list d data d1 k Wd M), <- app_assoc. reflexivity.
    + exfalso. clear - E. induction docs as [|x l IH]; cbn in E; [discriminate|auto].
Qed.
Lemma names_docs (inc : files) l : Forall (fun j => exists s, j = JString s) l -> forall docs, Forall2 (fun f d => inc f = Some d) (names l) docs ->
  Forall2 (fun j d => exists f, j = JString f /\ inc f = Some d) l docs.
Proof.
  intros N. induction N as [|j l [f ->] N IH]; intros docs F; cbn [names flat_map app] in F; inversion F as [|? d ? docs' X Y]; subst; constructor; [now exists f|]. now apply IH.
Qed.

Lemma get_update {V} n (e : dict V) : NoDup (map fst e) -> forall d, get n (update d e) = match get n e with Some v => Some v | None => get n d end.
Proof.
  induction e as [|[k v] e IH]; intros N d; [reflexivity|]. cbn [map fst] in N. apply NoDup_cons_iff in N as [N1 N2]. unfold update in *. cbn [fold_left fst snd get].
  rewrite IH by exact N2. rewrite get_put. destruct (String.eqb_spec k n) as [->|]; [|reflexivity].
  destruct (get n e) as [w|] eqn:G; [|reflexivity]. exfalso. apply N1. apply get_in in G; [|exact N2]. apply in_map_iff. exists (n, w). auto.
Qed.
Lemma merge_item_entries data k v data' k' n : (match v with JDict e => NoDup (map fst e) | _ => True end) -> merge_item data (k, v) = Some data' ->
  get n (entries k' data') = match (if String.eqb k k' then match v with JDict e => get n e | _ => None end else None) with Some w => Some w | None => get n (entries k' data) end.
Proof.
  intros N. unfold merge_item, entries. destruct v; try discriminate; destruct (get k data) as [[]|] eqn:G; try discriminate; intros [= <-]; rewrite get_put;
    destruct (String.eqb_spec k k') as [->|]; rewrite ?G; try reflexivity.
  - now rewrite get_update by exact N.
  - cbn [get]. destruct (get n d); reflexivity.
Qed.
Lemma merge_entries include : well_formed include -> forall data data' k n, merge include data = Some data' ->
  get n (entries k data') = match get n (entries k include) with Some w => Some w | None => get n (entries k data) end.
Proof.
  intros [P W]. unfold merge. induction include as [|[k0 v0] include IH]; intros data data' k n H; cbn [fold_left] in H.
  - now injection H as <-.
  - cbn [map fst] in P. apply NoDup_cons_iff in P as [P1 P2]. destruct (merge_item data (k0, v0)) as [d1|] eqn:E; [|rewrite merge_none in H; discriminate].
    assert (W' : forall k, NoDup (map fst (entries k include))).
    { intros k'. destruct (String.eqb_spec k0 k') as [->|N].
      - assert (get k' include = None) as X; [|unfold entries; rewrite X; constructor]. destruct (get k' include) as [v|] eqn:G; [|reflexivity].
        exfalso. apply P1. apply get_in in G; [|exact P2]. apply in_map_iff. exists (k', v). auto.
      - specialize (W k'). unfold entries in *. cbn [get] in W. destruct (String.eqb_spec k0 k'); [contradiction|exact W]. }
    rewrite (IH P2 W' d1 data' k n H). assert (N0 : match v0 with JDict e => NoDup (map fst e) | _ => True end).
    { specialize (W k0). unfold entries in W. cbn [get] in W. rewrite String.eqb_refl in W. destruct v0; auto. }
    rewrite (merge_item_entries data k0 v0 d1 k n N0 E). unfold entries at 3. cbn [get]. destruct (String.eqb_spec k0 k) as [->|N]; [|reflexivity].
    assert (G : get k include = None). { destruct (get k include) as [v|] eqn:G; [|reflexivity]. exfalso. apply P1. apply get_in in G; [|exact P2]. apply in_map_iff. exists (k, v). auto. }
    unfold entries at 1. rewrite G. cbn [get]. destruct v0; reflexivity.
Qed.
Lemma merges_entries k n docs : Forall well_formed docs -> forall data data',
  fold_left (fun o d => match o with Some x => merge d x | None => None end) docs (Some data) = Some data' ->
  said_last (map (entries k) docs) (entries k data) n (get n (entries k data')).
Proof.
  induction docs as [|d docs IH]; intros W data data' H; cbn [fold_left] in H.
  - injection H as <-. right. split; [reflexivity|]. intros e [].
  - apply Forall_cons_iff in W as [Wd W]. destruct (merge d data) as [d1|] eqn:M.
    2:{ exfalso. clear - H. induction docs as [|x l IH]; cbn in H; [discriminate|auto]. }
    destruct (IH W d1 data' H) as [(l1 & e & l2 & E & Nv & G & L)|[E L]].
    + left. exists (entries k d :: l1), e, l2. cbn [map]. rewrite E. auto.
    + rewrite (merge_entries d Wd data d1 k n M) in E. destruct (get n (entries k d)) as [w|] eqn:G.
      * left. exists [], (entries k d), (map (entries k) docs). split; [reflexivity|]. rewrite E. split; [discriminate|]. split; [exact G|exact L].
      * right. split; [exact E|]. intros x [<-|X]; auto.
Qed.

(** When a document can be merged. *)
Lemma merge_item_none data k v : merge_item data (k, v) = None <-> unsuitable data k v.
Proof.
  unfold merge_item, unsuitable, same_kind. destruct v; try (split; [intros _; left; tauto|reflexivity]); destruct (get k data) as [[]|] eqn:G;
    split; try discriminate; try reflexivity; try (intros _; right; eexists; split; [reflexivity|tauto]);
    intros [X|(w & X & Y)]; try tauto; try discriminate; assert (w = w) by reflexivity; inversion X; subst; tauto.
Qed.
Lemma merge_item_other data k v d1 k' : merge_item data (k, v) = Some d1 -> k <> k' -> get k' d1 = get k' data.
Proof.
  unfold merge_item. intros H N. assert (Hp : forall w, get k' (put k w data) = get k' data). { intros w. rewrite get_put. destruct (String.eqb_spec k k'); [contradiction|reflexivity]. }
  destruct v; try discriminate; destruct (get k data) as [[]|]; try discriminate; injection H as <-; apply Hp.
Qed.
Lemma merge_refused include data : proper include -> (merge include data = None <-> exists k v, In (k, v) include /\ unsuitable data k v).
Proof.
  unfold merge. revert data. induction include as [|[k0 v0] include IH]; intros data P; cbn [fold_left].
  - split; [discriminate|]. intros (k & v & [] & _).
  - apply NoDup_cons_iff in P as [P1 P2]. destruct (merge_item data (k0, v0)) as [d1|] eqn:E.
    + rewrite (IH d1 P2). assert (U : forall k v, In (k, v) include -> (unsuitable d1 k v <-> unsuitable data k v)).
      { intros k v Hk. unfold unsuitable. rewrite (merge_item_other data k0 v0 d1 k E); [tauto|]. intros ->. apply P1. apply in_map_iff. exists (k, v). auto. }
      split.
      * intros (k & v & Hi & Hu). exists k, v. split; [now right|]. now apply U.
      * intros (k & v & [Hi|Hi] & Hu); [|exists k, v; split; [exact Hi|now apply U]]. injection Hi as -> ->. apply merge_item_none in Hu. congruence.
    + rewrite merge_none. split; [|reflexivity]. intros _. exists k0, v0. split; [now left|]. now apply merge_item_none.
Qed.

(** Numbers, texts and nothing stay as they are. *)
Lemma merge_keeps include : forall data data' k v, merge include data = Some data' -> get k data = Some v -> ~ same_kind v v -> get k data' = Some v.
Proof.
  unfold merge. induction include as [|[k0 v0] include IH]; intros data data' k v H G N; cbn [fold_left] in H; [congruence|].
  destruct (merge_item data (k0, v0)) as [d1|] eqn:E; [|rewrite merge_none in H; discriminate]. apply (IH d1 data' k v H); [|exact N].
  destruct (String.eqb_spec k0 k) as [->|Ne]; [|now rewrite (merge_item_other data k0 v0 d1 k E)].
  exfalso. unfold merge_item in E. rewrite G in E. destruct v0; try discriminate; destruct v; try discriminate; apply N; exact I.
Qed.
Lemma merges_keep docs : forall data data' k v, fold_left (fun o d => match o with Some x => merge d x | None => None end) docs (Some data) = Some data' ->
  get k data = Some v -> ~ same_kind v v -> get k data' = Some v.
Proof.
  induction docs as [|d docs IH]; intros data data' k v H G N; cbn [fold_left] in H; [congruence|].
  destruct (merge d data) as [d1|] eqn:M; [|exfalso; clear - H; induction docs as [|x l IH]; cbn in H; [discriminate|auto]].
  apply (IH d1 data' k v H); [|exact N]. now apply (merge_keeps d data).
Qed.

(** The loop ends if the included documents do not include others. *)
Lemma load_includes_finishes inc : (forall f d, inc f = Some d -> proper d /\ get "includes" d = None) ->
  forall fuel pos data, List.length (list_at "includes" data) < pos + fuel + 1 -> load_includes fuel pos inc data <> Unfinished.
Proof.
  intros FL. induction fuel as [|fuel IH]; intros pos data L; cbn [load_includes]; unfold list_at in L.
  - destruct (get "includes" data) as [[]|] eqn:G; try discriminate. destruct (nth_error l pos) as [j|] eqn:E; [|discriminate].
    assert (nth_error l pos <> None) as X by congruence. apply nth_error_Some in X. lia.
  - destruct (get "includes" data) as [[]|] eqn:G; try discriminate. destruct (nth_error l pos) as [j|] eqn:E; [|discriminate].
    destruct j; try discriminate. destruct (inc s) as [d|] eqn:F; [|discriminate]. destruct (merge d data) as [d1|] eqn:M; [|discriminate].
    destruct (FL s d F) as [P I]. apply IH. rewrite (merge_list d data d1 "includes" P M). unfold list_at. rewrite G, I, app_nil_r. lia.
Qed.
