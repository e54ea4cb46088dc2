(** C129: what a schematic shows of a node. *)
From Coq Require Import Strings.Ascii Strings.String.
From Verif Require Import Base Schematic_model.
Local Open Scope string_scope.
Local Open Scope nat_scope.
Local Open Scope list_scope.

(** The attributes that are not for show, whatever their case. *)
Definition internal (name : string) : Prop :=
  (exists r, name = String "_"%char r) \/
  In (lower name) ["component_attrs"; "components"; "color"; "model"; "input"; "output"; "inputs"; "outputs"; "sub_domain"; "sub_output"; "sublinks"; "visible";
   "fully_qualified_name"; "allow_isolated"].
Inductive shows : value -> string -> Prop :=
| s_other t : shows (VOther t) t
| s_named n ty : n <> "" -> shows (VComponent (Some n) ty) (n ++ " - " ++ ty)%string
| s_unnamed ty : shows (VComponent None ty) ty
| s_no_name ty : shows (VComponent (Some "") ty) ty
| s_empty : shows (VList []) ""
| s_item x l t : shows (VList l) t -> shows (VList (x :: l)) (no_brackets x ++ t)%string.
(** The table: one row for each attribute that is for show and has a value, in the order of the attributes. *)
Inductive table : list (string * value) -> list (string * string) -> Prop :=
| t_nil : table [] []
| t_skip n v l t : internal n \/ v = VNone -> table l t -> table ((n, v) :: l) t
| t_row n v x l t : ~ internal n -> shows v x -> table l t -> table ((n, v) :: l) ((n, x) :: t).

Lemma app_assoc_s (a b c : string) : ((a ++ b) ++ c = a ++ (b ++ c))%string.
Proof. induction a as [|x a IH]; cbn; [reflexivity|]. rewrite IH. reflexivity. Qed.
Lemma fold_text l : forall s, fold_left (fun s x => (s ++ no_brackets x)%string) l s = (s ++ fold_left (fun s x => (s ++ no_brackets x)%string) l "")%string.
Proof.
  induction l as [|x l IH]; intros s; cbn [fold_left].
  - induction s as [|c s IHs]; cbn; [reflexivity|]. rewrite <- IHs. reflexivity.
  - rewrite IH, (IH ("" ++ no_brackets x)%string), app_assoc_s. reflexivity.
Qed.
Lemma shown_shows v : v <> VNone -> shows v (shown v).
Proof.
  intros N. destruct v as [|[n|] ty|l|t]; cbn; try (constructor; fail).
  - contradiction.
  - destruct n as [|c n]; [apply s_no_name|]. apply (s_named (String c n)). discriminate.
  - induction l as [|x l IH]; cbn [fold_left]; [apply s_empty|]. rewrite fold_text. apply (s_item x l). apply IH. discriminate.
Qed.
Lemma shows_unique v : forall x y, shows v x -> shows v y -> x = y.
Proof.
  destruct v as [|[n|] ty|l|t]; intros x y X Y.
  - inversion X.
  - inversion X; inversion Y; subst; congruence.
  - inversion X; inversion Y; subst; congruence.
  - revert x y X Y. induction l as [|a l IH]; intros x y X Y; inversion X; inversion Y; subst; [reflexivity|]. f_equal. apply IH; assumption.
  - inversion X; inversion Y; subst; congruence.
Qed.
Lemma private_spec n : private n = true <-> exists r, n = String "_"%char r.
Proof.
  destruct n as [|c r]; cbn; [split; [discriminate|intros [r H]; discriminate]|].
  destruct (Ascii.eqb_spec c "_"%char) as [->|N]; split; try discriminate; eauto. intros [r' H]. congruence.
Qed.
Lemma skip_spec n : existsb (String.eqb (lower n)) attrs_to_skip = true <-> In (lower n) attrs_to_skip.
Proof.
  rewrite existsb_exists. split; [intros (x & I & E); apply String.eqb_eq in E; subst; exact I|intros I; exists (lower n); split; [exact I|apply String.eqb_refl]].
Qed.

(** C129: the table is the one described, and there is no other. *)
Theorem C129_attributes : forall attrs t, get_node_attr attrs = t <-> table attrs t.
Proof.
  assert (S : forall attrs, table attrs (get_node_attr attrs)).
  { induction attrs as [|[n v] r IH]; cbn [get_node_attr]; [constructor|]. destruct (private n) eqn:P.
    - apply t_skip; [|exact IH]. left. left. apply private_spec, P.
    - destruct (existsb (String.eqb (lower n)) attrs_to_skip) eqn:E.
      + rewrite Bool.orb_true_r. apply t_skip; [|exact IH]. left. right. apply skip_spec, E.
      + assert (Q : ~ internal n). { intros [H|H]; [apply private_spec in H; congruence|]. apply skip_spec in H. congruence. }
        rewrite Bool.orb_false_r. destruct v; [apply t_skip; auto| | |]; (apply t_row; [exact Q|apply shown_shows; discriminate|exact IH]). }
  intros attrs t. split; [intros <-; apply S|]. intros T. specialize (S attrs). revert S. generalize (get_node_attr attrs). induction T as [|n v l t C T IH|n v x l t Q X T IH]; intros g S.
  - inversion S. reflexivity.
  - inversion S as [|? ? ? ? _ S'|? ? ? ? ? Q X S']; subst; [apply IH, S'|]. destruct C as [C|C]; [contradiction|]. subst. inversion X.
  - inversion S as [|? ? ? ? C S'|? ? ? ? ? _ Y S']; subst.
    + destruct C as [C|C]; [contradiction|]. subst. inversion X.
    + rewrite (shows_unique _ _ _ Y X). f_equal. apply IH, S'.
Qed.
Print Assumptions C129_attributes.

(** C129: of the text of an element just the brackets are left out; and lower case is the letter at the same place of the other alphabet. *)
Definition capitals : list ascii := list_ascii_of_string "ABCDEFGHIJKLMNOPQRSTUVWXYZ".
Definition smalls : list ascii := list_ascii_of_string "abcdefghijklmnopqrstuvwxyz".
Fixpoint swapped (c : ascii) (a b : list ascii) : ascii :=
  match a, b with x :: a, y :: b => if Ascii.eqb c x then y else swapped c a b | _, _ => c end.
Theorem C129_text : forall s,
  list_ascii_of_string (no_brackets s) = filter (fun c => negb (existsb (Ascii.eqb c) ["["%char; "]"%char])) (list_ascii_of_string s)
  /\ list_ascii_of_string (lower s) = map (fun c => swapped c capitals smalls) (list_ascii_of_string s).
Proof.
  induction s as [|c s [IH1 IH2]]; [split; reflexivity|]. split.
  - cbn [no_brackets list_ascii_of_string filter existsb]. rewrite Bool.orb_false_r. destruct (Ascii.eqb c "[" || Ascii.eqb c "]")%bool; cbn; rewrite IH1; reflexivity.
  - cbn [lower list_ascii_of_string map]. rewrite IH2. f_equal. destruct c as [[] [] [] [] [] [] [] []]; reflexivity.
Qed.
Print Assumptions C129_text.

(** Classes from a class up: the bases of each, and on from the last of them. *)
Inductive lineage (bases : nat -> list nat) : nat -> list nat -> Prop :=
| l_root c : bases c = [] -> lineage bases c []
| l_up c l b r : bases c = l ++ [b] -> lineage bases b r -> lineage bases c (l ++ b :: r).
Inductive ancestor (bases : nat -> list nat) : nat -> nat -> Prop :=
| a_base c b : In b (bases c) -> ancestor bases c b
| a_up c b a : In b (bases c) -> ancestor bases b a -> ancestor bases c a.

Lemma last_end {A} (l : list A) d : l = [] \/ exists i b, l = i ++ [b] /\ forall k, last (k ++ l) d = b.
Proof.
  destruct l as [|x l]; [left; reflexivity|right]. destruct (exists_last (l := x :: l) ltac:(discriminate)) as (i & b & ->). exists i, b. split; [reflexivity|].
  intros k. rewrite app_assoc. apply last_last.
Qed.
Lemma climb_lineage bases rank : (forall c b, In b (bases c) -> rank b < rank c) -> forall fuel c k, rank c < fuel -> last k c = c ->
  exists r, lineage bases c r /\ climb bases fuel c k = Some (k ++ r).
Proof.
  intros R. induction fuel as [|f IH]; intros c k F K; [lia|]. cbn [climb]. destruct (last_end (bases c) c) as [E|(i & b & E & L)].
  - exists []. split; [apply l_root, E|]. rewrite E, app_nil_r, K, Nat.eqb_refl. reflexivity.
  - assert (I : In b (bases c)) by (rewrite E; apply in_or_app; right; left; reflexivity). pose proof (R c b I) as Q.
    rewrite (L k). destruct (Nat.eqb_spec b c) as [->|N]; [lia|].
    destruct (IH b (k ++ bases c)) as (r & Y & C); [lia|rewrite E, app_assoc; apply last_last|].
    exists (i ++ b :: r). split; [apply l_up; assumption|]. rewrite C, E, <- !app_assoc. reflexivity.
Qed.
Lemma lineage_unique bases c : forall r, lineage bases c r -> forall r', lineage bases c r' -> r = r'.
Proof.
  intros r H. induction H as [c E|c l b r E H IH]; intros r' H'; inversion H' as [? E'|? l' b' q E' G]; subst.
  - reflexivity.
  - rewrite E in E'. destruct l'; discriminate.
  - rewrite E in E'. destruct l; discriminate.
  - rewrite E in E'. apply app_inj_tail in E'. destruct E' as [<- <-]. rewrite (IH _ G). reflexivity.
Qed.

(** C129: of a hierarchy without circles the search ends, and the classes are those of the lineage, the class itself last, in lower case. *)
Theorem C129_classes : forall bases rank name fuel c, (forall c b, In b (bases c) -> rank b < rank c) -> rank c < fuel ->
  forall t, class_tree bases name fuel c = Some t <-> exists r, lineage bases c r /\ t = (map (fun c => lower (name c)) (rev r) ++ [lower (name c)])%list.
Proof.
  intros bases rank name fuel c R F t. destruct (climb_lineage bases rank R fuel c [c] F eq_refl) as (r & L & C). unfold class_tree. rewrite C. cbn [option_map app rev]. rewrite map_app. cbn [map].
  split; [intros [= <-]; exists r; auto|]. intros (r' & L' & ->). rewrite (lineage_unique _ _ _ L _ L'). reflexivity.
Qed.
Print Assumptions C129_classes.

Lemma lineage_ancestor bases c r : lineage bases c r -> forall a, In a r -> ancestor bases c a.
Proof.
  induction 1 as [c E|c l b r E H IH]; intros a I; [destruct I|]. assert (B : In b (bases c)) by (rewrite E; apply in_or_app; right; left; reflexivity).
  apply in_app_iff in I. destruct I as [I|[<-|I]].
  - apply a_base. rewrite E. apply in_or_app. left. exact I.
  - apply a_base, B.
  - apply (a_up _ _ b); [exact B|apply IH, I].
Qed.
(** C129: only ancestors are among them; and all are, if every class has at most one base that is a node. *)
Theorem C129_ancestors : forall bases c r, lineage bases c r ->
  (forall a, In a r -> ancestor bases c a) /\ ((forall c, List.length (bases c) <= 1) -> forall a, ancestor bases c a -> In a r).
Proof.
  intros bases c r L. split; [apply lineage_ancestor, L|]. intros One. induction L as [c E|c l b r E H IH]; intros a A.
  - inversion A as [? ? I|? ? ? I]; subst; rewrite E in I; destruct I.
  - pose proof (One c) as O. rewrite E, app_length in O. cbn in O. destruct l; [|cbn in O; lia]. cbn in E |- *.
    inversion A as [? ? I|? d ? I A']; subst; rewrite E in I; destruct I as [<-|[]]; [left; reflexivity|right; apply IH, A'].
Qed.
Print Assumptions C129_ancestors.

Example schematic_example :
  get_node_attr [("_flow", VOther "1"); ("Model", VOther "m"); ("comment", VNone); ("cost", VOther "-2.0"); ("max_flow", VComponent (Some "demand") "ConstantParameter");
                 ("min_flow", VComponent None "MinParameter"); ("scenarios", VList ["[1]"; "b"])]
  = [("cost", "-2.0"); ("max_flow", "demand - ConstantParameter"); ("min_flow", "MinParameter"); ("scenarios", "1b")]
  /\ class_tree (fun c => match c with 2 => [1] | 1 => [0] | _ => [] end) (fun c => match c with 2 => "RiverGauge" | 1 => "PiecewiseLink" | _ => "Link" end) 3 2
     = Some ["link"; "piecewiselink"; "rivergauge"].
Proof. split; vm_compute; reflexivity. Qed.

(** Lists are run together: different ones read the same. *)
Theorem C129_lists_refuted : exists a b : list string, a <> b /\ (forall x, In x (a ++ b)%list -> x <> "" /\ no_brackets x = x)
  /\ get_node_attr [("factors", VList a)] = get_node_attr [("factors", VList b)].
Proof.
  exists ["12"; "3"], ["1"; "23"]. split; [discriminate|]. split; [|reflexivity]. intros x I. cbn in I. repeat destruct I as [<-|I]; try (split; [discriminate|reflexivity]). destruct I.
Qed.
Print Assumptions C129_lists_refuted.
(** With two bases that are nodes the ancestors of the first are missing. *)
Theorem C129_two_bases_refuted : exists bases c a r, lineage bases c r /\ ancestor bases c a /\ ~ In a r.
Proof.
  exists (fun c => match c with 3 => [1; 2] | 1 => [0] | _ => [] end), 3, 0, [1; 2]. split; [|split].
  - apply (l_up _ 3 [1] 2 []); [reflexivity|apply l_root; reflexivity].
  - apply (a_up _ 3 1 0); [left; reflexivity|]. apply a_base. left. reflexivity.
  - cbn. lia.
Qed.
Print Assumptions C129_two_bases_refuted.
