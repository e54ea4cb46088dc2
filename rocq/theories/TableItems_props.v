(** C115: what recorders of HDF files record where. *)
From Coq Require Import Strings.Ascii Strings.String.
From Verif Require Import Base Ring TableItems_model TableItems_spec TableItems_proofs.
Local Open Scope string_scope.
Local Open Scope nat_scope.
Local Open Scope list_scope.

Lemma all_some_forall2 {A B} (f : A -> option B) (P : A -> B -> Prop) l m : (forall a b, P a b -> f a = Some b) -> Forall2 P l m -> all_some f l = Some m.
Proof. intros H HF. induction HF as [|a b l m Hab HF IH]; cbn; [easy|]. now rewrite (H _ _ Hab), IH. Qed.
Lemma all_some_none {A B} (f : A -> option B) l a : In a l -> f a = None -> all_some f l = None.
Proof. induction l as [|b l IH]; [intros []|]. intros [->|Hin] E; cbn; [now rewrite E|]. destruct (f b); [|easy]. now rewrite (IH Hin E). Qed.
Lemma all_some_app {A B} (f : A -> option B) l m : all_some f (l ++ m) = match all_some f l, all_some f m with Some a, Some b => Some (a ++ b) | _, _ => None end.
Proof.
  induction l as [|a l IH]; cbn; [now destruct (all_some f m)|]. rewrite IH. destruct (f a); [|easy].
  destruct (all_some f l); [|easy]. now destruct (all_some f m).
Qed.

(** ** Names are looked up and recorded by them in the default group, unless they come with a path; the parameters after the nodes, and in the order given. *)
Section World.
Variable c : class.
Variable all_nodes : list nat.
Variable node : string -> option nat.
Variable par : string -> option nat.
Variable name_of : nat -> option string.
Notation collected := (collected c all_nodes node par name_of).
Let place (sw : string * nat) : option (path * nat) := option_map (fun p => (p, snd sw)) (place_of c (fst sw)).

Lemma node_wanted base g0 i pw : denotes base g0 -> wanted_node node g0 i pw -> exists sw, node_item node base i = Some sw /\ place sw = Some pw.
Proof.
  intros Hb H. unfold place. destruct H as [s n Hs Hl Hn|w g s n Hne Hw Hn|w g n Hne Hw]; unfold node_item.
  - rewrite (unpack_text s Hl), Hn. eexists. split; [reflexivity|]. cbn [fst snd]. now rewrite (default_place c base g0 s Hb Hs).
  - cbn [unpack]. rewrite Hn. eexists. split; [reflexivity|]. cbn [fst snd]. now rewrite (own_place c w g Hne Hw).
  - cbn [unpack]. eexists. split; [reflexivity|]. cbn [fst snd]. now rewrite (own_place c w g Hne Hw).
Qed.
Lemma par_wanted base g0 i pw : denotes base g0 -> wanted_par par name_of g0 i pw -> exists sw, par_item par name_of base i = Some sw /\ place sw = Some pw.
Proof.
  intros Hb H. unfold place. destruct H as [s n s' t Hl Hn Hm Hs Ht|n s t Hm Hs Ht|w g s n s' Hne Hw Hn Hm Hs|w g n s Hne Hw Hm Hs]; unfold par_item.
  - rewrite (unpack_text s Hl), Hn, Hm. destruct s' as [|x s']; [contradiction|]. eexists. split; [reflexivity|]. cbn [fst snd].
    rewrite <- (proj1 (underscored_spec _ _) Ht). now rewrite (default_place c base g0 t Hb (underscored_plain _ _ Hs Ht)).
  - cbn [unpack]. rewrite Hm. destruct s as [|x s]; [contradiction|]. eexists. split; [reflexivity|]. cbn [fst snd].
    rewrite <- (proj1 (underscored_spec _ _) Ht). now rewrite (default_place c base g0 t Hb (underscored_plain _ _ Hs Ht)).
  - cbn [unpack fst snd]. rewrite Hn, Hm. destruct s' as [|x s']; [contradiction|]. eexists. split; [reflexivity|]. cbn [fst snd]. now rewrite (own_place c w g Hne Hw).
  - cbn [unpack fst snd]. rewrite Hm. destruct s as [|x s]; [contradiction|]. eexists. split; [reflexivity|]. cbn [fst snd]. now rewrite (own_place c w g Hne Hw).
Qed.
Lemma two_steps {A} (f : A -> option (string * nat)) (P : A -> path * nat -> Prop) l m :
  (forall i pw, P i pw -> exists sw, f i = Some sw /\ place sw = Some pw) -> Forall2 P l m -> exists k, all_some f l = Some k /\ all_some place k = Some m.
Proof.
  intros H HF. induction HF as [|i pw l m Hi HF (k & Ek & Em)]; [now exists []|]. destruct (H i pw Hi) as (sw & Es & Ep).
  exists (sw :: k). cbn. now rewrite Es, Ek, Ep, Em.
Qed.
Theorem C115_collected base g0 nodes pars ln lp : denotes base g0 ->
  Forall2 (wanted_node node g0) nodes ln -> Forall2 (wanted_par par name_of g0) pars lp -> collected base (Some nodes) pars = Some (ln ++ lp).
Proof.
  intros Hb Hn Hp. unfold TableItems_model.collected, all_items. cbn [node_items].
  destruct (two_steps (node_item node base) _ _ _ (fun i pw => node_wanted base g0 i pw Hb) Hn) as (k & -> & Ek).
  destruct (two_steps (par_item par name_of base) _ _ _ (fun i pw => par_wanted base g0 i pw Hb) Hp) as (k' & -> & Ek').
  change (all_some place (k ++ k') = Some (ln ++ lp)). now rewrite all_some_app, Ek, Ek'.
Qed.
(** Without a list of nodes, all nodes are recorded by their names. *)
Theorem C115_all_nodes base g0 pars ln lp : denotes base g0 ->
  Forall2 (fun n pw => exists s, name_of n = Some s /\ plain s /\ pw = (g0 ++ [s], n)) all_nodes ln -> Forall2 (wanted_par par name_of g0) pars lp ->
  collected base None pars = Some (ln ++ lp).
Proof.
  intros Hb Hn Hp. unfold TableItems_model.collected, all_items. cbn [node_items].
  destruct (two_steps (fun n => option_map (fun s => (single_slashes (base ++ "/" ++ s)%string, n)) (name_of n)) _ _ _
    (fun n pw (H : exists s, name_of n = Some s /\ plain s /\ pw = (g0 ++ [s], n)) =>
       match H with ex_intro _ s (conj E (conj Hs Epw)) =>
         ex_intro _ (single_slashes (base ++ "/" ++ s)%string, n)
           (conj (eq_trans (f_equal (option_map _) E) eq_refl)
                 (eq_trans (f_equal (option_map (fun p => (p, n))) (default_place c base g0 s Hb Hs)) (f_equal Some (eq_sym Epw)))) end) Hn) as (k & -> & Ek).
  destruct (two_steps (par_item par name_of base) _ _ _ (fun i pw => par_wanted base g0 i pw Hb) Hp) as (k' & -> & Ek').
  change (all_some place (k ++ k') = Some (ln ++ lp)). now rewrite all_some_app, Ek, Ek'.
Qed.
(** What is not in the model is refused. *)
Theorem C115_unknown base nodes pars s : (In (IText s) nodes /\ String.length s <> 2 \/ exists w, In (ISeq [w; AText s]) nodes) -> node s = None ->
  collected base (Some nodes) pars = None.
Proof.
  intros H E. unfold TableItems_model.collected, all_items. cbn [node_items].
  assert (Hn : all_some (node_item node base) nodes = None); [|now rewrite Hn].
  destruct H as [[Hin Hl]|[w Hin]]; apply (all_some_none _ _ _ Hin); unfold node_item.
  - now rewrite (unpack_text s Hl), E.
  - cbn [unpack]. destruct w; [now rewrite E | easy | easy].
Qed.
End World.
Print Assumptions C115_collected.
Print Assumptions C115_all_nodes.
Print Assumptions C115_unknown.

(** ** The file is prepared exactly if no two arrays (or the table of scenarios) are to be at the same place or one beneath the other. *)
Theorem C115_prepared A (fill : A) c sort_of items scen n :
  (exists f, setup fill c sort_of n items scen [] = Some f) <-> apart (cells c sort_of items ++ maybe scen).
Proof.
  split; [intros [f H]; now apply setup_spec in H|]. intros H. eexists. apply setup_spec. split; [exact H | reflexivity].
Qed.
Print Assumptions C115_prepared.

(** ** After any number of runs the file has, for each thing at its last place, the values of the last run, one row for each timestep. *)
Theorem C115_recorded A (fill : A) c sort_of items scen times others n f0 vs v :
  apart (cells c sort_of items ++ maybe scen ++ maybe times ++ others) -> setup fill c sort_of n items scen [] = Some f0 ->
  exists f, steps (fun v => run c sort_of items times others v n) (vs ++ [v]) f0 = Some f
    /\ (forall w p below quantity, last_place items w p -> In (below, quantity) (quantities c (sort_of w)) ->
          at_path (p ++ below) f = Some (Arr (map (fun t => v t w quantity) (seq 0 n))))
    /\ (forall p, times = Some p -> at_path p f = Some (Times (seq 0 n))).
Proof.
  intros Ha Hs. destruct (runs_inv fill c sort_of items scen times others n Ha f0 v vs) as (f & E & _ & (F1 & F2 & _)).
  - exact (setup_inv fill c sort_of items scen times others n Ha f0 Hs).
  - exists f. split; [exact E|]. split; [|exact F2]. intros w p below quantity Hl Hq. apply F1. apply in_written. exists p, (below, quantity). easy.
Qed.
Print Assumptions C115_recorded.
(** So everything is recorded, if nothing is to be recorded twice. *)
Theorem C115_everything A (fill : A) c sort_of items scen times others n f0 vs v :
  apart (cells c sort_of items ++ maybe scen ++ maybe times ++ others) -> setup fill c sort_of n items scen [] = Some f0 -> NoDup (map snd items) ->
  exists f, steps (fun v => run c sort_of items times others v n) (vs ++ [v]) f0 = Some f
    /\ forall w p below quantity, In (p, w) items -> In (below, quantity) (quantities c (sort_of w)) ->
          at_path (p ++ below) f = Some (Arr (map (fun t => v t w quantity) (seq 0 n))).
Proof.
  intros Ha Hs Hn. destruct (C115_recorded A fill c sort_of items scen times others n f0 vs v Ha Hs) as (f & E & F & _). exists f. split; [exact E|].
  intros w p below quantity Hin. apply F. apply in_split in Hin. destruct Hin as (b & a & ->). exists b, a. split; [easy|].
  rewrite map_app in Hn. cbn in Hn. apply NoDup_remove_2 in Hn. intros H. apply Hn, in_or_app. now right.
Qed.
Print Assumptions C115_everything.
(** Nothing else is in the file. *)
Theorem C115_nothing_else A (fill : A) c sort_of items scen times others n f0 vs v f q :
  apart (cells c sort_of items ++ maybe scen ++ maybe times ++ others) -> setup fill c sort_of n items scen [] = Some f0 ->
  steps (fun v => run c sort_of items times others v n) (vs ++ [v]) f0 = Some f -> at_path q f <> None ->
  In q (cells c sort_of items ++ maybe scen ++ maybe times ++ others).
Proof.
  intros Ha Hs E Hq. destruct (runs_inv fill c sort_of items scen times others n Ha f0 v vs) as (f' & E' & (Hk & _) & _).
  - exact (setup_inv fill c sort_of items scen times others n Ha f0 Hs).
  - assert (f' = f) by congruence. subst f'. apply Hk. now apply at_key.
Qed.
Print Assumptions C115_nothing_else.
(** What is to be recorded at two places is not at the first of them: the array there stays as it was made. *)
Theorem C115_earlier A (fill : A) c sort_of items scen times others n f0 vs v before p w after below quantity :
  apart (cells c sort_of items ++ maybe scen ++ maybe times ++ others) -> setup fill c sort_of n items scen [] = Some f0 ->
  items = before ++ (p, w) :: after -> In w (map snd after) -> In (below, quantity) (quantities c (sort_of w)) ->
  exists f, steps (fun v => run c sort_of items times others v n) (vs ++ [v]) f0 = Some f /\ at_path (p ++ below) f = Some (Arr (repeat fill n)).
Proof.
  intros Ha Hs Ei Hin Hq. destruct (runs_inv fill c sort_of items scen times others n Ha f0 v vs) as (f & E & (_ & _ & _ & Hu) & _).
  - exact (setup_inv fill c sort_of items scen times others n Ha f0 Hs).
  - exists f. split; [exact E|].
    assert (Hcell : In (p ++ below) (cells c sort_of items)).
    { apply in_cells. exists p, w, (below, quantity). split; [|easy]. rewrite Ei. apply in_or_app. right. now left. }
    apply Hu; [exact Hcell|]. intros H. apply in_map_iff in H. destruct H as ([q [w' a]] & Eq & H). cbn in Eq. subst q.
    apply in_written in H. destruct H as (p' & ca & Hl & Hca & Ep & _).
    pose proof (cells_nodup c sort_of items scen times others Ha) as Hnd.
    (* the two places are one: the cells of different items are different *)
    assert (Hsame : (p', w') = (p, w)).
    { destruct (list_eq_dec string_dec p' p) as [Hp|Hp]; [destruct (Nat.eq_dec w' w) as [Hw|Hw]; [congruence|]|]; exfalso;
        (apply (nodup_flat_apart (spots c sort_of) items (p', w') (p, w) (p ++ below) Hnd);
         [exact (last_place_in items w' p' Hl) | rewrite Ei; apply in_or_app; right; now left | congruence
         | unfold spots; apply in_map_iff; exists ca; cbn; now rewrite Ep | unfold spots; apply in_map_iff; exists (below, quantity); easy]). }
    assert (p' = p) by congruence. assert (w' = w) by congruence. subst p' w'. destruct Hl as (b & a' & Ei' & Hna).
    (* (p, w) is in [items] once *)
    assert (Hit : NoDup items).
    { clear -Hnd. unfold cells in Hnd. induction items as [|pw l IH]; [constructor|]. cbn in Hnd. apply nodup_app_parts in Hnd. destruct Hnd as (_ & Hl & Hd).
      constructor; [|now apply IH]. intros Hin. destruct (quantities c (sort_of (snd pw))) as [|ca cs] eqn:E; [destruct c, (sort_of (snd pw)); discriminate|].
      apply (Hd (fst pw ++ fst ca)); [now left|]. apply in_flat_map. exists pw. split; [exact Hin|]. rewrite E. now left. }
    assert (Hba : before = b /\ after = a').
    { rewrite Ei in Hit, Ei'. clear -Hit Ei'. revert b Ei'. induction before as [|x before IH]; intros [|y b] E; cbn in *.
      - split; [easy | congruence].
      - exfalso. assert (y = (p, w)) by congruence. subst y. inversion Hit as [|? ? Hni _]; subst. apply Hni. assert (after = b ++ (p, w) :: a') by congruence. subst after. apply in_or_app. right. now left.
      - exfalso. assert (x = (p, w)) by congruence. subst x. inversion Hit as [|? ? Hni _]; subst. apply Hni. apply in_or_app. right. now left.
      - assert (x = y) by congruence. subst y. inversion Hit; subst. destruct (IH H2 b) as [-> ->]; [congruence | easy]. }
    destruct Hba as [_ <-]. contradiction.
Qed.
Print Assumptions C115_earlier.

(** * What one might expect and is not so *)

Definition nodes' (s : string) : option nat := if String.eqb s "river" then Some 1 else if String.eqb s "S1" then Some 2 else if String.eqb s "time" then Some 3 else None.
Definition pars' (s : string) : option nat := if String.eqb s "ab" then Some 11 else if String.eqb s "b" then Some 12 else if String.eqb s "x/y" then Some 13 else if String.eqb s "x_y" then Some 14 else None.
Definition names' (n : nat) : option string :=
  match n with 1 => Some "river" | 2 => Some "S1" | 3 => Some "time" | 11 => Some "ab" | 12 => Some "b" | 13 => Some "x/y" | 14 => Some "x_y" | _ => None end.
Definition sorts' (n : nat) : sort := if n <? 10 then Flow else Value.
Notation collected' c := (collected c [1; 2; 3] nodes' pars' names').

(** A name of two letters is taken for a path and a name: the node S1 cannot be recorded by its name, *)
Theorem C115_two_letters_refuted : exists s n, nodes' s = Some n /\ plain s /\ (forall c, collected' c "/" (Some [IText s]) [] = None)
  /\ collected' First "/" (Some [ISeq [AText "/S1"; AText s]]) [] = Some [(["S1"], n)].
Proof.
  exists "S1", 2. split; [reflexivity|]. split; [apply plain_slashless; split; [discriminate|]; cbn; repeat split; discriminate|].
  split; [intros []; reflexivity | reflexivity].
Qed.
Print Assumptions C115_two_letters_refuted.
(** and nor can the node itself be given without a path, contrary to what is documented and to what is done for parameters. *)
Theorem C115_node_itself_refuted : (forall c, collected' c "/" (Some [IObj 1]) [] = None) /\ collected' First "/" (Some []) [IObj 11] = Some [(["ab"], 11)].
Proof. split; [intros []; reflexivity | reflexivity]. Qed.
Print Assumptions C115_node_itself_refuted.
(** Slashes in the names of parameters are replaced, so that two parameters may be at the same place, whereas nodes with slashes in their names are put into groups. *)
Theorem C115_slashes_refuted : exists items, collected' First "/" (Some []) [IText "x/y"; IText "x_y"] = Some items /\ map snd items = [13; 14]
  /\ setup 0 First sorts' 2 items None [] = None.
Proof. eexists. split; [reflexivity|]. split; reflexivity. Qed.
Print Assumptions C115_slashes_refuted.
(** A node by the name of the table of times: the file is prepared, and the run fails. *)
Theorem C115_time_refuted : exists items f, collected' First "/" (Some [IText "time"]) [] = Some items /\ setup 0 First sorts' 2 items (Some ["scenarios"]) [] = Some f
  /\ forall others v, run First sorts' items (Some ["time"]) others v 2 f = None.
Proof.
  do 2 eexists. split; [reflexivity|]. split; [reflexivity|]. intros others v. unfold run.
  destruct (reset (Some ["time"]) others _) as [f|] eqn:E; [|easy]. cbn [seq steps]. unfold after at 1. cbn [handles fold_left put_handle fst snd].
  destruct (at_path ["time"] f) as [[l|l|]|] eqn:Ea; try easy. cbn [sorts' Nat.ltb Nat.leb columns steps fst snd app]. unfold write at 1.
  rewrite at_set, path_eqb_refl, Ea. easy.
Qed.
Print Assumptions C115_time_refuted.
(** A node with two places is at one of them only. *)
Theorem C115_twice_refuted : exists items v f0 f, items = [(["a"], 1); (["b"], 1)] /\ setup 0 First sorts' 2 items None [] = Some f0
  /\ run First sorts' items None [] v 2 f0 = Some f /\ at_path ["a"] f = Some (Arr [0; 0]) /\ at_path ["b"] f = Some (Arr [5; 6]).
Proof. exists [(["a"], 1); (["b"], 1)], (fun t _ _ => 5 + t). do 2 eexists. repeat (split; [reflexivity|]). reflexivity. Qed.
Print Assumptions C115_twice_refuted.

(** At the root itself TablesRecorder2 puts the arrays of a node; TablesRecorder refuses it, as an array needs a name. *)
Theorem C115_root : forall all_nodes node par name_of base w s n, w = "/" \/ w = "" -> node s = Some n ->
  TableItems_model.collected Second all_nodes node par name_of base (Some [ISeq [AText w; AText s]]) [] = Some [([], n)] /\
  TableItems_model.collected First all_nodes node par name_of base (Some [ISeq [AText w; AText s]]) [] = None.
Proof.
  intros all_nodes node par name_of base w s n Hw Hn. unfold TableItems_model.collected, all_items, node_items.
  cbn [all_some]. unfold node_item. cbn [unpack]. rewrite Hn. destruct Hw; subst w; split; reflexivity.
Qed.
Print Assumptions C115_root.

(** * Examples *)

Example ex_collected : collected' First "/flows" (Some [IText "river"; ISeq [AText "/x/y"; AText "S1"]; ISeq [AText "//z"; AObj 3]]) [IObj 13; ISeq [ANone; AText "b"]]
  = Some [(["flows"; "river"], 1); (["x"; "y"], 2); (["z"], 3); (["flows"; "x_y"], 13); (["flows"; "b"], 12)].
Proof. reflexivity. Qed.
Example ex_default : denotes "/" [] /\ denotes "/a/b" ["a"; "b"].
Proof.
  split; (split; [|try (left; easy)]).
  - constructor.
  - constructor; [|constructor; [|constructor]]; apply plain_slashless; (split; [discriminate|]); cbn; repeat split; discriminate.
  - right. split; [discriminate | reflexivity].
Qed.
Example ex_wanted : Forall2 (wanted_node nodes' []) [IText "river"; ISeq [AText "/x"; AText "S1"]] [(["river"], 1); (["x"], 2)].
Proof.
  constructor; [|constructor; [|constructor]].
  - apply (node_by_name nodes' [] "river" 1); [|cbn; lia | reflexivity]. apply plain_slashless. split; [discriminate|]. cbn. repeat split; discriminate.
  - apply (node_name_at nodes' [] "/x" ["x"] "S1" 2); [discriminate| |reflexivity]. split; [|right; split; [discriminate | reflexivity]].
    constructor; [|constructor]. apply plain_slashless. split; [discriminate|]. cbn. repeat split; discriminate.
Qed.
Example ex_run : exists f0 f, setup 0 Second sorts' 2 [(["river"], 1); (["p"], 11)] (Some ["scenarios"]) [] = Some f0
  /\ run Second sorts' [(["river"], 1); (["p"], 11)] (Some ["time"]) [] (fun t w a => 100 * w + String.length a + t) 2 f0 = Some f
  /\ at_path ["river"; "flow"] f = Some (Arr [104; 105]) /\ at_path ["river"; "max_flow"] f = Some (Arr [108; 109]) /\ at_path ["p"; "parameter"] f = Some (Arr [1109; 1110])
  /\ at_path ["time"] f = Some (Times [0; 1]) /\ at_path ["scenarios"] f = Some Tab.
Proof. do 2 eexists. repeat (split; [reflexivity|]). reflexivity. Qed.
(** One array beneath another is refused. *)
Example ex_beneath : setup 0 First sorts' 2 [(["a"], 1); (["a"; "b"], 2)] None [] = None.
Proof. reflexivity. Qed.
