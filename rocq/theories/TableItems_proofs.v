(** Lemmas about the items of recorders of HDF files. *)
From Coq Require Import Strings.Ascii Strings.String.
From Verif Require Import Base Ring Tables_proofs TableItems_model TableItems_spec.
Local Open Scope string_scope.
Local Open Scope nat_scope.
Local Open Scope list_scope.

(** * Texts *)

Lemma app_assoc_s a b c : (a ++ (b ++ c) = (a ++ b) ++ c)%string.
Proof. induction a as [|x a IH]; cbn; [easy | now rewrite IH]. Qed.
Lemma app_nil_s a : (a ++ "" = a)%string.
Proof. induction a as [|x a IH]; cbn; [easy | now rewrite IH]. Qed.

Fixpoint slashless (s : string) : Prop := match s with EmptyString => True | String a s => a <> "/"%char /\ slashless s end.
Lemma plain_slashless s : plain s <-> s <> "" /\ slashless s.
Proof.
  unfold plain. split; intros [H1 H2]; (split; [exact H1|]); clear H1.
  - induction s as [|a s IH]; [exact I|]. split.
    + intros ->. exact (H2 "" s eq_refl).
    + apply IH. intros x y E. apply (H2 (String a x) y). cbn. now rewrite E.
  - induction s as [|a s IH]; intros x y E; [destruct x; discriminate|]. destruct H2 as [Ha H2]. destruct x as [|b x].
    + cbn in E. injection E as E _. contradiction.
    + cbn in E. injection E as _ E. exact (IH H2 x y E).
Qed.
Lemma text_app g h : text (g ++ h) = (text g ++ text h)%string.
Proof. induction g as [|p g IH]; cbn; [easy|]. now rewrite IH, app_assoc_s. Qed.
Lemma parts_app p s g : slashless p -> parts s = "" :: g -> parts (p ++ s)%string = p :: g.
Proof.
  induction p as [|a p IH]; intros Hp Hs; [exact Hs|]. destruct Hp as [Ha Hp]. cbn. destruct (Ascii.eqb_spec a "/") as [E|E]; [contradiction|].
  now rewrite (IH Hp Hs).
Qed.
Lemma parts_text g : Forall plain g -> parts (text g) = "" :: g.
Proof.
  induction g as [|p g IH]; intros H; [reflexivity|]. inversion H as [|? ? Hp Hg]; subst. apply plain_slashless in Hp. destruct Hp as [_ Hp].
  cbn. now rewrite (parts_app p (text g) g Hp (IH Hg)).
Qed.
Lemma singles_slashless p s : slashless p -> single_slashes s = s -> single_slashes (p ++ s)%string = (p ++ s)%string.
Proof.
  induction p as [|a p IH]; intros Hp Hs; [exact Hs|]. destruct Hp as [Ha Hp]. cbn [append single_slashes]. specialize (IH Hp Hs).
  destruct (p ++ s)%string as [|b r]; [reflexivity|]. destruct (Ascii.eqb_spec a "/") as [E|E]; [contradiction|]. cbn [andb]. now rewrite IH.
Qed.
Lemma singles_text g : Forall plain g -> single_slashes (text g) = text g.
Proof.
  induction g as [|p g IH]; intros H; [reflexivity|]. inversion H as [|? ? Hp Hg]; subst. apply plain_slashless in Hp. destruct Hp as [Hne Hp].
  pose proof (singles_slashless p (text g) Hp (IH Hg)) as E. cbn [text append]. destruct p as [|a p]; [contradiction|]. destruct Hp as [Ha Hp].
  cbn [append] in E |- *. change (single_slashes (String "/" (String a (p ++ text g)))) with
    (if Ascii.eqb "/" "/" && Ascii.eqb a "/" then String "/" (single_slashes (p ++ text g)) else String "/" (single_slashes (String a (p ++ text g)))).
  destruct (Ascii.eqb_spec a "/") as [E1|E1]; [contradiction|]. rewrite andb_false_r. now rewrite E.
Qed.
Lemma path_text g : g <> [] -> Forall plain g -> path_of (text g) = Some g.
Proof.
  intros Hne H. unfold path_of. rewrite (parts_text g H). destruct g as [|p g]; [contradiction|].
  replace (forallb nonempty (p :: g)) with true; [reflexivity|]. symmetry. apply forallb_forall. intros x Hx. rewrite Forall_forall in H.
  destruct (H x Hx) as [Hn _]. destruct x; [contradiction | reflexivity].
Qed.
Lemma place_text c g : g <> [] -> Forall plain g -> place_of c (text g) = Some g.
Proof.
  intros Hne H. destruct c; cbn [place_of]; [now apply path_text|]. unfold group_of.
  destruct (String.eqb_spec (text g) "") as [E|E]; [destruct g; [contradiction | discriminate]|].
  destruct (String.eqb_spec (text g) "/") as [E'|E']; [|now apply path_text]. exfalso. destruct g as [|p g]; [contradiction|].
  inversion H as [|? ? Hp Hg]; subst. destruct Hp as [Hp _]. destruct p; [contradiction|]. discriminate.
Qed.
(** A name in the default group. *)
Lemma default_place c w g s : denotes w g -> plain s -> place_of c (single_slashes (w ++ "/" ++ s)%string) = Some (g ++ [s]).
Proof.
  intros [Hg Hw] Hs.
  assert (Hall : Forall plain (g ++ [s])) by (apply Forall_app; auto).
  assert (Hne : g ++ [s] <> []) by (destruct g; discriminate).
  rewrite <- (place_text c (g ++ [s]) Hne Hall). f_equal. destruct Hw as [[-> ->]|[_ ->]].
  - cbn [app text append]. rewrite app_nil_s. change (String "/" (single_slashes s) = String "/" s). f_equal.
    pose proof (singles_slashless s "") as E. rewrite app_nil_s in E. apply E; [|reflexivity]. now apply plain_slashless.
  - replace (text g ++ "/" ++ s)%string with (text (g ++ [s])); [now apply singles_text|]. rewrite text_app. cbn [text append]. now rewrite app_nil_s.
Qed.
Lemma own_place c w g : g <> [] -> denotes w g -> place_of c (single_slashes w) = Some g.
Proof. intros Hne [Hg [[E _]|[_ ->]]]; [contradiction|]. rewrite singles_text by exact Hg. now apply place_text. Qed.

Lemma underscored_spec s t : underscored s t <-> t = no_slashes s.
Proof.
  unfold underscored. revert t. induction s as [|a s IH]; intros t.
  - split; [intros [H _]; destruct t; [easy | discriminate] | intros ->; split; [easy|]; intros [|i]; reflexivity].
  - split.
    + intros [Hl Hi]. destruct t as [|b t]; [discriminate|]. cbn. f_equal.
      * specialize (Hi 0). cbn in Hi. destruct (Ascii.eqb_spec a "/") as [->|E]; [congruence|].
        destruct a as [[] [] [] [] [] [] [] []]; try congruence; exfalso; now apply E.
      * apply IH. split; [cbn in Hl; lia|]. intros i. exact (Hi (S i)).
    + intros ->. destruct (proj2 (IH (no_slashes s)) eq_refl) as [Hl Hi]. split; [cbn; lia|]. intros [|i]; [|exact (Hi i)]. cbn.
      destruct (Ascii.eqb_spec a "/") as [->|E]; [reflexivity|]. destruct a as [[] [] [] [] [] [] [] []]; try reflexivity; exfalso; now apply E.
Qed.
Lemma underscored_plain s t : s <> "" -> underscored s t -> plain t.
Proof.
  intros Hs H. apply underscored_spec in H. subst t. apply plain_slashless. split; [destruct s; [contradiction | discriminate]|]. clear Hs.
  induction s as [|a s IH]; cbn; [exact I|]. split; [|exact IH]. destruct (Ascii.eqb_spec a "/") as [_|E]; [discriminate | exact E].
Qed.
Lemma unpack_text s : String.length s <> 2 -> unpack (IText s) = None.
Proof. intros H. destruct s as [|a [|b [|x s]]]; try reflexivity. cbn in H. lia. Qed.

(** * Paths *)

Lemma path_eqb_spec p q : path_eqb p q = true <-> p = q.
Proof. unfold path_eqb. destruct (list_eq_dec string_dec p q); split; congruence. Qed.
Lemma path_eqb_refl p : path_eqb p p = true.
Proof. now apply path_eqb_spec. Qed.
Lemma path_eqb_no p q : p <> q -> path_eqb p q = false.
Proof. intros H. destruct (path_eqb p q) eqn:E; [apply path_eqb_spec in E; contradiction | easy]. Qed.
Lemma starts_spec p : forall q, starts p q = true <-> within p q.
Proof.
  unfold within. induction p as [|a p IH]; intros q; cbn.
  - split; [intros _; now exists q | easy].
  - destruct q as [|b q]; [split; [discriminate | intros [r H]; discriminate]|]. rewrite andb_true_iff, String.eqb_eq, IH. split.
    + intros [-> [r ->]]. now exists r.
    + intros [r H]. injection H as -> ->. split; [easy | now exists r].
Qed.
Lemma within_refl p : within p p.
Proof. exists []. now rewrite app_nil_r. Qed.
Definition clear_of (p q : path) : Prop := ~ within p q /\ ~ within q p.
Lemma clear_sym p q : clear_of p q -> clear_of q p.
Proof. intros [H1 H2]. split; assumption. Qed.
Lemma apart_app a b : apart (a ++ b) <-> apart a /\ apart b /\ forall p q, In p a -> In q b -> clear_of p q.
Proof.
  induction a as [|x a IH]; cbn; [intuition easy|]. rewrite IH, Forall_app, !Forall_forall. split.
  - intros ([H1 H2] & H3 & H4 & H5). split; [split; assumption|]. split; [assumption|]. intros p q [<-|Hp] Hq; [exact (H2 q Hq) | exact (H5 p q Hp Hq)].
  - intros ([H1 H2] & H3 & H4). split; [split; [exact H1|]; intros q Hq; apply (H4 x); [now left | exact Hq]|].
    split; [exact H2|]. split; [exact H3|]. intros p q Hp Hq. apply H4; [now right | exact Hq].
Qed.
Lemma apart_clear ps p q : apart ps -> In p ps -> In q ps -> p <> q -> clear_of p q.
Proof.
  intros Ha Hp Hq Hne. apply in_split in Hp. destruct Hp as (a & b & ->). apply apart_app in Ha. destruct Ha as (_ & Hb & Hab).
  destruct Hb as [Hb _]. rewrite Forall_forall in Hb. apply in_app_or in Hq. destruct Hq as [Hq|[<-|Hq]]; [|contradiction|].
  - apply clear_sym. apply Hab; [exact Hq | now left].
  - now apply Hb.
Qed.
Lemma apart_nodup ps : apart ps -> NoDup ps.
Proof.
  induction ps as [|p ps IH]; cbn; intros H; constructor; destruct H as [H1 H2].
  - intros Hin. rewrite Forall_forall in H1. destruct (H1 p Hin) as [H _]. apply H, within_refl.
  - now apply IH.
Qed.

(** * Files *)

Lemma steps_app {B S} (g : B -> S -> option S) l m : forall s, steps g (l ++ m) s = match steps g l s with Some s => steps g m s | None => None end.
Proof. induction l as [|b l IH]; intros s; cbn; [easy|]. destruct (g b s); [apply IH | easy]. Qed.
Lemma steps_flat {B C S} (g : C -> S -> option S) (h : B -> list C) l : forall s, steps (fun b => steps g (h b)) l s = steps g (flat_map h l) s.
Proof. induction l as [|b l IH]; intros s; cbn; [easy|]. rewrite steps_app. destruct (steps g (h b) s); [apply IH | easy]. Qed.
Lemma steps_map {B C S} (g : C -> S -> option S) (h : B -> C) l : forall s, steps g (map h l) s = steps (fun b => g (h b)) l s.
Proof. induction l as [|b l IH]; intros s; cbn; [easy|]. destruct (g (h b) s); [apply IH | easy]. Qed.
Lemma steps_ext {B S} (g h : B -> S -> option S) l : (forall b, In b l -> forall s, g b s = h b s) -> forall s, steps g l s = steps h l s.
Proof.
  induction l as [|b l IH]; intros E s; cbn; [easy|]. rewrite (E b) by now left. destruct (h b s); [|easy]. apply IH. intros b' Hb. apply E. now right.
Qed.

Section File.
Context {A : Type}.
Notation file := (@file A).
Notation content := (@content A).

Definition keys (f : file) : list path := map fst f.
Lemma at_key p (f : file) : In p (keys f) <-> at_path p f <> None.
Proof.
  unfold keys. induction f as [|[q x] f IH]; cbn; [easy|]. destruct (path_eqb p q) eqn:E.
  - apply path_eqb_spec in E. subst. split; [discriminate | now left].
  - rewrite <- IH. split; [intros [->|H]; [rewrite path_eqb_refl in E; discriminate | exact H] | now right].
Qed.
Lemma at_set p x q : forall f : file, at_path q (set_path p x f) = if path_eqb q p then match at_path p f with Some _ => Some x | None => None end else at_path q f.
Proof.
  induction f as [|[r y] f IH]; cbn; [now destruct (path_eqb q p)|].
  destruct (path_eqb p r) eqn:E; cbn.
  - apply path_eqb_spec in E. subst r. now destruct (path_eqb q p).
  - destruct (path_eqb q r) eqn:E1; [|exact IH]. apply path_eqb_spec in E1. subst r.
    destruct (path_eqb q p) eqn:E2; [|easy]. apply path_eqb_spec in E2. subst. rewrite path_eqb_refl in E. discriminate.
Qed.
Lemma keys_set p x : forall f : file, keys (set_path p x f) = keys f.
Proof. unfold keys. induction f as [|[r y] f IH]; cbn; [easy|]. destruct (path_eqb p r); cbn; [easy | now rewrite IH]. Qed.
Lemma at_app p (f g : file) : at_path p (f ++ g) = match at_path p f with Some x => Some x | None => at_path p g end.
Proof. induction f as [|[q x] f IH]; cbn; [easy|]. destruct (path_eqb p q); [easy | exact IH]. Qed.

Lemma create_some p x (f f' : file) : create p x f = Some f' <-> (forall q, In q (keys f) -> clear_of p q) /\ f' = f ++ [(p, x)].
Proof.
  unfold create. destruct (existsb (fun qx => starts p (fst qx) || starts (fst qx) p) f) eqn:E.
  - split; [discriminate|]. intros [H _]. exfalso. apply existsb_exists in E. destruct E as ([q y] & Hin & E). cbn in E.
    destruct (H q (in_map fst _ _ Hin)) as [H1 H2]. apply orb_true_iff in E. destruct E as [E|E]; apply starts_spec in E; contradiction.
  - split.
    + intros H. split; [|congruence]. intros q Hq. apply in_map_iff in Hq. destruct Hq as ([q' y] & <- & Hin). cbn.
      split; intros Hw; apply starts_spec in Hw;
        assert (Ht : existsb (fun qx : path * content => starts p (fst qx) || starts (fst qx) p) f = true)
          by (apply existsb_exists; exists (q', y); split; [exact Hin | cbn; rewrite Hw; now rewrite ?orb_true_r]); congruence.
    + intros [_ ->]. reflexivity.
Qed.
Definition made (px : path * content) : file -> option file := create (fst px) (snd px).
Lemma create_steps : forall (L : list (path * content)) (f f' : file), apart (keys f) ->
  steps made L f = Some f' <-> apart (keys f ++ map fst L) /\ f' = f ++ L.
Proof.
  induction L as [|[p x] L IH]; intros f f' Ha; cbn [steps map].
  - rewrite !app_nil_r. split; [intros H; split; [exact Ha | congruence] | intros [_ ->]; reflexivity].
  - assert (Happ : apart (keys f ++ p :: map fst L) <-> (forall q, In q (keys f) -> clear_of p q) /\ apart (keys (f ++ [(p, x)]) ++ map fst L)).
    { unfold keys at 3. rewrite map_app. cbn [map fst]. rewrite <- (app_assoc (map fst f)). cbn [app]. fold (keys f). split; [|tauto].
      intros H. split; [|exact H]. apply apart_app in H. destruct H as (_ & _ & H). intros q Hq. apply clear_sym. apply H; [exact Hq | now left]. }
    unfold made at 1. cbn [fst snd]. destruct (create p x f) as [f1|] eqn:E.
    + apply create_some in E. destruct E as [Hc ->]. rewrite IH.
      * rewrite Happ. rewrite <- app_assoc. cbn [app]. tauto.
      * unfold keys. rewrite map_app. cbn. apply apart_app. split; [exact Ha|]. split; [split; [constructor | exact I]|].
        intros q q' Hq [<-|[]]. apply clear_sym. now apply Hc.
    + split; [discriminate|]. intros [H _]. apply Happ in H. destruct H as [H _]. exfalso.
      assert (E' : create p x f = Some (f ++ [(p, x)])) by now apply create_some. congruence.
Qed.

Lemma remove_clear p (f : file) : (forall q, In q (keys f) -> q <> p -> clear_of p q) ->
  exists f', remove p f = Some f' /\ (forall q, q <> p -> at_path q f' = at_path q f) /\ at_path p f' = None /\ incl (keys f') (keys f).
Proof.
  intros H. unfold remove. destruct (at_path p f) as [x|] eqn:E.
  - eexists. split; [reflexivity|]. split; [|split].
    + intros q Hq. clear E H. induction f as [|[r y] f IH]; cbn; [easy|]. destruct (path_eqb p r) eqn:E1; cbn [negb].
      * apply path_eqb_spec in E1. subst r. now rewrite (path_eqb_no q p Hq).
      * cbn. now rewrite IH.
    + destruct (at_path p (filter (fun qx => negb (path_eqb p (fst qx))) f)) eqn:E1; [|easy]. exfalso.
      assert (Hk : In p (keys (filter (fun qx => negb (path_eqb p (fst qx))) f))) by (apply at_key; congruence).
      unfold keys in Hk. apply in_map_iff in Hk. destruct Hk as (qx & <- & Hk). apply filter_In in Hk. destruct Hk as [_ Hk]. rewrite path_eqb_refl in Hk. discriminate.
    + intros q Hq. unfold keys in *. apply in_map_iff in Hq. destruct Hq as (qx & <- & Hq). apply filter_In in Hq. apply in_map. easy.
  - destruct (existsb (fun qx => starts p (fst qx)) f) eqn:E1.
    + exfalso. apply existsb_exists in E1. destruct E1 as ([q y] & Hin & Hs). cbn in Hs. apply starts_spec in Hs.
      assert (Hk : In q (keys f)) by (now apply (in_map fst _ _ Hin)). destruct (list_eq_dec string_dec q p) as [->|Hne].
      * apply at_key in Hk. congruence.
      * destruct (H q Hk Hne). contradiction.
    + exists f. split; [easy|]. split; [easy|]. split; [exact E | intros q Hq; exact Hq].
Qed.
Lemma renew_clear p x (f : file) : (forall q, In q (keys f) -> q <> p -> clear_of p q) ->
  exists f', renew (p, x) f = Some f' /\ (forall q, q <> p -> at_path q f' = at_path q f) /\ at_path p f' = Some x /\ incl (keys f') (p :: keys f).
Proof.
  intros H. unfold renew. cbn [fst snd]. destruct (remove_clear p f H) as (f1 & -> & Ho & Hp & Hi).
  assert (E : create p x f1 = Some (f1 ++ [(p, x)])).
  { apply create_some. split; [|easy]. intros q Hq. assert (q <> p) by (intros ->; apply at_key in Hq; congruence). apply H; auto. }
  rewrite E. eexists. split; [reflexivity|]. split; [|split].
  - intros q Hq. rewrite at_app, Ho by exact Hq. destruct (at_path q f); [easy|]. cbn. now rewrite (path_eqb_no q p Hq).
  - rewrite at_app, Hp. cbn. now rewrite path_eqb_refl.
  - intros q Hq. unfold keys in Hq. rewrite map_app in Hq. apply in_app_or in Hq. destruct Hq as [Hq|[<-|[]]]; [right; now apply Hi | now left].
Qed.
Lemma renew_steps all : apart all -> forall (others : list path) (f : file), NoDup others -> incl others all -> incl (keys f) all ->
  exists f', steps (fun p => renew (p, Tab)) others f = Some f'
    /\ (forall q, ~ In q others -> at_path q f' = at_path q f) /\ (forall p, In p others -> at_path p f' = Some Tab) /\ incl (keys f') all.
Proof.
  intros Ha. induction others as [|p others IH]; intros f Hn Ho Hk; cbn [steps].
  - exists f. split; [easy|]. split; [easy|]. split; [easy | exact Hk].
  - inversion Hn as [|? ? Hni Hn']; subst.
    destruct (renew_clear p Tab f) as (f1 & -> & H1 & H2 & H3).
    { intros q Hq Hne. apply (apart_clear all); auto. apply Ho. now left. }
    destruct (IH f1 Hn') as (f2 & -> & H4 & H5 & H6).
    { intros q Hq. apply Ho. now right. }
    { intros q Hq. apply H3 in Hq. destruct Hq as [<-|Hq]; [apply Ho; now left | now apply Hk]. }
    exists f2. split; [easy|]. split; [|split; [|exact H6]].
    + intros q Hq. rewrite H4 by (intros H; apply Hq; now right). apply H1. intros ->. apply Hq. now left.
    + intros q [<-|Hq]; [now rewrite H4 | now apply H5].
Qed.

(** Writing rows at several places. *)
Definition put_row (idx : nat) (pr : path * A) : file -> option file := write (fst pr) idx (snd pr).
Lemma put_rows idx : forall (W : list (path * A)) (f : file), NoDup (map fst W) ->
  (forall p r, In (p, r) W -> exists l, at_path p f = Some (Arr l) /\ idx < List.length l) ->
  exists f', steps (put_row idx) W f = Some f' /\ keys f' = keys f
    /\ (forall q, ~ In q (map fst W) -> at_path q f' = at_path q f)
    /\ (forall p r l, In (p, r) W -> at_path p f = Some (Arr l) -> at_path p f' = Some (Arr (upd l idx r))).
Proof.
  induction W as [|[p r] W IH]; intros f Hn Hl; cbn [steps map fst].
  - exists f. split; [easy|]. split; [easy|]. split; [easy|]. intros p r l [].
  - cbn [map fst] in Hn. inversion Hn as [|? ? Hni Hn']; subst. destruct (Hl p r) as (l & El & Hlt); [now left|].
    unfold put_row at 1. unfold write. cbn [fst snd]. rewrite El. apply Nat.ltb_lt in Hlt. rewrite Hlt.
    destruct (IH (set_path p (Arr (upd l idx r)) f) Hn') as (f' & -> & Hk & Ho & Hw).
    { intros p' r' Hin. assert (p' <> p) by (intros ->; apply Hni; now apply (in_map fst _ _ Hin)). rewrite at_set, path_eqb_no by assumption. apply (Hl p' r'). now right. }
    exists f'. split; [easy|]. split; [now rewrite Hk, keys_set|]. split.
    + intros q Hq. rewrite Ho by (intros H; apply Hq; now right). rewrite at_set, path_eqb_no; [easy|]. intros ->. apply Hq. now left.
    + intros p' r' l' [E|Hin] El'.
      * assert (p' = p) by congruence. assert (r' = r) by congruence. subst p' r'. assert (l' = l) by congruence. subst l'.
        rewrite Ho by exact Hni. rewrite at_set, path_eqb_refl, El. easy.
      * assert (p' <> p) by (intros ->; apply Hni; now apply (in_map fst _ _ Hin)). apply Hw with (r := r'); [exact Hin|]. now rewrite at_set, path_eqb_no.
Qed.

(** * Handles *)

Lemma put_handle_spec w p : forall h, NoDup (map fst h) -> NoDup (map fst (put_handle w p h))
  /\ forall w' p', In (w', p') (put_handle w p h) <-> (w' = w /\ p' = p) \/ (w' <> w /\ In (w', p') h).
Proof.
  assert (Hk : forall h w0, In w0 (map fst (put_handle w p h)) <-> w0 = w \/ In w0 (map fst h)).
  { induction h as [|[w1 p1] h IH]; intros w0; cbn; [intuition auto|]. destruct (Nat.eqb_spec w w1) as [->|E]; cbn; [intuition auto|]. rewrite IH. intuition auto. }
  induction h as [|[w1 p1] h IH]; intros Hn; cbn.
  - split; [constructor; [easy | constructor]|]. intros w' p'. split; [intros [H|[]]; left; split; congruence | intros [[-> ->]|[_ []]]; now left].
  - cbn in Hn. inversion Hn as [|? ? Hni Hn']; subst. destruct (IH Hn') as [IH1 IH2]. destruct (Nat.eqb_spec w w1) as [->|E]; cbn.
    + split; [constructor; assumption|]. intros w' p'. split.
      * intros [H|H]; [left; split; congruence|]. right. split; [|now right]. intros ->. apply Hni. now apply (in_map fst _ _ H).
      * intros [[-> ->]|[H1 [H2|H2]]]; [now left | congruence | now right].
    + split.
      * constructor; [|exact IH1]. rewrite Hk. intros [->|H]; contradiction.
      * intros w' p'. rewrite IH2. split.
        -- intros [H|[H|H]]; [right; split; [congruence | now left] | now left | right; split; [easy | now right]].
        -- intros [H|[H1 [H2|H2]]]; [right; now left | left; exact H2 | right; right; easy].
Qed.
Lemma last_place_snoc items p0 w0 w p : last_place (items ++ [(p0, w0)]) w p <-> (w = w0 /\ p = p0) \/ (w <> w0 /\ last_place items w p).
Proof.
  unfold last_place. split.
  - intros (b & a & E & Hn). destruct (exists_last (l := (p, w) :: a)) as (a' & x & Ea); [discriminate|].
    assert (E' : items ++ [(p0, w0)] = (b ++ a') ++ [x]) by (rewrite E, Ea, app_assoc; reflexivity).
    apply app_inj_tail in E'. destruct E' as [E1 <-]. destruct a' as [|y a'].
    + left. cbn in Ea. split; congruence.
    + right. cbn in Ea. assert (y = (p, w)) by congruence. subst y. assert (Ea' : a = a' ++ [(p0, w0)]) by congruence. subst a. rewrite map_app in Hn. split.
      * intros ->. apply Hn, in_or_app. right. now left.
      * exists b, a'. split; [exact E1|]. intros H. apply Hn, in_or_app. now left.
  - intros [[-> ->]|(Hw & b & a & -> & Hn)].
    + exists items, []. split; [easy | intros []].
    + exists b, (a ++ [(p0, w0)]). split; [now rewrite <- app_assoc|]. rewrite map_app. intros H. apply in_app_or in H. destruct H as [H|[H|[]]]; [contradiction | cbn in H; congruence].
Qed.
Lemma handles_spec items : NoDup (map fst (handles items)) /\ forall w p, In (w, p) (handles items) <-> last_place items w p.
Proof.
  unfold handles. induction items as [|[p0 w0] items IH] using rev_ind.
  - split; [constructor|]. intros w p. split; [intros [] | intros (b & a & E & _); destruct b; discriminate].
  - rewrite fold_left_app. cbn [fold_left fst snd]. destruct IH as [IH1 IH2]. destruct (put_handle_spec w0 p0 _ IH1) as [H1 H2].
    split; [exact H1|]. intros w p. rewrite H2, last_place_snoc, IH2. tauto.
Qed.
End File.

(** * Runs *)

Lemma columns_quantities c s : columns c s = quantities c s.
Proof. destruct c, s; reflexivity. Qed.
Lemma nodup_app_intro {B} : forall l m : list B, NoDup l -> NoDup m -> (forall x, In x l -> ~ In x m) -> NoDup (l ++ m).
Proof.
  induction l as [|x l IH]; intros m Hl Hm Hd; cbn; [exact Hm|]. inversion Hl as [|? ? Hni Hl']; subst. constructor.
  - intros H. apply in_app_or in H. destruct H as [H|H]; [contradiction|]. apply (Hd x); [now left | exact H].
  - apply IH; auto. intros y Hy. apply Hd. now right.
Qed.
Lemma nodup_flat_map {B C} (h : B -> list C) l : NoDup l -> (forall b, In b l -> NoDup (h b)) ->
  (forall b b' x, In b l -> In b' l -> b <> b' -> In x (h b) -> ~ In x (h b')) -> NoDup (flat_map h l).
Proof.
  induction l as [|b l IH]; intros Hn Hi Hd; cbn; [constructor|]. inversion Hn as [|? ? Hni Hn']; subst. apply nodup_app_intro.
  - apply Hi. now left.
  - apply IH; [exact Hn' | intros; apply Hi; now right | intros x y z Hx Hy; apply Hd; now right].
  - intros x Hx Hx'. apply in_flat_map in Hx'. destruct Hx' as (b' & Hb' & Hx'). apply (Hd b b' x); auto; [now left | now right | congruence].
Qed.
Lemma nodup_app_parts {B} (l m : list B) : NoDup (l ++ m) -> NoDup l /\ NoDup m /\ forall x, In x l -> ~ In x m.
Proof.
  induction l as [|x l IH]; cbn; intros H; [split; [constructor|]; split; [exact H | intros x []]|]. inversion H as [|? ? Hni H']; subst.
  destruct (IH H') as (H1 & H2 & H3). split; [constructor; [|exact H1]; intros Hx; apply Hni, in_or_app; now left|]. split; [exact H2|].
  intros y [<-|Hy] Hm; [apply Hni, in_or_app; now right | exact (H3 y Hy Hm)].
Qed.
Lemma nodup_flat_in {B C} (h : B -> list C) l b : NoDup (flat_map h l) -> In b l -> NoDup (h b).
Proof.
  intros Hn Hb. apply in_split in Hb. destruct Hb as (l1 & l2 & ->). rewrite flat_map_app in Hn. cbn in Hn.
  apply nodup_app_parts in Hn. destruct Hn as (_ & Hn & _). now apply nodup_app_parts in Hn.
Qed.
Lemma nodup_flat_apart {B C} (h : B -> list C) l b b' x : NoDup (flat_map h l) -> In b l -> In b' l -> b <> b' -> In x (h b) -> In x (h b') -> False.
Proof.
  intros Hn Hb Hb' Hne Hx Hx'. apply in_split in Hb. destruct Hb as (l1 & l2 & ->). rewrite flat_map_app in Hn. cbn in Hn.
  apply nodup_app_parts in Hn. destruct Hn as (_ & Hn & Hd). apply in_app_or in Hb'. destruct Hb' as [Hb'|[Hb'|Hb']]; [|contradiction|].
  - apply (Hd x); [apply in_flat_map; eauto | apply in_or_app; now left].
  - apply nodup_app_parts in Hn. destruct Hn as (_ & _ & Hn). apply (Hn x Hx). apply in_flat_map. eauto.
Qed.
Lemma nth_error_ext {B} : forall l m : list B, (forall i, nth_error l i = nth_error m i) -> l = m.
Proof.
  induction l as [|x l IH]; intros [|y m] H; [easy | specialize (H 0); discriminate | specialize (H 0); discriminate|].
  pose proof (H 0) as H0. cbn in H0. assert (x = y) by congruence. subst y. f_equal. apply IH. intros i. exact (H (S i)).
Qed.

Section Run.
Context {A : Type}.
Variable fill : A.
Variable c : class.
Variable sort_of : nat -> sort.
Variable items : list (path * nat).
Variable scen times : option path.
Variable others : list path.
Variable n : nat.
Notation cells := (cells c sort_of items).
Notation file := (@file A).
Definition spots (pw : path * nat) : list path := map (fun ca => fst pw ++ fst ca) (quantities c (sort_of (snd pw))).

Lemma new_arrays_made (pw : path * nat) (f : file) : new_arrays fill c sort_of n pw f = steps made (map (fun p => (p, Arr (repeat fill n))) (spots pw)) f.
Proof. unfold new_arrays, spots. rewrite map_map, steps_map, columns_quantities. reflexivity. Qed.
Lemma setup_spec (f : file) : setup fill c sort_of n items scen [] = Some f <->
  apart (cells ++ maybe scen) /\ f = map (fun p => (p, Arr (repeat fill n))) cells ++ map (fun p => (p, Tab)) (maybe scen).
Proof.
  unfold setup. rewrite (steps_ext (new_arrays fill c sort_of n) (fun pw => steps made (map (fun p => (p, Arr (repeat fill n))) (spots pw)))) by (intros; apply new_arrays_made).
  rewrite steps_flat.
  assert (El : flat_map (fun pw => map (fun p => (p, Arr (repeat fill n))) (spots pw)) items = map (fun p => (p, Arr (repeat fill n))) cells).
  { unfold TableItems_spec.cells. induction items as [|pw l IH]; cbn; [easy|]. now rewrite IH, map_app. }
  rewrite El. clear El.
  assert (Hstart : apart (@keys A [])) by exact I.
  assert (Hall : steps made (map (fun p => (p, Arr (repeat fill n))) cells ++ map (fun p => (p, Tab)) (maybe scen)) [] = Some f
            <-> apart (cells ++ maybe scen) /\ f = map (fun p => (p, Arr (repeat fill n))) cells ++ map (fun p => (p, Tab)) (maybe scen)).
  { rewrite (create_steps _ _ _ Hstart). cbn [keys map app]. rewrite map_app, !map_map. cbn [fst]. rewrite !map_id. easy. }
  rewrite <- Hall. rewrite steps_app. destruct (steps made (map (fun p => (p, Arr (repeat fill n))) cells) []) as [f1|]; [|easy].
  destruct scen as [p|]; cbn [maybe map steps]; [|easy]. unfold made. cbn [fst snd]. destruct (create p Tab f1); easy.
Qed.

Definition every : list path := cells ++ maybe scen ++ maybe times ++ others.
Hypothesis Hevery : apart every.
Lemma cells_nodup : NoDup cells.
Proof. pose proof (apart_nodup _ Hevery) as H. unfold every in H. now apply nodup_app_parts in H. Qed.
Lemma outside_cells q : In q (maybe scen ++ maybe times ++ others) -> ~ In q cells.
Proof. pose proof (apart_nodup _ Hevery) as H. unfold every in H. apply nodup_app_parts in H. destruct H as (_ & _ & H). intros Hq Hc. exact (H q Hc Hq). Qed.
Lemma in_cells q : In q cells <-> exists p w ca, In (p, w) items /\ In ca (quantities c (sort_of w)) /\ q = p ++ fst ca.
Proof.
  unfold TableItems_spec.cells. rewrite in_flat_map. split.
  - intros ([p w] & Hin & Hq). apply in_map_iff in Hq. destruct Hq as (ca & <- & Hca). exists p, w, ca. easy.
  - intros (p & w & ca & Hin & Hca & ->). exists (p, w). split; [exact Hin|]. apply in_map_iff. exists ca. easy.
Qed.

(** What is written to. *)
Definition written : list (path * (nat * string)) :=
  flat_map (fun wp => map (fun ca => (snd wp ++ fst ca, (fst wp, snd ca))) (quantities c (sort_of (fst wp)))) (handles items).
Lemma in_written q w a : In (q, (w, a)) written <-> exists p ca, last_place items w p /\ In ca (quantities c (sort_of w)) /\ q = p ++ fst ca /\ a = snd ca.
Proof.
  unfold written. rewrite in_flat_map. destruct (handles_spec items) as [_ Hh]. split.
  - intros ([w' p] & Hin & Hq). apply in_map_iff in Hq. destruct Hq as (ca & E & Hca). cbn [fst snd] in *.
    assert (w' = w) by congruence. subst w'. exists p, ca. split; [now apply Hh|]. split; [exact Hca|]. split; congruence.
  - intros (p & ca & Hl & Hca & -> & ->). exists (w, p). split; [now apply Hh|]. apply in_map_iff. exists ca. easy.
Qed.
Lemma last_place_in w p : last_place items w p -> In (p, w) items.
Proof. intros (b & a & -> & _). apply in_or_app. right. now left. Qed.
Lemma written_cells q wa : In (q, wa) written -> In q cells.
Proof.
  destruct wa as [w a]. rewrite in_written. intros (p & ca & Hl & Hca & -> & _). apply in_cells. exists p, w, ca. split; [now apply last_place_in | easy].
Qed.
Lemma written_nodup : NoDup (map fst written).
Proof.
  unfold written. destruct (handles_spec items) as [Hn Hh].
  assert (E : forall l : list (nat * path), map fst (flat_map (fun wp => map (fun ca => (snd wp ++ fst ca, (fst wp, snd ca))) (quantities c (sort_of (fst wp)))) l)
             = flat_map (fun wp => spots (snd wp, fst wp)) l).
  { induction l as [|wp l IH]; cbn; [easy|]. rewrite map_app, IH, map_map. easy. }
  rewrite E. apply nodup_flat_map.
  - now apply NoDup_map_inv in Hn.
  - intros [w p] Hin. cbn [fst snd]. apply (nodup_flat_in spots items); [exact cells_nodup | apply last_place_in; now apply Hh].
  - intros [w p] [w' p'] x Hin Hin' Hne Hx Hx'. cbn [fst snd] in *. apply (nodup_flat_apart spots items (p, w) (p', w') x); auto; try (apply last_place_in; now apply Hh).
    + exact cells_nodup.
    + congruence.
Qed.

Section Values.
Variable v : nat -> nat -> string -> A.
Notation after := (after c sort_of times (handles items) v).
Lemma after_rows idx (f : file) : after idx f =
  match (match times with
         | Some p => match at_path p f with Some (Times l) => Some (set_path p (Times (l ++ [idx])) f) | _ => None end
         | None => Some f
         end) with
  | Some f => steps (put_row idx) (map (fun x => (fst x, v idx (fst (snd x)) (snd (snd x)))) written) f
  | None => None
  end.
Proof.
  unfold TableItems_model.after. destruct (match times with Some p => _ | None => Some f end) as [f1|]; [|easy].
  rewrite (steps_ext _ (fun wp => steps (put_row idx) (map (fun ca => (snd wp ++ fst ca, v idx (fst wp) (snd ca))) (quantities c (sort_of (fst wp)))))).
  - rewrite steps_flat. f_equal. unfold written. induction (handles items) as [|wp l IH]; cbn [flat_map]; [reflexivity|]. rewrite map_app, map_map, IH. reflexivity.
  - intros wp _ s. rewrite steps_map, columns_quantities. reflexivity.
Qed.

Definition cells_ok (f : file) : Prop := forall q, In q cells -> exists l, at_path q f = Some (Arr l) /\ List.length l = n.
Lemma loop (f : file) : cells_ok f -> (forall p, times = Some p -> at_path p f = Some (Times [])) ->
  forall j, j <= n -> exists f', steps after (seq 0 j) f = Some f' /\ keys f' = keys f /\ cells_ok f'
    /\ (forall p, times = Some p -> at_path p f' = Some (Times (seq 0 j)))
    /\ (forall q, ~ In q (map fst written) -> ~ In q (maybe times) -> at_path q f' = at_path q f)
    /\ (forall q w a, In (q, (w, a)) written -> exists l, at_path q f' = Some (Arr l) /\ List.length l = n /\ forall t, t < j -> nth_error l t = Some (v t w a)).
Proof.
  intros Hc Ht. induction j as [|j IH]; intros Hj.
  - exists f. cbn. split; [easy|]. split; [easy|]. split; [exact Hc|]. split; [exact Ht|]. split; [easy|].
    intros q w a Hin. destruct (Hc q (written_cells _ _ Hin)) as (l & El & Hl). exists l. split; [exact El|]. split; [exact Hl|]. intros t H. lia.
  - destruct IH as (f1 & E1 & K1 & C1 & T1 & O1 & W1); [lia|]. rewrite seq_S, steps_app, E1. cbn [steps Nat.add]. rewrite after_rows.
    assert (Hf2 : exists f2, (match times with
         | Some p => match at_path p f1 with Some (Times l) => Some (set_path p (Times (l ++ [j])) f1) | _ => None end
         | None => Some f1
         end) = Some f2 /\ keys f2 = keys f1 /\ (forall p, times = Some p -> at_path p f2 = Some (Times (seq 0 j ++ [j])))
         /\ forall q, ~ In q (maybe times) -> at_path q f2 = at_path q f1).
    { destruct times as [p|].
      - rewrite (T1 p eq_refl). eexists. split; [reflexivity|]. split; [apply keys_set|]. split.
        + intros p' E. assert (p' = p) by congruence. subst p'. rewrite at_set, path_eqb_refl, (T1 p eq_refl). easy.
        + intros q Hq. rewrite at_set, path_eqb_no; [easy|]. intros ->. apply Hq. now left.
      - exists f1. split; [easy|]. split; [easy|]. split; [discriminate | easy]. }
    destruct Hf2 as (f2 & -> & K2 & T2 & O2).
    assert (Hcell : forall q, In q cells -> at_path q f2 = at_path q f1).
    { intros q Hq. apply O2. intros H. apply (outside_cells q); [|exact Hq]. apply in_or_app. right. apply in_or_app. now left. }
    set (W := map (fun x => (fst x, v j (fst (snd x)) (snd (snd x)))) written).
    assert (HW : map fst W = map fst written) by (unfold W; rewrite map_map; easy).
    destruct (put_rows j W f2) as (f3 & -> & K3 & O3 & W3).
    + rewrite HW. exact written_nodup.
    + intros q r Hin. assert (Hq : In q cells).
      { assert (H : In q (map fst W)) by now apply (in_map fst _ _ Hin). rewrite HW in H. apply in_map_iff in H. destruct H as ([q' wa] & <- & H). now apply (written_cells q' wa). }
      rewrite (Hcell q Hq). destruct (C1 q Hq) as (l & El & Hl). exists l. split; [exact El | lia].
    + exists f3. split; [easy|]. split; [congruence|].
      assert (Hwr : forall q w a l, In (q, (w, a)) written -> at_path q f1 = Some (Arr l) -> at_path q f3 = Some (Arr (upd l j (v j w a)))).
      { intros q w a l Hin El. apply W3.
        - unfold W. apply in_map_iff. exists (q, (w, a)). easy.
        - rewrite Hcell; [exact El | now apply (written_cells _ _ Hin)]. }
      split; [|split; [|split]].
      * intros q Hq. destruct (C1 q Hq) as (l & El & Hl). destruct (in_dec (list_eq_dec string_dec) q (map fst written)) as [Hin|Hnin].
        -- apply in_map_iff in Hin. destruct Hin as ([q' [w a]] & E & Hin). cbn in E. subst q'. eexists. split; [now apply (Hwr q w a l) | now rewrite upd_length].
        -- exists l. split; [|exact Hl]. rewrite O3 by now rewrite HW. now rewrite Hcell.
      * intros p Hp. rewrite O3; [now apply T2|]. rewrite HW. intros H. apply in_map_iff in H. destruct H as ([q' wa] & E & H). cbn in E. subst q'.
        apply written_cells in H. apply (outside_cells p); [|exact H]. apply in_or_app. right. apply in_or_app. left. rewrite Hp. now left.
      * intros q Hq Hqt. rewrite O3 by now rewrite HW. rewrite O2 by exact Hqt. now apply O1.
      * intros q w a Hin. destruct (W1 q w a Hin) as (l & El & Hl & Hv). exists (upd l j (v j w a)). split; [now apply Hwr|]. split; [now rewrite upd_length|].
        intros t Hlt. rewrite nth_error_upd by lia. destruct (Nat.eqb_spec t j) as [->|Hne]; [easy|]. apply Hv. lia.
Qed.
End Values.

Definition inv (f : file) : Prop :=
  incl (keys f) every /\ cells_ok f /\ (forall p, scen = Some p -> at_path p f = Some Tab)
  /\ (forall q, In q cells -> ~ In q (map fst written) -> at_path q f = Some (Arr (repeat fill n))).
Definition final (v : nat -> nat -> string -> A) (f : file) : Prop :=
  (forall q w a, In (q, (w, a)) written -> at_path q f = Some (Arr (map (fun t => v t w a) (seq 0 n))))
  /\ (forall p, times = Some p -> at_path p f = Some (Times (seq 0 n))) /\ (forall p, In p others -> at_path p f = Some Tab).
Lemma run_inv v f : inv f -> exists f', run c sort_of items times others v n f = Some f' /\ inv f' /\ final v f'.
Proof.
  intros (Hk & Hc & Hs & Hu). unfold run, reset.
  assert (Hin : forall q, In q (maybe scen ++ maybe times ++ others) -> In q every) by (intros; apply in_or_app; now right).
  pose proof (apart_nodup _ Hevery) as Hnd. unfold every in Hnd. apply nodup_app_parts in Hnd. destruct Hnd as (_ & Hnd & _).
  apply nodup_app_parts in Hnd. destruct Hnd as (_ & Hnd & Hds). apply nodup_app_parts in Hnd. destruct Hnd as (_ & Hno & Hdt).
  assert (H1 : exists f1, (match times with Some p => renew (p, Times []) f | None => Some f end) = Some f1
     /\ (forall q, ~ In q (maybe times) -> at_path q f1 = at_path q f) /\ (forall p, times = Some p -> at_path p f1 = Some (Times [])) /\ incl (keys f1) every).
  { destruct times as [p|] eqn:Et.
    - assert (Hp : In p every) by (apply Hin, in_or_app; right; apply in_or_app; left; now left).
      destruct (renew_clear p (Times []) f) as (f1 & -> & H1 & H2 & H3).
      { intros q Hq Hne. apply (apart_clear every); auto. }
      exists f1. split; [easy|]. split; [intros q Hq; apply H1; intros ->; apply Hq; now left|]. split; [intros p' E; assert (p' = p) by congruence; subst; exact H2|].
      intros q Hq. apply H3 in Hq. destruct Hq as [<-|Hq]; auto.
    - exists f. split; [easy|]. split; [easy|]. split; [discriminate | exact Hk]. }
  destruct H1 as (f1 & -> & O1 & T1 & K1).
  destruct (renew_steps every Hevery others f1) as (f2 & -> & O2 & T2 & K2).
  { exact Hno. } { intros q Hq. apply Hin, in_or_app. right. apply in_or_app. now right. } { exact K1. }
  assert (Hcell : forall q, In q cells -> at_path q f2 = at_path q f).
  { intros q Hq. rewrite O2, O1; [easy| |]; intros H; apply (outside_cells q); auto; apply in_or_app; right; apply in_or_app; [now left | now right]. }
  destruct (loop v f2) with (j := n) as (f3 & E3 & K3 & C3 & T3 & O3 & W3).
  { intros q Hq. rewrite Hcell by exact Hq. now apply Hc. }
  { intros p Hp. rewrite O2; [now apply T1|]. intros H. apply (Hdt p); [rewrite Hp; now left | exact H]. }
  { lia. }
  exists f3. split; [exact E3|]. split; [split; [|split; [exact C3|split]]|split; [|split]].
  - intros q Hq. apply K2. now rewrite <- K3.
  - intros p Hp. assert (Hps : In p (maybe scen)) by (rewrite Hp; now left). rewrite O3, O2, O1; [now apply Hs| | | |]; intros H.
    + apply (Hds p Hps). apply in_or_app. now left.
    + apply (Hds p Hps). apply in_or_app. now right.
    + apply in_map_iff in H. destruct H as ([q' wa] & E & H). cbn in E. subst q'. apply written_cells in H. apply (outside_cells p); [|exact H]. apply in_or_app. now left.
    + apply (Hds p Hps). apply in_or_app. now left.
  - intros q Hq Hnw. rewrite O3; [rewrite Hcell by exact Hq; now apply Hu | exact Hnw|]. intros H. apply (outside_cells q); [|exact Hq]. apply in_or_app. right. apply in_or_app. now left.
  - intros q w a Hin'. destruct (W3 q w a Hin') as (l & El & Hl & Hv). rewrite El. do 2 f_equal. apply nth_error_ext. intros t.
    destruct (Nat.lt_ge_cases t n) as [Ht|Ht].
    + rewrite (Hv t Ht). rewrite nth_error_map. rewrite (nth_error_nth' (seq 0 n) 0) by now rewrite seq_length. rewrite seq_nth by exact Ht. easy.
    + rewrite (proj2 (nth_error_None l t)) by lia. symmetry. apply nth_error_None. rewrite map_length, seq_length. lia.
  - exact T3.
  - intros p Hp. assert (Hpi : In p (maybe scen ++ maybe times ++ others)) by (apply in_or_app; right; apply in_or_app; now right).
    rewrite O3; [now apply T2| |].
    + intros H. apply in_map_iff in H. destruct H as ([q' wa] & E & H). cbn in E. subst q'. apply written_cells in H. exact (outside_cells p Hpi H).
    + intros H. exact (Hdt p H Hp).
Qed.
Lemma setup_inv f : setup fill c sort_of n items scen [] = Some f -> inv f.
Proof.
  intros H. apply setup_spec in H. destruct H as [_ ->].
  assert (Hat : forall q, In q cells -> at_path q (map (fun p => (p, Arr (repeat fill n))) cells ++ map (fun p => (p, Tab)) (maybe scen)) = Some (Arr (repeat fill n))).
  { intros q Hq. rewrite at_app. clear -Hq. induction cells as [|p l IH]; [destruct Hq|]. cbn. destruct (path_eqb q p) eqn:E; [easy|].
    destruct Hq as [<-|Hq]; [rewrite path_eqb_refl in E; discriminate|]. now apply IH. }
  split; [|split; [|split]].
  - intros q Hq. unfold keys in Hq. rewrite map_app, !map_map in Hq. cbn [fst] in Hq. rewrite !map_id in Hq. apply in_app_or in Hq. unfold every.
    destruct Hq as [Hq|Hq]; apply in_or_app; [now left | right; apply in_or_app; now left].
  - intros q Hq. exists (repeat fill n). split; [now apply Hat | apply repeat_length].
  - intros p Hp. rewrite at_app. destruct (at_path p (map (fun p => (p, Arr (repeat fill n))) cells)) eqn:E.
    + exfalso. assert (Hk : In p (@keys A (map (fun p => (p, Arr (repeat fill n))) cells))) by (apply at_key; congruence).
      unfold keys in Hk. rewrite map_map in Hk. cbn in Hk. rewrite map_id in Hk. apply (outside_cells p); [|exact Hk]. apply in_or_app. left. rewrite Hp. now left.
    + rewrite Hp. cbn. now rewrite path_eqb_refl.
  - intros q Hq _. now apply Hat.
Qed.
Lemma runs_inv f v : forall vs, inv f -> exists f', steps (fun v => run c sort_of items times others v n) (vs ++ [v]) f = Some f' /\ inv f' /\ final v f'.
Proof.
  intros vs. revert f. induction vs as [|u vs IH]; intros f Hf; cbn [app steps].
  - destruct (run_inv v f Hf) as (f' & -> & H). eauto.
  - destruct (run_inv u f Hf) as (f1 & -> & H1 & _). now apply IH.
Qed.
End Run.
