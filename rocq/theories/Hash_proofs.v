(** Proofs about file checks. *)
From Verif Require Import Base Hash_model.
Local Open Scope nat_scope.
Local Open Scope list_scope.

(** The loop feeds the whole file, whatever the size of the pieces. *)
Lemma update_loop_all fuel k : k <> Some 0 -> forall rest fed, List.length rest < fuel -> update_loop fuel k rest fed = fed ++ rest.
Proof.
  intros K. induction fuel as [|fuel IH]; intros rest fed H; [lia|]. cbn [update_loop]. destruct k as [[|k]|]; [congruence| |]; cbn [read].
  - destruct rest as [|b rest]; cbn [firstn skipn]; [symmetry; apply app_nil_r|]. rewrite IH.
    + rewrite <- app_assoc. cbn [app]. now rewrite firstn_skipn.
    + pose proof (skipn_length k rest). cbn [List.length] in H. lia.
  - destruct rest as [|b rest]; [symmetry; apply app_nil_r|]. rewrite IH; [now rewrite app_nil_r|]. cbn [List.length] in *. lia.
Qed.

Lemma compute_hash_spec digest d f a k : k <> Some 0 -> compute_hash digest d f a k = option_map (digest a) (d f).
Proof. intros K. unfold compute_hash. destruct (d f) as [data|]; [|reflexivity]. rewrite update_loop_all; [reflexivity|exact K|lia]. Qed.

Lemma check_no_cache digest d f h a k : k <> Some 0 ->
  fst (check_hash digest d f h a k None) = Accepted <-> exists data, d f = Some data /\ lower (digest a data) = lower h.
Proof.
  intros K. unfold check_hash. rewrite compute_hash_spec by exact K. destruct (d f) as [data|]; cbn [option_map].
  - destruct (String.eqb_spec (lower h) (lower (digest a data))) as [E|E]; cbn; split; intros H; try discriminate; eauto.
    destruct H as (x & [= <-] & H). congruence.
  - split; [discriminate|]. intros (x & H & _). discriminate.
Qed.

(** What the cache holds: digests of contents seen at a check. *)
Lemma cache_get_cons key v (c : cache) key' : cache_get key' ((key, v) :: c) = if String.eqb (fst key) (fst key') && String.eqb (snd key) (snd key') then Some v else cache_get key' c.
Proof. unfold cache_get. cbn [find fst snd]. destruct (String.eqb (fst key) (fst key') && String.eqb (snd key) (snd key')); reflexivity. Qed.

(** The entries of the cache are digests of contents that files had. *)
Definition holds (digest : string -> contents -> string) (c : cache) (P : string -> contents -> Prop) : Prop :=
  forall f a h, cache_get (f, a) c = Some h -> exists data, P f data /\ h = digest a data.

Lemma check_step digest d f h a k c P r c' : k <> Some 0 -> holds digest c P -> (forall g data, d g = Some data -> P g data) ->
  check_hash digest d f h a k (Some c) = (r, Some c') ->
  holds digest c' P /\ (r = Accepted -> exists data, P f data /\ lower (digest a data) = lower h).
Proof.
  intros K H D E. unfold check_hash in E. destruct (cache_get (f, a) c) as [v|] eqn:G.
  - destruct (H f a v G) as (data & Hd & ->). destruct (String.eqb_spec (lower (digest a data)) (lower h)); injection E as <- <-; split; auto; try discriminate; eauto.
  - rewrite compute_hash_spec in E by exact K. destruct (d f) as [data|] eqn:F; cbn [option_map] in E.
    + destruct (String.eqb_spec (lower h) (lower (digest a data))) as [X|X]; cbn in E; injection E as <- <-; [|split; [exact H|discriminate]].
      split; [|eauto]. intros f' a' h' G'. rewrite cache_get_cons in G'. cbn [fst snd] in G'.
      destruct (String.eqb_spec f f') as [->|], (String.eqb_spec a a') as [->|]; cbn in G'; eauto. injection G' as <-. eauto.
    + injection E as <- <-. split; [exact H|discriminate].
Qed.

Lemma check_cache_some digest d f h a k c : exists r c', check_hash digest d f h a k (Some c) = (r, Some c').
Proof.
  unfold check_hash. destruct (cache_get (f, a) c) as [v|]; [destruct (String.eqb _ _); eauto|].
  destruct (compute_hash _ _ _ _ _); [|eauto]. destruct (negb _); cbn; eauto.
Qed.

(** Contents of [f] at some moment of a history starting from [d]. *)
Inductive had : disk -> list event -> string -> contents -> Prop :=
| had_start d es f data : d f = Some data -> had d es f data
| had_change d g x es f data : had (set_file g x d) es f data -> had d (Change g x :: es) f data
| had_check d g h a k es f data : had d es f data -> had d (Check g h a k :: es) f data.

Definition good_sizes (es : list event) : Prop := forall g h a, ~ In (Check g h a (Some 0)) es.

Lemma had_weaken d es es' f data : had d es f data -> had d (es ++ es') f data.
Proof. intros H. induction H; cbn; [apply had_start|apply had_change|apply had_check]; auto. Qed.

Lemma run_cons digest e es s : run digest (e :: es) s = run digest es (snd (happen digest e s)).
Proof. reflexivity. Qed.
Lemma run_app digest es es' s : run digest (es ++ es') s = run digest es' (run digest es s).
Proof. unfold run. apply fold_left_app. Qed.

Lemma run_holds digest es : forall d c P, good_sizes es -> holds digest c P -> (forall g data, had d es g data -> P g data) ->
  holds digest (snd (run digest es (d, c))) P.
Proof.
  induction es as [|e es IH]; intros d c P S H D; [exact H|]. rewrite run_cons.
  assert (good_sizes es) as S' by (intros g h a X; apply (S g h a); now right).
  destruct e as [g x|g h a k]; cbn [happen snd].
  - apply IH; auto. intros f data X. apply D. now apply had_change.
  - destruct (check_cache_some digest d g h a k c) as (r & c' & E). rewrite E. cbn [snd]. apply IH; auto.
    + assert (k <> Some 0) as K by (intros ->; apply (S g h a); now left).
      eapply check_step; eauto. intros f data X. apply D. apply had_start, X.
    + intros f data X. apply D. now apply had_check.
Qed.

Lemma run_disk_had digest es : forall d c f data, fst (run digest es (d, c)) f = Some data -> had d es f data.
Proof.
  induction es as [|e es IH]; intros d c f data H; [apply had_start; exact H|]. rewrite run_cons in H.
  destruct e as [g x|g h a k]; cbn [happen snd] in H.
  - apply had_change. eapply IH, H.
  - destruct (check_cache_some digest d g h a k c) as (r & c' & E). rewrite E in H. apply had_check. eapply IH, H.
Qed.

(** Never changed files had their present contents only. *)
Definition changes (f : string) (es : list event) : Prop := exists x, In (Change f x) es.
Lemma had_unchanged d es f data : had d es f data -> ~ changes f es -> d f = Some data.
Proof.
  intros H. induction H as [d es f data H|d g x es f data H IH|d g h a k es f data H IH]; intros N; auto.
  - assert (f <> g) as NE by (intros ->; apply N; exists x; now left). rewrite <- IH.
    + unfold set_file. destruct (String.eqb_spec f g); [contradiction|reflexivity].
    + intros (y & Hy). apply N. exists y. now right.
  - apply IH. intros (y & Hy). apply N. exists y. now right.
Qed.
Lemma run_unchanged digest es : forall d c f, ~ changes f es -> fst (run digest es (d, c)) f = d f.
Proof.
  induction es as [|e es IH]; intros d c f N; [reflexivity|]. rewrite run_cons.
  assert (~ changes f es) as N' by (intros (y & Hy); apply N; exists y; now right).
  destruct e as [g x|g h a k]; cbn [happen snd].
  - rewrite IH by exact N'. unfold set_file. destruct (String.eqb_spec f g) as [->|]; [|reflexivity]. exfalso. apply N. exists x. now left.
  - destruct (check_cache_some digest d g h a k c) as (r & c' & E). rewrite E. apply IH, N'.
Qed.
