(** File checks: C68. *)
From Verif Require Import Base Hash_model Hash_proofs.
Local Open Scope nat_scope.
Local Open Scope list_scope.

(** C68 without a cache: a check passes exactly if the file exists and its digest is the expected one up to case, for every size of the pieces
    read (except 0). *)
Theorem C68_without_cache (digest : string -> contents -> string) (d : disk) (filename hash algorithm : string) (chunk_size : option nat) :
  chunk_size <> Some 0 ->
  fst (check_hash digest d filename hash algorithm chunk_size None) = Accepted <->
  exists data, d filename = Some data /\ lower (digest algorithm data) = lower hash.
Proof. apply check_no_cache. Qed.
Print Assumptions C68_without_cache.

(** In a model, for any history of checks and file changes: a check passes only for a digest that the file had at some moment of the history. *)
Theorem C68_some_contents_partial (digest : string -> contents -> string) (d : disk) (es : list event) (filename hash algorithm : string) (chunk_size : option nat) :
  good_sizes es -> chunk_size <> Some 0 ->
  fst (happen digest (Check filename hash algorithm chunk_size) (run digest es (d, fresh))) = Accepted ->
  exists data, had d es filename data /\ lower (digest algorithm data) = lower hash.
Proof.
  intros S K H. destruct (run digest es (d, fresh)) as [d1 c1] eqn:E. cbn [happen] in H.
  destruct (check_cache_some digest d1 filename hash algorithm chunk_size c1) as (r & c' & E'). rewrite E' in H. cbn [fst] in H. subst r.
  assert (holds digest c1 (had d es)) as R.
  { change c1 with (snd (d1, c1)). rewrite <- E. apply run_holds; auto. intros f a h X. discriminate. }
  eapply (check_step digest d1 filename hash algorithm chunk_size c1 (had d es)); eauto.
  intros g data X. apply (run_disk_had digest es d fresh). rewrite E. exact X.
Qed.
Print Assumptions C68_some_contents_partial.

(** If the file is not changed, a check passes exactly if the digest is right, whatever was checked before. *)
Theorem C68_unchanged_file (digest : string -> contents -> string) (d : disk) (es : list event) (filename hash algorithm : string) (chunk_size : option nat) :
  good_sizes es -> chunk_size <> Some 0 -> ~ changes filename es ->
  fst (happen digest (Check filename hash algorithm chunk_size) (run digest es (d, fresh))) = Accepted <->
  exists data, d filename = Some data /\ lower (digest algorithm data) = lower hash.
Proof.
  intros S K N. split.
  - intros H. apply C68_some_contents_partial in H as (data & Hd & E); auto. exists data. split; [|exact E]. eapply had_unchanged; eauto.
  - intros (data & F & E). destruct (run digest es (d, fresh)) as [d1 c1] eqn:R. cbn [happen].
    assert (d1 filename = Some data) as F1.
    { change d1 with (fst (d1, c1)). rewrite <- R, run_unchanged; assumption. }
    assert (holds digest c1 (had d es)) as HC.
    { change c1 with (snd (d1, c1)). rewrite <- R. apply run_holds; auto. intros f a h X. discriminate. }
    unfold check_hash. destruct (cache_get (filename, algorithm) c1) as [v|] eqn:G.
    + destruct (HC _ _ _ G) as (data' & Hd & ->). apply had_unchanged in Hd; [|exact N]. assert (data' = data) as -> by congruence.
      rewrite E, String.eqb_refl. reflexivity.
    + rewrite compute_hash_spec, F1 by exact K. cbn [option_map]. rewrite E, String.eqb_refl. reflexivity.
Qed.
Print Assumptions C68_unchanged_file.

(** A stand-in for a digest, for the examples: "odd" or "even" length, in upper case. *)
Definition parity (algorithm : string) (data : contents) : string := (if Nat.even (List.length data) then "EVEN" else "ODD")%string.
Example hash_example :
  let d := set_file "a.csv" (Some [1; 2; 3]) (fun _ => None) in
  fst (check_hash parity d "a.csv" "odd" "md5" (Some 2) None) = Accepted /\
  fst (check_hash parity d "a.csv" "even" "md5" (Some 2) None) = Mismatch /\
  fst (check_hash parity d "b.csv" "odd" "md5" None None) = Missing /\
  fst (happen parity (Check "a.csv" "Odd" "md5" (Some 1)) (run parity [Check "a.csv" "odd" "md5" None; Check "a.csv" "even" "md5" None] (d, fresh))) = Accepted.
Proof. vm_compute. repeat split. Qed.

(** A file that is changed after a check is accepted later though its digest is wrong, and refused with its present digest. *)
Theorem C68_changed_file_refuted : exists (digest : string -> contents -> string) (d : disk) (es : list event) (filename hash algorithm : string) (data : contents),
  good_sizes es /\
  fst (happen digest (Check filename hash algorithm None) (run digest es (d, fresh))) = Accepted /\
  fst (run digest es (d, fresh)) filename = Some data /\ lower (digest algorithm data) <> lower hash /\
  fst (happen digest (Check filename (digest algorithm data) algorithm None) (run digest es (d, fresh))) = Mismatch.
Proof.
  exists parity, (set_file "a.csv" (Some [1]) (fun _ => None)), [Check "a.csv" "odd" "md5" None; Change "a.csv" (Some [1; 2])], "a.csv"%string, "odd"%string, "md5"%string, [1; 2].
  split; [intros g h a [X|[X|[]]]; discriminate|]. vm_compute. repeat split. discriminate.
Qed.
Print Assumptions C68_changed_file_refuted.

(** With [chunk_size=0] nothing is read: every file has the digest of the empty file. *)
Theorem C68_zero_chunk_refuted : exists (digest : string -> contents -> string) (d : disk) (data : contents) (hash : string),
  d "a.csv"%string = Some data /\ lower (digest "md5"%string data) <> lower hash /\
  fst (check_hash digest d "a.csv" hash "md5" (Some 0) None) = Accepted.
Proof.
  exists parity, (set_file "a.csv" (Some [1]) (fun _ => None)), [1], "even"%string. vm_compute. repeat split. discriminate.
Qed.
Print Assumptions C68_zero_chunk_refuted.
