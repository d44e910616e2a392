(** * Theorems about the number of calls that readers make (C119). *)
From Verif Require Import Base BaseFacts Utf8 Stream F32 ChunkIO Subword Vocab Storage Embeddings TextIO FastText FileSpec MemoryGreedy Work WorkThms P_File.
Local Open Scope N_scope.

(** ** C119: readers make no more calls than there are bytes, and a few *)
Theorem chunk_calls_thm : forall pf T,
  few_calls read_header 2 /\ few_calls (read_metadata T) 2 /\ few_calls read_norms 1 /\
  few_calls read_simple 1 /\ few_calls (read_bucketed ft_bucket_ops pf CFastTextSubwordVocab) 1 /\ few_calls (read_bucketed hash_bucket_ops pf CBucketSubwordVocab) 1 /\
  few_calls (read_explicit pf) 1 /\ few_calls (read_floret pf) 1 /\ few_calls (read_vocab_wrap pf) 4 /\
  few_calls read_ndarray 1 /\ few_calls read_quantized 1 /\ few_calls read_storage_wrap 4 /\ few_calls read_storage_view_wrap 4 /\
  few_calls (mmap_ndarray pf) 1 /\ few_calls (mmap_quantized_chunk pf) 1 /\ few_calls (mmap_storage_wrap pf) 4 /\ few_calls (mmap_storage_view_wrap pf) 4.
Proof. exact (@WorkThms.chunk_calls). Qed.
Print Assumptions chunk_calls_thm.
Theorem chunk_thrift_thm : forall pf,
  thrifty read_simple 0 4 /\ thrifty (read_bucketed ft_bucket_ops pf CFastTextSubwordVocab) 0 4 /\ thrifty (read_bucketed hash_bucket_ops pf CBucketSubwordVocab) 0 4 /\
  thrifty (read_explicit pf) 0 4 /\ thrifty (read_floret pf) 0 4 /\ thrifty (read_vocab_wrap pf) 0 4 /\
  thrifty read_ndarray 0 4 /\ thrifty read_quantized 0 4 /\ thrifty read_storage_wrap 0 4 /\ thrifty read_storage_view_wrap 0 4 /\
  thrifty (mmap_ndarray pf) 0 4 /\ thrifty (mmap_quantized_chunk pf) 0 4 /\ thrifty (mmap_storage_wrap pf) 0 4 /\ thrifty (mmap_storage_view_wrap pf) 0 4.
Proof. exact (@WorkThms.chunk_thrift). Qed.
Print Assumptions chunk_thrift_thm.
(** Files of any kinds of chunks. *)
Theorem file_calls_thm : forall T (V S : Type) (rv : reader V) (rs : reader S),
  thrifty rv 0 4 -> thrifty rs 0 4 ->
  few_calls (read_embeddings T rv rs) 2 /\ few_calls (mmap_embeddings T rv rs) 2.
Proof. exact (@WorkThms.file_calls). Qed.
Print Assumptions file_calls_thm.
Theorem format_calls_thm : forall P pf (Md : Type) T config_table lossy,
  few_calls (read_text_raw (Md := Md) P pf lossy) 1 /\ few_calls (read_text (Md := Md) P pf lossy) 1 /\
  few_calls (read_text_dims_raw (Md := Md) P pf lossy) 1 /\ few_calls (read_text_dims (Md := Md) P pf lossy) 1 /\
  few_calls (read_floret_text (Md := Md) P pf) 3 /\ few_calls (read_fasttext pf T config_table lossy) 1.
Proof. exact (@WorkThms.format_calls). Qed.
Print Assumptions format_calls_thm.

(** A header that promises 2^32 - 1 chunks, and two of them. *)
Example chunk_calls_ex : let data := magic ++ le_bytes 4 0 ++ le_bytes 4 4294967295 ++ le_bytes 4 1 ++ le_bytes 4 2 in
  run_reader read_header data = Err ERead /\ exists c, counts read_header c /\ c (mkStream data 0) <= 22.
Proof.
  split; [vm_compute; reflexivity|]. destruct (chunk_calls Release ex_toml) as [(c & C & B) _]. exists c. split; [exact C|]. eapply N.le_trans; [apply B|]. vm_compute. discriminate.
Qed.
(** What is counted: a string is read in two calls, or in one if there are
    less than four bytes. *)
Example counts_ex : exists c, counts read_string_item c /\
  c (mkStream [x02; x00; x00; x00; x61; x62] 0) = 2 /\ c (mkStream [x02; x00; x00; x00] 0) = 2 /\ c (mkStream [x02; x00] 0) = 1.
Proof.
  eexists. split.
  - eapply ct_bind; [eapply ct_bind; [apply ct_exact|intros a; exact (ct_lift _ (Ok (le_value a)))]|]. intros n. eapply (ct_bind _ _ _ _ _ (fun _ _ => 0)); [apply ct_exact|]. intros b.
    destruct (utf8_valid b); [exact (ct_lift _ (Ok b))|exact (ct_lift _ (Err EFormat))].
  - repeat split; vm_compute; reflexivity.
Qed.
Example file_calls_ex : run_reader (read_file Release ex_toml) (file_of (ex_emb (Some ex_norms)) 0) = Ok (ex_emb (Some ex_norms)) /\ few_calls (read_file Release ex_toml) 2.
Proof.
  split; [vm_compute; reflexivity|]. destruct (chunk_thrift Release) as (_ & _ & _ & _ & _ & V & _ & _ & S & _). exact (proj1 (file_calls ex_toml _ _ V S)).
Qed.

(** word2vec: the same unless the vectors have no components. *)
Theorem word2vec_calls_partial : forall pf (Md : Type) lossy (raw : bool),
  exists c, counts (if raw then read_word2vec_raw (Md := Md) pf lossy else read_word2vec pf lossy) c /\
  (forall s, c s <= lenN (s_rest s) + 2 \/
    exists n s1 s2, read_number x20 s = (Ok n, s1) /\ read_number x0a s1 = (Ok 0, s2) /\ c s <= lenN (s_rest s) + 2 + 2 * n) /\
  (forall n p, n * 24 <= isize_max -> c (mkStream (no_dims n) p) = 2 + 2 * n).
Proof. exact (@WorkThms.word2vec_calls). Qed.
Print Assumptions word2vec_calls_partial.
(** Then there is no bound: a file of 22 bytes can take as many calls as there
    are words that fit in memory (2^63 / 24), and ends in a panic. *)
Theorem word2vec_calls_refuted : forall pf (Md : Type) lossy,
  exists c, counts (read_word2vec_raw (Md := Md) pf lossy) c /\
  forall k, k <= 384307168202282323 -> exists data, lenN data <= 22 /\ c (mkStream data 0) = 2 * k + 2 /\ (2 <= k -> run_reader (read_word2vec_raw (Md := Md) pf lossy) data = Panic PDuplicateWords).
Proof. exact (@WorkThms.word2vec_slow). Qed.
Print Assumptions word2vec_calls_refuted.

Example word2vec_slow_ex : no_dims 1000000000 = [x31; x30; x30; x30; x30; x30; x30; x30; x30; x30; x20; x30; x0a] /\
  exists c, counts (read_word2vec_raw (Md := unit) Release false) c /\ c (mkStream (no_dims 1000000000) 0) = 2000000002.
Proof.
  split; [vm_compute; reflexivity|]. destruct (word2vec_calls Release (Md := unit) false true) as (c & C & _ & X). exists c. split; [exact C|].
  rewrite X; [reflexivity|]. vm_compute. discriminate.
Qed.
