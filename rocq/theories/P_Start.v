(** * Theorems about where finalfusion files start (C132) and are written (C133). *)
From Verif Require Import Base BaseFacts Utf8 F32 Stream ChunkIO Subword Vocab Storage Embeddings FileSpec TextIO FastText StartAnywhere StartAligned StartWrite P_File.
Local Open Scope N_scope.

(** Vocabularies and metadata are read in the same way everywhere. *)
Theorem vocabs_anywhere_thm : forall T pf,
  anywhere read_simple /\ (forall I (B : bucket_ops I) id, anywhere (read_bucketed B pf id)) /\ anywhere (read_explicit pf) /\
  anywhere (read_floret pf) /\ anywhere (read_vocab_wrap pf) /\ anywhere (read_metadata T).
Proof. exact (@StartAligned.vocabs_anywhere). Qed.
Print Assumptions vocabs_anywhere_thm.
(** Storages, norms and files are read in the same way at positions that
    differ by a multiple of four. *)
Theorem storages_aligned_thm : forall pf,
  aligned read_norms /\ aligned read_ndarray /\ aligned read_quantized /\ aligned read_storage_wrap /\ aligned read_storage_view_wrap /\
  aligned (mmap_ndarray pf) /\ aligned (mmap_quantized_chunk pf) /\ aligned (mmap_storage_wrap pf) /\ aligned (mmap_storage_view_wrap pf).
Proof. exact (@StartAligned.storages_aligned). Qed.
Print Assumptions storages_aligned_thm.
Theorem files_aligned_thm : forall T (V S : Type) (rv : reader V) (rs : reader S),
  aligned rv -> aligned rs -> aligned (read_embeddings T rv rs) /\ aligned (mmap_embeddings T rv rs).
Proof. exact (@StartAligned.files_aligned). Qed.
Print Assumptions files_aligned_thm.
(** The hypotheses are met by the readers of all types. *)
Theorem wrapped_aligned_thm : forall T pf,
  aligned (read_embeddings T (read_vocab_wrap pf) read_storage_wrap) /\ aligned (read_embeddings T (read_vocab_wrap pf) read_storage_view_wrap) /\
  aligned (mmap_embeddings T (read_vocab_wrap pf) (mmap_storage_wrap pf)) /\ aligned (mmap_embeddings T (read_vocab_wrap pf) (mmap_storage_view_wrap pf)).
Proof. exact (@StartAligned.wrapped_aligned). Qed.
Print Assumptions wrapped_aligned_thm.
Example aligned_ex : let f := file_of (ex_emb (Some ex_norms)) 0 in
  fst (read_file Release ex_toml (mkStream f 0)) = Ok (ex_emb (Some ex_norms)) /\ fst (read_file Release ex_toml (mkStream f 8)) = Ok (ex_emb (Some ex_norms)).
Proof. vm_compute. auto. Qed.
(** At other positions the padding has another length: a file that was copied
    there is read without an error, but with other numbers and without its
    norms. *)
Theorem moved_file_refuted : exists (e e' : emb ex_toml) k, emb_built Release ex_toml e (em_storage e) /\
  fst (read_file Release ex_toml (mkStream (file_of e 0) 0)) = Ok e /\ fst (read_file Release ex_toml (mkStream (file_of e 0) k)) = Ok e' /\
  em_norms e <> None /\ em_norms e' = None /\ em_storage e' <> em_storage e /\ em_vocab e' = em_vocab e.
Proof.
  exists (ex_emb (Some ex_norms)). eexists. exists 1. split; [apply ex_built_norms|]. split; [vm_compute; reflexivity|]. split; [vm_compute; reflexivity|].
  split; [discriminate|]. split; [reflexivity|]. split; [vm_compute; discriminate|vm_compute; reflexivity].
Qed.
Print Assumptions moved_file_refuted.

(** ** Writers *)
Theorem chunks_steady_thm : forall d T,
  (forall v, steady d (write_simple v)) /\ (forall I (B : bucket_ops I) id v, steady d (write_bucketed B id v)) /\
  (forall v, steady d (write_explicit v)) /\ (forall v, steady d (write_floret v)) /\ (forall v, steady d (write_vocab_wrap v)) /\ (forall t, steady d (write_metadata T t)) /\
  (forall a, steady 4 (write_ndarray a)) /\ (forall q, steady 4 (write_quantized q)) /\ (forall s, steady 4 (write_storage_wrap s)) /\
  (forall s, steady 4 (write_storage_view_wrap s)) /\ (forall l, steady 4 (write_norms l)).
Proof. exact (@StartWrite.chunks_steady). Qed.
Print Assumptions chunks_steady_thm.
Theorem embeddings_steady_thm : forall T (V S : Type) (VC : chunk_ops V) (SC : chunk_ops S) e,
  (forall v, steady 4 (ck_write VC v)) -> (forall s, steady 4 (ck_write SC s)) ->
  steady 4 (write_embeddings T VC SC e).
Proof. exact (@StartWrite.embeddings_steady). Qed.
Print Assumptions embeddings_steady_thm.
(** The hypotheses are met by all types of vocabularies and storages; in
    particular: *)
Theorem file_bytes_aligned_thm : forall T (e : embeddings (toml_table T) vocab_wrap storage_wrap f32) base n,
  run_writer (write_embeddings T vwrap_chunk swrap_chunk e) (base + 4 * n) = run_writer (write_embeddings T vwrap_chunk swrap_chunk e) base.
Proof. exact (@StartWrite.file_bytes_aligned). Qed.
Print Assumptions file_bytes_aligned_thm.
Theorem predicted_steady_thm : forall T (V S : Type) (VC : chunk_ops V) (SC : chunk_ops S),
  steady_len (ck_len VC) -> steady_len (ck_len SC) -> steady_len (write_embeddings_len T VC SC).
Proof. exact (@StartWrite.predicted_steady). Qed.
Print Assumptions predicted_steady_thm.
Theorem predicted_aligned_thm : forall T,
  steady_len (write_embeddings_len T vwrap_chunk swrap_chunk) /\ steady_len (write_embeddings_len T vwrap_chunk svwrap_chunk).
Proof. exact (@StartWrite.predicted_aligned). Qed.
Print Assumptions predicted_aligned_thm.
Theorem other_steady_thm : forall P pf T (Md V S : Type) (VO : vocab_ops V) (SO : storage_ops f32 S) un,
  (forall e : embeddings Md V S f32, steady 1 (write_text P VO SO un e) /\
  steady 1 (write_text_dims P VO SO un e) /\ steady 1 (write_word2vec VO SO un e)) /\
  (forall e : embeddings Md (subword_vocab floret_indexer) (array2 f32) f32, steady 1 (write_floret_text P pf e)) /\
  (forall e, steady 1 (write_fasttext pf T SO e)).
Proof. exact (@StartWrite.other_steady). Qed.
Print Assumptions other_steady_thm.
Example file_bytes_aligned_ex : let f := file_of (ex_emb (Some ex_norms)) 0 in
  run_writer (write_file ex_toml (ex_emb (Some ex_norms))) 8 = Ok f /\ lenN f <> 0 /\ run_writer (write_file ex_toml (ex_emb (Some ex_norms))) 1 <> Ok f.
Proof. vm_compute. split; [reflexivity|]. split; discriminate. Qed.
Example predicted_aligned_ex : let len := write_embeddings_len ex_toml vwrap_chunk swrap_chunk (ex_emb (Some ex_norms)) in len 8 = len 0 /\ len 1 <> len 0.
Proof. vm_compute. split; [reflexivity|discriminate]. Qed.
