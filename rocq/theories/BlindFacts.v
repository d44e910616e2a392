(** * finalfusion readers do not tell a broken device from the end of the data. *)
From Verif Require Import Base Utf8 Stream StreamFacts F32 ChunkIO Subword Vocab Storage Embeddings.
Local Open Scope N_scope.

Lemma blind_peek {A} (m : reader A) : blind m -> blind (peek m).
Proof. intros H s b. unfold peek. rewrite H. destruct (m s) as [[a|e|p] s1]; reflexivity. Qed.

Ltac blind_step := first
  [ apply blind_bind; [|intros ?] | apply blind_repeat | apply blind_ok_opt | apply blind_peek
  | apply blind_u32 | apply blind_u64 | apply blind_u8 | apply blind_exact | apply blind_seek | apply blind_position | apply blind_reserve | apply blind_lift | apply blind_fail | apply blind_ret
  | match goal with |- blind (match ?x with _ => _ end) => destruct x end
  | assumption ].
Ltac blinds := repeat (cbv zeta; blind_step).

Lemma blind_alloc shape size : blind (alloc_zeros shape size).
Proof. intros s b. unfold alloc_zeros. destruct (_ && _)%bool; reflexivity. Qed.
Lemma blind_chunk_type c : blind (ensure_chunk_type c). Proof. unfold ensure_chunk_type. blinds. Qed.
Lemma blind_data_type t : blind (ensure_data_type t). Proof. unfold ensure_data_type. blinds. Qed.
Lemma blind_header : blind read_header. Proof. unfold read_header. blinds. Qed.
Lemma blind_string : blind read_string_item. Proof. unfold read_string_item. blinds. Qed.
Lemma blind_items n : blind (read_items n). Proof. unfold read_items. blinds. all: apply blind_string. Qed.
Lemma blind_ngram : blind read_ngram_item. Proof. unfold read_ngram_item. blinds. all: apply blind_string. Qed.
Lemma blind_ngrams n : blind (read_ngrams_with_indices n). Proof. unfold read_ngrams_with_indices. blinds. all: apply blind_ngram. Qed.
Lemma blind_f32s n : blind (read_f32s n). Proof. unfold read_f32s. blinds. Qed.
Ltac blinds' := repeat (cbv zeta; first [blind_step | apply blind_alloc | apply blind_chunk_type | apply blind_data_type | apply blind_header | apply blind_items | apply blind_ngrams | apply blind_f32s | apply blind_string]).
Lemma blind_metadata_chunk T : blind (read_metadata_chunk T). Proof. unfold read_metadata_chunk. blinds'. Qed.
Lemma blind_metadata T : blind (read_metadata T). Proof. unfold read_metadata. blinds'. all: apply blind_metadata_chunk. Qed.
Lemma blind_norms : blind read_norms. Proof. unfold read_norms. blinds'. Qed.
Lemma blind_simple : blind read_simple. Proof. unfold read_simple. blinds'. Qed.
Lemma blind_bucketed I (ops : bucket_ops I) pf id : blind (read_bucketed ops pf id). Proof. unfold read_bucketed. blinds'. Qed.
Lemma blind_explicit pf : blind (read_explicit pf). Proof. unfold read_explicit. blinds'. Qed.
Lemma blind_floret pf : blind (read_floret pf). Proof. unfold read_floret. blinds'. Qed.
Lemma blind_chunk_id : blind peek_chunk_id. Proof. unfold peek_chunk_id. blinds'. Qed.
Lemma blind_vocab_wrap pf : blind (read_vocab_wrap pf).
Proof. unfold read_vocab_wrap. blinds'. all: first [apply blind_chunk_id | apply blind_simple | apply blind_bucketed | apply blind_explicit | apply blind_floret]. Qed.
Lemma blind_ndarray : blind read_ndarray. Proof. unfold read_ndarray. blinds'. Qed.
Lemma blind_quantizer : blind read_product_quantizer. Proof. unfold read_product_quantizer. blinds'. Qed.
Lemma blind_quantized_norms b n : blind (read_quantized_norms b n). Proof. unfold read_quantized_norms. blinds'. Qed.
Lemma blind_quantized : blind read_quantized. Proof. unfold read_quantized. blinds'. all: first [apply blind_quantizer|apply blind_quantized_norms]. Qed.
Lemma blind_storage_wrap : blind read_storage_wrap.
Proof. unfold read_storage_wrap. blinds'. all: first [apply blind_chunk_id | apply blind_quantized_norms | apply blind_quantized]. Qed.
Lemma blind_storage_view_wrap : blind read_storage_view_wrap.
Proof. unfold read_storage_view_wrap. blinds'. all: first [apply blind_chunk_id | apply blind_ndarray]. Qed.
Lemma blind_embeddings T {V S} (rv : reader V) (rs : reader S) : blind rv -> blind rs -> blind (read_embeddings T rv rs).
Proof. intros HV HS. unfold read_embeddings. blinds'. all: first [apply blind_metadata_chunk | apply blind_norms]. Qed.

Lemma blind_map len : blind (mmap_region len).
Proof. intros s b. unfold mmap_region. destruct (_ <=? _); reflexivity. Qed.
Lemma blind_mmap_ndarray pf : blind (mmap_ndarray pf). Proof. unfold mmap_ndarray. blinds'. all: apply blind_map. Qed.
Lemma blind_mmap_quantized pf : blind (mmap_quantized_chunk pf).
Proof. unfold mmap_quantized_chunk. blinds'. all: first [apply blind_map | apply blind_quantizer | apply blind_quantized_norms]. Qed.
Lemma blind_mmap_storage_wrap pf : blind (mmap_storage_wrap pf).
Proof. unfold mmap_storage_wrap. blinds'. all: first [apply blind_map | apply blind_quantizer | apply blind_quantized_norms]. Qed.
Lemma blind_mmap_storage_view_wrap pf : blind (mmap_storage_view_wrap pf).
Proof. unfold mmap_storage_view_wrap. blinds'. all: first [apply blind_map]. Qed.
Lemma blind_mmap_embeddings T {V S} (rv : reader V) (rs : reader S) : blind rv -> blind rs -> blind (mmap_embeddings T rv rs).
Proof. exact (blind_embeddings T rv rs). Qed.
