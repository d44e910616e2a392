(** * The readers of finalfusion files depend on where a file starts only through alignment (C132). *)
From Verif Require Import Base BaseFacts Utf8 Stream StreamFacts F32 ChunkIO Subword Vocab Storage Embeddings StartAnywhere.
Local Open Scope N_scope.

(** The result is the same four, eight, ... bytes further on. *)
Definition aligned {A} (m : reader A) : Prop := forall s k, m (moved s (4 * k)) = (fst (m s), moved (snd (m s)) (4 * k)).

Lemma al_any {A} (m : reader A) : anywhere m -> aligned m. Proof. intros H s k. apply H. Qed.
Lemma al_bind {A B} (m : reader A) (f : A -> reader B) : aligned m -> (forall a, aligned (f a)) -> aligned (bind m f).
Proof. intros H K s k. unfold bind. rewrite H. destruct (m s) as [[a|e|p] s1]; cbn [fst snd]; [apply K|reflexivity..]. Qed.
Lemma padding4_moved p k : padding4 (p + 4 * k) = padding4 p.
Proof. unfold padding4. rewrite (N.mul_comm 4 k), N.mod_add by discriminate. reflexivity. Qed.
Lemma al_padding {A} (m : reader A) : aligned m -> aligned (pos <- position ;; seek_forward (padding4 pos) ;;; m).
Proof.
  intros H s k. unfold bind, position, seek_forward. cbn [s_pos s_rest s_broken]. change (s_rest (moved s (4 * k))) with (s_rest s).
  change (s_broken (moved s (4 * k))) with (s_broken s). change (s_pos (moved s (4 * k))) with (s_pos s + 4 * k). rewrite padding4_moved, moved_add. apply H.
Qed.
Lemma any_seek n : anywhere (seek_forward n).
Proof.
  intros s k. unfold seek_forward. change (s_rest (moved s k)) with (s_rest s). change (s_broken (moved s k)) with (s_broken s). change (s_pos (moved s k)) with (s_pos s + k).
  rewrite moved_add. reflexivity.
Qed.
Lemma any_map len : anywhere (mmap_region len).
Proof. intros s k. unfold mmap_region. change (s_rest (moved s k)) with (s_rest s). destruct (len <=? isize_max); reflexivity. Qed.
Lemma any_peek {A} (m : reader A) : anywhere m -> anywhere (peek m).
Proof. intros H s k. unfold peek. rewrite H. destruct (m s) as [[a|e|p] s1]; reflexivity. Qed.
Lemma al_ok {A} (m : reader A) : aligned m -> aligned (ok_opt m).
Proof. intros H s k. unfold ok_opt. rewrite H. destruct (m s) as [[a|e|p] s1]; reflexivity. Qed.

Ltac anys := repeat (cbv zeta; any_step).
Lemma any_type id : anywhere (ensure_chunk_type id). Proof. unfold ensure_chunk_type. anys. Qed.
Lemma any_data t : anywhere (ensure_data_type t). Proof. unfold ensure_data_type. anys. Qed.
Lemma any_header : anywhere read_header. Proof. unfold read_header. anys. Qed.
Lemma any_item : anywhere read_string_item. Proof. unfold read_string_item. anys. Qed.
Lemma any_items n : anywhere (read_items n). Proof. unfold read_items. pose proof any_item. anys. Qed.
Lemma any_metadata_chunk T : anywhere (read_metadata_chunk T). Proof. unfold read_metadata_chunk. apply any_bind; [apply any_type|intros _]. anys. Qed.
Lemma any_peek_id : anywhere (peek peek_chunk_id). Proof. apply any_peek. unfold peek_chunk_id. anys. Qed.
Ltac any_more := repeat (cbv zeta; first [apply any_type | apply any_data | apply any_header | apply any_item | apply any_items | apply any_metadata_chunk | apply any_peek_id | any_step]).

(** ** Vocabularies, headers and metadata contain no padding *)
Lemma any_metadata T : anywhere (read_metadata T). Proof. unfold read_metadata. any_more. Qed.
Lemma any_simple : anywhere read_simple. Proof. unfold read_simple. any_more. Qed.
Lemma any_bucketed {I} (B : bucket_ops I) pf id : anywhere (read_bucketed B pf id). Proof. unfold read_bucketed. any_more. Qed.
Lemma any_explicit pf : anywhere (read_explicit pf). Proof. unfold read_explicit, read_ngrams_with_indices, read_ngram_item. any_more. Qed.
Lemma any_floret_chunk pf : anywhere (read_floret pf). Proof. unfold read_floret. any_more. Qed.
Lemma any_vocab_wrap pf : anywhere (read_vocab_wrap pf).
Proof.
  unfold read_vocab_wrap. apply any_bind; [apply any_peek_id|intros id]. pose proof any_simple. pose proof (any_explicit pf). pose proof (any_floret_chunk pf).
  destruct id; try apply any_fail; (apply any_bind; [first [assumption | apply any_bucketed]|intros ?; apply any_ret]).
Qed.
Lemma vocabs_anywhere T pf : anywhere read_simple /\ (forall I (B : bucket_ops I) id, anywhere (read_bucketed B pf id)) /\ anywhere (read_explicit pf) /\
  anywhere (read_floret pf) /\ anywhere (read_vocab_wrap pf) /\ anywhere (read_metadata T).
Proof. repeat split; intros; first [apply any_simple | apply any_bucketed | apply any_explicit | apply any_floret_chunk | apply any_vocab_wrap | apply any_metadata]. Qed.

(** ** Storages and norms *)
Ltac al_step := first
  [ apply al_padding | apply al_any; first [apply any_type | apply any_data | apply any_u8 | apply any_u32 | apply any_u64 | apply any_f32s | apply any_exact | apply any_reserve
    | apply any_alloc | apply any_lift | apply any_ret | apply any_fail | apply any_seek | apply any_map | apply any_peek_id | apply any_header | apply any_metadata_chunk]
  | assumption | apply al_bind; [|intros ?] | apply al_ok
  | match goal with |- aligned (match ?x with _ => _ end) => destruct x end ].
Ltac als := repeat (cbv zeta; al_step).
Lemma al_norms : aligned read_norms. Proof. unfold read_norms. als. Qed.
Lemma al_ndarray : aligned read_ndarray. Proof. unfold read_ndarray. als. Qed.
Lemma al_pq : aligned read_product_quantizer. Proof. unfold read_product_quantizer. als. Qed.
Lemma al_quantized : aligned read_quantized. Proof. unfold read_quantized, read_quantized_norms. pose proof al_pq. als. Qed.
Lemma al_mmap_ndarray pf : aligned (mmap_ndarray pf). Proof. unfold mmap_ndarray. als. Qed.
Lemma al_mmap_quantized pf : aligned (mmap_quantized_chunk pf). Proof. unfold mmap_quantized_chunk, read_quantized_norms. pose proof al_pq. als. Qed.
Lemma al_storage : aligned read_storage_wrap. Proof. unfold read_storage_wrap. pose proof al_ndarray. pose proof al_quantized. als. Qed.
Lemma al_view : aligned read_storage_view_wrap. Proof. unfold read_storage_view_wrap. pose proof al_ndarray. als. Qed.
Lemma al_mmap_storage pf : aligned (mmap_storage_wrap pf). Proof. unfold mmap_storage_wrap. pose proof (al_mmap_ndarray pf). pose proof (al_mmap_quantized pf). als. Qed.
Lemma al_mmap_view pf : aligned (mmap_storage_view_wrap pf). Proof. unfold mmap_storage_view_wrap. pose proof (al_mmap_ndarray pf). als. Qed.
Lemma storages_aligned pf : aligned read_norms /\ aligned read_ndarray /\ aligned read_quantized /\ aligned read_storage_wrap /\ aligned read_storage_view_wrap /\
  aligned (mmap_ndarray pf) /\ aligned (mmap_quantized_chunk pf) /\ aligned (mmap_storage_wrap pf) /\ aligned (mmap_storage_view_wrap pf).
Proof.
  repeat split; intros; first [apply al_norms | apply al_ndarray | apply al_quantized | apply al_storage | apply al_view | apply al_mmap_ndarray | apply al_mmap_quantized
    | apply al_mmap_storage | apply al_mmap_view].
Qed.

(** ** Files *)
Lemma files_aligned T {V S} (rv : reader V) (rs : reader S) : aligned rv -> aligned rs -> aligned (read_embeddings T rv rs) /\ aligned (mmap_embeddings T rv rs).
Proof. intros Hv Hs. pose proof al_norms. unfold read_embeddings, mmap_embeddings. split; als. Qed.
Lemma wrapped_aligned T pf : aligned (read_embeddings T (read_vocab_wrap pf) read_storage_wrap) /\ aligned (read_embeddings T (read_vocab_wrap pf) read_storage_view_wrap) /\
  aligned (mmap_embeddings T (read_vocab_wrap pf) (mmap_storage_wrap pf)) /\ aligned (mmap_embeddings T (read_vocab_wrap pf) (mmap_storage_view_wrap pf)).
Proof.
  pose proof (al_any _ (any_vocab_wrap pf)) as V. split; [|split; [|split]]; apply files_aligned; try exact V.
  - apply al_storage.
  - apply al_view.
  - apply al_mmap_storage.
  - apply al_mmap_view.
Qed.
