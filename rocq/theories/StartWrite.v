(** * What is written depends on where the writer starts only through alignment (C133). *)
From Verif Require Import Base BaseFacts Utf8 Stream StreamFacts F32 ChunkIO Subword Vocab Storage Embeddings TextIO FastText StartAligned.
Local Open Scope N_scope.

(** The same device, with the same room and the same bytes written, [n] bytes
    further on. *)
Definition shifted (k : sink) (n : N) : sink := mkSink (k_base k + n) (k_out k) (k_cap k).
(** The writer does the same [d], [2 * d], ... bytes further on. *)
Definition steady {A} (d : N) (w : writer A) : Prop := forall k n, w (shifted k (d * n)) = (fst (w k), shifted (snd (w k)) (d * n)).

Lemma st_bind {A B} d (m : writer A) (f : A -> writer B) : steady d m -> (forall a, steady d (f a)) -> steady d (bind m f).
Proof. intros H K s k. unfold bind. rewrite H. destruct (m s) as [[a|e|p] s1]; cbn [fst snd]; [apply K|reflexivity..]. Qed.
Lemma st_lift {A} d (r : res A) : steady d (lift r). Proof. intros s k. reflexivity. Qed.
Lemma st_ret {A} d (a : A) : steady d (ret a). Proof. intros s k. reflexivity. Qed.
Lemma st_fail {A} d e : steady (A := A) d (fail e). Proof. intros s k. reflexivity. Qed.
Lemma st_bytes d bs : steady d (write_bytes bs).
Proof.
  intros s k. unfold write_bytes. change (k_cap (shifted s (d * k))) with (k_cap s). change (k_out (shifted s (d * k))) with (k_out s).
  destruct (k_cap s) as [c|]; [destruct (lenN (k_out s) + lenN bs <=? c)|]; reflexivity.
Qed.
Lemma st_each {A} d (l : list A) (f : A -> writer unit) : (forall a, steady d (f a)) -> steady d (for_each l f).
Proof. intros H. induction l as [|a l IH]; cbn [for_each]; [apply st_ret|]. apply st_bind; [apply H|intros _; exact IH]. Qed.
Lemma st_as_read {A} d (m : writer A) : steady d m -> steady d (as_read m).
Proof. intros H s k. unfold as_read. rewrite H. destruct (m s) as [r s1]. reflexivity. Qed.
Lemma st_position {A} (f : N -> writer A) : (forall p n, f (p + 4 * n) = f p) -> (forall p, steady 4 (f p)) -> steady 4 (bind wposition f).
Proof.
  intros E H s k. unfold bind, wposition. replace (k_pos (shifted s (4 * k))) with (k_pos s + 4 * k) by (unfold k_pos, shifted; cbn [k_base k_out]; lia).
  rewrite E. apply H.
Qed.
Lemma st_unused {A} d (f : N -> writer A) : (forall p q, f p = f q) -> (forall p, steady d (f p)) -> steady d (bind wposition f).
Proof. intros E H s k. unfold bind, wposition. rewrite (E _ (k_pos s)). apply H. Qed.
Ltac st_step := first
  [ assumption | apply st_bytes | apply st_lift | apply st_ret | apply st_fail | apply st_as_read | apply st_each; intros ? | apply st_bind; [|intros ?]
  | match goal with |- steady _ (match ?x with _ => _ end) => destruct x end ].
Ltac sts := repeat (cbv zeta; st_step).
Lemma padding4_shifted p n : padding4 (p + 4 * n + 4) = padding4 (p + 4).
Proof. replace (p + 4 * n + 4) with (p + 4 + 4 * n) by lia. apply padding4_moved. Qed.

(** ** Chunks *)
Lemma st_u8 d n : steady d (write_u8 n). Proof. apply st_bytes. Qed.
Lemma st_header d ids : steady d (write_header ids). Proof. unfold write_header, write_u32. sts. Qed.
Lemma st_metadata d T t : steady d (write_metadata T t). Proof. unfold write_metadata, write_u32, write_u64. sts. Qed.
Lemma st_items d l : steady d (write_items l). Proof. unfold write_items, write_string, write_u32. sts. Qed.
Lemma st_f32s d l : steady d (write_f32s l). Proof. unfold write_f32s. sts. Qed.
Lemma st_simple d v : steady d (write_simple v).
Proof.
  unfold write_simple, write_u32, write_u64. apply st_bind; [apply st_bytes|intros _]. pose proof (st_items d (sm_words v)).
  apply st_unused; [reflexivity|intros p; sts].
Qed.
Lemma st_bucketed {I} (B : bucket_ops I) d id v : steady d (write_bucketed B id v).
Proof. unfold write_bucketed, write_u32, write_u64. pose proof (st_items d (sv_words v)). sts. Qed.
Lemma st_explicit d v : steady d (write_explicit v).
Proof. unfold write_explicit, write_ngrams_with_indices, write_u32, write_u64. pose proof (st_items d (sv_words v)). sts. Qed.
Lemma st_floret d v : steady d (write_floret v). Proof. unfold write_floret, write_string, write_u32, write_u64. sts. Qed.
Lemma st_vocab d v : steady d (write_vocab_wrap v).
Proof. destruct v as [v|v|v|v|v]; [exact (st_simple d v)|exact (st_explicit d v)|exact (st_bucketed _ d _ v)|exact (st_floret d v)|exact (st_bucketed _ d _ v)]. Qed.
Lemma st_norms l : steady 4 (write_norms l).
Proof.
  unfold write_norms, write_u32, write_u64. apply st_bind; [apply st_bytes|intros _]. pose proof (st_f32s 4 l). apply st_position; [|intros p; sts].
  intros p n. unfold norms_chunk_len. rewrite padding4_moved, padding4_shifted. reflexivity.
Qed.
Lemma st_ndarray a : steady 4 (write_ndarray a).
Proof.
  unfold write_ndarray, write_u32, write_u64. apply st_bind; [apply st_bytes|intros _]. apply st_position.
  - intros p n. unfold nd_chunk_len. rewrite padding4_moved, padding4_shifted. reflexivity.
  - intros p. unfold write_f32s. sts.
Qed.
Lemma st_quantized q : steady 4 (write_quantized q).
Proof.
  unfold write_quantized, write_u32, write_u64. cbv zeta. apply st_bind; [apply st_bytes|intros _]. apply st_position.
  - intros p n. unfold qa_chunk_len, qa_chunk_len_. rewrite padding4_moved, padding4_shifted. reflexivity.
  - intros p. unfold write_f32s. sts.
Qed.
Lemma st_mmap_ndarray m : steady 4 (write_mmap_ndarray m).
Proof. unfold write_mmap_ndarray. apply st_bind; [apply st_lift|intros a; apply st_ndarray]. Qed.
Lemma st_mmap_quantized m : steady 4 (write_mmap_quantized m).
Proof. unfold write_mmap_quantized. apply st_bind; [apply st_lift|intros a; apply st_quantized]. Qed.
Lemma st_storage s : steady 4 (write_storage_wrap s).
Proof. destruct s as [a|q|a|q]; [exact (st_ndarray a)|exact (st_quantized q)|exact (st_mmap_ndarray a)|exact (st_mmap_quantized q)]. Qed.
Lemma st_view s : steady 4 (write_storage_view_wrap s).
Proof. destruct s as [a|a]; [exact (st_ndarray a)|exact (st_mmap_ndarray a)]. Qed.
Lemma chunks_steady d T : (forall v, steady d (write_simple v)) /\ (forall I (B : bucket_ops I) id v, steady d (write_bucketed B id v)) /\
  (forall v, steady d (write_explicit v)) /\ (forall v, steady d (write_floret v)) /\ (forall v, steady d (write_vocab_wrap v)) /\ (forall t, steady d (write_metadata T t)) /\
  (forall a, steady 4 (write_ndarray a)) /\ (forall q, steady 4 (write_quantized q)) /\ (forall s, steady 4 (write_storage_wrap s)) /\
  (forall s, steady 4 (write_storage_view_wrap s)) /\ (forall l, steady 4 (write_norms l)).
Proof.
  split; [apply st_simple|]. split; [intros; apply st_bucketed|]. split; [apply st_explicit|]. split; [apply st_floret|]. split; [apply st_vocab|]. split; [apply st_metadata|].
  split; [apply st_ndarray|]. split; [apply st_quantized|]. split; [apply st_storage|]. split; [apply st_view|apply st_norms].
Qed.

(** ** Files *)
Lemma embeddings_steady T {V S} (VC : chunk_ops V) (SC : chunk_ops S) e : (forall v, steady 4 (ck_write VC v)) -> (forall s, steady 4 (ck_write SC s)) ->
  steady 4 (write_embeddings T VC SC e).
Proof.
  intros HV HS. unfold write_embeddings. apply st_bind; [apply st_header|intros _]. apply st_bind; [destruct (em_meta e); [apply st_metadata|apply st_ret]|intros _].
  apply st_bind; [apply HV|intros _]. apply st_bind; [apply HS|intros _]. destruct (em_norms e); [apply st_norms|apply st_ret].
Qed.
Lemma run_steady d (w : writer unit) base n : steady d w -> run_writer w (base + d * n) = run_writer w base.
Proof.
  intros H. unfold run_writer. specialize (H (mkSink base [] None) n). unfold shifted at 1 in H. cbn [k_base k_out k_cap] in H. rewrite H.
  destruct (w (mkSink base [] None)) as [[u|e|p] k]; reflexivity.
Qed.
Lemma file_bytes_aligned T (e : embeddings (toml_table T) vocab_wrap storage_wrap f32) base n :
  run_writer (write_embeddings T vwrap_chunk swrap_chunk e) (base + 4 * n) = run_writer (write_embeddings T vwrap_chunk swrap_chunk e) base.
Proof. apply run_steady, embeddings_steady; [intros v; apply st_vocab|intros s; apply st_storage]. Qed.

(** The length that is predicted before writing. *)
Definition steady_len {X} (len : X -> N -> N) : Prop := forall x o n, len x (o + 4 * n) = len x o.
Lemma nd_len_steady {F} : steady_len (nd_chunk_len (F := F)).
Proof. intros a o n. unfold nd_chunk_len. rewrite padding4_shifted. reflexivity. Qed.
Lemma qa_len_steady {F} : steady_len (qa_chunk_len (F := F)).
Proof. intros a o n. unfold qa_chunk_len, qa_chunk_len_. rewrite padding4_shifted. reflexivity. Qed.
Lemma swrap_len_steady : steady_len swrap_chunk_len.
Proof.
  intros [a|q|m|q] o n; cbn [swrap_chunk_len]; [apply nd_len_steady|apply qa_len_steady|..]; unfold nd_chunk_len, qa_chunk_len_; rewrite padding4_shifted; reflexivity.
Qed.
Lemma svwrap_len_steady : steady_len svwrap_chunk_len.
Proof. intros [a|m] o n; cbn [svwrap_chunk_len]; [apply nd_len_steady|apply swrap_len_steady]. Qed.
Lemma vwrap_len_steady : steady_len vocab_wrap_chunk_len.
Proof. intros [v|v|v|v|v] o n; reflexivity. Qed.
Lemma predicted_steady T {V S} (VC : chunk_ops V) (SC : chunk_ops S) : steady_len (ck_len VC) -> steady_len (ck_len SC) -> steady_len (write_embeddings_len T VC SC).
Proof.
  intros HV HS e o n. unfold write_embeddings_len. cbv zeta.
  assert (forall l, o + 4 * n + l = o + l + 4 * n) as E by (intros; lia). unfold header_chunk_len, metadata_chunk_len, norms_chunk_len.
  destruct (em_meta e), (em_norms e); repeat first [rewrite E | rewrite HV | rewrite HS | rewrite padding4_shifted]; reflexivity.
Qed.
Lemma predicted_aligned T : steady_len (write_embeddings_len T vwrap_chunk swrap_chunk) /\ steady_len (write_embeddings_len T vwrap_chunk svwrap_chunk).
Proof. split; apply predicted_steady; first [exact vwrap_len_steady | exact swrap_len_steady | exact svwrap_len_steady]. Qed.

(** ** Other formats *)
Section Other.
  Context (P : ftext_ops) (pf : profile) {Md V S : Type} (VO : vocab_ops V) (SO : storage_ops f32 S).
  Lemma st_text un (e : embeddings Md V S f32) : steady 1 (write_text P VO SO un e).
  Proof. unfold write_text. sts. Qed.
  Lemma st_dims un (e : embeddings Md V S f32) : steady 1 (write_text_dims P VO SO un e).
  Proof. unfold write_text_dims. apply st_bind; [apply st_bytes|intros _; apply st_text]. Qed.
  Lemma st_word2vec un (e : embeddings Md V S f32) : steady 1 (write_word2vec VO SO un e).
  Proof. unfold write_word2vec, write_f32s. sts. Qed.
  Lemma st_floret_text (e : embeddings Md (subword_vocab floret_indexer) (array2 f32) f32) : steady 1 (write_floret_text P pf e).
  Proof. unfold write_floret_text. sts. Qed.
End Other.
Lemma st_fasttext pf T {S} (SO : storage_ops f32 S) e : steady 1 (write_fasttext pf T SO e).
Proof. unfold write_fasttext, write_config, write_ft_vocab, write_ft_matrix, write_entry_type, write_f32s, write_u8, write_u32, write_u64. sts. Qed.
Lemma other_steady P pf T {Md V S} (VO : vocab_ops V) (SO : storage_ops f32 S) un : (forall e : embeddings Md V S f32, steady 1 (write_text P VO SO un e) /\
  steady 1 (write_text_dims P VO SO un e) /\ steady 1 (write_word2vec VO SO un e)) /\
  (forall e : embeddings Md (subword_vocab floret_indexer) (array2 f32) f32, steady 1 (write_floret_text P pf e)) /\
  (forall e, steady 1 (write_fasttext pf T SO e)).
Proof.
  split; [intros e; split; [apply st_text|]; split; [apply st_dims|apply st_word2vec]|]. split; [intros e; apply st_floret_text|intros e; apply st_fasttext].
Qed.
