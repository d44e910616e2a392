(** * The writers with texts are the writers. *)
From Coq Require Import Strings.String.
From Verif Require Import Base BaseFacts Utf8 Stream F32 ChunkIO Subword Vocab Storage Embeddings TextIO EmbSpec FileSpec
  FastText Messages MessageSpec MessageThms CompatErasure WriteMessages WriteSpec.
Local Open Scope N_scope.

Lemma wsame_bind {A B} (d : W A) m (k : A -> W B) (h : A -> writer B) :
  wsame d m -> (forall a, wsame (k a) (h a)) -> wsame (wbind d k) (Stream.bind m h).
Proof.
  intros H K s. specialize (H s). unfold wbind, Stream.bind. rewrite <- H.
  destruct (d s) as [[a|e|p] s']; cbn [fst snd forget]; auto. apply K.
Qed.
Lemma wsame_ret {A} (a : A) : wsame (wret a) (ret a).
Proof. intros s. reflexivity. Qed.
Lemma wsame_fail {A} e : wsame (@wfail A e) (fail (kind e)).
Proof. intros s. reflexivity. Qed.
Lemma wsame_bytes bs what : wsame (wbytes bs what) (write_bytes bs).
Proof.
  intros k. unfold wbytes, wio, write_bytes. destruct (k_cap k); [destruct (_ <=? _)|]; reflexivity.
Qed.
Lemma wsame_8 n what : wsame (w8 n what) (write_u8 n). Proof. apply wsame_bytes. Qed.
Lemma wsame_32 n what : wsame (w32 n what) (write_u32 n). Proof. apply wsame_bytes. Qed.
Lemma wsame_64 n what : wsame (w64 n what) (write_u64 n). Proof. apply wsame_bytes. Qed.
Lemma wsame_pos : wsame wpos wposition. Proof. intros s. reflexivity. Qed.
Lemma wsame_lift {A} (r : res A) : r <> Err EFuel -> wsame (wlift r) (lift r).
Proof. intros H s. unfold wlift, lift. destruct r as [a|e|p]; [reflexivity| |reflexivity]. destruct e; try reflexivity. congruence. Qed.
Lemma wsame_context {A} c (d : W A) m : wsame d m -> wsame (wcontext c d) m.
Proof. intros H s. specialize (H s). unfold wcontext. rewrite <- H. destruct (d s) as [[a|e|p] s']; reflexivity. Qed.
Lemma wsame_for_each {A} (l : list A) f g : (forall a, wsame (f a) (g a)) -> wsame (wfor_each l f) (for_each l g).
Proof. intros H. induction l as [|a l IH]; cbn [wfor_each for_each]; [apply wsame_ret|]. apply wsame_bind; auto. Qed.
Lemma wsame_floats l what : wsame (wfloats l what) (write_f32s l).
Proof. apply wsame_for_each. intros a. apply wsame_bytes. Qed.

Ltac ws := repeat (first
  [ apply wsame_ret | apply wsame_bytes | apply wsame_8 | apply wsame_32 | apply wsame_64 | apply wsame_pos
  | apply wsame_floats | apply wsame_context | (apply wsame_bind; [|intros ?]) | (apply wsame_for_each; intros ?) ]).

(** Pairs bound by a loop. *)
Ltac dp := match goal with |- wsame (let '(_, _) := ?x in _) _ => destruct x end.

Lemma wsame_string s : wsame (tell_string s) (write_string s).
Proof. unfold tell_string, write_string. ws. Qed.
Lemma wsame_items l : wsame (tell_items l) (write_items l).
Proof. apply wsame_for_each. apply wsame_string. Qed.
Lemma wsame_vocab v : wsame (tell_vocab v) (write_vocab_wrap v).
Proof.
  destruct v as [v|v|v|v|v]; cbn [tell_vocab write_vocab_wrap];
    unfold tell_simple, write_simple, tell_explicit, write_explicit, tell_bucketed, write_bucketed, tell_floret, write_floret;
    ws; try apply wsame_items; try apply wsame_string.
  unfold tell_ngrams, write_ngrams_with_indices, tell_ngram. ws.
  - apply wsame_lift. unfold explicit_index. destruct (hm_get _ _); congruence.
  - match goal with |- wsame (match ?x with _ => _ end) _ => destruct x as [|i [|]] end; ws; apply (@wsame_fail unit (MWrite _)).
Qed.
Lemma wsame_ndarray a : wsame (tell_ndarray a) (write_ndarray a).
Proof. unfold tell_ndarray, write_ndarray. ws. Qed.
Lemma wsame_quantized q : wsame (tell_quantized q) (write_quantized q).
Proof. unfold tell_quantized, write_quantized. ws. - destruct (pq_proj _); ws. - destruct (qa_norms _); ws. Qed.
Lemma mm_read_nr m i n : forall e, mm_read m i n <> Err e.
Proof. intros e. unfold mm_read. destruct (_ <=? _); congruence. Qed.
Lemma mma_view_nr m : forall e, mma_view m <> Err e.
Proof. apply nr_bind2; [apply mm_read_nr|]. congruence. Qed.
Lemma mmq_nr m : forall e, mmq_to_quantized m <> Err e.
Proof.
  apply nr_bind2; [|congruence]. unfold mmq_codes. apply nr_bind2; [|congruence].
  apply mm_read_nr.
Qed.
Lemma wsame_storage s : wsame (tell_storage s) (write_storage_wrap s).
Proof.
  destruct s; cbn [tell_storage write_storage_wrap]; unfold write_mmap_ndarray, write_mmap_quantized.
  all: try apply wsame_ndarray; try apply wsame_quantized.
  all: apply wsame_bind; [apply wsame_lift; auto using mma_view_nr, mmq_nr|intros ?; auto using wsame_ndarray, wsame_quantized].
Qed.
Lemma wsame_file T e : wsame (tell_file T e) (write_file T e).
Proof.
  unfold tell_file, write_file, write_embeddings. apply wsame_bind; [unfold tell_header, write_header; ws|intros _].
  apply wsame_bind; [destruct (em_meta e); unfold tell_metadata, write_metadata; ws|intros _].
  apply wsame_bind; [apply wsame_vocab|intros _]. apply wsame_bind; [apply wsame_storage|intros _].
  destruct (em_norms e); unfold tell_norms, write_norms; ws.
Qed.

(** ** Other formats *)
Section Other.
  Context (P : ftext_ops) {Md V S : Type} (VO : vocab_ops V) (SO : storage_ops f32 S).
  Context (SO_nr : forall s i e, st_embedding SO s i <> Err e).

  Lemma iter_nr (e : embeddings Md V S f32) : forall err, emb_iter_with_norms f32_ops VO SO e <> Err err.
  Proof.
    apply nr_rmap. intros [i w]. apply nr_bind2; [apply SO_nr|]. intros v _. apply nr_bind2; [|congruence].
    unfold norm_at. destruct (em_norms e); [apply nr_index|congruence].
  Qed.
  Lemma wsame_text u e : wsame (tell_text P VO SO u e) (@write_text P Md V S VO SO u e).
  Proof. unfold tell_text, write_text. ws; [apply wsame_lift, iter_nr|]. dp. ws. Qed.
  Lemma wsame_text_dims u e : wsame (tell_text_dims P VO SO u e) (@write_text_dims P Md V S VO SO u e).
  Proof. unfold tell_text_dims, write_text_dims. apply wsame_bind; [apply wsame_bytes|intros _]. apply wsame_text. Qed.
  Lemma wsame_word2vec u e : wsame (tell_word2vec VO SO u e) (@write_word2vec Md V S VO SO u e).
  Proof. unfold tell_word2vec, write_word2vec. ws; [apply wsame_lift, iter_nr|]. dp. ws. Qed.
End Other.

Lemma wsame_floret_text P pf {Md} (e : embeddings Md (subword_vocab floret_indexer) (array2 f32) f32) :
  wsame (tell_floret_text P pf e) (write_floret_text P pf e).
Proof.
  unfold tell_floret_text, write_floret_text. ws.
  - apply wsame_lift. unfold sub_vocab_len. apply nr_bind2; [discriminate|]. intros a _. apply nr_add64.
  - apply wsame_lift, nr_assert.
  - dp. ws.
Qed.

Section FT.
  Context (pf : profile) (T : toml_ops) {S : Type} (SO : storage_ops f32 S).
  Context (SO_nr : forall s i e, st_embedding SO s i <> Err e).
  Lemma wsame_read_type : wsame (wio_read (write_u8 0) "Cannot read entry type") write_entry_type.
  Proof.
    intros k. unfold wio_read, write_entry_type, as_read, write_u8, write_bytes. destruct (k_cap k); [destruct (_ <=? _)|]; reflexivity.
  Qed.
  Lemma wsame_fasttext (e : embeddings (toml_table T) (subword_vocab ft_indexer) S f32) :
    wsame (tell_fasttext pf SO e) (write_fasttext pf T SO e).
  Proof.
    unfold tell_fasttext, write_fasttext.
    apply wsame_bind; [apply wsame_lift; destruct (_ <? _); congruence|intros b].
    apply wsame_bind; [apply wsame_lift; destruct (_ <? _); congruence|intros d]. cbv zeta.
    do 2 (apply wsame_bind; [apply wsame_32|intros _]).
    apply wsame_bind; [unfold tell_config, write_config; ws|intros _].
    apply wsame_bind; [|intros _; apply wsame_bind; [apply wsame_8|intros _]].
    - unfold tell_ft_vocab, write_ft_vocab. ws; [apply wsame_lift; destruct (_ <? _); congruence|apply wsame_read_type].
    - unfold tell_ft_matrix, write_ft_matrix. cbv zeta. ws.
      + apply wsame_lift, iter_nr; auto.
      + dp. ws. apply wsame_lift. unfold ft_word_vector. apply nr_bind2; [apply nr_ft_subwords|].
        intros r _. destruct r; [|congruence]. apply nr_rfold. intros acc j. apply nr_bind2; [apply SO_nr|congruence].
      + apply wsame_lift. unfold sub_vocab_len. apply nr_bind2; [discriminate|]. intros x _. apply nr_add64.
      + apply wsame_lift, SO_nr.
  Qed.
End FT.
