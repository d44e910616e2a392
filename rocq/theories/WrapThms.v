(** * Embeddings of concrete types and their conversions to wrapped ones. *)
From Verif Require Import Base BaseFacts Utf8 Stream F32 ChunkIO Subword Vocab Storage Embeddings Similarity FileSpec SimSpec FileThms.
Local Open Scope N_scope.

Lemma rfold_ext {A B} (f g : B -> A -> res B) l : (forall b a, f b a = g b a) -> forall b, rfold f l b = rfold g l b.
Proof. intros H. induction l as [|a l IH]; intros b; cbn [rfold]; [reflexivity|]. rewrite H. destruct (g b a); cbn [rbind]; auto. Qed.

Section Same.
  Context {Md V S V' S' F : Type} (o : fops F) (VO : vocab_ops V) (SO : storage_ops F S) (VO' : vocab_ops V') (SO' : storage_ops F S')
          (fv : V -> V') (fs : S -> S') (pf : profile).
  Hypothesis idx : forall v w, v_idx VO' pf (fv v) w = v_idx VO pf v w.
  Hypothesis wlen : forall v, v_words_len VO' (fv v) = v_words_len VO v.
  Hypothesis words : forall v, v_words VO' (fv v) = v_words VO v.
  Hypothesis row : forall s i, st_embedding SO' (fs s) i = st_embedding SO s i.
  Hypothesis rows : forall s is, st_embeddings SO' (fs s) is = st_embeddings SO s is.
  Hypothesis shape : forall s, st_shape SO' (fs s) = st_shape SO s.
  Variable e : embeddings Md V S F.
  Notation e' := (emb_wrap fv fs e).

  Lemma same_embedding w : emb_embedding o VO' SO' pf e' w = emb_embedding o VO SO pf e w.
  Proof.
    unfold emb_embedding. cbn [em_vocab em_storage emb_wrap]. rewrite idx. destruct (v_idx VO pf (em_vocab e) w) as [[[i|is]|]| |]; cbn [rbind]; rewrite ?row, ?rows; reflexivity.
  Qed.
  Lemma same_norm_at i : norm_at o e' i = norm_at o e i.
  Proof. reflexivity. Qed.
  Lemma same_with_norm w : emb_with_norm o VO' SO' pf e' w = emb_with_norm o VO SO pf e w.
  Proof.
    unfold emb_with_norm. cbn [em_vocab em_storage emb_wrap]. rewrite idx. destruct (v_idx VO pf (em_vocab e) w) as [[[i|is]|]| |]; cbn [rbind]; rewrite ?row, ?rows, ?same_norm_at; reflexivity.
  Qed.
  Lemma same_dims : emb_dims SO' e' = emb_dims SO e.
  Proof. unfold emb_dims. cbn [em_storage emb_wrap]. rewrite shape. reflexivity. Qed.
  Lemma same_into w t : emb_embedding_into o VO' SO' pf e' w t = emb_embedding_into o VO SO pf e w t.
  Proof.
    unfold emb_embedding_into. rewrite same_dims. destruct (rassert _ _); cbn [rbind]; try reflexivity. cbn [em_vocab em_storage emb_wrap].
    rewrite idx. destruct (v_idx VO pf (em_vocab e) w) as [[[i|is]|]| |]; cbn [rbind]; rewrite ?row, ?rows; reflexivity.
  Qed.
  Lemma same_batch_into order ws out : emb_batch_into o VO' SO' pf order e' ws out = emb_batch_into o VO SO pf order e ws out.
  Proof.
    unfold emb_batch_into. rewrite same_dims. destruct (rassert _ _); cbn [rbind]; try reflexivity. destruct (rassert _ _); cbn [rbind]; try reflexivity.
    apply rfold_ext. intros [out' found] [w is]. unfold batch_step. destruct (index is 0) as [n| |]; cbn [rbind]; try reflexivity. destruct (index out' n); cbn [rbind]; try reflexivity.
    rewrite same_into. reflexivity.
  Qed.
  Lemma same_batch order ws : emb_batch o VO' SO' pf order e' ws = emb_batch o VO SO pf order e ws.
  Proof. unfold emb_batch. rewrite same_dims. destruct (rassert _ _); cbn [rbind]; try reflexivity. apply same_batch_into. Qed.
  Lemma same_iter : emb_iter VO' SO' e' = emb_iter VO SO e.
  Proof. unfold emb_iter. cbn [em_vocab em_storage emb_wrap]. rewrite words. apply rmap_ext. intros [i w] _. rewrite row. reflexivity. Qed.
  Lemma same_iter_norms : emb_iter_with_norms o VO' SO' e' = emb_iter_with_norms o VO SO e.
  Proof. unfold emb_iter_with_norms. cbn [em_vocab em_storage emb_wrap]. rewrite words. apply rmap_ext. intros [i w] _. rewrite row, same_norm_at. reflexivity. Qed.

  Context (view : S -> res (array2 F)) (view' : S' -> res (array2 F)).
  Hypothesis viewed : forall s, view' (fs s) = view s.
  Lemma same_similarity q skip limit batch : similarity_ o VO' view' e' q skip limit batch = similarity_ o VO view e q skip limit batch.
  Proof. unfold similarity_. cbn [em_vocab em_storage emb_wrap]. rewrite wlen, words, viewed. reflexivity. Qed.
  Lemma same_word w limit batch : word_similarity o VO' SO' view' pf e' w limit batch = word_similarity o VO SO view pf e w limit batch.
  Proof. unfold word_similarity. rewrite same_embedding. destruct (emb_embedding o VO SO pf e w) as [[v|]| |]; cbn [rbind]; rewrite ?same_similarity; reflexivity. Qed.
  Lemma same_masked q limit skip batch : embedding_similarity_masked o VO' view' e' q limit skip batch = embedding_similarity_masked o VO view e q limit skip batch.
  Proof. unfold embedding_similarity_masked. rewrite same_similarity. reflexivity. Qed.
  Lemma same_analogy q remove limit batch : analogy_masked o VO' SO' view' pf e' q remove limit batch = analogy_masked o VO SO view pf e q remove limit batch.
  Proof.
    destruct q as [[w1 w2] w3]. unfold analogy_masked, lookup_words3. rewrite !same_embedding.
    destruct (emb_embedding o VO SO pf e w1) as [v1| |]; cbn [rbind]; try reflexivity.
    destruct (emb_embedding o VO SO pf e w2) as [v2| |]; cbn [rbind]; try reflexivity.
    destruct (emb_embedding o VO SO pf e w3) as [v3| |]; cbn [rbind]; try reflexivity.
    destruct v1, v2, v3; cbn [rbind]; try reflexivity. destruct remove as [[r1 r2] r3]. rewrite same_similarity. reflexivity.
  Qed.
End Same.

Lemma converted_lookups {Md} pf gemm V VO rv cv fv rw S SO rs cs fs : vkind pf V VO rv cv fv -> skind pf gemm rw S SO rs cs fs ->
  forall e : embeddings Md V S f32,
  (forall w, emb_embedding f32_ops wrap_ops (swrap_ops gemm) pf (emb_wrap fv fs e) w = emb_embedding f32_ops VO SO pf e w) /\
  (forall w, emb_with_norm f32_ops wrap_ops (swrap_ops gemm) pf (emb_wrap fv fs e) w = emb_with_norm f32_ops VO SO pf e w) /\
  (forall w t, emb_embedding_into f32_ops wrap_ops (swrap_ops gemm) pf (emb_wrap fv fs e) w t = emb_embedding_into f32_ops VO SO pf e w t) /\
  (forall order ws, emb_batch f32_ops wrap_ops (swrap_ops gemm) pf order (emb_wrap fv fs e) ws = emb_batch f32_ops VO SO pf order e ws) /\
  (forall order ws out, emb_batch_into f32_ops wrap_ops (swrap_ops gemm) pf order (emb_wrap fv fs e) ws out = emb_batch_into f32_ops VO SO pf order e ws out) /\
  emb_dims (swrap_ops gemm) (emb_wrap fv fs e) = emb_dims SO e /\ emb_len wrap_ops (emb_wrap fv fs e) = emb_len VO e /\
  emb_iter wrap_ops (swrap_ops gemm) (emb_wrap fv fs e) = emb_iter VO SO e /\
  emb_iter_with_norms f32_ops wrap_ops (swrap_ops gemm) (emb_wrap fv fs e) = emb_iter_with_norms f32_ops VO SO e.
Proof.
  intros K K' e. pose proof (vkind_ops _ _ _ _ _ _ K) as HV. pose proof (skind_ops _ _ _ _ _ _ _ _ K') as HS.
  split; [|split; [|split; [|split; [|split; [|split; [|split; [|split]]]]]]]; intros.
  - apply same_embedding; intros; first [apply HV|apply HS].
  - apply same_with_norm; intros; first [apply HV|apply HS].
  - apply same_into; intros; first [apply HV|apply HS].
  - apply same_batch; intros; first [apply HV|apply HS].
  - apply same_batch_into; intros; first [apply HV|apply HS].
  - apply same_dims; intros; apply HS.
  - exact (proj1 (proj2 (HV (em_vocab e)))).
  - apply same_iter; intros; first [apply HV|apply HS].
  - apply same_iter_norms; intros; first [apply HV|apply HS].
Qed.

Lemma converted_queries {Md} pf V VO rv cv fv S SO view fs : vkind pf V VO rv cv fv -> view_kind S SO view fs ->
  forall e : embeddings Md V S f32,
  (forall w, emb_embedding f32_ops wrap_ops svwrap_ops pf (emb_wrap fv fs e) w = emb_embedding f32_ops VO SO pf e w) /\
  (forall w limit batch, word_similarity f32_ops wrap_ops svwrap_ops svwrap_view pf (emb_wrap fv fs e) w limit batch = word_similarity f32_ops VO SO view pf e w limit batch) /\
  (forall q limit skip batch, embedding_similarity_masked f32_ops wrap_ops svwrap_view (emb_wrap fv fs e) q limit skip batch = embedding_similarity_masked f32_ops VO view e q limit skip batch) /\
  (forall q remove limit batch, analogy_masked f32_ops wrap_ops svwrap_ops svwrap_view pf (emb_wrap fv fs e) q remove limit batch = analogy_masked f32_ops VO SO view pf e q remove limit batch).
Proof.
  intros K K' e. pose proof (vkind_ops _ _ _ _ _ _ K) as HV.
  assert ((forall s i, st_embedding svwrap_ops (fs s) i = st_embedding SO s i) /\ (forall s is, st_embeddings svwrap_ops (fs s) is = st_embeddings SO s is) /\ (forall s, svwrap_view (fs s) = view s)) as (S1 & S2 & S3) by (destruct K'; auto).
  split; [|split; [|split]]; intros.
  - apply same_embedding; auto; intros; apply HV.
  - apply same_word; auto; intros; apply HV.
  - apply same_masked; auto; intros; apply HV.
  - apply same_analogy; auto; intros; apply HV.
Qed.
