(** * Lookups do not depend on the byte order of the host. *)
From Verif Require Import Base BaseFacts Stream F32 ChunkIO Subword Vocab Storage Embeddings Endian FileSpec
  StreamFacts ChunkFacts ReadFacts PanicFacts.
From Coq Require Import Lia.
Local Open Scope N_scope.

Lemma host_convert h l : forall n, (length l <= n)%nat -> from_slice_f32 h (host_f32s h l) = f32s_of_bytes l.
Proof.
  intros n. revert l. induction n as [|n IH]; intros l L.
  - destruct l; [|cbn in L; inversion L]. destruct h; reflexivity.
  - destruct l as [|a [|b [|c [|d l]]]]; try (destruct h; reflexivity).
    assert (length l <= n)%nat as L' by (cbn in L; repeat apply le_S_n in L; apply le_S_n in L || idtac; lia).
    specialize (IH l L'). destruct h; cbn [host_f32s from_slice_f32 f32s_of_bytes map swap_f32] in *; rewrite IH; reflexivity.
Qed.

Lemma mma_row_host h m i : (let* r := mma_raw_row h m i in Ok (from_slice_f32 h r)) = mma_row m i.
Proof.
  unfold mma_raw_row, mma_row. destruct (i <? ma_rows m); [|reflexivity].
  destruct (mm_read _ _ _); cbn [rbind]; try reflexivity. rewrite (host_convert h _ _ (le_n _)). reflexivity.
Qed.

Lemma rmap_convert {A B C} (f : A -> res B) (g : B -> C) (f' : A -> res C) l :
  (forall x, (let* y := f x in Ok (g y)) = f' x) -> (let* ys := rmap f l in Ok (map g ys)) = rmap f' l.
Proof.
  intros H. induction l as [|x l IH]; [reflexivity|]. cbn [rmap]. rewrite <- H, <- IH.
  destruct (f x); cbn [rbind]; try reflexivity. destruct (rmap f l); reflexivity.
Qed.

Lemma mma_host h :
  (forall m i, st_embedding (mma_ops_on h) m i = st_embedding mma_ops m i) /\
  (forall m is, st_embeddings (mma_ops_on h) m is = st_embeddings mma_ops m is) /\
  (forall m, st_shape (mma_ops_on h) m = st_shape mma_ops m).
Proof.
  split; [intros; apply mma_row_host|]. split; [|reflexivity]. intros m is. cbn [st_embeddings mma_ops_on mma_ops].
  rewrite <- (rmap_convert (mma_raw_row h m) (from_slice_f32 h) (mma_row m) is (mma_row_host h m)).
  destruct (rmap _ is); reflexivity.
Qed.

Section Gemm.
  Variable gemm : array2 f32 -> list (list f32) -> list (list f32).

  Lemma swrap_host h :
    (forall s i, st_embedding (swrap_ops_on gemm h) s i = st_embedding (swrap_ops gemm) s i) /\
    (forall s is, st_embeddings (swrap_ops_on gemm h) s is = st_embeddings (swrap_ops gemm) s is) /\
    (forall s, st_shape (swrap_ops_on gemm h) s = st_shape (swrap_ops gemm) s) /\
    (forall s is, swrap_clone_on h s is = swrap_clone_from_mapping s is).
  Proof.
    destruct (mma_host h) as (A & B & C).
    split; [intros [| | |] ?; cbn -[mma_ops mma_ops_on]; auto|].
    split; [intros [| | |] ?; cbn -[mma_ops mma_ops_on]; auto|].
    split; [intros [| | |]; cbn -[mma_ops mma_ops_on]; auto|].
    intros [| | |] is; cbn [swrap_clone_on]; try reflexivity. rewrite B. reflexivity.
  Qed.

  Section Emb.
    Context {Md V : Type} (VO : vocab_ops V) (pf : profile) (h : host) (e : embeddings Md V storage_wrap f32).

    Lemma into_host w t : emb_embedding_into f32_ops VO (swrap_ops_on gemm h) pf e w t
                          = emb_embedding_into f32_ops VO (swrap_ops gemm) pf e w t.
    Proof.
      destruct (swrap_host h) as (A & B & C & _). unfold emb_embedding_into, emb_dims. rewrite C.
      destruct (rassert _ _); cbn [rbind]; try reflexivity.
      destruct (v_idx _ _ _ _) as [[[|]|]| |]; cbn [rbind]; rewrite ?A, ?B; reflexivity.
    Qed.

    Lemma batch_step_host st p : batch_step f32_ops VO (swrap_ops_on gemm h) pf e st p
                                 = batch_step f32_ops VO (swrap_ops gemm) pf e st p.
    Proof.
      destruct st as [out found], p as [w is]. unfold batch_step. destruct (index is 0); cbn [rbind]; try reflexivity.
      destruct (index out a); cbn [rbind]; try reflexivity. rewrite into_host. reflexivity.
    Qed.

    Lemma batch_fold_host ps : forall st, rfold (batch_step f32_ops VO (swrap_ops_on gemm h) pf e) ps st
                                          = rfold (batch_step f32_ops VO (swrap_ops gemm) pf e) ps st.
    Proof.
      induction ps as [|p ps IH]; intros st; [reflexivity|]. cbn [rfold]. rewrite batch_step_host.
      destruct (batch_step _ _ _ _ _ _ _); cbn [rbind]; auto.
    Qed.

    Lemma batch_into_host order words out : emb_batch_into f32_ops VO (swrap_ops_on gemm h) pf order e words out
                                            = emb_batch_into f32_ops VO (swrap_ops gemm) pf order e words out.
    Proof.
      destruct (swrap_host h) as (_ & _ & C & _). unfold emb_batch_into, emb_dims. rewrite C.
      destruct (rassert _ _); cbn [rbind]; try reflexivity. destruct (rassert _ _); cbn [rbind]; try reflexivity.
      apply batch_fold_host.
    Qed.

    (** Every lookup of embeddings with a storage of any kind. *)
    Lemma lookups_host :
      (forall w, emb_embedding f32_ops VO (swrap_ops_on gemm h) pf e w = emb_embedding f32_ops VO (swrap_ops gemm) pf e w) /\
      (forall w t, emb_embedding_into f32_ops VO (swrap_ops_on gemm h) pf e w t
                   = emb_embedding_into f32_ops VO (swrap_ops gemm) pf e w t) /\
      (forall w, emb_with_norm f32_ops VO (swrap_ops_on gemm h) pf e w = emb_with_norm f32_ops VO (swrap_ops gemm) pf e w) /\
      (forall order words, emb_batch f32_ops VO (swrap_ops_on gemm h) pf order e words
                           = emb_batch f32_ops VO (swrap_ops gemm) pf order e words) /\
      emb_iter VO (swrap_ops_on gemm h) e = emb_iter VO (swrap_ops gemm) e /\
      emb_iter_with_norms f32_ops VO (swrap_ops_on gemm h) e = emb_iter_with_norms f32_ops VO (swrap_ops gemm) e.
    Proof.
      destruct (swrap_host h) as (A & B & C & _).
      split; [intros w; unfold emb_embedding; destruct (v_idx _ _ _ _) as [[[|]|]| |]; cbn [rbind]; rewrite ?A, ?B; reflexivity|].
      split; [apply into_host|].
      split; [intros w; unfold emb_with_norm; destruct (v_idx _ _ _ _) as [[[|]|]| |]; cbn [rbind]; rewrite ?A, ?B; reflexivity|].
      split; [intros order words; unfold emb_batch; rewrite batch_into_host; unfold emb_dims; rewrite C; reflexivity|].
      split; apply rmap_ext; intros [i w] _; rewrite A; reflexivity.
    Qed.
  End Emb.
End Gemm.

(** The numbers are those whose little-endian bytes are the bytes of the
    file. *)
Lemma host_rows h m i r : st_embedding (mma_ops_on h) m i = Ok r <->
  i < ma_rows m /\ (i + 1) * (ma_cols m * 4) <= lenN (mm_bytes (ma_map m)) /\
  f32s_bytes r = takeN (ma_cols m * 4) (dropN (i * (ma_cols m * 4)) (mm_bytes (ma_map m))).
Proof.
  destruct (mma_host h) as (-> & _). cbn [st_embedding mma_ops]. unfold mma_row, mm_read.
  destruct (N.ltb_spec i (ma_rows m)).
  2:{ split; [discriminate|]. lia. }
  destruct (N.leb_spec (i * (ma_cols m * 4) + ma_cols m * 4) (lenN (mm_bytes (ma_map m)))).
  2:{ split; [discriminate|]. lia. }
  cbn [rbind]. set (bs := takeN _ _). split.
  - intros E. inv E. split; [auto|]. split; [lia|]. apply f32s_bytes_of_bytes. unfold bs.
    rewrite lenN_takeN, lenN_dropN. replace (N.min _ _) with (ma_cols m * 4) by lia. apply N.mod_mul. discriminate.
  - intros (_ & _ & E). rewrite <- E, f32s_of_bytes_bytes. reflexivity.
Qed.

(** Mapping as a storage with a view is an error on a big-endian host. *)
Lemma mmap_view_big T {V} (rv : reader V) pf s e s' : mmap_embeddings T rv (mmap_view_on Big pf) s <> (Ok e, s').
Proof.
  unfold mmap_embeddings. intros H. apply bind_Ok_inv in H as (ids & s1 & _ & H). destruct ids as [|id ids]; [discriminate|].
  apply bind_Ok_inv in H as (md & s2 & _ & H). apply bind_Ok_inv in H as (v & s3 & _ & H).
  apply bind_Ok_inv in H as (st & s4 & H & _). unfold mmap_view_on in H. apply bind_Ok_inv in H as (x & s5 & _ & H). discriminate.
Qed.
Lemma mmap_view_big_no_panic pf : panics_only (mmap_view_on Big pf) [].
Proof. unfold mmap_view_on, peek_chunk_id. apply po_bind; [|intros; apply po_fail]. apply po_peek, po_bind; [apply po_u32|intros; apply po_chunk_of_num]. Qed.

(** Writing. *)
Lemma write_host T {V} (VC : chunk_ops V) h (e : embeddings (toml_table T) V storage_wrap f32) :
  (h = Big /\ (exists m, em_storage e = SMmapArray m) ->
   (forall s, write_embeddings_on T VC h e s = (Panic PAssert, s)) /\ forall offset, write_embeddings_len_on T VC h e offset = Panic PAssert) /\
  (~ (h = Big /\ exists m, em_storage e = SMmapArray m) ->
   (forall s, write_embeddings_on T VC h e s = write_embeddings T VC swrap_chunk e s) /\
   forall offset, write_embeddings_len_on T VC h e offset = Ok (write_embeddings_len T VC swrap_chunk e offset)).
Proof.
  unfold write_embeddings_on, write_embeddings_len_on. split.
  - intros [-> (m & ->)]. split; reflexivity.
  - intros H. destruct h; [split; reflexivity|]. destruct (em_storage e); try (split; reflexivity). destruct H. eauto.
Qed.
