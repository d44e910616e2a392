(** * Theorems about hosts of either byte order (C78). *)
From Verif Require Import Base Stream F32 ChunkIO Subword Vocab Storage Embeddings Endian FileSpec.
From Verif Require EndianFacts.
Local Open Scope N_scope.

(** ** C78 *)
Theorem host_rows_thm : forall h m i r,
  st_embedding (mma_ops_on h) m i = Ok r <->
  i < ma_rows m /\ (i + 1) * (ma_cols m * 4) <= lenN (mm_bytes (ma_map m)) /\
  f32s_bytes r = takeN (ma_cols m * 4) (dropN (i * (ma_cols m * 4)) (mm_bytes (ma_map m))).
Proof. exact (@EndianFacts.host_rows). Qed.
Print Assumptions host_rows_thm.
Theorem host_storage_thm : forall gemm,
  forall h,
  (forall s i, st_embedding (swrap_ops_on gemm h) s i = st_embedding (swrap_ops gemm) s i) /\
    (forall s is, st_embeddings (swrap_ops_on gemm h) s is = st_embeddings (swrap_ops gemm) s is) /\
    (forall s, st_shape (swrap_ops_on gemm h) s = st_shape (swrap_ops gemm) s) /\
    (forall s is, swrap_clone_on h s is = swrap_clone_from_mapping s is).
Proof. exact (@EndianFacts.swrap_host). Qed.
Print Assumptions host_storage_thm.
Theorem host_lookups_thm : forall gemm (Md V : Type) (VO : vocab_ops V) (pf : profile) (h : host) (e : embeddings Md V storage_wrap f32),
  (forall w, emb_embedding f32_ops VO (swrap_ops_on gemm h) pf e w = emb_embedding f32_ops VO (swrap_ops gemm) pf e w) /\
      (forall w t, emb_embedding_into f32_ops VO (swrap_ops_on gemm h) pf e w t
                   = emb_embedding_into f32_ops VO (swrap_ops gemm) pf e w t) /\
      (forall w, emb_with_norm f32_ops VO (swrap_ops_on gemm h) pf e w = emb_with_norm f32_ops VO (swrap_ops gemm) pf e w) /\
      (forall order words, emb_batch f32_ops VO (swrap_ops_on gemm h) pf order e words
                           = emb_batch f32_ops VO (swrap_ops gemm) pf order e words) /\
      emb_iter VO (swrap_ops_on gemm h) e = emb_iter VO (swrap_ops gemm) e /\
      emb_iter_with_norms f32_ops VO (swrap_ops_on gemm h) e = emb_iter_with_norms f32_ops VO (swrap_ops gemm) e.
Proof. exact (@EndianFacts.lookups_host). Qed.
Print Assumptions host_lookups_thm.
Theorem host_write_thm : forall T (V : Type) (VC : chunk_ops V) h (e : embeddings (toml_table T) V storage_wrap f32),
  (h = Big /\ (exists m, em_storage e = SMmapArray m) ->
   (forall s, write_embeddings_on T VC h e s = (Panic PAssert, s)) /\ forall offset, write_embeddings_len_on T VC h e offset = Panic PAssert) /\
  (~ (h = Big /\ exists m, em_storage e = SMmapArray m) ->
   (forall s, write_embeddings_on T VC h e s = write_embeddings T VC swrap_chunk e s) /\
   forall offset, write_embeddings_len_on T VC h e offset = Ok (write_embeddings_len T VC swrap_chunk e offset)).
Proof. exact (@EndianFacts.write_host). Qed.
Print Assumptions host_write_thm.
Theorem host_view_thm : forall T (V : Type) (rv : reader V) pf s e s',
  mmap_embeddings T rv (mmap_view_on Big pf) s <> (Ok e, s').
Proof. exact (@EndianFacts.mmap_view_big). Qed.
Print Assumptions host_view_thm.
Theorem host_view_no_panic_thm : forall pf,
  panics_only (mmap_view_on Big pf) [].
Proof. exact (@EndianFacts.mmap_view_big_no_panic). Qed.
Print Assumptions host_view_no_panic_thm.
(** Two rows of one number, 1 and 2.  Without the conversion a big-endian host
    would see other numbers. *)
Definition host_map : mmap_array := mkMma (mkMmap 8 [x00; x00; x80; x3f; x00; x00; x00; x40]) 2 1.
Example host_ex :
  st_embedding (mma_ops_on Big) host_map 1 = Ok [f32_of_N 2] /\
  st_embedding (mma_ops_on Little) host_map 1 = Ok [f32_of_N 2] /\
  mma_raw_row Big host_map 1 <> mma_raw_row Little host_map 1 /\
  st_embeddings (mma_ops_on Big) host_map [1; 0] = Ok (mkA2 1 [[f32_of_N 2]; [f32_of_N 1]]) /\
  st_embedding (mma_ops_on Big) host_map 2 = Panic PIndexOutOfBounds.
Proof.
  split; [vm_compute; reflexivity|]. split; [vm_compute; reflexivity|]. split; [vm_compute; discriminate|].
  split; vm_compute; reflexivity.
Qed.
