(** * Theorems about hosts of either byte order (C78). *)
From Verif Require Import Base Stream F32 ChunkIO Subword Vocab Storage Embeddings Endian FileSpec.
From Verif Require EndianFacts.
Local Open Scope N_scope.

(** ** C78 *)
@thm host_rows_thm EndianFacts host_rows
@thm host_storage_thm EndianFacts swrap_host | forall gemm,
@thm host_lookups_thm EndianFacts lookups_host | forall gemm (Md V : Type) (VO : vocab_ops V) (pf : profile) (h : host) (e : embeddings Md V storage_wrap f32),
@thm host_write_thm EndianFacts write_host
@thm host_view_thm EndianFacts mmap_view_big
@thm host_view_no_panic_thm EndianFacts mmap_view_big_no_panic
(** Two rows of one number, 1 and 2.  Without the conversion a big-endian host
    would see other numbers. *)
Definition host_map : mmap_array := mkMma (mkMmap 8 [x00; x00; x80; x3f; x00; x00; x00; x40]) 2 1.
Example host_ex :
  st_embedding (mma_ops_on Big) host_map 1 = Ok [f32_of_N 2] /\
  st_embedding (mma_ops_on Little) host_map 1 = Ok [f32_of_N 2] /\
  mma_raw_row Big host_map 1 <> mma_raw_row Little host_map 1 /\
  st_embeddings (mma_ops_on Big) host_map [1; 0] = Ok (mkA2 1 [[f32_of_N 2]; [f32_of_N 1]]) /\
  st_embedding (mma_ops_on Big) host_map 2 = Panic PIndexOutOfBounds.
Proof.
  split; [vm_compute; reflexivity|]. split; [vm_compute; reflexivity|]. split; [vm_compute; discriminate|].
  split; vm_compute; reflexivity.
Qed.
