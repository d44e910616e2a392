(** * Hosts of either byte order.

    The rest of the model is that of a little-endian host.  All chunks are
    read and written number by number with [byteorder::LittleEndian], which is
    the same on every host; only the code for mapped matrices is conditional
    on the byte order ([cfg(target_endian)] in
    /repo/src/chunks/storage/array.rs and wrappers.rs).  This file models that
    code for both byte orders. *)
From Verif Require Import Base Stream F32 ChunkIO Subword Vocab Storage Embeddings.
Local Open Scope N_scope.

Inductive host := Little | Big.

(** Memory as numbers, in the byte order of the host: on a big-endian host
    the first byte is the most significant one. *)
Fixpoint host_f32s (h : host) (l : list byte) : list f32 :=
  match l with
  | a :: b :: c :: d :: l' => (match h with Little => F32 a b c d | Big => F32 d c b a end) :: host_f32s h l'
  | _ => []
  end.

(** [byteorder::LittleEndian::from_slice_f32]: swaps the bytes of every number
    on a big-endian host. *)
Definition swap_f32 (x : f32) : f32 := let '(F32 a b c d) := x in F32 d c b a.
Definition from_slice_f32 (h : host) (l : list f32) : list f32 :=
  match h with Little => l | Big => map swap_f32 l end.

(** The row of the mapped matrix before its conversion, array.rs 49-53. *)
Definition mma_raw_row (h : host) (m : mmap_array) (i : N) : res (list f32) :=
  if i <? ma_rows m then
    let* bs := mm_read (ma_map m) (i * (ma_cols m * 4)) (ma_cols m * 4) in
    Ok (host_f32s h bs)
  else Panic PIndexOutOfBounds.

(** [Storage for MmapArray], array.rs 45-91: rows are copied and then
    converted; [embeddings] converts the selected matrix as one slice, which
    is the same as converting its rows. *)
Definition mma_ops_on (h : host) : storage_ops f32 mmap_array :=
  mkStorageOps f32 mmap_array
    (fun m i => let* r := mma_raw_row h m i in Ok (from_slice_f32 h r))
    (fun m is => let* rows := rmap (mma_raw_row h m) is in
                 Ok (mkA2 (ma_cols m) (map (from_slice_f32 h) rows)))
    (fun m => (ma_rows m, ma_cols m)).

Section Wrap.
  Variable gemm : array2 f32 -> list (list f32) -> list (list f32).

  (** [Storage for StorageWrap], wrappers.rs 40-73. *)
  Definition swrap_ops_on (h : host) : storage_ops f32 storage_wrap :=
    mkStorageOps f32 storage_wrap
      (fun s i => match s with
        | SNdArray a => st_embedding (nd_ops f32) a i
        | SQuantized q => st_embedding (qa_ops f32_ops gemm) q i
        | SMmapArray m => st_embedding (mma_ops_on h) m i
        | SMmapQuantized q => st_embedding (mmq_ops gemm) q i end)
      (fun s is => match s with
        | SNdArray a => st_embeddings (nd_ops f32) a is
        | SQuantized q => st_embeddings (qa_ops f32_ops gemm) q is
        | SMmapArray m => st_embeddings (mma_ops_on h) m is
        | SMmapQuantized q => st_embeddings (mmq_ops gemm) q is end)
      (fun s => match s with
        | SNdArray a => st_shape (nd_ops f32) a
        | SQuantized q => st_shape (qa_ops f32_ops gemm) q
        | SMmapArray m => st_shape (mma_ops_on h) m
        | SMmapQuantized q => st_shape (mmq_ops gemm) q end).
End Wrap.

(** [CloneFromMapping for StorageWrap], wrappers.rs 75-95. *)
Definition swrap_clone_on (h : host) (s : storage_wrap) (is : list N) : res storage_wrap :=
  match s with
  | SMmapArray m => let* r := st_embeddings (mma_ops_on h) m is in Ok (SNdArray r)
  | _ => swrap_clone_from_mapping s is
  end.

(** [MmapChunk for StorageViewWrap], wrappers.rs 358-384: the only case is
    compiled for little-endian hosts. *)
Definition mmap_view_on (h : host) (pf : profile) : reader storage_view_wrap :=
  match h with
  | Little => mmap_storage_view_wrap pf
  | Big => id <- peek peek_chunk_id ;; fail EFormat
  end.

Section File.
  Context (T : toml_ops) {V : Type} (VC : chunk_ops V).
  Notation emb := (embeddings (toml_table T) V storage_wrap f32).

  (** [WriteChunk for StorageWrap], wrappers.rs 183-225: [unimplemented!()] for
      mapped matrices on big-endian hosts.  [write_embeddings]
      (/repo/src/embeddings.rs 555-586) asks for the identifier before it
      writes anything. *)
  Definition write_embeddings_on (h : host) (e : emb) : writer unit :=
    match h, em_storage e with
    | Big, SMmapArray _ => lift (Panic PAssert)
    | _, _ => write_embeddings T VC swrap_chunk e
    end.
  Definition write_embeddings_len_on (h : host) (e : emb) (offset : N) : res N :=
    match h, em_storage e with
    | Big, SMmapArray _ => Panic PAssert
    | _, _ => Ok (write_embeddings_len T VC swrap_chunk e offset)
    end.
End File.
