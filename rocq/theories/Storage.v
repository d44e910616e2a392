(** * Embedding matrices (/repo/src/chunks/storage/). *)
From Verif Require Import Base Utf8 Stream F32 ChunkIO Vocab.
Local Open Scope N_scope.

(** ** Two-dimensional arrays *)

(** [ndarray::Array2<F>]: the number of columns and the rows. *)
Record array2 (F : Type) := mkA2 { a2_cols : N; a2_rows : list (list F) }.
Arguments mkA2 {F}. Arguments a2_cols {F}. Arguments a2_rows {F}.

Definition a2_wf {F} (a : array2 F) : Prop := Forall (fun r => lenN r = a2_cols a) (a2_rows a).
Definition a2_nrows {F} (a : array2 F) : N := lenN (a2_rows a).

(** [ArrayBase::row]: panics out of bounds. *)
Definition a2_row {F} (a : array2 F) (i : N) : res (list F) := index (a2_rows a) i.

(** [ArrayBase::select(Axis(0), indices)]: panics if an index is out of
    bounds. *)
Definition a2_select {F} (a : array2 F) (is : list N) : res (array2 F) :=
  let* rows := rmap (a2_row a) is in Ok (mkA2 (a2_cols a) rows).

(** [select] on a one-dimensional array. *)
Definition a1_select {F} (l : list F) (is : list N) : res (list F) := rmap (index l) is.

(** [Array::zeros(shape)] for elements of [size] bytes: the product of the
    non-zero axis lengths must fit in [isize] (ndarray), and so must the
    size in bytes ([Vec]). *)
Definition nonzero (n : N) : N := if n =? 0 then 1 else n.
Definition alloc_zeros {S} (dims : list N) (size : N) : M S unit := fun s =>
  if (fold_left (fun a d => a * nonzero d) dims 1 <=? isize_max)
     && (fold_left N.mul dims 1 * size <=? isize_max)
  then (Ok tt, s) else (Panic PCapacity, s).

(** Row-major data to rows. *)
Fixpoint unflatten {A} (n : nat) (c : nat) (l : list A) : list (list A) :=
  match n with
  | O => []
  | Datatypes.S n' => firstn c l :: unflatten n' c (skipn c l)
  end.
Definition unflattenN {A} (n c : N) (l : list A) : list (list A) :=
  unflatten (N.to_nat n) (N.to_nat c) l.

(** ** The [Storage] trait, /repo/src/chunks/storage/mod.rs 23-30, and
    [CloneFromMapping], lines 32-43. *)
Record storage_ops (F S : Type) := mkStorageOps {
  st_embedding : S -> N -> res (list F);
  st_embeddings : S -> list N -> res (array2 F);
  st_shape : S -> N * N
}.
Arguments st_embedding {F S}. Arguments st_embeddings {F S}. Arguments st_shape {F S}.

(** ** NdArray (/repo/src/chunks/storage/array.rs) *)

(** [Storage for NdArray], lines 287-299. *)
Definition nd_ops (F : Type) : storage_ops F (array2 F) :=
  mkStorageOps F (array2 F)
    (fun a i => a2_row a i)
    (fun a is => a2_select a is)
    (fun a => (a2_nrows a, a2_cols a)).

(** [CloneFromMapping for NdArray], lines 313-319. *)
Definition nd_clone_from_mapping {F} (a : array2 F) (is : list N) : res (array2 F) :=
  st_embeddings (nd_ops F) a is.

(** [NdArray::chunk_len], lines 199-210. *)
Definition nd_chunk_len {F} (a : array2 F) (offset : N) : N :=
  4 + 8 + 8 + 4 + 4 + a2_nrows a * a2_cols a * 4 + padding4 (offset + 4).

(** [NdArray::write_ndarray_chunk], lines 212-272. *)
Definition write_ndarray (a : array2 f32) : writer unit :=
  write_u32 (chunk_num CNdArray) ;;;
  pos <- wposition ;;
  write_u64 (nd_chunk_len a pos - (4 + 8)) ;;;
  write_u64 (a2_nrows a) ;;;
  write_u32 (a2_cols a) ;;;
  write_u32 f32_type_id ;;;
  write_bytes (zeros (padding4 pos)) ;;;
  for_each (a2_rows a) write_f32s.

(** [ReadChunk for NdArray], lines 321-359. *)
Definition read_ndarray : reader (array2 f32) :=
  ensure_chunk_type CNdArray ;;;
  _ <- read_u64 ;;
  rows <- read_u64 ;;
  cols <- read_u32 ;;
  ensure_data_type f32_type_id ;;;
  pos <- position ;;
  seek_forward (padding4 pos) ;;;
  alloc_zeros [rows; cols] 4 ;;;
  data <- read_f32s (rows * cols) ;;
  ret (mkA2 cols (unflattenN rows cols data)).

(** *** Memory mapping *)

(** A memory-mapped region ([memmap2::Mmap]): [mm_len] bytes were requested;
    [mm_bytes] are the bytes of the file inside the region.  Touching memory
    outside of [mm_bytes] (outside the region, or past the end of the file)
    is [PUnsafe].  Simplification: mapping succeeds unless the length
    exceeds [isize::MAX]. *)
Record mmap := mkMmap { mm_len : N; mm_bytes : list byte }.

Definition mmap_region (len : N) : reader mmap := fun s =>
  if len <=? isize_max then (Ok (mkMmap len (takeN len (s_rest s))), s)
  else (Err ERead, s).

(** Bytes [off .. off + n] of the region, through a raw pointer. *)
Definition mm_read (m : mmap) (off n : N) : res (list byte) :=
  if off + n <=? lenN (mm_bytes m) then Ok (takeN n (dropN off (mm_bytes m)))
  else Panic PUnsafe.

(** [MmapArray], lines 38-43. *)
Record mmap_array := mkMma { ma_map : mmap; ma_rows : N; ma_cols : N }.

(** Row [i] of [ArrayView2::from_shape_ptr(shape, map.as_ptr())]; [row]
    checks the index against the shape. *)
Definition mma_row (m : mmap_array) (i : N) : res (list f32) :=
  if i <? ma_rows m then
    let* bs := mm_read (ma_map m) (i * (ma_cols m * 4)) (ma_cols m * 4) in
    Ok (f32s_of_bytes bs)
  else Panic PIndexOutOfBounds.

(** [Storage for MmapArray], lines 45-91. *)
Definition mma_ops : storage_ops f32 mmap_array :=
  mkStorageOps f32 mmap_array
    mma_row
    (fun m is => let* rows := rmap (mma_row m) is in Ok (mkA2 (ma_cols m) rows))
    (fun m => (ma_rows m, ma_cols m)).

(** [StorageView for MmapArray], lines 93-103: the whole matrix. *)
Definition mma_view (m : mmap_array) : res (array2 f32) :=
  let* bs := mm_read (ma_map m) 0 (ma_rows m * (ma_cols m * 4)) in
  Ok (mkA2 (ma_cols m) (unflattenN (ma_rows m) (ma_cols m) (f32s_of_bytes bs))).

(** [CloneFromMapping for MmapArray], lines 105-111. *)
Definition mma_clone_from_mapping (m : mmap_array) (is : list N) : res (array2 f32) :=
  st_embeddings mma_ops m is.

(** [MmapChunk for MmapArray], lines 113-164.  [shape.size() *
    size_of::<f32>()] wraps in a release build. *)
Definition mmap_ndarray (pf : profile) : reader mmap_array :=
  ensure_chunk_type CNdArray ;;;
  _ <- read_u64 ;;
  rows <- read_u64 ;;
  cols <- read_u32 ;;
  ensure_data_type f32_type_id ;;;
  pos <- position ;;
  seek_forward (padding4 pos) ;;;
  size <- lift (mul64 pf rows cols) ;;
  len <- lift (mul64 pf size 4) ;;
  map <- mmap_region len ;;
  seek_forward len ;;;
  ret (mkMma map rows cols).

(** [WriteChunk for MmapArray], lines 166-182. *)
Definition write_mmap_ndarray (m : mmap_array) : writer unit :=
  a <- lift (mma_view m) ;; write_ndarray a.

(** ** Quantized matrices (/repo/src/chunks/storage/quantized.rs) *)

(** [reductive::pq::Pq]: an optional projection and a non-empty array of
    [quantized_len x centroids x sub_len] centroids. *)
Record pq (F : Type) := mkPq {
  pq_proj : option (array2 F);
  pq_ql : N;    (* quantized_len() *)
  pq_nc : N;    (* n_quantizer_centroids() *)
  pq_sub : N;   (* components per subquantizer *)
  pq_cent : list (list (list F))
}.
Arguments mkPq {F}. Arguments pq_proj {F}. Arguments pq_ql {F}. Arguments pq_nc {F}.
Arguments pq_sub {F}. Arguments pq_cent {F}.

(** [Pq::reconstructed_len]. *)
Definition pq_rl {F} (q : pq F) : N := pq_ql q * pq_sub q.

(** [Pq::new] of reductive: asserts that there is at least one centroid
    component and that the projection is square of the right size. *)
Definition pq_new {F} (proj : option (array2 F)) (ql nc sub : N) (cent : list (list (list F))) : res (pq F) :=
  let* _ := rassert (negb (ql * nc * sub =? 0)) PAssert in
  let* _ := rassert (match proj with
                     | None => true
                     | Some p => (a2_nrows p =? ql * sub) && (a2_cols p =? ql * sub)
                     end) PAssert in
  Ok (mkPq proj ql nc sub cent).

(** Concatenation of the selected centroids
    ([primitives::reconstruct_into] of reductive): a code that is not a
    centroid number panics. *)
Fixpoint pq_concat {F} (cent : list (list (list F))) (codes : list byte) : res (list F) :=
  match cent, codes with
  | sub :: cent', c :: codes' =>
      let* v := index sub (bN c) in
      let* rest := pq_concat cent' codes' in
      Ok (v ++ rest)
  | _, _ => Ok []
  end.

Section Quantized.
  Context {F : Type} (o : fops F).
  (** The matrix product [rows . projection^T] of ndarray / BLAS for a batch
      of rows: its rounding is unspecified, so it is a parameter. *)
  Variable gemm : array2 F -> list (list F) -> list (list F).

  (** [Pq::reconstruct] of one vector: [v.dot(projection.t())], computed as
      one dot product per row of the projection. *)
  Definition pq_reconstruct (q : pq F) (codes : list byte) : res (list F) :=
    let* v := pq_concat (pq_cent q) codes in
    Ok (match pq_proj q with
        | None => v
        | Some p => map (fun r => vdot o r v) (a2_rows p)
        end).

  (** [Pq::reconstruct_batch]. *)
  Definition pq_reconstruct_batch (q : pq F) (codes : array2 byte) : res (array2 F) :=
    let* vs := rmap (pq_concat (pq_cent q)) (a2_rows codes) in
    Ok (mkA2 (pq_rl q)
             (match pq_proj q with None => vs | Some p => gemm p vs end)).

  (** [QuantizedArray], lines 20-25. *)
  Record quantized := mkQuant {
    qa_pq : pq F; qa_codes : array2 byte; qa_norms : option (list F)
  }.

  (** [a *= column vector]: broadcasting a column over the rows. *)
  Definition scale_rows (rows : list (list F)) (norms : list F) : list (list F) :=
    zip_with (vscale o) rows norms.

  (** [Storage for QuantizedArray], lines 272-305. *)
  Definition qa_embedding (q : quantized) (i : N) : res (list F) :=
    let* codes := a2_row (qa_codes q) i in
    let* v := pq_reconstruct (qa_pq q) codes in
    match qa_norms q with
    | None => Ok v
    | Some norms => let* n := index norms i in Ok (vscale o v n)
    end.
  Definition qa_embeddings (q : quantized) (is : list N) : res (array2 F) :=
    let* codes := a2_select (qa_codes q) is in
    let* a := pq_reconstruct_batch (qa_pq q) codes in
    match qa_norms q with
    | None => Ok a
    | Some norms =>
        let* ns := a1_select norms is in
        Ok (mkA2 (a2_cols a) (scale_rows (a2_rows a) ns))
    end.
  Definition qa_ops : storage_ops F quantized :=
    mkStorageOps F quantized qa_embedding qa_embeddings
      (fun q => (a2_nrows (qa_codes q), pq_rl (qa_pq q))).

  (** [CloneFromMapping for QuantizedArray], lines 307-319. *)
  Definition qa_clone_from_mapping (q : quantized) (is : list N) : res quantized :=
    let* codes := a2_select (qa_codes q) is in
    let* norms := match qa_norms q with
                  | None => Ok None
                  | Some n => let* n' := a1_select n is in Ok (Some n')
                  end in
    Ok (mkQuant (qa_pq q) codes norms).

  (** [Reconstruct for QuantizedArray], lines 506-520.  The broadcast of the
      norms panics if the shapes differ. *)
  Definition qa_reconstruct (q : quantized) : res (array2 F) :=
    let* a := pq_reconstruct_batch (qa_pq q) (qa_codes q) in
    match qa_norms q with
    | None => Ok a
    | Some norms =>
        let* _ := rassert ((lenN norms =? a2_nrows a) || (lenN norms =? 1)) PAssert in
        Ok (mkA2 (a2_cols a)
              (scale_rows (a2_rows a)
                 (if lenN norms =? a2_nrows a then norms
                  else concat (repeat norms (length (a2_rows a))))))
    end.

  (** *** Quantization, lines 443-495 *)

  (** The training procedure of reductive ([TrainPq::train_pq_using],
      including its random number generator) and [quantize_batch]. *)
  Record trainer := mkTrainer {
    tr_train : N -> N -> N -> N -> array2 F -> res (pq F);
    tr_quantize : pq F -> array2 F -> array2 byte
  }.

  (** Line 461.  [(rows as f64).log2().trunc() as u32] is [floor(log2 rows)]
      for [0 < rows < 2^9] and at least 8 above; [log2(0)] is minus infinity,
      which casts to 0. *)
  Definition max_subquantizer_bits (rows : N) : N := N.min 8 (N.log2 rows).

  (** Lines 470-479: rows divided by their norms. *)
  Definition row_norm (r : list F) : F := fsqrt o (vdot o r r).
  Definition quantize_using (tr : trainer) (n_sub bits iters attempts : N) (normalize : bool)
             (a : array2 F) : res quantized :=
    if max_subquantizer_bits (a2_nrows a) <? bits then Err EQuantization
    else
      let norms := map row_norm (a2_rows a) in
      let embeds := if normalize
                    then mkA2 (a2_cols a) (zip_with (vdivs o) (a2_rows a) norms)
                    else a in
      let* q := tr_train tr n_sub bits iters attempts embeds in
      Ok (mkQuant q (tr_quantize tr q embeds) (if normalize then Some norms else None)).
End Quantized.
Arguments quantized F : clear implicits.
Arguments mkQuant {F}. Arguments qa_pq {F}. Arguments qa_codes {F}. Arguments qa_norms {F}.
Arguments trainer F : clear implicits.
Arguments tr_train {F}. Arguments tr_quantize {F}. Arguments mkTrainer {F}.

Definition b2n (b : bool) : N := if b then 1 else 0.
Definition is_some {A} (x : option A) : bool := match x with Some _ => true | None => false end.

(** [QuantizedArray::chunk_len_], lines 42-74. *)
Definition qa_chunk_len_ {F} (q : pq F) (codes : array2 byte) (norms : option (list F)) (offset : N) : N :=
  4 + 8 + 4 + 4 + 4 + 4 + 4 + 8 + 2 * 4
  + b2n (is_some (pq_proj q)) * pq_rl q * pq_rl q * 4
  + pq_ql q * pq_nc q * (pq_rl q / pq_ql q) * 4
  + b2n (is_some norms) * a2_nrows codes * 4
  + a2_nrows codes * pq_ql q
  + padding4 (offset + 4).
Definition qa_chunk_len {F} (q : quantized F) (offset : N) : N :=
  qa_chunk_len_ (qa_pq q) (qa_codes q) (qa_norms q) offset.

(** [QuantizedArray::write_chunk], lines 151-269. *)
Definition write_quantized (q : quantized f32) : writer unit :=
  let p := qa_pq q in
  write_u32 (chunk_num CQuantizedArray) ;;;
  pos <- wposition ;;
  write_u64 (qa_chunk_len q pos - (4 + 8)) ;;;
  write_u32 (b2n (is_some (pq_proj p))) ;;;
  write_u32 (b2n (is_some (qa_norms q))) ;;;
  write_u32 (pq_ql p) ;;;
  write_u32 (pq_rl p) ;;;
  write_u32 (pq_nc p) ;;;
  write_u64 (a2_nrows (qa_codes q)) ;;;
  write_u32 u8_type_id ;;;
  write_u32 f32_type_id ;;;
  write_bytes (zeros (padding4 pos)) ;;;
  match pq_proj p with
  | None => ret tt
  | Some pr => for_each (a2_rows pr) write_f32s
  end ;;;
  for_each (pq_cent p) (fun sub => for_each sub write_f32s) ;;;
  match qa_norms q with None => ret tt | Some n => write_f32s n end ;;;
  for_each (a2_rows (qa_codes q)) (fun row => for_each row (fun c => write_bytes [c])).

(** [check_quantizer_invariants], lines 34-40: [% 0] panics. *)
Definition check_quantizer_invariants (ql rl : N) : res unit :=
  if ql =? 0 then Panic PDivByZero
  else if rl mod ql =? 0 then Ok tt else Err EFormat.

(** [PqRead], lines 27-31: number of embeddings, quantizer, has norms. *)
Definition pq_read := (N * pq f32 * bool)%type.

(** [read_product_quantizer], lines 81-149. *)
Definition read_product_quantizer : reader pq_read :=
  proj <- read_u32 ;;
  norms <- read_u32 ;;
  ql <- read_u32 ;;
  rl <- read_u32 ;;
  nc <- read_u32 ;;
  n <- read_u64 ;;
  lift (check_quantizer_invariants ql rl) ;;;
  ensure_data_type u8_type_id ;;;
  ensure_data_type f32_type_id ;;;
  pos <- position ;;
  seek_forward (padding4 pos) ;;;
  projection <- (if negb (proj =? 0) then
                   alloc_zeros [rl; rl] 4 ;;;
                   data <- read_f32s (rl * rl) ;;
                   ret (Some (mkA2 rl (unflattenN rl rl data)))
                 else ret None) ;;
  alloc_zeros [ql; nc; rl / ql] 4 ;;;
  data <- read_f32s (ql * nc * (rl / ql)) ;;
  q <- lift (pq_new projection ql nc (rl / ql)
               (map (unflattenN nc (rl / ql)) (unflattenN ql (nc * (rl / ql)) data))) ;;
  ret (n, q, negb (norms =? 0)).

(** The norms of a quantized matrix, lines 336-343. *)
Definition read_quantized_norms (has : bool) (n : N) : reader (option (list f32)) :=
  if has then alloc_zeros [n] 4 ;;; ns <- read_f32s n ;; ret (Some ns) else ret None.

(** [ReadChunk for QuantizedArray], lines 321-358. *)
Definition read_quantized : reader (quantized f32) :=
  ensure_chunk_type CQuantizedArray ;;;
  _ <- read_u64 ;;
  r <- read_product_quantizer ;;
  let '(n, q, has) := r in
  norms <- read_quantized_norms has n ;;
  alloc_zeros [n; pq_ql q] 1 ;;;
  data <- read_exact (n * pq_ql q) ;;
  ret (mkQuant q (mkA2 (pq_ql q) (unflattenN n (pq_ql q) data)) norms).

(** *** Memory-mapped quantized matrices *)

(** [MmapQuantizedArray], lines 540-544. *)
Record mmap_quantized := mkMmq {
  mq_pq : pq f32; mq_map : mmap; mq_norms : option (list f32)
}.

(** [Storage::shape], lines 624-629. *)
Definition mmq_nrows (q : mmap_quantized) : N := mm_len (mq_map q) / pq_ql (mq_pq q).

(** Row [i] of the view [quantized_embeddings()], lines 547-555. *)
Definition mmq_codes_row (q : mmap_quantized) (i : N) : res (list byte) :=
  if i <? mmq_nrows q then
    mm_read (mq_map q) (i * pq_ql (mq_pq q)) (pq_ql (mq_pq q))
  else Panic PIndexOutOfBounds.
Definition mmq_codes (q : mmap_quantized) : res (array2 byte) :=
  let* bs := mm_read (mq_map q) 0 (mmq_nrows q * pq_ql (mq_pq q)) in
  Ok (mkA2 (pq_ql (mq_pq q)) (unflattenN (mmq_nrows q) (pq_ql (mq_pq q)) bs)).
Definition mmq_select (q : mmap_quantized) (is : list N) : res (array2 byte) :=
  let* rows := rmap (mmq_codes_row q) is in Ok (mkA2 (pq_ql (mq_pq q)) rows).

Section MmapQuantized.
  Variable gemm : array2 f32 -> list (list f32) -> list (list f32).

  (** [Storage for MmapQuantizedArray], lines 594-630. *)
  Definition mmq_embedding (q : mmap_quantized) (i : N) : res (list f32) :=
    let* codes := mmq_codes_row q i in
    let* v := pq_reconstruct f32_ops (mq_pq q) codes in
    match mq_norms q with
    | None => Ok v
    | Some norms => let* n := index norms i in Ok (vscale f32_ops v n)
    end.
  Definition mmq_embeddings (q : mmap_quantized) (is : list N) : res (array2 f32) :=
    let* codes := mmq_select q is in
    let* a := pq_reconstruct_batch gemm (mq_pq q) codes in
    match mq_norms q with
    | None => Ok a
    | Some norms =>
        let* ns := a1_select norms is in
        Ok (mkA2 (a2_cols a) (scale_rows f32_ops (a2_rows a) ns))
    end.
  Definition mmq_ops : storage_ops f32 mmap_quantized :=
    mkStorageOps f32 mmap_quantized mmq_embedding mmq_embeddings
      (fun q => (mmq_nrows q, pq_rl (mq_pq q))).

  (** [CloneFromMapping for MmapQuantizedArray], lines 632-646. *)
  Definition mmq_clone_from_mapping (q : mmap_quantized) (is : list N) : res (quantized f32) :=
    let* codes := mmq_select q is in
    let* norms := match mq_norms q with
                  | None => Ok None
                  | Some n => let* n' := a1_select n is in Ok (Some n')
                  end in
    Ok (mkQuant (mq_pq q) codes norms).

  (** The in-memory matrix with the contents of the mapping. *)
  Definition mmq_to_quantized (q : mmap_quantized) : res (quantized f32) :=
    let* codes := mmq_codes q in Ok (mkQuant (mq_pq q) codes (mq_norms q)).

  (** [Reconstruct for MmapQuantizedArray], lines 708-722. *)
  Definition mmq_reconstruct (q : mmap_quantized) : res (array2 f32) :=
    let* m := mmq_to_quantized q in qa_reconstruct f32_ops gemm m.
End MmapQuantized.

(** [MmapChunk for MmapQuantizedArray], lines 648-677, with
    [mmap_quantized_embeddings], lines 557-586. *)
Definition mmap_quantized_chunk (pf : profile) : reader mmap_quantized :=
  ensure_chunk_type CQuantizedArray ;;;
  _ <- read_u64 ;;
  r <- read_product_quantizer ;;
  let '(n, q, has) := r in
  norms <- read_quantized_norms has n ;;
  len <- lift (mul64 pf n (pq_ql q)) ;;
  map <- mmap_region len ;;
  seek_forward len ;;;
  ret (mkMmq q map norms).

(** [WriteChunk for MmapQuantizedArray], lines 679-706. *)
Definition write_mmap_quantized (q : mmap_quantized) : writer unit :=
  m <- lift (mmq_to_quantized q) ;; write_quantized m.

(** ** Wrappers (/repo/src/chunks/storage/wrappers.rs) *)

(** [StorageWrap], lines 29-38. *)
Inductive storage_wrap :=
| SNdArray (a : array2 f32)
| SQuantized (q : quantized f32)
| SMmapArray (m : mmap_array)
| SMmapQuantized (q : mmap_quantized).

Section Wrap.
  Variable gemm : array2 f32 -> list (list f32) -> list (list f32).

  (** [Storage for StorageWrap], lines 40-73. *)
  Definition swrap_ops : storage_ops f32 storage_wrap :=
    mkStorageOps f32 storage_wrap
      (fun s i => match s with
        | SNdArray a => st_embedding (nd_ops f32) a i
        | SQuantized q => st_embedding (qa_ops f32_ops gemm) q i
        | SMmapArray m => st_embedding mma_ops m i
        | SMmapQuantized q => st_embedding (mmq_ops gemm) q i end)
      (fun s is => match s with
        | SNdArray a => st_embeddings (nd_ops f32) a is
        | SQuantized q => st_embeddings (qa_ops f32_ops gemm) q is
        | SMmapArray m => st_embeddings mma_ops m is
        | SMmapQuantized q => st_embeddings (mmq_ops gemm) q is end)
      (fun s => match s with
        | SNdArray a => st_shape (nd_ops f32) a
        | SQuantized q => st_shape (qa_ops f32_ops gemm) q
        | SMmapArray m => st_shape mma_ops m
        | SMmapQuantized q => st_shape (mmq_ops gemm) q end).
End Wrap.

(** [CloneFromMapping for StorageWrap], lines 75-95. *)
Definition swrap_clone_from_mapping (s : storage_wrap) (is : list N) : res storage_wrap :=
  match s with
  | SNdArray a => let* r := nd_clone_from_mapping a is in Ok (SNdArray r)
  | SQuantized q => let* r := qa_clone_from_mapping q is in Ok (SQuantized r)
  | SMmapArray m => let* r := mma_clone_from_mapping m is in Ok (SNdArray r)
  | SMmapQuantized q => let* r := mmq_clone_from_mapping q is in Ok (SQuantized r)
  end.

(** [ReadChunk for StorageWrap], lines 122-151. *)
Definition read_storage_wrap : reader storage_wrap :=
  id <- peek peek_chunk_id ;;
  match id with
  | CNdArray => a <- read_ndarray ;; ret (SNdArray a)
  | CQuantizedArray => q <- read_quantized ;; ret (SQuantized q)
  | _ => fail EFormat
  end.

(** [MmapChunk for StorageWrap], lines 153-181. *)
Definition mmap_storage_wrap (pf : profile) : reader storage_wrap :=
  id <- peek peek_chunk_id ;;
  match id with
  | CNdArray => a <- mmap_ndarray pf ;; ret (SMmapArray a)
  | CQuantizedArray => q <- mmap_quantized_chunk pf ;; ret (SMmapQuantized q)
  | _ => fail EFormat
  end.

(** [WriteChunk for StorageWrap], lines 183-225.  [chunk_len] of the mapped
    variants is computed from their views. *)
Definition swrap_id (s : storage_wrap) : chunk_id :=
  match s with
  | SNdArray _ | SMmapArray _ => CNdArray
  | SQuantized _ | SMmapQuantized _ => CQuantizedArray
  end.
Definition swrap_chunk_len (s : storage_wrap) (offset : N) : N :=
  match s with
  | SNdArray a => nd_chunk_len a offset
  | SQuantized q => qa_chunk_len q offset
  | SMmapArray m => 4 + 8 + 8 + 4 + 4 + ma_rows m * ma_cols m * 4 + padding4 (offset + 4)
  | SMmapQuantized q =>
      qa_chunk_len_ (mq_pq q) (mkA2 (pq_ql (mq_pq q)) (repeat [] (N.to_nat (mmq_nrows q))))
                    (mq_norms q) offset
  end.
Definition write_storage_wrap (s : storage_wrap) : writer unit :=
  match s with
  | SNdArray a => write_ndarray a
  | SQuantized q => write_quantized q
  | SMmapArray m => write_mmap_ndarray m
  | SMmapQuantized q => write_mmap_quantized q
  end.

(** [StorageViewWrap], lines 231-235, with its trait implementations, lines
    237-384. *)
Inductive storage_view_wrap :=
| SvNdArray (a : array2 f32)
| SvMmapArray (m : mmap_array).

Definition svwrap_ops : storage_ops f32 storage_view_wrap :=
  mkStorageOps f32 storage_view_wrap
    (fun s i => match s with
      | SvNdArray a => st_embedding (nd_ops f32) a i
      | SvMmapArray m => st_embedding mma_ops m i end)
    (fun s is => match s with
      | SvNdArray a => st_embeddings (nd_ops f32) a is
      | SvMmapArray m => st_embeddings mma_ops m is end)
    (fun s => match s with
      | SvNdArray a => st_shape (nd_ops f32) a
      | SvMmapArray m => st_shape mma_ops m end).
Definition svwrap_view (s : storage_view_wrap) : res (array2 f32) :=
  match s with SvNdArray a => Ok a | SvMmapArray m => mma_view m end.
Definition svwrap_clone_from_mapping (s : storage_view_wrap) (is : list N) : res storage_view_wrap :=
  match s with
  | SvNdArray a => let* r := nd_clone_from_mapping a is in Ok (SvNdArray r)
  | SvMmapArray m => let* r := mma_clone_from_mapping m is in Ok (SvNdArray r)
  end.
Definition read_storage_view_wrap : reader storage_view_wrap :=
  id <- peek peek_chunk_id ;;
  match id with
  | CNdArray => a <- read_ndarray ;; ret (SvNdArray a)
  | _ => fail EFormat
  end.
Definition mmap_storage_view_wrap (pf : profile) : reader storage_view_wrap :=
  id <- peek peek_chunk_id ;;
  match id with
  | CNdArray => a <- mmap_ndarray pf ;; ret (SvMmapArray a)
  | _ => fail EFormat
  end.
Definition svwrap_chunk_len (s : storage_view_wrap) (offset : N) : N :=
  match s with
  | SvNdArray a => nd_chunk_len a offset
  | SvMmapArray m => swrap_chunk_len (SMmapArray m) offset
  end.
Definition write_storage_view_wrap (s : storage_view_wrap) : writer unit :=
  match s with
  | SvNdArray a => write_ndarray a
  | SvMmapArray m => write_mmap_ndarray m
  end.
