(** * Writers with pointers of any width.

    The lengths of chunks are computed with [usize] and then cast to [u64];
    only the padding, the sum over the chunks and the difference that is
    written are computed with [u64].  Elsewhere the model has numbers without
    bounds in the place of these computations.  This file has the writers of
    finalfusion files and [write_embeddings_len] with the arithmetic of the
    machine.

    Simplification: offsets in the file are numbers without bounds. *)
From Verif Require Import Base Utf8 Stream F32 ChunkIO Subword Vocab Storage Embeddings Width WidthUse.
Local Open Scope N_scope.

Section WidthWrite.
  Variables (w : machine) (pf : profile).

  (** [a + b + ...], [a * b * ...] and [iter.map(..).sum::<usize>()]: [Sum]
      checks for overflow where [+] does. *)
  Definition w_sum (l : list N) : res N := fold_left (fun a b => let* x := a in w_add w pf x b) l (Ok 0).
  Definition w_prod (x : N) (l : list N) : res N := fold_left (fun a b => let* x := a in w_mul w pf x b) l (Ok x).
  Definition w_sum_of {A} (f : A -> res N) (l : list A) : res N :=
    fold_left (fun a b => let* x := a in let* y := f b in w_add w pf x y) l (Ok 0).
  (** [(..) as u64 + n_padding] *)
  Definition w_padded (n offset : N) : res N := add64 pf n (padding4 (offset + 4)).
  (** [chunk_len - (size_of::<u32>() + size_of::<u64>()) as u64] *)
  Definition w_remaining (n : N) : res N :=
    if 12 <=? n then Ok (n - 12)
    else match pf with Debug => Panic PArithOverflow | Release => Ok (n + two64 - 12) end.

  (** ** Lengths of chunks *)

  (** [Header::chunk_len], /repo/src/chunks/io.rs 190-196. *)
  Definition w_header_len (ids : list chunk_id) : res N :=
    let* n := w_mul w pf (lenN ids) 4 in w_sum [lenN magic; 4; 4; n].
  (** [Metadata::chunk_len], /repo/src/chunks/metadata.rs 84-87. *)
  Definition w_metadata_len (T : toml_ops) (t : toml_table T) : res N := w_sum [4; 8; lenN (toml_print T t)].
  (** [NdNorms::chunk_len], /repo/src/chunks/norms.rs 92-102. *)
  Definition w_norms_len (norms : list f32) (offset : N) : res N :=
    let* d := w_mul w pf (lenN norms) 4 in
    let* n := w_sum [4; 8; 8; 4; d] in
    w_padded n offset.
  (** [|w| w.len() + size_of::<u32>()] and, for n-grams,
      [ngram.len() + size_of::<u32>() + size_of::<u64>()]. *)
  Definition w_item_len (s : str) : res N := w_sum [lenN s; 4].
  Definition w_ngram_len (s : str) : res N := w_sum [lenN s; 4; 8].
  (** [SimpleVocab::chunk_len], /repo/src/chunks/vocab/simple.rs 82-94. *)
  Definition w_simple_len (v : simple_vocab) : res N :=
    let* d := w_sum_of w_item_len (sm_words v) in w_sum [4; 8; 8; d].
  (** [chunk_len_], /repo/src/chunks/vocab/subword.rs 356-373, 494-518 and
      585-601. *)
  Definition w_bucketed_len {I} (v : subword_vocab I) : res N :=
    let* d := w_sum_of w_item_len (sv_words v) in w_sum [4; 8; 8; 4; 4; 4; d].
  Definition w_explicit_len (v : subword_vocab explicit_indexer) : res N :=
    let* d := w_sum_of w_item_len (sv_words v) in
    let* g := w_sum_of w_ngram_len (ei_ngrams (sv_ix v)) in
    w_sum [4; 8; 8; 8; 4; 4; d; g].
  Definition w_floret_len (v : subword_vocab floret_indexer) : res N :=
    w_sum [4; 8; 4; 4; 8; 4; 4; lenN (sv_bow v); 4; lenN (sv_eow v); 4].
  (** [NdArray::chunk_len], /repo/src/chunks/storage/array.rs 199-210, of a
      view with this shape; [len()] is the product. *)
  Definition w_matrix_len (rows cols offset : N) : res N :=
    let* d := w_prod rows [cols; 4] in
    let* n := w_sum [4; 8; 8; 4; 4; d] in
    w_padded n offset.
  (** [QuantizedArray::chunk_len_], /repo/src/chunks/storage/quantized.rs
      42-74, with [rows] vectors. *)
  Definition w_quantized_len (q : pq f32) (rows : N) (norms : option (list f32)) (offset : N) : res N :=
    let* two := w_mul w pf 2 4 in
    let* proj := w_prod (b2n (is_some (pq_proj q))) [pq_rl q; pq_rl q; 4] in
    let* cent := w_prod (pq_ql q) [pq_nc q; pq_rl q / pq_ql q; 4] in
    let* ns := w_prod (b2n (is_some norms)) [rows; 4] in
    let* codes := w_prod rows [pq_ql q] in
    let* n := w_sum [4; 8; 4; 4; 4; 4; 4; 8; two; proj; cent; ns; codes] in
    w_padded n offset.

  (** [chunk_len] of the wrappers, /repo/src/chunks/vocab/wrappers.rs 162-171
      and /repo/src/chunks/storage/wrappers.rs 197-208. *)
  Definition w_vocab_wrap_len (v : vocab_wrap) : res N :=
    match v with
    | VSimple v => w_simple_len v
    | VExplicit v => w_explicit_len v
    | VFastText v => w_bucketed_len v
    | VFloret v => w_floret_len v
    | VBucket v => w_bucketed_len v
    end.
  Definition w_storage_wrap_len (s : storage_wrap) (offset : N) : res N :=
    match s with
    | SNdArray a => w_matrix_len (a2_nrows a) (a2_cols a) offset
    | SQuantized q => w_quantized_len (qa_pq q) (a2_nrows (qa_codes q)) (qa_norms q) offset
    | SMmapArray m => w_matrix_len (ma_rows m) (ma_cols m) offset
    | SMmapQuantized q => w_quantized_len (mq_pq q) (mmq_nrows q) (mq_norms q) offset
    end.

  (** ** Writers; casts to [u64] and [u32] are as on 64-bit machines *)

  (** The chunk length that is written. *)
  Definition w_write_rest (n : res N) : writer unit :=
    len <- lift n ;; rest <- lift (w_remaining len) ;; write_u64 rest.

  (** [NdNorms::write_chunk], /repo/src/chunks/norms.rs 104-142. *)
  Definition w_write_norms (norms : list f32) : writer unit :=
    write_u32 (chunk_num CNdNorms) ;;;
    pos <- wposition ;;
    w_write_rest (w_norms_len norms pos) ;;;
    write_u64 (lenN norms) ;;;
    write_u32 f32_type_id ;;;
    write_bytes (zeros (padding4 pos)) ;;;
    write_f32s norms.

  (** [SimpleVocab::write_chunk], /repo/src/chunks/vocab/simple.rs 96-119. *)
  Definition w_write_simple (v : simple_vocab) : writer unit :=
    write_u32 (chunk_num CSimpleVocab) ;;;
    w_write_rest (w_simple_len v) ;;;
    write_u64 (lenN (sm_words v)) ;;;
    write_items (sm_words v).

  (** [write_bucketed_chunk], [write_ngram_chunk] and [write_floret_chunk],
      /repo/src/chunks/vocab/subword.rs 412-447, 550-581 and 653-688.  The
      last two compute the length before they write. *)
  Definition w_write_bucketed {I} (B : bucket_ops I) (id : chunk_id) (v : subword_vocab I) : writer unit :=
    write_u32 (chunk_num id) ;;;
    w_write_rest (w_bucketed_len v) ;;;
    write_u64 (lenN (sv_words v)) ;;;
    write_u32 (sv_min v) ;;;
    write_u32 (sv_max v) ;;;
    write_u32 (bk_buckets B (sv_ix v)) ;;;
    write_items (sv_words v).
  Definition w_write_explicit (v : subword_vocab explicit_indexer) : writer unit :=
    len <- lift (w_explicit_len v) ;;
    rest <- lift (w_remaining len) ;;
    write_u32 (chunk_num CExplicitSubwordVocab) ;;;
    write_u64 rest ;;;
    write_u64 (lenN (sv_words v)) ;;;
    write_u64 (lenN (ei_ngrams (sv_ix v))) ;;;
    write_u32 (sv_min v) ;;;
    write_u32 (sv_max v) ;;;
    write_items (sv_words v) ;;;
    write_ngrams_with_indices (sv_ix v).
  Definition w_write_floret (v : subword_vocab floret_indexer) : writer unit :=
    len <- lift (w_floret_len v) ;;
    rest <- lift (w_remaining len) ;;
    write_u32 (chunk_num CFloretSubwordVocab) ;;;
    write_u64 rest ;;;
    write_u32 (sv_min v) ;;;
    write_u32 (sv_max v) ;;;
    write_u64 (fl_buckets (sv_ix v)) ;;;
    write_u32 (fl_hashes (sv_ix v)) ;;;
    write_u32 (fl_seed (sv_ix v)) ;;;
    write_string (sv_bow v) ;;;
    write_string (sv_eow v).
  Definition w_write_vocab (v : vocab_wrap) : writer unit :=
    match v with
    | VSimple v => w_write_simple v
    | VExplicit v => w_write_explicit v
    | VFastText v => w_write_bucketed ft_bucket_ops CFastTextSubwordVocab v
    | VFloret v => w_write_floret v
    | VBucket v => w_write_bucketed hash_bucket_ops CBucketSubwordVocab v
    end.

  (** [NdArray::write_ndarray_chunk], /repo/src/chunks/storage/array.rs
      212-272. *)
  Definition w_write_ndarray (a : array2 f32) : writer unit :=
    write_u32 (chunk_num CNdArray) ;;;
    pos <- wposition ;;
    w_write_rest (w_matrix_len (a2_nrows a) (a2_cols a) pos) ;;;
    write_u64 (a2_nrows a) ;;;
    write_u32 (a2_cols a) ;;;
    write_u32 f32_type_id ;;;
    write_bytes (zeros (padding4 pos)) ;;;
    for_each (a2_rows a) write_f32s.
  (** [QuantizedArray::write_chunk], /repo/src/chunks/storage/quantized.rs
      151-269. *)
  Definition w_write_quantized (q : quantized f32) : writer unit :=
    let p := qa_pq q in
    write_u32 (chunk_num CQuantizedArray) ;;;
    pos <- wposition ;;
    w_write_rest (w_quantized_len p (a2_nrows (qa_codes q)) (qa_norms q) pos) ;;;
    write_u32 (b2n (is_some (pq_proj p))) ;;;
    write_u32 (b2n (is_some (qa_norms q))) ;;;
    write_u32 (pq_ql p) ;;;
    write_u32 (pq_rl p) ;;;
    write_u32 (pq_nc p) ;;;
    write_u64 (a2_nrows (qa_codes q)) ;;;
    write_u32 u8_type_id ;;;
    write_u32 f32_type_id ;;;
    write_bytes (zeros (padding4 pos)) ;;;
    match pq_proj p with
    | None => ret tt
    | Some pr => for_each (a2_rows pr) write_f32s
    end ;;;
    for_each (pq_cent p) (fun sub => for_each sub write_f32s) ;;;
    match qa_norms q with None => ret tt | Some n => write_f32s n end ;;;
    for_each (a2_rows (qa_codes q)) (fun row => for_each row (fun c => write_bytes [c])).
  (** Mapped storage is written through its view. *)
  Definition w_write_storage (s : storage_wrap) : writer unit :=
    match s with
    | SNdArray a => w_write_ndarray a
    | SQuantized q => w_write_quantized q
    | SMmapArray m => a <- lift (mma_view m) ;; w_write_ndarray a
    | SMmapQuantized q => m <- lift (mmq_to_quantized q) ;; w_write_quantized m
    end.

  (** ** Files *)
  Section File.
    Context (T : toml_ops).
    Notation emb := (embeddings (toml_table T) vocab_wrap storage_wrap f32).

    (** [write_embeddings], /repo/src/embeddings.rs 555-586.  The header and
        the metadata are written without arithmetic. *)
    Definition w_write_file (e : emb) : writer unit :=
      write_header (emb_chunks T vwrap_chunk swrap_chunk e) ;;;
      match em_meta e with Some t => write_metadata T t | None => ret tt end ;;;
      w_write_vocab (em_vocab e) ;;;
      w_write_storage (em_storage e) ;;;
      match em_norms e with Some ns => w_write_norms ns | None => ret tt end.

    (** [write_embeddings_len], lines 588-620; sums with [u64]. *)
    Definition w_write_file_len (e : emb) (offset : N) : res N :=
      let* n := w_header_len (emb_chunks T vwrap_chunk swrap_chunk e) in
      let* len := add64 pf 0 n in
      let* n := match em_meta e with Some t => w_metadata_len T t | None => Ok 0 end in
      let* len := add64 pf len n in
      let* n := w_vocab_wrap_len (em_vocab e) in
      let* len := add64 pf len n in
      let* n := w_storage_wrap_len (em_storage e) (offset + len) in
      let* len := add64 pf len n in
      let* n := match em_norms e with Some ns => w_norms_len ns (offset + len) | None => Ok 0 end in
      add64 pf len n.
  End File.
End WidthWrite.
