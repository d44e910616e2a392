(** * Machines with pointers of any width.

    The rest of the model is that of a 64-bit machine, on which [usize] is
    [u64]: casts and conversions of the counts in a file do nothing.  This file
    models the readers of finalfusion files for any width of [usize].  Counts
    are converted with [try_into], which rejects what does not fit
    ([Error::Overflow]), or with [as usize], which truncates; allocations and
    maps are limited by [isize::MAX]; sizes are computed with [usize].  An
    allocator may refuse smaller requests, too. *)
From Verif Require Import Base Utf8 Stream F32 ChunkIO Subword Vocab Storage Embeddings.
Local Open Scope N_scope.

(** The width of [usize] in bits, the sizes of [String] and of
    [(String, u64)] in bytes, and the largest request in bytes that can be
    allocated. *)
Record machine := mkMachine { mw_bits : N; mw_string : N; mw_pair : N; mw_limit : N }.
(** 64-bit machines; i686 and 32-bit ARM (where [u64] is aligned to 8 bytes). *)
Definition m64 : machine := mkMachine 64 24 32 isize_max.
Definition i686 : machine := mkMachine 32 12 20 2147483647.
Definition arm32 : machine := mkMachine 32 12 24 2147483647.
(** A 64-bit machine on which requests of more than [l] bytes fail. *)
Definition limited (l : N) : machine := mkMachine 64 24 32 l.

Section Width.
  (** [strict]: the casts with [as usize] are replaced by conversions.  The
      code is the case [false]. *)
  Variables (w : machine) (strict : bool).
  (** The number of values of [usize], and [isize::MAX]. *)
  Definition w_size : N := 2 ^ mw_bits w.
  Definition w_max : N := 2 ^ (mw_bits w - 1) - 1.

  (** [try_into().map_err(|_| Error::Overflow)] *)
  Definition w_try (n : N) : reader N := if n <? w_size then ret n else fail EOverflow.
  (** [as usize] *)
  Definition w_as (n : N) : reader N := if strict then w_try n else ret (n mod w_size).
  (** [Vec::with_capacity], [vec![0; n]], [Array::zeros], [MmapOptions::map]
      and the product of two lengths, see [reserve], [alloc_zeros],
      [mmap_region] and [mul64].  A request that fails ends the program, as a
      request that is too large does; both are [PCapacity]. *)
  Definition w_reserve (n size : N) : reader unit := fun s =>
    if n * size <=? mw_limit w then (Ok tt, s) else (Panic PCapacity, s).
  Definition w_zeros (dims : list N) (size : N) : reader unit := fun s =>
    if (fold_left (fun a d => a * nonzero d) dims 1 <=? w_max)
       && (fold_left N.mul dims 1 * size <=? mw_limit w)
    then (Ok tt, s) else (Panic PCapacity, s).
  Definition w_map (len : N) : reader mmap := fun s =>
    if len <=? w_max then (Ok (mkMmap len (takeN len (s_rest s))), s)
    else (Err ERead, s).
  Definition w_mul (p : profile) (a b : N) : res N :=
    if a * b <? w_size then Ok (a * b)
    else match p with Debug => Panic PArithOverflow | Release => Ok ((a * b) mod w_size) end.

  (** ** Chunks *)

  (** [Header::read_chunk], /repo/src/chunks/io.rs 222-265; identifiers are
      [repr(u32)]. *)
  Definition w_header : reader (list chunk_id) :=
    m <- read_exact 4 ;;
    if negb (str_eqb m magic) then fail EFormat else
    v <- read_u32 ;;
    if negb (v =? model_version) then fail EFormat else
    n <- read_u32 ;;
    w_reserve n 4 ;;;
    repeat_m n (i <- read_u32 ;; lift (chunk_of_num i)).

  (** [Metadata::read_chunk], /repo/src/chunks/metadata.rs 49-77: a cast. *)
  Definition w_metadata (T : toml_ops) : reader (toml_table T) :=
    ensure_chunk_type CMetadata ;;;
    n0 <- read_u64 ;;
    n <- w_as n0 ;;
    w_reserve n 1 ;;;
    buf <- read_exact n ;;
    if utf8_valid buf then
      match toml_parse T buf with
      | Some t => ret t
      | None => fail EFormat
      end
    else fail EFormat.

  (** [NdNorms::read_chunk], /repo/src/chunks/norms.rs 53-85: a conversion. *)
  Definition w_norms : reader (list f32) :=
    ensure_chunk_type CNdNorms ;;;
    _ <- read_u64 ;;
    n0 <- read_u64 ;;
    n <- w_try n0 ;;
    ensure_data_type f32_type_id ;;;
    pos <- position ;;
    seek_forward (padding4 pos) ;;;
    w_zeros [n] 4 ;;;
    read_f32s n.

  (** [read_string], [read_vocab_items], /repo/src/chunks/vocab/mod.rs 78-103. *)
  Definition w_string_item : reader str :=
    n <- read_u32 ;;
    w_reserve n 1 ;;;
    bs <- read_exact n ;;
    if utf8_valid bs then ret bs else fail EFormat.
  Definition w_items (n : N) : reader (list str) :=
    w_reserve n (mw_string w) ;;;
    repeat_m n w_string_item.

  (** [SimpleVocab::read_chunk], /repo/src/chunks/vocab/simple.rs 54-75: a
      conversion. *)
  Definition w_simple : reader simple_vocab :=
    ensure_chunk_type CSimpleVocab ;;;
    _ <- read_u64 ;;
    n0 <- read_u64 ;;
    n <- w_try n0 ;;
    words <- w_items n ;;
    lift (simple_new words).

  (** [SubwordVocab::new_with_boundaries], /repo/src/chunks/vocab/subword.rs
      77-117: the upper bound of the indexer and the sum must fit. *)
  Definition w_sub_new {I} (ops : indexer_ops I) (pf : profile) (words : list str) (min_n max_n : N) (ix : I)
             (bow eow : str) : res (subword_vocab I) :=
    let indices := create_indices words in
    let* _ := rassert (lenN words =? hm_len indices) PDuplicateWords in
    let* b := ix_bound ops pf ix in
    let* _ := rassert (b <? w_size) PAssert in
    let* _ := rassert (lenN words + b <? w_size) PAssert in
    Ok (mkSub bow eow ix indices words min_n max_n).

  (** [read_bucketed_chunk], lines 375-410: a cast. *)
  Definition w_bucketed {I} (B : bucket_ops I) (pf : profile) (id : chunk_id) : reader (subword_vocab I) :=
    ensure_chunk_type id ;;;
    _ <- read_u64 ;;
    n0 <- read_u64 ;;
    n <- w_as n0 ;;
    min_n <- read_u32 ;;
    max_n <- read_u32 ;;
    buckets <- read_u32 ;;
    words <- w_items n ;;
    ix <- lift (bk_new B buckets) ;;
    lift (w_sub_new (bk_ops B) pf words min_n max_n ix default_bow default_eow).

  (** [read_ngrams_with_indices], lines 691-712. *)
  Definition w_ngram_item : reader (str * N) :=
    n <- read_u32 ;;
    w_reserve n 1 ;;;
    bs <- read_exact n ;;
    if utf8_valid bs then i <- read_u64 ;; ret (bs, i) else fail EFormat.
  Definition w_ngrams (n : N) : reader (list (str * N)) :=
    w_reserve n (mw_pair w) ;;;
    repeat_m n w_ngram_item.

  (** [read_ngram_chunk], lines 520-548: two casts. *)
  Definition w_explicit (pf : profile) : reader (subword_vocab explicit_indexer) :=
    ensure_chunk_type CExplicitSubwordVocab ;;;
    _ <- read_u64 ;;
    nw0 <- read_u64 ;;
    ng0 <- read_u64 ;;
    min_n <- read_u32 ;;
    max_n <- read_u32 ;;
    nw <- w_as nw0 ;;
    words <- w_items nw ;;
    ng <- w_as ng0 ;;
    ngrams <- w_ngrams ng ;;
    r <- lift (explicit_new_with_indices ngrams) ;;
    lift (w_sub_new explicit_ops pf words min_n max_n (fst r) default_bow default_eow).

  (** [read_floret_chunk], lines 603-651. *)
  Definition w_floret (pf : profile) : reader (subword_vocab floret_indexer) :=
    ensure_chunk_type CFloretSubwordVocab ;;;
    _ <- read_u64 ;;
    min_n <- read_u32 ;;
    max_n <- read_u32 ;;
    n_buckets <- read_u64 ;;
    n_hashes <- read_u32 ;;
    if negb ((1 <=? n_hashes) && (n_hashes <=? 4)) then fail ERead else
    seed <- read_u32 ;;
    bow <- w_string_item ;;
    eow <- w_string_item ;;
    ix <- lift (floret_indexer_new n_buckets n_hashes seed) ;;
    lift (w_sub_new floret_ops pf [] min_n max_n ix bow eow).

  (** [VocabWrap::read_chunk], /repo/src/chunks/vocab/wrappers.rs 107-149. *)
  Definition w_vocab (pf : profile) : reader vocab_wrap :=
    id <- peek peek_chunk_id ;;
    match id with
    | CSimpleVocab => v <- w_simple ;; ret (VSimple v)
    | CFastTextSubwordVocab => v <- w_bucketed ft_bucket_ops pf CFastTextSubwordVocab ;; ret (VFastText v)
    | CBucketSubwordVocab => v <- w_bucketed hash_bucket_ops pf CBucketSubwordVocab ;; ret (VBucket v)
    | CExplicitSubwordVocab => v <- w_explicit pf ;; ret (VExplicit v)
    | CFloretSubwordVocab => v <- w_floret pf ;; ret (VFloret v)
    | _ => fail EFormat
    end.

  (** [ReadChunk for NdArray], /repo/src/chunks/storage/array.rs 321-359, and
      [MmapChunk for MmapArray], lines 113-164: conversions. *)
  Definition w_ndarray : reader (array2 f32) :=
    ensure_chunk_type CNdArray ;;;
    _ <- read_u64 ;;
    rows0 <- read_u64 ;;
    rows <- w_try rows0 ;;
    cols <- read_u32 ;;
    ensure_data_type f32_type_id ;;;
    pos <- position ;;
    seek_forward (padding4 pos) ;;;
    w_zeros [rows; cols] 4 ;;;
    data <- read_f32s (rows * cols) ;;
    ret (mkA2 cols (unflattenN rows cols data)).
  Definition w_mmap_ndarray (pf : profile) : reader mmap_array :=
    ensure_chunk_type CNdArray ;;;
    _ <- read_u64 ;;
    rows0 <- read_u64 ;;
    rows <- w_try rows0 ;;
    cols <- read_u32 ;;
    ensure_data_type f32_type_id ;;;
    pos <- position ;;
    seek_forward (padding4 pos) ;;;
    size <- lift (w_mul pf rows cols) ;;
    len <- lift (w_mul pf size 4) ;;
    map <- w_map len ;;
    seek_forward len ;;;
    ret (mkMma map rows cols).

  (** [read_product_quantizer], /repo/src/chunks/storage/quantized.rs 81-149,
      and the readers of quantized matrices, lines 321-358 and 557-677:
      conversions. *)
  Definition w_pq : reader pq_read :=
    proj <- read_u32 ;;
    norms <- read_u32 ;;
    ql <- read_u32 ;;
    rl <- read_u32 ;;
    nc <- read_u32 ;;
    n0 <- read_u64 ;;
    n <- w_try n0 ;;
    lift (check_quantizer_invariants ql rl) ;;;
    ensure_data_type u8_type_id ;;;
    ensure_data_type f32_type_id ;;;
    pos <- position ;;
    seek_forward (padding4 pos) ;;;
    projection <- (if negb (proj =? 0) then
                     w_zeros [rl; rl] 4 ;;;
                     data <- read_f32s (rl * rl) ;;
                     ret (Some (mkA2 rl (unflattenN rl rl data)))
                   else ret None) ;;
    w_zeros [ql; nc; rl / ql] 4 ;;;
    data <- read_f32s (ql * nc * (rl / ql)) ;;
    q <- lift (pq_new projection ql nc (rl / ql)
                 (map (unflattenN nc (rl / ql)) (unflattenN ql (nc * (rl / ql)) data))) ;;
    ret (n, q, negb (norms =? 0)).
  Definition w_quantized_norms (has : bool) (n : N) : reader (option (list f32)) :=
    if has then w_zeros [n] 4 ;;; ns <- read_f32s n ;; ret (Some ns) else ret None.
  Definition w_quantized : reader (quantized f32) :=
    ensure_chunk_type CQuantizedArray ;;;
    _ <- read_u64 ;;
    r <- w_pq ;;
    let '(n, q, has) := r in
    norms <- w_quantized_norms has n ;;
    w_zeros [n; pq_ql q] 1 ;;;
    data <- read_exact (n * pq_ql q) ;;
    ret (mkQuant q (mkA2 (pq_ql q) (unflattenN n (pq_ql q) data)) norms).
  Definition w_mmap_quantized (pf : profile) : reader mmap_quantized :=
    ensure_chunk_type CQuantizedArray ;;;
    _ <- read_u64 ;;
    r <- w_pq ;;
    let '(n, q, has) := r in
    norms <- w_quantized_norms has n ;;
    len <- lift (w_mul pf n (pq_ql q)) ;;
    map <- w_map len ;;
    seek_forward len ;;;
    ret (mkMmq q map norms).

  (** [StorageWrap], /repo/src/chunks/storage/wrappers.rs 122-181. *)
  Definition w_storage : reader storage_wrap :=
    id <- peek peek_chunk_id ;;
    match id with
    | CNdArray => a <- w_ndarray ;; ret (SNdArray a)
    | CQuantizedArray => q <- w_quantized ;; ret (SQuantized q)
    | _ => fail EFormat
    end.
  Definition w_mmap_storage (pf : profile) : reader storage_wrap :=
    id <- peek peek_chunk_id ;;
    match id with
    | CNdArray => a <- w_mmap_ndarray pf ;; ret (SMmapArray a)
    | CQuantizedArray => q <- w_mmap_quantized pf ;; ret (SMmapQuantized q)
    | _ => fail EFormat
    end.

  (** ** Files: [read_embeddings] and [mmap_embeddings],
      /repo/src/embeddings.rs 485-547 *)
  Definition w_file (T : toml_ops) {V S} (rv : reader V) (rs : reader S) : reader (embeddings (toml_table T) V S f32) :=
    ids <- w_header ;;
    match ids with
    | [] => fail EFormat
    | id :: _ =>
        md <- (if chunk_eqb id CMetadata
               then t <- w_metadata T ;; ret (Some t) else ret None) ;;
        v <- rv ;;
        s <- rs ;;
        norms <- ok_opt w_norms ;;
        ret (mkEmb md s v norms)
    end.
  Definition w_read (T : toml_ops) (pf : profile) := w_file T (w_vocab pf) w_storage.
  Definition w_mmap (T : toml_ops) (pf : profile) := w_file T (w_vocab pf) (w_mmap_storage pf).
End Width.
