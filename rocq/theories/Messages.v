(** * The texts of errors.

    The readers of the rest of the model keep only the constructor of an
    error.  Here they are written once more with the payload of
    [error::Error]: what a user gets to see when a file cannot be read.
    [MessageThms] shows that these readers are the same ones once the texts
    are forgotten.

    Simplification: the [io::Error] inside of [Error::Read] is dropped. *)
From Coq Require Import Strings.String Strings.Byte.
From Verif Require Import Base Utf8 Stream F32 ChunkIO Subword Vocab Storage Embeddings TextIO.
Local Open Scope N_scope.

Definition txt (s : string) : str := list_byte_of_string s.
Arguments txt : simpl never.

(** [error::Error], /repo/src/error.rs 14-60.  The sources of
    [MatrixShape] and [Quantization] are dropped. *)
Inductive emsg :=
| MContext (context : str) (e : emsg)
| MFormat (s : str)
| MNGramConversion (s : str)
| MMatrixShape
| MRead (desc : str)
| MUnknownChunk (id : N)
| MOverflow
| MConversion (from to : str)
| MQuantization
| MWrite (desc : str).

(** [Display], derived from the [error] attributes of the same lines. *)
Definition display (e : emsg) : str :=
  match e with
  | MContext c _ => c
  | MFormat s => txt "Invalid file format " ++ s
  | MNGramConversion s => s
  | MMatrixShape => txt "Cannot construct matrix with the given shape"
  | MRead d => d
  | MUnknownChunk n => txt "Unknown chunk identifier " ++ dec_print n
  | MOverflow => txt "Data cannot be represented using native word size"
  | MConversion f t => txt "Can't convert " ++ f ++ txt " to " ++ t
  | MQuantization => txt "Cannot quantize embeddings"
  | MWrite d => d
  end.

(** The error without its texts.  The rest of the model does not distinguish
    an error from the same error in a [Context]. *)
Fixpoint kind (e : emsg) : error :=
  match e with
  | MContext _ e' => kind e'
  | MFormat _ => EFormat
  | MNGramConversion _ => ENGramConversion
  | MMatrixShape => EMatrixShape
  | MRead _ => ERead
  | MUnknownChunk n => EUnknownChunk n
  | MOverflow => EOverflow
  | MConversion _ _ => EConversion
  | MQuantization => EQuantization
  | MWrite _ => EWrite
  end.

(** ** Readers whose errors have texts *)

Inductive mres (A : Type) := MOk (a : A) | MErr (e : emsg) | MPanic (p : panic).
Arguments MOk {A} a.
Arguments MErr {A} e.
Arguments MPanic {A} p.

Definition D (A : Type) := stream -> mres A * stream.
Definition dret {A} (a : A) : D A := fun s => (MOk a, s).
Definition dfail {A} (e : emsg) : D A := fun s => (MErr e, s).
Definition dbind {A B} (m : D A) (k : A -> D B) : D B :=
  fun s => match m s with
           | (MOk a, s') => k a s'
           | (MErr e, s') => (MErr e, s')
           | (MPanic p, s') => (MPanic p, s')
           end.

Declare Scope d_scope.
Delimit Scope d_scope with d.
Notation "x <- m ;; k" := (dbind m (fun x => k))
  (at level 61, m at next level, right associativity) : d_scope.
Notation "m ;;; k" := (dbind m (fun _ => k))
  (at level 61, right associativity) : d_scope.
Local Open Scope d_scope.

Fixpoint drepeat_pos {A} (p : positive) (m : D A) : D (list A) :=
  match p with
  | xH => a <- m ;; dret [a]
  | xO p' => l1 <- drepeat_pos p' m ;; l2 <- drepeat_pos p' m ;; dret (l1 ++ l2)
  | xI p' => a <- m ;; l1 <- drepeat_pos p' m ;; l2 <- drepeat_pos p' m ;; dret (a :: l1 ++ l2)
  end.
Definition drepeat {A} (n : N) (m : D A) : D (list A) :=
  match n with N0 => dret [] | Npos p => drepeat_pos p m end.

(** [m.map_err(|e| Error::read_error(desc, e))] for an I/O operation. *)
Definition io {A} (m : reader A) (desc : string) : D A := fun s =>
  match m s with
  | (Ok a, s') => (MOk a, s')
  | (Err _, s') => (MErr (MRead (txt desc)), s')
  | (Panic p, s') => (MPanic p, s')
  end.

(** [m.map_err(|e| e.context(c))] *)
Definition in_context {A} (c : string) (m : D A) : D A := fun s =>
  match m s with
  | (MErr e, s') => (MErr (MContext (txt c) e), s')
  | r => r
  end.

(** Constructors and allocations: they return or panic. *)
Definition build {A} (m : reader A) : D A := io m "".

(** ** Values in messages *)

(** [Display] of [ChunkIdentifier], /repo/src/chunks/io.rs 50-67. *)
Definition chunk_name (c : chunk_id) : str :=
  match c with
  | CHeader => txt "Header"
  | CSimpleVocab => txt "SimpleVocab"
  | CNdArray => txt "NdArray"
  | CFastTextSubwordVocab => txt "FastTextSubwordVocab"
  | CExplicitSubwordVocab => txt "ExplicitSubwordVocab"
  | CFloretSubwordVocab => txt "FloretSubwordVocab"
  | CBucketSubwordVocab => txt "BucketSubwordVocab"
  | CQuantizedArray => txt "QuantizedArray"
  | CMetadata => txt "Metadata"
  | CNdNorms => txt "NdNorms"
  end.

(** [std::str::Utf8Error]: [valid_up_to] and [error_len] of bytes that are
    not valid UTF-8.  [error_len] is [None] if the bytes end inside of a
    character: then its first byte announces more bytes than there are, and
    all that are there fit. *)
Fixpoint utf8_error_at (fuel : nat) (bs : str) (i : N) : option (N * option N) :=
  match fuel with
  | O => None
  | Datatypes.S fuel' =>
      match bs with
      | [] => None
      | b :: _ =>
          match utf8_step bs with
          | UChar _ w => utf8_error_at fuel' (skipn w bs) (i + N.of_nat w)
          | UBad w =>
              Some (i, if (lenN bs =? N.of_nat w) && (0xC2 <=? bN b) && (bN b <=? 0xF4)
                       then None else Some (N.of_nat w))
          end
      end
  end.
Definition utf8_error (bs : str) : option (N * option N) :=
  utf8_error_at (Datatypes.S (length bs)) bs 0.

(** [Display] of [FromUtf8Error]. *)
Definition utf8_text (bs : str) : str :=
  match utf8_error bs with
  | Some (i, Some n) => txt "invalid utf-8 sequence of " ++ dec_print n ++ txt " bytes from index " ++ dec_print i
  | Some (i, None) => txt "incomplete utf-8 byte sequence from index " ++ dec_print i
  | None => []
  end.

(** ** Identifiers and the header *)

(** [ChunkIdentifier::try_from], /repo/src/chunks/io.rs 69-91. *)
Definition chunk_try_from (n : N) : D chunk_id :=
  match chunk_of_num n with
  | Ok c => dret c
  | _ => dfail (MUnknownChunk n)
  end.

(** [ChunkIdentifier::ensure_chunk_type], /repo/src/chunks/io.rs 31-47. *)
Definition ensure_chunk_type_d (id : chunk_id) : D unit :=
  n <- io read_u32 "Cannot read chunk identifier" ;;
  c <- chunk_try_from n ;;
  if chunk_eqb c id then dret tt
  else dfail (MFormat (txt "Invalid chunk identifier, expected: " ++ chunk_name id
                       ++ txt ", got: " ++ chunk_name c)).

(** [TypeId::ensure_data_type], /repo/src/chunks/io.rs 104-121. *)
Definition ensure_data_type_d (t : N) : D unit :=
  n <- io read_u32 "Cannot read type identifier" ;;
  if n =? t then dret tt
  else dfail (MFormat (txt "Invalid type, expected: " ++ dec_print t ++ txt ", got: " ++ dec_print n)).

(** [Header::read_chunk], /repo/src/chunks/io.rs 222-265. *)
Definition read_header_d : D (list chunk_id) :=
  m <- io (read_exact 4) "Cannot read magic" ;;
  if negb (str_eqb m magic)
  then dfail (MFormat (txt "Expected 'FiFu' as magic, got: " ++ from_utf8_lossy m)) else
  v <- io read_u32 "Cannot read model version" ;;
  if negb (v =? model_version)
  then dfail (MFormat (txt "Unknown finalfusion version: " ++ dec_print v)) else
  n <- io read_u32 "Cannot read chunk identifiers length" ;;
  drepeat n (i <- io read_u32 "Cannot read chunk identifier" ;; chunk_try_from i).

(** ** Metadata *)
Section Metadata.
  Variable T : toml_ops.
  (** [Display] of the errors of the toml crate. *)
  Variable toml_error : str -> str.

  (** [Metadata::read_chunk], /repo/src/chunks/metadata.rs 48-78. *)
  Definition read_metadata_chunk_d : D (toml_table T) :=
    ensure_chunk_type_d CMetadata ;;;
    n <- io read_u64 "Cannot read chunk length" ;;
    build (reserve n 1) ;;;
    bs <- io (read_exact n) "Cannot read TOML metadata" ;;
    if negb (utf8_valid bs)
    then dfail (MFormat (txt "TOML metadata contains invalid UTF-8: " ++ utf8_text bs))
    else match toml_parse T bs with
         | Some t => dret t
         | None => dfail (MFormat (txt "Cannot deserialize TOML metadata: " ++ toml_error bs))
         end.

  (** [ReadMetadata for Option<Metadata>], /repo/src/chunks/metadata.rs 110-131. *)
  Definition read_metadata_d : D (option (toml_table T)) :=
    ids <- read_header_d ;;
    match ids with
    | [] => dfail (MFormat (txt "Embedding file does not contain chunks"))
    | id :: _ =>
        if chunk_eqb id CMetadata
        then t <- read_metadata_chunk_d ;; dret (Some t)
        else dret None
    end.
End Metadata.

(** ** Padding and norms *)

(** The position and the seek of the readers that skip padding, e.g.
    /repo/src/chunks/norms.rs 72-77. *)
Definition skip_padding_d : D unit :=
  pos <- io position "Cannot get file position for computing padding" ;;
  io (seek_forward (padding4 pos)) "Cannot skip padding".

(** [NdNorms::read_chunk], /repo/src/chunks/norms.rs 53-85. *)
Definition read_norms_d : D (list f32) :=
  ensure_chunk_type_d CNdNorms ;;;
  io read_u64 "Cannot read norms chunk length" ;;;
  n <- io read_u64 "Cannot read norms vector length" ;;
  ensure_data_type_d f32_type_id ;;;
  skip_padding_d ;;;
  build (reserve n 4) ;;;
  io (read_f32s n) "Cannot read norms".

(** ** Vocabularies *)

(** [vocab::read_string], /repo/src/chunks/vocab/mod.rs 78-91. *)
Definition read_string_d : D str :=
  n <- io read_u32 "Cannot read string length" ;;
  bs <- io (read_exact n) "Cannot read item" ;;
  if utf8_valid bs then dret bs
  else dfail (MFormat (txt "Item contains invalid UTF-8: " ++ utf8_text bs)).

(** [vocab::read_vocab_items], /repo/src/chunks/vocab/mod.rs 93-103. *)
Definition read_items_d (n : N) : D (list str) :=
  build (reserve n 24) ;;; drepeat n read_string_d.

(** [SimpleVocab::read_chunk], /repo/src/chunks/vocab/simple.rs 54-74. *)
Definition read_simple_d : D simple_vocab :=
  ensure_chunk_type_d CSimpleVocab ;;;
  io read_u64 "Cannot read vocabulary chunk length" ;;;
  n <- io read_u64 "Cannot read vocabulary length" ;;
  words <- read_items_d n ;;
  build (lift (simple_new words)).

Section Bucketed.
  Context {I : Type} (B : bucket_ops I) (pf : profile).

  (** [SubwordVocab::read_bucketed_chunk], /repo/src/chunks/vocab/subword.rs 373-413. *)
  Definition read_bucketed_d (id : chunk_id) : D (subword_vocab I) :=
    ensure_chunk_type_d id ;;;
    io read_u64 "Cannot read vocabulary chunk length" ;;;
    n <- io read_u64 "Cannot read vocabulary length" ;;
    min_n <- io read_u32 "Cannot read minimum n-gram length" ;;
    max_n <- io read_u32 "Cannot read maximum n-gram length" ;;
    buckets <- io read_u32 "Cannot read number of buckets" ;;
    words <- read_items_d n ;;
    ix <- build (lift (bk_new B buckets)) ;;
    build (lift (sub_new (bk_ops B) pf words min_n max_n ix)).
End Bucketed.

(** [read_ngrams_with_indices], /repo/src/chunks/vocab/subword.rs 691-713. *)
Definition read_ngram_item_d : D (str * N) :=
  n <- io read_u32 "Cannot read item length" ;;
  bs <- io (read_exact n) "Cannot read item" ;;
  if utf8_valid bs
  then i <- io read_u64 "Cannot read ngram index." ;; dret (bs, i)
  else dfail (MFormat (txt "Item contains invalid UTF-8: " ++ utf8_text bs)).
Definition read_ngrams_d (n : N) : D (list (str * N)) :=
  build (reserve n 32) ;;; drepeat n read_ngram_item_d.

(** [SubwordVocab<ExplicitIndexer>::read_ngram_chunk], /repo/src/chunks/vocab/subword.rs 517-550. *)
Definition read_explicit_d (pf : profile) : D (subword_vocab explicit_indexer) :=
  ensure_chunk_type_d CExplicitSubwordVocab ;;;
  io read_u64 "Cannot read vocabulary chunk length" ;;;
  nw <- io read_u64 "Cannot read number of words" ;;
  ng <- io read_u64 "Cannot read number of ngrams" ;;
  min_n <- io read_u32 "Cannot read minimum n-gram length" ;;
  max_n <- io read_u32 "Cannot read maximum n-gram length" ;;
  words <- read_items_d nw ;;
  ngrams <- read_ngrams_d ng ;;
  r <- build (lift (explicit_new_with_indices ngrams)) ;;
  build (lift (sub_new explicit_ops pf words min_n max_n (fst r))).

(** [SubwordVocab<FloretIndexer>::read_floret_chunk], /repo/src/chunks/vocab/subword.rs 603-652. *)
Definition read_floret_d (pf : profile) : D (subword_vocab floret_indexer) :=
  ensure_chunk_type_d CFloretSubwordVocab ;;;
  io read_u64 "Cannot read vocabulary chunk length" ;;;
  min_n <- io read_u32 "Cannot read minimum n-gram length" ;;
  max_n <- io read_u32 "Cannot read maximum n-gram length" ;;
  n_buckets <- io read_u64 "Cannot read number of buckets" ;;
  n_hashes <- io read_u32 "Cannot read number of hashes" ;;
  if negb ((1 <=? n_hashes) && (n_hashes <=? 4))
  then dfail (MRead (txt "Number of hashes should be in be more than 0 and less than 5, was: "
                     ++ dec_print n_hashes)) else
  seed <- io read_u32 "Cannot read hasher seed" ;;
  bow <- in_context "Cannot read begin of word marker" read_string_d ;;
  eow <- in_context "Cannot read end of word marker" read_string_d ;;
  ix <- build (lift (floret_indexer_new n_buckets n_hashes seed)) ;;
  build (lift (sub_new_with_boundaries floret_ops pf [] min_n max_n ix bow eow)).

(** Inspecting an identifier before reading a chunk, e.g.
    /repo/src/chunks/vocab/wrappers.rs 110-121.  Simplification: seeking back
    to where the reader was cannot fail. *)
Definition dpeek {A} (m : D A) : D A := fun s =>
  match m s with
  | (MOk a, _) => (MOk a, s)
  | r => r
  end.

(** [VocabWrap::read_chunk], /repo/src/chunks/vocab/wrappers.rs 105-146. *)
Definition read_vocab_wrap_d (pf : profile) : D vocab_wrap :=
  id <- dpeek (n <- io read_u32 "Cannot read vocabulary chunk identifier" ;; chunk_try_from n) ;;
  match id with
  | CSimpleVocab => v <- read_simple_d ;; dret (VSimple v)
  | CFastTextSubwordVocab => v <- read_bucketed_d ft_bucket_ops pf CFastTextSubwordVocab ;; dret (VFastText v)
  | CBucketSubwordVocab => v <- read_bucketed_d hash_bucket_ops pf CBucketSubwordVocab ;; dret (VBucket v)
  | CExplicitSubwordVocab => v <- read_explicit_d pf ;; dret (VExplicit v)
  | CFloretSubwordVocab => v <- read_floret_d pf ;; dret (VFloret v)
  | _ => dfail (MFormat (txt "Invalid chunk identifier, expected one of: " ++ chunk_name CSimpleVocab
           ++ txt ", " ++ chunk_name CExplicitSubwordVocab ++ txt ", " ++ chunk_name CFastTextSubwordVocab
           ++ txt ", " ++ chunk_name CFloretSubwordVocab ++ txt " or " ++ chunk_name CBucketSubwordVocab
           ++ txt ", got: " ++ chunk_name id))
  end.

(** ** Storages *)

(** The fields that [NdArray::read_chunk] and [MmapArray::mmap_chunk] start
    with, /repo/src/chunks/storage/array.rs 113-139 and 325-351. *)
Definition read_nd_shape_d : D (N * N) :=
  ensure_chunk_type_d CNdArray ;;;
  io read_u64 "Cannot read embedding matrix chunk length" ;;;
  rows <- io read_u64 "Cannot read number of rows of the embedding matrix" ;;
  cols <- io read_u32 "Cannot read number of columns of the embedding matrix" ;;
  ensure_data_type_d f32_type_id ;;;
  skip_padding_d ;;;
  dret (rows, cols).

(** [NdArray::read_chunk], /repo/src/chunks/storage/array.rs 320-359. *)
Definition read_ndarray_d : D (array2 f32) :=
  rc <- read_nd_shape_d ;;
  let (rows, cols) := rc in
  build (alloc_zeros [rows; cols] 4) ;;;
  data <- io (read_f32s (rows * cols)) "Cannot read embedding matrix" ;;
  dret (mkA2 cols (unflattenN rows cols data)).

(** [MmapArray::mmap_chunk], /repo/src/chunks/storage/array.rs 109-167. *)
Definition mmap_ndarray_d (pf : profile) : D mmap_array :=
  rc <- read_nd_shape_d ;;
  let (rows, cols) := rc in
  size <- build (lift (mul64 pf rows cols)) ;;
  len <- build (lift (mul64 pf size 4)) ;;
  map <- io (mmap_region len) "Cannot memory map embedding matrix" ;;
  io (seek_forward len) "Cannot skip embedding matrix" ;;;
  dret (mkMma map rows cols).

(** [QuantizedArray::check_quantizer_invariants],
    /repo/src/chunks/storage/quantized.rs 34-40: the two lengths are passed
    to [format!] in the other order. *)
Definition check_quantizer_invariants_d (ql rl : N) : D unit :=
  if ql =? 0 then fun s => (MPanic PDivByZero, s)
  else if rl mod ql =? 0 then dret tt
  else dfail (MFormat (txt "Reconstructed embedding length (" ++ dec_print ql
         ++ txt ") not a multiple of the quantized embedding length: (" ++ dec_print rl ++ txt ")")).

(** [QuantizedArray::read_product_quantizer],
    /repo/src/chunks/storage/quantized.rs 80-150. *)
Definition read_projection_d (has : bool) (rl : N) : D (option (array2 f32)) :=
  if has then
    build (alloc_zeros [rl; rl] 4) ;;;
    data <- io (read_f32s (rl * rl)) "Cannot read projection matrix" ;;
    dret (Some (mkA2 rl (unflattenN rl rl data)))
  else dret None.
Definition read_product_quantizer_d : D pq_read :=
  proj <- io read_u32 "Cannot read quantized embedding matrix projection" ;;
  norms <- io read_u32 "Cannot read quantized embedding matrix norms" ;;
  ql <- io read_u32 "Cannot read quantized embedding length" ;;
  rl <- io read_u32 "Cannot read reconstructed embedding length" ;;
  nc <- io read_u32 "Cannot read number of subquantizers" ;;
  n <- io read_u64 "Cannot read number of quantized embeddings" ;;
  check_quantizer_invariants_d ql rl ;;;
  ensure_data_type_d u8_type_id ;;;
  ensure_data_type_d f32_type_id ;;;
  skip_padding_d ;;;
  projection <- read_projection_d (negb (proj =? 0)) rl ;;
  build (alloc_zeros [ql; nc; rl / ql] 4) ;;;
  data <- io (read_f32s (ql * nc * (rl / ql))) "Cannot read subquantizer" ;;
  q <- build (lift (pq_new projection ql nc (rl / ql)
               (map (unflattenN nc (rl / ql)) (unflattenN ql (nc * (rl / ql)) data)))) ;;
  dret (n, q, negb (norms =? 0)).

(** The norms of a quantized matrix, /repo/src/chunks/storage/quantized.rs
    338-346 and 661-669. *)
Definition read_quantized_norms_d (has : bool) (n : N) : D (option (list f32)) :=
  if has then build (alloc_zeros [n] 4) ;;; ns <- io (read_f32s n) "Cannot read norms" ;; dret (Some ns)
  else dret None.

(** [QuantizedArray::read_chunk], /repo/src/chunks/storage/quantized.rs 321-359. *)
Definition read_quantized_d : D (quantized f32) :=
  ensure_chunk_type_d CQuantizedArray ;;;
  io read_u64 "Cannot read quantized embedding matrix chunk length" ;;;
  r <- read_product_quantizer_d ;;
  let '(n, q, has) := r in
  norms <- read_quantized_norms_d has n ;;
  build (alloc_zeros [n; pq_ql q] 1) ;;;
  data <- io (read_exact (n * pq_ql q)) "Cannot read quantized embeddings" ;;
  dret (mkQuant q (mkA2 (pq_ql q) (unflattenN n (pq_ql q) data)) norms).

(** [MmapQuantizedArray::mmap_chunk], /repo/src/chunks/storage/quantized.rs 555-590 and 644-683. *)
Definition mmap_quantized_chunk_d (pf : profile) : D mmap_quantized :=
  ensure_chunk_type_d CQuantizedArray ;;;
  io read_u64 "Cannot read quantized embedding matrix chunk length" ;;;
  r <- read_product_quantizer_d ;;
  let '(n, q, has) := r in
  norms <- read_quantized_norms_d has n ;;
  len <- build (lift (mul64 pf n (pq_ql q))) ;;
  map <- io (mmap_region len) "Cannot memory map quantized embedding matrix" ;;
  io (seek_forward len) "Cannot skip quantized embedding matrix" ;;;
  dret (mkMmq q map norms).

Definition peek_storage_d : D chunk_id :=
  dpeek (n <- io read_u32 "Cannot read storage chunk identifier" ;; chunk_try_from n).

(** The messages of the wrappers for other chunks. *)
Definition other_chunk (expected : str) (c : chunk_id) : emsg :=
  MFormat (txt "Invalid chunk identifier, expected" ++ expected ++ txt ", got: " ++ chunk_name c).
Definition only_ndarray : str := txt ": " ++ chunk_name CNdArray.
Definition ndarray_or_quantized : str :=
  txt " one of: " ++ chunk_name CNdArray ++ txt " or " ++ chunk_name CQuantizedArray.

(** [StorageWrap::read_chunk] and [StorageWrap::mmap_chunk],
    /repo/src/chunks/storage/wrappers.rs 121-186. *)
Definition read_storage_wrap_d : D storage_wrap :=
  id <- peek_storage_d ;;
  match id with
  | CNdArray => a <- read_ndarray_d ;; dret (SNdArray a)
  | CQuantizedArray => q <- read_quantized_d ;; dret (SQuantized q)
  | _ => dfail (other_chunk ndarray_or_quantized id)
  end.
Definition mmap_storage_wrap_d (pf : profile) : D storage_wrap :=
  id <- peek_storage_d ;;
  match id with
  | CNdArray => a <- mmap_ndarray_d pf ;; dret (SMmapArray a)
  | CQuantizedArray => q <- mmap_quantized_chunk_d pf ;; dret (SMmapQuantized q)
  | _ => dfail (other_chunk only_ndarray id)
  end.

(** [StorageViewWrap::read_chunk] and [StorageViewWrap::mmap_chunk],
    /repo/src/chunks/storage/wrappers.rs 301-334 and 356-389. *)
Definition read_storage_view_wrap_d : D storage_view_wrap :=
  id <- peek_storage_d ;;
  match id with
  | CNdArray => a <- read_ndarray_d ;; dret (SvNdArray a)
  | _ => dfail (other_chunk only_ndarray id)
  end.
Definition mmap_storage_view_wrap_d (pf : profile) : D storage_view_wrap :=
  id <- peek_storage_d ;;
  match id with
  | CNdArray => a <- mmap_ndarray_d pf ;; dret (SvMmapArray a)
  | _ => dfail (other_chunk only_ndarray id)
  end.

(** ** Embeddings *)

(** [r.ok()] *)
Definition dok {A} (m : D A) : D (option A) := fun s =>
  match m s with
  | (MOk a, s') => (MOk (Some a), s')
  | (MErr _, s') => (MOk None, s')
  | (MPanic p, s') => (MPanic p, s')
  end.

Section Embeddings.
  Variable T : toml_ops.
  Variable toml_error : str -> str.
  Context {V S : Type}.

  (** [ReadEmbeddings::read_embeddings], /repo/src/embeddings.rs 511-548, and
      [MmapEmbeddings::mmap_embeddings], 475-508. *)
  Definition read_embeddings_d (rv : D V) (rs : D S) : D (embeddings (toml_table T) V S f32) :=
    ids <- read_header_d ;;
    match ids with
    | [] => dfail (MFormat (txt "Embedding file does not contain chunks"))
    | id :: _ =>
        md <- (if chunk_eqb id CMetadata
               then t <- read_metadata_chunk_d T toml_error ;; dret (Some t) else dret None) ;;
        v <- rv ;;
        s <- rs ;;
        norms <- dok read_norms_d ;;
        dret (mkEmb md s v norms)
    end.
End Embeddings.
