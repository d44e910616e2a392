(** * The texts of errors in other formats.

    The readers of [TextIO] and [FastText] with the payload of
    [error::Error], as [Messages] has it for the readers of finalfusion
    files.  [CompatErasure] shows that they are the same readers once the
    texts are forgotten. *)
From Coq Require Import Strings.String.
From Verif Require Import Base Utf8 Stream F32 ChunkIO Subword Vocab Storage Embeddings TextIO FastText Messages.
Local Open Scope N_scope.
Local Open Scope d_scope.

(** ** Numbers *)

(** [core::num::IntErrorKind], as far as [usize] needs it. *)
Inductive int_error := IEmpty | IInvalidDigit | IPosOverflow.
(** [Display] of [ParseIntError]. *)
Definition int_error_text (e : int_error) : str :=
  match e with
  | IEmpty => txt "cannot parse integer from empty string"
  | IInvalidDigit => txt "invalid digit found in string"
  | IPosOverflow => txt "number too large to fit in target type"
  end.

(** The checked loop of [usize::from_str]: whether the next byte is a digit is
    checked before the overflow. *)
Fixpoint digits_error (s : str) (acc : N) : option int_error :=
  match s with
  | [] => None
  | b :: s' =>
      match digit_value b with
      | None => Some IInvalidDigit
      | Some d => let a := acc * 10 + d in if a <? two64 then digits_error s' a else Some IPosOverflow
      end
  end.
Definition number_error (s : str) : option int_error :=
  match s with
  | [] => Some IEmpty
  | b :: s' =>
      if byte_eqb b x2b then match s' with [] => Some IInvalidDigit | _ => digits_error s' 0 end
      else digits_error s 0
  end.
Definition number_error_text (s : str) : str :=
  match number_error s with Some e => int_error_text e | None => [] end.

(** [Display] of [ParseFloatError]. *)
Definition float_error_text (s : str) : str :=
  match s with [] => txt "cannot parse float from empty string" | _ => txt "invalid float literal" end.

(** [util::read_string], /repo/src/util.rs 101-116. *)
Definition token (lossy : bool) (bs : str) : D str :=
  if lossy then dret (from_utf8_lossy bs)
  else if utf8_valid bs then dret bs
  else dfail (MFormat (txt "Token contains invalid UTF-8: " ++ utf8_text bs)).
Definition read_string_t (delim : byte) (lossy : bool) : D str :=
  buf <- io (read_until delim) "Cannot read string" ;;
  token lossy (removelast buf).

(** [util::read_number], /repo/src/util.rs 88-99. *)
Definition read_number_t (delim : byte) : D N :=
  s <- read_string_t delim false ;;
  match dec_parse s with
  | Some n => dret n
  | None => dfail (MFormat (txt "Cannot parse shape component '" ++ s ++ txt "': " ++ number_error_text s))
  end.

(** [Array2::from_shape_vec(..).map_err(Error::MatrixShape)] *)
Definition from_shape_vec_t {F} (rows cols : N) (data : list F) : D (array2 F) :=
  if lenN data =? rows * cols then dret (mkA2 cols (unflattenN rows cols data)) else dfail MMatrixShape.

(** ** Text *)
Section Text.
  Context (P : ftext_ops) (pf : profile) {Md : Type}.
  Notation semb := (embeddings Md simple_vocab (array2 f32) f32).

  (** Components, /repo/src/compat/text.rs 236-240 and
      /repo/src/compat/floret/io.rs 73-77. *)
  Fixpoint parse_floats_t (parts : list str) : D (list f32) :=
    match parts with
    | [] => dret []
    | p :: ps =>
        match ft_parse P p with
        | Some x => xs <- parse_floats_t ps ;; dret (x :: xs)
        | None => dfail (MFormat (txt "Cannot parse vector component '" ++ p ++ txt "': " ++ float_error_text p))
        end
    end.

  (** A line, /repo/src/compat/text.rs 219-241. *)
  Definition text_line_t (lossy : bool) (buf : list byte) : D (str * list f32) :=
    line <- token lossy buf ;;
    match fields line with
    | [] => dfail (MFormat (txt "Spurious empty line"))
    | word :: parts => xs <- parse_floats_t parts ;; dret (word, xs)
    end.

  (** The loop, lines 204-242.  [fuel] is larger than the number of bytes, so
      that its end is not reached. *)
  Fixpoint text_lines_t (fuel : nat) (lossy : bool) : D (list str * list f32) :=
    match fuel with
    | O => dfail MOverflow
    | Datatypes.S fuel' =>
        buf <- io (read_until x0a) "Cannot read line from embedding file" ;;
        match buf with
        | [] => dret ([], [])
        | _ =>
            wx <- text_line_t lossy (strip_nl buf) ;;
            r <- text_lines_t fuel' lossy ;;
            dret (fst wx :: fst r, snd wx ++ snd r)
        end
    end.
  Definition read_lines_t (lossy : bool) : D (list str * list f32) := fun s =>
    text_lines_t (Datatypes.S (length (s_rest s))) lossy s.

  (** Checks after the loop, lines 244-266. *)
  Definition text_shape_t (shape : option (N * N)) (n_words n_data : N) : D (N * N) :=
    match shape with
    | Some (n, dims) =>
        if negb (n_words =? n)
        then dfail (MFormat (txt "Incorrect vocabulary size, expected: " ++ dec_print n
                             ++ txt ", got: " ++ dec_print n_words)) else
        d <- build (lift (div64 n_data n)) ;;
        if negb (d =? dims)
        then dfail (MFormat (txt "Incorrect embedding dimensionality, expected: " ++ dec_print dims
                             ++ txt ", got: " ++ dec_print d)) else
        dret (n, dims)
    | None => dims <- build (lift (div64 n_data n_words)) ;; dret (n_words, dims)
    end.

  (** [read_embeds], lines 188-274. *)
  Definition read_embeds_t (shape : option (N * N)) (lossy : bool) : D semb :=
    build (match shape with
           | Some (n, dims) =>
               Stream.bind (reserve n 24) (fun _ =>
               Stream.bind (lift (mul64 pf n dims)) (fun c => reserve c 4))
           | None => ret tt
           end) ;;;
    wd <- read_lines_t lossy ;;
    let '(words, data) := wd in
    sh <- text_shape_t shape (lenN words) (lenN data) ;;
    a <- from_shape_vec_t (fst sh) (snd sh) data ;;
    v <- build (lift (simple_new words)) ;;
    build (lift (emb_new_with_maybe_norms simple_ops (nd_ops f32) pf None v a None)).

  (** Lines 69-85, 98-105. *)
  Definition read_text_t (lossy : bool) : D semb :=
    e <- read_embeds_t None lossy ;; build (lift (normalize_all f32_ops pf e)).
  (** Lines 134-151, 168-186. *)
  Definition read_text_dims_raw_t (lossy : bool) : D semb :=
    n <- read_number_t x20 ;;
    d <- read_number_t x0a ;;
    read_embeds_t (Some (n, d)) lossy.
  Definition read_text_dims_t (lossy : bool) : D semb :=
    e <- read_text_dims_raw_t lossy ;; build (lift (normalize_all f32_ops pf e)).
End Text.

(** ** word2vec *)
Section Word2Vec.
  Context (pf : profile) {Md : Type}.
  Notation semb := (embeddings Md simple_vocab (array2 f32) f32).

  (** /repo/src/compat/word2vec.rs 97-108. *)
  Definition read_w2v_entry_t (dims : N) (lossy : bool) : D (str * list f32) :=
    w <- read_string_t x20 lossy ;;
    v <- io (read_f32s dims) "Cannot read word embedding" ;;
    dret (str_trim w, v).

  (** [read_word2vec_binary_raw], lines 89-116, and
      [read_word2vec_binary(_lossy)], lines 60-75. *)
  Definition read_word2vec_raw_t (lossy : bool) : D semb :=
    n <- read_number_t x20 ;;
    d <- read_number_t x0a ;;
    build (alloc_zeros [n; d] 4) ;;;
    build (reserve n 24) ;;;
    es <- drepeat n (read_w2v_entry_t d lossy) ;;
    v <- build (lift (simple_new (map fst es))) ;;
    build (lift (emb_new_with_maybe_norms simple_ops (nd_ops f32) pf None v (mkA2 d (map snd es)) None)).
  Definition read_word2vec_t (lossy : bool) : D semb :=
    e <- read_word2vec_raw_t lossy ;; build (lift (normalize_all f32_ops pf e)).
End Word2Vec.

(** ** floret *)
Section Floret.
  Context (P : ftext_ops) (pf : profile) {Md : Type}.
  Notation femb := (embeddings Md (subword_vocab floret_indexer) (array2 f32) f32).

  (** A line, /repo/src/compat/floret/io.rs 65-87; [BufRead::lines] reports
      ill-formed UTF-8 as an I/O error. *)
  Definition floret_line_t (dims : N) (buf : list byte) : D (list f32) :=
    if utf8_valid buf then
      xs <- parse_floats_t P (tl (fields buf)) ;;
      if lenN xs =? dims then dret xs
      else dfail (MFormat (txt "Incorrect number of embedding components, expected: " ++ dec_print dims
                           ++ txt ", got: " ++ dec_print (lenN xs)))
    else dfail (MRead (txt "Cannot read line")).
  Fixpoint floret_lines_t (fuel : nat) (dims : N) : D (list f32) :=
    match fuel with
    | O => dfail MOverflow
    | Datatypes.S fuel' =>
        buf <- io (read_until x0a) "Cannot read line" ;;
        match buf with
        | [] => dret []
        | _ =>
            xs <- floret_line_t dims (strip_crlf buf) ;;
            r <- floret_lines_t fuel' dims ;;
            dret (xs ++ r)
        end
    end.
  Definition read_floret_lines_t (dims : N) : D (list f32) := fun s =>
    floret_lines_t (Datatypes.S (length (s_rest s))) dims s.

  (** [read_floret_text], lines 28-102: the texts show the numbers after
      [as u32]. *)
  Definition read_floret_text_t : D femb :=
    n_buckets <- read_number_t x20 ;;
    dims <- read_number_t x20 ;;
    min_n <- read_number_t x20 ;;
    let min_n := min_n mod two32 in
    max_n <- read_number_t x20 ;;
    let max_n := max_n mod two32 in
    n_hashes <- read_number_t x20 ;;
    let n_hashes := n_hashes mod two32 in
    seed <- read_number_t x20 ;;
    bow <- read_string_t x20 false ;;
    eow <- read_string_t x0a false ;;
    if n_buckets =? 0 then dfail (MFormat (txt "Expected at least 1 bucket")) else
    if dims =? 0 then dfail (MFormat (txt "Embeddings should have at least 1 dimension")) else
    if max_n <? min_n
    then dfail (MFormat (txt "The minimum n-gram length (" ++ dec_print min_n
           ++ txt ") must not be larger than the maximum length (" ++ dec_print max_n ++ txt ")")) else
    if negb ((1 <=? n_hashes) && (n_hashes <=? 4))
    then dfail (MFormat (txt "The number of hashes should be between 1 and 4 (inclusive), was: "
           ++ dec_print n_hashes)) else
    c <- build (lift (mul64 pf n_buckets dims)) ;;
    build (reserve c 4) ;;;
    data <- read_floret_lines_t dims ;;
    a <- from_shape_vec_t n_buckets dims data ;;
    ix <- build (lift (floret_indexer_new n_buckets n_hashes (seed mod two32))) ;;
    v <- build (lift (sub_new_with_boundaries floret_ops pf [] min_n max_n ix bow eow)) ;;
    build (lift (emb_new_with_maybe_norms (sub_ops floret_ops) (nd_ops f32) pf None v a None)).
End Floret.

(** ** fastText *)

(** [Loss::read] and [Model::read], /repo/src/compat/fasttext/io.rs 326-339
    and 369-382. *)
Definition read_loss_t : D ft_loss :=
  n <- io read_u32 "Cannot read loss type" ;;
  match n with
  | 1 => dret HierarchicalSoftmax
  | 2 => dret NegativeSampling
  | 3 => dret Softmax
  | _ => dfail (MFormat (txt "Unknown loss: " ++ dec_print n))
  end.
Definition read_model_t : D ft_model :=
  n <- io read_u32 "Cannot read model type" ;;
  match n with
  | 1 => dret Cbow
  | 2 => dret SkipGram
  | 3 => dret Supervised
  | _ => dfail (MFormat (txt "Unknown model: " ++ dec_print n))
  end.

(** [Config::read], lines 221-274. *)
Definition read_config_t : D ft_config :=
  dims <- io read_u32 "Cannot read number of dimensions" ;;
  window <- io read_u32 "Cannot read window size" ;;
  epoch <- io read_u32 "Cannot read number of epochs" ;;
  min_count <- io read_u32 "Cannot read minimum count" ;;
  neg <- io read_u32 "Cannot read negative samples" ;;
  word_ngrams <- io read_u32 "Cannot read word n-gram length" ;;
  loss <- read_loss_t ;;
  model <- read_model_t ;;
  bucket <- io read_u32 "Cannot read number of buckets" ;;
  min_n <- io read_u32 "Cannot read minimum subword length" ;;
  max_n <- io read_u32 "Cannot read maximum subword length" ;;
  lr <- io read_u32 "Cannot read LR update rate" ;;
  threshold <- io read_u64 "Cannot read sampling threshold" ;;
  dret (mkFtCfg dims window epoch min_count neg word_ngrams loss model bucket min_n max_n lr threshold).

(** [read_vocab], lines 502-557. *)
Definition read_ft_entry_t (lossy : bool) : D str :=
  w <- read_string_t x00 lossy ;;
  io read_u64 "Cannot read word frequency" ;;;
  t <- io read_u8 "Cannot read entry type" ;;
  if negb (t =? 0) then dfail (MFormat (txt "Non-word entry")) else dret w.
Definition read_ft_vocab_t (pf : profile) (c : ft_config) (lossy : bool) : D (subword_vocab ft_indexer) :=
  size <- io read_u32 "Cannot read vocabulary size" ;;
  io read_u32 "Cannot read number of words" ;;;
  n_labels <- io read_u32 "Cannot read number of labels" ;;
  if 0 <? n_labels then dfail (MFormat (txt "fastText prediction models are not supported")) else
  io read_u64 "Cannot read number of tokens" ;;;
  prune <- io read_u64 "Cannot read pruned vocabulary size" ;;
  if prune <=? isize_max then dfail (MFormat (txt "Pruned vocabularies are not supported")) else
  build (reserve size 24) ;;;
  words <- drepeat size (read_ft_entry_t lossy) ;;
  ix <- build (lift (ft_indexer_new (fc_bucket c))) ;;
  build (lift (sub_new ft_ops pf words (fc_min_n c) (fc_max_n c) ix)).

(** [read_embeddings], lines 427-449. *)
Definition read_ft_matrix_t : D (array2 f32) :=
  m <- io read_u64 "Cannot read number of embedding matrix rows" ;;
  n <- io read_u64 "Cannot read number of embedding matrix columns" ;;
  build (alloc_zeros [m; n] 4) ;;;
  data <- io (read_f32s (m * n)) "Cannot read embeddings" ;;
  dret (mkA2 n (unflattenN m n data)).

Section FastText.
  Context (pf : profile) (T : toml_ops).
  Variable config_table : ft_config -> option (toml_table T).
  (** [Display] of the errors of the toml crate. *)
  Variable table_error : ft_config -> str.
  Notation fte := (embeddings (toml_table T) (subword_vocab ft_indexer) (array2 f32) f32).

  (** [read_fasttext_private], lines 60-117. *)
  Definition read_fasttext_t (lossy : bool) : D fte :=
    m <- io read_u32 "Cannot fastText read magic" ;;
    if negb (m =? ft_magic)
    then dfail (MFormat (txt "Expected " ++ dec_print ft_magic ++ txt " as magic, got: " ++ dec_print m)) else
    ver <- io read_u32 "Cannot read fastText version" ;;
    if ft_version <? ver
    then dfail (MFormat (txt "Expected " ++ dec_print ft_version ++ txt " as version, got: " ++ dec_print ver)) else
    c <- read_config_t ;;
    v <- read_ft_vocab_t pf c lossy ;;
    q <- io read_u8 "Cannot read quantization information" ;;
    if q =? 1 then dfail (MFormat (txt "Quantized fastText models are not supported")) else
    a0 <- read_ft_matrix_t ;;
    a1 <- build (lift (add_subword_embeddings f32_ops pf v a0)) ;;
    an <- build (lift (normalize_words f32_ops (sub_words_len v) a1)) ;;
    n <- build (lift (add64 pf (sub_words_len v) (fc_bucket c))) ;;
    if negb (a2_nrows (fst an) =? n) then dfail MMatrixShape else
    match config_table c with
    | None => dfail (MFormat (txt "Cannot serialize model metadata to TOML: " ++ table_error c))
    | Some t => build (lift (emb_new (sub_ops ft_ops) (nd_ops f32) pf (Some t) v (fst an) (snd an)))
    end.
End FastText.
