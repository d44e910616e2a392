(** * Readers with little memory.

    The readers of finalfusion files for an allocator that refuses requests of
    more than [l] bytes are those of [Width] for the machine [limited l].  This
    file has the readers of the other formats: those of [TextIO] and [FastText]
    with [w_reserve (limited l)] and [w_zeros (limited l)].  A request that is
    refused ends the program ([PCapacity]).

    Only requests whose size is computed from numbers in the file are limited.
    Simplification: strings, vectors and hash tables that grow while data is
    read, and the vector of norms (4 bytes per word), always find memory. *)
From Verif Require Import Base Utf8 Stream F32 ChunkIO Subword Vocab Storage Embeddings TextIO FastText Width.
Local Open Scope N_scope.

Section Memory.
  Variable l : N.

  Section Text.
    Context (P : ftext_ops) (pf : profile) {Md : Type}.
    Notation semb := (embeddings Md simple_vocab (array2 f32) f32).
    Notation femb := (embeddings Md (subword_vocab floret_indexer) (array2 f32) f32).

    (** [read_embeds] with a shape, /repo/src/compat/text.rs 188-274, and
        [read_text_dims_raw(_lossy)], lines 168-186;
        [read_text_dims(_lossy)], lines 134-151. *)
    Definition l_text_dims_raw (lossy : bool) : reader semb :=
      n <- read_number x20 ;;
      d <- read_number x0a ;;
      w_reserve (limited l) n 24 ;;;
      c <- lift (mul64 pf n d) ;;
      w_reserve (limited l) c 4 ;;;
      wd <- read_lines P lossy ;;
      let '(words, data) := wd in
      sh <- lift (text_shape (Some (n, d)) (lenN words) (lenN data)) ;;
      a <- lift (from_shape_vec (fst sh) (snd sh) data) ;;
      v <- lift (simple_new words) ;;
      lift (emb_new_with_maybe_norms simple_ops (nd_ops f32) pf None v a None).
    Definition l_text_dims (lossy : bool) : reader semb :=
      e <- l_text_dims_raw lossy ;; lift (normalize_all f32_ops pf e).

    (** [read_word2vec_binary_raw], /repo/src/compat/word2vec.rs 89-116;
        [read_word2vec_binary(_lossy)], lines 60-75. *)
    Definition l_word2vec_raw (lossy : bool) : reader semb :=
      n <- read_number x20 ;;
      d <- read_number x0a ;;
      w_zeros (limited l) [n; d] 4 ;;;
      w_reserve (limited l) n 24 ;;;
      es <- repeat_m n (read_w2v_entry d lossy) ;;
      v <- lift (simple_new (map fst es)) ;;
      lift (emb_new_with_maybe_norms simple_ops (nd_ops f32) pf None v (mkA2 d (map snd es)) None).
    Definition l_word2vec (lossy : bool) : reader semb :=
      e <- l_word2vec_raw lossy ;; lift (normalize_all f32_ops pf e).

    (** [read_floret_text], /repo/src/compat/floret/io.rs 27-102. *)
    Definition l_floret_text : reader femb :=
      n_buckets <- read_number x20 ;;
      dims <- read_number x20 ;;
      min_n <- read_number x20 ;;
      let min_n := min_n mod two32 in
      max_n <- read_number x20 ;;
      let max_n := max_n mod two32 in
      n_hashes <- read_number x20 ;;
      let n_hashes := n_hashes mod two32 in
      seed <- read_number x20 ;;
      bow <- read_string x20 false ;;
      eow <- read_string x0a false ;;
      if n_buckets =? 0 then fail EFormat else
      if dims =? 0 then fail EFormat else
      if max_n <? min_n then fail EFormat else
      if negb ((1 <=? n_hashes) && (n_hashes <=? 4)) then fail EFormat else
      c <- lift (mul64 pf n_buckets dims) ;;
      w_reserve (limited l) c 4 ;;;
      data <- read_floret_lines P dims ;;
      a <- lift (from_shape_vec n_buckets dims data) ;;
      ix <- lift (floret_indexer_new n_buckets n_hashes (seed mod two32)) ;;
      v <- lift (sub_new_with_boundaries floret_ops pf [] min_n max_n ix bow eow) ;;
      lift (emb_new_with_maybe_norms (sub_ops floret_ops) (nd_ops f32) pf None v a None).
  End Text.

  (** [read_vocab] and [read_embeddings], /repo/src/compat/fasttext/io.rs
      502-557 and 427-449. *)
  Definition l_ft_vocab (pf : profile) (c : ft_config) (lossy : bool) : reader (subword_vocab ft_indexer) :=
    size <- read_u32 ;;
    _ <- read_u32 ;;
    n_labels <- read_u32 ;;
    if 0 <? n_labels then fail EFormat else
    _ <- read_u64 ;;
    prune <- read_u64 ;;
    if prune <=? isize_max then fail EFormat else
    w_reserve (limited l) size 24 ;;;
    words <- repeat_m size (read_ft_entry lossy) ;;
    ix <- lift (ft_indexer_new (fc_bucket c)) ;;
    lift (sub_new ft_ops pf words (fc_min_n c) (fc_max_n c) ix).
  Definition l_ft_matrix : reader (array2 f32) :=
    m <- read_u64 ;;
    n <- read_u64 ;;
    w_zeros (limited l) [m; n] 4 ;;;
    data <- read_f32s (m * n) ;;
    ret (mkA2 n (unflattenN m n data)).

  (** [read_fasttext_private], lines 59-120. *)
  Definition l_fasttext (pf : profile) (T : toml_ops) (config_table : ft_config -> option (toml_table T)) (lossy : bool)
    : reader (embeddings (toml_table T) (subword_vocab ft_indexer) (array2 f32) f32) :=
    m <- read_u32 ;;
    if negb (m =? ft_magic) then fail EFormat else
    ver <- read_u32 ;;
    if ft_version <? ver then fail EFormat else
    c <- read_config ;;
    v <- l_ft_vocab pf c lossy ;;
    q <- read_u8 ;;
    if q =? 1 then fail EFormat else
    a0 <- l_ft_matrix ;;
    a1 <- lift (add_subword_embeddings f32_ops pf v a0) ;;
    an <- lift (normalize_words f32_ops (sub_words_len v) a1) ;;
    n <- lift (add64 pf (sub_words_len v) (fc_bucket c)) ;;
    if negb (a2_nrows (fst an) =? n) then fail EMatrixShape else
    match config_table c with
    | None => fail EFormat
    | Some t => lift (emb_new (sub_ops ft_ops) (nd_ops f32) pf (Some t) v (fst an) (snd an))
    end.
End Memory.
