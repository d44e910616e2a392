(** * Lookups, queries and the other formats with pointers of any width.

    [Width] has the readers of finalfusion files.  This file has what else
    depends on the width of [usize]: the vocabularies (an index of 64 bits is
    cast with [as usize] and added to the number of words), conversion to
    explicit n-grams, batches, queries (the heap is allocated with the limit)
    and the readers of the other formats.

    Simplifications: as in [Memory], strings, vectors and hash tables that grow
    while data is read, and the vector of norms, always find memory.  Values
    of [u32] are taken to fit [usize], so widths of less than 32 bits are only
    modelled roughly. *)
From Verif Require Import Base Utf8 Stream F32 ChunkIO Subword Vocab Storage Embeddings Similarity TextIO FastText Width.
Local Open Scope N_scope.

Section WidthUse.
  Variable w : machine.

  (** [+] on [usize]. *)
  Definition w_add (p : profile) (a b : N) : res N :=
    if a + b <? w_size w then Ok (a + b)
    else match p with Debug => Panic PArithOverflow | Release => Ok ((a + b) mod w_size w) end.
  (** [idx as usize + self.words_len()] *)
  Definition w_row (p : profile) (i words_len : N) : res N := w_add p (i mod w_size w) words_len.

  (** ** Vocabularies, /repo/src/chunks/vocab/subword.rs *)
  Section Vocabularies.
    Context {I : Type} (ops : indexer_ops I) (pf : profile).

    (** [vocab_len], lines 173-175: [upper_bound() as usize]. *)
    Definition w_sub_vocab_len (v : subword_vocab I) : res N :=
      let* b := ix_bound ops pf (sv_ix v) in
      w_add pf (sub_words_len v) (b mod w_size w).

    (** [SubwordIndices::subword_indices], lines 232-245. *)
    Definition w_sub_subword_indices (v : subword_vocab I) (s : str) : res (option (list N)) :=
      let* l := str_subword_indices ops (bracket v s) (sv_min v) (sv_max v) (sv_ix v) in
      let* l' := rmap (fun i => w_row pf i (sub_words_len v)) l in
      match l' with [] => Ok None | _ => Ok (Some l') end.

    (** [NGramIndices::ngram_indices], lines 196-216. *)
    Definition w_sub_ngram_indices (v : subword_vocab I) (s : str) : res (option (list (str * list N))) :=
      let* l := subword_indices_with_ngrams ops (bracket v s) (sv_min v) (sv_max v) (sv_ix v) in
      let* l' := rmap (fun '(g, is) =>
                         let* is' := rmap (fun i => w_row pf i (sub_words_len v)) is in
                         Ok (g, is')) l in
      match l' with [] => Ok None | _ => Ok (Some l') end.

    (** [Vocab::idx], lines 159-167. *)
    Definition w_sub_idx (v : subword_vocab I) (s : str) : res (option word_index) :=
      match hm_get (sv_indices v) s with
      | Some i => Ok (Some (Word i))
      | None => let* r := w_sub_subword_indices v s in Ok (option_map Subwords r)
      end.
  End Vocabularies.

  (** [Vocab for SubwordVocab<I>], lines 154-180, and for [VocabWrap],
      /repo/src/chunks/vocab/wrappers.rs 32-73. *)
  Definition w_sub_ops {I} (ops : indexer_ops I) : vocab_ops (subword_vocab I) :=
    mkVocabOps (subword_vocab I) (w_sub_idx ops) sub_words_len (w_sub_vocab_len ops) sv_words.
  Definition w_wrap_ops : vocab_ops vocab_wrap :=
    mkVocabOps vocab_wrap
      (fun pf v s => match v with
        | VSimple v => v_idx simple_ops pf v s
        | VExplicit v => v_idx (w_sub_ops explicit_ops) pf v s
        | VFastText v => v_idx (w_sub_ops ft_ops) pf v s
        | VFloret v => v_idx (w_sub_ops floret_ops) pf v s
        | VBucket v => v_idx (w_sub_ops hash_ops) pf v s end)
      (v_words_len wrap_ops)
      (fun pf v => match v with
        | VSimple v => v_vocab_len simple_ops pf v
        | VExplicit v => v_vocab_len (w_sub_ops explicit_ops) pf v
        | VFastText v => v_vocab_len (w_sub_ops ft_ops) pf v
        | VFloret v => v_vocab_len (w_sub_ops floret_ops) pf v
        | VBucket v => v_vocab_len (w_sub_ops hash_ops) pf v end)
      (v_words wrap_ops).

  (** ** Embeddings, /repo/src/embeddings.rs *)

  (** [embedding_batch], lines 196-200. *)
  Definition w_batch {Md V S F} (o : fops F) (VO : vocab_ops V) (SO : storage_ops F S) (pf : profile)
             (order : hmap (list N) -> list (str * list N)) (e : embeddings Md V S F) (words : list str)
    : res (list (list F) * list bool) :=
    let* _ := rassert ((nonzero (lenN words) * nonzero (emb_dims SO e) <=? w_max w)
                       && (lenN words * emb_dims SO e * 4 <=? mw_limit w)) PCapacity in
    emb_batch_into o VO SO pf order e words (mkA2 (emb_dims SO e) (map (fun _ => vzeros o (emb_dims SO e)) words)).

  Section Explicit.
    Context {Md I S S' F : Type} (B : bucket_ops I) (SO' : storage_ops F S') (pf : profile).
    Variable clone : S -> list N -> res S'.                     (* clone_from_mapping *)
    Variable order : hmap N -> list (str * N).                  (* HashMap iteration *)
    Variable order' : nmap N -> list (N * N).                   (* HashMap iteration *)

    (** [to_explicit], /repo/src/chunks/vocab/subword.rs 457-490. *)
    Definition w_sub_to_explicit (v : subword_vocab I) : res (subword_vocab explicit_indexer * nmap N) :=
      let* m := rfold (te_word B v) (sv_words v) [] in
      let* r := explicit_new_with_indices (order m) in
      let '(ix, mapping) := r in
      let* ev := w_sub_new w explicit_ops pf (sv_words v) (sv_min v) (sv_max v) ix default_bow default_eow in
      Ok (ev, mapping).

    (** [to_explicit_impl], lines 364-386: [old as usize + words_len()]. *)
    Definition w_explicit_mapping (words_len vocab_len : N) (old_to_new : list (N * N)) : res (list N) :=
      rfold (fun m '(old, new) =>
               let* i := w_add pf words_len new in
               let* x := w_row pf old words_len in
               set_row m i x)
            old_to_new (rangeN vocab_len).
    Definition w_to_explicit (v : subword_vocab I) (s : S) (norms : option (list F))
      : res (embeddings Md (subword_vocab explicit_indexer) S' F) :=
      let* r := w_sub_to_explicit v in
      let '(ev, o2n) := r in
      let* n := w_sub_vocab_len explicit_ops pf ev in
      let* m := w_explicit_mapping (sub_words_len ev) n (order' o2n) in
      let* s' := clone s m in
      emb_new_with_maybe_norms (w_sub_ops explicit_ops) SO' pf None ev s' norms.
  End Explicit.

  (** ** Queries, /repo/src/similarity.rs 286-331, 192-203, 257-268 and 139-161

      The elements of the heap are a [f32] and a [&str]: 24 bytes on 64-bit
      machines, 12 on 32-bit machines, as many as those of a [String]. *)
  Section Queries.
    Context {Md V S F : Type} (o : fops F) (VO : vocab_ops V) (SO : storage_ops F S) (view : S -> res (array2 F)) (pf : profile).
    Notation emb := (embeddings Md V S F).

    Definition w_similarity (e : emb) (q : list F) (skip : list str) (limit : N) (batch_size : option N) : res (list (wsr F)) :=
      let wl := v_words_len VO (em_vocab e) in
      let batch := match batch_size with Some b => b | None => wl end in
      let* _ := rassert (limit * mw_string w <=? mw_limit w) PCapacity in
      let* a := view (em_storage e) in
      let* _ := rassert (wl <=? a2_nrows a) PIndexOutOfBounds in
      let* cs := axis_chunks batch (takeN wl (a2_rows a)) in
      rfold (sim_batch o (v_words VO (em_vocab e)) skip limit batch (a2_cols a) q) (Subword.enumerate cs) [].
    Definition w_word_similarity (e : emb) (s : str) (limit : N) (batch_size : option N) : res (option (list (wsr F))) :=
      let* v := emb_embedding o VO SO pf e s in
      match v with
      | None => Ok None
      | Some v => let* r := w_similarity e v [s] limit batch_size in Ok (Some r)
      end.
    Definition w_embedding_similarity_masked (e : emb) (q : list F) (limit : N) (skip : list str) (batch_size : option N)
      : res (option (list (wsr F))) :=
      let* r := w_similarity e (fst (l2_normalize o q)) skip limit batch_size in Ok (Some r).
    Definition w_analogy_masked (e : emb) (q : str * str * str) (remove : bool * bool * bool) (limit : N) (batch_size : option N)
      : res (list (wsr F) + (bool * bool * bool)) :=
      let* l := lookup_words3 o VO SO pf e q in
      match l with
      | inr present => Ok (inr present)
      | inl (v1, v2, v3) =>
          let v := fst (l2_normalize o (vadd o (vsub o v2 v1) v3)) in
          let '(w1, w2, w3) := q in
          let '(r1, r2, r3) := remove in
          let skip := map fst (filter snd [(w1, r1); (w2, r2); (w3, r3)]) in
          let* r := w_similarity e v skip limit batch_size in
          Ok (inl r)
      end.
  End Queries.

  (** ** Other formats *)

  (** [read_number], /repo/src/util.rs 88-99: [parse::<usize>] rejects what
      does not fit. *)
  Definition w_number (delim : byte) : reader N :=
    n <- read_number delim ;;
    if n <? w_size w then ret n else fail EFormat.

  (** [Array2::from_shape_vec]: ndarray also checks that the number of elements
      is at most [isize::MAX]. *)
  Definition w_from_shape {F} (rows cols : N) (data : list F) : res (array2 F) :=
    if (nonzero rows * nonzero cols <=? w_max w) then from_shape_vec rows cols data else Err EMatrixShape.

  Section Text.
    Context (P : ftext_ops) (pf : profile) {Md : Type}.
    Notation semb := (embeddings Md simple_vocab (array2 f32) f32).
    Notation femb := (embeddings Md (subword_vocab floret_indexer) (array2 f32) f32).

    (** The end of [read_embeds], /repo/src/compat/text.rs 204-274. *)
    Definition w_embeds (shape : option (N * N)) (lossy : bool) : reader semb :=
      wd <- read_lines P lossy ;;
      let '(words, data) := wd in
      sh <- lift (text_shape shape (lenN words) (lenN data)) ;;
      a <- lift (w_from_shape (fst sh) (snd sh) data) ;;
      v <- lift (simple_new words) ;;
      lift (emb_new_with_maybe_norms simple_ops (nd_ops f32) pf None v a None).

    (** [read_text_raw], lines 98-105; [read_text_dims_raw(_lossy)], lines
        168-186, with lines 188-203; [read_text(_lossy)], lines 69-85;
        [read_text_dims(_lossy)], lines 134-151. *)
    Definition w_text_raw (lossy : bool) : reader semb := w_embeds None lossy.
    Definition w_text_dims_raw (lossy : bool) : reader semb :=
      n <- w_number x20 ;;
      d <- w_number x0a ;;
      w_reserve w n (mw_string w) ;;;
      c <- lift (w_mul w pf n d) ;;
      w_reserve w c 4 ;;;
      w_embeds (Some (n, d)) lossy.
    Definition w_text (lossy : bool) : reader semb :=
      e <- w_text_raw lossy ;; lift (normalize_all f32_ops pf e).
    Definition w_text_dims (lossy : bool) : reader semb :=
      e <- w_text_dims_raw lossy ;; lift (normalize_all f32_ops pf e).

    (** [read_word2vec_binary_raw], /repo/src/compat/word2vec.rs 89-116;
        [read_word2vec_binary(_lossy)], lines 60-75. *)
    Definition w_word2vec_raw (lossy : bool) : reader semb :=
      n <- w_number x20 ;;
      d <- w_number x0a ;;
      w_zeros w [n; d] 4 ;;;
      w_reserve w n (mw_string w) ;;;
      es <- repeat_m n (read_w2v_entry d lossy) ;;
      v <- lift (simple_new (map fst es)) ;;
      lift (emb_new_with_maybe_norms simple_ops (nd_ops f32) pf None v (mkA2 d (map snd es)) None).
    Definition w_word2vec (lossy : bool) : reader semb :=
      e <- w_word2vec_raw lossy ;; lift (normalize_all f32_ops pf e).

    (** [read_floret_text], /repo/src/compat/floret/io.rs 27-102. *)
    Definition w_floret_text : reader femb :=
      n_buckets <- w_number x20 ;;
      dims <- w_number x20 ;;
      min_n <- w_number x20 ;;
      let min_n := min_n mod two32 in
      max_n <- w_number x20 ;;
      let max_n := max_n mod two32 in
      n_hashes <- w_number x20 ;;
      let n_hashes := n_hashes mod two32 in
      seed <- w_number x20 ;;
      bow <- read_string x20 false ;;
      eow <- read_string x0a false ;;
      if n_buckets =? 0 then fail EFormat else
      if dims =? 0 then fail EFormat else
      if max_n <? min_n then fail EFormat else
      if negb ((1 <=? n_hashes) && (n_hashes <=? 4)) then fail EFormat else
      c <- lift (w_mul w pf n_buckets dims) ;;
      w_reserve w c 4 ;;;
      data <- read_floret_lines P dims ;;
      a <- lift (w_from_shape n_buckets dims data) ;;
      ix <- lift (floret_indexer_new n_buckets n_hashes (seed mod two32)) ;;
      v <- lift (w_sub_new w floret_ops pf [] min_n max_n ix bow eow) ;;
      lift (emb_new_with_maybe_norms (w_sub_ops floret_ops) (nd_ops f32) pf None v a None).
  End Text.

  (** fastText, /repo/src/compat/fasttext/io.rs: [add_subword_embeddings], lines
      407-424; [read_vocab], lines 502-557; [read_embeddings], lines 427-449 (the
      shape is converted); [read_fasttext_private], lines 59-120. *)
  Definition w_subwords_step {F} (o : fops F) (pf : profile) (v : subword_vocab ft_indexer) (a : array2 F) (iw : N * str) : res (array2 F) :=
    let '(i, s) := iw in
    let* r := w_sub_subword_indices ft_ops pf v s in
    match r with
    | None => Ok a
    | Some is =>
        let* own := a2_row a i in
        let* sum := rfold (fun acc j => let* x := a2_row a j in Ok (vadd o acc x)) is own in
        let* rows := set_row (a2_rows a) i (vdivs o sum (fof_N o (lenN is + 1))) in
        Ok (mkA2 (a2_cols a) rows)
    end.
  Definition w_add_subwords {F} (o : fops F) (pf : profile) (v : subword_vocab ft_indexer) (a : array2 F) : res (array2 F) :=
    rfold (w_subwords_step o pf v) (enumerate (sv_words v)) a.
  Definition w_ft_vocab (pf : profile) (c : ft_config) (lossy : bool) : reader (subword_vocab ft_indexer) :=
    size <- read_u32 ;;
    _ <- read_u32 ;;
    n_labels <- read_u32 ;;
    if 0 <? n_labels then fail EFormat else
    _ <- read_u64 ;;
    prune <- read_u64 ;;
    if prune <=? isize_max then fail EFormat else
    w_reserve w size (mw_string w) ;;;
    words <- repeat_m size (read_ft_entry lossy) ;;
    ix <- lift (ft_indexer_new (fc_bucket c)) ;;
    lift (w_sub_new w ft_ops pf words (fc_min_n c) (fc_max_n c) ix default_bow default_eow).
  Definition w_ft_matrix : reader (array2 f32) :=
    m0 <- read_u64 ;;
    m <- w_try w m0 ;;
    n0 <- read_u64 ;;
    n <- w_try w n0 ;;
    w_zeros w [m; n] 4 ;;;
    data <- read_f32s (m * n) ;;
    ret (mkA2 n (unflattenN m n data)).
  Definition w_fasttext (pf : profile) (T : toml_ops) (config_table : ft_config -> option (toml_table T)) (lossy : bool)
    : reader (embeddings (toml_table T) (subword_vocab ft_indexer) (array2 f32) f32) :=
    m <- read_u32 ;;
    if negb (m =? ft_magic) then fail EFormat else
    ver <- read_u32 ;;
    if ft_version <? ver then fail EFormat else
    c <- read_config ;;
    v <- w_ft_vocab pf c lossy ;;
    q <- read_u8 ;;
    if q =? 1 then fail EFormat else
    a0 <- w_ft_matrix ;;
    a1 <- lift (w_add_subwords f32_ops pf v a0) ;;
    an <- lift (normalize_words f32_ops (sub_words_len v) a1) ;;
    n <- lift (w_add pf (sub_words_len v) (fc_bucket c)) ;;
    if negb (a2_nrows (fst an) =? n) then fail EMatrixShape else
    match config_table c with
    | None => fail EFormat
    | Some t => lift (emb_new (w_sub_ops ft_ops) (nd_ops f32) pf (Some t) v (fst an) (snd an))
    end.
End WidthUse.
