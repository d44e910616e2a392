(** * Lookups with the size hints that [collect] asks for.

    [subword_indices] and [ngram_indices] collect iterators over n-grams into
    vectors.  [Vec::from_iter] takes the first element, asks the iterator for
    its size hint and allocates a vector of that size; later it asks again
    whenever the vector is full.  [NGrams::size_hint] multiplies the number of
    n-gram lengths with the number of characters, whether or not there are so
    many n-grams.  This file adds the hints and the allocations to the lookups
    of [WidthUse], for [usize] of any width.

    Simplifications: the first vector has room for at least four elements and
    vectors that are full are at least doubled, as in the standard library of
    Rust 1.57 and later.  The strings and the vectors of indices in the result
    of [ngram_indices] always find memory, as does the queue of offsets of
    [NGrams].  Loops over the iterators ([to_explicit]) ask for no hint. *)
From Verif Require Import Base Utf8 Stream F32 ChunkIO Subword Vocab Storage Embeddings FastText Width WidthUse.
Local Open Scope N_scope.

Section Hints.
  Variable w : machine.

  (** [NGrams::size_hint], /repo/src/subword.rs 379-382: the lower bound.
      [NGramsIndicesIter::size_hint], lines 505-508, is the same. *)
  Definition h_hint (pf : profile) (g : ngrams) : res N :=
    let* a := w_add w pf (ng_max g - ng_min g) 1 in
    w_mul w pf a (lenN (ng_offs g)).

  (** ** Vectors of the standard library *)

  (** A request for [cap] elements, see [w_reserve]. *)
  Definition h_alloc (size cap : N) : res N :=
    if cap * size <=? mw_limit w then Ok cap else Panic PCapacity.
  (** [lower.saturating_add(1)] *)
  Definition h_more (lower : N) : N := N.min (lower + 1) (w_size w - 1).
  (** The next element of [Vec::from_iter]: [None] before the first element,
      then the length and the capacity of the vector.  [hint] is the hint of
      the iterator after the element is taken. *)
  Definition h_push (size : N) (hint : res N) (st : option (N * N)) : res (option (N * N)) :=
    match st with
    | None =>
        let* lower := hint in
        let* cap := h_alloc size (N.max 4 (h_more lower)) in
        Ok (Some (1, cap))
    | Some (len, cap) =>
        if len =? cap then
          let* lower := hint in
          let* cap' := h_alloc size (N.max 4 (N.max (2 * cap) (len + h_more lower))) in
          Ok (Some (len + 1, cap'))
        else Ok (Some (len + 1, cap))
    end.

  (** ** Lookups, /repo/src/chunks/vocab/subword.rs *)
  Section Lookups.
    Context {I : Type} (ops : indexer_ops I) (pf : profile).

    (** The indices of one n-gram.  [FlatMap] hints at the indices that are
        left of this n-gram, but it asks the n-grams for their hint, too.  An
        index has the size of [usize]. *)
    Fixpoint h_chunk (words_len : N) (g : ngrams) (l : list N) (st : option (N * N)) : res (list N * option (N * N)) :=
      match l with
      | [] => Ok ([], st)
      | i :: l' =>
          let* r := w_row w pf i words_len in
          let* st1 := h_push (mw_bits w / 8) (let* _ := h_hint pf g in Ok (lenN l')) st in
          let* p := h_chunk words_len g l' st1 in
          Ok (r :: fst p, snd p)
      end.
    Fixpoint h_indices (fuel : nat) (words_len : N) (it : ngi) (st : option (N * N)) : res (list N) :=
      match fuel with
      | O => Err EFuel
      | S fuel' =>
          let* r := ngi_next ops it in
          match r with
          | (None, _) => Ok []
          | (Some (_, l), it') =>
              let* p := h_chunk words_len (ni_ngrams it') l st in
              let* l' := h_indices fuel' words_len it' (snd p) in
              Ok (fst p ++ l')
          end
      end.
    (** [SubwordIndices::subword_indices], lines 232-245. *)
    Definition h_sub_subword_indices (v : subword_vocab I) (s : str) : res (option (list N)) :=
      let* it := ngi_new ops (bracket v s) (sv_min v) (sv_max v) (sv_ix v) in
      let* l := h_indices (S (ngrams_fuel (bracket v s))) (sub_words_len v) it None in
      match l with [] => Ok None | _ => Ok (Some l) end.

    (** [NGramIndices::ngram_indices], lines 196-216.  An element is a
        [String] and a [SmallVec<[usize; 4]>], together three times as large
        as a [String]. *)
    Fixpoint h_items (fuel : nat) (words_len : N) (it : ngi) (st : option (N * N)) : res (list (str * list N)) :=
      match fuel with
      | O => Err EFuel
      | S fuel' =>
          let* r := ngi_next ops it in
          match r with
          | (None, _) => Ok []
          | (Some (g, l), it') =>
              let* l1 := rmap (fun i => w_row w pf i words_len) l in
              let* st' := h_push (3 * mw_string w) (h_hint pf (ni_ngrams it')) st in
              let* l' := h_items fuel' words_len it' st' in
              Ok ((g, l1) :: l')
          end
      end.
    Definition h_sub_ngram_indices (v : subword_vocab I) (s : str) : res (option (list (str * list N))) :=
      let* it := ngi_new ops (bracket v s) (sv_min v) (sv_max v) (sv_ix v) in
      let* l := h_items (S (ngrams_fuel (bracket v s))) (sub_words_len v) it None in
      match l with [] => Ok None | _ => Ok (Some l) end.

    (** [Vocab::idx], lines 159-167. *)
    Definition h_sub_idx (v : subword_vocab I) (s : str) : res (option word_index) :=
      match hm_get (sv_indices v) s with
      | Some i => Ok (Some (Word i))
      | None => let* r := h_sub_subword_indices v s in Ok (option_map Subwords r)
      end.
  End Lookups.

  (** [Vocab for SubwordVocab<I>], lines 154-180, and for [VocabWrap],
      /repo/src/chunks/vocab/wrappers.rs 32-73. *)
  Definition h_sub_ops {I} (ops : indexer_ops I) : vocab_ops (subword_vocab I) :=
    mkVocabOps (subword_vocab I) (h_sub_idx ops) sub_words_len (w_sub_vocab_len w ops) sv_words.
  Definition h_wrap_ops : vocab_ops vocab_wrap :=
    mkVocabOps vocab_wrap
      (fun pf v s => match v with
        | VSimple v => v_idx simple_ops pf v s
        | VExplicit v => v_idx (h_sub_ops explicit_ops) pf v s
        | VFastText v => v_idx (h_sub_ops ft_ops) pf v s
        | VFloret v => v_idx (h_sub_ops floret_ops) pf v s
        | VBucket v => v_idx (h_sub_ops hash_ops) pf v s end)
      (v_words_len (w_wrap_ops w)) (v_vocab_len (w_wrap_ops w)) (v_words (w_wrap_ops w)).

  (** ** fastText files, /repo/src/compat/fasttext/io.rs: the reader looks up
      the n-grams of all words, lines 407-424; see [w_fasttext]. *)
  Definition h_subwords_step {F} (o : fops F) (pf : profile) (v : subword_vocab ft_indexer) (a : array2 F) (iw : N * str) : res (array2 F) :=
    let '(i, s) := iw in
    let* r := h_sub_subword_indices ft_ops pf v s in
    match r with
    | None => Ok a
    | Some is =>
        let* own := a2_row a i in
        let* sum := rfold (fun acc j => let* x := a2_row a j in Ok (vadd o acc x)) is own in
        let* rows := set_row (a2_rows a) i (vdivs o sum (fof_N o (lenN is + 1))) in
        Ok (mkA2 (a2_cols a) rows)
    end.
  Definition h_add_subwords {F} (o : fops F) (pf : profile) (v : subword_vocab ft_indexer) (a : array2 F) : res (array2 F) :=
    rfold (h_subwords_step o pf v) (enumerate (sv_words v)) a.
  Definition h_fasttext (pf : profile) (T : toml_ops) (config_table : ft_config -> option (toml_table T)) (lossy : bool)
    : reader (embeddings (toml_table T) (subword_vocab ft_indexer) (array2 f32) f32) :=
    m <- read_u32 ;;
    if negb (m =? ft_magic) then fail EFormat else
    ver <- read_u32 ;;
    if ft_version <? ver then fail EFormat else
    c <- read_config ;;
    v <- w_ft_vocab w pf c lossy ;;
    q <- read_u8 ;;
    if q =? 1 then fail EFormat else
    a0 <- w_ft_matrix w ;;
    a1 <- lift (h_add_subwords f32_ops pf v a0) ;;
    an <- lift (normalize_words f32_ops (sub_words_len v) a1) ;;
    n <- lift (w_add w pf (sub_words_len v) (fc_bucket c)) ;;
    if negb (a2_nrows (fst an) =? n) then fail EMatrixShape else
    match config_table c with
    | None => fail EFormat
    | Some t => lift (emb_new (h_sub_ops ft_ops) (nd_ops f32) pf (Some t) v (fst an) (snd an))
    end.
End Hints.
