(** * Vocabularies (/repo/src/chunks/vocab/). *)
From Verif Require Import Base Utf8 Stream F32 ChunkIO Subword.
Local Open Scope N_scope.

(** [WordIndex], /repo/src/chunks/vocab/mod.rs 31-36. *)
Inductive word_index := Word (i : N) | Subwords (is : list N).

(** The [Vocab] trait, /repo/src/chunks/vocab/mod.rs 15-28.  [vocab_len] and
    [idx] may panic. *)
Record vocab_ops (V : Type) := mkVocabOps {
  v_idx : profile -> V -> str -> res (option word_index);
  v_words_len : V -> N;
  v_vocab_len : profile -> V -> res N;
  v_words : V -> list str
}.
Arguments v_idx {V}. Arguments v_words_len {V}. Arguments v_vocab_len {V}. Arguments v_words {V}.

(** [create_indices], /repo/src/chunks/vocab/mod.rs 68-76. *)
Definition create_indices (words : list str) : hmap N :=
  fold_left (fun m '(i, w) => hm_insert m w i) (enumerate words) [].

(** Sum of [w.len() + size_of::<u32>()] in the various [chunk_len]s. *)
Definition items_len (l : list str) : N :=
  fold_left (fun a w => a + (lenN w + 4)) l 0.

(** ** Simple vocabulary (/repo/src/chunks/vocab/simple.rs) *)

(** [SimpleVocab], lines 13-17. *)
Record simple_vocab := mkSimple { sm_indices : hmap N; sm_words : list str }.

(** [SimpleVocab::new], lines 24-33. *)
Definition simple_new (words : list str) : res simple_vocab :=
  let indices := create_indices words in
  let* _ := rassert (lenN words =? hm_len indices) PDuplicateWords in
  Ok (mkSimple indices words).

(** [Vocab for SimpleVocab], lines 36-52. *)
Definition simple_ops : vocab_ops simple_vocab :=
  mkVocabOps simple_vocab
    (fun pf v w => Ok (option_map Word (hm_get (sm_indices v) w)))
    (fun v => hm_len (sm_indices v))
    (fun pf v => Ok (hm_len (sm_indices v)))
    sm_words.

(** [SimpleVocab::chunk_len], lines 82-94. *)
Definition simple_chunk_len (v : simple_vocab) (offset : N) : N :=
  4 + 8 + 8 + items_len (sm_words v).

(** [SimpleVocab::write_chunk], lines 96-119. *)
Definition write_simple (v : simple_vocab) : writer unit :=
  write_u32 (chunk_num CSimpleVocab) ;;;
  pos <- wposition ;;
  write_u64 (simple_chunk_len v pos - (4 + 8)) ;;;
  write_u64 (lenN (sm_words v)) ;;;
  write_items (sm_words v).

(** [SimpleVocab::read_chunk], lines 54-75. *)
Definition read_simple : reader simple_vocab :=
  ensure_chunk_type CSimpleVocab ;;;
  _ <- read_u64 ;;
  n <- read_u64 ;;
  words <- read_items n ;;
  lift (simple_new words).

(** ** Subword vocabularies (/repo/src/chunks/vocab/subword.rs) *)

(** [SubwordVocab], lines 33-42. *)
Record subword_vocab (I : Type) := mkSub {
  sv_bow : str; sv_eow : str; sv_ix : I; sv_indices : hmap N;
  sv_words : list str; sv_min : N; sv_max : N
}.
Arguments mkSub {I}. Arguments sv_bow {I}. Arguments sv_eow {I}. Arguments sv_ix {I}.
Arguments sv_indices {I}. Arguments sv_words {I}. Arguments sv_min {I}. Arguments sv_max {I}.

(** [DEFAULT_BOW], [DEFAULT_EOW], lines 48-49. *)
Definition default_bow : str := [x3c].
Definition default_eow : str := [x3e].

Section SubwordVocab.
  Context {I : Type} (ops : indexer_ops I) (pf : profile).

  (** [SubwordVocab::new_with_boundaries], lines 77-117.  [usize::try_from]
      always succeeds on a 64-bit target. *)
  Definition sub_new_with_boundaries (words : list str) (min_n max_n : N) (ix : I)
             (bow eow : str) : res (subword_vocab I) :=
    let indices := create_indices words in
    let* _ := rassert (lenN words =? hm_len indices) PDuplicateWords in
    let* b := ix_bound ops pf ix in
    let* _ := rassert (lenN words + b <? two64) PAssert in
    Ok (mkSub bow eow ix indices words min_n max_n).

  (** [SubwordVocab::new], lines 58-67. *)
  Definition sub_new (words : list str) (min_n max_n : N) (ix : I) : res (subword_vocab I) :=
    sub_new_with_boundaries words min_n max_n ix default_bow default_eow.

  (** [bracket], lines 144-152. *)
  Definition bracket (v : subword_vocab I) (w : str) : str := sv_bow v ++ w ++ sv_eow v.

  (** [words_len], lines 169-171. *)
  Definition sub_words_len (v : subword_vocab I) : N := hm_len (sv_indices v).

  (** [vocab_len], lines 173-175. *)
  Definition sub_vocab_len (v : subword_vocab I) : res N :=
    let* b := ix_bound ops pf (sv_ix v) in
    add64 pf (sub_words_len v) b.

  (** [SubwordIndices::subword_indices], lines 232-245. *)
  Definition sub_subword_indices (v : subword_vocab I) (w : str) : res (option (list N)) :=
    let* l := str_subword_indices ops (bracket v w) (sv_min v) (sv_max v) (sv_ix v) in
    let* l' := rmap (fun i => add64 pf i (sub_words_len v)) l in
    match l' with [] => Ok None | _ => Ok (Some l') end.

  (** [NGramIndices::ngram_indices], lines 196-216. *)
  Definition sub_ngram_indices (v : subword_vocab I) (w : str)
    : res (option (list (str * list N))) :=
    let* l := subword_indices_with_ngrams ops (bracket v w) (sv_min v) (sv_max v) (sv_ix v) in
    let* l' := rmap (fun '(g, is) =>
                       let* is' := rmap (fun i => add64 pf i (sub_words_len v)) is in
                       Ok (g, is')) l in
    match l' with [] => Ok None | _ => Ok (Some l') end.

  (** [Vocab::idx], lines 159-167. *)
  Definition sub_idx (v : subword_vocab I) (w : str) : res (option word_index) :=
    match hm_get (sv_indices v) w with
    | Some i => Ok (Some (Word i))
    | None =>
        let* r := sub_subword_indices v w in
        Ok (option_map Subwords r)
    end.
End SubwordVocab.

(** [Vocab for SubwordVocab<I>], lines 154-180. *)
Definition sub_ops {I} (ops : indexer_ops I) : vocab_ops (subword_vocab I) :=
  mkVocabOps (subword_vocab I)
    (fun pf v w => sub_idx ops pf v w)
    sub_words_len
    (fun pf v => sub_vocab_len ops pf v)
    sv_words.

(** *** Bucketed vocabularies *)

(** The [BucketIndexer] trait, /repo/src/subword.rs 35-47. *)
Record bucket_ops (I : Type) := mkBucketOps {
  bk_ops : indexer_ops I;
  bk_new : N -> res I;
  bk_buckets : I -> N
}.
Arguments bk_ops {I}. Arguments bk_new {I}. Arguments bk_buckets {I}.

Definition hash_bucket_ops : bucket_ops hash_indexer :=
  mkBucketOps hash_indexer hash_ops hash_indexer_new hi_exp.
Definition ft_bucket_ops : bucket_ops ft_indexer :=
  mkBucketOps ft_indexer ft_ops ft_indexer_new fi_buckets.

Section Bucketed.
  Context {I : Type} (B : bucket_ops I) (pf : profile).

  (** [chunk_len_] for bucketed vocabularies, lines 356-373. *)
  Definition bucket_chunk_len (v : subword_vocab I) : N :=
    4 + 8 + 8 + 4 + 4 + 4 + items_len (sv_words v).

  (** [write_bucketed_chunk], lines 412-447. *)
  Definition write_bucketed (id : chunk_id) (v : subword_vocab I) : writer unit :=
    write_u32 (chunk_num id) ;;;
    write_u64 (bucket_chunk_len v - (4 + 8)) ;;;
    write_u64 (lenN (sv_words v)) ;;;
    write_u32 (sv_min v) ;;;
    write_u32 (sv_max v) ;;;
    write_u32 (bk_buckets B (sv_ix v)) ;;;
    write_items (sv_words v).

  (** [read_bucketed_chunk], lines 375-410. *)
  Definition read_bucketed (id : chunk_id) : reader (subword_vocab I) :=
    ensure_chunk_type id ;;;
    _ <- read_u64 ;;
    n <- read_u64 ;;
    min_n <- read_u32 ;;
    max_n <- read_u32 ;;
    buckets <- read_u32 ;;
    words <- read_items n ;;
    ix <- lift (bk_new B buckets) ;;
    lift (sub_new (bk_ops B) pf words min_n max_n ix).

  (** Inner loop of [to_explicit], lines 470-482: [entry(..).or_insert(..)]. *)
  Definition te_ngram (m : hmap N) (p : str * list N) : res (hmap N) :=
    let '(g, is) := p in
    match is with
    | [] => Ok m
    | [i] => match hm_get m g with Some _ => Ok m | None => Ok (hm_insert m g i) end
    | _ => Err ENGramConversion
    end.

  (** Outer loop of [to_explicit], lines 469-483. *)
  Definition te_word (v : subword_vocab I) (m : hmap N) (w : str) : res (hmap N) :=
    let* l := subword_indices_with_ngrams (bk_ops B) (bracket v w) (sv_min v) (sv_max v) (sv_ix v) in
    rfold te_ngram l m.

  (** [to_explicit], lines 457-490.  [order] is the unspecified iteration
      order of the hash map. *)
  Definition sub_to_explicit (order : hmap N -> list (str * N)) (v : subword_vocab I)
    : res (subword_vocab explicit_indexer * nmap N) :=
    let* m := rfold (te_word v) (sv_words v) [] in
    let* r := explicit_new_with_indices (order m) in
    let '(ix, mapping) := r in
    let* ev := sub_new explicit_ops pf (sv_words v) (sv_min v) (sv_max v) ix in
    Ok (ev, mapping).
End Bucketed.

(** *** Explicit n-gram vocabulary *)

(** [chunk_len_], lines 494-518. *)
Definition explicit_chunk_len (v : subword_vocab explicit_indexer) : N :=
  4 + 8 + 8 + 8 + 4 + 4 + items_len (sv_words v)
  + fold_left (fun a g => a + (lenN g + 4 + 8)) (ei_ngrams (sv_ix v)) 0.

(** [write_ngrams_with_indices], lines 714-753. *)
Definition write_ngrams_with_indices (ix : explicit_indexer) : writer unit :=
  for_each (ei_ngrams ix) (fun g =>
    is <- lift (explicit_index ix (swcl_new g)) ;;
    match is with
    | [] => fail EWrite
    | [i] => write_u32 (lenN g) ;;; write_bytes g ;;; write_u64 i
    | _ => fail EWrite
    end).

(** [write_ngram_chunk], lines 550-581. *)
Definition write_explicit (v : subword_vocab explicit_indexer) : writer unit :=
  write_u32 (chunk_num CExplicitSubwordVocab) ;;;
  write_u64 (explicit_chunk_len v - (4 + 8)) ;;;
  write_u64 (lenN (sv_words v)) ;;;
  write_u64 (lenN (ei_ngrams (sv_ix v))) ;;;
  write_u32 (sv_min v) ;;;
  write_u32 (sv_max v) ;;;
  write_items (sv_words v) ;;;
  write_ngrams_with_indices (sv_ix v).

(** [read_ngrams_with_indices], lines 691-712 ([(String, u64)] is 32 bytes). *)
Definition read_ngram_item : reader (str * N) :=
  n <- read_u32 ;;
  bs <- read_exact n ;;
  if utf8_valid bs then i <- read_u64 ;; ret (bs, i) else fail EFormat.
Definition read_ngrams_with_indices (n : N) : reader (list (str * N)) :=
  reserve n 32 ;;;
  repeat_m n read_ngram_item.

(** [read_ngram_chunk], lines 520-548. *)
Definition read_explicit (pf : profile) : reader (subword_vocab explicit_indexer) :=
  ensure_chunk_type CExplicitSubwordVocab ;;;
  _ <- read_u64 ;;
  nw <- read_u64 ;;
  ng <- read_u64 ;;
  min_n <- read_u32 ;;
  max_n <- read_u32 ;;
  words <- read_items nw ;;
  ngrams <- read_ngrams_with_indices ng ;;
  r <- lift (explicit_new_with_indices ngrams) ;;
  lift (sub_new explicit_ops pf words min_n max_n (fst r)).

(** *** Floret vocabulary *)

(** [chunk_len_], lines 585-601. *)
Definition floret_chunk_len (v : subword_vocab floret_indexer) : N :=
  4 + 8 + 4 + 4 + 8 + 4 + 4 + lenN (sv_bow v) + 4 + lenN (sv_eow v) + 4.

(** [write_floret_chunk], lines 653-688. *)
Definition write_floret (v : subword_vocab floret_indexer) : writer unit :=
  write_u32 (chunk_num CFloretSubwordVocab) ;;;
  write_u64 (floret_chunk_len v - (4 + 8)) ;;;
  write_u32 (sv_min v) ;;;
  write_u32 (sv_max v) ;;;
  write_u64 (fl_buckets (sv_ix v)) ;;;
  write_u32 (fl_hashes (sv_ix v)) ;;;
  write_u32 (fl_seed (sv_ix v)) ;;;
  write_string (sv_bow v) ;;;
  write_string (sv_eow v).

(** [read_floret_chunk], lines 603-651. *)
Definition read_floret (pf : profile) : reader (subword_vocab floret_indexer) :=
  ensure_chunk_type CFloretSubwordVocab ;;;
  _ <- read_u64 ;;
  min_n <- read_u32 ;;
  max_n <- read_u32 ;;
  n_buckets <- read_u64 ;;
  n_hashes <- read_u32 ;;
  if negb ((1 <=? n_hashes) && (n_hashes <=? 4)) then fail ERead else
  seed <- read_u32 ;;
  bow <- read_string_item ;;
  eow <- read_string_item ;;
  ix <- lift (floret_indexer_new n_buckets n_hashes seed) ;;
  lift (sub_new_with_boundaries floret_ops pf [] min_n max_n ix bow eow).

(** ** Wrapper (/repo/src/chunks/vocab/wrappers.rs) *)

(** [VocabWrap], lines 23-30. *)
Inductive vocab_wrap :=
| VSimple (v : simple_vocab)
| VExplicit (v : subword_vocab explicit_indexer)
| VFastText (v : subword_vocab ft_indexer)
| VFloret (v : subword_vocab floret_indexer)
| VBucket (v : subword_vocab hash_indexer).

(** [Vocab for VocabWrap], lines 32-73. *)
Definition wrap_ops : vocab_ops vocab_wrap :=
  mkVocabOps vocab_wrap
    (fun pf v w => match v with
      | VSimple v => v_idx simple_ops pf v w
      | VExplicit v => v_idx (sub_ops explicit_ops) pf v w
      | VFastText v => v_idx (sub_ops ft_ops) pf v w
      | VFloret v => v_idx (sub_ops floret_ops) pf v w
      | VBucket v => v_idx (sub_ops hash_ops) pf v w end)
    (fun v => match v with
      | VSimple v => v_words_len simple_ops v
      | VExplicit v => v_words_len (sub_ops explicit_ops) v
      | VFastText v => v_words_len (sub_ops ft_ops) v
      | VFloret v => v_words_len (sub_ops floret_ops) v
      | VBucket v => v_words_len (sub_ops hash_ops) v end)
    (fun pf v => match v with
      | VSimple v => v_vocab_len simple_ops pf v
      | VExplicit v => v_vocab_len (sub_ops explicit_ops) pf v
      | VFastText v => v_vocab_len (sub_ops ft_ops) pf v
      | VFloret v => v_vocab_len (sub_ops floret_ops) pf v
      | VBucket v => v_vocab_len (sub_ops hash_ops) pf v end)
    (fun v => match v with
      | VSimple v => sm_words v
      | VExplicit v => sv_words v
      | VFastText v => sv_words v
      | VFloret v => sv_words v
      | VBucket v => sv_words v end).

(** [seek(SeekFrom::Start(p))] back to a position remembered before reading:
    the reader is run for its result only. *)
Definition peek {A} (m : reader A) : reader A := fun s =>
  match m s with
  | (Ok a, _) => (Ok a, s)
  | (Err e, s') => (Err e, s')
  | (Panic p, s') => (Panic p, s')
  end.

(** Reading a chunk identifier and seeking back, lines 112-124. *)
Definition peek_chunk_id : reader chunk_id :=
  n <- read_u32 ;; lift (chunk_of_num n).

(** [VocabWrap::read_chunk], lines 107-149.  An unknown identifier is
    rejected before seeking back. *)
Definition read_vocab_wrap (pf : profile) : reader vocab_wrap :=
  id <- peek peek_chunk_id ;;
  match id with
  | CSimpleVocab => v <- read_simple ;; ret (VSimple v)
  | CFastTextSubwordVocab => v <- read_bucketed ft_bucket_ops pf CFastTextSubwordVocab ;; ret (VFastText v)
  | CBucketSubwordVocab => v <- read_bucketed hash_bucket_ops pf CBucketSubwordVocab ;; ret (VBucket v)
  | CExplicitSubwordVocab => v <- read_explicit pf ;; ret (VExplicit v)
  | CFloretSubwordVocab => v <- read_floret pf ;; ret (VFloret v)
  | _ => fail EFormat
  end.

(** [WriteChunk for VocabWrap], lines 151-184. *)
Definition vocab_wrap_id (v : vocab_wrap) : chunk_id :=
  match v with
  | VSimple _ => CSimpleVocab
  | VExplicit _ => CExplicitSubwordVocab
  | VFastText _ => CFastTextSubwordVocab
  | VFloret _ => CFloretSubwordVocab
  | VBucket _ => CBucketSubwordVocab
  end.
Definition vocab_wrap_chunk_len (v : vocab_wrap) (offset : N) : N :=
  match v with
  | VSimple v => simple_chunk_len v offset
  | VExplicit v => explicit_chunk_len v
  | VFastText v => bucket_chunk_len v
  | VFloret v => floret_chunk_len v
  | VBucket v => bucket_chunk_len v
  end.
Definition write_vocab_wrap (v : vocab_wrap) : writer unit :=
  match v with
  | VSimple v => write_simple v
  | VExplicit v => write_explicit v
  | VFastText v => write_bucketed ft_bucket_ops CFastTextSubwordVocab v
  | VFloret v => write_floret v
  | VBucket v => write_bucketed hash_bucket_ops CBucketSubwordVocab v
  end.
