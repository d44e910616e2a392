(** * Embeddings (/repo/src/embeddings.rs). *)
From Verif Require Import Base Utf8 Stream F32 ChunkIO Subword Vocab Storage.
Local Open Scope N_scope.

(** Whether [Array2::zeros((rows, cols))] succeeds for elements of [size]
    bytes, as in [alloc_zeros]. *)
Definition zeros_fit (rows cols size : N) : bool :=
  (nonzero rows * nonzero cols <=? isize_max) && (rows * cols * size <=? isize_max).

(** [Embeddings], /repo/src/embeddings.rs 37-43; [Md] is the type of
    metadata. *)
Record embeddings (Md V S F : Type) := mkEmb {
  em_meta : option Md; em_storage : S; em_vocab : V; em_norms : option (list F)
}.
Arguments mkEmb {Md V S F}. Arguments em_meta {Md V S F}. Arguments em_storage {Md V S F}.
Arguments em_vocab {Md V S F}. Arguments em_norms {Md V S F}.

(** ** Lookup *)
Section Lookup.
  Context {Md V S F : Type} (o : fops F) (VO : vocab_ops V) (SO : storage_ops F S) (pf : profile).
  Notation emb := (embeddings Md V S F).

  (** [new_with_maybe_norms], lines 63-80. *)
  Definition emb_new_with_maybe_norms (md : option Md) (v : V) (s : S) (norms : option (list F)) : res emb :=
    let* n := v_vocab_len VO pf v in
    let* _ := rassert (n =? fst (st_shape SO s)) PAssert in
    Ok (mkEmb md s v norms).

  (** [new], lines 54-61. *)
  Definition emb_new (md : option Md) (v : V) (s : S) (norms : list F) : res emb :=
    let* _ := rassert (v_words_len VO v =? lenN norms) PAssert in
    emb_new_with_maybe_norms md v s (Some norms).

  (** [set_metadata], lines 108-111: the new embeddings and the old metadata. *)
  Definition emb_set_metadata (e : emb) (md : option Md) : emb * option Md :=
    (mkEmb md (em_storage e) (em_vocab e) (em_norms e), em_meta e).

  (** [into_parts], lines 86-88. *)
  Definition emb_into_parts (e : emb) : option Md * V * S * option (list F) :=
    (em_meta e, em_vocab e, em_storage e, em_norms e).

  (** [dims], lines 131-133; [len], lines 318-320. *)
  Definition emb_dims (e : emb) : N := snd (st_shape SO (em_storage e)).
  Definition emb_len (e : emb) : N := v_words_len VO (em_vocab e).

  (** [embedding], lines 136-147.  [sum_axis(Axis(0))] on an array with the
      storage's number of columns. *)
  Definition emb_embedding (e : emb) (w : str) : res (option (list F)) :=
    let* idx := v_idx VO pf (em_vocab e) w in
    match idx with
    | None => Ok None
    | Some (Word i) => let* v := st_embedding SO (em_storage e) i in Ok (Some v)
    | Some (Subwords is) =>
        let* a := st_embeddings SO (em_storage e) is in
        Ok (Some (fst (l2_normalize o (sum_rows o (a2_cols a) (a2_rows a)))))
    end.

  (** [embedding_into], lines 159-190: the new contents of the target and
      the returned flag.  [assign] and [+=] of arrays of different length
      panic. *)
  Definition emb_embedding_into (e : emb) (w : str) (target : list F) : res (list F * bool) :=
    let* _ := rassert (lenN target =? emb_dims e) PAssert in
    let* idx := v_idx VO pf (em_vocab e) w in
    match idx with
    | None => Ok (target, false)
    | Some (Word i) =>
        let* v := st_embedding SO (em_storage e) i in
        let* _ := rassert (lenN v =? lenN target) PAssert in
        Ok (v, true)
    | Some (Subwords is) =>
        let zero := map (fun _ => fzero o) target in
        let* a := st_embeddings SO (em_storage e) is in
        let* _ := rassert (a2_cols a =? lenN target) PAssert in
        Ok (fst (l2_normalize o (fold_left (vadd o) (a2_rows a) zero)), true)
    end.

  (** [word_indices] of [embedding_batch_into], lines 228-232: the positions
      of every distinct word. *)
  Definition push_index (m : hmap (list N)) (iw : N * str) : hmap (list N) :=
    let '(i, w) := iw in
    match hm_get m w with
    | Some is => hm_insert m w (is ++ [i])
    | None => hm_insert m w [i]
    end.
  Definition word_indices (words : list str) : hmap (list N) :=
    fold_left push_index (enumerate words) [].

  (** Assign row [i] / flag [i]. *)
  Definition set_row {A} (rows : list A) (i : N) (v : A) : res (list A) :=
    let* _ := index rows i in Ok (set_nth (N.to_nat i) v rows).

  (** Copying the first occurrence's row to another one, lines 242-246. *)
  Definition copy_row (first : N) (st : list (list F) * list bool) (i : N)
    : res (list (list F) * list bool) :=
    let '(out, found) := st in
    let* _ := rassert (negb (first =? i)) PAssert in  (* multi_slice_mut: overlap *)
    let* v := index out first in
    let* out := set_row out i v in
    let* found := set_row found i true in
    Ok (out, found).

  (** Loop body of [embedding_batch_into], lines 234-248. *)
  Definition batch_step (e : emb) (st : list (list F) * list bool) (p : str * list N)
    : res (list (list F) * list bool) :=
    let '(w, is) := p in
    let '(out, found) := st in
    let* first := index is 0 in
    let* target := index out first in
    let* r := emb_embedding_into e w target in
    let '(v, ok) := r in
    let* out := set_row out first v in
    if ok then
      let* found := set_row found first true in
      rfold (copy_row first) (tl is) (out, found)
    else Ok (out, found).

  (** [embedding_batch_into], lines 208-252.  [order] is the unspecified
      iteration order of the hash map. *)
  Definition emb_batch_into (order : hmap (list N) -> list (str * list N)) (e : emb)
             (words : list str) (output : array2 F) : res (list (list F) * list bool) :=
    let* _ := rassert (a2_nrows output =? lenN words) PAssert in
    let* _ := rassert (a2_cols output =? emb_dims e) PAssert in
    rfold (batch_step e) (order (word_indices words))
          (a2_rows output, repeat false (length words)).

  (** [embedding_batch], lines 196-200.  [Array2::zeros] panics if the matrix
      of f32 values (four bytes each) is too large. *)
  Definition emb_batch (order : hmap (list N) -> list (str * list N)) (e : emb)
             (words : list str) : res (list (list F) * list bool) :=
    let* _ := rassert (zeros_fit (lenN words) (emb_dims e) 4) PCapacity in
    emb_batch_into order e words
      (mkA2 (emb_dims e) (map (fun _ => vzeros o (emb_dims e)) words)).

  (** [self.norms().map(|n| n[idx]).unwrap_or(1.)], lines 270 and 755. *)
  Definition norm_at (e : emb) (i : N) : res F :=
    match em_norms e with None => Ok (fone o) | Some ns => index ns i end.

  (** [embedding_with_norm], lines 266-284. *)
  Definition emb_with_norm (e : emb) (w : str) : res (option (list F * F)) :=
    let* idx := v_idx VO pf (em_vocab e) w in
    match idx with
    | None => Ok None
    | Some (Word i) =>
        let* v := st_embedding SO (em_storage e) i in
        let* n := norm_at e i in
        Ok (Some (v, n))
    | Some (Subwords is) =>
        let* a := st_embeddings SO (em_storage e) is in
        Ok (Some (l2_normalize o (sum_rows o (a2_cols a) (a2_rows a))))
    end.

  (** [EmbeddingWithNorm::into_unnormalized], lines 715-719. *)
  Definition into_unnormalized (en : list F * F) : list F := vscale o (fst en) (snd en).

  (** [iter], lines 287-292 and 722-736, run to the end. *)
  Definition emb_iter (e : emb) : res (list (str * list F)) :=
    rmap (fun '(i, w) => let* v := st_embedding SO (em_storage e) i in Ok (w, v))
         (enumerate (v_words VO (em_vocab e))).

  (** [iter_with_norms], lines 307-313 and 738-759, run to the end. *)
  Definition emb_iter_with_norms (e : emb) : res (list (str * (list F * F))) :=
    rmap (fun '(i, w) =>
            let* v := st_embedding SO (em_storage e) i in
            let* n := norm_at e i in
            Ok (w, (v, n)))
         (enumerate (v_words VO (em_vocab e))).
End Lookup.

(** ** Conversion to explicit n-grams *)
Section Explicit.
  Context {Md I S S' F : Type} (B : bucket_ops I) (SO' : storage_ops F S') (pf : profile).
  Variable clone : S -> list N -> res S'.                     (* clone_from_mapping *)
  Variable order : hmap N -> list (str * N).                  (* HashMap iteration *)
  Variable order' : nmap N -> list (N * N).                   (* HashMap iteration *)

  (** Lines 373-376. *)
  Definition explicit_mapping (words_len vocab_len : N) (old_to_new : list (N * N)) : res (list N) :=
    rfold (fun m '(old, new) =>
             let* i := add64 pf words_len new in
             let* x := add64 pf old words_len in
             set_row m i x)
          old_to_new (rangeN vocab_len).

  (** [to_explicit_impl], lines 364-386. *)
  Definition to_explicit_impl (v : subword_vocab I) (s : S) (norms : option (list F))
    : res (embeddings Md (subword_vocab explicit_indexer) S' F) :=
    let* r := sub_to_explicit B pf order v in
    let '(ev, o2n) := r in
    let* n := sub_vocab_len explicit_ops pf ev in
    let* m := explicit_mapping (sub_words_len ev) n (order' o2n) in
    let* s' := clone s m in
    emb_new_with_maybe_norms (sub_ops explicit_ops) SO' pf None ev s' norms.

  (** [to_explicit], lines 329-331. *)
  Definition emb_to_explicit (e : embeddings Md (subword_vocab I) S F)
    : res (embeddings Md (subword_vocab explicit_indexer) S' F) :=
    to_explicit_impl (em_vocab e) (em_storage e) (em_norms e).
End Explicit.

(** [try_to_explicit], lines 342-361. *)
Definition emb_try_to_explicit {Md S S' F} (SO' : storage_ops F S') (pf : profile)
           (clone : S -> list N -> res S') order order' (e : embeddings Md vocab_wrap S F)
  : res (embeddings Md (subword_vocab explicit_indexer) S' F) :=
  match em_vocab e with
  | VBucket v => to_explicit_impl hash_bucket_ops SO' pf clone order order' v (em_storage e) (em_norms e)
  | VFastText v => to_explicit_impl ft_bucket_ops SO' pf clone order order' v (em_storage e) (em_norms e)
  | VSimple _ | VExplicit _ | VFloret _ => Err EConversion
  end.

(** [From<Embeddings<V, S>>] for wrapped embeddings, lines 388-425: the parts
    are wrapped. *)
Definition emb_wrap {Md V S V' S' F} (fv : V -> V') (fs : S -> S') (e : embeddings Md V S F)
  : embeddings Md V' S' F :=
  mkEmb (em_meta e) (fs (em_storage e)) (fv (em_vocab e)) (em_norms e).

(** [Quantize for Embeddings], lines 676-704. *)
Definition emb_quantize_using {Md V S F} (o : fops F) (view : S -> res (array2 F)) (tr : trainer F)
           (n_sub bits iters attempts : N) (normalize : bool) (e : embeddings Md V S F)
  : res (embeddings Md V (quantized F) F) :=
  let* a := view (em_storage e) in
  let* q := quantize_using o tr n_sub bits iters attempts normalize a in
  Ok (mkEmb (em_meta e) q (em_vocab e) (em_norms e)).

(** ** Files *)

(** The [WriteChunk] trait, /repo/src/chunks/io.rs 133-146. *)
Record chunk_ops (X : Type) := mkChunkOps {
  ck_id : X -> chunk_id;
  ck_len : X -> N -> N;
  ck_write : X -> writer unit
}.
Arguments ck_id {X}. Arguments ck_len {X}. Arguments ck_write {X}.

Definition simple_chunk : chunk_ops simple_vocab :=
  mkChunkOps simple_vocab (fun _ => CSimpleVocab) simple_chunk_len write_simple.
Definition bucket_chunk : chunk_ops (subword_vocab hash_indexer) :=
  mkChunkOps _ (fun _ => CBucketSubwordVocab) (fun v _ => bucket_chunk_len v)
             (write_bucketed hash_bucket_ops CBucketSubwordVocab).
Definition ft_chunk : chunk_ops (subword_vocab ft_indexer) :=
  mkChunkOps _ (fun _ => CFastTextSubwordVocab) (fun v _ => bucket_chunk_len v)
             (write_bucketed ft_bucket_ops CFastTextSubwordVocab).
Definition explicit_chunk : chunk_ops (subword_vocab explicit_indexer) :=
  mkChunkOps _ (fun _ => CExplicitSubwordVocab) (fun v _ => explicit_chunk_len v) write_explicit.
Definition floret_chunk : chunk_ops (subword_vocab floret_indexer) :=
  mkChunkOps _ (fun _ => CFloretSubwordVocab) (fun v _ => floret_chunk_len v) write_floret.
Definition vwrap_chunk : chunk_ops vocab_wrap :=
  mkChunkOps _ vocab_wrap_id vocab_wrap_chunk_len write_vocab_wrap.

Definition nd_chunk : chunk_ops (array2 f32) :=
  mkChunkOps _ (fun _ => CNdArray) nd_chunk_len write_ndarray.
Definition qa_chunk : chunk_ops (quantized f32) :=
  mkChunkOps _ (fun _ => CQuantizedArray) qa_chunk_len write_quantized.
(** [WriteChunk for MmapArray], /repo/src/chunks/storage/array.rs 166-182, and
    for [MmapQuantizedArray], /repo/src/chunks/storage/quantized.rs 679-706:
    computed from the views. *)
Definition mma_chunk : chunk_ops mmap_array :=
  mkChunkOps _ (fun _ => CNdArray) (fun m => swrap_chunk_len (SMmapArray m)) write_mmap_ndarray.
Definition mmq_chunk : chunk_ops mmap_quantized :=
  mkChunkOps _ (fun _ => CQuantizedArray) (fun m => swrap_chunk_len (SMmapQuantized m)) write_mmap_quantized.
Definition swrap_chunk : chunk_ops storage_wrap :=
  mkChunkOps _ swrap_id swrap_chunk_len write_storage_wrap.
Definition svwrap_chunk : chunk_ops storage_view_wrap :=
  mkChunkOps _ (fun _ => CNdArray) svwrap_chunk_len write_storage_view_wrap.

Section File.
  Context (T : toml_ops) {V S : Type}.
  Notation emb := (embeddings (toml_table T) V S f32).

  (** [read_embeddings], lines 519-547. *)
  Definition read_embeddings (rv : reader V) (rs : reader S) : reader emb :=
    ids <- read_header ;;
    match ids with
    | [] => fail EFormat
    | id :: _ =>
        md <- (if chunk_eqb id CMetadata
               then t <- read_metadata_chunk T ;; ret (Some t) else ret None) ;;
        v <- rv ;;
        s <- rs ;;
        norms <- ok_opt read_norms ;;
        ret (mkEmb md s v norms)
    end.

  (** [mmap_embeddings], lines 485-510: the same with [S::mmap_chunk]. *)
  Definition mmap_embeddings (rv : reader V) (ms : reader S) : reader emb :=
    ids <- read_header ;;
    match ids with
    | [] => fail EFormat
    | id :: _ =>
        md <- (if chunk_eqb id CMetadata
               then t <- read_metadata_chunk T ;; ret (Some t) else ret None) ;;
        v <- rv ;;
        s <- ms ;;
        norms <- ok_opt read_norms ;;
        ret (mkEmb md s v norms)
    end.

  Context (VC : chunk_ops V) (SC : chunk_ops S).

  (** The chunk identifiers, lines 560-573. *)
  Definition emb_chunks (e : emb) : list chunk_id :=
    (match em_meta e with Some _ => [CMetadata] | None => [] end)
    ++ [ck_id VC (em_vocab e); ck_id SC (em_storage e)]
    ++ (match em_norms e with Some _ => [CNdNorms] | None => [] end).

  (** [write_embeddings], lines 555-586. *)
  Definition write_embeddings (e : emb) : writer unit :=
    write_header (emb_chunks e) ;;;
    match em_meta e with Some t => write_metadata T t | None => ret tt end ;;;
    ck_write VC (em_vocab e) ;;;
    ck_write SC (em_storage e) ;;;
    match em_norms e with Some ns => write_norms ns | None => ret tt end.

  (** [write_embeddings_len], lines 588-620. *)
  Definition write_embeddings_len (e : emb) (offset : N) : N :=
    let len := 0 in
    let len := len + header_chunk_len (emb_chunks e) (offset + len) in
    let len := len + match em_meta e with
                     | Some t => metadata_chunk_len T t (offset + len) | None => 0 end in
    let len := len + ck_len VC (em_vocab e) (offset + len) in
    let len := len + ck_len SC (em_storage e) (offset + len) in
    len + match em_norms e with
          | Some ns => norms_chunk_len ns (offset + len) | None => 0 end.
End File.
