(** * The texts of errors of writers.

    The writers of the rest of the model keep only the constructor of an
    error.  Here they are written once more with the payload of
    [error::Error]: what a user gets to see when a device is full.
    [WriteErasure] shows that these writers are the same ones once the texts
    are forgotten.

    Simplifications: the [io::Error] inside of [Error::Write] is dropped;
    [stream_position] does not fail, so its texts do not occur. *)
From Coq Require Import Strings.String Strings.Byte.
From Verif Require Import Base Utf8 Stream F32 ChunkIO Subword Vocab Storage Embeddings TextIO FastText Messages.
Local Open Scope N_scope.

(** ** Writers whose errors have texts *)
Definition W (A : Type) := sink -> mres A * sink.
Definition wret {A} (a : A) : W A := fun k => (MOk a, k).
Definition wfail {A} (e : emsg) : W A := fun k => (MErr e, k).
Definition wbind {A B} (m : W A) (f : A -> W B) : W B :=
  fun k => match m k with
           | (MOk a, k') => f a k'
           | (MErr e, k') => (MErr e, k')
           | (MPanic p, k') => (MPanic p, k')
           end.

Declare Scope w_scope.
Delimit Scope w_scope with w.
Notation "x <- m ;; k" := (wbind m (fun x => k))
  (at level 61, m at next level, right associativity) : w_scope.
Notation "m ;;; k" := (wbind m (fun _ => k))
  (at level 61, right associativity) : w_scope.
Local Open Scope w_scope.

Fixpoint wfor_each {A} (l : list A) (f : A -> W unit) : W unit :=
  match l with [] => wret tt | a :: l' => f a ;;; wfor_each l' f end.

(** [m.map_err(|e| Error::write_error(desc, e))] for an I/O operation. *)
Definition wio {A} (m : writer A) (desc : string) : W A := fun k =>
  match m k with
  | (Ok a, k') => (MOk a, k')
  | (Err _, k') => (MErr (MWrite (txt desc)), k')
  | (Panic p, k') => (MPanic p, k')
  end.

(** [m.map_err(|e| Error::read_error(desc, e))], in a writer. *)
Definition wio_read {A} (m : writer A) (desc : string) : W A := fun k =>
  match m k with
  | (Ok a, k') => (MOk a, k')
  | (Err _, k') => (MErr (MRead (txt desc)), k')
  | (Panic p, k') => (MPanic p, k')
  end.

(** [m.map_err(|e| e.context(c))] *)
Definition wcontext {A} (c : string) (m : W A) : W A := fun k =>
  match m k with
  | (MErr e, k') => (MErr (MContext (txt c) e), k')
  | r => r
  end.

(** Computations between the writes.  They fail with [Error::Overflow] or not
    at all; the other errors are there to make this a total function. *)
Definition untold (e : error) : emsg :=
  match e with
  | EFormat => MFormat [] | EFuel => MOverflow | ENGramConversion => MNGramConversion [] | EMatrixShape => MMatrixShape
  | ERead => MRead [] | EUnknownChunk n => MUnknownChunk n | EOverflow => MOverflow
  | EConversion => MConversion [] [] | EQuantization => MQuantization | EWrite => MWrite []
  end.
Definition wlift {A} (r : res A) : W A := fun k =>
  (match r with Ok a => MOk a | Err e => MErr (untold e) | Panic p => MPanic p end, k).
Definition wpos : W N := fun k => (MOk (k_pos k), k).

(** Integers and floats, one call each. *)
Definition w8 (n : N) (what : string) : W unit := wio (write_u8 n) what.
Definition w32 (n : N) (what : string) : W unit := wio (write_u32 n) what.
Definition w64 (n : N) (what : string) : W unit := wio (write_u64 n) what.
Definition wbytes (bs : list byte) (what : string) : W unit := wio (write_bytes bs) what.
Definition wfloats (l : list f32) (what : string) : W unit :=
  wfor_each l (fun x => wbytes (f32_bytes x) what).

(** ** finalfusion files *)

(** [Header::write_chunk], /repo/src/chunks/io.rs 198-219. *)
Definition tell_header (ids : list chunk_id) : W unit :=
  wbytes magic "Cannot write magic" ;;;
  w32 model_version "Cannot write model version" ;;;
  w32 (lenN ids) "Cannot write chunk identifiers length" ;;;
  wfor_each ids (fun c => w32 (chunk_num c) "Cannot write chunk identifier").

(** [Metadata::write_chunk], /repo/src/chunks/metadata.rs 89-107. *)
Definition tell_metadata (T : toml_ops) (t : toml_table T) : W unit :=
  w32 (chunk_num CMetadata) "Cannot write metadata chunk identifier" ;;;
  w64 (lenN (toml_print T t)) "Cannot write metadata length" ;;;
  wbytes (toml_print T t) "Cannot write metadata".

(** [NdNorms::write_chunk], /repo/src/chunks/norms.rs 104-142. *)
Definition tell_norms (norms : list f32) : W unit :=
  w32 (chunk_num CNdNorms) "Cannot write norms chunk identifier" ;;;
  pos <- wpos ;;
  w64 (norms_chunk_len norms pos - (4 + 8)) "Cannot write norms chunk length" ;;;
  w64 (lenN norms) "Cannot write norms vector length" ;;;
  w32 f32_type_id "Cannot write norms vector type identifier" ;;;
  wbytes (zeros (padding4 pos)) "Cannot write padding" ;;;
  wfloats norms "Cannot write norm".

(** [write_string], [write_vocab_items], /repo/src/chunks/vocab/mod.rs 105-125. *)
Definition tell_string (s : str) : W unit :=
  w32 (lenN s) "Cannot write string length" ;;; wbytes s "Cannot write string".
Definition tell_items (l : list str) : W unit := wfor_each l tell_string.

(** [SimpleVocab::write_chunk], /repo/src/chunks/vocab/simple.rs 96-119. *)
Definition tell_simple (v : simple_vocab) : W unit :=
  w32 (chunk_num CSimpleVocab) "Cannot write vocabulary chunk identifier" ;;;
  pos <- wpos ;;
  w64 (simple_chunk_len v pos - (4 + 8)) "Cannot write vocabulary chunk length" ;;;
  w64 (lenN (sm_words v)) "Cannot write vocabulary length" ;;;
  tell_items (sm_words v).

(** [write_bucketed_chunk], /repo/src/chunks/vocab/subword.rs 412-447. *)
Definition tell_bucketed {I} (B : bucket_ops I) (id : chunk_id) (v : subword_vocab I) : W unit :=
  w32 (chunk_num id) "Cannot write subword vocabulary chunk identifier" ;;;
  w64 (bucket_chunk_len v - (4 + 8)) "Cannot write subword vocabulary chunk length" ;;;
  w64 (lenN (sv_words v)) "Cannot write vocabulary length" ;;;
  w32 (sv_min v) "Cannot write minimum n-gram length" ;;;
  w32 (sv_max v) "Cannot write maximum n-gram length" ;;;
  w32 (bk_buckets B (sv_ix v)) "Cannot write number of buckets" ;;;
  tell_items (sv_words v).

(** [write_ngrams_with_indices], same file, lines 714-753. *)
Definition tell_ngram (ix : explicit_indexer) (g : str) : W unit :=
  is <- wlift (explicit_index ix (swcl_new g)) ;;
  match is with
  | [] => wfail (MWrite (txt "Indexer could not index n-gram during serialization: " ++ g))
  | [i] =>
      w32 (lenN g) "Cannot write ngram length" ;;;
      wbytes g "Cannot write ngram" ;;;
      w64 i "Cannot write ngram idx"
  | _ => wfail (MWrite (txt "Indexer maps n-gram to multiple indices during serialization: " ++ g))
  end.
Definition tell_ngrams (ix : explicit_indexer) : W unit := wfor_each (ei_ngrams ix) (tell_ngram ix).

(** [write_ngram_chunk], lines 550-581: the number of n-grams is called "ngram length". *)
Definition tell_explicit (v : subword_vocab explicit_indexer) : W unit :=
  w32 (chunk_num CExplicitSubwordVocab) "Cannot write subword vocabulary chunk identifier" ;;;
  w64 (explicit_chunk_len v - (4 + 8)) "Cannot write subword vocabulary chunk length" ;;;
  w64 (lenN (sv_words v)) "Cannot write vocabulary length" ;;;
  w64 (lenN (ei_ngrams (sv_ix v))) "Cannot write ngram length" ;;;
  w32 (sv_min v) "Cannot write minimum n-gram length" ;;;
  w32 (sv_max v) "Cannot write maximum n-gram length" ;;;
  tell_items (sv_words v) ;;;
  tell_ngrams (sv_ix v).

(** [write_floret_chunk], lines 653-688. *)
Definition tell_floret (v : subword_vocab floret_indexer) : W unit :=
  w32 (chunk_num CFloretSubwordVocab) "Cannot write subword vocabulary chunk identifier" ;;;
  w64 (floret_chunk_len v - (4 + 8)) "Cannot write subword vocabulary chunk length" ;;;
  w32 (sv_min v) "Cannot write minimum n-gram length" ;;;
  w32 (sv_max v) "Cannot write maximum n-gram length" ;;;
  w64 (fl_buckets (sv_ix v)) "Cannot write number of buckets" ;;;
  w32 (fl_hashes (sv_ix v)) "Cannot write number of hashes" ;;;
  w32 (fl_seed (sv_ix v)) "Cannot write hasher seed" ;;;
  wcontext "Cannot write begin of word marker" (tell_string (sv_bow v)) ;;;
  wcontext "Cannot write end of word marker" (tell_string (sv_eow v)).

(** [WriteChunk for VocabWrap], /repo/src/chunks/vocab/wrappers.rs 151-184. *)
Definition tell_vocab (v : vocab_wrap) : W unit :=
  match v with
  | VSimple v => tell_simple v
  | VExplicit v => tell_explicit v
  | VFastText v => tell_bucketed ft_bucket_ops CFastTextSubwordVocab v
  | VFloret v => tell_floret v
  | VBucket v => tell_bucketed hash_bucket_ops CBucketSubwordVocab v
  end.

(** [NdArray::write_ndarray_chunk], /repo/src/chunks/storage/array.rs 212-272. *)
Definition tell_ndarray (a : array2 f32) : W unit :=
  w32 (chunk_num CNdArray) "Cannot write embedding matrix chunk identifier" ;;;
  pos <- wpos ;;
  w64 (nd_chunk_len a pos - (4 + 8)) "Cannot write embedding matrix chunk length" ;;;
  w64 (a2_nrows a) "Cannot write number of rows of the embedding matrix" ;;;
  w32 (a2_cols a) "Cannot write number of columns of the embedding matrix" ;;;
  w32 f32_type_id "Cannot write embedding matrix type identifier" ;;;
  wbytes (zeros (padding4 pos)) "Cannot write padding" ;;;
  wfor_each (a2_rows a) (fun row => wfloats row "Cannot write embedding matrix component").

(** [QuantizedArray::write_chunk], /repo/src/chunks/storage/quantized.rs
    151-269: the number of centroids is called "number of subquantizers". *)
Definition tell_quantized (q : quantized f32) : W unit :=
  let p := qa_pq q in
  w32 (chunk_num CQuantizedArray) "Cannot write quantized embedding matrix chunk identifier" ;;;
  pos <- wpos ;;
  w64 (qa_chunk_len q pos - (4 + 8)) "Cannot write quantized embedding matrix chunk length" ;;;
  w32 (b2n (is_some (pq_proj p))) "Cannot write quantized embedding matrix projection" ;;;
  w32 (b2n (is_some (qa_norms q))) "Cannot write quantized embedding matrix norms" ;;;
  w32 (pq_ql p) "Cannot write quantized embedding length" ;;;
  w32 (pq_rl p) "Cannot write reconstructed embedding length" ;;;
  w32 (pq_nc p) "Cannot write number of subquantizers" ;;;
  w64 (a2_nrows (qa_codes q)) "Cannot write number of quantized embeddings" ;;;
  w32 u8_type_id "Cannot write quantized embedding type identifier" ;;;
  w32 f32_type_id "Cannot write reconstructed embedding type identifier" ;;;
  wbytes (zeros (padding4 pos)) "Cannot write padding" ;;;
  match pq_proj p with
  | None => wret tt
  | Some pr => wfor_each (a2_rows pr) (fun row => wfloats row "Cannot write projection matrix component")
  end ;;;
  wfor_each (pq_cent p) (fun sub => wfor_each sub (fun row => wfloats row "Cannot write subquantizer component")) ;;;
  match qa_norms q with None => wret tt | Some n => wfloats n "Cannot write norm vector component" end ;;;
  wfor_each (a2_rows (qa_codes q)) (fun row =>
    wfor_each row (fun c => wbytes [c] "Cannot write quantized embedding matrix component")).

(** [WriteChunk for StorageWrap], /repo/src/chunks/storage/wrappers.rs
    183-225; the mapped storages, array.rs 166-182 and quantized.rs 679-706. *)
Definition tell_storage (s : storage_wrap) : W unit :=
  match s with
  | SNdArray a => tell_ndarray a
  | SQuantized q => tell_quantized q
  | SMmapArray m => a <- wlift (mma_view m) ;; tell_ndarray a
  | SMmapQuantized q => m <- wlift (mmq_to_quantized q) ;; tell_quantized m
  end.

(** [write_embeddings], /repo/src/embeddings.rs 555-586. *)
Definition tell_file (T : toml_ops) (e : embeddings (toml_table T) vocab_wrap storage_wrap f32) : W unit :=
  tell_header (emb_chunks T vwrap_chunk swrap_chunk e) ;;;
  match em_meta e with Some t => tell_metadata T t | None => wret tt end ;;;
  tell_vocab (em_vocab e) ;;;
  tell_storage (em_storage e) ;;;
  match em_norms e with Some ns => tell_norms ns | None => wret tt end.

(** ** Other formats *)
Section Text.
  Context (P : ftext_ops) {Md V S : Type} (VO : vocab_ops V) (SO : storage_ops f32 S).
  Notation emb := (embeddings Md V S f32).

  (** [write_text], /repo/src/compat/text.rs 300-314; [write_text_dims], lines 341-345. *)
  Definition tell_text (unnormalize : bool) (e : emb) : W unit :=
    items <- wlift (emb_iter_with_norms f32_ops VO SO e) ;;
    wfor_each items (fun '(w, en) =>
      wbytes (text_line_of P w (output_vector unnormalize en)) "Cannot write word embedding").
  Definition tell_text_dims (unnormalize : bool) (e : emb) : W unit :=
    wbytes (dims_line VO SO e) "Cannot write word embedding matrix shape" ;;; tell_text unnormalize e.

  (** [write_word2vec_binary], /repo/src/compat/word2vec.rs 140-166. *)
  Definition tell_word2vec (unnormalize : bool) (e : emb) : W unit :=
    wbytes (dims_line VO SO e) "Cannot write word embedding matrix shape" ;;;
    items <- wlift (emb_iter_with_norms f32_ops VO SO e) ;;
    wfor_each items (fun '(w, en) =>
      wbytes (w ++ [x20]) "Cannot write token" ;;;
      wfloats (output_vector unnormalize en) "Cannot write embedding component" ;;;
      wbytes [x0a] "Cannot write embedding separator").
End Text.

(** [write_floret_text], /repo/src/compat/floret/io.rs 113-143. *)
Definition tell_floret_text (P : ftext_ops) (pf : profile) {Md}
           (e : embeddings Md (subword_vocab floret_indexer) (array2 f32) f32) : W unit :=
  n <- wlift (sub_vocab_len floret_ops pf (em_vocab e)) ;;
  let wl := sub_words_len (em_vocab e) in
  wbytes (floret_header e (n - wl)) "Cannot write floret embeddings metadata" ;;;
  wlift (rassert (wl <=? a2_nrows (em_storage e)) PIndexOutOfBounds) ;;;
  wfor_each (enumerate (dropN wl (a2_rows (em_storage e)))) (fun '(i, v) =>
    wbytes (dec_print i ++ [x20] ++ join [x20] (map (ft_print P) v) ++ [x0a]) "Cannot write embedding").

(** [Config::write], /repo/src/compat/fasttext/io.rs 276-314; [Model::write],
    lines 384-400, speaks of the loss function. *)
Definition tell_config (c : ft_config) : W unit :=
  w32 (fc_dims c) "Cannot write number of dimensions" ;;;
  w32 (fc_window c) "Cannot write window size" ;;;
  w32 (fc_epoch c) "Cannot write number of epochs" ;;;
  w32 (fc_min_count c) "Cannot write minimum count" ;;;
  w32 (fc_neg c) "Cannot write negative samples" ;;;
  w32 (fc_word_ngrams c) "Cannot write word n-gram length" ;;;
  w32 (loss_num (fc_loss c)) "Cannot write loss function" ;;;
  w32 (model_num (fc_model c)) "Cannot write loss function" ;;;
  w32 (fc_bucket c) "Cannot write number of buckets" ;;;
  w32 (fc_min_n c) "Cannot write minimum subword length" ;;;
  w32 (fc_max_n c) "Cannot write maximum subword length" ;;;
  w32 (fc_lr c) "Cannot write LR update rate" ;;;
  w64 (fc_threshold c) "Cannot write sampling threshold".

(** [write_vocab], lines 560-597. *)
Definition tell_ft_vocab (v : subword_vocab ft_indexer) : W unit :=
  n <- wlift (if sub_words_len v <? two32 then Ok (sub_words_len v) else Err EOverflow) ;;
  w32 n "Cannot write vocabulary size" ;;;
  w32 n "Cannot write number of words" ;;;
  w32 0 "Cannot write number of labels" ;;;
  w64 0 "Cannot write number of tokens" ;;;
  w64 (two64 - 1) "Cannot write pruned vocabulary size" ;;;
  wfor_each (sv_words v) (fun w =>
    wbytes w "Cannot write word" ;;;
    w8 0 "Cannot write word terminator" ;;;
    w64 0 "Cannot write word frequency" ;;;
    wio_read (write_u8 0) "Cannot read entry type").

Section FastTextTell.
  Context (pf : profile) {Md S : Type} (SO : storage_ops f32 S).
  Notation fte := (embeddings Md (subword_vocab ft_indexer) S f32).

  (** [write_embeddings], lines 452-499. *)
  Definition tell_ft_matrix (e : fte) : W unit :=
    let s := em_storage e in
    let v := em_vocab e in
    w64 (fst (st_shape SO s)) "Cannot write number of embedding matrix rows" ;;;
    w64 (snd (st_shape SO s)) "Cannot write number of embedding matrix columns" ;;;
    items <- wlift (emb_iter_with_norms f32_ops (sub_ops ft_ops) SO e) ;;
    wfor_each items (fun '(w, en) =>
      x <- wlift (ft_word_vector f32_ops pf SO v s w en) ;; wfloats x "Cannot write embedding") ;;;
    n <- wlift (sub_vocab_len ft_ops pf v) ;;
    wfor_each (rangeN (n - sub_words_len v)) (fun i =>
      x <- wlift (st_embedding SO s (sub_words_len v + i)) ;; wfloats x "Cannot write subword embedding").

  (** [write_fasttext], lines 140-175. *)
  Definition tell_fasttext (e : fte) : W unit :=
    let v := em_vocab e in
    bucket <- wlift (if fi_buckets (sv_ix v) <? two32 then Ok (fi_buckets (sv_ix v)) else Err EOverflow) ;;
    dims <- wlift (if snd (st_shape SO (em_storage e)) <? two32
                   then Ok (snd (st_shape SO (em_storage e))) else Err EOverflow) ;;
    let c := mkFtCfg dims 0 0 0 0 1 HierarchicalSoftmax Cbow bucket (sv_min v) (sv_max v) 0 0 in
    w32 ft_magic "Cannot write fastText magic" ;;;
    w32 ft_version "Cannot write fastText version" ;;;
    tell_config c ;;;
    tell_ft_vocab v ;;;
    w8 0 "Cannot write quantization status" ;;;
    tell_ft_matrix e.
End FastTextTell.
