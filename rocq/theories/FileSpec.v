(** * Vocabulary of the statements about files.

    Nothing here is part of the model: these are the conditions and the
    small specifications that the theorems about files are stated with. *)
From Verif Require Import Base Utf8 Stream F32 ChunkIO Subword Vocab Storage Embeddings.
Local Open Scope N_scope.

(** ** Values that the crate's constructors can build

    Sizes are bounded by what the format's length fields and a 64-bit
    address space can hold. *)

(** A Rust string whose length fits the format's length field. *)
Definition str_ok (s : str) : Prop := utf8_valid s = true /\ lenN s < two32.

(** Words that fit in memory ([String] is 24 bytes). *)
Definition words_ok (ws : list str) : Prop := Forall str_ok ws /\ lenN ws * 24 <= isize_max.

(** An explicit n-gram indexer made by one of its two constructors. *)
Definition explicit_built (ix : explicit_indexer) : Prop :=
  (exists ngs, explicit_new ngs = Ok ix) \/
  (exists tuples o2n, explicit_new_with_indices tuples = Ok (ix, o2n)).

(** Array dimensions accepted by ndarray's shape check. *)
Definition dims_ok (dims : list N) (size : N) : Prop :=
  fold_left (fun a d => a * nonzero d) dims 1 <= isize_max /\
  fold_left N.mul dims 1 * size <= isize_max.

(** Matrices and quantized matrices with consistent shapes. *)
Definition nd_ok (a : array2 f32) : Prop :=
  a2_wf a /\ a2_nrows a < two64 /\ a2_cols a < two32 /\ dims_ok [a2_nrows a; a2_cols a] 4.

Definition pq_ok (p : pq f32) : Prop :=
  pq_new (pq_proj p) (pq_ql p) (pq_nc p) (pq_sub p) (pq_cent p) = Ok p /\
  (forall pr, pq_proj p = Some pr -> a2_wf pr /\ dims_ok [pq_rl p; pq_rl p] 4) /\
  lenN (pq_cent p) = pq_ql p /\
  Forall (fun sub => lenN sub = pq_nc p /\ Forall (fun v => lenN v = pq_sub p) sub) (pq_cent p) /\
  pq_rl p < two32 /\ pq_nc p < two32 /\ dims_ok [pq_ql p; pq_nc p; pq_sub p] 4.

Definition qa_ok (q : quantized f32) : Prop :=
  pq_ok (qa_pq q) /\
  a2_wf (qa_codes q) /\ a2_cols (qa_codes q) = pq_ql (qa_pq q) /\
  a2_nrows (qa_codes q) < two64 /\ dims_ok [a2_nrows (qa_codes q); pq_ql (qa_pq q)] 1 /\
  (forall ns, qa_norms q = Some ns -> lenN ns = a2_nrows (qa_codes q) /\ dims_ok [lenN ns] 4).

(** A vocabulary produced by the constructors from valid strings.  Bucketed
    and explicit vocabularies have the default boundaries ([sub_new]), floret
    vocabularies have no words: other ones do not survive a round trip, see
    [bucket_boundaries_refuted] and [floret_words_refuted]. *)
Inductive vocab_built (pf : profile) : vocab_wrap -> Prop :=
| vb_simple ws v :
    words_ok ws -> simple_new ws = Ok v -> vocab_built pf (VSimple v)
| vb_bucket ws mn mx exp ix v :
    words_ok ws -> mn < two32 -> mx < two32 -> hash_indexer_new exp = Ok ix ->
    sub_new hash_ops pf ws mn mx ix = Ok v -> vocab_built pf (VBucket v)
| vb_fasttext ws mn mx n ix v :
    words_ok ws -> mn < two32 -> mx < two32 -> ft_indexer_new n = Ok ix ->
    sub_new ft_ops pf ws mn mx ix = Ok v -> vocab_built pf (VFastText v)
| vb_explicit ws mn mx ix v :
    words_ok ws -> mn < two32 -> mx < two32 -> explicit_built ix ->
    Forall str_ok (ei_ngrams ix) -> lenN (ei_ngrams ix) * 32 <= isize_max ->
    sub_new explicit_ops pf ws mn mx ix = Ok v -> vocab_built pf (VExplicit v)
| vb_floret mn mx nb nh seed bow eow ix v :
    mn < two32 -> mx < two32 -> nb < two64 -> seed < two32 -> str_ok bow -> str_ok eow ->
    floret_indexer_new nb nh seed = Ok ix ->
    sub_new_with_boundaries floret_ops pf [] mn mx ix bow eow = Ok v -> vocab_built pf (VFloret v).

(** A storage and the in-memory storage with the same contents. *)
Inductive storage_holds : storage_wrap -> storage_wrap -> Prop :=
| sh_nd a : nd_ok a -> storage_holds (SNdArray a) (SNdArray a)
| sh_qa q : qa_ok q -> storage_holds (SQuantized q) (SQuantized q)
| sh_mma m a : mma_view m = Ok a -> nd_ok a -> storage_holds (SMmapArray m) (SNdArray a)
| sh_mmq m q : mmq_to_quantized m = Ok q -> qa_ok q -> storage_holds (SMmapQuantized m) (SQuantized q).

Definition storage_nonempty (s : storage_wrap) : Prop :=
  match s with SNdArray a => a2_nrows a * a2_cols a <> 0 | _ => True end.

(** ** Files of wrapped embeddings *)
Notation emb T := (embeddings (toml_table T) vocab_wrap storage_wrap f32).

Definition write_file (T : toml_ops) (e : emb T) : writer unit :=
  write_embeddings T vwrap_chunk swrap_chunk e.
Definition write_file_len (T : toml_ops) (e : emb T) (offset : N) : N :=
  write_embeddings_len T vwrap_chunk swrap_chunk e offset.
Definition read_file (pf : profile) (T : toml_ops) : reader (emb T) :=
  read_embeddings T (read_vocab_wrap pf) read_storage_wrap.
Definition mmap_file (pf : profile) (T : toml_ops) : reader (emb T) :=
  mmap_embeddings T (read_vocab_wrap pf) (mmap_storage_wrap pf).

(** Embeddings with a constructible vocabulary and storage; [s0] is the
    storage as an in-memory one. *)
Record emb_built (pf : profile) (T : toml_ops) (e : emb T) (s0 : storage_wrap) : Prop := {
  eb_vocab : vocab_built pf (em_vocab e);
  eb_storage : storage_holds (em_storage e) s0;
  eb_meta : forall t, em_meta e = Some t -> lenN (toml_print T t) <= isize_max;
  eb_norms : forall ns, em_norms e = Some ns -> lenN ns * 4 <= isize_max
}.

(** What a reader finds: the embeddings with storage [s0] and norms [ns]. *)
Definition loaded {T} (e : emb T) (s0 : storage_wrap) (ns : option (list f32)) : emb T :=
  mkEmb (em_meta e) s0 (em_vocab e) ns.

(** ** Other *)

(** The bytes do not start with the identifier of a norms chunk. *)
Definition not_norms (tail : list byte) : Prop := takeN 4 tail <> le_bytes 4 6.

(** A reader that knows nothing but the frame of a chunk: four bytes of
    identifier, eight bytes of length, body. *)
Fixpoint skim (n : nat) (bs : list byte) : option (list N * list byte) :=
  match n with
  | O => Some ([], bs)
  | Datatypes.S n' =>
      let len := le_value (takeN 8 (dropN 4 bs)) in
      if lenN bs <? 12 + len then None
      else match skim n' (dropN (12 + len) bs) with
           | Some (ids, rest) => Some (le_value (takeN 4 bs) :: ids, rest)
           | None => None
           end
  end.

(** The chunks a file must have, from its contents. *)
Definition expected_chunks {T} (e : emb T) : list N :=
  (if is_some (em_meta e) then [5] else [])
  ++ [match em_vocab e with VSimple _ => 1 | VBucket _ => 3 | VFastText _ => 7 | VExplicit _ => 8 | VFloret _ => 9 end;
      match em_storage e with SNdArray _ | SMmapArray _ => 2 | SQuantized _ | SMmapQuantized _ => 4 end]
  ++ (if is_some (em_norms e) then [6] else []).

(** The floats of an in-memory storage, in file order. *)
Definition storage_floats (s : storage_wrap) : list f32 :=
  match s with
  | SNdArray a => concat (a2_rows a)
  | SQuantized q =>
      match pq_proj (qa_pq q) with Some p => concat (a2_rows p) | None => [] end
      ++ concat (concat (pq_cent (qa_pq q)))
      ++ match qa_norms q with Some ns => ns | None => [] end
  | _ => []
  end.

(** [bytes], which start at offset [base] of a file, contain the floats [fs]
    at a multiple of 4, after between one and four zero bytes of padding. *)
Definition aligned_floats (base : N) (bytes : list byte) (fs : list f32) : Prop :=
  exists pre pad post, bytes = pre ++ repeat x00 pad ++ flat_map f32_bytes fs ++ post
  /\ (1 <= pad <= 4)%nat /\ (base + lenN pre + N.of_nat pad) mod 4 = 0.

(** A header with the given identifiers. *)
Definition header_layout (ids : list chunk_id) : list byte :=
  [x46; x69; x46; x75] ++ le_bytes 4 0 ++ le_bytes 4 (lenN ids)
  ++ flat_map (fun c => le_bytes 4 (chunk_num c)) ids.

(** ** Types behind the wrappers *)

(** A concrete vocabulary type: its operations, its reader, its chunk
    operations and the constructor of [VocabWrap] that holds it. *)
Inductive vkind (pf : profile) : forall V, vocab_ops V -> reader V -> chunk_ops V -> (V -> vocab_wrap) -> Prop :=
| vk_simple : vkind pf _ simple_ops read_simple simple_chunk VSimple
| vk_bucket : vkind pf _ (sub_ops hash_ops) (read_bucketed hash_bucket_ops pf CBucketSubwordVocab) bucket_chunk VBucket
| vk_fasttext : vkind pf _ (sub_ops ft_ops) (read_bucketed ft_bucket_ops pf CFastTextSubwordVocab) ft_chunk VFastText
| vk_explicit : vkind pf _ (sub_ops explicit_ops) (read_explicit pf) explicit_chunk VExplicit
| vk_floret : vkind pf _ (sub_ops floret_ops) (read_floret pf) floret_chunk VFloret.

Definition view_storage (s : storage_view_wrap) : storage_wrap :=
  match s with SvNdArray a => SNdArray a | SvMmapArray m => SMmapArray m end.

(** The same for storages; the second argument is the reader of the wrapper
    ([read_chunk] or [mmap_chunk]). *)
Inductive skind (pf : profile) (gemm : array2 f32 -> list (list f32) -> list (list f32))
  : reader storage_wrap -> forall S, storage_ops f32 S -> reader S -> chunk_ops S -> (S -> storage_wrap) -> Prop :=
| sk_nd : skind pf gemm read_storage_wrap _ (nd_ops f32) read_ndarray nd_chunk SNdArray
| sk_qa : skind pf gemm read_storage_wrap _ (qa_ops f32_ops gemm) read_quantized qa_chunk SQuantized
| sk_view : skind pf gemm read_storage_wrap _ svwrap_ops read_storage_view_wrap svwrap_chunk view_storage
| sk_mma : skind pf gemm (mmap_storage_wrap pf) _ mma_ops (mmap_ndarray pf) mma_chunk SMmapArray
| sk_mmq : skind pf gemm (mmap_storage_wrap pf) _ (mmq_ops gemm) (mmap_quantized_chunk pf) mmq_chunk SMmapQuantized
| sk_mview : skind pf gemm (mmap_storage_wrap pf) _ svwrap_ops (mmap_storage_view_wrap pf) svwrap_chunk view_storage.

(** The same vocabulary with the default word boundaries. *)
Definition default_boundaries {I} (v : subword_vocab I) : subword_vocab I :=
  mkSub default_bow default_eow (sv_ix v) (sv_indices v) (sv_words v) (sv_min v) (sv_max v).

(** Reading [bytes] at offset [base], whatever follows them, yields [a] and
    stops at the end of the bytes. *)
Definition reads_back {A} (m : reader A) (base : N) (bytes : list byte) (a : A) : Prop :=
  forall tail, m (mkStream (bytes ++ tail) base) = (Ok a, mkStream tail (base + lenN bytes)).

(** Reading through the wrapper is reading with the concrete type; if the
    wrapper finds another type, the concrete reader reports an error. *)
Definition typed {V W} (wrap : reader W) (rd : reader V) (inj : V -> W) : Prop := forall s,
  (forall v s', rd s = (Ok v, s') -> wrap s = (Ok (inj v), s')) /\
  (forall w s', wrap s = (Ok w, s') ->
     (exists v, w = inj v /\ rd s = (Ok v, s')) \/
     ((forall v, w <> inj v) /\ exists err s'', rd s = (Err err, s''))).

(** The only ways in which [m] can panic. *)
Definition panics_only {A} (m : reader A) (ps : list panic) : Prop :=
  forall s p s', m s = (Panic p, s') -> In p ps.
