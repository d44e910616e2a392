(** * Vocabulary of the statements about the texts of errors.

    Nothing here is part of the model. *)
From Coq Require Import Strings.String.
From Verif Require Import Base Utf8 Stream F32 ChunkIO Subword Vocab Storage Embeddings FileSpec Messages.
Local Open Scope N_scope.

(** ** Forgetting the texts *)
Definition forget {A} (r : mres A) : res A :=
  match r with MOk a => Ok a | MErr e => Err (kind e) | MPanic p => Panic p end.

(** [d] is [m] with texts. *)
Definition same {A} (d : D A) (m : reader A) : Prop :=
  forall s, (forget (fst (d s)), snd (d s)) = m s.

(** ** Tables of the fields of a file

    [Fld n e]: a field of [n] bytes; [e] is the error that names it.
    [Pad n]: padding, which is skipped and not read. *)
Inductive field := Fld (n : N) (e : emsg) | Pad (n : N).

(** The error if only the first [i] bytes of the fields are there: the error
    of the field that byte [i] belongs to.  Where the padding ends is not
    noticed, so if byte [i] is padding, it is the first field with any bytes
    after it.  [None]: nothing is missing. *)
Fixpoint missing (fs : list field) (i : N) : option emsg :=
  match fs with
  | [] => None
  | Fld n e :: fs' => if i <? n then Some e else missing fs' (i - n)
  | Pad n :: fs' => missing fs' (i - n)
  end.

Definition field_len (f : field) : N := match f with Fld n _ | Pad n => n end.
Fixpoint fields_len (fs : list field) : N :=
  match fs with [] => 0 | f :: fs' => field_len f + fields_len fs' end.

Definition rd (n : N) (what : string) : field := Fld n (MRead (txt what)).

(** *** Strings *)
Definition string_fields (s : str) : list field :=
  [rd 4 "Cannot read string length"; rd (lenN s) "Cannot read item"].
Definition ngram_fields (s : str) : list field :=
  [rd 4 "Cannot read item length"; rd (lenN s) "Cannot read item"; rd 8 "Cannot read ngram index."].
Definition marker_fields (what : string) (s : str) : list field :=
  [Fld 4 (MContext (txt what) (MRead (txt "Cannot read string length")));
   Fld (lenN s) (MContext (txt what) (MRead (txt "Cannot read item")))].

(** *** Vocabularies, after their identifiers *)
Definition simple_fields (words : list str) : list field :=
  [rd 8 "Cannot read vocabulary chunk length"; rd 8 "Cannot read vocabulary length"]
  ++ flat_map string_fields words.
Definition bucket_fields (words : list str) : list field :=
  [rd 8 "Cannot read vocabulary chunk length"; rd 8 "Cannot read vocabulary length";
   rd 4 "Cannot read minimum n-gram length"; rd 4 "Cannot read maximum n-gram length";
   rd 4 "Cannot read number of buckets"]
  ++ flat_map string_fields words.
Definition explicit_fields (words ngrams : list str) : list field :=
  [rd 8 "Cannot read vocabulary chunk length"; rd 8 "Cannot read number of words";
   rd 8 "Cannot read number of ngrams";
   rd 4 "Cannot read minimum n-gram length"; rd 4 "Cannot read maximum n-gram length"]
  ++ flat_map string_fields words ++ flat_map ngram_fields ngrams.
Definition floret_fields (bow eow : str) : list field :=
  [rd 8 "Cannot read vocabulary chunk length";
   rd 4 "Cannot read minimum n-gram length"; rd 4 "Cannot read maximum n-gram length";
   rd 8 "Cannot read number of buckets"; rd 4 "Cannot read number of hashes";
   rd 4 "Cannot read hasher seed"]
  ++ marker_fields "Cannot read begin of word marker" bow
  ++ marker_fields "Cannot read end of word marker" eow.

Definition vocab_fields (v : vocab_wrap) : list field :=
  rd 4 "Cannot read vocabulary chunk identifier" ::
  match v with
  | VSimple v => simple_fields (sm_words v)
  | VBucket v => bucket_fields (sv_words v)
  | VFastText v => bucket_fields (sv_words v)
  | VExplicit v => explicit_fields (sv_words v) (ei_ngrams (sv_ix v))
  | VFloret v => floret_fields (sv_bow v) (sv_eow v)
  end.

(** *** Storages

    [pos]: where the chunk starts; the padding depends on it. *)
Definition nd_fields (a : array2 f32) (pos : N) : list field :=
  [rd 8 "Cannot read embedding matrix chunk length";
   rd 8 "Cannot read number of rows of the embedding matrix";
   rd 4 "Cannot read number of columns of the embedding matrix";
   rd 4 "Cannot read type identifier";
   Pad (4 - pos mod 4);
   rd (4 * (a2_nrows a * a2_cols a)) "Cannot read embedding matrix"].
Definition qa_fields (q : quantized f32) (pos : N) : list field :=
  let p := qa_pq q in
  [rd 8 "Cannot read quantized embedding matrix chunk length";
   rd 4 "Cannot read quantized embedding matrix projection";
   rd 4 "Cannot read quantized embedding matrix norms";
   rd 4 "Cannot read quantized embedding length";
   rd 4 "Cannot read reconstructed embedding length";
   rd 4 "Cannot read number of subquantizers";
   rd 8 "Cannot read number of quantized embeddings";
   rd 4 "Cannot read type identifier"; rd 4 "Cannot read type identifier";
   Pad (4 - pos mod 4)]
  ++ (if is_some (pq_proj p) then [rd (4 * (pq_rl p * pq_rl p)) "Cannot read projection matrix"] else [])
  ++ [rd (4 * (pq_ql p * pq_nc p * pq_sub p)) "Cannot read subquantizer"]
  ++ (if is_some (qa_norms q) then [rd (4 * a2_nrows (qa_codes q)) "Cannot read norms"] else [])
  ++ [rd (a2_nrows (qa_codes q) * pq_ql p) "Cannot read quantized embeddings"].

Definition storage_fields (s : storage_wrap) (pos : N) : list field :=
  rd 4 "Cannot read storage chunk identifier" ::
  match s with
  | SNdArray a => nd_fields a pos
  | SQuantized q => qa_fields q pos
  | _ => []
  end.

(** Mapping a storage does not read the matrix, which comes last. *)
Fixpoint skip_last (fs : list field) : list field :=
  match fs with
  | [] => []
  | [f] => [Pad (field_len f)]
  | f :: fs' => f :: skip_last fs'
  end.

(** *** Files *)
Definition header_fields (chunks : N) : list field :=
  [rd 4 "Cannot read magic"; rd 4 "Cannot read model version"; rd 4 "Cannot read chunk identifiers length"]
  ++ repeat (rd 4 "Cannot read chunk identifier") (N.to_nat chunks).
Definition metadata_fields (len : N) : list field :=
  [rd 4 "Cannot read chunk identifier"; rd 8 "Cannot read chunk length"; rd len "Cannot read TOML metadata"].
Definition norms_fields (n pos : N) : list field :=
  [rd 4 "Cannot read chunk identifier"; rd 8 "Cannot read norms chunk length";
   rd 8 "Cannot read norms vector length"; rd 4 "Cannot read type identifier";
   Pad (4 - pos mod 4); rd (4 * n) "Cannot read norms"].

Section File.
  Context {T : toml_ops} (e : emb T) (s0 : storage_wrap) (base : N).

  (** What comes before the storage, and before the norms. *)
  Definition front_fields : list field :=
    header_fields (lenN (expected_chunks e))
    ++ (match em_meta e with Some t => metadata_fields (lenN (toml_print T t)) | None => [] end)
    ++ vocab_fields (em_vocab e).
  Definition main_fields : list field :=
    front_fields ++ storage_fields s0 (base + fields_len front_fields).
  Definition mapped_fields : list field :=
    front_fields ++ skip_last (storage_fields s0 (base + fields_len front_fields)).
  Definition last_fields : list field :=
    match em_norms e with
    | Some ns => norms_fields (lenN ns) (base + fields_len main_fields)
    | None => []
    end.
End File.

Definition read_file_d (pf : profile) (T : toml_ops) (toml_error : str -> str) : D (emb T) :=
  read_embeddings_d T toml_error (read_vocab_wrap_d pf) read_storage_wrap_d.
Definition mmap_file_d (pf : profile) (T : toml_ops) (toml_error : str -> str) : D (emb T) :=
  read_embeddings_d T toml_error (read_vocab_wrap_d pf) (mmap_storage_wrap_d pf).

(** Mapped embeddings without the bytes that are mapped. *)
Definition unmapped_storage (s : storage_wrap) : storage_wrap :=
  match s with
  | SMmapArray m => SMmapArray (mkMma (mkMmap (mm_len (ma_map m)) []) (ma_rows m) (ma_cols m))
  | SMmapQuantized q => SMmapQuantized (mkMmq (mq_pq q) (mkMmap (mm_len (mq_map q)) []) (mq_norms q))
  | s => s
  end.
Definition unmapped {T} (e : emb T) : emb T :=
  mkEmb (em_meta e) (unmapped_storage (em_storage e)) (em_vocab e) (em_norms e).

(** All texts for a field that is missing. *)
Definition cut_texts : list string :=
  ["Cannot read string length";
   "Cannot read item";
   "Cannot read item length";
   "Cannot read ngram index.";
   "Cannot read vocabulary chunk length";
   "Cannot read vocabulary length";
   "Cannot read minimum n-gram length";
   "Cannot read maximum n-gram length";
   "Cannot read number of buckets";
   "Cannot read number of words";
   "Cannot read number of ngrams";
   "Cannot read number of hashes";
   "Cannot read hasher seed";
   "Cannot read vocabulary chunk identifier";
   "Cannot read embedding matrix chunk length";
   "Cannot read number of rows of the embedding matrix";
   "Cannot read number of columns of the embedding matrix";
   "Cannot read type identifier";
   "Cannot read embedding matrix";
   "Cannot read quantized embedding matrix chunk length";
   "Cannot read quantized embedding matrix projection";
   "Cannot read quantized embedding matrix norms";
   "Cannot read quantized embedding length";
   "Cannot read reconstructed embedding length";
   "Cannot read number of subquantizers";
   "Cannot read number of quantized embeddings";
   "Cannot read projection matrix";
   "Cannot read subquantizer";
   "Cannot read norms";
   "Cannot read quantized embeddings";
   "Cannot read storage chunk identifier";
   "Cannot read magic";
   "Cannot read model version";
   "Cannot read chunk identifiers length";
   "Cannot read chunk identifier";
   "Cannot read chunk length";
   "Cannot read TOML metadata";
   "Cannot read norms chunk length";
   "Cannot read norms vector length";
   "Cannot read begin of word marker";
   "Cannot read end of word marker"]%string.
