(** * Vocabulary of the statements about the texts of errors of writers.

    Nothing here is part of the model. *)
From Coq Require Import Strings.String.
From Verif Require Import Base Utf8 Stream F32 ChunkIO Subword Vocab Storage Embeddings TextIO FileSpec FastText
  Messages MessageSpec WriteMessages.
Local Open Scope N_scope.

(** [d] is [m] with texts. *)
Definition wsame {A} (d : W A) (m : writer A) : Prop :=
  forall k, (forget (fst (d k)), snd (d k)) = m k.

(** [d] writes [bytes], if the device has room for them.  Otherwise the device
    holds what fits, and the error is that of the table [fs]: the error of the
    field that the first byte without room belongs to. *)
Definition tells_room (d : W unit) (base : N) (bytes : list byte) (fs : list field) : Prop :=
  fields_len fs = lenN bytes /\
  forall c,
    if lenN bytes <=? c
    then d (mkSink base [] (Some c)) = (MOk tt, mkSink base bytes (Some c))
    else exists err, missing fs c = Some err /\
         d (mkSink base [] (Some c)) = (MErr err, mkSink base (takeN c bytes) (Some c)).

(** ** The fields of finalfusion files *)
Definition wd (n : N) (what : string) : field := Fld n (MWrite (txt what)).

Definition wstring (s : str) : list field :=
  [wd 4 "Cannot write string length"; wd (lenN s) "Cannot write string"].
Definition wngram (s : str) : list field :=
  [wd 4 "Cannot write ngram length"; wd (lenN s) "Cannot write ngram"; wd 8 "Cannot write ngram idx"].
Definition wmarker (what : string) (s : str) : list field :=
  [Fld 4 (MContext (txt what) (MWrite (txt "Cannot write string length")));
   Fld (lenN s) (MContext (txt what) (MWrite (txt "Cannot write string")))].

Definition wbucket (words : list str) : list field :=
  [wd 4 "Cannot write subword vocabulary chunk identifier"; wd 8 "Cannot write subword vocabulary chunk length";
   wd 8 "Cannot write vocabulary length";
   wd 4 "Cannot write minimum n-gram length"; wd 4 "Cannot write maximum n-gram length";
   wd 4 "Cannot write number of buckets"]
  ++ flat_map wstring words.
Definition wvocab (v : vocab_wrap) : list field :=
  match v with
  | VSimple v =>
      [wd 4 "Cannot write vocabulary chunk identifier"; wd 8 "Cannot write vocabulary chunk length";
       wd 8 "Cannot write vocabulary length"]
      ++ flat_map wstring (sm_words v)
  | VBucket v => wbucket (sv_words v)
  | VFastText v => wbucket (sv_words v)
  | VExplicit v =>
      [wd 4 "Cannot write subword vocabulary chunk identifier"; wd 8 "Cannot write subword vocabulary chunk length";
       wd 8 "Cannot write vocabulary length"; wd 8 "Cannot write ngram length";
       wd 4 "Cannot write minimum n-gram length"; wd 4 "Cannot write maximum n-gram length"]
      ++ flat_map wstring (sv_words v) ++ flat_map wngram (ei_ngrams (sv_ix v))
  | VFloret v =>
      [wd 4 "Cannot write subword vocabulary chunk identifier"; wd 8 "Cannot write subword vocabulary chunk length";
       wd 4 "Cannot write minimum n-gram length"; wd 4 "Cannot write maximum n-gram length";
       wd 8 "Cannot write number of buckets"; wd 4 "Cannot write number of hashes"; wd 4 "Cannot write hasher seed"]
      ++ wmarker "Cannot write begin of word marker" (sv_bow v)
      ++ wmarker "Cannot write end of word marker" (sv_eow v)
  end.

(** [pos]: where the chunk starts; the padding depends on it. *)
Definition wnd (a : array2 f32) (pos : N) : list field :=
  [wd 4 "Cannot write embedding matrix chunk identifier"; wd 8 "Cannot write embedding matrix chunk length";
   wd 8 "Cannot write number of rows of the embedding matrix";
   wd 4 "Cannot write number of columns of the embedding matrix";
   wd 4 "Cannot write embedding matrix type identifier";
   wd (4 - pos mod 4) "Cannot write padding";
   wd (4 * lenN (concat (a2_rows a))) "Cannot write embedding matrix component"].
Definition wqa (q : quantized f32) (pos : N) : list field :=
  [wd 4 "Cannot write quantized embedding matrix chunk identifier";
   wd 8 "Cannot write quantized embedding matrix chunk length";
   wd 4 "Cannot write quantized embedding matrix projection"; wd 4 "Cannot write quantized embedding matrix norms";
   wd 4 "Cannot write quantized embedding length"; wd 4 "Cannot write reconstructed embedding length";
   wd 4 "Cannot write number of subquantizers"; wd 8 "Cannot write number of quantized embeddings";
   wd 4 "Cannot write quantized embedding type identifier"; wd 4 "Cannot write reconstructed embedding type identifier";
   wd (4 - pos mod 4) "Cannot write padding"]
  ++ (match pq_proj (qa_pq q) with
      | Some pr => [wd (4 * lenN (concat (a2_rows pr))) "Cannot write projection matrix component"] | None => [] end)
  ++ [wd (4 * lenN (concat (concat (pq_cent (qa_pq q))))) "Cannot write subquantizer component"]
  ++ (match qa_norms q with Some ns => [wd (4 * lenN ns) "Cannot write norm vector component"] | None => [] end)
  ++ [wd (lenN (concat (a2_rows (qa_codes q)))) "Cannot write quantized embedding matrix component"].
Definition wstorage (s : storage_wrap) (pos : N) : list field :=
  match s with
  | SNdArray a => wnd a pos
  | SQuantized q => wqa q pos
  | SMmapArray m => match mma_view m with Ok a => wnd a pos | _ => [] end
  | SMmapQuantized m => match mmq_to_quantized m with Ok q => wqa q pos | _ => [] end
  end.

Definition wheader (chunks : N) : list field :=
  [wd 4 "Cannot write magic"; wd 4 "Cannot write model version"; wd 4 "Cannot write chunk identifiers length"]
  ++ repeat (wd 4 "Cannot write chunk identifier") (N.to_nat chunks).
Definition wmetadata (len : N) : list field :=
  [wd 4 "Cannot write metadata chunk identifier"; wd 8 "Cannot write metadata length"; wd len "Cannot write metadata"].
Definition wnorms (n pos : N) : list field :=
  [wd 4 "Cannot write norms chunk identifier"; wd 8 "Cannot write norms chunk length";
   wd 8 "Cannot write norms vector length"; wd 4 "Cannot write norms vector type identifier";
   wd (4 - pos mod 4) "Cannot write padding"; wd (4 * n) "Cannot write norm"].

Definition wfile {T} (e : emb T) (base : N) : list field :=
  let front :=
    wheader (lenN (expected_chunks e))
    ++ (match em_meta e with Some t => wmetadata (lenN (toml_print T t)) | None => [] end)
    ++ wvocab (em_vocab e) in
  let body := front ++ wstorage (em_storage e) (base + fields_len front) in
  body ++ (match em_norms e with Some ns => wnorms (lenN ns) (base + fields_len body) | None => [] end).

(** ** The fields of other formats *)

(** [first]: the length of the first line, [rest]: of everything after it. *)
Definition wtext_dims (first rest : N) : list field :=
  [wd first "Cannot write word embedding matrix shape"; wd rest "Cannot write word embedding"].
Definition wfloret_text (first rest : N) : list field :=
  [wd first "Cannot write floret embeddings metadata"; wd rest "Cannot write embedding"].
Definition wword2vec (first dims : N) (words : list str) : list field :=
  wd first "Cannot write word embedding matrix shape" ::
  flat_map (fun w => [wd (lenN w + 1) "Cannot write token"; wd (4 * dims) "Cannot write embedding component";
                      wd 1 "Cannot write embedding separator"]) words.

Definition wentry (w : str) : list field :=
  [wd (lenN w) "Cannot write word"; wd 1 "Cannot write word terminator"; wd 8 "Cannot write word frequency";
   rd 1 "Cannot read entry type"].
Definition wfasttext (dims buckets : N) (words : list str) : list field :=
  [wd 4 "Cannot write fastText magic"; wd 4 "Cannot write fastText version";
   wd 4 "Cannot write number of dimensions"; wd 4 "Cannot write window size"; wd 4 "Cannot write number of epochs";
   wd 4 "Cannot write minimum count"; wd 4 "Cannot write negative samples"; wd 4 "Cannot write word n-gram length";
   wd 4 "Cannot write loss function"; wd 4 "Cannot write loss function"; wd 4 "Cannot write number of buckets";
   wd 4 "Cannot write minimum subword length"; wd 4 "Cannot write maximum subword length";
   wd 4 "Cannot write LR update rate"; wd 8 "Cannot write sampling threshold";
   wd 4 "Cannot write vocabulary size"; wd 4 "Cannot write number of words"; wd 4 "Cannot write number of labels";
   wd 8 "Cannot write number of tokens"; wd 8 "Cannot write pruned vocabulary size"]
  ++ flat_map wentry words
  ++ [wd 1 "Cannot write quantization status";
      wd 8 "Cannot write number of embedding matrix rows"; wd 8 "Cannot write number of embedding matrix columns";
      wd (4 * (lenN words * dims)) "Cannot write embedding"; wd (4 * (buckets * dims)) "Cannot write subword embedding"].

(** ** Writing and reading

    A field as the writer and the reader see it: it has the same length, and
    only padding has no name for the reader. *)
Definition agree (w r : field) : Prop :=
  match w, r with
  | Fld n _, Fld m _ => n = m
  | Fld n e, Pad m => n = m /\ e = MWrite (txt "Cannot write padding")
  | Pad _, _ => False
  end.
