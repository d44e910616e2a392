(** * Theorems about the texts of errors of writers (C126-C128). *)
From Coq Require Import Strings.String.
From Verif Require Import Base BaseFacts Utf8 Stream F32 ChunkIO Subword Vocab Storage Embeddings TextIO FastText EmbSpec
  FileSpec FastTextSpec MatrixFacts Messages MessageSpec WriteMessages WriteSpec WriteErasure WriteTexts WriteOther WriteRefuted WriteLayout.
From Verif Require P_Emb P_File P_FastText P_Text.
Local Open Scope N_scope.

(** ** The writers with texts are the writers of the model *)
@thm write_erasure_thm WriteErasure wsame_file
@thm write_text_erasure_thm WriteErasure wsame_text | forall (P : ftext_ops) (Md V S : Type) (VO : vocab_ops V) (SO : storage_ops f32 S), (forall s i e, st_embedding SO s i <> Err e) ->
@thm write_text_dims_erasure_thm WriteErasure wsame_text_dims | forall (P : ftext_ops) (Md V S : Type) (VO : vocab_ops V) (SO : storage_ops f32 S), (forall s i e, st_embedding SO s i <> Err e) ->
@thm write_word2vec_erasure_thm WriteErasure wsame_word2vec | forall (Md V S : Type) (VO : vocab_ops V) (SO : storage_ops f32 S), (forall s i e, st_embedding SO s i <> Err e) ->
@thm write_floret_erasure_thm WriteErasure wsame_floret_text
@thm write_fasttext_erasure_thm WriteErasure wsame_fasttext | forall (pf : profile) (T : toml_ops) (S : Type) (SO : storage_ops f32 S), (forall s i e, st_embedding SO s i <> Err e) ->

Lemma nd_no_error s i e : st_embedding (nd_ops f32) s i <> Err e.
Proof. cbn. unfold a2_row, index. destruct (nthN (a2_rows s) i); discriminate. Qed.
Example write_erasure_ex : (forall s i e, st_embedding (nd_ops f32) s i <> Err e) /\
  write_file P_File.ex_toml (P_File.ex_emb None) (mkSink 0 [] (Some 3)) = (Err EWrite, mkSink 0 (takeN 3 magic) (Some 3)).
Proof. split; [exact nd_no_error|vm_compute; reflexivity]. Qed.

(** ** C126: finalfusion files

    Full statement: the text names the field that could not be written.  For
    two fields it names something else. *)
@thm full_device_partial WriteTexts full_device
@thm full_device_kind_thm WriteRefuted full_device_kind
@thm ngram_texts_thm WriteRefuted ngram_texts
@thm ngram_text_refuted WriteRefuted ngram_text_not
@thm centroids_text_thm WriteRefuted centroids_text
@thm centroids_text_refuted WriteRefuted centroids_text_not

Definition mw_text {A} (r : mres A) : string :=
  match r with MErr e => string_of_list_byte (display e) | MOk _ => "ok" | MPanic _ => "panic" end.
Definition mw_file (c : N) : string := mw_text (fst (tell_file P_File.ex_toml (P_File.ex_emb (Some P_File.ex_norms)) (mkSink 3 [] (Some c)))).
Example full_device_ex : exists bytes, run_writer (write_file P_File.ex_toml (P_File.ex_emb (Some P_File.ex_norms))) 3 = Ok bytes /\ lenN bytes = 209 /\
  map mw_file [0; 13; 28; 84; 120; 172; 208; 209] =
  ["Cannot write magic"; "Cannot write chunk identifier"; "Cannot write metadata chunk identifier"; "Cannot write string"; "Cannot write embedding matrix type identifier"; "Cannot write embedding matrix component";
   "Cannot write norm"; "ok"]%string.
Proof. eexists. split; [vm_compute; reflexivity|]. split; vm_compute; reflexivity. Qed.
Example ngram_texts_ex : (exists bytes, run_writer (write_explicit P_File.ex_explicit) 5 = Ok bytes) /\ ei_ngrams (sv_ix P_File.ex_explicit) <> [] /\
  words_size (sv_words P_File.ex_explicit) = 15 /\
  map (fun c => mw_text (fst (tell_explicit P_File.ex_explicit (mkSink 5 [] (Some c))))) [19; 20; 27; 28; 50; 51; 55; 57] =
  ["Cannot write vocabulary length"; "Cannot write ngram length"; "Cannot write ngram length"; "Cannot write minimum n-gram length";
   "Cannot write string"; "Cannot write ngram length"; "Cannot write ngram"; "Cannot write ngram idx"]%string.
Proof. split; [eexists; vm_compute; reflexivity|]. split; [discriminate|]. split; vm_compute; reflexivity. Qed.
Example centroids_text_ex : (exists bytes, run_writer (write_quantized P_File.ex_quantized) 5 = Ok bytes) /\
  map (fun c => mw_text (fst (tell_quantized P_File.ex_quantized (mkSink 5 [] (Some c))))) [27; 28; 31; 32] =
  ["Cannot write reconstructed embedding length"; "Cannot write number of subquantizers"; "Cannot write number of subquantizers";
   "Cannot write number of quantized embeddings"]%string.
Proof. split; [eexists; vm_compute; reflexivity|vm_compute; reflexivity]. Qed.

(** ** C127: other formats

    Full statement: the text names the field that could not be written, and
    the error is [Error::Write].  For two fields of fastText models it is not
    so: the type of the model is called the loss function, and the type of an
    entry is reported as an error of reading. *)
@thm text_full_thm WriteOther text_full | forall (P : ftext_ops) (Md V S : Type) (VO : vocab_ops V) (SO : storage_ops f32 S) (u : bool) (e : embeddings Md V S f32),
@thm text_dims_full_thm WriteOther text_dims_full | forall (P : ftext_ops) (Md V S : Type) (VO : vocab_ops V) (SO : storage_ops f32 S) (u : bool) (e : embeddings Md V S f32),
@thm word2vec_full_thm WriteOther word2vec_full | forall (Md V S : Type) (VO : vocab_ops V) (SO : storage_ops f32 S) (u : bool) (e : embeddings Md V S f32),
@thm floret_full_thm WriteOther floret_full | forall (P : ftext_ops) (pf : profile) (Md : Type) (e : embeddings Md (subword_vocab floret_indexer) (array2 f32) f32),
@thm fasttext_full_partial WriteOther fasttext_full | forall (pf : profile) (T : toml_ops) (S : Type) (SO : storage_ops f32 S) (e : embeddings (toml_table T) (subword_vocab ft_indexer) S f32) (cols : N) (rows : list (list f32)), ft_emb_made SO pf e cols rows -> let v := em_vocab e in
@thm fasttext_model_text_thm WriteRefuted model_text | forall (pf : profile) (T : toml_ops) (S : Type) (SO : storage_ops f32 S) (e : embeddings (toml_table T) (subword_vocab ft_indexer) S f32) (cols : N) (rows : list (list f32)), ft_emb_made SO pf e cols rows ->
@thm fasttext_entry_type_thm WriteRefuted entry_type_text | forall (pf : profile) (T : toml_ops) (S : Type) (SO : storage_ops f32 S) (e : embeddings (toml_table T) (subword_vocab ft_indexer) S f32) (cols : N) (rows : list (list f32)), ft_emb_made SO pf e cols rows ->

Example word2vec_full_ex : st_matrix (nd_ops f32) (em_storage P_Emb.ex_emb) 2 P_Emb.ex_rows /\
  v_words wrap_ops (em_vocab P_Emb.ex_emb) = P_Emb.ex_words /\ map (@lenN _) P_Emb.ex_words = [3; 4] /\
  (exists bytes, run_writer (write_word2vec wrap_ops (nd_ops f32) true P_Emb.ex_emb) 0 = Ok bytes /\ lenN bytes = 31) /\
  map (fun c => mw_text (fst (tell_word2vec wrap_ops (nd_ops f32) true P_Emb.ex_emb (mkSink 0 [] (Some c))))) [3; 4; 8; 15; 16; 17; 31] =
  ["Cannot write word embedding matrix shape"; "Cannot write token"; "Cannot write embedding component"; "Cannot write embedding component";
   "Cannot write embedding separator"; "Cannot write token"; "ok"]%string.
Proof.
  split; [apply (nd_matrix P_Emb.ex_matrix), P_Emb.ex_matrix_wf|]. split; [reflexivity|]. split; [reflexivity|].
  split; [eexists; split; vm_compute; reflexivity|vm_compute; reflexivity].
Qed.
Example text_full_ex : (exists bytes, run_writer (write_text P_Text.ex_P wrap_ops (nd_ops f32) false P_Emb.ex_emb) 0 = Ok bytes) /\
  (exists bytes, run_writer (write_text_dims P_Text.ex_P wrap_ops (nd_ops f32) false P_Emb.ex_emb) 0 = Ok bytes) /\
  map (fun c => mw_text (fst (tell_text_dims P_Text.ex_P wrap_ops (nd_ops f32) false P_Emb.ex_emb (mkSink 0 [] (Some c))))) [3; 4; 1000] =
  ["Cannot write word embedding matrix shape"; "Cannot write word embedding"; "ok"]%string.
Proof. split; [eexists; vm_compute; reflexivity|]. split; [eexists; vm_compute; reflexivity|vm_compute; reflexivity]. Qed.
Example floret_full_ex : let e := P_Text.floret_emb [x3c] [x3e] in
  (exists bytes, run_writer (write_floret_text P_Text.ex_P Debug e) 0 = Ok bytes) /\
  (exists n, sub_vocab_len floret_ops Debug (em_vocab e) = Ok n) /\
  map (fun c => mw_text (fst (tell_floret_text P_Text.ex_P Debug e (mkSink 0 [] (Some c))))) [0; 30; 1000] =
  ["Cannot write floret embeddings metadata"; "Cannot write embedding"; "ok"]%string.
Proof. split; [eexists; vm_compute; reflexivity|]. split; [eexists; vm_compute; reflexivity|vm_compute; reflexivity]. Qed.
Example fasttext_full_ex : ft_emb_made (nd_ops f32) Debug P_FastText.ft_ex 2 P_FastText.ft_rows /\ sv_words (em_vocab P_FastText.ft_ex) = [] ++ [x61] :: [[x62]] /\
  (exists bytes, run_writer (write_fasttext Debug P_FastText.ft_T (nd_ops f32) P_FastText.ft_ex) 0 = Ok bytes /\ lenN bytes = 163) /\
  map (fun c => mw_text (fst (tell_fasttext Debug (nd_ops f32) P_FastText.ft_ex (mkSink 0 [] (Some c))))) [0; 31; 32; 36; 40; 92; 93; 102; 103; 131; 147; 163] =
  ["Cannot write fastText magic"; "Cannot write word n-gram length"; "Cannot write loss function"; "Cannot write loss function"; "Cannot write number of buckets";
   "Cannot write word"; "Cannot write word terminator"; "Cannot read entry type"; "Cannot write word"; "Cannot write embedding"; "Cannot write subword embedding"; "ok"]%string.
Proof.
  split; [apply P_FastText.ft_ex_made|]. split; [reflexivity|]. split; [eexists; split; vm_compute; reflexivity|vm_compute; reflexivity].
Qed.

(** ** C128: a device that is full, and a reader of what is on it *)
@thm layout_thm WriteLayout layout | forall (pf : profile) (T : toml_ops) (e : emb T) (s0 : storage_wrap), emb_built pf T e s0 ->
@thm same_field_thm WriteLayout same_field | forall (pf : profile) (T : toml_ops) (te : str -> str) (e : emb T) (s0 : storage_wrap), toml_law T -> emb_built pf T e s0 ->
Definition mw_read (c : N) : string :=
  mw_text (fst (read_file_d Release P_File.ex_toml (fun _ => [])
    (mkStream (k_out (snd (tell_file P_File.ex_toml (P_File.ex_emb (Some P_File.ex_norms)) (mkSink 3 [] (Some c))))) 3))).
Example same_field_ex : toml_law P_File.ex_toml /\ emb_built Release P_File.ex_toml (P_File.ex_emb (Some P_File.ex_norms)) (SNdArray P_File.ex_matrix) /\
  nth_error (wfile (P_File.ex_emb (Some P_File.ex_norms)) 3) 15 = Some (wd 4 "Cannot write number of buckets") /\
  nth_error (main_fields (P_File.ex_emb (Some P_File.ex_norms)) (SNdArray P_File.ex_matrix) 3) 15 = Some (rd 4 "Cannot read number of buckets") /\
  map mw_read [0; 13; 84; 120; 124; 172; 208; 209] =
  ["Cannot read magic"; "Cannot read chunk identifier"; "Cannot read item"; "Cannot read type identifier"; "Cannot read embedding matrix";
   "Cannot read embedding matrix"; "ok"; "ok"]%string.
Proof. split; [exact P_File.ex_toml_law|]. split; [exact P_File.ex_built_norms|]. split; [vm_compute; reflexivity|]. split; vm_compute; reflexivity. Qed.
