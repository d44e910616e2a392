(** * Theorems about the texts of errors (C122, C123). *)
From Coq Require Import Strings.String.
From Verif Require Import Base BaseFacts Utf8 Stream StreamFacts F32 ChunkIO Subword Vocab Storage
  Embeddings TextIO FileSpec VocabFacts Messages MessageSpec MessageThms CutTexts MessageWrong.
From Verif Require Import FileFacts FileThms P_File.
Local Open Scope N_scope.

(** ** Files that were cut (C122) *)

(** The readers with texts are the readers of the model. *)
@thm message_erasure_thm MessageThms file_erasure
@thm message_erasure_view_thm MessageThms same_storage_view
@thm message_erasure_mmap_view_thm MessageThms same_mmap_storage_view
(** The error names the field that was cut. *)
@thm cut_read_thm MessageThms cut_read | forall (pf : profile) (T : toml_ops) (te : str -> str) (e : emb T) (s0 : storage_wrap), toml_law T -> emb_built pf T e s0 ->
@thm cut_mmap_thm MessageThms cut_mmap | forall (pf : profile) (T : toml_ops) (te : str -> str) (e : emb T) (s0 : storage_wrap), toml_law T -> emb_built pf T e s0 ->
(** What is shown to the user. *)
@thm cut_texts_thm CutTexts cut_known
@thm cut_marker_thm CutTexts cut_marker

Definition mx_te (s : str) : str := txt "toml error".
Definition mx_file : list byte := file_of (ex_emb (Some ex_norms)) 3.
Definition mx_read (i : N) : mres (emb ex_toml) := fst (read_file_d Release ex_toml mx_te (mkBroken (takeN i mx_file) 3 false)).
Definition mx_mmap (i : N) : mres (emb ex_toml) := fst (mmap_file_d Release ex_toml mx_te (mkBroken (takeN i mx_file) 3 false)).
Definition mx_text {A} (r : mres A) : string :=
  match r with MErr e => string_of_list_byte (display e) | MOk _ => "ok" | MPanic _ => "panic" end.
Example cut_read_ex : toml_law ex_toml /\ emb_built Release ex_toml (ex_emb (Some ex_norms)) (SNdArray ex_matrix) /\
  run_writer (write_file ex_toml (ex_emb (Some ex_norms))) 3 = Ok mx_file /\ lenN mx_file = 209.
Proof. split; [apply ex_toml_law|]. split; [apply ex_built_norms|]. split; vm_compute; reflexivity. Qed.
(** The second word starts at byte 85 and the matrix, after its padding, at
    125; the norms are in the last bytes. *)
Example cut_read_texts_ex : map (fun i => mx_text (mx_read i)) [3; 46; 84; 85; 89; 121; 172; 173; 208] =
  ["Cannot read magic"; "Cannot read vocabulary chunk identifier"; "Cannot read item"; "Cannot read string length";
   "Cannot read item"; "Cannot read embedding matrix"; "Cannot read embedding matrix"; "ok"; "ok"]%string.
Proof. vm_compute. reflexivity. Qed.
Example cut_read_norms_ex : map (fun i => match mx_read i with MOk e => em_norms e | _ => Some [] end) [173; 208; 209] = [None; None; Some ex_norms].
Proof. vm_compute. reflexivity. Qed.
(** Mapping does not notice that the matrix was cut. *)
Example cut_mmap_texts_ex : map (fun i => mx_text (mx_mmap i)) [46; 120; 121; 172; 173] =
  ["Cannot read vocabulary chunk identifier"; "Cannot read type identifier"; "ok"; "ok"; "ok"]%string.
Proof. vm_compute. reflexivity. Qed.

Definition mx_floret : subword_vocab floret_indexer := mkSub (txt "<<") (txt ">") (mkFloretIx 5 0 1) [] [] 3 6.
Example cut_marker_ex : map (fun i => match missing (vocab_fields (VFloret mx_floret)) i with Some e => string_of_list_byte (display e) | None => "ok"%string end) [35; 36; 41; 42; 46; 47] =
  ["Cannot read hasher seed"; "Cannot read begin of word marker"; "Cannot read begin of word marker";
   "Cannot read end of word marker"; "Cannot read end of word marker"; "ok"]%string.
Proof. vm_compute. reflexivity. Qed.

(** ** Wrong contents (C123) *)

(** The text says what was found. *)
@thm chunk_type_apart_thm MessageWrong chunk_type_apart
@thm data_type_apart_thm MessageWrong data_type_apart
@thm version_apart_thm MessageWrong version_apart
@thm wrong_version_thm MessageWrong wrong_version
@thm wrong_magic_thm MessageWrong wrong_magic
@thm magic_apart_partial MessageWrong magic_apart
@thm magic_apart_refuted MessageWrong magic_not_apart
(** The text says what was expected. *)
@thm vocab_lists_thm MessageWrong vocab_lists
@thm storage_lists_thm MessageWrong storage_lists
@thm view_lists_thm MessageWrong view_lists
@thm mmap_storage_text_partial MessageWrong mmap_storage_text
@thm mmap_storage_lists_refuted MessageWrong mmap_storage_not_listed
(** The text says where a word stops to be UTF-8. *)
@thm bad_word_thm MessageWrong bad_word
@thm bad_ngram_thm MessageWrong bad_ngram
@thm metadata_text_thm MessageWrong metadata_text
(** Files without chunks, and numbers of hash functions. *)
@thm no_chunks_text_thm MessageWrong no_chunks_text
@thm floret_hashes_text_thm MessageWrong floret_hashes_text
(** The text does not say which length is which. *)
@thm quantizer_lengths_thm MessageWrong lengths_swapped
@thm quantizer_lengths_refuted MessageWrong lengths_refuted

Definition mx_id (n : N) : stream := mkStream (le_bytes 4 n) 0.
Example chunk_type_apart_ex : 4 <= lenN (s_rest (mx_id 7)) /\ 4 <= lenN (s_rest (mx_id 77)) /\
  mx_text (fst (ensure_chunk_type_d CNdArray (mx_id 7))) = "Invalid file format Invalid chunk identifier, expected: NdArray, got: FastTextSubwordVocab"%string /\
  mx_text (fst (ensure_chunk_type_d CNdArray (mx_id 77))) = "Unknown chunk identifier 77"%string.
Proof. split; [discriminate|]. split; [discriminate|]. split; vm_compute; reflexivity. Qed.
Example data_type_apart_ex :
  mx_text (fst (ensure_data_type_d f32_type_id (mx_id 1))) = "Invalid file format Invalid type, expected: 10, got: 1"%string /\
  mx_text (fst (ensure_data_type_d f32_type_id (mx_id 11))) = "Invalid file format Invalid type, expected: 10, got: 11"%string.
Proof. split; vm_compute; reflexivity. Qed.
Example version_apart_ex : 256 < two32 /\ 256 <> model_version /\
  mx_text (fst (read_header_d (mkStream (magic ++ le_bytes 4 256) 0))) = "Invalid file format Unknown finalfusion version: 256"%string.
Proof. split; [reflexivity|]. split; [discriminate|]. vm_compute. reflexivity. Qed.
Example wrong_magic_ex : lenN (txt "FuFi") = 4 /\ txt "FuFi" <> magic /\ utf8_valid (txt "FuFi") = true /\
  mx_text (fst (read_header_d (mkStream (txt "FuFi") 0))) = "Invalid file format Expected 'FiFu' as magic, got: FuFi"%string.
Proof. split; [reflexivity|]. split; [discriminate|]. split; vm_compute; reflexivity. Qed.
Example vocab_lists_ex : mx_text (fst (read_vocab_wrap_d Release (mx_id (chunk_num CNdArray)))) =
  "Invalid file format Invalid chunk identifier, expected one of: SimpleVocab, ExplicitSubwordVocab, FastTextSubwordVocab, FloretSubwordVocab or BucketSubwordVocab, got: NdArray"%string.
Proof. vm_compute. reflexivity. Qed.
Example storage_lists_ex :
  mx_text (fst (read_storage_wrap_d (mx_id (chunk_num CMetadata)))) = "Invalid file format Invalid chunk identifier, expected one of: NdArray or QuantizedArray, got: Metadata"%string /\
  mx_text (fst (mmap_storage_wrap_d Release (mx_id (chunk_num CMetadata)))) = "Invalid file format Invalid chunk identifier, expected: NdArray, got: Metadata"%string.
Proof. split; vm_compute; reflexivity. Qed.
(** "aé" in Latin-1, and the first two bytes of a euro sign. *)
Example bad_word_ex : let item bs := mkStream (le_bytes 4 (lenN bs) ++ bs) 0 in
  utf8_valid [x61; xe9; x62] = false /\ utf8_valid [x61; xe2; x82] = false /\
  mx_text (fst (read_string_d (item [x61; xe9; x62]))) = "Invalid file format Item contains invalid UTF-8: invalid utf-8 sequence of 1 bytes from index 1"%string /\
  mx_text (fst (read_string_d (item [x61; xe2; x82]))) = "Invalid file format Item contains invalid UTF-8: incomplete utf-8 byte sequence from index 1"%string.
Proof. repeat split; vm_compute; reflexivity. Qed.
Example quantizer_lengths_ex : 3 < two32 /\ 8 mod 3 <> 0 /\
  mx_text (fst (read_storage_wrap_d (mkStream (quantizer_bytes 3 8 2 5) 0))) =
  "Invalid file format Reconstructed embedding length (3) not a multiple of the quantized embedding length: (8)"%string.
Proof. split; [reflexivity|]. split; [discriminate|]. vm_compute. reflexivity. Qed.
Example metadata_text_ex : lenN [x61; xff] <= isize_max /\ utf8_valid [x61; xff] = false /\
  mx_text (fst (read_metadata_chunk_d ex_toml mx_te (mkStream (metadata_bytes [x61; xff]) 0))) =
  "Invalid file format TOML metadata contains invalid UTF-8: invalid utf-8 sequence of 1 bytes from index 1"%string /\
  utf8_valid (txt "x = ") = true /\ toml_parse ex_toml (txt "x = ") = None /\
  mx_text (fst (read_metadata_chunk_d ex_toml mx_te (mkStream (metadata_bytes (txt "x = ")) 0))) =
  "Invalid file format Cannot deserialize TOML metadata: toml error"%string.
Proof. split; [discriminate|]. repeat split; vm_compute; reflexivity. Qed.
Example no_chunks_text_ex :
  mx_text (fst (read_file_d Release ex_toml mx_te (mkStream (magic ++ le_bytes 4 model_version ++ le_bytes 4 0 ++ [x00]) 7))) =
  "Invalid file format Embedding file does not contain chunks"%string.
Proof. vm_compute. reflexivity. Qed.
Example floret_hashes_text_ex : mx_text (fst (read_floret_d Release (mkStream (le_bytes 4 (chunk_num CFloretSubwordVocab) ++ le_bytes 8 34
    ++ le_bytes 4 3 ++ le_bytes 4 6 ++ le_bytes 8 5 ++ le_bytes 4 5) 0))) =
  "Number of hashes should be in be more than 0 and less than 5, was: 5"%string.
Proof. vm_compute. reflexivity. Qed.
