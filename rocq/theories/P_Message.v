(** * Theorems about the texts of errors (C122, C123). *)
From Coq Require Import Strings.String.
From Verif Require Import Base BaseFacts Utf8 Stream StreamFacts F32 ChunkIO Subword Vocab Storage
  Embeddings TextIO FileSpec VocabFacts Messages MessageSpec MessageThms CutTexts MessageWrong.
From Verif Require Import FileFacts FileThms P_File.
Local Open Scope N_scope.

(** ** Files that were cut (C122) *)

(** The readers with texts are the readers of the model. *)
Theorem message_erasure_thm : forall pf T te,
  same (read_file_d pf T te) (read_file pf T) /\ same (mmap_file_d pf T te) (mmap_file pf T).
Proof. exact (@MessageThms.file_erasure). Qed.
Print Assumptions message_erasure_thm.
Theorem message_erasure_view_thm : same read_storage_view_wrap_d read_storage_view_wrap.
Proof. exact (@MessageThms.same_storage_view). Qed.
Print Assumptions message_erasure_view_thm.
Theorem message_erasure_mmap_view_thm : forall pf,
  same (mmap_storage_view_wrap_d pf) (mmap_storage_view_wrap pf).
Proof. exact (@MessageThms.same_mmap_storage_view). Qed.
Print Assumptions message_erasure_mmap_view_thm.
(** The error names the field that was cut. *)
Theorem cut_read_thm : forall (pf : profile) (T : toml_ops) (te : str -> str) (e : emb T) (s0 : storage_wrap), toml_law T -> emb_built pf T e s0 ->
  forall base bytes b i,
  run_writer (write_file T e) base = Ok bytes -> i <= lenN bytes ->
    fields_len (main_fields e s0 base) + fields_len (last_fields e s0 base) = lenN bytes /\
    match missing (main_fields e s0 base) i with
    | Some err => exists s', read_file_d pf T te (mkBroken (takeN i bytes) base b) = (MErr err, s')
    | None => exists s', read_file_d pf T te (mkBroken (takeN i bytes) base b)
        = (MOk (loaded e s0 (match missing (last_fields e s0 base) (i - fields_len (main_fields e s0 base)) with
                             | Some _ => None | None => em_norms e end)), s')
    end.
Proof. exact (@MessageThms.cut_read). Qed.
Print Assumptions cut_read_thm.
Theorem cut_mmap_thm : forall (pf : profile) (T : toml_ops) (te : str -> str) (e : emb T) (s0 : storage_wrap), toml_law T -> emb_built pf T e s0 ->
  forall base bytes b i,
  run_writer (write_file T e) base = Ok bytes -> i <= lenN bytes ->
    fields_len (mapped_fields e s0 base) = fields_len (main_fields e s0 base) /\
    match missing (mapped_fields e s0 base) i with
    | Some err => exists s', mmap_file_d pf T te (mkBroken (takeN i bytes) base b) = (MErr err, s')
    | None => exists x s', mmap_file_d pf T te (mkBroken (takeN i bytes) base b) = (MOk x, s') /\
        unmapped x = unmapped (loaded e (storage_mapped s0)
          (match missing (last_fields e s0 base) (i - fields_len (main_fields e s0 base)) with
           | Some _ => None | None => em_norms e end))
    end.
Proof. exact (@MessageThms.cut_mmap). Qed.
Print Assumptions cut_mmap_thm.
(** What is shown to the user. *)
Theorem cut_texts_thm : forall (T : toml_ops) (e : emb T) s0 base i err,
  missing (main_fields e s0 base) i = Some err \/ missing (mapped_fields e s0 base) i = Some err ->
  exists w, In w cut_texts /\ display err = txt w.
Proof. exact (@CutTexts.cut_known). Qed.
Print Assumptions cut_texts_thm.
Theorem cut_marker_thm : forall v i err,
  let fs := vocab_fields (VFloret v) in
  missing fs i = Some err -> 36 <= i ->
  display err = txt (if i <? 40 + lenN (sv_bow v) then "Cannot read begin of word marker" else "Cannot read end of word marker").
Proof. exact (@CutTexts.cut_marker). Qed.
Print Assumptions cut_marker_thm.

Definition mx_te (s : str) : str := txt "toml error".
Definition mx_file : list byte := file_of (ex_emb (Some ex_norms)) 3.
Definition mx_read (i : N) : mres (emb ex_toml) := fst (read_file_d Release ex_toml mx_te (mkBroken (takeN i mx_file) 3 false)).
Definition mx_mmap (i : N) : mres (emb ex_toml) := fst (mmap_file_d Release ex_toml mx_te (mkBroken (takeN i mx_file) 3 false)).
Definition mx_text {A} (r : mres A) : string :=
  match r with MErr e => string_of_list_byte (display e) | MOk _ => "ok" | MPanic _ => "panic" end.
Example cut_read_ex : toml_law ex_toml /\ emb_built Release ex_toml (ex_emb (Some ex_norms)) (SNdArray ex_matrix) /\
  run_writer (write_file ex_toml (ex_emb (Some ex_norms))) 3 = Ok mx_file /\ lenN mx_file = 209.
Proof. split; [apply ex_toml_law|]. split; [apply ex_built_norms|]. split; vm_compute; reflexivity. Qed.
(** The second word starts at byte 85 and the matrix, after its padding, at
    125; the norms are in the last bytes. *)
Example cut_read_texts_ex : map (fun i => mx_text (mx_read i)) [3; 46; 84; 85; 89; 121; 172; 173; 208] =
  ["Cannot read magic"; "Cannot read vocabulary chunk identifier"; "Cannot read item"; "Cannot read string length";
   "Cannot read item"; "Cannot read embedding matrix"; "Cannot read embedding matrix"; "ok"; "ok"]%string.
Proof. vm_compute. reflexivity. Qed.
Example cut_read_norms_ex : map (fun i => match mx_read i with MOk e => em_norms e | _ => Some [] end) [173; 208; 209] = [None; None; Some ex_norms].
Proof. vm_compute. reflexivity. Qed.
(** Mapping does not notice that the matrix was cut. *)
Example cut_mmap_texts_ex : map (fun i => mx_text (mx_mmap i)) [46; 120; 121; 172; 173] =
  ["Cannot read vocabulary chunk identifier"; "Cannot read type identifier"; "ok"; "ok"; "ok"]%string.
Proof. vm_compute. reflexivity. Qed.

Definition mx_floret : subword_vocab floret_indexer := mkSub (txt "<<") (txt ">") (mkFloretIx 5 0 1) [] [] 3 6.
Example cut_marker_ex : map (fun i => match missing (vocab_fields (VFloret mx_floret)) i with Some e => string_of_list_byte (display e) | None => "ok"%string end) [35; 36; 41; 42; 46; 47] =
  ["Cannot read hasher seed"; "Cannot read begin of word marker"; "Cannot read begin of word marker";
   "Cannot read end of word marker"; "Cannot read end of word marker"; "ok"]%string.
Proof. vm_compute. reflexivity. Qed.

(** ** Wrong contents (C123) *)

(** The text says what was found. *)
Theorem chunk_type_apart_thm : forall id,
  tells_apart (ensure_chunk_type_d id) 4.
Proof. exact (@MessageWrong.chunk_type_apart). Qed.
Print Assumptions chunk_type_apart_thm.
Theorem data_type_apart_thm : forall t,
  tells_apart (ensure_data_type_d t) 4.
Proof. exact (@MessageWrong.data_type_apart). Qed.
Print Assumptions data_type_apart_thm.
Theorem version_apart_thm : forall v1 v2 rest1 rest2 pos1 pos2 b1 b2 e1 e2 t1 t2,
  v1 < two32 -> v2 < two32 -> v1 <> model_version -> v2 <> model_version ->
  read_header_d (mkBroken (magic ++ le_bytes 4 v1 ++ rest1) pos1 b1) = (MErr e1, t1) ->
  read_header_d (mkBroken (magic ++ le_bytes 4 v2 ++ rest2) pos2 b2) = (MErr e2, t2) -> display e1 = display e2 -> v1 = v2.
Proof. exact (@MessageWrong.version_apart). Qed.
Print Assumptions version_apart_thm.
Theorem wrong_version_thm : forall v rest pos b,
  v < two32 -> v <> model_version ->
  exists s', read_header_d (mkBroken (magic ++ le_bytes 4 v ++ rest) pos b) = (MErr (MFormat (txt "Unknown finalfusion version: " ++ dec_print v)), s').
Proof. exact (@MessageWrong.wrong_version). Qed.
Print Assumptions wrong_version_thm.
Theorem wrong_magic_thm : forall m rest pos b,
  lenN m = 4 -> m <> magic ->
  exists s', read_header_d (mkBroken (m ++ rest) pos b) = (MErr (MFormat (txt "Expected 'FiFu' as magic, got: " ++ from_utf8_lossy m)), s').
Proof. exact (@MessageWrong.wrong_magic). Qed.
Print Assumptions wrong_magic_thm.
Theorem magic_apart_partial : forall m1 m2 rest1 rest2 pos1 pos2 b1 b2 e1 e2 t1 t2,
  lenN m1 = 4 -> lenN m2 = 4 -> m1 <> magic -> m2 <> magic -> utf8_valid m1 = true -> utf8_valid m2 = true ->
  read_header_d (mkBroken (m1 ++ rest1) pos1 b1) = (MErr e1, t1) ->
  read_header_d (mkBroken (m2 ++ rest2) pos2 b2) = (MErr e2, t2) -> display e1 = display e2 -> m1 = m2.
Proof. exact (@MessageWrong.magic_apart). Qed.
Print Assumptions magic_apart_partial.
Theorem magic_apart_refuted : exists m1 m2 e t1 t2, lenN m1 = 4 /\ lenN m2 = 4 /\ m1 <> m2 /\
  read_header_d (mkBroken m1 0 false) = (MErr e, t1) /\ read_header_d (mkBroken m2 0 false) = (MErr e, t2).
Proof. exact (@MessageWrong.magic_not_apart). Qed.
Print Assumptions magic_apart_refuted.
(** The text says what was expected. *)
Theorem vocab_lists_thm : forall pf,
  lists_accepted (read_vocab_wrap_d pf).
Proof. exact (@MessageWrong.vocab_lists). Qed.
Print Assumptions vocab_lists_thm.
Theorem storage_lists_thm : lists_accepted read_storage_wrap_d.
Proof. exact (@MessageWrong.storage_lists). Qed.
Print Assumptions storage_lists_thm.
Theorem view_lists_thm : forall pf,
  lists_accepted read_storage_view_wrap_d /\ lists_accepted (mmap_storage_view_wrap_d pf).
Proof. exact (@MessageWrong.view_lists). Qed.
Print Assumptions view_lists_thm.
Theorem mmap_storage_text_partial : forall pf,
  accepts (mmap_storage_wrap_d pf) CNdArray /\ accepts (mmap_storage_wrap_d pf) CQuantizedArray /\
  forall c, c <> CHeader -> c <> CNdArray -> c <> CQuantizedArray -> forall rest pos b,
    fst (mmap_storage_wrap_d pf (mkBroken (le_bytes 4 (chunk_num c) ++ rest) pos b)) = MErr (expected_text [CNdArray] c).
Proof. exact (@MessageWrong.mmap_storage_text). Qed.
Print Assumptions mmap_storage_text_partial.
Theorem mmap_storage_lists_refuted : forall pf,
  ~ lists_accepted (mmap_storage_wrap_d pf).
Proof. exact (@MessageWrong.mmap_storage_not_listed). Qed.
Print Assumptions mmap_storage_lists_refuted.
(** The text says where a word stops to be UTF-8. *)
Theorem bad_word_thm : forall bs rest pos b,
  lenN bs < two32 -> utf8_valid bs = false ->
  exists e s', read_string_d (mkBroken (le_bytes 4 (lenN bs) ++ bs ++ rest) pos b) = (MErr e, s') /\
    points_at (txt "Item contains invalid UTF-8: ") bs e.
Proof. exact (@MessageWrong.bad_word). Qed.
Print Assumptions bad_word_thm.
Theorem bad_ngram_thm : forall bs rest pos b,
  lenN bs < two32 -> utf8_valid bs = false ->
  exists e s', read_ngram_item_d (mkBroken (le_bytes 4 (lenN bs) ++ bs ++ rest) pos b) = (MErr e, s') /\
    points_at (txt "Item contains invalid UTF-8: ") bs e.
Proof. exact (@MessageWrong.bad_ngram). Qed.
Print Assumptions bad_ngram_thm.
Theorem metadata_text_thm : forall (T : toml_ops) te bs rest pos b,
  lenN bs <= isize_max ->
  (utf8_valid bs = false -> exists e s', read_metadata_chunk_d T te (mkBroken (metadata_bytes bs ++ rest) pos b) = (MErr e, s') /\
     points_at (txt "TOML metadata contains invalid UTF-8: ") bs e) /\
  (utf8_valid bs = true -> toml_parse T bs = None ->
     fst (read_metadata_chunk_d T te (mkBroken (metadata_bytes bs ++ rest) pos b)) = MErr (MFormat (txt "Cannot deserialize TOML metadata: " ++ te bs))).
Proof. exact (@MessageWrong.metadata_text). Qed.
Print Assumptions metadata_text_thm.
(** Files without chunks, and numbers of hash functions. *)
Theorem no_chunks_text_thm : forall (T : toml_ops) te (V S : Type) (rv : D V) (rs : D S) rest pos b,
  fst (read_embeddings_d T te rv rs (mkBroken (magic ++ le_bytes 4 model_version ++ le_bytes 4 0 ++ rest) pos b))
  = MErr (MFormat (txt "Embedding file does not contain chunks")) /\
  fst (read_metadata_d T te (mkBroken (magic ++ le_bytes 4 model_version ++ le_bytes 4 0 ++ rest) pos b))
  = MErr (MFormat (txt "Embedding file does not contain chunks")).
Proof. exact (@MessageWrong.no_chunks_text). Qed.
Print Assumptions no_chunks_text_thm.
Theorem floret_hashes_text_thm : forall pf len mn mx buckets hashes rest pos b,
  len < two64 -> mn < two32 -> mx < two32 -> buckets < two64 -> hashes < two32 ->
  (hashes = 0 \/ 4 < hashes) ->
  fst (read_floret_d pf (mkBroken (le_bytes 4 (chunk_num CFloretSubwordVocab) ++ le_bytes 8 len ++ le_bytes 4 mn ++ le_bytes 4 mx
        ++ le_bytes 8 buckets ++ le_bytes 4 hashes ++ rest) pos b))
  = MErr (MRead (txt "Number of hashes should be in be more than 0 and less than 5, was: " ++ dec_print hashes)).
Proof. exact (@MessageWrong.floret_hashes_text). Qed.
Print Assumptions floret_hashes_text_thm.
(** The text does not say which length is which. *)
Theorem quantizer_lengths_thm : forall pf ql rl nc n rest pos b,
  ql < two32 -> rl < two32 -> nc < two32 -> n < two64 -> ql <> 0 -> rl mod ql <> 0 ->
  fst (read_storage_wrap_d (mkBroken (quantizer_bytes ql rl nc n ++ rest) pos b)) = MErr (lengths_text ql rl) /\
  fst (mmap_storage_wrap_d pf (mkBroken (quantizer_bytes ql rl nc n ++ rest) pos b)) = MErr (lengths_text ql rl).
Proof. exact (@MessageWrong.lengths_swapped). Qed.
Print Assumptions quantizer_lengths_thm.
Theorem quantizer_lengths_refuted : exists ql rl nc n, rl mod ql <> 0 /\ ql mod rl = 0 /\
  fst (read_storage_wrap_d (mkBroken (quantizer_bytes ql rl nc n) 0 false)) = MErr (lengths_text ql rl).
Proof. exact (@MessageWrong.lengths_refuted). Qed.
Print Assumptions quantizer_lengths_refuted.

Definition mx_id (n : N) : stream := mkStream (le_bytes 4 n) 0.
Example chunk_type_apart_ex : 4 <= lenN (s_rest (mx_id 7)) /\ 4 <= lenN (s_rest (mx_id 77)) /\
  mx_text (fst (ensure_chunk_type_d CNdArray (mx_id 7))) = "Invalid file format Invalid chunk identifier, expected: NdArray, got: FastTextSubwordVocab"%string /\
  mx_text (fst (ensure_chunk_type_d CNdArray (mx_id 77))) = "Unknown chunk identifier 77"%string.
Proof. split; [discriminate|]. split; [discriminate|]. split; vm_compute; reflexivity. Qed.
Example data_type_apart_ex :
  mx_text (fst (ensure_data_type_d f32_type_id (mx_id 1))) = "Invalid file format Invalid type, expected: 10, got: 1"%string /\
  mx_text (fst (ensure_data_type_d f32_type_id (mx_id 11))) = "Invalid file format Invalid type, expected: 10, got: 11"%string.
Proof. split; vm_compute; reflexivity. Qed.
Example version_apart_ex : 256 < two32 /\ 256 <> model_version /\
  mx_text (fst (read_header_d (mkStream (magic ++ le_bytes 4 256) 0))) = "Invalid file format Unknown finalfusion version: 256"%string.
Proof. split; [reflexivity|]. split; [discriminate|]. vm_compute. reflexivity. Qed.
Example wrong_magic_ex : lenN (txt "FuFi") = 4 /\ txt "FuFi" <> magic /\ utf8_valid (txt "FuFi") = true /\
  mx_text (fst (read_header_d (mkStream (txt "FuFi") 0))) = "Invalid file format Expected 'FiFu' as magic, got: FuFi"%string.
Proof. split; [reflexivity|]. split; [discriminate|]. split; vm_compute; reflexivity. Qed.
Example vocab_lists_ex : mx_text (fst (read_vocab_wrap_d Release (mx_id (chunk_num CNdArray)))) =
  "Invalid file format Invalid chunk identifier, expected one of: SimpleVocab, ExplicitSubwordVocab, FastTextSubwordVocab, FloretSubwordVocab or BucketSubwordVocab, got: NdArray"%string.
Proof. vm_compute. reflexivity. Qed.
Example storage_lists_ex :
  mx_text (fst (read_storage_wrap_d (mx_id (chunk_num CMetadata)))) = "Invalid file format Invalid chunk identifier, expected one of: NdArray or QuantizedArray, got: Metadata"%string /\
  mx_text (fst (mmap_storage_wrap_d Release (mx_id (chunk_num CMetadata)))) = "Invalid file format Invalid chunk identifier, expected: NdArray, got: Metadata"%string.
Proof. split; vm_compute; reflexivity. Qed.
(** "aé" in Latin-1, and the first two bytes of a euro sign. *)
Example bad_word_ex : let item bs := mkStream (le_bytes 4 (lenN bs) ++ bs) 0 in
  utf8_valid [x61; xe9; x62] = false /\ utf8_valid [x61; xe2; x82] = false /\
  mx_text (fst (read_string_d (item [x61; xe9; x62]))) = "Invalid file format Item contains invalid UTF-8: invalid utf-8 sequence of 1 bytes from index 1"%string /\
  mx_text (fst (read_string_d (item [x61; xe2; x82]))) = "Invalid file format Item contains invalid UTF-8: incomplete utf-8 byte sequence from index 1"%string.
Proof. repeat split; vm_compute; reflexivity. Qed.
Example quantizer_lengths_ex : 3 < two32 /\ 8 mod 3 <> 0 /\
  mx_text (fst (read_storage_wrap_d (mkStream (quantizer_bytes 3 8 2 5) 0))) =
  "Invalid file format Reconstructed embedding length (3) not a multiple of the quantized embedding length: (8)"%string.
Proof. split; [reflexivity|]. split; [discriminate|]. vm_compute. reflexivity. Qed.
Example metadata_text_ex : lenN [x61; xff] <= isize_max /\ utf8_valid [x61; xff] = false /\
  mx_text (fst (read_metadata_chunk_d ex_toml mx_te (mkStream (metadata_bytes [x61; xff]) 0))) =
  "Invalid file format TOML metadata contains invalid UTF-8: invalid utf-8 sequence of 1 bytes from index 1"%string /\
  utf8_valid (txt "x = ") = true /\ toml_parse ex_toml (txt "x = ") = None /\
  mx_text (fst (read_metadata_chunk_d ex_toml mx_te (mkStream (metadata_bytes (txt "x = ")) 0))) =
  "Invalid file format Cannot deserialize TOML metadata: toml error"%string.
Proof. split; [discriminate|]. repeat split; vm_compute; reflexivity. Qed.
Example no_chunks_text_ex :
  mx_text (fst (read_file_d Release ex_toml mx_te (mkStream (magic ++ le_bytes 4 model_version ++ le_bytes 4 0 ++ [x00]) 7))) =
  "Invalid file format Embedding file does not contain chunks"%string.
Proof. vm_compute. reflexivity. Qed.
Example floret_hashes_text_ex : mx_text (fst (read_floret_d Release (mkStream (le_bytes 4 (chunk_num CFloretSubwordVocab) ++ le_bytes 8 34
    ++ le_bytes 4 3 ++ le_bytes 4 6 ++ le_bytes 8 5 ++ le_bytes 4 5) 0))) =
  "Number of hashes should be in be more than 0 and less than 5, was: 5"%string.
Proof. vm_compute. reflexivity. Qed.
