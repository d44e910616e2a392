(** * Theorems about the texts of errors in other formats (C124). *)
From Coq Require Import Strings.String.
From Verif Require Import Base BaseFacts Utf8 Stream StreamFacts F32 F32Text ChunkIO Subword Vocab Storage
  Embeddings TextIO FastText FileSpec EmbSpec TextSpec TextFacts FastTextSpec Messages MessageSpec MessageWrong
  CompatMessages CompatErasure CompatTexts CompatLines CompatCut FastTextThms CompatFastText CompatRefuted CompatDevice VocabSpec.
From Verif Require P_Emb P_File P_FastText.
Local Open Scope N_scope.

(** The readers with texts are the readers of the model. *)
@thm compat_erasure_thm CompatErasure compat_erasure
(** Numbers: the text shows the field and says why it is not a number. *)
@thm bad_number_thm CompatTexts bad_number
@thm bad_number_apart_thm CompatTexts number_text_inj
@thm bad_number_end_partial CompatTexts bad_number_end
@thm bad_number_shown_refuted CompatRefuted number_shown_not
(** Lines: the text is about the first one that is wrong. *)
@thm text_bad_line_thm CompatLines text_first_bad | forall (P : ftext_ops) (pf : profile) (Md : Type), let text_fails := @CompatLines.text_fails Md in
@thm text_dims_bad_line_thm CompatLines text_dims_first_bad | forall (P : ftext_ops) (pf : profile) (Md : Type), let text_fails := @CompatLines.text_fails Md in
@thm floret_bad_line_thm CompatLines floret_first_bad | forall (P : ftext_ops) (pf : profile) (Md : Type), let floret_fails := @CompatLines.floret_fails P pf Md in
(** Sizes: the text shows what was expected and what was found. *)
@thm text_dims_sizes_partial CompatLines text_dims_sizes | forall (P : ftext_ops) (pf : profile) (Md : Type), let text_fails := @CompatLines.text_fails Md in
@thm text_dims_shown_refuted CompatRefuted dims_shown_not
@thm floret_params_text_partial CompatLines floret_params_text | forall (P : ftext_ops) (pf : profile) (Md : Type), let floret_fails := @CompatLines.floret_fails P pf Md in
@thm floret_hashes_shown_refuted CompatRefuted hashes_shown_not
@thm floret_count_text_thm CompatLines floret_count_text | forall (P : ftext_ops) (pf : profile) (Md : Type), let floret_fails := @CompatLines.floret_fails P pf Md in
(** Files that were cut: the text names the field, except for words, where it
    is about what follows or about UTF-8. *)
@thm word2vec_cut_partial CompatCut w2v_cut
@thm cut_word_thm CompatCut cut_error_is
@thm fasttext_cut_partial CompatFastText ft_cut | forall (pf : profile) (T : toml_ops) (config_table : ft_config -> option (toml_table T)) (table_error : ft_config -> str), let reads_t := read_fasttext_t pf T config_table table_error in
@thm fasttext_word_cut_thm CompatRefuted word_cut
@thm fasttext_word_cut_refuted CompatRefuted word_cut_not
(** Devices that fail. *)
@thm header_device_thm CompatDevice header_device | forall (P : ftext_ops) (pf : profile) (Md : Type),
@thm floret_header_device_thm CompatDevice floret_header_device | forall (P : ftext_ops) (pf : profile) (Md : Type),
@thm text_device_thm CompatDevice text_device | forall (P : ftext_ops) (pf : profile) (Md : Type),
@thm floret_device_thm CompatDevice floret_device | forall (P : ftext_ops) (pf : profile) (Md : Type),
(** Models that are not supported: the text says why. *)
@thm fasttext_wrong_start_thm CompatFastText ft_wrong_start | forall (pf : profile) (T : toml_ops) (config_table : ft_config -> option (toml_table T)) (table_error : ft_config -> str), let ft_fails := CompatFastText.ft_fails pf T config_table table_error in
@thm fasttext_wrong_config_thm CompatFastText ft_wrong_config | forall (pf : profile) (T : toml_ops) (config_table : ft_config -> option (toml_table T)) (table_error : ft_config -> str), let ft_fails := CompatFastText.ft_fails pf T config_table table_error in
@thm fasttext_wrong_vocab_thm CompatFastText ft_wrong_vocab | forall (pf : profile) (T : toml_ops) (config_table : ft_config -> option (toml_table T)) (table_error : ft_config -> str), let ft_fails := CompatFastText.ft_fails pf T config_table table_error in
@thm fasttext_wrong_rows_thm CompatDevice ft_wrong_rows | forall (pf : profile) (T : toml_ops) (config_table : ft_config -> option (toml_table T)) (table_error : ft_config -> str),
@thm fasttext_no_metadata_thm CompatDevice ft_no_metadata
@thm fasttext_version_refuted CompatRefuted version_expected_not

Definition mo_text {A} (r : mres A) : string :=
  match r with MErr e => string_of_list_byte (display e) | MOk _ => "ok" | MPanic _ => "panic" end.
Definition nl : list byte := [x0a].

Example bad_number_ex : Forall (fun f => ~ In x20 f /\ ~ is_number f) [[]; txt "1x"; txt "+"; txt "18446744073709551616x"] /\
  map (fun f => mo_text (fst (read_number_t x20 (mkStream (f ++ [x20]) 0)))) [[]; txt "1x"; txt "+"; txt "18446744073709551616x"; txt "18446744073709551615"] =
  ["Invalid file format Cannot parse shape component '': cannot parse integer from empty string";
   "Invalid file format Cannot parse shape component '1x': invalid digit found in string";
   "Invalid file format Cannot parse shape component '+': invalid digit found in string";
   "Invalid file format Cannot parse shape component '18446744073709551616x': number too large to fit in target type"; "ok"]%string.
Proof.
  split; [|vm_compute; reflexivity].
  apply Forall_forall. intros f H. split.
  - repeat (destruct H as [<-|H]; [cbv; intuition discriminate|]). destruct H.
  - intros (n & E). apply dec_parse_spec in E. repeat (destruct H as [<-|H]; [vm_compute in E; discriminate|]). destruct H.
Qed.
Example bad_number_end_ex : ~ In x0a (txt "12a" ++ [x62]) /\ utf8_valid (txt "12a") = true /\ ~ is_number (txt "12a").
Proof.
  split; [vm_compute; intuition discriminate|]. split; [reflexivity|]. intros (n & H). apply dec_parse_spec in H. vm_compute in H. discriminate.
Qed.
Example bad_number_apart_ex : number_reason (txt "1x") (txt "invalid digit found in string") /\ number_reason [] (txt "cannot parse integer from empty string").
Proof.
  split; [|left; auto]. right. right. split; [discriminate|]. split; [|reflexivity]. intros T. apply number_error_big in T. vm_compute in T. discriminate.
Qed.

Lemma mo_bad lossy l : text_line rust_ftext lossy l = Err EFormat -> forall it, ~ line_item rust_ftext lossy l it.
Proof. intros E it H. apply text_line_item in H. congruence. Qed.
Definition mo_lines : list byte := txt "a 1" ++ nl ++ txt "b 1 x y" ++ nl ++ nl.
Definition mo_read (data : list byte) : string := mo_text (fst (read_text_t (Md := unit) rust_ftext Release false (mkStream data 0))).
Example text_bad_line_ex : lines mo_lines ([txt "a 1"] ++ txt "b 1 x y" :: [[]]) /\
  (exists it, line_item rust_ftext false (txt "a 1") it) /\ (forall it, ~ line_item rust_ftext false (txt "b 1 x y") it) /\
  map mo_read [mo_lines; txt "a 1" ++ nl ++ nl ++ txt "b x"; txt "a 1" ++ nl ++ [x62; xff]] =
  ["Invalid file format Cannot parse vector component 'x': invalid float literal"; "Invalid file format Spurious empty line";
   "Invalid file format Token contains invalid UTF-8: invalid utf-8 sequence of 1 bytes from index 1"]%string.
Proof.
  split; [|split; [|split]].
  - apply (lines_cons (txt "a 1")); [vm_compute; intuition discriminate|]. apply (lines_cons (txt "b 1 x y")); [vm_compute; intuition discriminate|].
    apply (lines_cons [] []); [intros []|constructor].
  - eexists. apply text_line_item. vm_compute. reflexivity.
  - apply mo_bad. vm_compute. reflexivity.
  - vm_compute. reflexivity.
Qed.
Lemma mo_header f g n d rest : dec_parse f = Some n -> dec_parse g = Some d -> header_line (f ++ x20 :: g ++ x0a :: rest) n d rest.
Proof. intros H1 H2. apply dec_parse_spec in H1 as [], H2 as []. exists f, g. auto. Qed.
Definition mo_dims (data : list byte) : string := mo_text (fst (read_text_dims_t (Md := unit) rust_ftext Release false (mkStream data 0))).
Example text_dims_bad_line_ex : header_line (txt "3 1" ++ nl ++ mo_lines) 3 1 mo_lines /\ dims_fit 3 1.
Proof. split; [apply (mo_header (txt "3") (txt "1")); reflexivity|split; vm_compute; discriminate]. Qed.
Definition mo_rest : list byte := txt "a 1" ++ nl ++ txt "b 1" ++ nl.
Definition mo_items : list (str * list f32) := [(txt "a", [one32]); (txt "b", [one32])].
Example text_dims_sizes_ex : text_items rust_ftext false mo_rest mo_items /\
  header_line (txt "3 1" ++ nl ++ mo_rest) 3 1 mo_rest /\ dims_fit 3 1 /\ lenN mo_items <> 3 /\
  map mo_dims [txt "3 1" ++ nl ++ mo_rest; txt "2 2" ++ nl ++ mo_rest; txt "2 1" ++ nl ++ mo_rest; txt "2 1" ++ nl ++ txt "a 1" ++ nl ++ txt "b 1 1" ++ nl] =
  ["Invalid file format Incorrect vocabulary size, expected: 3, got: 2";
   "Invalid file format Incorrect embedding dimensionality, expected: 2, got: 1"; "ok"; "Cannot construct matrix with the given shape"]%string.
Proof.
  split; [|split; [|split; [|split]]].
  - exists [txt "a 1"; txt "b 1"]. split.
    + apply (lines_cons (txt "a 1")); [vm_compute; intuition discriminate|]. apply (lines_cons (txt "b 1") []); [vm_compute; intuition discriminate|constructor].
    + constructor; [|constructor; [|constructor]]; apply text_line_item; vm_compute; reflexivity.
  - apply (mo_header (txt "3") (txt "1")); reflexivity.
  - split; vm_compute; discriminate.
  - discriminate.
  - vm_compute. reflexivity.
Qed.

Definition mo_floret (data : list byte) : string := mo_text (fst (read_floret_text_t (Md := unit) rust_ftext Release (mkStream data 0))).
Definition mo_head (fs : list str) : list byte := concat (map (fun f => f ++ [x20]) fs) ++ txt "< >" ++ nl.
Lemma mo_floret_head a b c d e f na nb nc nd ne nf rest : Forall2 (fun s n => dec_parse s = Some n) [a; b; c; d; e; f] [na; nb; nc; nd; ne; nf] ->
  floret_head (mo_head [a; b; c; d; e; f] ++ rest) na nb nc nd ne nf (txt "<") (txt ">") rest.
Proof.
  intros H. repeat match goal with H : Forall2 _ (_ :: _) _ |- _ => inversion H; clear H; subst end.
  repeat match goal with H : dec_parse _ = Some _ |- _ => apply dec_parse_spec in H as [] end.
  exists a, b, c, d, e, f. do 6 (split; [assumption|]). split; [repeat constructor; assumption|].
  split; [vm_compute; intuition discriminate|]. split; [reflexivity|]. split; [vm_compute; intuition discriminate|]. split; [reflexivity|].
  unfold mo_head. cbn [map concat]. rewrite <- !app_assoc. reflexivity.
Qed.
Definition mo_fl (a b c d e f : string) : list byte := mo_head [txt a; txt b; txt c; txt d; txt e; txt f].
Example floret_params_text_ex :
  floret_head (mo_fl "2" "1" "7" "6" "2" "5") 2 1 7 6 2 5 (txt "<") (txt ">") [] /\
  map mo_floret [mo_fl "0" "1" "3" "6" "2" "5"; mo_fl "2" "0" "3" "6" "2" "5"; mo_fl "2" "1" "7" "6" "2" "5"; mo_fl "2" "1" "3" "6" "5" "5"] =
  ["Invalid file format Expected at least 1 bucket"; "Invalid file format Embeddings should have at least 1 dimension";
   "Invalid file format The minimum n-gram length (7) must not be larger than the maximum length (6)";
   "Invalid file format The number of hashes should be between 1 and 4 (inclusive), was: 5"]%string.
Proof.
  split; [|vm_compute; reflexivity]. unfold mo_fl. rewrite <- (app_nil_r (mo_head _)). apply mo_floret_head.
  repeat constructor.
Qed.
Example floret_bad_line_ex : let good := txt "0 1" in let bad := txt "1 1 1" in
  floret_head (mo_fl "2" "1" "3" "6" "2" "5" ++ good ++ nl ++ bad) 2 1 3 6 2 5 (txt "<") (txt ">") (good ++ nl ++ bad) /\
  params_ok 2 1 3 6 2 /\ lines (good ++ nl ++ bad) ([good] ++ bad :: []) /\ floret_row rust_ftext 1 good [one32] /\
  (forall v, ~ floret_row rust_ftext 1 bad v) /\
  map (fun l => mo_floret (mo_fl "2" "1" "3" "6" "2" "5" ++ good ++ nl ++ l)) [bad; []; txt "1 x"; [x31; x20; xff]; txt "1 1"] =
  ["Invalid file format Incorrect number of embedding components, expected: 1, got: 2"; "Cannot construct matrix with the given shape";
   "Invalid file format Cannot parse vector component 'x': invalid float literal"; "Cannot read line"; "ok"]%string.
Proof.
  cbv zeta. split; [apply mo_floret_head; repeat constructor|]. split; [repeat split; vm_compute; discriminate|]. split; [|split; [|split]].
  - apply (lines_cons (txt "0 1")); [vm_compute; intuition discriminate|]. apply lines_last; [discriminate|vm_compute; intuition discriminate].
  - apply FloretThms.floret_line_row; [discriminate|]. vm_compute. reflexivity.
  - intros v H. apply FloretThms.floret_line_row in H; [|discriminate]. vm_compute in H. discriminate.
  - vm_compute. reflexivity.
Qed.
Example floret_count_text_ex : floret_rows rust_ftext 1 (txt "0 1") [[one32]] /\ params_ok 2 1 3 6 2 /\ lenN [[one32]] <> 2.
Proof.
  split; [|split; [repeat split; vm_compute; discriminate|discriminate]]. exists [txt "0 1"]. split.
  - apply lines_last; [discriminate|vm_compute; intuition discriminate].
  - constructor; [|constructor]. apply FloretThms.floret_line_row; [discriminate|]. vm_compute. reflexivity.
Qed.

Definition mo_w2v : list (list byte * list f32) := [(txt "a", [one32; one32]); ([x62; xc3; xa9], [one32; one32])].
Definition mo_w2v_file : list byte := txt "2 2" ++ nl ++ w2v_bytes mo_w2v.
Example word2vec_cut_ex : header_line mo_w2v_file 2 2 (w2v_bytes mo_w2v) /\ binary_fits 2 2 /\
  Forall (fun it => ~ In x20 (fst it) /\ (false = false -> utf8_valid (fst it) = true) /\ lenN (snd it) = 2) mo_w2v /\
  lenN (w2v_bytes mo_w2v) = 22 /\
  map (fun i => mo_text (fst (read_word2vec_t (Md := unit) Release false (mkStream (takeN (4 + i) mo_w2v_file) 0)))) [0; 1; 9; 10; 12; 13; 21; 22] =
  ["Cannot read word embedding"; "Cannot read word embedding"; "Cannot read word embedding"; "Cannot read word embedding";
   "Cannot read word embedding"; "Invalid file format Token contains invalid UTF-8: incomplete utf-8 byte sequence from index 1"; "Cannot read word embedding"; "ok"]%string.
Proof.
  split; [apply (mo_header (txt "2") (txt "2")); reflexivity|]. split; [split; [split|]; vm_compute; discriminate|]. split.
  - constructor; [|constructor; [|constructor]]; (split; [cbv; intuition discriminate|]; split; reflexivity).
  - split; vm_compute; reflexivity.
Qed.

(** fastText: the model of [P_FastText] with two words. *)
Definition mo_ft : ft_file := P_FastText.ft_ex_file 2 3 6 [[x61]; [x62]] 0 P_FastText.ft_ex_rows.
Definition mo_ft_read (data : list byte) : string :=
  mo_text (fst (read_fasttext_t Release P_FastText.ft_T P_FastText.ft_table (fun _ => []) false (mkStream data 0))).
Example fasttext_cut_ex : ft_fields_ok mo_ft /\ ft_supported mo_ft /\ ft_config_is mo_ft (P_FastText.ft_ex_config 2 3 6) /\
  ft_words false mo_ft [[x61]; [x62]] /\ ft_matrix_ok (ff_matrix mo_ft).
Proof.
  destruct (P_FastText.ft_ex_file_ok 2 3 6 0 P_FastText.ft_ex_rows) as (H1 & H2 & H3 & H4); [reflexivity..|].
  split; [exact H1|]. split; [exact H2|]. split; [exact H3|]. split; [exact H4|].
  split; [repeat constructor|]; split; [reflexivity|]; split; [reflexivity|]; split; vm_compute; discriminate.
Qed.
Example fasttext_cut_texts_ex : lenN (ft_bytes mo_ft) = 147 /\ map (fun i => mo_ft_read (takeN i (ft_bytes mo_ft))) [0; 7; 34; 64; 92; 93; 94; 102; 103; 114; 116; 124; 146; 147] =
  ["Cannot fastText read magic"; "Cannot read fastText version"; "Cannot read loss type"; "Cannot read vocabulary size";
   "Cannot read word frequency"; "Cannot read word frequency"; "Cannot read word frequency"; "Cannot read entry type"; "Cannot read word frequency";
   "Cannot read quantization information"; "Cannot read number of embedding matrix rows"; "Cannot read number of embedding matrix columns";
   "Cannot read embeddings"; "ok"]%string.
Proof. split; vm_compute; reflexivity. Qed.
Example fasttext_word_cut_ex : utf8_valid [x61; xc3; xa9] = true /\ ~ In x00 [x61; xc3; xa9] /\
  map (fun i => mo_text (fst (read_ft_entry_t false (mkStream (takeN i [x61; xc3; xa9]) 0)))) [0; 1; 2; 3] =
  ["Cannot read word frequency"; "Cannot read word frequency"; "Cannot read word frequency";
   "Invalid file format Token contains invalid UTF-8: incomplete utf-8 byte sequence from index 1"]%string.
Proof. split; [reflexivity|]. split; [vm_compute; intuition discriminate|vm_compute; reflexivity]. Qed.
Definition mo_ft_with (magic version loss model labels prune kind quant : N) : ft_file :=
  mkFtFile magic version [1; 5; 5; 5; 5; 1; loss; model; 2; 3; 6; 100] 0 1 labels 9 prune [([x61], 1, kind)] quant (mkA2 1 []).
Lemma mo_fields_ok a b c d e f g h : a < two32 -> b < two32 -> c < two32 -> d < two32 -> e < two32 -> f < two64 -> g < 256 -> h < 256 ->
  ft_fields_ok (mo_ft_with a b c d e f g h).
Proof.
  intros. unfold ft_fields_ok. cbn [mo_ft_with ff_magic ff_version ff_numbers ff_threshold ff_nwords ff_nlabels ff_tokens ff_prune ff_entries ff_quant].
  split; [repeat (constructor; [first [assumption|reflexivity]|]); constructor|]. split; [reflexivity|]. split; [reflexivity|].
  split; [repeat (constructor; [first [assumption|reflexivity]|]); constructor|]. split; [reflexivity|]. split; [assumption|]. split; [|assumption].
  constructor; [|constructor]. repeat split; try assumption; cbn; intuition discriminate.
Qed.
Example fasttext_wrong_ex : Forall ft_fields_ok [mo_ft_with 1 12 2 2 0 (2 ^ 64 - 1) 0 0; mo_ft_with 793712314 13 2 2 0 (2 ^ 64 - 1) 0 0;
    mo_ft_with 793712314 12 4 2 0 (2 ^ 64 - 1) 0 0; mo_ft_with 793712314 12 2 0 0 (2 ^ 64 - 1) 0 0] /\
  entry_bad false ([x61], 1, 1) /\
  map (fun f => mo_ft_read (ft_bytes f))
    [mo_ft_with 1 13 4 4 1 0 1 1; mo_ft_with 793712314 13 4 4 1 0 1 1; mo_ft_with 793712314 12 4 4 1 0 1 1; mo_ft_with 793712314 12 2 4 1 0 1 1;
     mo_ft_with 793712314 12 2 2 1 0 1 1; mo_ft_with 793712314 12 2 2 0 0 1 1; mo_ft_with 793712314 12 2 2 0 (2 ^ 64 - 1) 1 1;
     mo_ft_with 793712314 12 2 2 0 (2 ^ 64 - 1) 0 1] =
  ["Invalid file format Expected 793712314 as magic, got: 1"; "Invalid file format Expected 12 as version, got: 13";
   "Invalid file format Unknown loss: 4"; "Invalid file format Unknown model: 4"; "Invalid file format fastText prediction models are not supported";
   "Invalid file format Pruned vocabularies are not supported"; "Invalid file format Non-word entry"; "Invalid file format Quantized fastText models are not supported"]%string.
Proof.
  split; [|split; [left; discriminate|vm_compute; reflexivity]].
  repeat (constructor; [apply mo_fields_ok; reflexivity|]). constructor.
Qed.

(** A device that fails in the header, or in the second line. *)
Example header_device_ex : header_line (txt "3 1" ++ nl ++ mo_rest) 3 1 mo_rest /\ lenN (txt "3 1" ++ nl ++ mo_rest) - lenN mo_rest = 4 /\
  map (fun i => mo_text (fst (read_text_dims_t (Md := unit) rust_ftext Release false (mkBroken (takeN i (txt "3 1" ++ nl ++ mo_rest)) 0 true)))) [0; 1; 2; 3; 4] =
  ["Cannot read string"; "Cannot read string"; "Cannot read string"; "Cannot read string"; "Cannot read line from embedding file"]%string.
Proof. split; [apply (mo_header (txt "3") (txt "1")); reflexivity|split; vm_compute; reflexivity]. Qed.
Example floret_header_device_ex : floret_head (mo_fl "2" "1" "3" "6" "2" "5") 2 1 3 6 2 5 (txt "<") (txt ">") [] /\ lenN (mo_fl "2" "1" "3" "6" "2" "5") = 16 /\
  map (fun i => mo_text (fst (read_floret_text_t (Md := unit) rust_ftext Release (mkBroken (takeN i (mo_fl "2" "1" "3" "6" "2" "5")) 0 true)))) [0; 15; 16] =
  ["Cannot read string"; "Cannot read string"; "Cannot read line"]%string.
Proof.
  split; [|split; vm_compute; reflexivity]. unfold mo_fl. rewrite <- (app_nil_r (mo_head _)). apply mo_floret_head. repeat constructor.
Qed.
Example text_device_ex : Forall (fun l => ~ In x0a l /\ exists it, line_item rust_ftext false l it) [txt "a 1"] /\ ~ In x0a (txt "b") /\
  mo_text (fst (read_text_t (Md := unit) rust_ftext Release false (mkBroken (ended [txt "a 1"] ++ txt "b") 0 true))) = "Cannot read line from embedding file"%string.
Proof.
  split; [|split; [cbv; intuition discriminate|vm_compute; reflexivity]]. constructor; [|constructor]. split; [cbv; intuition discriminate|].
  eexists. apply text_line_item. vm_compute. reflexivity.
Qed.
Example floret_device_ex : Forall (fun l => ~ In x0a l /\ exists v, floret_row rust_ftext 1 l v) [txt "0 1"] /\ params_ok 2 1 3 6 2 /\
  floret_head (mo_fl "2" "1" "3" "6" "2" "5" ++ ended [txt "0 1"] ++ txt "1") 2 1 3 6 2 5 (txt "<") (txt ">") (ended [txt "0 1"] ++ txt "1").
Proof.
  split; [|split; [repeat split; vm_compute; discriminate|apply mo_floret_head; repeat constructor]]. constructor; [|constructor]. split; [cbv; intuition discriminate|].
  exists [one32]. apply FloretThms.floret_line_row; [discriminate|]. vm_compute. reflexivity.
Qed.
(** A row too many; metadata that cannot be serialized. *)
Example fasttext_wrong_rows_ex : let f := P_FastText.ft_ex_file 1 3 6 [[x61]; [x62]] 0 P_FastText.ft_ex_rows in
  ft_fields_ok f /\ ft_supported f /\ ft_config_is f (P_FastText.ft_ex_config 1 3 6) /\ ft_words false f [[x61]; [x62]] /\
  lenN (a2_rows (ff_matrix f)) <> lenN [[x61]; [x62]] + 1 /\
  mo_ft_read (ft_bytes f) = "Cannot construct matrix with the given shape"%string.
Proof.
  intros f. destruct (P_FastText.ft_ex_file_ok 1 3 6 0 P_FastText.ft_ex_rows) as (H1 & H2 & H3 & H4); [reflexivity..|].
  split; [exact H1|]. split; [exact H2|]. split; [exact H3|]. split; [exact H4|]. split; [discriminate|vm_compute; reflexivity].
Qed.
Example fasttext_no_metadata_ex : fc_bucket (P_FastText.ft_ex_config 2 3 6) = 2 /\ lenN (a2_rows (ff_matrix mo_ft)) = lenN [[x61]; [x62]] + 2 /\
  mo_text (fst (read_fasttext_t Release P_FastText.ft_T (fun _ => None) (fun _ => txt "no") false (mkStream (ft_bytes mo_ft) 0))) =
  "Invalid file format Cannot serialize model metadata to TOML: no"%string.
Proof. split; [reflexivity|split; vm_compute; reflexivity]. Qed.
