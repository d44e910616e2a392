(** * Theorems about the texts of errors in other formats (C124). *)
From Coq Require Import Strings.String.
From Verif Require Import Base BaseFacts Utf8 Stream StreamFacts F32 F32Text ChunkIO Subword Vocab Storage
  Embeddings TextIO FastText FileSpec EmbSpec TextSpec TextFacts FastTextSpec Messages MessageSpec MessageWrong
  CompatMessages CompatErasure CompatTexts CompatLines CompatCut FastTextThms CompatFastText CompatRefuted CompatDevice VocabSpec.
From Verif Require P_Emb P_File P_FastText.
Local Open Scope N_scope.

(** The readers with texts are the readers of the model. *)
Theorem compat_erasure_thm : forall (P : ftext_ops) (pf : profile) (Md : Type) (T : toml_ops) (ct : ft_config -> option (toml_table T))
  (te : ft_config -> str) (lossy : bool),
  same (@read_text_t P pf Md lossy) (read_text P pf lossy) /\
  same (@read_text_dims_t P pf Md lossy) (read_text_dims P pf lossy) /\
  same (@read_word2vec_t pf Md lossy) (read_word2vec pf lossy) /\
  same (@read_floret_text_t P pf Md) (read_floret_text P pf) /\
  same (read_fasttext_t pf T ct te lossy) (read_fasttext pf T ct lossy).
Proof. exact (@CompatErasure.compat_erasure). Qed.
Print Assumptions compat_erasure_thm.
(** Numbers: the text shows the field and says why it is not a number. *)
Theorem bad_number_thm : forall d f rest pos b,
  ~ In d f -> ~ is_number f ->
  exists e s', read_number_t d (mkBroken (f ++ d :: rest) pos b) = (MErr e, s') /\
  (utf8_valid f = false /\ points_at (txt "Token contains invalid UTF-8: ") f e \/
   utf8_valid f = true /\ exists r, number_reason f r /\ display e = number_text f r).
Proof. exact (@CompatTexts.bad_number). Qed.
Print Assumptions bad_number_thm.
Theorem bad_number_apart_thm : forall f g r q,
  number_reason f r -> number_reason g q -> number_text f r = number_text g q -> f = g.
Proof. exact (@CompatTexts.number_text_inj). Qed.
Print Assumptions bad_number_apart_thm.
Theorem bad_number_end_partial : forall d f x pos,
  ~ In d (f ++ [x]) -> utf8_valid f = true -> ~ is_number f ->
  exists e s' r, read_number_t d (mkStream (f ++ [x]) pos) = (MErr e, s') /\ number_reason f r /\ display e = number_text f r.
Proof. exact (@CompatTexts.bad_number_end). Qed.
Print Assumptions bad_number_end_partial.
Theorem bad_number_shown_refuted : exists f g e s', ~ is_number f /\ ~ In x0a f /\ g <> f /\
  read_number_t x0a (mkStream f 0) = (MErr e, s') /\ display e = number_text g (txt "invalid digit found in string").
Proof. exact (@CompatRefuted.number_shown_not). Qed.
Print Assumptions bad_number_shown_refuted.
(** Lines: the text is about the first one that is wrong. *)
Theorem text_bad_line_thm : forall (P : ftext_ops) (pf : profile) (Md : Type), let text_fails := @CompatLines.text_fails Md in
  forall lossy data ls1 l ls2,
  lines data (ls1 ++ l :: ls2) ->
    Forall (fun l => exists it, line_item P lossy l it) ls1 -> (forall it, ~ line_item P lossy l it) ->
    exists e, text_fails (read_text_t P pf lossy) data e /\ line_error P lossy l e.
Proof. exact (@CompatLines.text_first_bad). Qed.
Print Assumptions text_bad_line_thm.
Theorem text_dims_bad_line_thm : forall (P : ftext_ops) (pf : profile) (Md : Type), let text_fails := @CompatLines.text_fails Md in
  forall lossy data n d rest ls1 l ls2,
  header_line data n d rest -> dims_fit n d -> lines rest (ls1 ++ l :: ls2) ->
    Forall (fun l => exists it, line_item P lossy l it) ls1 -> (forall it, ~ line_item P lossy l it) ->
    exists e, text_fails (read_text_dims_t P pf lossy) data e /\ text_fails (read_text_dims_raw_t P pf lossy) data e /\ line_error P lossy l e.
Proof. exact (@CompatLines.text_dims_first_bad). Qed.
Print Assumptions text_dims_bad_line_thm.
Theorem floret_bad_line_thm : forall (P : ftext_ops) (pf : profile) (Md : Type), let floret_fails := @CompatLines.floret_fails P pf Md in
  forall data nb dims mn mx nh seed bow eow rest ls1 l ls2,
  floret_head data nb dims mn mx nh seed bow eow rest ->
    params_ok nb dims mn mx nh -> nb * dims * 4 <= isize_max -> lines rest (ls1 ++ l :: ls2) ->
    Forall (fun l => exists v, floret_row P dims l v) ls1 -> (forall v, ~ floret_row P dims l v) ->
    exists e, floret_fails data e /\ row_error P dims l e.
Proof. exact (@CompatLines.floret_first_bad). Qed.
Print Assumptions floret_bad_line_thm.
(** Sizes: the text shows what was expected and what was found. *)
Theorem text_dims_sizes_partial : forall (P : ftext_ops) (pf : profile) (Md : Type), let text_fails := @CompatLines.text_fails Md in
  forall lossy data n d rest items,
  header_line data n d rest -> dims_fit n d -> text_items P lossy rest items ->
    let total := lenN (flat_map snd items) in
    (lenN items <> n -> exists e, text_fails (read_text_dims_t P pf lossy) data e /\ text_fails (read_text_dims_raw_t P pf lossy) data e /\
       display e = txt "Invalid file format Incorrect vocabulary size, expected: " ++ dec_print n ++ txt ", got: " ++ dec_print (lenN items)) /\
    (lenN items = n -> n <> 0 -> total / n <> d ->
       exists e, text_fails (read_text_dims_t P pf lossy) data e /\ text_fails (read_text_dims_raw_t P pf lossy) data e /\
       display e = txt "Invalid file format Incorrect embedding dimensionality, expected: " ++ dec_print d ++ txt ", got: " ++ dec_print (total / n)) /\
    (lenN items = n -> n <> 0 -> total / n = d -> total <> n * d ->
       exists e, text_fails (read_text_dims_t P pf lossy) data e /\ text_fails (read_text_dims_raw_t P pf lossy) data e /\
       display e = txt "Cannot construct matrix with the given shape").
Proof. exact (@CompatLines.text_dims_sizes). Qed.
Print Assumptions text_dims_sizes_partial.
Theorem text_dims_shown_refuted : exists data n d rest items e, header_line data n d rest /\ dims_fit n d /\ text_items rust_ftext false rest items /\
  text_fails (Md := unit) (read_text_dims_t rust_ftext Release false) data e /\
  display e = txt "Invalid file format Incorrect embedding dimensionality, expected: 3, got: 2" /\
  (forall w v, In (w, v) items -> lenN v <> 2).
Proof. exact (@CompatRefuted.dims_shown_not). Qed.
Print Assumptions text_dims_shown_refuted.
Theorem floret_params_text_partial : forall (P : ftext_ops) (pf : profile) (Md : Type), let floret_fails := @CompatLines.floret_fails P pf Md in
  forall data nb dims mn mx nh seed bow eow rest,
  floret_head data nb dims mn mx nh seed bow eow rest ->
    (nb = 0 -> exists e, floret_fails data e /\ display e = txt "Invalid file format Expected at least 1 bucket") /\
    (nb <> 0 -> dims = 0 -> exists e, floret_fails data e /\ display e = txt "Invalid file format Embeddings should have at least 1 dimension") /\
    (nb <> 0 -> dims <> 0 -> mx mod two32 < mn mod two32 -> exists e, floret_fails data e /\
       display e = txt "Invalid file format The minimum n-gram length (" ++ dec_print (mn mod two32)
                   ++ txt ") must not be larger than the maximum length (" ++ dec_print (mx mod two32) ++ txt ")") /\
    (nb <> 0 -> dims <> 0 -> mn mod two32 <= mx mod two32 -> ~ 1 <= nh mod two32 <= 4 -> exists e, floret_fails data e /\
       display e = txt "Invalid file format The number of hashes should be between 1 and 4 (inclusive), was: " ++ dec_print (nh mod two32)).
Proof. exact (@CompatLines.floret_params_text). Qed.
Print Assumptions floret_params_text_partial.
Theorem floret_hashes_shown_refuted : exists data nb dims mn mx nh seed bow eow rest e, floret_head data nb dims mn mx nh seed bow eow rest /\
  floret_fails rust_ftext Release (Md := unit) data e /\ nh = 4294967296 /\
  display e = txt "Invalid file format The number of hashes should be between 1 and 4 (inclusive), was: 0".
Proof. exact (@CompatRefuted.hashes_shown_not). Qed.
Print Assumptions floret_hashes_shown_refuted.
Theorem floret_count_text_thm : forall (P : ftext_ops) (pf : profile) (Md : Type), let floret_fails := @CompatLines.floret_fails P pf Md in
  forall data nb dims mn mx nh seed bow eow rest rows,
  floret_head data nb dims mn mx nh seed bow eow rest ->
    params_ok nb dims mn mx nh -> nb * dims * 4 <= isize_max -> floret_rows P dims rest rows -> lenN rows <> nb ->
    exists e, floret_fails data e /\ display e = txt "Cannot construct matrix with the given shape".
Proof. exact (@CompatLines.floret_count_text). Qed.
Print Assumptions floret_count_text_thm.
(** Files that were cut: the text names the field, except for words, where it
    is about what follows or about UTF-8. *)
Theorem word2vec_cut_partial : forall b pf Md lossy data n d its,
  header_line data n d (w2v_bytes its) -> binary_fits n d -> d <> 0 -> lenN its = n ->
  Forall (fun it => ~ In x20 (fst it) /\ (lossy = false -> utf8_valid (fst it) = true) /\ lenN (snd it) = d) its ->
  forall i, i < lenN (w2v_bytes its) -> exists e, missing (w2v_fields b lossy d its) i = Some e /\
  fst (read_word2vec_t (Md := Md) pf lossy (mkBroken (takeN (lenN data - lenN (w2v_bytes its) + i) data) 0 b)) = MErr e.
Proof. exact (@CompatCut.w2v_cut). Qed.
Print Assumptions word2vec_cut_partial.
Theorem cut_word_thm : forall name i e0,
  (utf8_valid (takeN (i - 1) name) = true /\ cut_error name i e0 = e0) \/
  (utf8_valid (takeN (i - 1) name) = false /\ points_at (txt "Token contains invalid UTF-8: ") (takeN (i - 1) name) (cut_error name i e0)).
Proof. exact (@CompatCut.cut_error_is). Qed.
Print Assumptions cut_word_thm.
Theorem fasttext_cut_partial : forall (pf : profile) (T : toml_ops) (config_table : ft_config -> option (toml_table T)) (table_error : ft_config -> str), let reads_t := read_fasttext_t pf T config_table table_error in
  forall b lossy f c ws,
  ft_fields_ok f -> ft_supported f -> ft_config_is f c -> ft_words lossy f ws -> NoDup ws -> fc_bucket c <= i32_max ->
    ff_quant f <> 1 -> ft_matrix_ok (ff_matrix f) ->
    forall pos i, i < lenN (ft_bytes f) -> exists e, missing (ft_fields b lossy f) i = Some e /\
    fst (reads_t lossy (mkBroken (takeN i (ft_bytes f)) pos b)) = MErr e.
Proof. exact (@CompatFastText.ft_cut). Qed.
Print Assumptions fasttext_cut_partial.
Theorem fasttext_word_cut_thm : forall name i pos,
  utf8_valid name = true -> ~ In x00 name -> i <= lenN name ->
  exists e s', read_ft_entry_t false (mkStream (takeN i name) pos) = (MErr e, s') /\
  (utf8_valid (takeN (i - 1) name) = true /\ display e = txt "Cannot read word frequency" \/
   utf8_valid (takeN (i - 1) name) = false /\ points_at (txt "Token contains invalid UTF-8: ") (takeN (i - 1) name) e).
Proof. exact (@CompatRefuted.word_cut). Qed.
Print Assumptions fasttext_word_cut_thm.
Theorem fasttext_word_cut_refuted : exists name i e s', utf8_valid name = true /\ ~ In x00 name /\ i <= lenN name /\
  read_ft_entry_t false (mkStream (takeN i name) 0) = (MErr e, s') /\
  display e = txt "Invalid file format Token contains invalid UTF-8: incomplete utf-8 byte sequence from index 0".
Proof. exact (@CompatRefuted.word_cut_not). Qed.
Print Assumptions fasttext_word_cut_refuted.
(** Devices that fail. *)
Theorem header_device_thm : forall (P : ftext_ops) (pf : profile) (Md : Type),
  forall lossy data n d rest i,
  header_line data n d rest -> i < lenN data - lenN rest ->
    exists e, display e = txt "Cannot read string" /\
    fst (read_text_dims_t (Md := Md) P pf lossy (mkBroken (takeN i data) 0 true)) = MErr e /\
    fst (read_text_dims_raw_t (Md := Md) P pf lossy (mkBroken (takeN i data) 0 true)) = MErr e /\
    fst (read_word2vec_t (Md := Md) pf lossy (mkBroken (takeN i data) 0 true)) = MErr e.
Proof. exact (@CompatDevice.header_device). Qed.
Print Assumptions header_device_thm.
Theorem floret_header_device_thm : forall (P : ftext_ops) (pf : profile) (Md : Type),
  forall data nb dims mn mx nh seed bow eow rest i,
  floret_head data nb dims mn mx nh seed bow eow rest ->
    i < lenN data - lenN rest ->
    exists e, display e = txt "Cannot read string" /\ fst (read_floret_text_t (Md := Md) P pf (mkBroken (takeN i data) 0 true)) = MErr e.
Proof. exact (@CompatDevice.floret_header_device). Qed.
Print Assumptions floret_header_device_thm.
Theorem text_device_thm : forall (P : ftext_ops) (pf : profile) (Md : Type),
  forall lossy ls part,
  Forall (fun l => ~ In x0a l /\ exists it, line_item P lossy l it) ls -> ~ In x0a part ->
    exists e, display e = txt "Cannot read line from embedding file" /\
    fst (read_text_t (Md := Md) P pf lossy (mkBroken (ended ls ++ part) 0 true)) = MErr e /\
    (forall data n d, header_line data n d (ended ls ++ part) -> dims_fit n d ->
     fst (read_text_dims_t (Md := Md) P pf lossy (mkBroken data 0 true)) = MErr e).
Proof. exact (@CompatDevice.text_device). Qed.
Print Assumptions text_device_thm.
Theorem floret_device_thm : forall (P : ftext_ops) (pf : profile) (Md : Type),
  forall data nb dims mn mx nh seed bow eow ls part,
  floret_head data nb dims mn mx nh seed bow eow (ended ls ++ part) ->
    params_ok nb dims mn mx nh -> nb * dims * 4 <= isize_max -> Forall (fun l => ~ In x0a l /\ exists v, floret_row P dims l v) ls -> ~ In x0a part ->
    exists e, display e = txt "Cannot read line" /\ fst (read_floret_text_t (Md := Md) P pf (mkBroken data 0 true)) = MErr e.
Proof. exact (@CompatDevice.floret_device). Qed.
Print Assumptions floret_device_thm.
(** Models that are not supported: the text says why. *)
Theorem fasttext_wrong_start_thm : forall (pf : profile) (T : toml_ops) (config_table : ft_config -> option (toml_table T)) (table_error : ft_config -> str), let ft_fails := CompatFastText.ft_fails pf T config_table table_error in
  forall lossy f rest,
  ft_fields_ok f ->
    (ff_magic f <> 793712314 -> exists e, ft_fails lossy f rest e /\
       display e = txt "Invalid file format Expected 793712314 as magic, got: " ++ dec_print (ff_magic f)) /\
    (ff_magic f = 793712314 -> 12 < ff_version f -> exists e, ft_fails lossy f rest e /\
       display e = txt "Invalid file format Expected 12 as version, got: " ++ dec_print (ff_version f)).
Proof. exact (@CompatFastText.ft_wrong_start). Qed.
Print Assumptions fasttext_wrong_start_thm.
Theorem fasttext_wrong_config_thm : forall (pf : profile) (T : toml_ops) (config_table : ft_config -> option (toml_table T)) (table_error : ft_config -> str), let ft_fails := CompatFastText.ft_fails pf T config_table table_error in
  forall lossy f rest l m,
  ft_fields_ok f -> ff_magic f = 793712314 -> ff_version f <= 12 ->
    nthN (ff_numbers f) 6 = Some l -> nthN (ff_numbers f) 7 = Some m ->
    (~ 1 <= l <= 3 -> exists e, ft_fails lossy f rest e /\ display e = txt "Invalid file format Unknown loss: " ++ dec_print l) /\
    (1 <= l <= 3 -> ~ 1 <= m <= 3 -> exists e, ft_fails lossy f rest e /\ display e = txt "Invalid file format Unknown model: " ++ dec_print m).
Proof. exact (@CompatFastText.ft_wrong_config). Qed.
Print Assumptions fasttext_wrong_config_thm.
Theorem fasttext_wrong_vocab_thm : forall (pf : profile) (T : toml_ops) (config_table : ft_config -> option (toml_table T)) (table_error : ft_config -> str), let ft_fails := CompatFastText.ft_fails pf T config_table table_error in
  forall lossy f c rest,
  ft_fields_ok f -> ff_magic f = 793712314 -> ff_version f <= 12 -> ft_config_is f c ->
    (ff_nlabels f <> 0 -> exists e, ft_fails lossy f rest e /\ display e = txt "Invalid file format fastText prediction models are not supported") /\
    (ff_nlabels f = 0 -> ff_prune f < 2 ^ 63 -> exists e, ft_fails lossy f rest e /\ display e = txt "Invalid file format Pruned vocabularies are not supported") /\
    (ff_nlabels f = 0 -> 2 ^ 63 <= ff_prune f -> forall its1 it its2, ff_entries f = its1 ++ it :: its2 ->
       Forall (fun it => snd it = 0 /\ exists w, decodes lossy (fst (fst it)) w) its1 -> entry_bad lossy it ->
       exists e, ft_fails lossy f rest e /\ entry_error lossy it e) /\
    (ff_nlabels f = 0 -> 2 ^ 63 <= ff_prune f -> Forall (fun it => snd it = 0) (ff_entries f) -> ff_quant f = 1 ->
       forall ws, ft_words lossy f ws -> NoDup ws -> fc_bucket c <= i32_max ->
       exists e, ft_fails lossy f rest e /\ display e = txt "Invalid file format Quantized fastText models are not supported").
Proof. exact (@CompatFastText.ft_wrong_vocab). Qed.
Print Assumptions fasttext_wrong_vocab_thm.
Theorem fasttext_wrong_rows_thm : forall (pf : profile) (T : toml_ops) (config_table : ft_config -> option (toml_table T)) (table_error : ft_config -> str),
  forall lossy f c ws rest,
  ft_fields_ok f -> ft_supported f -> ft_config_is f c -> ft_words lossy f ws ->
    ft_matrix_ok (ff_matrix f) -> fc_bucket c <> 0 -> fc_bucket c <= i32_max -> NoDup ws -> (ws <> [] -> range_ok (fc_min_n c) (fc_max_n c)) ->
    config_table c <> None ->
    exists v subs, sub_new ft_ops pf ws (fc_min_n c) (fc_max_n c) (mkFtIx (fc_bucket c)) = Ok v /\ subwords_are v subs /\
    (ff_quant f <> 1 -> lenN (a2_rows (ff_matrix f)) <> lenN ws + fc_bucket c -> ~ rows_missing ws subs (lenN (a2_rows (ff_matrix f))) ->
     exists e, ft_fails pf T config_table table_error lossy f rest e /\ display e = txt "Cannot construct matrix with the given shape").
Proof. exact (@CompatDevice.ft_wrong_rows). Qed.
Print Assumptions fasttext_wrong_rows_thm.
Theorem fasttext_no_metadata_thm : forall (pf : profile) (T : toml_ops) (config_table : ft_config -> option (toml_table T)) (table_error : ft_config -> str) lossy f c ws rest,
  ft_fields_ok f -> ft_supported f -> ft_config_is f c -> ft_words lossy f ws ->
  ft_matrix_ok (ff_matrix f) -> fc_bucket c <> 0 -> fc_bucket c <= i32_max -> NoDup ws -> (ws <> [] -> range_ok (fc_min_n c) (fc_max_n c)) ->
  ff_quant f <> 1 -> lenN (a2_rows (ff_matrix f)) = lenN ws + fc_bucket c -> config_table c = None ->
  exists e, ft_fails pf T config_table table_error lossy f rest e /\
  display e = txt "Invalid file format Cannot serialize model metadata to TOML: " ++ table_error c.
Proof. exact (@CompatDevice.ft_no_metadata). Qed.
Print Assumptions fasttext_no_metadata_thm.
Theorem fasttext_version_refuted : forall (pf : profile) (T : toml_ops) (t : toml_table T) (te : ft_config -> str),
  exists f e, ft_fields_ok f /\ ff_version f = 11 /\ fst (read_fasttext_t pf T (fun _ => Some t) te false (mkStream (ft_bytes f) 0)) = MOk e.
Proof. exact (@CompatRefuted.version_expected_not). Qed.
Print Assumptions fasttext_version_refuted.

Definition mo_text {A} (r : mres A) : string :=
  match r with MErr e => string_of_list_byte (display e) | MOk _ => "ok" | MPanic _ => "panic" end.
Definition nl : list byte := [x0a].

Example bad_number_ex : Forall (fun f => ~ In x20 f /\ ~ is_number f) [[]; txt "1x"; txt "+"; txt "18446744073709551616x"] /\
  map (fun f => mo_text (fst (read_number_t x20 (mkStream (f ++ [x20]) 0)))) [[]; txt "1x"; txt "+"; txt "18446744073709551616x"; txt "18446744073709551615"] =
  ["Invalid file format Cannot parse shape component '': cannot parse integer from empty string";
   "Invalid file format Cannot parse shape component '1x': invalid digit found in string";
   "Invalid file format Cannot parse shape component '+': invalid digit found in string";
   "Invalid file format Cannot parse shape component '18446744073709551616x': number too large to fit in target type"; "ok"]%string.
Proof.
  split; [|vm_compute; reflexivity].
  apply Forall_forall. intros f H. split.
  - repeat (destruct H as [<-|H]; [cbv; intuition discriminate|]). destruct H.
  - intros (n & E). apply dec_parse_spec in E. repeat (destruct H as [<-|H]; [vm_compute in E; discriminate|]). destruct H.
Qed.
Example bad_number_end_ex : ~ In x0a (txt "12a" ++ [x62]) /\ utf8_valid (txt "12a") = true /\ ~ is_number (txt "12a").
Proof.
  split; [vm_compute; intuition discriminate|]. split; [reflexivity|]. intros (n & H). apply dec_parse_spec in H. vm_compute in H. discriminate.
Qed.
Example bad_number_apart_ex : number_reason (txt "1x") (txt "invalid digit found in string") /\ number_reason [] (txt "cannot parse integer from empty string").
Proof.
  split; [|left; auto]. right. right. split; [discriminate|]. split; [|reflexivity]. intros T. apply number_error_big in T. vm_compute in T. discriminate.
Qed.

Lemma mo_bad lossy l : text_line rust_ftext lossy l = Err EFormat -> forall it, ~ line_item rust_ftext lossy l it.
Proof. intros E it H. apply text_line_item in H. congruence. Qed.
Definition mo_lines : list byte := txt "a 1" ++ nl ++ txt "b 1 x y" ++ nl ++ nl.
Definition mo_read (data : list byte) : string := mo_text (fst (read_text_t (Md := unit) rust_ftext Release false (mkStream data 0))).
Example text_bad_line_ex : lines mo_lines ([txt "a 1"] ++ txt "b 1 x y" :: [[]]) /\
  (exists it, line_item rust_ftext false (txt "a 1") it) /\ (forall it, ~ line_item rust_ftext false (txt "b 1 x y") it) /\
  map mo_read [mo_lines; txt "a 1" ++ nl ++ nl ++ txt "b x"; txt "a 1" ++ nl ++ [x62; xff]] =
  ["Invalid file format Cannot parse vector component 'x': invalid float literal"; "Invalid file format Spurious empty line";
   "Invalid file format Token contains invalid UTF-8: invalid utf-8 sequence of 1 bytes from index 1"]%string.
Proof.
  split; [|split; [|split]].
  - apply (lines_cons (txt "a 1")); [vm_compute; intuition discriminate|]. apply (lines_cons (txt "b 1 x y")); [vm_compute; intuition discriminate|].
    apply (lines_cons [] []); [intros []|constructor].
  - eexists. apply text_line_item. vm_compute. reflexivity.
  - apply mo_bad. vm_compute. reflexivity.
  - vm_compute. reflexivity.
Qed.
Lemma mo_header f g n d rest : dec_parse f = Some n -> dec_parse g = Some d -> header_line (f ++ x20 :: g ++ x0a :: rest) n d rest.
Proof. intros H1 H2. apply dec_parse_spec in H1 as [], H2 as []. exists f, g. auto. Qed.
Definition mo_dims (data : list byte) : string := mo_text (fst (read_text_dims_t (Md := unit) rust_ftext Release false (mkStream data 0))).
Example text_dims_bad_line_ex : header_line (txt "3 1" ++ nl ++ mo_lines) 3 1 mo_lines /\ dims_fit 3 1.
Proof. split; [apply (mo_header (txt "3") (txt "1")); reflexivity|split; vm_compute; discriminate]. Qed.
Definition mo_rest : list byte := txt "a 1" ++ nl ++ txt "b 1" ++ nl.
Definition mo_items : list (str * list f32) := [(txt "a", [one32]); (txt "b", [one32])].
Example text_dims_sizes_ex : text_items rust_ftext false mo_rest mo_items /\
  header_line (txt "3 1" ++ nl ++ mo_rest) 3 1 mo_rest /\ dims_fit 3 1 /\ lenN mo_items <> 3 /\
  map mo_dims [txt "3 1" ++ nl ++ mo_rest; txt "2 2" ++ nl ++ mo_rest; txt "2 1" ++ nl ++ mo_rest; txt "2 1" ++ nl ++ txt "a 1" ++ nl ++ txt "b 1 1" ++ nl] =
  ["Invalid file format Incorrect vocabulary size, expected: 3, got: 2";
   "Invalid file format Incorrect embedding dimensionality, expected: 2, got: 1"; "ok"; "Cannot construct matrix with the given shape"]%string.
Proof.
  split; [|split; [|split; [|split]]].
  - exists [txt "a 1"; txt "b 1"]. split.
    + apply (lines_cons (txt "a 1")); [vm_compute; intuition discriminate|]. apply (lines_cons (txt "b 1") []); [vm_compute; intuition discriminate|constructor].
    + constructor; [|constructor; [|constructor]]; apply text_line_item; vm_compute; reflexivity.
  - apply (mo_header (txt "3") (txt "1")); reflexivity.
  - split; vm_compute; discriminate.
  - discriminate.
  - vm_compute. reflexivity.
Qed.

Definition mo_floret (data : list byte) : string := mo_text (fst (read_floret_text_t (Md := unit) rust_ftext Release (mkStream data 0))).
Definition mo_head (fs : list str) : list byte := concat (map (fun f => f ++ [x20]) fs) ++ txt "< >" ++ nl.
Lemma mo_floret_head a b c d e f na nb nc nd ne nf rest : Forall2 (fun s n => dec_parse s = Some n) [a; b; c; d; e; f] [na; nb; nc; nd; ne; nf] ->
  floret_head (mo_head [a; b; c; d; e; f] ++ rest) na nb nc nd ne nf (txt "<") (txt ">") rest.
Proof.
  intros H. repeat match goal with H : Forall2 _ (_ :: _) _ |- _ => inversion H; clear H; subst end.
  repeat match goal with H : dec_parse _ = Some _ |- _ => apply dec_parse_spec in H as [] end.
  exists a, b, c, d, e, f. do 6 (split; [assumption|]). split; [repeat constructor; assumption|].
  split; [vm_compute; intuition discriminate|]. split; [reflexivity|]. split; [vm_compute; intuition discriminate|]. split; [reflexivity|].
  unfold mo_head. cbn [map concat]. rewrite <- !app_assoc. reflexivity.
Qed.
Definition mo_fl (a b c d e f : string) : list byte := mo_head [txt a; txt b; txt c; txt d; txt e; txt f].
Example floret_params_text_ex :
  floret_head (mo_fl "2" "1" "7" "6" "2" "5") 2 1 7 6 2 5 (txt "<") (txt ">") [] /\
  map mo_floret [mo_fl "0" "1" "3" "6" "2" "5"; mo_fl "2" "0" "3" "6" "2" "5"; mo_fl "2" "1" "7" "6" "2" "5"; mo_fl "2" "1" "3" "6" "5" "5"] =
  ["Invalid file format Expected at least 1 bucket"; "Invalid file format Embeddings should have at least 1 dimension";
   "Invalid file format The minimum n-gram length (7) must not be larger than the maximum length (6)";
   "Invalid file format The number of hashes should be between 1 and 4 (inclusive), was: 5"]%string.
Proof.
  split; [|vm_compute; reflexivity]. unfold mo_fl. rewrite <- (app_nil_r (mo_head _)). apply mo_floret_head.
  repeat constructor.
Qed.
Example floret_bad_line_ex : let good := txt "0 1" in let bad := txt "1 1 1" in
  floret_head (mo_fl "2" "1" "3" "6" "2" "5" ++ good ++ nl ++ bad) 2 1 3 6 2 5 (txt "<") (txt ">") (good ++ nl ++ bad) /\
  params_ok 2 1 3 6 2 /\ lines (good ++ nl ++ bad) ([good] ++ bad :: []) /\ floret_row rust_ftext 1 good [one32] /\
  (forall v, ~ floret_row rust_ftext 1 bad v) /\
  map (fun l => mo_floret (mo_fl "2" "1" "3" "6" "2" "5" ++ good ++ nl ++ l)) [bad; []; txt "1 x"; [x31; x20; xff]; txt "1 1"] =
  ["Invalid file format Incorrect number of embedding components, expected: 1, got: 2"; "Cannot construct matrix with the given shape";
   "Invalid file format Cannot parse vector component 'x': invalid float literal"; "Cannot read line"; "ok"]%string.
Proof.
  cbv zeta. split; [apply mo_floret_head; repeat constructor|]. split; [repeat split; vm_compute; discriminate|]. split; [|split; [|split]].
  - apply (lines_cons (txt "0 1")); [vm_compute; intuition discriminate|]. apply lines_last; [discriminate|vm_compute; intuition discriminate].
  - apply FloretThms.floret_line_row; [discriminate|]. vm_compute. reflexivity.
  - intros v H. apply FloretThms.floret_line_row in H; [|discriminate]. vm_compute in H. discriminate.
  - vm_compute. reflexivity.
Qed.
Example floret_count_text_ex : floret_rows rust_ftext 1 (txt "0 1") [[one32]] /\ params_ok 2 1 3 6 2 /\ lenN [[one32]] <> 2.
Proof.
  split; [|split; [repeat split; vm_compute; discriminate|discriminate]]. exists [txt "0 1"]. split.
  - apply lines_last; [discriminate|vm_compute; intuition discriminate].
  - constructor; [|constructor]. apply FloretThms.floret_line_row; [discriminate|]. vm_compute. reflexivity.
Qed.

Definition mo_w2v : list (list byte * list f32) := [(txt "a", [one32; one32]); ([x62; xc3; xa9], [one32; one32])].
Definition mo_w2v_file : list byte := txt "2 2" ++ nl ++ w2v_bytes mo_w2v.
Example word2vec_cut_ex : header_line mo_w2v_file 2 2 (w2v_bytes mo_w2v) /\ binary_fits 2 2 /\
  Forall (fun it => ~ In x20 (fst it) /\ (false = false -> utf8_valid (fst it) = true) /\ lenN (snd it) = 2) mo_w2v /\
  lenN (w2v_bytes mo_w2v) = 22 /\
  map (fun i => mo_text (fst (read_word2vec_t (Md := unit) Release false (mkStream (takeN (4 + i) mo_w2v_file) 0)))) [0; 1; 9; 10; 12; 13; 21; 22] =
  ["Cannot read word embedding"; "Cannot read word embedding"; "Cannot read word embedding"; "Cannot read word embedding";
   "Cannot read word embedding"; "Invalid file format Token contains invalid UTF-8: incomplete utf-8 byte sequence from index 1"; "Cannot read word embedding"; "ok"]%string.
Proof.
  split; [apply (mo_header (txt "2") (txt "2")); reflexivity|]. split; [split; [split|]; vm_compute; discriminate|]. split.
  - constructor; [|constructor; [|constructor]]; (split; [cbv; intuition discriminate|]; split; reflexivity).
  - split; vm_compute; reflexivity.
Qed.

(** fastText: the model of [P_FastText] with two words. *)
Definition mo_ft : ft_file := P_FastText.ft_ex_file 2 3 6 [[x61]; [x62]] 0 P_FastText.ft_ex_rows.
Definition mo_ft_read (data : list byte) : string :=
  mo_text (fst (read_fasttext_t Release P_FastText.ft_T P_FastText.ft_table (fun _ => []) false (mkStream data 0))).
Example fasttext_cut_ex : ft_fields_ok mo_ft /\ ft_supported mo_ft /\ ft_config_is mo_ft (P_FastText.ft_ex_config 2 3 6) /\
  ft_words false mo_ft [[x61]; [x62]] /\ ft_matrix_ok (ff_matrix mo_ft).
Proof.
  destruct (P_FastText.ft_ex_file_ok 2 3 6 0 P_FastText.ft_ex_rows) as (H1 & H2 & H3 & H4); [reflexivity..|].
  split; [exact H1|]. split; [exact H2|]. split; [exact H3|]. split; [exact H4|].
  split; [repeat constructor|]; split; [reflexivity|]; split; [reflexivity|]; split; vm_compute; discriminate.
Qed.
Example fasttext_cut_texts_ex : lenN (ft_bytes mo_ft) = 147 /\ map (fun i => mo_ft_read (takeN i (ft_bytes mo_ft))) [0; 7; 34; 64; 92; 93; 94; 102; 103; 114; 116; 124; 146; 147] =
  ["Cannot fastText read magic"; "Cannot read fastText version"; "Cannot read loss type"; "Cannot read vocabulary size";
   "Cannot read word frequency"; "Cannot read word frequency"; "Cannot read word frequency"; "Cannot read entry type"; "Cannot read word frequency";
   "Cannot read quantization information"; "Cannot read number of embedding matrix rows"; "Cannot read number of embedding matrix columns";
   "Cannot read embeddings"; "ok"]%string.
Proof. split; vm_compute; reflexivity. Qed.
Example fasttext_word_cut_ex : utf8_valid [x61; xc3; xa9] = true /\ ~ In x00 [x61; xc3; xa9] /\
  map (fun i => mo_text (fst (read_ft_entry_t false (mkStream (takeN i [x61; xc3; xa9]) 0)))) [0; 1; 2; 3] =
  ["Cannot read word frequency"; "Cannot read word frequency"; "Cannot read word frequency";
   "Invalid file format Token contains invalid UTF-8: incomplete utf-8 byte sequence from index 1"]%string.
Proof. split; [reflexivity|]. split; [vm_compute; intuition discriminate|vm_compute; reflexivity]. Qed.
Definition mo_ft_with (magic version loss model labels prune kind quant : N) : ft_file :=
  mkFtFile magic version [1; 5; 5; 5; 5; 1; loss; model; 2; 3; 6; 100] 0 1 labels 9 prune [([x61], 1, kind)] quant (mkA2 1 []).
Lemma mo_fields_ok a b c d e f g h : a < two32 -> b < two32 -> c < two32 -> d < two32 -> e < two32 -> f < two64 -> g < 256 -> h < 256 ->
  ft_fields_ok (mo_ft_with a b c d e f g h).
Proof.
  intros. unfold ft_fields_ok. cbn [mo_ft_with ff_magic ff_version ff_numbers ff_threshold ff_nwords ff_nlabels ff_tokens ff_prune ff_entries ff_quant].
  split; [repeat (constructor; [first [assumption|reflexivity]|]); constructor|]. split; [reflexivity|]. split; [reflexivity|].
  split; [repeat (constructor; [first [assumption|reflexivity]|]); constructor|]. split; [reflexivity|]. split; [assumption|]. split; [|assumption].
  constructor; [|constructor]. repeat split; try assumption; cbn; intuition discriminate.
Qed.
Example fasttext_wrong_ex : Forall ft_fields_ok [mo_ft_with 1 12 2 2 0 (2 ^ 64 - 1) 0 0; mo_ft_with 793712314 13 2 2 0 (2 ^ 64 - 1) 0 0;
    mo_ft_with 793712314 12 4 2 0 (2 ^ 64 - 1) 0 0; mo_ft_with 793712314 12 2 0 0 (2 ^ 64 - 1) 0 0] /\
  entry_bad false ([x61], 1, 1) /\
  map (fun f => mo_ft_read (ft_bytes f))
    [mo_ft_with 1 13 4 4 1 0 1 1; mo_ft_with 793712314 13 4 4 1 0 1 1; mo_ft_with 793712314 12 4 4 1 0 1 1; mo_ft_with 793712314 12 2 4 1 0 1 1;
     mo_ft_with 793712314 12 2 2 1 0 1 1; mo_ft_with 793712314 12 2 2 0 0 1 1; mo_ft_with 793712314 12 2 2 0 (2 ^ 64 - 1) 1 1;
     mo_ft_with 793712314 12 2 2 0 (2 ^ 64 - 1) 0 1] =
  ["Invalid file format Expected 793712314 as magic, got: 1"; "Invalid file format Expected 12 as version, got: 13";
   "Invalid file format Unknown loss: 4"; "Invalid file format Unknown model: 4"; "Invalid file format fastText prediction models are not supported";
   "Invalid file format Pruned vocabularies are not supported"; "Invalid file format Non-word entry"; "Invalid file format Quantized fastText models are not supported"]%string.
Proof.
  split; [|split; [left; discriminate|vm_compute; reflexivity]].
  repeat (constructor; [apply mo_fields_ok; reflexivity|]). constructor.
Qed.

(** A device that fails in the header, or in the second line. *)
Example header_device_ex : header_line (txt "3 1" ++ nl ++ mo_rest) 3 1 mo_rest /\ lenN (txt "3 1" ++ nl ++ mo_rest) - lenN mo_rest = 4 /\
  map (fun i => mo_text (fst (read_text_dims_t (Md := unit) rust_ftext Release false (mkBroken (takeN i (txt "3 1" ++ nl ++ mo_rest)) 0 true)))) [0; 1; 2; 3; 4] =
  ["Cannot read string"; "Cannot read string"; "Cannot read string"; "Cannot read string"; "Cannot read line from embedding file"]%string.
Proof. split; [apply (mo_header (txt "3") (txt "1")); reflexivity|split; vm_compute; reflexivity]. Qed.
Example floret_header_device_ex : floret_head (mo_fl "2" "1" "3" "6" "2" "5") 2 1 3 6 2 5 (txt "<") (txt ">") [] /\ lenN (mo_fl "2" "1" "3" "6" "2" "5") = 16 /\
  map (fun i => mo_text (fst (read_floret_text_t (Md := unit) rust_ftext Release (mkBroken (takeN i (mo_fl "2" "1" "3" "6" "2" "5")) 0 true)))) [0; 15; 16] =
  ["Cannot read string"; "Cannot read string"; "Cannot read line"]%string.
Proof.
  split; [|split; vm_compute; reflexivity]. unfold mo_fl. rewrite <- (app_nil_r (mo_head _)). apply mo_floret_head. repeat constructor.
Qed.
Example text_device_ex : Forall (fun l => ~ In x0a l /\ exists it, line_item rust_ftext false l it) [txt "a 1"] /\ ~ In x0a (txt "b") /\
  mo_text (fst (read_text_t (Md := unit) rust_ftext Release false (mkBroken (ended [txt "a 1"] ++ txt "b") 0 true))) = "Cannot read line from embedding file"%string.
Proof.
  split; [|split; [cbv; intuition discriminate|vm_compute; reflexivity]]. constructor; [|constructor]. split; [cbv; intuition discriminate|].
  eexists. apply text_line_item. vm_compute. reflexivity.
Qed.
Example floret_device_ex : Forall (fun l => ~ In x0a l /\ exists v, floret_row rust_ftext 1 l v) [txt "0 1"] /\ params_ok 2 1 3 6 2 /\
  floret_head (mo_fl "2" "1" "3" "6" "2" "5" ++ ended [txt "0 1"] ++ txt "1") 2 1 3 6 2 5 (txt "<") (txt ">") (ended [txt "0 1"] ++ txt "1").
Proof.
  split; [|split; [repeat split; vm_compute; discriminate|apply mo_floret_head; repeat constructor]]. constructor; [|constructor]. split; [cbv; intuition discriminate|].
  exists [one32]. apply FloretThms.floret_line_row; [discriminate|]. vm_compute. reflexivity.
Qed.
(** A row too many; metadata that cannot be serialized. *)
Example fasttext_wrong_rows_ex : let f := P_FastText.ft_ex_file 1 3 6 [[x61]; [x62]] 0 P_FastText.ft_ex_rows in
  ft_fields_ok f /\ ft_supported f /\ ft_config_is f (P_FastText.ft_ex_config 1 3 6) /\ ft_words false f [[x61]; [x62]] /\
  lenN (a2_rows (ff_matrix f)) <> lenN [[x61]; [x62]] + 1 /\
  mo_ft_read (ft_bytes f) = "Cannot construct matrix with the given shape"%string.
Proof.
  intros f. destruct (P_FastText.ft_ex_file_ok 1 3 6 0 P_FastText.ft_ex_rows) as (H1 & H2 & H3 & H4); [reflexivity..|].
  split; [exact H1|]. split; [exact H2|]. split; [exact H3|]. split; [exact H4|]. split; [discriminate|vm_compute; reflexivity].
Qed.
Example fasttext_no_metadata_ex : fc_bucket (P_FastText.ft_ex_config 2 3 6) = 2 /\ lenN (a2_rows (ff_matrix mo_ft)) = lenN [[x61]; [x62]] + 2 /\
  mo_text (fst (read_fasttext_t Release P_FastText.ft_T (fun _ => None) (fun _ => txt "no") false (mkStream (ft_bytes mo_ft) 0))) =
  "Invalid file format Cannot serialize model metadata to TOML: no"%string.
Proof. split; [reflexivity|split; vm_compute; reflexivity]. Qed.
