(** * Theorems about fastText models (C45, C46, C49, C61, C62, C87). *)
From Coq Require Import Reals Permutation.
From Verif Require Import Base BaseFacts Utf8 F32 F32Facts Stream ChunkIO Subword Vocab Storage Embeddings TextIO FastText FileSpec VocabSpec EmbSpec TextSpec
  FastTextSpec RealOps MatrixFacts LossyFacts.
From Verif Require Import FastTextFacts FastTextThms FastTextReal TextExactSpec FastTextExactSpec FastTextExact Markers P_Emb.
From Verif Require P_File.
Local Open Scope N_scope.

(** ** Concrete values for the examples

    Two words with two buckets; the words have one n-gram each.  Metadata is
    as in [P_File]. *)
Definition ft_T : toml_ops := P_File.ex_toml.
Definition ft_table (c : ft_config) : option (toml_table ft_T) := Some true.
Definition ft_vocab (bow eow : str) : subword_vocab ft_indexer :=
  mkSub bow eow (mkFtIx 2) (create_indices [[x61]; [x62]]) [[x61]; [x62]] 3 6.
Definition ft_emb (bow eow : str) (rows : list (list f32)) (norms : option (list f32))
  : embeddings (toml_table ft_T) (subword_vocab ft_indexer) (array2 f32) f32 :=
  mkEmb None (mkA2 2 rows) (ft_vocab bow eow) norms.
Definition ft_rows : list (list f32) := [[fN 1; fN 0]; [fN 0; fN 1]; [fN 1; fN 2]; [fN 3; fN 4]].

Lemma ft_vocab_ok bow eow : ft_made Debug (ft_vocab bow eow).
Proof.
  exists [[x61]; [x62]], 3, 6, 2, (mkFtIx 2), bow, eow. split; [discriminate|]. split; vm_compute; reflexivity.
Qed.
Lemma ft_emb_ok bow eow r1 r2 r3 r4 norms : utf8_valid bow = true -> utf8_valid eow = true ->
  Forall (fun r => lenN r = 2) [r1; r2; r3; r4] -> (forall ns, norms = Some ns -> lenN ns = 2) ->
  ft_emb_made (nd_ops f32) Debug (ft_emb bow eow [r1; r2; r3; r4] norms) 2 [r1; r2; r3; r4].
Proof.
  intros Vb Ve W N. split; [apply ft_vocab_ok|]. split; [repeat constructor|]. split.
  { intros mn mx b e E. cbn in E. injection E as <- <- <- <-. split; [split; discriminate|auto]. }
  split; [apply (nd_matrix (mkA2 2 _)); exact W|]. split; [vm_compute; reflexivity|exact N].
Qed.
Definition ft_ex : embeddings (toml_table ft_T) (subword_vocab ft_indexer) (array2 f32) f32 :=
  ft_emb default_bow default_eow ft_rows (Some [fN 2; fN 4]).
Lemma ft_ex_made : ft_emb_made (nd_ops f32) Debug ft_ex 2 ft_rows.
Proof. apply ft_emb_ok; [reflexivity|reflexivity|repeat constructor|]. intros ns H. injection H as <-. reflexivity. Qed.

(** ** C45: writing and reading

    Full statement: [read_fasttext] returns the embeddings that were written,
    in exact arithmetic.  The reader divides the vectors of words by their
    lengths, so that this only holds for embeddings that are normalised, and
    boundary markers are not stored. *)
Theorem ft_writes_thm : forall (pf : profile) (T : toml_ops) (S : Type) (SO : storage_ops f32 S) (e : embeddings (toml_table T) (subword_vocab ft_indexer) S f32) (cols : N) (rows : list (list f32)), ft_emb_made SO pf e cols rows ->
  forall base,
  lenN (sv_words (em_vocab e)) < two32 -> cols < two32 ->
    exists subs rows', subwords_are (em_vocab e) subs /\ unaveraged f32_ops (em_vocab e) subs (ft_norm f32_ops e) rows rows' /\
    Forall (fun r => lenN r = cols) rows' /\
    run_writer (write_fasttext pf T SO e) base = Ok (ft_bytes (ft_written e cols rows')).
Proof. exact (@FastTextThms.ft_writes). Qed.
Print Assumptions ft_writes_thm.
Theorem ft_write_overflow_thm : forall (pf : profile) (T : toml_ops) (S : Type) (SO : storage_ops f32 S) (e : embeddings (toml_table T) (subword_vocab ft_indexer) S f32) (cols : N) (rows : list (list f32)), ft_emb_made SO pf e cols rows ->
  forall base,
  two32 <= lenN (sv_words (em_vocab e)) \/ two32 <= cols ->
    run_writer (write_fasttext pf T SO e) base = Err EOverflow.
Proof. exact (@FastTextThms.ft_write_overflow). Qed.
Print Assumptions ft_write_overflow_thm.
Theorem ft_round_trip_partial : forall (pf : profile) (T : toml_ops) (config_table : ft_config -> option (toml_table T)) (S : Type) (SO : storage_ops f32 S) (e : embeddings (toml_table T) (subword_vocab ft_indexer) S f32) (cols : N) (rows : list (list f32)),
  forall lossy base rest,
  ft_emb_made SO pf e cols rows ->
    lenN (sv_words (em_vocab e)) < two32 -> cols < two32 -> sv_min (em_vocab e) < two32 -> sv_max (em_vocab e) < two32 ->
    dims_ok [lenN rows; cols] 4 -> Forall (fun w => ~ In x00 w) (sv_words (em_vocab e)) ->
    sv_bow (em_vocab e) = default_bow -> sv_eow (em_vocab e) = default_eow -> (forall c, config_table c <> None) ->
    exists subs rows1 rows2 out e' ns, run_writer (write_fasttext pf T SO e) base = Ok out /\
    run_reader (read_fasttext pf T config_table lossy) (out ++ rest) = Ok e' /\
    em_vocab e' = em_vocab e /\ a2_cols (em_storage e') = cols /\
    subwords_are (em_vocab e) subs /\ unaveraged f32_ops (em_vocab e) subs (ft_norm f32_ops e) rows rows1 /\
    averaged f32_ops (em_vocab e) subs rows1 rows2 /\
    first_normalized f32_ops (lenN (sv_words (em_vocab e))) rows2 (a2_rows (em_storage e')) ns /\ em_norms e' = Some ns.
Proof. exact (@FastTextThms.ft_round_trip). Qed.
Print Assumptions ft_round_trip_partial.
Theorem ft_round_trip_thm : forall (pf : profile) (T : toml_ops) (config_table : ft_config -> option (toml_table T)) (S : Type) (SO : storage_ops f32 S) (e : embeddings (toml_table T) (subword_vocab ft_indexer) S f32) (cols : N) (rows : list (list f32)),
  forall lossy base rest,
  ft_emb_made SO pf e cols rows ->
    lenN (sv_words (em_vocab e)) < two32 -> cols < two32 -> sv_min (em_vocab e) < two32 -> sv_max (em_vocab e) < two32 ->
    dims_ok [lenN rows; cols] 4 -> Forall (fun w => ~ In x00 w) (sv_words (em_vocab e)) ->
    sv_bow (em_vocab e) = default_bow -> sv_eow (em_vocab e) = default_eow -> (forall c, config_table c <> None) ->
    exists subs rows1 rows2 out e' ns, run_writer (write_fasttext pf T SO e) base = Ok out /\
    run_reader (read_fasttext pf T config_table lossy) (out ++ rest) = Ok e' /\
    em_vocab e' = em_vocab e /\ a2_cols (em_storage e') = cols /\
    subwords_are (em_vocab e) subs /\ unaveraged f32_ops (em_vocab e) subs (ft_norm f32_ops e) rows rows1 /\
    averaged f32_ops (em_vocab e) subs rows1 rows2 /\
    first_normalized f32_ops (lenN (sv_words (em_vocab e))) rows2 (a2_rows (em_storage e')) ns /\ em_norms e' = Some ns.
Proof. exact (@FastTextThms.ft_round_trip). Qed.
Print Assumptions ft_round_trip_thm.

(** Words are put between "<" and ">". *)
Theorem fasttext_markers_thm : forall pf T ct lossy s e s',
  read_fasttext pf T ct lossy s = (Ok e, s') -> marked (em_vocab e).
Proof. exact (@Markers.fasttext_marked). Qed.
Print Assumptions fasttext_markers_thm.
Example ft_round_trip_ex : ft_emb_made (nd_ops f32) Debug ft_ex 2 ft_rows /\
  lenN (sv_words (em_vocab ft_ex)) < two32 /\ 2 < two32 /\ sv_min (em_vocab ft_ex) < two32 /\ sv_max (em_vocab ft_ex) < two32 /\
  dims_ok [lenN ft_rows; 2] 4 /\ Forall (fun w => ~ In x00 w) (sv_words (em_vocab ft_ex)) /\
  sv_bow (em_vocab ft_ex) = default_bow /\ sv_eow (em_vocab ft_ex) = default_eow /\ (forall c, ft_table c <> None) /\
  exists out e', run_writer (write_fasttext Debug ft_T (nd_ops f32) ft_ex) 0 = Ok out /\
  run_reader (read_fasttext Debug ft_T ft_table false) out = Ok e' /\
  em_vocab e' = em_vocab ft_ex /\ a2_rows (em_storage e') = ft_rows /\ em_norms e' = Some [fN 2; fN 4].
Proof.
  split; [apply ft_ex_made|]. do 4 (split; [reflexivity|]). split; [split; vm_compute; discriminate|].
  split; [repeat constructor; cbn; intuition discriminate|]. do 2 (split; [reflexivity|]). split; [discriminate|].
  eexists. eexists. split; [vm_compute; reflexivity|]. split; [vm_compute; reflexivity|]. repeat split; vm_compute; reflexivity.
Qed.

(** What exact arithmetic adds (C62). *)
Theorem ft_exact_rows_thm : forall v subs norms rows rows1 rows2 rows3 ns,
  subwords_are v subs ->
  unaveraged R_ops v subs norms rows rows1 -> averaged R_ops v subs rows1 rows2 ->
  first_normalized R_ops (lenN (sv_words v)) rows2 rows3 ns ->
  lenN rows3 = lenN rows /\ lenN ns = lenN (sv_words v) /\
  (forall i, lenN (sv_words v) <= i -> nthN rows3 i = nthN rows i) /\
  (forall i, i < lenN (sv_words v) -> exists own d n, nthN rows i = Some own /\ nthN rows3 i = Some d /\ nthN ns i = Some n /\
     map (fun x => (x * n)%R) d = map (fun x => (x * norms i)%R) own /\ (0 <= n)%R /\ (n <> 0%R -> inner d d = 1%R) /\
     (inner own own = 1%R -> (0 < norms i)%R -> d = own /\ n = norms i)).
Proof. exact (@FastTextReal.exact_round_trip). Qed.
Print Assumptions ft_exact_rows_thm.
Theorem ft_exact_functions_thm : forall (Md S : Type) (SO : storage_ops R S) pf (e : embeddings Md (subword_vocab ft_indexer) S R) cols rows,
  ft_emb_made SO pf e cols rows ->
  let v := em_vocab e in
  exists items written a rows' ns,
  emb_iter_with_norms R_ops (sub_ops ft_ops) SO e = Ok items /\
  rmap (fun it => ft_word_vector R_ops pf SO v (em_storage e) (fst it) (snd it)) items = Ok written /\
  add_subword_embeddings R_ops pf v (mkA2 cols (written ++ dropN (lenN (sv_words v)) rows)) = Ok a /\
  normalize_words R_ops (sub_words_len v) a = Ok (mkA2 cols rows', ns) /\
  lenN rows' = lenN rows /\ lenN ns = lenN (sv_words v) /\
  (forall i, lenN (sv_words v) <= i -> nthN rows' i = nthN rows i) /\
  (forall i, i < lenN (sv_words v) -> exists own d n, nthN rows i = Some own /\ nthN rows' i = Some d /\ nthN ns i = Some n /\
     map (fun x => (x * n)%R) d = map (fun x => (x * ft_norm R_ops e i)%R) own /\ (0 <= n)%R /\ (n <> 0%R -> inner d d = 1%R) /\
     (inner own own = 1%R -> (0 < ft_norm R_ops e i)%R -> d = own /\ n = ft_norm R_ops e i)).
Proof. exact (@FastTextReal.exact_functions). Qed.
Print Assumptions ft_exact_functions_thm.

Definition ft_exR : embeddings unit (subword_vocab ft_indexer) (array2 R) R :=
  mkEmb None (mkA2 2 [[1; 0]; [0; 1]; [1; 2]; [3; 4]]%R) (ft_vocab default_bow default_eow) (Some [2; 4]%R).
Example ft_exact_ex : ft_emb_made (nd_ops R) Debug ft_exR 2 [[1; 0]; [0; 1]; [1; 2]; [3; 4]]%R /\
  inner [1; 0]%R [1; 0]%R = 1%R /\ (0 < ft_norm R_ops ft_exR 0)%R.
Proof.
  split; [|split; [unfold inner; cbn; Lra.lra|change (0 < 2)%R; Lra.lra]].
  split; [apply ft_vocab_ok|]. split; [repeat constructor|]. split.
  { intros mn mx b e E. cbn in E. injection E as <- <- <- <-. split; [split; discriminate|split; reflexivity]. }
  split; [apply (nd_matrix (mkA2 2 _)); repeat constructor|]. split; [reflexivity|]. intros ns H. injection H as <-. reflexivity.
Qed.

(** The vectors [3 4] and [0 1] without norms. *)
Theorem ft_round_trip_refuted : let rows := [[fN 3; fN 4]; [fN 0; fN 1]; [fN 1; fN 2]; [fN 3; fN 4]] in
  let e := ft_emb default_bow default_eow rows None in
  ft_emb_made (nd_ops f32) Debug e 2 rows /\
  exists out e', run_writer (write_fasttext Debug ft_T (nd_ops f32) e) 0 = Ok out /\
  run_reader (read_fasttext Debug ft_T ft_table false) out = Ok e' /\
  nthN (a2_rows (em_storage e')) 0 <> nthN rows 0 /\ em_norms e' = Some [fN 5; fN 1].
Proof.
  split; [apply ft_emb_ok; [reflexivity|reflexivity|repeat constructor|discriminate]|].
  eexists. eexists. split; [vm_compute; reflexivity|]. split; [vm_compute; reflexivity|]. split; [vm_compute; discriminate|vm_compute; reflexivity].
Qed.
Print Assumptions ft_round_trip_refuted.
(** Other boundary markers than the default ones. *)
Theorem ft_boundaries_refuted : let e := ft_emb [x28] [x29] ft_rows None in
  ft_emb_made (nd_ops f32) Debug e 2 ft_rows /\
  exists out e', run_writer (write_fasttext Debug ft_T (nd_ops f32) e) 0 = Ok out /\
  run_reader (read_fasttext Debug ft_T ft_table false) out = Ok e' /\
  sv_bow (em_vocab e') = default_bow /\ nthN (a2_rows (em_storage e')) 0 <> nthN ft_rows 0.
Proof.
  split; [apply ft_emb_ok; [reflexivity|reflexivity|repeat constructor|discriminate]|].
  eexists. eexists. split; [vm_compute; reflexivity|]. split; [vm_compute; reflexivity|]. split; [reflexivity|vm_compute; discriminate].
Qed.
Print Assumptions ft_boundaries_refuted.

(** ** C46, C61: the result for files *)
Theorem ft_unsupported_thm : forall (pf : profile) (T : toml_ops) (config_table : ft_config -> option (toml_table T)),
  forall lossy f rest,
  ft_fields_ok f -> ~ ft_supported f \/ ~ (exists ws, ft_words lossy f ws) ->
    run_reader (read_fasttext pf T config_table lossy) (ft_bytes f ++ rest) = Err EFormat.
Proof. exact (@FastTextThms.ft_unsupported). Qed.
Print Assumptions ft_unsupported_thm.
Theorem ft_outcomes_thm : forall (pf : profile) (T : toml_ops) (config_table : ft_config -> option (toml_table T)),
  forall lossy f c ws rest,
  ft_fields_ok f -> ft_supported f -> ft_config_is f c -> ft_words lossy f ws ->
    ft_matrix_ok (ff_matrix f) -> fc_bucket c <> 0 -> fc_bucket c <= i32_max -> NoDup ws -> (ws <> [] -> range_ok (fc_min_n c) (fc_max_n c)) ->
    config_table c <> None ->
    exists v subs, sub_new ft_ops pf ws (fc_min_n c) (fc_max_n c) (mkFtIx (fc_bucket c)) = Ok v /\ subwords_are v subs /\
    let r := run_reader (read_fasttext pf T config_table lossy) (ft_bytes f ++ rest) in let k := lenN (a2_rows (ff_matrix f)) in
    (ff_quant f = 1 -> r = Err EFormat) /\
    (ff_quant f <> 1 -> rows_missing ws subs k -> r = Panic PIndexOutOfBounds) /\
    (ff_quant f <> 1 -> k <> lenN ws + fc_bucket c -> ~ rows_missing ws subs k -> r = Err EMatrixShape) /\
    (ff_quant f <> 1 -> k = lenN ws + fc_bucket c -> exists e, r = Ok e /\ em_vocab e = v /\ ft_result T config_table pf f c ws subs e).
Proof. exact (@FastTextThms.ft_outcomes). Qed.
Print Assumptions ft_outcomes_thm.
Theorem ft_load_panics_thm : forall (pf : profile) (T : toml_ops) (config_table : ft_config -> option (toml_table T)),
  forall lossy f c ws rest,
  ft_fields_ok f -> ft_supported f -> ft_config_is f c -> ft_words lossy f ws ->
    (i32_max < fc_bucket c -> run_reader (read_fasttext pf T config_table lossy) (ft_bytes f ++ rest) = Panic PAssert) /\
    (fc_bucket c <= i32_max -> ~ NoDup ws -> run_reader (read_fasttext pf T config_table lossy) (ft_bytes f ++ rest) = Panic PDuplicateWords) /\
    (fc_bucket c <= i32_max -> NoDup ws -> ws <> [] -> ~ range_ok (fc_min_n c) (fc_max_n c) -> ff_quant f <> 1 -> ft_matrix_ok (ff_matrix f) ->
       run_reader (read_fasttext pf T config_table lossy) (ft_bytes f ++ rest) = Panic PAssert).
Proof. exact (@FastTextThms.ft_load_panics). Qed.
Print Assumptions ft_load_panics_thm.
Theorem ft_accepted_thm : forall (pf : profile) (T : toml_ops) (config_table : ft_config -> option (toml_table T)),
  forall lossy data e,
  run_reader (read_fasttext pf T config_table lossy) data = Ok e ->
    exists f c ws rest, data = ft_bytes f ++ rest /\ ft_fields_ok f /\ ft_supported f /\ ft_config_is f c /\ ft_words lossy f ws /\
    ft_matrix_ok (ff_matrix f) /\ ff_quant f <> 1 /\ NoDup ws /\ fc_bucket c <= i32_max /\ (ws <> [] -> range_ok (fc_min_n c) (fc_max_n c)) /\
    lenN (a2_rows (ff_matrix f)) = lenN ws + fc_bucket c /\ (fc_bucket c <> 0 -> exists subs, ft_result T config_table pf f c ws subs e).
Proof. exact (@FastTextThms.ft_accepted). Qed.
Print Assumptions ft_accepted_thm.
Theorem ft_order_thm : forall (F : Type) (o : fops F),
  forall pf v a l,
  ft_made pf v -> vocab_usable (VFastText v) -> vocab_utf8 v -> a2_wf a ->
    lenN (sv_words v) + fi_buckets (sv_ix v) <= lenN (a2_rows a) ->
    Permutation l (enumerate (sv_words v)) ->
    rfold (add_subwords_step o pf v) l a = add_subword_embeddings o pf v a.
Proof. exact (@FastTextFacts.averaging_order). Qed.
Print Assumptions ft_order_thm.

(** A file with the given number of buckets, n-gram lengths, words, quantizer
    flag and number of rows. *)
Definition ft_ex_file (bucket mn mx : N) (ws : list str) (quant : N) (rows : list (list f32)) : ft_file :=
  mkFtFile 793712314 12 [1; 5; 5; 5; 5; 1; 2; 2; bucket; mn; mx; 100] 0 (lenN ws) 0 9 (2 ^ 64 - 1) (map (fun w => (w, 3, 0)) ws) quant (mkA2 1 rows).
Definition ft_ex_config (bucket mn mx : N) : ft_config := mkFtCfg 1 5 5 5 5 1 NegativeSampling SkipGram bucket mn mx 100 0.
Lemma ft_ex_file_ok bucket mn mx quant rows : bucket < two32 -> mn < two32 -> mx < two32 -> quant < 256 ->
  let f := ft_ex_file bucket mn mx [[x61]; [x62]] quant rows in
  ft_fields_ok f /\ ft_supported f /\ ft_config_is f (ft_ex_config bucket mn mx) /\ ft_words false f [[x61]; [x62]].
Proof.
  intros B Mn Mx Q f. split; [|split; [|split; [split; reflexivity|]]].
  - unfold ft_fields_ok. cbn [f ft_ex_file ff_magic ff_version ff_numbers ff_threshold ff_nwords ff_nlabels ff_tokens ff_prune ff_entries ff_quant map].
    split; [repeat (constructor; [first [assumption|reflexivity]|]); constructor|]. split; [reflexivity|]. split; [reflexivity|].
    split; [repeat (constructor; [reflexivity|]); constructor|]. split; [reflexivity|]. split; [reflexivity|]. split; [|exact Q].
    repeat constructor; cbn; intuition discriminate.
  - split; [reflexivity|]. split; [vm_compute; discriminate|]. split; [exists (ft_ex_config bucket mn mx); split; reflexivity|]. split; [reflexivity|].
    split; [vm_compute; discriminate|]. repeat constructor.
  - repeat constructor.
Qed.
(** Accepted; a quantizer; too many rows. *)
Definition ft_ex_rows : list (list f32) := [[fN 1]; [fN 2]; [fN 3]; [fN 5]].
Example ft_outcomes_ex : let f := ft_ex_file 2 3 6 [[x61]; [x62]] 0 ft_ex_rows in
  ft_fields_ok f /\ ft_supported f /\ ft_config_is f (ft_ex_config 2 3 6) /\ ft_words false f [[x61]; [x62]] /\ ft_matrix_ok (ff_matrix f) /\
  (exists e, run_reader (read_fasttext Debug ft_T ft_table false) (ft_bytes f) = Ok e /\ a2_rows (em_storage e) = [[fN 1]; [fN 1]; [fN 3]; [fN 5]]) /\
  run_reader (read_fasttext Debug ft_T ft_table false) (ft_bytes (ft_ex_file 2 3 6 [[x61]; [x62]] 1 ft_ex_rows)) = Err EFormat /\
  run_reader (read_fasttext Debug ft_T ft_table false) (ft_bytes (ft_ex_file 1 3 6 [[x61]; [x62]] 0 ft_ex_rows)) = Err EMatrixShape.
Proof.
  intros f. destruct (ft_ex_file_ok 2 3 6 0 ft_ex_rows) as (H1 & H2 & H3 & H4); [reflexivity..|].
  split; [exact H1|]. split; [exact H2|]. split; [exact H3|]. split; [exact H4|].
  split; [split; [repeat constructor|]; split; [reflexivity|]; split; [reflexivity|]; split; vm_compute; discriminate|].
  split; [eexists; split; vm_compute; reflexivity|]. split; vm_compute; reflexivity.
Qed.
(** A model with labels, for example. *)
Example ft_unsupported_ex : let f := mkFtFile 793712314 12 [1; 5; 5; 5; 5; 1; 2; 2; 2; 3; 6; 100] 0 0 1 9 (2 ^ 64 - 1) [] 0 (mkA2 1 []) in
  ft_fields_ok f /\ ~ ft_supported f /\ run_reader (read_fasttext Debug ft_T ft_table false) (ft_bytes f) = Err EFormat.
Proof.
  intros f. split; [|split; [intros (_ & _ & _ & H & _); discriminate H|vm_compute; reflexivity]].
  unfold ft_fields_ok. cbn [f ff_magic ff_version ff_numbers ff_threshold ff_nwords ff_nlabels ff_tokens ff_prune ff_entries ff_quant].
  split; [repeat (constructor; [reflexivity|]); constructor|]. split; [reflexivity|]. split; [reflexivity|].
  split; [repeat (constructor; [reflexivity|]); constructor|]. split; [reflexivity|]. split; [reflexivity|]. split; [constructor|reflexivity].
Qed.
Example ft_order_ex : ft_made Debug (ft_vocab default_bow default_eow) /\ vocab_usable (VFastText (ft_vocab default_bow default_eow)) /\
  vocab_utf8 (ft_vocab default_bow default_eow) /\ a2_wf (mkA2 2 ft_rows) /\
  Permutation [(1, [x62]); (0, [x61])] (enumerate (sv_words (ft_vocab default_bow default_eow))) /\
  exists a, rfold (add_subwords_step f32_ops Debug (ft_vocab default_bow default_eow)) [(1, [x62]); (0, [x61])] (mkA2 2 ft_rows) = Ok a /\ a2_rows a <> ft_rows.
Proof.
  destruct ft_ex_made as (M & V & U & _). split; [exact M|]. split; [exact U|]. split; [exact V|]. split; [repeat constructor|].
  split; [apply perm_swap|]. eexists. split; [vm_compute; reflexivity|]. vm_compute. discriminate.
Qed.

(** Matrices with too few rows cause panics, unless no word needs the missing
    rows: here a word needs row 3 of 3. *)
Theorem ft_rows_refuted : let f := ft_ex_file 2 3 6 [[x61]; [x62]] 0 [[fN 1]; [fN 2]; [fN 3]] in
  ft_fields_ok f /\ ft_supported f /\
  run_reader (read_fasttext Debug ft_T ft_table false) (ft_bytes f) = Panic PIndexOutOfBounds.
Proof. destruct (ft_ex_file_ok 2 3 6 0 [[fN 1]; [fN 2]; [fN 3]]) as (H1 & H2 & _); [reflexivity..|]. split; [exact H1|]. split; [exact H2|]. vm_compute. reflexivity. Qed.
Print Assumptions ft_rows_refuted.
(** Models trained without subwords (n-gram lengths 0 and no buckets), and
    models without buckets. *)
Theorem ft_no_subwords_refuted : let f := ft_ex_file 0 0 0 [[x61]; [x62]] 0 [[fN 1]; [fN 2]] in
  ft_fields_ok f /\ ft_supported f /\
  run_reader (read_fasttext Debug ft_T ft_table false) (ft_bytes f) = Panic PAssert /\
  run_reader (read_fasttext Debug ft_T ft_table false) (ft_bytes (ft_ex_file 0 3 6 [[x61]; [x62]] 0 [[fN 1]; [fN 2]])) = Panic PDivByZero.
Proof. destruct (ft_ex_file_ok 0 0 0 0 [[fN 1]; [fN 2]]) as (H1 & H2 & _); [reflexivity..|]. split; [exact H1|]. split; [exact H2|]. split; vm_compute; reflexivity. Qed.
Print Assumptions ft_no_subwords_refuted.
(** The number of columns of the matrix is not compared with that of the
    configuration; counts are not compared either. *)
Theorem ft_columns_refuted : exists f e, ft_fields_ok f /\ ft_config_is f (ft_ex_config 2 3 6) /\ fc_dims (ft_ex_config 2 3 6) = 1 /\
  run_reader (read_fasttext Debug ft_T ft_table false) (ft_bytes f) = Ok e /\ a2_cols (em_storage e) = 2.
Proof.
  set (f := ft_ex_file 2 3 6 [[x61]; [x62]] 0 ft_ex_rows).
  exists (mkFtFile (ff_magic f) (ff_version f) (ff_numbers f) (ff_threshold f) (ff_nwords f) (ff_nlabels f) (ff_tokens f) (ff_prune f) (ff_entries f) (ff_quant f) (mkA2 2 ft_rows)).
  destruct (ft_ex_file_ok 2 3 6 0 ft_ex_rows) as (H1 & _ & H3 & _); [reflexivity..|]. eexists. split; [exact H1|]. split; [exact H3|]. split; [reflexivity|]. split; vm_compute; reflexivity.
Qed.
Print Assumptions ft_columns_refuted.

(** ** C49: the lossy reader *)
Theorem ft_lossy_agrees_thm : forall (pf : profile) (T : toml_ops) (config_table : ft_config -> option (toml_table T)),
  relaxes (read_fasttext pf T config_table false) (read_fasttext pf T config_table true).
Proof. exact (@FastTextThms.ft_relaxes). Qed.
Print Assumptions ft_lossy_agrees_thm.

(** ** C87: every outcome of the reader *)
Theorem ft_every_outcome_thm : forall (pf : profile) (T : toml_ops) (config_table : ft_config -> option (toml_table T)),
  forall lossy data o,
  run_reader (read_fasttext pf T config_table lossy) data = o <-> ft_outcome pf T config_table lossy data o.
Proof. exact (@FastTextExact.ft_exact). Qed.
Print Assumptions ft_every_outcome_thm.

(** Each case occurs: a model; without buckets, words without n-grams; cut
    files; a wrong number; a wrong version, loss function and label; a word
    that is not UTF-8; too many buckets; duplicate words; a quantizer; a
    matrix that does not fit or is cut; bad lengths; no buckets; missing and
    superfluous rows; a configuration that is no table. *)
Definition ft_ex_out (lossy : bool) (data : list byte) (o : res (embeddings (toml_table ft_T) (subword_vocab ft_indexer) (array2 f32) f32)) : Prop :=
  ft_outcome Debug ft_T ft_table lossy data o.
Definition ft_ex_bytes (bucket mn mx : N) (ws : list str) (quant : N) (rows : list (list f32)) : list byte := ft_bytes (ft_ex_file bucket mn mx ws quant rows).
Example ft_every_outcome_ex :
  (exists e, ft_ex_out false (ft_ex_bytes 2 3 6 [[x61]; [x62]] 0 ft_ex_rows) (Ok e)) /\
  (exists e, ft_ex_out false (ft_ex_bytes 0 4 6 [[x61]; [x62]] 0 [[fN 1]; [fN 2]]) (Ok e)) /\
  (exists e, ft_ex_out true (ft_ex_bytes 2 3 6 [[xff]; [x62]] 0 ft_ex_rows) (Ok e)) /\
  ft_ex_out false [] (Err ERead) /\ ft_ex_out false (le_bytes 4 793712315) (Err EFormat) /\
  ft_ex_out false (le_bytes 4 793712314 ++ le_bytes 4 13) (Err EFormat) /\
  ft_ex_out false (u32s_bytes [793712314; 12; 1; 5; 5; 5; 5; 1; 4]) (Err EFormat) /\
  ft_ex_out false (u32s_bytes [793712314; 12; 1; 5; 5; 5; 5; 1; 3]) (Err ERead) /\
  ft_ex_out false (ft_ex_bytes 2 3 6 [[xff]; [x62]] 0 ft_ex_rows) (Err EFormat) /\
  ft_ex_out false (takeN 100 (ft_ex_bytes 2 3 6 [[x61]; [x62]] 0 ft_ex_rows)) (Err ERead) /\
  ft_ex_out false (ft_ex_bytes (2 ^ 31) 3 6 [[x61]; [x61]] 0 ft_ex_rows) (Panic PAssert) /\
  ft_ex_out false (ft_ex_bytes 2 3 6 [[x61]; [x61]] 0 ft_ex_rows) (Panic PDuplicateWords) /\
  ft_ex_out false (ft_ex_bytes 2 3 6 [[x61]; [x62]] 1 ft_ex_rows) (Err EFormat) /\
  ft_ex_out false (takeN 118 (ft_ex_bytes 2 3 6 [[x61]; [x62]] 0 []) ++ le_bytes 8 (2 ^ 32) ++ le_bytes 8 (2 ^ 32)) (Panic PCapacity) /\
  ft_ex_out false (takeN 118 (ft_ex_bytes 2 3 6 [[x61]; [x62]] 0 []) ++ le_bytes 8 5 ++ le_bytes 8 1) (Err ERead) /\
  ft_ex_out false (ft_ex_bytes 2 0 6 [[x61]; [x62]] 0 ft_ex_rows) (Panic PAssert) /\
  ft_ex_out false (ft_ex_bytes 0 3 6 [[x61]; [x62]] 0 ft_ex_rows) (Panic PDivByZero) /\
  ft_ex_out false (ft_ex_bytes 2 3 6 [[x61]; [x62]] 0 [[fN 1]; [fN 2]; [fN 3]]) (Panic PIndexOutOfBounds) /\
  ft_ex_out false (ft_ex_bytes 1 3 6 [[x61]; [x62]] 0 ft_ex_rows) (Err EMatrixShape) /\
  ft_outcome Debug ft_T (fun _ => None) false (ft_ex_bytes 2 3 6 [[x61]; [x62]] 0 ft_ex_rows) (Err EFormat).
Proof.
  assert (forall lossy data o, run_reader (read_fasttext Debug ft_T ft_table lossy) data = o -> ft_ex_out lossy data o) as R by (intros lossy data o; apply ft_every_outcome_thm).
  split; [eexists; apply R; vm_compute; reflexivity|]. split; [eexists; apply R; vm_compute; reflexivity|]. split; [eexists; apply R; vm_compute; reflexivity|].
  repeat (split; [apply R; vm_compute; reflexivity|]). apply ft_every_outcome_thm. vm_compute. reflexivity.
Qed.
