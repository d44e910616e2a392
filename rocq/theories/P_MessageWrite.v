(** * Theorems about the texts of errors of writers (C126-C128). *)
From Coq Require Import Strings.String.
From Verif Require Import Base BaseFacts Utf8 Stream F32 ChunkIO Subword Vocab Storage Embeddings TextIO FastText EmbSpec
  FileSpec FastTextSpec MatrixFacts Messages MessageSpec WriteMessages WriteSpec WriteErasure WriteTexts WriteOther WriteRefuted WriteLayout.
From Verif Require P_Emb P_File P_FastText P_Text.
Local Open Scope N_scope.

(** ** The writers with texts are the writers of the model *)
Theorem write_erasure_thm : forall T e,
  wsame (tell_file T e) (write_file T e).
Proof. exact (@WriteErasure.wsame_file). Qed.
Print Assumptions write_erasure_thm.
Theorem write_text_erasure_thm : forall (P : ftext_ops) (Md V S : Type) (VO : vocab_ops V) (SO : storage_ops f32 S), (forall s i e, st_embedding SO s i <> Err e) ->
  forall u e,
  wsame (tell_text P VO SO u e) (@write_text P Md V S VO SO u e).
Proof. exact (@WriteErasure.wsame_text). Qed.
Print Assumptions write_text_erasure_thm.
Theorem write_text_dims_erasure_thm : forall (P : ftext_ops) (Md V S : Type) (VO : vocab_ops V) (SO : storage_ops f32 S), (forall s i e, st_embedding SO s i <> Err e) ->
  forall u e,
  wsame (tell_text_dims P VO SO u e) (@write_text_dims P Md V S VO SO u e).
Proof. exact (@WriteErasure.wsame_text_dims). Qed.
Print Assumptions write_text_dims_erasure_thm.
Theorem write_word2vec_erasure_thm : forall (Md V S : Type) (VO : vocab_ops V) (SO : storage_ops f32 S), (forall s i e, st_embedding SO s i <> Err e) ->
  forall u e,
  wsame (tell_word2vec VO SO u e) (@write_word2vec Md V S VO SO u e).
Proof. exact (@WriteErasure.wsame_word2vec). Qed.
Print Assumptions write_word2vec_erasure_thm.
Theorem write_floret_erasure_thm : forall P pf (Md : Type) (e : embeddings Md (subword_vocab floret_indexer) (array2 f32) f32),
  wsame (tell_floret_text P pf e) (write_floret_text P pf e).
Proof. exact (@WriteErasure.wsame_floret_text). Qed.
Print Assumptions write_floret_erasure_thm.
Theorem write_fasttext_erasure_thm : forall (pf : profile) (T : toml_ops) (S : Type) (SO : storage_ops f32 S), (forall s i e, st_embedding SO s i <> Err e) ->
  forall (e : embeddings (toml_table T) (subword_vocab ft_indexer) S f32),
  wsame (tell_fasttext pf SO e) (write_fasttext pf T SO e).
Proof. exact (@WriteErasure.wsame_fasttext). Qed.
Print Assumptions write_fasttext_erasure_thm.

Lemma nd_no_error s i e : st_embedding (nd_ops f32) s i <> Err e.
Proof. cbn. unfold a2_row, index. destruct (nthN (a2_rows s) i); discriminate. Qed.
Example write_erasure_ex : (forall s i e, st_embedding (nd_ops f32) s i <> Err e) /\
  write_file P_File.ex_toml (P_File.ex_emb None) (mkSink 0 [] (Some 3)) = (Err EWrite, mkSink 0 (takeN 3 magic) (Some 3)).
Proof. split; [exact nd_no_error|vm_compute; reflexivity]. Qed.

(** ** C126: finalfusion files

    Full statement: the text names the field that could not be written.  For
    two fields it names something else. *)
Theorem full_device_partial : forall T (e : emb T) base bytes,
  run_writer (write_file T e) base = Ok bytes ->
  tells_room (tell_file T e) base bytes (wfile e base).
Proof. exact (@WriteTexts.full_device). Qed.
Print Assumptions full_device_partial.
Theorem full_device_kind_thm : forall T (e : emb T) base bytes c,
  run_writer (write_file T e) base = Ok bytes -> c < lenN bytes ->
  exists err, fst (tell_file T e (mkSink base [] (Some c))) = MErr err /\ kind err = EWrite.
Proof. exact (@WriteRefuted.full_device_kind). Qed.
Print Assumptions full_device_kind_thm.
Theorem ngram_texts_thm : forall v base bytes c,
  run_writer (write_explicit v) base = Ok bytes ->
  20 <= c < 28 \/ (ei_ngrams (sv_ix v) <> [] /\ 36 + words_size (sv_words v) <= c < 40 + words_size (sv_words v)) ->
  fst (tell_explicit v (mkSink base [] (Some c))) = MErr (MWrite (txt "Cannot write ngram length")).
Proof. exact (@WriteRefuted.ngram_texts). Qed.
Print Assumptions ngram_texts_thm.
Theorem ngram_text_refuted : exists v g bytes c c', run_writer (write_explicit v) 0 = Ok bytes /\ ei_ngrams (sv_ix v) = [g] /\
  takeN 8 (dropN c bytes) = le_bytes 8 (lenN (ei_ngrams (sv_ix v))) /\ takeN (4 + lenN g) (dropN c' bytes) = le_bytes 4 (lenN g) ++ g /\ c + 8 <= c' /\
  fst (tell_explicit v (mkSink 0 [] (Some c))) = fst (tell_explicit v (mkSink 0 [] (Some c'))).
Proof. exact (@WriteRefuted.ngram_text_not). Qed.
Print Assumptions ngram_text_refuted.
Theorem centroids_text_thm : forall q base bytes c,
  run_writer (write_quantized q) base = Ok bytes -> 28 <= c < 32 ->
  fst (tell_quantized q (mkSink base [] (Some c))) = MErr (MWrite (txt "Cannot write number of subquantizers")).
Proof. exact (@WriteRefuted.centroids_text). Qed.
Print Assumptions centroids_text_thm.
Theorem centroids_text_refuted : exists q bytes c, run_writer (write_quantized q) 0 = Ok bytes /\ lenN (pq_cent (qa_pq q)) = 1 /\
  takeN 4 (dropN c bytes) = le_bytes 4 2 /\
  fst (tell_quantized q (mkSink 0 [] (Some c))) = MErr (MWrite (txt "Cannot write number of subquantizers")).
Proof. exact (@WriteRefuted.centroids_text_not). Qed.
Print Assumptions centroids_text_refuted.

Definition mw_text {A} (r : mres A) : string :=
  match r with MErr e => string_of_list_byte (display e) | MOk _ => "ok" | MPanic _ => "panic" end.
Definition mw_file (c : N) : string := mw_text (fst (tell_file P_File.ex_toml (P_File.ex_emb (Some P_File.ex_norms)) (mkSink 3 [] (Some c)))).
Example full_device_ex : exists bytes, run_writer (write_file P_File.ex_toml (P_File.ex_emb (Some P_File.ex_norms))) 3 = Ok bytes /\ lenN bytes = 209 /\
  map mw_file [0; 13; 28; 84; 120; 172; 208; 209] =
  ["Cannot write magic"; "Cannot write chunk identifier"; "Cannot write metadata chunk identifier"; "Cannot write string"; "Cannot write embedding matrix type identifier"; "Cannot write embedding matrix component";
   "Cannot write norm"; "ok"]%string.
Proof. eexists. split; [vm_compute; reflexivity|]. split; vm_compute; reflexivity. Qed.
Example ngram_texts_ex : (exists bytes, run_writer (write_explicit P_File.ex_explicit) 5 = Ok bytes) /\ ei_ngrams (sv_ix P_File.ex_explicit) <> [] /\
  words_size (sv_words P_File.ex_explicit) = 15 /\
  map (fun c => mw_text (fst (tell_explicit P_File.ex_explicit (mkSink 5 [] (Some c))))) [19; 20; 27; 28; 50; 51; 55; 57] =
  ["Cannot write vocabulary length"; "Cannot write ngram length"; "Cannot write ngram length"; "Cannot write minimum n-gram length";
   "Cannot write string"; "Cannot write ngram length"; "Cannot write ngram"; "Cannot write ngram idx"]%string.
Proof. split; [eexists; vm_compute; reflexivity|]. split; [discriminate|]. split; vm_compute; reflexivity. Qed.
Example centroids_text_ex : (exists bytes, run_writer (write_quantized P_File.ex_quantized) 5 = Ok bytes) /\
  map (fun c => mw_text (fst (tell_quantized P_File.ex_quantized (mkSink 5 [] (Some c))))) [27; 28; 31; 32] =
  ["Cannot write reconstructed embedding length"; "Cannot write number of subquantizers"; "Cannot write number of subquantizers";
   "Cannot write number of quantized embeddings"]%string.
Proof. split; [eexists; vm_compute; reflexivity|vm_compute; reflexivity]. Qed.

(** ** C127: other formats

    Full statement: the text names the field that could not be written, and
    the error is [Error::Write].  For two fields of fastText models it is not
    so: the type of the model is called the loss function, and the type of an
    entry is reported as an error of reading. *)
Theorem text_full_thm : forall (P : ftext_ops) (Md V S : Type) (VO : vocab_ops V) (SO : storage_ops f32 S) (u : bool) (e : embeddings Md V S f32),
  forall base bytes,
  run_writer (write_text P VO SO u e) base = Ok bytes ->
    tells_room (tell_text P VO SO u e) base bytes [wd (lenN bytes) "Cannot write word embedding"].
Proof. exact (@WriteOther.text_full). Qed.
Print Assumptions text_full_thm.
Theorem text_dims_full_thm : forall (P : ftext_ops) (Md V S : Type) (VO : vocab_ops V) (SO : storage_ops f32 S) (u : bool) (e : embeddings Md V S f32),
  forall base bytes,
  run_writer (write_text_dims P VO SO u e) base = Ok bytes ->
    let first := lenN (dec_print (v_words_len VO (em_vocab e))) + 1 + lenN (dec_print (emb_dims SO e)) + 1 in
    tells_room (tell_text_dims P VO SO u e) base bytes (wtext_dims first (lenN bytes - first)).
Proof. exact (@WriteOther.text_dims_full). Qed.
Print Assumptions text_dims_full_thm.
Theorem word2vec_full_thm : forall (Md V S : Type) (VO : vocab_ops V) (SO : storage_ops f32 S) (u : bool) (e : embeddings Md V S f32),
  forall base bytes cols rows,
  st_matrix SO (em_storage e) cols rows -> run_writer (write_word2vec VO SO u e) base = Ok bytes ->
    let first := lenN (dec_print (v_words_len VO (em_vocab e))) + 1 + lenN (dec_print cols) + 1 in
    tells_room (tell_word2vec VO SO u e) base bytes (wword2vec first cols (v_words VO (em_vocab e))).
Proof. exact (@WriteOther.word2vec_full). Qed.
Print Assumptions word2vec_full_thm.
Theorem floret_full_thm : forall (P : ftext_ops) (pf : profile) (Md : Type) (e : embeddings Md (subword_vocab floret_indexer) (array2 f32) f32),
  forall base bytes n,
  run_writer (write_floret_text P pf e) base = Ok bytes ->
    sub_vocab_len floret_ops pf (em_vocab e) = Ok n ->
    let first := lenN (floret_header e (n - sub_words_len (em_vocab e))) in
    tells_room (tell_floret_text P pf e) base bytes (wfloret_text first (lenN bytes - first)).
Proof. exact (@WriteOther.floret_full). Qed.
Print Assumptions floret_full_thm.
Theorem fasttext_full_partial : forall (pf : profile) (T : toml_ops) (S : Type) (SO : storage_ops f32 S) (e : embeddings (toml_table T) (subword_vocab ft_indexer) S f32) (cols : N) (rows : list (list f32)), ft_emb_made SO pf e cols rows -> let v := em_vocab e in
  forall base bytes,
  run_writer (write_fasttext pf T SO e) base = Ok bytes ->
    tells_room (tell_fasttext pf SO e) base bytes (wfasttext cols (fi_buckets (sv_ix v)) (sv_words v)).
Proof. exact (@WriteOther.fasttext_full). Qed.
Print Assumptions fasttext_full_partial.
Theorem fasttext_model_text_thm : forall (pf : profile) (T : toml_ops) (S : Type) (SO : storage_ops f32 S) (e : embeddings (toml_table T) (subword_vocab ft_indexer) S f32) (cols : N) (rows : list (list f32)), ft_emb_made SO pf e cols rows ->
  forall base bytes c,
  run_writer (write_fasttext pf T SO e) base = Ok bytes -> 32 <= c < 40 ->
    fst (tell_fasttext pf SO e (mkSink base [] (Some c))) = MErr (MWrite (txt "Cannot write loss function")).
Proof. exact (@WriteRefuted.model_text). Qed.
Print Assumptions fasttext_model_text_thm.
Theorem fasttext_entry_type_thm : forall (pf : profile) (T : toml_ops) (S : Type) (SO : storage_ops f32 S) (e : embeddings (toml_table T) (subword_vocab ft_indexer) S f32) (cols : N) (rows : list (list f32)), ft_emb_made SO pf e cols rows ->
  forall base bytes ws w ws',
  run_writer (write_fasttext pf T SO e) base = Ok bytes -> sv_words (em_vocab e) = ws ++ w :: ws' ->
    fst (tell_fasttext pf SO e (mkSink base [] (Some (92 + fold_right N.add 0 (map (fun w => lenN w + 10) ws) + lenN w + 9))))
      = MErr (MRead (txt "Cannot read entry type")).
Proof. exact (@WriteRefuted.entry_type_text). Qed.
Print Assumptions fasttext_entry_type_thm.

Example word2vec_full_ex : st_matrix (nd_ops f32) (em_storage P_Emb.ex_emb) 2 P_Emb.ex_rows /\
  v_words wrap_ops (em_vocab P_Emb.ex_emb) = P_Emb.ex_words /\ map (@lenN _) P_Emb.ex_words = [3; 4] /\
  (exists bytes, run_writer (write_word2vec wrap_ops (nd_ops f32) true P_Emb.ex_emb) 0 = Ok bytes /\ lenN bytes = 31) /\
  map (fun c => mw_text (fst (tell_word2vec wrap_ops (nd_ops f32) true P_Emb.ex_emb (mkSink 0 [] (Some c))))) [3; 4; 8; 15; 16; 17; 31] =
  ["Cannot write word embedding matrix shape"; "Cannot write token"; "Cannot write embedding component"; "Cannot write embedding component";
   "Cannot write embedding separator"; "Cannot write token"; "ok"]%string.
Proof.
  split; [apply (nd_matrix P_Emb.ex_matrix), P_Emb.ex_matrix_wf|]. split; [reflexivity|]. split; [reflexivity|].
  split; [eexists; split; vm_compute; reflexivity|vm_compute; reflexivity].
Qed.
Example text_full_ex : (exists bytes, run_writer (write_text P_Text.ex_P wrap_ops (nd_ops f32) false P_Emb.ex_emb) 0 = Ok bytes) /\
  (exists bytes, run_writer (write_text_dims P_Text.ex_P wrap_ops (nd_ops f32) false P_Emb.ex_emb) 0 = Ok bytes) /\
  map (fun c => mw_text (fst (tell_text_dims P_Text.ex_P wrap_ops (nd_ops f32) false P_Emb.ex_emb (mkSink 0 [] (Some c))))) [3; 4; 1000] =
  ["Cannot write word embedding matrix shape"; "Cannot write word embedding"; "ok"]%string.
Proof. split; [eexists; vm_compute; reflexivity|]. split; [eexists; vm_compute; reflexivity|vm_compute; reflexivity]. Qed.
Example floret_full_ex : let e := P_Text.floret_emb [x3c] [x3e] in
  (exists bytes, run_writer (write_floret_text P_Text.ex_P Debug e) 0 = Ok bytes) /\
  (exists n, sub_vocab_len floret_ops Debug (em_vocab e) = Ok n) /\
  map (fun c => mw_text (fst (tell_floret_text P_Text.ex_P Debug e (mkSink 0 [] (Some c))))) [0; 30; 1000] =
  ["Cannot write floret embeddings metadata"; "Cannot write embedding"; "ok"]%string.
Proof. split; [eexists; vm_compute; reflexivity|]. split; [eexists; vm_compute; reflexivity|vm_compute; reflexivity]. Qed.
Example fasttext_full_ex : ft_emb_made (nd_ops f32) Debug P_FastText.ft_ex 2 P_FastText.ft_rows /\ sv_words (em_vocab P_FastText.ft_ex) = [] ++ [x61] :: [[x62]] /\
  (exists bytes, run_writer (write_fasttext Debug P_FastText.ft_T (nd_ops f32) P_FastText.ft_ex) 0 = Ok bytes /\ lenN bytes = 163) /\
  map (fun c => mw_text (fst (tell_fasttext Debug (nd_ops f32) P_FastText.ft_ex (mkSink 0 [] (Some c))))) [0; 31; 32; 36; 40; 92; 93; 102; 103; 131; 147; 163] =
  ["Cannot write fastText magic"; "Cannot write word n-gram length"; "Cannot write loss function"; "Cannot write loss function"; "Cannot write number of buckets";
   "Cannot write word"; "Cannot write word terminator"; "Cannot read entry type"; "Cannot write word"; "Cannot write embedding"; "Cannot write subword embedding"; "ok"]%string.
Proof.
  split; [apply P_FastText.ft_ex_made|]. split; [reflexivity|]. split; [eexists; split; vm_compute; reflexivity|vm_compute; reflexivity].
Qed.

(** ** C128: a device that is full, and a reader of what is on it *)
Theorem layout_thm : forall (pf : profile) (T : toml_ops) (e : emb T) (s0 : storage_wrap), emb_built pf T e s0 ->
  forall base,
  Forall2 agree (wfile e base) (main_fields e s0 base ++ last_fields e s0 base).
Proof. exact (@WriteLayout.layout). Qed.
Print Assumptions layout_thm.
Theorem same_field_thm : forall (pf : profile) (T : toml_ops) (te : str -> str) (e : emb T) (s0 : storage_wrap), toml_law T -> emb_built pf T e s0 ->
  forall base bytes b c,
  run_writer (write_file T e) base = Ok bytes -> c < lenN bytes ->
    exists n len werr k,
      nth_error (wfile e base) n = Some (Fld len werr) /\ holds_byte (wfile e base) n c /\
      tell_file T e (mkSink base [] (Some c)) = (MErr werr, k) /\ k_out k = takeN c bytes /\
      match nth_error (main_fields e s0 base) n with
      | Some (Fld len' rerr) => len' = len /\ holds_byte (main_fields e s0 base) n c /\
          exists s', read_file_d pf T te (mkBroken (k_out k) base b) = (MErr rerr, s')
      | Some (Pad len') => len' = len /\ werr = MWrite (txt "Cannot write padding")
      | None => exists ns s', read_file_d pf T te (mkBroken (k_out k) base b) = (MOk (loaded e s0 ns), s') /\
                (ns = None \/ em_norms e = Some [])
      end.
Proof. exact (@WriteLayout.same_field). Qed.
Print Assumptions same_field_thm.
Definition mw_read (c : N) : string :=
  mw_text (fst (read_file_d Release P_File.ex_toml (fun _ => [])
    (mkStream (k_out (snd (tell_file P_File.ex_toml (P_File.ex_emb (Some P_File.ex_norms)) (mkSink 3 [] (Some c))))) 3))).
Example same_field_ex : toml_law P_File.ex_toml /\ emb_built Release P_File.ex_toml (P_File.ex_emb (Some P_File.ex_norms)) (SNdArray P_File.ex_matrix) /\
  nth_error (wfile (P_File.ex_emb (Some P_File.ex_norms)) 3) 15 = Some (wd 4 "Cannot write number of buckets") /\
  nth_error (main_fields (P_File.ex_emb (Some P_File.ex_norms)) (SNdArray P_File.ex_matrix) 3) 15 = Some (rd 4 "Cannot read number of buckets") /\
  map mw_read [0; 13; 84; 120; 124; 172; 208; 209] =
  ["Cannot read magic"; "Cannot read chunk identifier"; "Cannot read item"; "Cannot read type identifier"; "Cannot read embedding matrix";
   "Cannot read embedding matrix"; "ok"; "ok"]%string.
Proof. split; [exact P_File.ex_toml_law|]. split; [exact P_File.ex_built_norms|]. split; [vm_compute; reflexivity|]. split; vm_compute; reflexivity. Qed.
