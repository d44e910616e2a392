(** * Theorems about data after files in other formats (C130) and where files start (C131). *)
From Verif Require Import Base BaseFacts Utf8 F32 F32Text Stream ChunkIO Subword Vocab Storage Embeddings TextIO FastText FileSpec VocabSpec EmbSpec TextSpec
  TextThms BinaryThms AppendOther StartAnywhere P_Emb P_Sim P_Text.
From Verif Require P_FastText.
Local Open Scope N_scope.

(** ** Text: what follows is read as further words *)
Theorem text_appended_thm : forall (P : ftext_ops), ftext_law P -> forall (Md S : Type) (SO : storage_ops f32 S) (pf : profile) (e : embeddings Md vocab_wrap S f32) (cols : N) (rows : list (list f32)), emb_made SO pf e cols rows -> norms_fit e -> let result := embeddings Md simple_vocab (array2 f32) f32 in
  forall un lossy base,
  Forall text_word (v_words wrap_ops (em_vocab e)) ->
    exists l out, output_items un e rows l /\ run_writer (write_text P wrap_ops SO un e) base = Ok out /\
    (nan_free l -> forall z (e' : result), run_reader (read_text_raw P pf lossy) (out ++ z) = Ok e' ->
      exists its, text_items P lossy z its /\ text_contents e' (l ++ its) (a2_cols (em_storage e'))).
Proof. exact (@AppendOther.text_appended). Qed.
Print Assumptions text_appended_thm.
Example text_appended_ex : ftext_law ex_P /\ emb_made (nd_ops f32) Debug ex_34 2 [[fN 3; fN 4]] /\ norms_fit ex_34 /\
  Forall text_word (v_words wrap_ops (em_vocab ex_34)) /\ nan_free [([x61], [fN 3; fN 4])].
Proof. split; [exact ex_P_law|]. split; [exact ex_34_made|]. split; [exact ex_34_fits|]. split; [exact ex_34_words|exact nan_free_34]. Qed.

(** Two files one after the other are a file with the words of both; if they
    have a word in common, the reader panics. *)
Theorem text_concatenated_thm : forall (P : ftext_ops), ftext_law P -> forall (Md Md1 Md2 S1 S2 : Type) (SO1 : storage_ops f32 S1) (SO2 : storage_ops f32 S2) (pf : profile) (e1 : embeddings Md1 vocab_wrap S1 f32) (e2 : embeddings Md2 vocab_wrap S2 f32) (cols : N) (rows1 rows2 : list (list f32)), let words1 := v_words wrap_ops (em_vocab e1) in let words2 := v_words wrap_ops (em_vocab e2) in let result := embeddings Md simple_vocab (array2 f32) f32 in
  forall un lossy base1 base2,
  emb_made SO1 pf e1 cols rows1 -> norms_fit e1 -> Forall text_word words1 ->
    emb_made SO2 pf e2 cols rows2 -> norms_fit e2 -> Forall text_word words2 ->
    exists l1 l2 out1 out2, output_items un e1 rows1 l1 /\ output_items un e2 rows2 l2 /\
    run_writer (write_text P wrap_ops SO1 un e1) base1 = Ok out1 /\ run_writer (write_text P wrap_ops SO2 un e2) base2 = Ok out2 /\
    (nan_free l1 -> nan_free l2 -> words1 ++ words2 <> [] ->
      (NoDup (words1 ++ words2) -> exists e' : result, run_reader (read_text_raw P pf lossy) (out1 ++ out2) = Ok e' /\ raw_result e' cols (l1 ++ l2)) /\
      (~ NoDup (words1 ++ words2) -> run_reader (read_text_raw (Md := Md) P pf lossy) (out1 ++ out2) = Panic PDuplicateWords)).
Proof. exact (@AppendOther.text_concatenated). Qed.
Print Assumptions text_concatenated_thm.
Definition ex_b : embeddings unit vocab_wrap (array2 f32) f32 := sim_emb [[x62]] [[fN 1; fN 2]].
Example text_concatenated_ex :
  (exists out1 out2 e', run_writer (write_text rust_ftext wrap_ops (nd_ops f32) false ex_34) 0 = Ok out1 /\
    run_writer (write_text rust_ftext wrap_ops (nd_ops f32) false ex_b) 0 = Ok out2 /\
    run_reader (read_text_raw (Md := unit) rust_ftext Debug false) (out1 ++ out2) = Ok e' /\
    v_words simple_ops (em_vocab e') = [[x61]; [x62]] /\ a2_rows (em_storage e') = [[fN 3; fN 4]; [fN 1; fN 2]]) /\
  emb_made (nd_ops f32) Debug ex_b 2 [[fN 1; fN 2]] /\ norms_fit ex_b /\ Forall text_word (v_words wrap_ops (em_vocab ex_b)) /\
  NoDup (v_words wrap_ops (em_vocab ex_34) ++ v_words wrap_ops (em_vocab ex_b)) /\
  ~ NoDup (v_words wrap_ops (em_vocab ex_34) ++ v_words wrap_ops (em_vocab ex_34)).
Proof.
  split; [eexists; eexists; eexists; split; [vm_compute; reflexivity|split; [vm_compute; reflexivity|split; [vm_compute; reflexivity|split; vm_compute; reflexivity]]]|].
  split; [apply sim_emb_made; [vm_compute; reflexivity|reflexivity|repeat constructor]|]. split; [intros ns H; discriminate|].
  split; [constructor; [|constructor]; split; [discriminate|split; [|reflexivity]]; constructor; [|constructor]; intros K; cbn in K; intuition discriminate|].
  split.
  - change (NoDup [[x61]; [x62]]). constructor; [intros [K|[]]; discriminate|]. constructor; [intros []|constructor].
  - change (~ NoDup [[x61]; [x61]]). intros K. inversion K as [|? ? NI _]. apply NI. left. reflexivity.
Qed.

(** ** Text with dimensions: nothing can follow *)
Theorem text_dims_appended_thm : forall (P : ftext_ops), ftext_law P -> forall (Md S : Type) (SO : storage_ops f32 S) (pf : profile) (e : embeddings Md vocab_wrap S f32) (cols : N) (rows : list (list f32)), emb_made SO pf e cols rows -> norms_fit e ->
  forall un lossy base,
  Forall text_word (v_words wrap_ops (em_vocab e)) ->
    dims_fit (v_words_len wrap_ops (em_vocab e)) cols -> cols < two64 ->
    exists l out, output_items un e rows l /\ run_writer (write_text_dims P wrap_ops SO un e) base = Ok out /\
    (nan_free l -> forall z, z <> [] -> run_reader (read_text_dims_raw (Md := Md) P pf lossy) (out ++ z) = Err EFormat).
Proof. exact (@AppendOther.dims_appended). Qed.
Print Assumptions text_dims_appended_thm.
Example text_dims_appended_ex : dims_fit (v_words_len wrap_ops (em_vocab ex_34)) 2 /\ exists out,
  run_writer (write_text_dims rust_ftext wrap_ops (nd_ops f32) false ex_34) 0 = Ok out /\
  run_reader (read_text_dims_raw (Md := unit) rust_ftext Debug false) (out ++ [x0a]) = Err EFormat.
Proof. split; [split; vm_compute; discriminate|]. eexists. split; [vm_compute; reflexivity|]. vm_compute. reflexivity. Qed.

(** ** word2vec: what follows is not looked at *)
Theorem word2vec_appended_thm : forall (Md S : Type) (SO : storage_ops f32 S) (pf : profile) (e : embeddings Md vocab_wrap S f32) (cols : N) (rows : list (list f32)), emb_made SO pf e cols rows -> norms_fit e -> let result := embeddings Md simple_vocab (array2 f32) f32 in
  forall un lossy base,
  Forall binary_word (v_words wrap_ops (em_vocab e)) ->
    binary_fits (v_words_len wrap_ops (em_vocab e)) cols -> cols < two64 ->
    exists l out, output_items un e rows l /\ run_writer (write_word2vec wrap_ops SO un e) base = Ok out /\
    exists e' : result, raw_result e' cols l /\ forall z, run_reader (read_word2vec_raw pf lossy) (out ++ z) = Ok e'.
Proof. exact (@AppendOther.w2v_appended). Qed.
Print Assumptions word2vec_appended_thm.
(** The hypotheses are met in [word2vec_ex]. *)
Example word2vec_appended_ex : exists out e', run_writer (write_word2vec wrap_ops (nd_ops f32) false w2v_emb) 0 = Ok out /\
  run_reader (read_word2vec_raw (Md := unit) Debug false) (out ++ [xff; x20]) = Ok e' /\ em_storage e' = em_storage w2v_emb.
Proof. eexists. eexists. split; [vm_compute; reflexivity|]. split; vm_compute; reflexivity. Qed.
(** The newline of the last vector is left unread: a second file cannot be
    read from the same reader, whatever it contains. *)
Theorem word2vec_position_thm : forall (Md S : Type) (SO : storage_ops f32 S) (pf : profile) (e : embeddings Md vocab_wrap S f32) (cols : N) (rows : list (list f32)), emb_made SO pf e cols rows -> norms_fit e -> let result := embeddings Md simple_vocab (array2 f32) f32 in
  forall un lossy base,
  Forall binary_word (v_words wrap_ops (em_vocab e)) ->
    binary_fits (v_words_len wrap_ops (em_vocab e)) cols -> cols < two64 ->
    exists l out, output_items un e rows l /\ run_writer (write_word2vec wrap_ops SO un e) base = Ok out /\
    forall z, exists (e' : result) s', read_word2vec_raw pf lossy (mkStream (out ++ z) 0) = (Ok e', s') /\ raw_result e' cols l /\
      (v_words wrap_ops (em_vocab e) = [] -> s_rest s' = z) /\
      (v_words wrap_ops (em_vocab e) <> [] -> s_rest s' = x0a :: z /\
        forall lossy', fst (read_word2vec_raw (Md := Md) pf lossy' s') = Err EFormat).
Proof. exact (@AppendOther.w2v_position). Qed.
Print Assumptions word2vec_position_thm.
(** The hypotheses are met in [word2vec_ex]. *)
Example word2vec_position_ex : v_words wrap_ops (em_vocab w2v_emb) <> [] /\ exists out, run_writer (write_word2vec wrap_ops (nd_ops f32) false w2v_emb) 0 = Ok out /\
  let (r, s) := read_word2vec_raw (Md := unit) Debug false (mkStream (out ++ out) 0) in
  s_rest s = x0a :: out /\ fst (read_word2vec_raw (Md := unit) Debug false s) = Err EFormat /\
  exists e', r = Ok e' /\ em_storage e' = em_storage w2v_emb.
Proof.
  split; [discriminate|]. eexists. split; [vm_compute; reflexivity|]. vm_compute. split; [reflexivity|]. split; [reflexivity|]. eexists. split; reflexivity.
Qed.

(** ** floret: nothing can follow *)
Theorem floret_appended_thm : forall (P : ftext_ops), ftext_law P -> forall (pf : profile) (Md : Type) (e : embeddings Md (subword_vocab floret_indexer) (array2 f32) f32) (ws : list str) (mn mx nb nh seed : N) (ix : floret_indexer) (bow eow : str), floret_indexer_new nb nh seed = Ok ix -> sub_new_with_boundaries floret_ops pf ws mn mx ix bow eow = Ok (em_vocab e) -> emb_new_with_maybe_norms (sub_ops floret_ops) (nd_ops f32) pf (em_meta e) (em_vocab e) (em_storage e) (em_norms e) = Ok e -> Forall (fun n => n < two32) [mn; mx; seed] -> ~ In x20 bow /\ utf8_valid bow = true -> ~ In x0a eow /\ utf8_valid eow = true -> a2_cols (em_storage e) <> 0 -> nb * a2_cols (em_storage e) * 4 <= isize_max -> Forall (Forall (fun x => f32_is_nan x = false)) (dropN (lenN ws) (a2_rows (em_storage e))) ->
  forall base,
  exists out, run_writer (write_floret_text P pf e) base = Ok out /\
    forall z (e' : embeddings Md (subword_vocab floret_indexer) (array2 f32) f32), z <> [] -> run_reader (read_floret_text P pf) (out ++ z) <> Ok e'.
Proof. exact (@AppendOther.floret_appended). Qed.
Print Assumptions floret_appended_thm.
Definition more_floret : embeddings unit (subword_vocab floret_indexer) (array2 f32) f32 :=
  mkEmb None (mkA2 1 [[fN 9]; [fN 1]; [fN 25]]) (em_vocab (floret_emb [x3c] [x3e])) None.
Example floret_appended_ex : floret_emb_built [x3c] [x3e] /\ emb_new_with_maybe_norms (sub_ops floret_ops) (nd_ops f32) Debug None (em_vocab more_floret) (em_storage more_floret) None = Ok more_floret /\
  Forall (Forall (fun x => f32_is_nan x = false)) (dropN (lenN [[x61]]) (a2_rows (em_storage more_floret))) /\
  exists out, run_writer (write_floret_text rust_ftext Debug more_floret) 0 = Ok out /\
  run_reader (read_floret_text (Md := unit) rust_ftext Debug) (out ++ [x20; x0a]) = Err EFormat /\
  run_reader (read_floret_text (Md := unit) rust_ftext Debug) (out ++ [x32; x20; x31; x0a]) = Err EMatrixShape.
Proof. split; [apply floret_emb_ok|]. split; [vm_compute; reflexivity|]. split; [repeat constructor|]. eexists. split; [vm_compute; reflexivity|]. split; vm_compute; reflexivity. Qed.

(** ** fastText: what follows is not looked at *)
Theorem fasttext_appended_thm : forall (pf : profile) (T : toml_ops) (config_table : ft_config -> option (toml_table T)),
  forall lossy data e,
  run_reader (read_fasttext pf T config_table lossy) data = Ok e ->
    forall z, run_reader (read_fasttext pf T config_table lossy) (data ++ z) = Ok e.
Proof. exact (@AppendOther.ft_appended). Qed.
Print Assumptions fasttext_appended_thm.
Example fasttext_appended_ex : exists out e', run_writer (write_fasttext Debug P_FastText.ft_T (nd_ops f32) P_FastText.ft_ex) 0 = Ok out /\
  run_reader (read_fasttext Debug P_FastText.ft_T P_FastText.ft_table false) (out ++ [x00; xff]) = Ok e' /\ em_vocab e' = em_vocab P_FastText.ft_ex.
Proof. eexists. eexists. split; [vm_compute; reflexivity|]. split; vm_compute; reflexivity. Qed.
(** It is left to be read: a second file can be read from the same reader. *)
Theorem fasttext_position_thm : forall (pf : profile) (T : toml_ops) (config_table : ft_config -> option (toml_table T)),
  forall lossy data e s,
  read_fasttext pf T config_table lossy (mkStream data 0) = (Ok e, s) ->
    forall z, exists p, read_fasttext pf T config_table lossy (mkStream (data ++ z) 0) = (Ok e, mkStream (s_rest s ++ z) p).
Proof. exact (@AppendOther.ft_position). Qed.
Print Assumptions fasttext_position_thm.
Example fasttext_position_ex : exists out, run_writer (write_fasttext Debug P_FastText.ft_T (nd_ops f32) P_FastText.ft_ex) 0 = Ok out /\
  let (r, s) := read_fasttext Debug P_FastText.ft_T P_FastText.ft_table false (mkStream (out ++ out) 0) in
  s_rest s = out /\ fst (read_fasttext Debug P_FastText.ft_T P_FastText.ft_table false s) = r /\ exists e, r = Ok e.
Proof. eexists. split; [vm_compute; reflexivity|]. vm_compute. split; [reflexivity|]. split; [reflexivity|]. eexists. reflexivity. Qed.

(** ** Where a file starts makes no difference *)
Theorem texts_anywhere_thm : forall (P : ftext_ops) (pf : profile) (Md : Type),
  forall lossy,
  anywhere (read_text_raw (Md := Md) P pf lossy) /\ anywhere (read_text (Md := Md) P pf lossy) /\
    anywhere (read_text_dims_raw (Md := Md) P pf lossy) /\ anywhere (read_text_dims (Md := Md) P pf lossy).
Proof. exact (@StartAnywhere.texts_anywhere). Qed.
Print Assumptions texts_anywhere_thm.
Example texts_anywhere_ex : exists out, run_writer (write_text rust_ftext wrap_ops (nd_ops f32) false ex_34) 0 = Ok out /\
  let (r, s) := read_text_raw (Md := unit) rust_ftext Debug false (mkStream out 5) in s_pos s = 5 + lenN out /\ exists e, r = Ok e.
Proof. eexists. split; [vm_compute; reflexivity|]. vm_compute. split; [reflexivity|]. eexists. reflexivity. Qed.
Theorem word2vec_anywhere_thm : forall (pf : profile) (Md : Type),
  forall lossy,
  anywhere (read_word2vec_raw (Md := Md) pf lossy) /\ anywhere (read_word2vec (Md := Md) pf lossy).
Proof. exact (@StartAnywhere.word2vec_anywhere). Qed.
Print Assumptions word2vec_anywhere_thm.
Example word2vec_anywhere_ex : exists out, run_writer (write_word2vec wrap_ops (nd_ops f32) false w2v_emb) 0 = Ok out /\
  let (r, s) := read_word2vec_raw (Md := unit) Debug false (mkStream out 5) in s_pos s = 4 + lenN out /\ exists e, r = Ok e.
Proof. eexists. split; [vm_compute; reflexivity|]. vm_compute. split; [reflexivity|]. eexists. reflexivity. Qed.
Theorem floret_anywhere_thm : forall (P : ftext_ops) (pf : profile) (Md : Type),
  anywhere (read_floret_text (Md := Md) P pf).
Proof. exact (@StartAnywhere.any_floret). Qed.
Print Assumptions floret_anywhere_thm.
Example floret_anywhere_ex : exists out, run_writer (write_floret_text rust_ftext Debug more_floret) 0 = Ok out /\
  let (r, s) := read_floret_text (Md := unit) rust_ftext Debug (mkStream out 5) in s_pos s = 5 + lenN out /\ exists e, r = Ok e.
Proof. eexists. split; [vm_compute; reflexivity|]. vm_compute. split; [reflexivity|]. eexists. reflexivity. Qed.
Theorem fasttext_anywhere_thm : forall (pf : profile) (T : toml_ops) (config_table : ft_config -> option (toml_table T)),
  forall lossy,
  anywhere (read_fasttext pf T config_table lossy).
Proof. exact (@StartAnywhere.any_fasttext). Qed.
Print Assumptions fasttext_anywhere_thm.
(** Met in [fasttext_position_ex], where the second file starts after the first. *)
Theorem fasttext_files_thm : forall (pf : profile) (T : toml_ops) (config_table : ft_config -> option (toml_table T)),
  forall lossy ds es,
  Forall2 (fun d e => exists p, read_fasttext pf T config_table lossy (mkStream d 0) = (Ok e, mkStream [] p)) ds es ->
    forall z k, exists p, repeat_m (lenN ds) (read_fasttext pf T config_table lossy) (mkStream (concat ds ++ z) k) = (Ok es, mkStream z p).
Proof. exact (@StartAnywhere.ft_files). Qed.
Print Assumptions fasttext_files_thm.
Example fasttext_files_ex : exists out e p, run_writer (write_fasttext Debug P_FastText.ft_T (nd_ops f32) P_FastText.ft_ex) 0 = Ok out /\
  read_fasttext Debug P_FastText.ft_T P_FastText.ft_table false (mkStream out 0) = (Ok e, mkStream [] p) /\
  Forall2 (fun d e => exists p, read_fasttext Debug P_FastText.ft_T P_FastText.ft_table false (mkStream d 0) = (Ok e, mkStream [] p)) [out; out] [e; e].
Proof.
  eexists. eexists. eexists. split; [vm_compute; reflexivity|]. split; [vm_compute; reflexivity|].
  constructor; [|constructor; [|constructor]]; eexists; vm_compute; reflexivity.
Qed.
