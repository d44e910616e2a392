(** * Theorems about data after files in other formats (C130) and where files start (C131). *)
From Verif Require Import Base BaseFacts Utf8 F32 F32Text Stream ChunkIO Subword Vocab Storage Embeddings TextIO FastText FileSpec VocabSpec EmbSpec TextSpec
  TextThms BinaryThms AppendOther StartAnywhere P_Emb P_Sim P_Text.
From Verif Require P_FastText.
Local Open Scope N_scope.

(** ** Text: what follows is read as further words *)
@thm text_appended_thm AppendOther text_appended | forall (P : ftext_ops), ftext_law P -> forall (Md S : Type) (SO : storage_ops f32 S) (pf : profile) (e : embeddings Md vocab_wrap S f32) (cols : N) (rows : list (list f32)), emb_made SO pf e cols rows -> norms_fit e -> let result := embeddings Md simple_vocab (array2 f32) f32 in
Example text_appended_ex : ftext_law ex_P /\ emb_made (nd_ops f32) Debug ex_34 2 [[fN 3; fN 4]] /\ norms_fit ex_34 /\
  Forall text_word (v_words wrap_ops (em_vocab ex_34)) /\ nan_free [([x61], [fN 3; fN 4])].
Proof. split; [exact ex_P_law|]. split; [exact ex_34_made|]. split; [exact ex_34_fits|]. split; [exact ex_34_words|exact nan_free_34]. Qed.

(** Two files one after the other are a file with the words of both; if they
    have a word in common, the reader panics. *)
@thm text_concatenated_thm AppendOther text_concatenated | forall (P : ftext_ops), ftext_law P -> forall (Md Md1 Md2 S1 S2 : Type) (SO1 : storage_ops f32 S1) (SO2 : storage_ops f32 S2) (pf : profile) (e1 : embeddings Md1 vocab_wrap S1 f32) (e2 : embeddings Md2 vocab_wrap S2 f32) (cols : N) (rows1 rows2 : list (list f32)), let words1 := v_words wrap_ops (em_vocab e1) in let words2 := v_words wrap_ops (em_vocab e2) in let result := embeddings Md simple_vocab (array2 f32) f32 in
Definition ex_b : embeddings unit vocab_wrap (array2 f32) f32 := sim_emb [[x62]] [[fN 1; fN 2]].
Example text_concatenated_ex :
  (exists out1 out2 e', run_writer (write_text rust_ftext wrap_ops (nd_ops f32) false ex_34) 0 = Ok out1 /\
    run_writer (write_text rust_ftext wrap_ops (nd_ops f32) false ex_b) 0 = Ok out2 /\
    run_reader (read_text_raw (Md := unit) rust_ftext Debug false) (out1 ++ out2) = Ok e' /\
    v_words simple_ops (em_vocab e') = [[x61]; [x62]] /\ a2_rows (em_storage e') = [[fN 3; fN 4]; [fN 1; fN 2]]) /\
  emb_made (nd_ops f32) Debug ex_b 2 [[fN 1; fN 2]] /\ norms_fit ex_b /\ Forall text_word (v_words wrap_ops (em_vocab ex_b)) /\
  NoDup (v_words wrap_ops (em_vocab ex_34) ++ v_words wrap_ops (em_vocab ex_b)) /\
  ~ NoDup (v_words wrap_ops (em_vocab ex_34) ++ v_words wrap_ops (em_vocab ex_34)).
Proof.
  split; [eexists; eexists; eexists; split; [vm_compute; reflexivity|split; [vm_compute; reflexivity|split; [vm_compute; reflexivity|split; vm_compute; reflexivity]]]|].
  split; [apply sim_emb_made; [vm_compute; reflexivity|reflexivity|repeat constructor]|]. split; [intros ns H; discriminate|].
  split; [constructor; [|constructor]; split; [discriminate|split; [|reflexivity]]; constructor; [|constructor]; intros K; cbn in K; intuition discriminate|].
  split.
  - change (NoDup [[x61]; [x62]]). constructor; [intros [K|[]]; discriminate|]. constructor; [intros []|constructor].
  - change (~ NoDup [[x61]; [x61]]). intros K. inversion K as [|? ? NI _]. apply NI. left. reflexivity.
Qed.

(** ** Text with dimensions: nothing can follow *)
@thm text_dims_appended_thm AppendOther dims_appended | forall (P : ftext_ops), ftext_law P -> forall (Md S : Type) (SO : storage_ops f32 S) (pf : profile) (e : embeddings Md vocab_wrap S f32) (cols : N) (rows : list (list f32)), emb_made SO pf e cols rows -> norms_fit e ->
Example text_dims_appended_ex : dims_fit (v_words_len wrap_ops (em_vocab ex_34)) 2 /\ exists out,
  run_writer (write_text_dims rust_ftext wrap_ops (nd_ops f32) false ex_34) 0 = Ok out /\
  run_reader (read_text_dims_raw (Md := unit) rust_ftext Debug false) (out ++ [x0a]) = Err EFormat.
Proof. split; [split; vm_compute; discriminate|]. eexists. split; [vm_compute; reflexivity|]. vm_compute. reflexivity. Qed.

(** ** word2vec: what follows is not looked at *)
@thm word2vec_appended_thm AppendOther w2v_appended | forall (Md S : Type) (SO : storage_ops f32 S) (pf : profile) (e : embeddings Md vocab_wrap S f32) (cols : N) (rows : list (list f32)), emb_made SO pf e cols rows -> norms_fit e -> let result := embeddings Md simple_vocab (array2 f32) f32 in
(** The hypotheses are met in [word2vec_ex]. *)
Example word2vec_appended_ex : exists out e', run_writer (write_word2vec wrap_ops (nd_ops f32) false w2v_emb) 0 = Ok out /\
  run_reader (read_word2vec_raw (Md := unit) Debug false) (out ++ [xff; x20]) = Ok e' /\ em_storage e' = em_storage w2v_emb.
Proof. eexists. eexists. split; [vm_compute; reflexivity|]. split; vm_compute; reflexivity. Qed.
(** The newline of the last vector is left unread: a second file cannot be
    read from the same reader, whatever it contains. *)
@thm word2vec_position_thm AppendOther w2v_position | forall (Md S : Type) (SO : storage_ops f32 S) (pf : profile) (e : embeddings Md vocab_wrap S f32) (cols : N) (rows : list (list f32)), emb_made SO pf e cols rows -> norms_fit e -> let result := embeddings Md simple_vocab (array2 f32) f32 in
(** The hypotheses are met in [word2vec_ex]. *)
Example word2vec_position_ex : v_words wrap_ops (em_vocab w2v_emb) <> [] /\ exists out, run_writer (write_word2vec wrap_ops (nd_ops f32) false w2v_emb) 0 = Ok out /\
  let (r, s) := read_word2vec_raw (Md := unit) Debug false (mkStream (out ++ out) 0) in
  s_rest s = x0a :: out /\ fst (read_word2vec_raw (Md := unit) Debug false s) = Err EFormat /\
  exists e', r = Ok e' /\ em_storage e' = em_storage w2v_emb.
Proof.
  split; [discriminate|]. eexists. split; [vm_compute; reflexivity|]. vm_compute. split; [reflexivity|]. split; [reflexivity|]. eexists. split; reflexivity.
Qed.

(** ** floret: nothing can follow *)
@thm floret_appended_thm AppendOther floret_appended | forall (P : ftext_ops), ftext_law P -> forall (pf : profile) (Md : Type) (e : embeddings Md (subword_vocab floret_indexer) (array2 f32) f32) (ws : list str) (mn mx nb nh seed : N) (ix : floret_indexer) (bow eow : str), floret_indexer_new nb nh seed = Ok ix -> sub_new_with_boundaries floret_ops pf ws mn mx ix bow eow = Ok (em_vocab e) -> emb_new_with_maybe_norms (sub_ops floret_ops) (nd_ops f32) pf (em_meta e) (em_vocab e) (em_storage e) (em_norms e) = Ok e -> Forall (fun n => n < two32) [mn; mx; seed] -> ~ In x20 bow /\ utf8_valid bow = true -> ~ In x0a eow /\ utf8_valid eow = true -> a2_cols (em_storage e) <> 0 -> nb * a2_cols (em_storage e) * 4 <= isize_max -> Forall (Forall (fun x => f32_is_nan x = false)) (dropN (lenN ws) (a2_rows (em_storage e))) ->
Definition more_floret : embeddings unit (subword_vocab floret_indexer) (array2 f32) f32 :=
  mkEmb None (mkA2 1 [[fN 9]; [fN 1]; [fN 25]]) (em_vocab (floret_emb [x3c] [x3e])) None.
Example floret_appended_ex : floret_emb_built [x3c] [x3e] /\ emb_new_with_maybe_norms (sub_ops floret_ops) (nd_ops f32) Debug None (em_vocab more_floret) (em_storage more_floret) None = Ok more_floret /\
  Forall (Forall (fun x => f32_is_nan x = false)) (dropN (lenN [[x61]]) (a2_rows (em_storage more_floret))) /\
  exists out, run_writer (write_floret_text rust_ftext Debug more_floret) 0 = Ok out /\
  run_reader (read_floret_text (Md := unit) rust_ftext Debug) (out ++ [x20; x0a]) = Err EFormat /\
  run_reader (read_floret_text (Md := unit) rust_ftext Debug) (out ++ [x32; x20; x31; x0a]) = Err EMatrixShape.
Proof. split; [apply floret_emb_ok|]. split; [vm_compute; reflexivity|]. split; [repeat constructor|]. eexists. split; [vm_compute; reflexivity|]. split; vm_compute; reflexivity. Qed.

(** ** fastText: what follows is not looked at *)
@thm fasttext_appended_thm AppendOther ft_appended | forall (pf : profile) (T : toml_ops) (config_table : ft_config -> option (toml_table T)),
Example fasttext_appended_ex : exists out e', run_writer (write_fasttext Debug P_FastText.ft_T (nd_ops f32) P_FastText.ft_ex) 0 = Ok out /\
  run_reader (read_fasttext Debug P_FastText.ft_T P_FastText.ft_table false) (out ++ [x00; xff]) = Ok e' /\ em_vocab e' = em_vocab P_FastText.ft_ex.
Proof. eexists. eexists. split; [vm_compute; reflexivity|]. split; vm_compute; reflexivity. Qed.
(** It is left to be read: a second file can be read from the same reader. *)
@thm fasttext_position_thm AppendOther ft_position | forall (pf : profile) (T : toml_ops) (config_table : ft_config -> option (toml_table T)),
Example fasttext_position_ex : exists out, run_writer (write_fasttext Debug P_FastText.ft_T (nd_ops f32) P_FastText.ft_ex) 0 = Ok out /\
  let (r, s) := read_fasttext Debug P_FastText.ft_T P_FastText.ft_table false (mkStream (out ++ out) 0) in
  s_rest s = out /\ fst (read_fasttext Debug P_FastText.ft_T P_FastText.ft_table false s) = r /\ exists e, r = Ok e.
Proof. eexists. split; [vm_compute; reflexivity|]. vm_compute. split; [reflexivity|]. split; [reflexivity|]. eexists. reflexivity. Qed.

(** ** Where a file starts makes no difference *)
@thm texts_anywhere_thm StartAnywhere texts_anywhere | forall (P : ftext_ops) (pf : profile) (Md : Type),
Example texts_anywhere_ex : exists out, run_writer (write_text rust_ftext wrap_ops (nd_ops f32) false ex_34) 0 = Ok out /\
  let (r, s) := read_text_raw (Md := unit) rust_ftext Debug false (mkStream out 5) in s_pos s = 5 + lenN out /\ exists e, r = Ok e.
Proof. eexists. split; [vm_compute; reflexivity|]. vm_compute. split; [reflexivity|]. eexists. reflexivity. Qed.
@thm word2vec_anywhere_thm StartAnywhere word2vec_anywhere | forall (pf : profile) (Md : Type),
Example word2vec_anywhere_ex : exists out, run_writer (write_word2vec wrap_ops (nd_ops f32) false w2v_emb) 0 = Ok out /\
  let (r, s) := read_word2vec_raw (Md := unit) Debug false (mkStream out 5) in s_pos s = 4 + lenN out /\ exists e, r = Ok e.
Proof. eexists. split; [vm_compute; reflexivity|]. vm_compute. split; [reflexivity|]. eexists. reflexivity. Qed.
@thm floret_anywhere_thm StartAnywhere any_floret | forall (P : ftext_ops) (pf : profile) (Md : Type),
Example floret_anywhere_ex : exists out, run_writer (write_floret_text rust_ftext Debug more_floret) 0 = Ok out /\
  let (r, s) := read_floret_text (Md := unit) rust_ftext Debug (mkStream out 5) in s_pos s = 5 + lenN out /\ exists e, r = Ok e.
Proof. eexists. split; [vm_compute; reflexivity|]. vm_compute. split; [reflexivity|]. eexists. reflexivity. Qed.
@thm fasttext_anywhere_thm StartAnywhere any_fasttext | forall (pf : profile) (T : toml_ops) (config_table : ft_config -> option (toml_table T)),
(** Met in [fasttext_position_ex], where the second file starts after the first. *)
@thm fasttext_files_thm StartAnywhere ft_files | forall (pf : profile) (T : toml_ops) (config_table : ft_config -> option (toml_table T)),
Example fasttext_files_ex : exists out e p, run_writer (write_fasttext Debug P_FastText.ft_T (nd_ops f32) P_FastText.ft_ex) 0 = Ok out /\
  read_fasttext Debug P_FastText.ft_T P_FastText.ft_table false (mkStream out 0) = (Ok e, mkStream [] p) /\
  Forall2 (fun d e => exists p, read_fasttext Debug P_FastText.ft_T P_FastText.ft_table false (mkStream d 0) = (Ok e, mkStream [] p)) [out; out] [e; e].
Proof.
  eexists. eexists. eexists. split; [vm_compute; reflexivity|]. split; [vm_compute; reflexivity|].
  constructor; [|constructor; [|constructor]]; eexists; vm_compute; reflexivity.
Qed.
