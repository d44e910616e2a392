(** * Theorems about files in other formats that were cut (C129). *)
From Verif Require Import Base BaseFacts Utf8 F32 F32Text Stream ChunkIO Subword Vocab Storage Embeddings TextIO FastText FileSpec VocabSpec EmbSpec TextSpec
  TextThms BinaryThms FastTextSpec TruncOther P_Emb P_Sim P_Text.
From Verif Require P_FastText.
Local Open Scope N_scope.

(** ** fastText models: every cut is noticed *)
@thm fasttext_truncated_thm TruncOther ft_truncated | forall (pf : profile) (T : toml_ops) (config_table : ft_config -> option (toml_table T)) (S : Type) (SO : storage_ops f32 S) (e : embeddings (toml_table T) (subword_vocab ft_indexer) S f32) (cols : N) (rows : list (list f32)),
Example fasttext_truncated_ex : ft_emb_made (nd_ops f32) Debug P_FastText.ft_ex 2 P_FastText.ft_rows /\
  dims_ok [lenN P_FastText.ft_rows; 2] 4 /\ Forall (fun w => ~ In x00 w) (sv_words (em_vocab P_FastText.ft_ex)).
Proof.
  split; [exact P_FastText.ft_ex_made|]. split; [split; vm_compute; discriminate|].
  repeat constructor; cbn; intuition discriminate.
Qed.

(** ** word2vec: only the last newline is not needed

    Full statement: every strict prefix is refused. *)
@thm word2vec_truncated_partial TruncOther w2v_truncated | forall (Md S : Type) (SO : storage_ops f32 S) (pf : profile) (e : embeddings Md vocab_wrap S f32) (cols : N) (rows : list (list f32)), emb_made SO pf e cols rows -> norms_fit e -> Forall binary_word (v_words wrap_ops (em_vocab e)) -> let result := embeddings Md simple_vocab (array2 f32) f32 in
Example word2vec_truncated_ex : emb_made (nd_ops f32) Debug w2v_emb 2 (a2_rows (em_storage w2v_emb)) /\ norms_fit w2v_emb /\
  Forall binary_word (v_words wrap_ops (em_vocab w2v_emb)) /\ binary_fits (v_words_len wrap_ops (em_vocab w2v_emb)) 2.
Proof. destruct word2vec_ex as (H1 & H2 & H3 & H4 & _). auto. Qed.
(** Without words, a cut in the dimensions is not noticed, and they are then
    other ones: "0 12" without the newline is read as "0 1", because the last
    byte is taken for the newline. *)
Definition no_words (d : N) : embeddings unit vocab_wrap (array2 f32) f32 := mkEmb None (mkA2 d []) (VSimple (mkSimple (create_indices []) [])) None.
Theorem word2vec_no_words_refuted : exists out e', run_writer (write_word2vec wrap_ops (nd_ops f32) false (no_words 12)) 0 = Ok out /\
  run_reader (read_word2vec (Md := unit) Release false) (takeN (lenN out - 1) out) = Ok e' /\ a2_cols (em_storage e') = 1.
Proof. eexists. eexists. split; [vm_compute; reflexivity|]. split; vm_compute; reflexivity. Qed.
Print Assumptions word2vec_no_words_refuted.

(** ** Text with dimensions: only cuts in the last number are not noticed

    Full statement: every strict prefix is refused. *)
@thm text_dims_truncated_partial TruncOther dims_truncated | forall (P : ftext_ops), ftext_law P -> forall (Md S : Type) (SO : storage_ops f32 S) (pf : profile) (e : embeddings Md vocab_wrap S f32) (cols : N) (rows : list (list f32)), emb_made SO pf e cols rows -> norms_fit e -> Forall text_word (v_words wrap_ops (em_vocab e)) -> let result := embeddings Md simple_vocab (array2 f32) f32 in
Example text_dims_truncated_ex : ftext_law ex_P /\ emb_made (nd_ops f32) Debug ex_34 2 [[fN 3; fN 4]] /\ norms_fit ex_34 /\
  Forall text_word (v_words wrap_ops (em_vocab ex_34)) /\ dims_fit (v_words_len wrap_ops (em_vocab ex_34)) 2 /\ nan_free [([x61], [fN 3; fN 4])].
Proof.
  split; [exact ex_P_law|]. split; [exact ex_34_made|]. split; [exact ex_34_fits|]. split; [exact ex_34_words|]. split; [|exact nan_free_34].
  split; vm_compute; discriminate.
Qed.
(** "a 1 10", "b 2 25" is read as if it ended with "b 2 2". *)
Definition cut_emb : embeddings unit vocab_wrap (array2 f32) f32 := sim_emb [[x61]; [x62]] [[fN 1; fN 10]; [fN 2; fN 25]].
Theorem text_dims_truncated_refuted : exists out e', run_writer (write_text_dims rust_ftext wrap_ops (nd_ops f32) false cut_emb) 0 = Ok out /\
  run_reader (read_text_dims_raw (Md := unit) rust_ftext Release false) (takeN (lenN out - 2) out) = Ok e' /\
  a2_rows (em_storage e') = [[fN 1; fN 10]; [fN 2; fN 2]].
Proof. eexists. eexists. split; [vm_compute; reflexivity|]. split; vm_compute; reflexivity. Qed.
Print Assumptions text_dims_truncated_refuted.

(** ** floret: only cuts in the last number are not noticed

    Full statement: no strict prefix is accepted. *)
@thm floret_truncated_partial TruncOther floret_truncated | forall (P : ftext_ops), ftext_law P -> forall (pf : profile) (Md : Type) (e : embeddings Md (subword_vocab floret_indexer) (array2 f32) f32) (ws : list str) (mn mx nb nh seed : N) (ix : floret_indexer) (bow eow : str), floret_indexer_new nb nh seed = Ok ix -> sub_new_with_boundaries floret_ops pf ws mn mx ix bow eow = Ok (em_vocab e) -> emb_new_with_maybe_norms (sub_ops floret_ops) (nd_ops f32) pf (em_meta e) (em_vocab e) (em_storage e) (em_norms e) = Ok e -> a2_wf (em_storage e) -> Forall (fun n => n < two32) [mn; mx; seed] -> ~ In x20 bow /\ utf8_valid bow = true -> ~ In x0a eow /\ utf8_valid eow = true -> a2_cols (em_storage e) <> 0 -> nb * a2_cols (em_storage e) * 4 <= isize_max -> Forall (Forall (fun x => f32_is_nan x = false)) (dropN (lenN ws) (a2_rows (em_storage e))) -> let buckets := dropN (lenN ws) (a2_rows (em_storage e)) in
(** The hypotheses are met in [floret_round_trip_ex]. *)
Definition cut_floret : embeddings unit (subword_vocab floret_indexer) (array2 f32) f32 :=
  mkEmb None (mkA2 1 [[fN 9]; [fN 1]; [fN 25]]) (em_vocab (floret_emb [x3c] [x3e])) None.
Example floret_truncated_ex : floret_emb_built [x3c] [x3e] /\ emb_new_with_maybe_norms (sub_ops floret_ops) (nd_ops f32) Debug None (em_vocab cut_floret) (em_storage cut_floret) None = Ok cut_floret /\
  a2_wf (em_storage cut_floret) /\ Forall (Forall (fun x => f32_is_nan x = false)) (dropN (lenN [[x61]]) (a2_rows (em_storage cut_floret))).
Proof. split; [apply floret_emb_ok|]. split; [vm_compute; reflexivity|]. split; repeat constructor. Qed.
Theorem floret_truncated_refuted : exists out e', run_writer (write_floret_text rust_ftext Debug cut_floret) 0 = Ok out /\
  run_reader (read_floret_text (Md := unit) rust_ftext Debug) (takeN (lenN out - 2) out) = Ok e' /\ a2_rows (em_storage e') = [[fN 1]; [fN 2]].
Proof. eexists. eexists. split; [vm_compute; reflexivity|]. split; vm_compute; reflexivity. Qed.
Print Assumptions floret_truncated_refuted.

(** ** Text: whole words are lost

    Full statement: every strict prefix is refused.  What is read begins with
    words and vectors that were written. *)
@thm text_truncated_partial TruncOther text_truncated | forall (P : ftext_ops), ftext_law P -> forall (Md S : Type) (SO : storage_ops f32 S) (pf : profile) (e : embeddings Md vocab_wrap S f32) (cols : N) (rows : list (list f32)), emb_made SO pf e cols rows -> norms_fit e -> Forall text_word (v_words wrap_ops (em_vocab e)) -> let result := embeddings Md simple_vocab (array2 f32) f32 in
Example text_truncated_ex : ftext_law ex_P /\ emb_made (nd_ops f32) Debug ex_34 2 [[fN 3; fN 4]] /\ norms_fit ex_34 /\
  Forall text_word (v_words wrap_ops (em_vocab ex_34)) /\ nan_free [([x61], [fN 3; fN 4])].
Proof. destruct text_dims_truncated_ex as (H1 & H2 & H3 & H4 & _ & H5). auto. Qed.
Theorem text_truncated_refuted : exists out e', run_writer (write_text rust_ftext wrap_ops (nd_ops f32) false cut_emb) 0 = Ok out /\
  run_reader (read_text_raw (Md := unit) rust_ftext Release false) (takeN 7 out) = Ok e' /\ v_words simple_ops (em_vocab e') = [[x61]] /\
  run_reader (read_text_raw (Md := unit) rust_ftext Release false) (takeN 0 out) = Panic PDivByZero.
Proof. eexists. eexists. split; [vm_compute; reflexivity|]. split; [vm_compute; reflexivity|]. split; vm_compute; reflexivity. Qed.
Print Assumptions text_truncated_refuted.
