(** * Theorems about the metadata of fastText models (C116). *)
From Coq Require Import ZArith String.
From Verif Require Import Base BaseFacts Utf8 F32 Stream ChunkIO Subword Vocab Storage Embeddings TextIO FastText FastTextSpec FastTextMeta FastTextMetaThms.
From Verif Require P_FastText.
Local Open Scope N_scope.

Theorem meta_read_thm : forall (print : ttable -> str) (parse : str -> option ttable) (pf : profile),
  forall lossy data e,
  run_reader (read_fasttext pf (toml_of print parse) ft_config_table lossy) data = Ok e ->
    exists t, em_meta e = Some t /\ meta_is data t.
Proof. exact (@FastTextMetaThms.meta_read). Qed.
Print Assumptions meta_read_thm.
Theorem meta_inj_thm : forall (print : ttable -> str) (parse : str -> option ttable) (pf : profile),
  forall lossy data e lossy' data' e',
  run_reader (read_fasttext pf (toml_of print parse) ft_config_table lossy) data = Ok e ->
    run_reader (read_fasttext pf (toml_of print parse) ft_config_table lossy') data' = Ok e' ->
    em_meta e = em_meta e' <-> takeN 56 (dropN 8 data) = takeN 56 (dropN 8 data').
Proof. exact (@FastTextMetaThms.meta_inj). Qed.
Print Assumptions meta_inj_thm.
Theorem meta_vocab_thm : forall (print : ttable -> str) (parse : str -> option ttable) (pf : profile),
  forall lossy data e,
  run_reader (read_fasttext pf (toml_of print parse) ft_config_table lossy) data = Ok e ->
    exists t, em_meta e = Some t /\ t_get t (key "min_n"%string) = Some (TInteger (Z.of_N (sv_min (em_vocab e)))) /\
    t_get t (key "max_n"%string) = Some (TInteger (Z.of_N (sv_max (em_vocab e)))) /\
    t_get t (key "bucket"%string) = Some (TInteger (Z.of_N (fi_buckets (sv_ix (em_vocab e))))).
Proof. exact (@FastTextMetaThms.meta_vocab). Qed.
Print Assumptions meta_vocab_thm.
Theorem meta_rewritten_thm : forall (print : ttable -> str) (parse : str -> option ttable) (pf : profile),
  forall (S : Type) (SO : storage_ops f32 S) (e : embeddings ttable (subword_vocab ft_indexer) S f32) (cols : N) (rows : list (list f32)) lossy base rest out e',
  ft_emb_made SO pf e cols rows -> sv_min (em_vocab e) < two32 -> sv_max (em_vocab e) < two32 ->
    run_writer (write_fasttext pf (toml_of print parse) SO e) base = Ok out ->
    run_reader (read_fasttext pf (toml_of print parse) ft_config_table lossy) (out ++ rest) = Ok e' ->
    exists t, em_meta e' = Some t /\ map fst t = map key sorted_keys /\
    (forall k n, In (k, n) (rewritten_numbers cols (fi_buckets (sv_ix (em_vocab e))) (sv_min (em_vocab e)) (sv_max (em_vocab e))) ->
       t_get t (key k) = Some (TInteger (Z.of_N n))) /\
    t_get t (key "loss"%string) = Some (TString (key "HierarchicalSoftmax"%string)) /\ t_get t (key "model"%string) = Some (TString (key "Cbow"%string)) /\
    t_get t (key "sampling_threshold"%string) = Some (TFloat 0).
Proof. exact (@FastTextMetaThms.meta_rewritten). Qed.
Print Assumptions meta_rewritten_thm.

(** A model and its metadata; and after writing and reading it again: window
    size, epochs, counts, loss function and model type are lost. *)
Definition mt_T : toml_ops := toml_of (fun _ => []) (fun _ => None).
Definition mt_file : list byte := P_FastText.ft_ex_bytes 2 3 6 [[x61]; [x62]] 0 P_FastText.ft_ex_rows.
Definition mt_read := run_reader (read_fasttext Debug mt_T ft_config_table false).
Example meta_read_ex : exists e t, mt_read mt_file = Ok e /\ em_meta e = Some t /\
  map snd t = [TInteger 2; TInteger 1; TInteger 5; TString (key "NegativeSampling"); TInteger 100; TInteger 6; TInteger 5; TInteger 3;
    TString (key "SkipGram"); TInteger 5; TFloat 0; TInteger 5; TInteger 1]%Z.
Proof. eexists. eexists. split; [vm_compute; reflexivity|]. split; [reflexivity|]. vm_compute. reflexivity. Qed.
Theorem meta_lost_refuted : exists e out e' t t', mt_read mt_file = Ok e /\ run_writer (write_fasttext Debug mt_T (nd_ops f32) e) 0 = Ok out /\ mt_read out = Ok e' /\
  em_meta e = Some t /\ em_meta e' = Some t' /\ em_vocab e' = em_vocab e /\
  t_get t (key "epoch"%string) = Some (TInteger 5) /\ t_get t' (key "epoch"%string) = Some (TInteger 0) /\
  t_get t (key "model"%string) = Some (TString (key "SkipGram"%string)) /\ t_get t' (key "model"%string) = Some (TString (key "Cbow"%string)).
Proof.
  do 5 eexists. split; [vm_compute; reflexivity|]. split; [vm_compute; reflexivity|]. split; [vm_compute; reflexivity|].
  split; [reflexivity|]. split; [reflexivity|]. repeat split; vm_compute; reflexivity.
Qed.
Print Assumptions meta_lost_refuted.

(** The number of dimensions in the metadata is not compared with the matrix. *)
Theorem meta_dims_refuted : exists data e t, mt_read data = Ok e /\ em_meta e = Some t /\
  t_get t (key "dims"%string) = Some (TInteger 7) /\ a2_cols (em_storage e) = 1.
Proof.
  exists (takeN 8 mt_file ++ le_bytes 4 7 ++ dropN 12 mt_file). do 2 eexists. split; [vm_compute; reflexivity|]. split; [reflexivity|]. split; vm_compute; reflexivity.
Qed.
Print Assumptions meta_dims_refuted.

(** Embeddings with a table of their own that are written and read. *)
Definition mt_emb : embeddings ttable (subword_vocab ft_indexer) (array2 f32) f32 :=
  mkEmb (Some [(key "author"%string, TString (key "me"%string))]) (mkA2 2 P_FastText.ft_rows) (P_FastText.ft_vocab default_bow default_eow) None.
Example meta_rewritten_ex : ft_emb_made (nd_ops f32) Debug mt_emb 2 P_FastText.ft_rows /\ sv_min (em_vocab mt_emb) < two32 /\ sv_max (em_vocab mt_emb) < two32 /\
  exists out e' t, run_writer (write_fasttext Debug mt_T (nd_ops f32) mt_emb) 0 = Ok out /\ mt_read out = Ok e' /\ em_meta e' = Some t /\
  t_get t (key "author"%string) = None /\ t_get t (key "dims"%string) = Some (TInteger 2).
Proof.
  split. { pose proof P_FastText.ft_ex_made as (A & B & C & D & _). split; [exact A|]. split; [exact B|]. split; [exact C|]. split; [exact D|]. split; [vm_compute; reflexivity|discriminate]. }
  split; [reflexivity|]. split; [reflexivity|]. do 3 eexists. split; [vm_compute; reflexivity|]. split; [vm_compute; reflexivity|]. split; [reflexivity|]. split; vm_compute; reflexivity.
Qed.
