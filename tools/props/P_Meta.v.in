(** * Theorems about the metadata of fastText models (C116). *)
From Coq Require Import ZArith String.
From Verif Require Import Base BaseFacts Utf8 F32 Stream ChunkIO Subword Vocab Storage Embeddings TextIO FastText FastTextSpec FastTextMeta FastTextMetaThms.
From Verif Require P_FastText.
Local Open Scope N_scope.

@thm meta_read_thm FastTextMetaThms meta_read | forall (print : ttable -> str) (parse : str -> option ttable) (pf : profile),
@thm meta_inj_thm FastTextMetaThms meta_inj | forall (print : ttable -> str) (parse : str -> option ttable) (pf : profile),
@thm meta_vocab_thm FastTextMetaThms meta_vocab | forall (print : ttable -> str) (parse : str -> option ttable) (pf : profile),
@thm meta_rewritten_thm FastTextMetaThms meta_rewritten | forall (print : ttable -> str) (parse : str -> option ttable) (pf : profile),

(** A model and its metadata; and after writing and reading it again: window
    size, epochs, counts, loss function and model type are lost. *)
Definition mt_T : toml_ops := toml_of (fun _ => []) (fun _ => None).
Definition mt_file : list byte := P_FastText.ft_ex_bytes 2 3 6 [[x61]; [x62]] 0 P_FastText.ft_ex_rows.
Definition mt_read := run_reader (read_fasttext Debug mt_T ft_config_table false).
Example meta_read_ex : exists e t, mt_read mt_file = Ok e /\ em_meta e = Some t /\
  map snd t = [TInteger 2; TInteger 1; TInteger 5; TString (key "NegativeSampling"); TInteger 100; TInteger 6; TInteger 5; TInteger 3;
    TString (key "SkipGram"); TInteger 5; TFloat 0; TInteger 5; TInteger 1]%Z.
Proof. eexists. eexists. split; [vm_compute; reflexivity|]. split; [reflexivity|]. vm_compute. reflexivity. Qed.
Theorem meta_lost_refuted : exists e out e' t t', mt_read mt_file = Ok e /\ run_writer (write_fasttext Debug mt_T (nd_ops f32) e) 0 = Ok out /\ mt_read out = Ok e' /\
  em_meta e = Some t /\ em_meta e' = Some t' /\ em_vocab e' = em_vocab e /\
  t_get t (key "epoch"%string) = Some (TInteger 5) /\ t_get t' (key "epoch"%string) = Some (TInteger 0) /\
  t_get t (key "model"%string) = Some (TString (key "SkipGram"%string)) /\ t_get t' (key "model"%string) = Some (TString (key "Cbow"%string)).
Proof.
  do 5 eexists. split; [vm_compute; reflexivity|]. split; [vm_compute; reflexivity|]. split; [vm_compute; reflexivity|].
  split; [reflexivity|]. split; [reflexivity|]. repeat split; vm_compute; reflexivity.
Qed.
Print Assumptions meta_lost_refuted.

(** The number of dimensions in the metadata is not compared with the matrix. *)
Theorem meta_dims_refuted : exists data e t, mt_read data = Ok e /\ em_meta e = Some t /\
  t_get t (key "dims"%string) = Some (TInteger 7) /\ a2_cols (em_storage e) = 1.
Proof.
  exists (takeN 8 mt_file ++ le_bytes 4 7 ++ dropN 12 mt_file). do 2 eexists. split; [vm_compute; reflexivity|]. split; [reflexivity|]. split; vm_compute; reflexivity.
Qed.
Print Assumptions meta_dims_refuted.

(** Embeddings with a table of their own that are written and read. *)
Definition mt_emb : embeddings ttable (subword_vocab ft_indexer) (array2 f32) f32 :=
  mkEmb (Some [(key "author"%string, TString (key "me"%string))]) (mkA2 2 P_FastText.ft_rows) (P_FastText.ft_vocab default_bow default_eow) None.
Example meta_rewritten_ex : ft_emb_made (nd_ops f32) Debug mt_emb 2 P_FastText.ft_rows /\ sv_min (em_vocab mt_emb) < two32 /\ sv_max (em_vocab mt_emb) < two32 /\
  exists out e' t, run_writer (write_fasttext Debug mt_T (nd_ops f32) mt_emb) 0 = Ok out /\ mt_read out = Ok e' /\ em_meta e' = Some t /\
  t_get t (key "author"%string) = None /\ t_get t (key "dims"%string) = Some (TInteger 2).
Proof.
  split. { pose proof P_FastText.ft_ex_made as (A & B & C & D & _). split; [exact A|]. split; [exact B|]. split; [exact C|]. split; [exact D|]. split; [vm_compute; reflexivity|discriminate]. }
  split; [reflexivity|]. split; [reflexivity|]. do 3 eexists. split; [vm_compute; reflexivity|]. split; [vm_compute; reflexivity|]. split; [reflexivity|]. split; vm_compute; reflexivity.
Qed.
