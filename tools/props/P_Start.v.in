(** * Theorems about where finalfusion files start (C132) and are written (C133). *)
From Verif Require Import Base BaseFacts Utf8 F32 Stream ChunkIO Subword Vocab Storage Embeddings FileSpec TextIO FastText StartAnywhere StartAligned StartWrite P_File.
Local Open Scope N_scope.

(** Vocabularies and metadata are read in the same way everywhere. *)
@thm vocabs_anywhere_thm StartAligned vocabs_anywhere
(** Storages, norms and files are read in the same way at positions that
    differ by a multiple of four. *)
@thm storages_aligned_thm StartAligned storages_aligned
@thm files_aligned_thm StartAligned files_aligned
(** The hypotheses are met by the readers of all types. *)
@thm wrapped_aligned_thm StartAligned wrapped_aligned
Example aligned_ex : let f := file_of (ex_emb (Some ex_norms)) 0 in
  fst (read_file Release ex_toml (mkStream f 0)) = Ok (ex_emb (Some ex_norms)) /\ fst (read_file Release ex_toml (mkStream f 8)) = Ok (ex_emb (Some ex_norms)).
Proof. vm_compute. auto. Qed.
(** At other positions the padding has another length: a file that was copied
    there is read without an error, but with other numbers and without its
    norms. *)
Theorem moved_file_refuted : exists (e e' : emb ex_toml) k, emb_built Release ex_toml e (em_storage e) /\
  fst (read_file Release ex_toml (mkStream (file_of e 0) 0)) = Ok e /\ fst (read_file Release ex_toml (mkStream (file_of e 0) k)) = Ok e' /\
  em_norms e <> None /\ em_norms e' = None /\ em_storage e' <> em_storage e /\ em_vocab e' = em_vocab e.
Proof.
  exists (ex_emb (Some ex_norms)). eexists. exists 1. split; [apply ex_built_norms|]. split; [vm_compute; reflexivity|]. split; [vm_compute; reflexivity|].
  split; [discriminate|]. split; [reflexivity|]. split; [vm_compute; discriminate|vm_compute; reflexivity].
Qed.
Print Assumptions moved_file_refuted.

(** ** Writers *)
@thm chunks_steady_thm StartWrite chunks_steady
@thm embeddings_steady_thm StartWrite embeddings_steady
(** The hypotheses are met by all types of vocabularies and storages; in
    particular: *)
@thm file_bytes_aligned_thm StartWrite file_bytes_aligned
@thm predicted_steady_thm StartWrite predicted_steady
@thm predicted_aligned_thm StartWrite predicted_aligned
@thm other_steady_thm StartWrite other_steady
Example file_bytes_aligned_ex : let f := file_of (ex_emb (Some ex_norms)) 0 in
  run_writer (write_file ex_toml (ex_emb (Some ex_norms))) 8 = Ok f /\ lenN f <> 0 /\ run_writer (write_file ex_toml (ex_emb (Some ex_norms))) 1 <> Ok f.
Proof. vm_compute. split; [reflexivity|]. split; discriminate. Qed.
Example predicted_aligned_ex : let len := write_embeddings_len ex_toml vwrap_chunk swrap_chunk (ex_emb (Some ex_norms)) in len 8 = len 0 /\ len 1 <> len 0.
Proof. vm_compute. split; [reflexivity|discriminate]. Qed.
