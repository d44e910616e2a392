(** * Theorems about the number of calls that readers make (C119). *)
From Verif Require Import Base BaseFacts Utf8 Stream F32 ChunkIO Subword Vocab Storage Embeddings TextIO FastText FileSpec MemoryGreedy Work WorkThms P_File.
Local Open Scope N_scope.

(** ** C119: readers make no more calls than there are bytes, and a few *)
@thm chunk_calls_thm WorkThms chunk_calls
@thm chunk_thrift_thm WorkThms chunk_thrift
(** Files of any kinds of chunks. *)
@thm file_calls_thm WorkThms file_calls
@thm format_calls_thm WorkThms format_calls

(** A header that promises 2^32 - 1 chunks, and two of them. *)
Example chunk_calls_ex : let data := magic ++ le_bytes 4 0 ++ le_bytes 4 4294967295 ++ le_bytes 4 1 ++ le_bytes 4 2 in
  run_reader read_header data = Err ERead /\ exists c, counts read_header c /\ c (mkStream data 0) <= 22.
Proof.
  split; [vm_compute; reflexivity|]. destruct (chunk_calls Release ex_toml) as [(c & C & B) _]. exists c. split; [exact C|]. eapply N.le_trans; [apply B|]. vm_compute. discriminate.
Qed.
(** What is counted: a string is read in two calls, or in one if there are
    less than four bytes. *)
Example counts_ex : exists c, counts read_string_item c /\
  c (mkStream [x02; x00; x00; x00; x61; x62] 0) = 2 /\ c (mkStream [x02; x00; x00; x00] 0) = 2 /\ c (mkStream [x02; x00] 0) = 1.
Proof.
  eexists. split.
  - eapply ct_bind; [eapply ct_bind; [apply ct_exact|intros a; exact (ct_lift _ (Ok (le_value a)))]|]. intros n. eapply (ct_bind _ _ _ _ _ (fun _ _ => 0)); [apply ct_exact|]. intros b.
    destruct (utf8_valid b); [exact (ct_lift _ (Ok b))|exact (ct_lift _ (Err EFormat))].
  - repeat split; vm_compute; reflexivity.
Qed.
Example file_calls_ex : run_reader (read_file Release ex_toml) (file_of (ex_emb (Some ex_norms)) 0) = Ok (ex_emb (Some ex_norms)) /\ few_calls (read_file Release ex_toml) 2.
Proof.
  split; [vm_compute; reflexivity|]. destruct (chunk_thrift Release) as (_ & _ & _ & _ & _ & V & _ & _ & S & _). exact (proj1 (file_calls ex_toml _ _ V S)).
Qed.

(** word2vec: the same unless the vectors have no components. *)
@thm word2vec_calls_partial WorkThms word2vec_calls
(** Then there is no bound: a file of 22 bytes can take as many calls as there
    are words that fit in memory (2^63 / 24), and ends in a panic. *)
@thm word2vec_calls_refuted WorkThms word2vec_slow

Example word2vec_slow_ex : no_dims 1000000000 = [x31; x30; x30; x30; x30; x30; x30; x30; x30; x30; x20; x30; x0a] /\
  exists c, counts (read_word2vec_raw (Md := unit) Release false) c /\ c (mkStream (no_dims 1000000000) 0) = 2000000002.
Proof.
  split; [vm_compute; reflexivity|]. destruct (word2vec_calls Release (Md := unit) false true) as (c & C & _ & X). exists c. split; [exact C|].
  rewrite X; [reflexivity|]. vm_compute. discriminate.
Qed.
