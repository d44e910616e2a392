(** * Theorems about readers with little memory (C115). *)
From Verif Require Import Base BaseFacts Utf8 F32 Stream ChunkIO Subword Vocab Storage Embeddings TextIO FastText Width WidthThms Memory MemoryThms MemoryGreedy.
From Verif Require P_File P_Width.
Local Open Scope N_scope.

(** With less memory a reader does the same, or the program ends. *)
@thm less_read_thm MemoryThms less_read | forall (l l' : N) (L : l <= l'),
@thm less_mmap_thm MemoryThms less_mmap | forall (l l' : N) (L : l <= l'),
@thm less_text_dims_thm MemoryThms less_text_dims | forall (l l' : N) (L : l <= l'),
@thm less_word2vec_thm MemoryThms less_word2vec | forall (l l' : N) (L : l <= l'),
@thm less_floret_thm MemoryThms less_floret | forall (l l' : N) (L : l <= l'),
@thm less_fasttext_thm MemoryThms less_fasttext | forall (l l' : N) (L : l <= l'),
(** With all the memory that can be asked for these are the readers of the
    rest of the model; for finalfusion files see [width_64_thm]. *)
@thm all_text_dims_thm MemoryThms all_text_dims
@thm all_word2vec_thm MemoryThms all_word2vec
@thm all_floret_thm MemoryThms all_floret
@thm all_fasttext_thm MemoryThms all_fasttext

(** Files that can be read. *)
@thm enough_read_thm MemoryThms enough_read
@thm enough_mmap_thm MemoryThms enough_mmap
@thm enough_text_dims_thm MemoryThms enough_text_dims
@thm enough_word2vec_thm MemoryThms enough_word2vec
@thm enough_floret_thm MemoryThms enough_floret
@thm enough_fasttext_thm MemoryThms enough_fasttext

(** Files that cannot: no multiple of their size is enough. *)
@thm greedy_read_thm MemoryGreedy greedy_read
@thm greedy_text_dims_thm MemoryGreedy greedy_text_dims
@thm greedy_word2vec_thm MemoryGreedy greedy_word2vec
@thm greedy_floret_thm MemoryGreedy greedy_floret
@thm greedy_fasttext_thm MemoryGreedy greedy_fasttext

(** The file of [P_Width]: 140 bytes are read with 840 bytes per request. *)
Definition mx_file : list byte := P_Width.wx_file 1 (P_Width.wx_norms 1 4 ++ le_bytes 4 0).
Example enough_read_ex : exists e s', 6 * lenN mx_file <= 840 /\
  read_embeddings P_File.ex_toml (read_vocab_wrap Debug) read_storage_wrap (mkStream mx_file 0) = (Ok e, s') /\ em_norms e <> None /\
  w_read (limited 840) false P_File.ex_toml Debug (mkStream mx_file 0) = (Ok e, s') /\
  fst (w_read (limited 23) false P_File.ex_toml Debug (mkStream mx_file 0)) = Panic PCapacity.
Proof. eexists. eexists. split; [vm_compute; discriminate|]. split; [vm_compute; reflexivity|]. split; [vm_compute; discriminate|]. split; vm_compute; reflexivity. Qed.
(** A text file: "1 2", "a 1 0". *)
Definition mx_numbers : ftext_ops := mkFtext (fun _ => [x30]) (fun s => match s with [x30] => Some f32_zero | [x31] => Some f32_one | _ => None end).
Definition mx_text : list byte := [x31; x20; x32; x0a; x61; x20; x31; x20; x30; x0a].
Example enough_text_ex : exists e, 24 * lenN mx_text <= 240 /\ run_reader (read_text_dims_raw (Md := unit) mx_numbers Debug false) mx_text = Ok e /\
  run_reader (l_text_dims_raw 240 mx_numbers Debug false) mx_text = Ok e /\ v_words simple_ops (em_vocab e) = [[x61]] /\
  run_reader (l_text_dims_raw (Md := unit) 23 mx_numbers Debug false) mx_text = Panic PCapacity.
Proof. eexists. split; [vm_compute; discriminate|]. split; [vm_compute; reflexivity|]. split; [vm_compute; reflexivity|]. split; vm_compute; reflexivity. Qed.
(** A word2vec file: "1 1", the word "a" with the component 1. *)
Definition mx_w2v : list byte := [x31; x20; x31; x0a; x61; x20; x00; x00; x80; x3f].
Example enough_word2vec_ex : exists e, 24 * lenN mx_w2v <= 240 /\ run_reader (read_word2vec_raw (Md := unit) Debug false) mx_w2v = Ok e /\
  run_reader (l_word2vec_raw 240 Debug false) mx_w2v = Ok e /\ v_words simple_ops (em_vocab e) = [[x61]].
Proof. eexists. split; [vm_compute; discriminate|]. split; [vm_compute; reflexivity|]. split; vm_compute; reflexivity. Qed.

(** The case of [enough_read_thm] with damaged norms: a file of less than 150
    bytes that is read, unless requests of 16 GiB are refused. *)
Theorem greedy_norms_refuted : exists l e, lenN l < 150 /\
  run_reader (read_embeddings P_File.ex_toml (read_vocab_wrap Debug) read_storage_wrap) l = Ok e /\ em_norms e = None /\
  run_reader (w_read (limited 17179869183) false P_File.ex_toml Debug) l = Panic PCapacity.
Proof. exists (P_Width.wx_file 1 (P_Width.wx_norms 4294967296 4)). eexists. split; [vm_compute; reflexivity|]. split; [vm_compute; reflexivity|]. split; vm_compute; reflexivity. Qed.
Print Assumptions greedy_norms_refuted.
