(** * Theorems about readers with little memory (C115). *)
From Verif Require Import Base BaseFacts Utf8 F32 Stream ChunkIO Subword Vocab Storage Embeddings TextIO FastText Width WidthThms Memory MemoryThms MemoryGreedy.
From Verif Require P_File P_Width.
Local Open Scope N_scope.

(** With less memory a reader does the same, or the program ends. *)
Theorem less_read_thm : forall (l l' : N) (L : l <= l'),
  forall b T pf,
  frugal (w_read (limited l) b T pf) (w_read (limited l') b T pf).
Proof. exact (@MemoryThms.less_read). Qed.
Print Assumptions less_read_thm.
Theorem less_mmap_thm : forall (l l' : N) (L : l <= l'),
  forall b T pf,
  frugal (w_mmap (limited l) b T pf) (w_mmap (limited l') b T pf).
Proof. exact (@MemoryThms.less_mmap). Qed.
Print Assumptions less_mmap_thm.
Theorem less_text_dims_thm : forall (l l' : N) (L : l <= l'),
  forall P pf (Md : Type) lossy,
  frugal (l_text_dims (Md := Md) l P pf lossy) (l_text_dims l' P pf lossy).
Proof. exact (@MemoryThms.less_text_dims). Qed.
Print Assumptions less_text_dims_thm.
Theorem less_word2vec_thm : forall (l l' : N) (L : l <= l'),
  forall pf (Md : Type) lossy,
  frugal (l_word2vec (Md := Md) l pf lossy) (l_word2vec l' pf lossy).
Proof. exact (@MemoryThms.less_word2vec). Qed.
Print Assumptions less_word2vec_thm.
Theorem less_floret_thm : forall (l l' : N) (L : l <= l'),
  forall P pf (Md : Type),
  frugal (l_floret_text (Md := Md) l P pf) (l_floret_text l' P pf).
Proof. exact (@MemoryThms.less_floret). Qed.
Print Assumptions less_floret_thm.
Theorem less_fasttext_thm : forall (l l' : N) (L : l <= l'),
  forall pf T ct lossy,
  frugal (l_fasttext l pf T ct lossy) (l_fasttext l' pf T ct lossy).
Proof. exact (@MemoryThms.less_fasttext). Qed.
Print Assumptions less_fasttext_thm.
(** With all the memory that can be asked for these are the readers of the
    rest of the model; for finalfusion files see [width_64_thm]. *)
Theorem all_text_dims_thm : forall P pf (Md : Type) lossy,
  same_r (l_text_dims (Md := Md) isize_max P pf lossy) (read_text_dims P pf lossy).
Proof. exact (@MemoryThms.all_text_dims). Qed.
Print Assumptions all_text_dims_thm.
Theorem all_word2vec_thm : forall pf (Md : Type) lossy,
  same_r (l_word2vec (Md := Md) isize_max pf lossy) (read_word2vec pf lossy).
Proof. exact (@MemoryThms.all_word2vec). Qed.
Print Assumptions all_word2vec_thm.
Theorem all_floret_thm : forall P pf (Md : Type),
  same_r (l_floret_text (Md := Md) isize_max P pf) (read_floret_text P pf).
Proof. exact (@MemoryThms.all_floret). Qed.
Print Assumptions all_floret_thm.
Theorem all_fasttext_thm : forall pf T ct lossy,
  same_r (l_fasttext isize_max pf T ct lossy) (read_fasttext pf T ct lossy).
Proof. exact (@MemoryThms.all_fasttext). Qed.
Print Assumptions all_fasttext_thm.

(** Files that can be read. *)
Theorem enough_read_thm : forall l T pf s e s',
  l <= isize_max -> 6 * lenN (s_rest s) <= l ->
  read_embeddings T (read_vocab_wrap pf) read_storage_wrap s = (Ok e, s') ->
  w_read (limited l) false T pf s = (Ok e, s') \/ em_norms e = None /\ fst (w_read (limited l) false T pf s) = Panic PCapacity.
Proof. exact (@MemoryThms.enough_read). Qed.
Print Assumptions enough_read_thm.
Theorem enough_mmap_thm : forall l T pf s e s',
  l <= isize_max -> 6 * lenN (s_rest s) <= l ->
  mmap_embeddings T (read_vocab_wrap pf) (mmap_storage_wrap pf) s = (Ok e, s') ->
  w_mmap (limited l) false T pf s = (Ok e, s') \/ em_norms e = None /\ fst (w_mmap (limited l) false T pf s) = Panic PCapacity.
Proof. exact (@MemoryThms.enough_mmap). Qed.
Print Assumptions enough_mmap_thm.
Theorem enough_text_dims_thm : forall l P pf (Md : Type) lossy s e s',
  24 * lenN (s_rest s) <= l -> read_text_dims (Md := Md) P pf lossy s = (Ok e, s') ->
  l_text_dims l P pf lossy s = (Ok e, s').
Proof. exact (@MemoryThms.enough_text_dims). Qed.
Print Assumptions enough_text_dims_thm.
Theorem enough_word2vec_thm : forall l pf (Md : Type) lossy s e s',
  24 * lenN (s_rest s) <= l -> read_word2vec (Md := Md) pf lossy s = (Ok e, s') ->
  l_word2vec l pf lossy s = (Ok e, s').
Proof. exact (@MemoryThms.enough_word2vec). Qed.
Print Assumptions enough_word2vec_thm.
Theorem enough_floret_thm : forall l P pf (Md : Type) s e s',
  24 * lenN (s_rest s) <= l -> read_floret_text (Md := Md) P pf s = (Ok e, s') ->
  l_floret_text l P pf s = (Ok e, s').
Proof. exact (@MemoryThms.enough_floret). Qed.
Print Assumptions enough_floret_thm.
Theorem enough_fasttext_thm : forall l pf T ct lossy s e s',
  24 * lenN (s_rest s) <= l -> read_fasttext pf T ct lossy s = (Ok e, s') ->
  l_fasttext l pf T ct lossy s = (Ok e, s').
Proof. exact (@MemoryThms.enough_fasttext). Qed.
Print Assumptions enough_fasttext_thm.

(** Files that cannot: no multiple of their size is enough. *)
Theorem greedy_read_thm : forall l T pf,
  l + 24 <= isize_max -> exists data, lenN data = 36 /\
  run_reader (w_read (limited l) false T pf) data = Panic PCapacity /\ run_reader (w_mmap (limited l) false T pf) data = Panic PCapacity /\
  run_reader (read_embeddings T (read_vocab_wrap pf) read_storage_wrap) data = Err ERead /\
  run_reader (mmap_embeddings T (read_vocab_wrap pf) (mmap_storage_wrap pf)) data = Err ERead.
Proof. exact (@MemoryGreedy.greedy_read). Qed.
Print Assumptions greedy_read_thm.
Theorem greedy_text_dims_thm : forall l P pf (Md : Type) lossy,
  l + 24 <= isize_max -> exists data, lenN data <= 22 /\
  run_reader (l_text_dims_raw (Md := Md) l P pf lossy) data = Panic PCapacity /\ run_reader (read_text_dims_raw (Md := Md) P pf lossy) data = Err EFormat.
Proof. exact (@MemoryGreedy.greedy_text_dims). Qed.
Print Assumptions greedy_text_dims_thm.
Theorem greedy_word2vec_thm : forall l pf (Md : Type) lossy,
  l + 24 <= isize_max -> exists data, lenN data <= 22 /\
  run_reader (l_word2vec_raw (Md := Md) l pf lossy) data = Panic PCapacity /\ run_reader (read_word2vec_raw (Md := Md) pf lossy) data = Err ERead.
Proof. exact (@MemoryGreedy.greedy_word2vec). Qed.
Print Assumptions greedy_word2vec_thm.
Theorem greedy_floret_thm : forall l P pf (Md : Type),
  l + 24 <= isize_max -> exists data, lenN data <= 34 /\
  run_reader (l_floret_text (Md := Md) l P pf) data = Panic PCapacity /\ run_reader (read_floret_text (Md := Md) P pf) data = Err EMatrixShape.
Proof. exact (@MemoryGreedy.greedy_floret). Qed.
Print Assumptions greedy_floret_thm.
Theorem greedy_fasttext_thm : forall l pf T ct lossy,
  l + 24 <= isize_max -> exists data, lenN data = 109 /\
  run_reader (l_fasttext l pf T ct lossy) data = Panic PCapacity /\ run_reader (read_fasttext pf T ct lossy) data = Err ERead.
Proof. exact (@MemoryGreedy.greedy_fasttext). Qed.
Print Assumptions greedy_fasttext_thm.

(** The file of [P_Width]: 140 bytes are read with 840 bytes per request. *)
Definition mx_file : list byte := P_Width.wx_file 1 (P_Width.wx_norms 1 4 ++ le_bytes 4 0).
Example enough_read_ex : exists e s', 6 * lenN mx_file <= 840 /\
  read_embeddings P_File.ex_toml (read_vocab_wrap Debug) read_storage_wrap (mkStream mx_file 0) = (Ok e, s') /\ em_norms e <> None /\
  w_read (limited 840) false P_File.ex_toml Debug (mkStream mx_file 0) = (Ok e, s') /\
  fst (w_read (limited 23) false P_File.ex_toml Debug (mkStream mx_file 0)) = Panic PCapacity.
Proof. eexists. eexists. split; [vm_compute; discriminate|]. split; [vm_compute; reflexivity|]. split; [vm_compute; discriminate|]. split; vm_compute; reflexivity. Qed.
(** A text file: "1 2", "a 1 0". *)
Definition mx_numbers : ftext_ops := mkFtext (fun _ => [x30]) (fun s => match s with [x30] => Some f32_zero | [x31] => Some f32_one | _ => None end).
Definition mx_text : list byte := [x31; x20; x32; x0a; x61; x20; x31; x20; x30; x0a].
Example enough_text_ex : exists e, 24 * lenN mx_text <= 240 /\ run_reader (read_text_dims_raw (Md := unit) mx_numbers Debug false) mx_text = Ok e /\
  run_reader (l_text_dims_raw 240 mx_numbers Debug false) mx_text = Ok e /\ v_words simple_ops (em_vocab e) = [[x61]] /\
  run_reader (l_text_dims_raw (Md := unit) 23 mx_numbers Debug false) mx_text = Panic PCapacity.
Proof. eexists. split; [vm_compute; discriminate|]. split; [vm_compute; reflexivity|]. split; [vm_compute; reflexivity|]. split; vm_compute; reflexivity. Qed.
(** A word2vec file: "1 1", the word "a" with the component 1. *)
Definition mx_w2v : list byte := [x31; x20; x31; x0a; x61; x20; x00; x00; x80; x3f].
Example enough_word2vec_ex : exists e, 24 * lenN mx_w2v <= 240 /\ run_reader (read_word2vec_raw (Md := unit) Debug false) mx_w2v = Ok e /\
  run_reader (l_word2vec_raw 240 Debug false) mx_w2v = Ok e /\ v_words simple_ops (em_vocab e) = [[x61]].
Proof. eexists. split; [vm_compute; discriminate|]. split; [vm_compute; reflexivity|]. split; vm_compute; reflexivity. Qed.

(** The case of [enough_read_thm] with damaged norms: a file of less than 150
    bytes that is read, unless requests of 16 GiB are refused. *)
Theorem greedy_norms_refuted : exists l e, lenN l < 150 /\
  run_reader (read_embeddings P_File.ex_toml (read_vocab_wrap Debug) read_storage_wrap) l = Ok e /\ em_norms e = None /\
  run_reader (w_read (limited 17179869183) false P_File.ex_toml Debug) l = Panic PCapacity.
Proof. exists (P_Width.wx_file 1 (P_Width.wx_norms 4294967296 4)). eexists. split; [vm_compute; reflexivity|]. split; [vm_compute; reflexivity|]. split; vm_compute; reflexivity. Qed.
Print Assumptions greedy_norms_refuted.
