(** * Theorems about writing on machines with pointers of other widths (C120). *)
From Verif Require Import Base BaseFacts Utf8 F32 Stream ChunkIO Subword Vocab Storage Embeddings FileSpec FileFacts Width WidthThms WidthWrite WidthWriteThms.
From Verif Require P_File.
Local Open Scope N_scope.

(** Files that are smaller than the address space. *)
@thm length_write_thm WidthWriteThms length_write | forall (w : machine) (pf : profile) (T : toml_ops), w_size w <= two64 ->
@thm length_len_thm WidthWriteThms length_len | forall (w : machine) (pf : profile) (T : toml_ops), w_size w <= two64 ->
(** Embeddings that are smaller in memory than the address space. *)
@thm memory_write_thm WidthWriteThms memory_write
(** Embeddings that were read or mapped on the machine. *)
@thm read_write_thm WidthWriteThms read_write
(** Files of 64-bit machines, read or mapped and written again. *)
@thm portable_thm WidthWriteThms portable
@thm portable_mmap_thm WidthWriteThms portable_mmap

Definition ww_emb := P_File.ex_emb (Some P_File.ex_norms).
Definition ww_file : list byte := P_File.file_of ww_emb 0.
(** Shown for i686: the hypotheses hold, and what is written. *)
Example memory_write_ex : w_size i686 <= two64 /\ 4 <= mw_string i686 /\ 8 <= mw_pair i686 /\
  storage_sound (em_storage ww_emb) /\ memory_bytes i686 ww_emb + 128 <= w_size i686 /\
  run_writer (w_write_file i686 Debug P_File.ex_toml ww_emb) 0 = Ok ww_file /\ lenN ww_file = 208 /\
  w_write_file_len i686 Debug P_File.ex_toml ww_emb 0 = Ok 208.
Proof. repeat split; vm_compute; try discriminate; reflexivity. Qed.
Example quantized_write_ex : let s := SQuantized P_File.ex_quantized in
  storage_sound s /\ run_writer (w_write_storage i686 Debug s) 3 = run_writer (write_storage_wrap s) 3 /\
  exists l, run_writer (write_storage_wrap s) 3 = Ok l /\ 48 <= lenN l.
Proof.
  split; [|split; [vm_compute; reflexivity|eexists; split; [vm_compute; reflexivity|vm_compute; discriminate]]].
  split; [vm_compute; discriminate|]. intros ns H. vm_compute in H. injection H as <-. vm_compute. discriminate.
Qed.
Example read_write_ex : exists s', w_read i686 false P_File.ex_toml Release (mkStream ww_file 0) = (Ok ww_emb, s').
Proof. eexists. vm_compute. reflexivity. Qed.
Lemma ww_fits : vocab_fits i686 Release (em_vocab ww_emb).
Proof. intros n H. vm_compute in H. injection H as <-. reflexivity. Qed.
Example portable_ex : toml_law P_File.ex_toml /\ emb_built Release P_File.ex_toml ww_emb (SNdArray P_File.ex_matrix) /\ narrow i686 /\
  run_writer (write_file P_File.ex_toml ww_emb) 0 = Ok ww_file /\ 3 * lenN ww_file <= w_max i686 /\ vocab_fits i686 Release (em_vocab ww_emb) /\
  shape_fits i686 (SNdArray P_File.ex_matrix) /\ shape_fits i686 (storage_mapped (SNdArray P_File.ex_matrix)).
Proof.
  split; [exact P_File.ex_toml_law|]. split; [exact P_File.ex_built_norms|]. split; [exact narrow_i686|]. split; [vm_compute; reflexivity|].
  split; [vm_compute; discriminate|]. split; [exact ww_fits|]. split; vm_compute; split; discriminate.
Qed.

(** The condition on the size matters: pointers of 8 bits, and 4 x 16 numbers.
    With overflow checks the writer panics; without them, the chunk states a
    length that is 256 too small. *)
Definition w8 : machine := mkMachine 8 12 20 127.
Definition ww_big : storage_wrap := SNdArray (mkA2 16 (repeat (repeat f32_zero 16) 4)).
Theorem too_wide_refuted : exists s, storage_sound s /\
  run_writer (w_write_storage w8 Debug s) 0 = Panic PArithOverflow /\
  exists l l', run_writer (w_write_storage w8 Release s) 0 = Ok l /\ run_writer (write_storage_wrap s) 0 = Ok l' /\ l <> l' /\
  lenN l = lenN l' /\ takeN 8 (dropN 4 l) = le_bytes 8 20 /\ takeN 8 (dropN 4 l') = le_bytes 8 276.
Proof.
  exists ww_big. split; [split; exact Logic.I|]. split; [vm_compute; reflexivity|]. do 2 eexists. split; [vm_compute; reflexivity|]. split; [vm_compute; reflexivity|].
  split; [discriminate|]. repeat split; vm_compute; reflexivity.
Qed.
Print Assumptions too_wide_refuted.
