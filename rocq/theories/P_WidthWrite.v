(** * Theorems about writing on machines with pointers of other widths (C120). *)
From Verif Require Import Base BaseFacts Utf8 F32 Stream ChunkIO Subword Vocab Storage Embeddings FileSpec FileFacts Width WidthThms WidthWrite WidthWriteThms.
From Verif Require P_File.
Local Open Scope N_scope.

(** Files that are smaller than the address space. *)
Theorem length_write_thm : forall (w : machine) (pf : profile) (T : toml_ops), w_size w <= two64 ->
  forall (e : emb T) offset k,
  has_centroid (em_storage e) -> write_file_len T e offset + 8 <= w_size w ->
    w_write_file w pf T e k = write_file T e k.
Proof. exact (@WidthWriteThms.length_write). Qed.
Print Assumptions length_write_thm.
Theorem length_len_thm : forall (w : machine) (pf : profile) (T : toml_ops), w_size w <= two64 ->
  forall (e : emb T) offset,
  has_centroid (em_storage e) -> write_file_len T e offset + 8 <= w_size w ->
    w_write_file_len w pf T e offset = Ok (write_file_len T e offset).
Proof. exact (@WidthWriteThms.length_len). Qed.
Print Assumptions length_len_thm.
(** Embeddings that are smaller in memory than the address space. *)
Theorem memory_write_thm : forall w pf T (e : emb T) k,
  w_size w <= two64 -> 4 <= mw_string w -> 8 <= mw_pair w -> storage_sound (em_storage e) ->
  memory_bytes w e + 128 <= w_size w -> w_write_file w pf T e k = write_file T e k.
Proof. exact (@WidthWriteThms.memory_write). Qed.
Print Assumptions memory_write_thm.
(** Embeddings that were read or mapped on the machine. *)
Theorem read_write_thm : forall w b pf pf' T s e s' k,
  w_size w <= two64 -> 4 <= mw_string w -> 8 <= mw_pair w ->
  w_read w b T pf s = (Ok e, s') \/ w_mmap w b T pf s = (Ok e, s') ->
  memory_bytes w e + 128 <= w_size w -> w_write_file w pf' T e k = write_file T e k.
Proof. exact (@WidthWriteThms.read_write). Qed.
Print Assumptions read_write_thm.
(** Files of 64-bit machines, read or mapped and written again. *)
Theorem portable_thm : forall w b pf pf' T e s0 base bytes,
  toml_law T -> emb_built pf T e s0 -> narrow w ->
  run_writer (write_file T e) base = Ok bytes -> 3 * lenN bytes <= w_max w -> vocab_fits w pf (em_vocab e) -> shape_fits w s0 ->
  exists s', w_read w b T pf (mkStream bytes base) = (Ok (loaded e s0 (em_norms e)), s') /\
    run_writer (w_write_file w pf' T (loaded e s0 (em_norms e))) base = Ok bytes.
Proof. exact (@WidthWriteThms.portable). Qed.
Print Assumptions portable_thm.
Theorem portable_mmap_thm : forall w b pf pf' T e s0 base bytes,
  toml_law T -> emb_built pf T e s0 -> narrow w ->
  run_writer (write_file T e) base = Ok bytes -> 3 * lenN bytes <= w_max w -> vocab_fits w pf (em_vocab e) -> shape_fits w (storage_mapped s0) ->
  exists s', w_mmap w b T pf (mkStream bytes base) = (Ok (loaded e (storage_mapped s0) (em_norms e)), s') /\
    run_writer (w_write_file w pf' T (loaded e (storage_mapped s0) (em_norms e))) base = Ok bytes.
Proof. exact (@WidthWriteThms.portable_mmap). Qed.
Print Assumptions portable_mmap_thm.

Definition ww_emb := P_File.ex_emb (Some P_File.ex_norms).
Definition ww_file : list byte := P_File.file_of ww_emb 0.
(** Shown for i686: the hypotheses hold, and what is written. *)
Example memory_write_ex : w_size i686 <= two64 /\ 4 <= mw_string i686 /\ 8 <= mw_pair i686 /\
  storage_sound (em_storage ww_emb) /\ memory_bytes i686 ww_emb + 128 <= w_size i686 /\
  run_writer (w_write_file i686 Debug P_File.ex_toml ww_emb) 0 = Ok ww_file /\ lenN ww_file = 208 /\
  w_write_file_len i686 Debug P_File.ex_toml ww_emb 0 = Ok 208.
Proof. repeat split; vm_compute; try discriminate; reflexivity. Qed.
Example quantized_write_ex : let s := SQuantized P_File.ex_quantized in
  storage_sound s /\ run_writer (w_write_storage i686 Debug s) 3 = run_writer (write_storage_wrap s) 3 /\
  exists l, run_writer (write_storage_wrap s) 3 = Ok l /\ 48 <= lenN l.
Proof.
  split; [|split; [vm_compute; reflexivity|eexists; split; [vm_compute; reflexivity|vm_compute; discriminate]]].
  split; [vm_compute; discriminate|]. intros ns H. vm_compute in H. injection H as <-. vm_compute. discriminate.
Qed.
Example read_write_ex : exists s', w_read i686 false P_File.ex_toml Release (mkStream ww_file 0) = (Ok ww_emb, s').
Proof. eexists. vm_compute. reflexivity. Qed.
Lemma ww_fits : vocab_fits i686 Release (em_vocab ww_emb).
Proof. intros n H. vm_compute in H. injection H as <-. reflexivity. Qed.
Example portable_ex : toml_law P_File.ex_toml /\ emb_built Release P_File.ex_toml ww_emb (SNdArray P_File.ex_matrix) /\ narrow i686 /\
  run_writer (write_file P_File.ex_toml ww_emb) 0 = Ok ww_file /\ 3 * lenN ww_file <= w_max i686 /\ vocab_fits i686 Release (em_vocab ww_emb) /\
  shape_fits i686 (SNdArray P_File.ex_matrix) /\ shape_fits i686 (storage_mapped (SNdArray P_File.ex_matrix)).
Proof.
  split; [exact P_File.ex_toml_law|]. split; [exact P_File.ex_built_norms|]. split; [exact narrow_i686|]. split; [vm_compute; reflexivity|].
  split; [vm_compute; discriminate|]. split; [exact ww_fits|]. split; vm_compute; split; discriminate.
Qed.

(** The condition on the size matters: pointers of 8 bits, and 4 x 16 numbers.
    With overflow checks the writer panics; without them, the chunk states a
    length that is 256 too small. *)
Definition w8 : machine := mkMachine 8 12 20 127.
Definition ww_big : storage_wrap := SNdArray (mkA2 16 (repeat (repeat f32_zero 16) 4)).
Theorem too_wide_refuted : exists s, storage_sound s /\
  run_writer (w_write_storage w8 Debug s) 0 = Panic PArithOverflow /\
  exists l l', run_writer (w_write_storage w8 Release s) 0 = Ok l /\ run_writer (write_storage_wrap s) 0 = Ok l' /\ l <> l' /\
  lenN l = lenN l' /\ takeN 8 (dropN 4 l) = le_bytes 8 20 /\ takeN 8 (dropN 4 l') = le_bytes 8 276.
Proof.
  exists ww_big. split; [split; exact Logic.I|]. split; [vm_compute; reflexivity|]. do 2 eexists. split; [vm_compute; reflexivity|]. split; [vm_compute; reflexivity|].
  split; [discriminate|]. repeat split; vm_compute; reflexivity.
Qed.
Print Assumptions too_wide_refuted.
