(** * Theorems about the grammar of files (C63-C65). *)
From Verif Require Import Base BaseFacts Utf8 Stream F32 ChunkIO Subword Vocab Storage
  Embeddings FileSpec Grammar.
From Verif Require GrammarFacts PanicExact.
Local Open Scope N_scope.

(** ** C63: exactly the files of the grammar are read *)
@thm file_grammar_thm GrammarFacts file_iff
@thm vocab_grammar_thm GrammarFacts vocab_iff
@thm storage_grammar_thm GrammarFacts storage_iff
@thm norms_grammar_thm GrammarFacts norms_iff
@thm norms_grammar_panic_thm GrammarFacts norms_panic_iff
@thm file_unambiguous_thm GrammarFacts file_unambiguous
@thm written_grammar_thm GrammarFacts written_file

Definition ex_toml : toml_ops := mkToml unit (fun _ => []) (fun s => if str_eqb s [] then Some tt else None).

(** Wrong chunk lengths, other identifiers in the header, padding that is not
    zero, bytes after the norms. *)
Definition ex_file : list byte :=
  [x46; x69; x46; x75] ++ le_bytes 4 0 ++ le_bytes 4 3 ++ le_bytes 4 9 ++ le_bytes 4 5 ++ le_bytes 4 1
  ++ le_bytes 4 1 ++ le_bytes 8 77 ++ le_bytes 8 1 ++ le_bytes 4 2 ++ [xc3; xa9]
  ++ le_bytes 4 2 ++ le_bytes 8 5 ++ le_bytes 8 1 ++ le_bytes 4 2 ++ le_bytes 4 10 ++ [xff; x01]
  ++ le_bytes 4 1065353216 ++ le_bytes 4 7
  ++ le_bytes 4 6 ++ le_bytes 8 0 ++ le_bytes 8 1 ++ le_bytes 4 10 ++ [xaa; xbb; xcc; xdd] ++ le_bytes 4 9
  ++ [x2a].
Example file_grammar_ex : exists e, file_at Release ex_toml (mkStream ex_file 0) e /\
  em_meta e = None /\ v_words wrap_ops (em_vocab e) = [[xc3; xa9]] /\
  em_storage e = SNdArray (mkA2 2 [[f32_of_bits 1065353216; f32_of_bits 7]]) /\
  em_norms e = Some [f32_of_bits 9].
Proof.
  eexists. split; [apply file_grammar_thm; eexists; vm_compute; reflexivity|]. vm_compute. repeat split.
Qed.
(** One byte less and the norms are not there. *)
Example file_grammar_cut : exists e, file_at Release ex_toml (mkStream (takeN (lenN ex_file - 2) ex_file) 0) e /\
  em_norms e = None.
Proof.
  eexists. split; [apply file_grammar_thm; eexists; vm_compute; reflexivity|]. vm_compute. reflexivity.
Qed.
(** An empty matrix whose padding is missing. *)
Definition ex_empty : list byte :=
  le_bytes 4 2 ++ le_bytes 8 0 ++ le_bytes 8 0 ++ le_bytes 4 2 ++ le_bytes 4 10 ++ [x00].
Example storage_grammar_ex :
  storage_at (mkStream ex_empty 0) (SNdArray (mkA2 2 [])) (mkStream [] 32) /\
  storage_at (mkStream (ex_empty ++ [x00; x00; x00; x05]) 0) (SNdArray (mkA2 2 [])) (mkStream [x05] 32).
Proof. split; apply storage_grammar_thm; vm_compute; reflexivity. Qed.
(** 2^62 norms. *)
Example norms_grammar_ex :
  norms_too_long (mkStream (le_bytes 4 6 ++ le_bytes 8 0 ++ le_bytes 8 4611686018427387904 ++ le_bytes 4 10) 0).
Proof. apply norms_grammar_panic_thm. exists PCapacity. eexists. vm_compute. reflexivity. Qed.

(** ** C64: mapped files *)
@thm mapped_grammar_thm GrammarFacts mapped_iff
@thm mapped_file_grammar_thm GrammarFacts mapped_file_iff
@thm mapped_row_thm GrammarFacts mapped_row

(** A 2 x 1 matrix of which one and a half rows are in the file. *)
Definition ex_short : list byte :=
  le_bytes 4 2 ++ le_bytes 8 0 ++ le_bytes 8 2 ++ le_bytes 4 1 ++ le_bytes 4 10 ++ [x00; x00; x00; x00]
  ++ le_bytes 4 1065353216 ++ [x00; x00].
Example mapped_row_ex : exists m s', mapped_at Debug (mkStream ex_short 0) (SMmapArray m) s' /\
  ma_rows m * ma_cols m * 4 < two64 /\
  st_embedding mma_ops m 0 = Ok [f32_of_bits 1065353216] /\
  st_embedding mma_ops m 1 = Panic PUnsafe /\ st_embedding mma_ops m 2 = Panic PIndexOutOfBounds.
Proof.
  do 2 eexists. split; [apply mapped_grammar_thm; vm_compute; reflexivity|]. vm_compute. repeat split.
Qed.

(** ** C65: exactly which files panic *)
@thm file_panic_exact_thm PanicExact file_panics_iff
@thm vocab_panic_exact_thm PanicExact vocab_panic_iff
@thm storage_panic_exact_thm PanicExact storage_panic_iff

(** Duplicate words. *)
Example file_panic_exact_words : file_panic_at Release ex_toml (mkStream
  ([x46; x69; x46; x75] ++ le_bytes 4 0 ++ le_bytes 4 1 ++ le_bytes 4 1
   ++ le_bytes 4 1 ++ le_bytes 8 0 ++ le_bytes 8 2 ++ le_bytes 4 1 ++ [x61] ++ le_bytes 4 1 ++ [x61]) 0) PDuplicateWords.
Proof. apply file_panic_exact_thm. eexists. vm_compute. reflexivity. Qed.
(** 2^64 buckets: only with overflow checks. *)
Definition ex_buckets : list byte :=
  le_bytes 4 3 ++ le_bytes 8 0 ++ le_bytes 8 1 ++ le_bytes 4 3 ++ le_bytes 4 6 ++ le_bytes 4 64 ++ le_bytes 4 1 ++ [x61].
Example vocab_panic_exact_ex : vocab_panic_at Debug (mkStream ex_buckets 0) PArithOverflow /\
  (forall p, ~ vocab_panic_at Release (mkStream ex_buckets 0) p) /\
  vocab_panic_at Release (mkStream (le_bytes 4 3 ++ le_bytes 8 0 ++ le_bytes 8 (2 ^ 60) ++ le_bytes 4 3 ++ le_bytes 4 6 ++ le_bytes 4 65) 0) PCapacity.
Proof.
  split; [apply vocab_panic_exact_thm; eexists; vm_compute; reflexivity|]. split.
  - intros p H. apply vocab_panic_exact_thm in H as (s' & H). vm_compute in H. discriminate.
  - apply vocab_panic_exact_thm. eexists. vm_compute. reflexivity.
Qed.
(** A quantizer without centroids; one with quantized length zero, whatever follows. *)
Example storage_panic_exact_ex :
  storage_panic_at (mkStream (le_bytes 4 4 ++ le_bytes 8 0 ++ le_bytes 4 0 ++ le_bytes 4 1 ++ le_bytes 4 2 ++ le_bytes 4 4 ++ le_bytes 4 0
    ++ le_bytes 8 3 ++ le_bytes 4 1 ++ le_bytes 4 10) 0) PAssert /\
  storage_panic_at (mkStream (le_bytes 4 4 ++ le_bytes 8 0 ++ le_bytes 4 0 ++ le_bytes 4 1 ++ le_bytes 4 0 ++ le_bytes 4 4 ++ le_bytes 4 0
    ++ le_bytes 8 3) 0) PDivByZero.
Proof. split; apply storage_panic_exact_thm; eexists; vm_compute; reflexivity. Qed.
