(** * Theorems about every outcome of the text readers (C83-C86). *)
From Verif Require Import Base BaseFacts Utf8 F32 Stream ChunkIO Subword Vocab Storage Embeddings TextIO FileSpec VocabSpec EmbSpec TextSpec TextExactSpec
  TextFacts P_Emb P_Sim P_Text.
From Verif Require Import TextThms TextExact.
Local Open Scope N_scope.

(** ** C83: the numbers of headers

    The field always exists and is unique; it is a numeral for a number below
    [2^64] or the reader fails. *)
@thm read_number_outcome_thm TextExact number_outcome
(** "12 a", "125" without a delimiter, nothing, a number that does not fit. *)
Example read_number_outcome_ex :
  field_of x20 [x31; x32; x20; x61] [x31; x32] [x61] /\ numeral [x31; x32] 12 /\
  field_of x20 [x31; x32; x35] [x31; x32] [] /\ field_of x20 [] [] [] /\
  (forall n, numeral [] n -> two64 <= n) /\ numeral (dec_print two64) two64 /\
  read_number x20 (mkStream (dec_print two64 ++ [x20]) 0) = (Err EFormat, mkStream [] 21).
Proof.
  split; [apply (field_delimited x20 [x31; x32] [x61]); cbn; intuition discriminate|].
  split; [exists [1; 2]; repeat split; [discriminate|repeat constructor|left; reflexivity]|].
  split; [apply (field_cut x20 [x31; x32] x35); cbn; intuition discriminate|]. split; [constructor|].
  split; [intros n (ds & NE & _ & _ & [D|D]); [destruct ds; [contradiction|discriminate]|discriminate]|].
  split; [apply dec_print_numeral|vm_compute; reflexivity].
Qed.

(** ** C84: text files *)
@thm text_exact_thm TextExact text_exact_outcome | forall (P : ftext_ops) (pf : profile) (Md : Type),
@thm text_dims_exact_thm TextExact dims_exact_outcome | forall (P : ftext_ops) (pf : profile) (Md : Type),

(** Each case occurs. *)
Definition ex_text_out (lossy : bool) (data : list byte) (o : res (embeddings unit simple_vocab (array2 f32) f32)) : Prop := text_outcome ex_P lossy data o.
Definition ex_dims_out (pf : profile) (data : list byte) (o : res (embeddings unit simple_vocab (array2 f32) f32)) : Prop := dims_outcome ex_P pf false data o.
Example text_exact_ex :
  (exists e, ex_text_out false (text_file ex_P ex_items) (Ok e)) /\ ex_text_out false [] (Panic PDivByZero) /\
  ex_text_out false [x61; x20; x62] (Err EFormat) /\
  ex_text_out false ([x61; x20; x31; x0a] ++ [x61; x20; x31; x0a]) (Panic PDuplicateWords) /\
  ex_text_out false ([x61; x20; x31; x0a] ++ [x62; x0a]) (Err EMatrixShape).
Proof.
  split; [eexists|repeat split]; unfold ex_text_out; apply (text_exact_thm ex_P Debug unit); vm_compute; reflexivity.
Qed.
(** "1 1" and a line; a header that is cut; a large count of words; a product
    of the numbers of the header that overflows or wraps around to zero; no
    words. *)
Example text_dims_exact_ex :
  (exists e, ex_dims_out Debug ([x31; x20; x31; x0a] ++ [x61; x20; x31; x0a]) (Ok e)) /\
  ex_dims_out Debug [x31] (Err EFormat) /\
  ex_dims_out Debug (dec_print isize_max ++ [x20; x31; x0a]) (Panic PCapacity) /\
  ex_dims_out Debug (dec_print two32 ++ [x20] ++ dec_print two32 ++ [x0a]) (Panic PArithOverflow) /\
  ex_dims_out Release (dec_print two32 ++ [x20] ++ dec_print two32 ++ [x0a]) (Err EFormat) /\
  ex_dims_out Debug ([x31; x20] ++ dec_print isize_max ++ [x0a]) (Panic PCapacity) /\
  ex_dims_out Debug [x30; x20; x35; x0a] (Panic PDivByZero) /\
  ex_dims_out Debug ([x31; x20; x32; x0a] ++ [x61; x20; x31; x0a]) (Err EFormat) /\
  ex_dims_out Debug ([x32; x20; x31; x0a] ++ [x61; x20; x31; x0a] ++ [x62; x20; x31; x20; x31; x0a]) (Err EMatrixShape) /\
  ex_dims_out Debug ([x32; x20; x31; x0a] ++ [x61; x20; x31; x0a] ++ [x61; x20; x31; x0a]) (Panic PDuplicateWords).
Proof.
  split; [eexists|repeat split]; unfold ex_dims_out; match goal with |- dims_outcome _ ?pf _ _ _ => apply (text_dims_exact_thm ex_P pf unit) end; vm_compute; reflexivity.
Qed.

(** ** C85: word2vec files *)
@thm word2vec_exact_thm TextExact binary_exact_outcome | forall (pf : profile) (Md : Type),
@thm word2vec_normalized_thm TextExact binary_normalized
Definition ex_w2v_out (lossy : bool) (data : list byte) (o : res (embeddings unit simple_vocab (array2 f32) f32)) : Prop := binary_outcome lossy data o.
Example word2vec_exact_ex :
  (exists e, ex_w2v_out false ([x31; x20; x31; x0a] ++ x61 :: x20 :: f32s_bytes [fN 1]) (Ok e)) /\
  (exists e, ex_w2v_out false [x30; x20; x37; x35] (Ok e)) /\
  ex_w2v_out false [x31; x20; x61; x0a] (Err EFormat) /\
  ex_w2v_out false (dec_print isize_max ++ [x20; x30; x0a]) (Panic PCapacity) /\
  ex_w2v_out false ([x31; x20; x31; x0a] ++ x61 :: x20 :: [x00; x00]) (Err ERead) /\
  ex_w2v_out false ([x31; x20; x31; x0a] ++ xff :: x20 :: f32s_bytes [fN 1]) (Err EFormat) /\
  ex_w2v_out false ([x32; x20; x31; x0a] ++ (x61 :: x20 :: f32s_bytes [fN 1]) ++ x0a :: x61 :: x20 :: f32s_bytes [fN 2]) (Panic PDuplicateWords).
Proof.
  split; [eexists|split; [eexists|repeat split]]; unfold ex_w2v_out; apply (word2vec_exact_thm Debug unit); vm_compute; reflexivity.
Qed.

(** ** C86: floret files *)
@thm floret_exact_thm TextExact floret_exact_outcome | forall (P : ftext_ops) (pf : profile) (Md : Type),
Definition ex_floret_out (pf : profile) (data : list byte) (o : res (embeddings unit (subword_vocab floret_indexer) (array2 f32) f32)) : Prop :=
  floret_outcome ex_P pf data o.
(** "[n] 1 1 2 1 0 < >" *)
Definition ex_floret_head (n : N) : list byte :=
  dec_print n ++ [x20; x31; x20; x31; x20; x32; x20; x31; x20; x30; x20; x3c; x20; x3e; x0a].
Example floret_exact_ex :
  (exists e, ex_floret_out Debug (ex_floret_head 1 ++ [x30; x20; x35; x0a]) (Ok e)) /\
  ex_floret_out Debug [x31; x20; x31; x0a] (Err EFormat) /\
  ex_floret_out Debug (ex_floret_head 0) (Err EFormat) /\
  ex_floret_out Debug (ex_floret_head isize_max) (Panic PCapacity) /\
  ex_floret_out Debug (dec_print two32 ++ [x20] ++ dec_print two32 ++ [x20; x31; x20; x32; x20; x31; x20; x30; x20; x3c; x20; x3e; x0a]) (Panic PArithOverflow) /\
  ex_floret_out Debug (ex_floret_head 1 ++ [xff; x20; x35; x0a]) (Err ERead) /\
  ex_floret_out Debug (ex_floret_head 1 ++ [x30; x0a]) (Err EFormat) /\
  ex_floret_out Debug (ex_floret_head 2 ++ [x30; x20; x35; x0a]) (Err EMatrixShape).
Proof.
  split; [eexists|repeat split]; unfold ex_floret_out; apply (floret_exact_thm ex_P Debug unit); vm_compute; reflexivity.
Qed.
