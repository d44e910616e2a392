(** * The text formats with Rust's decimal numbers

    The theorems about the text formats, for the printing and parsing of
    numbers in [F32Text] instead of any that satisfies [ftext_law]. *)
From Coq Require Import Strings.Byte.
From Verif Require Import Base Utf8 F32 Stream Vocab Subword Storage Embeddings EmbSpec TextIO TextSpec F32Text F32TextFacts.
From Verif Require TextThms FloretThms.
Local Open Scope N_scope.

Lemma text_decimals (Md S : Type) (SO : storage_ops f32 S) (pf : profile) (e : embeddings Md vocab_wrap S f32) (cols : N) (rows : list (list f32)) :
  emb_made SO pf e cols rows -> norms_fit e -> Forall text_word (v_words wrap_ops (em_vocab e)) ->
  forall un lossy base, v_words wrap_ops (em_vocab e) <> [] ->
  exists l out, output_items un e rows l /\ run_writer (write_text rust_ftext wrap_ops SO un e) base = Ok out /\
    (nan_free l ->
     exists e' : embeddings Md simple_vocab (array2 f32) f32, run_reader (read_text_raw rust_ftext pf lossy) out = Ok e' /\ raw_result e' cols l).
Proof.
  intros M NF W un lossy base NE. destruct (TextThms.text_round_trip _ rust_ftext_law SO pf e cols rows M NF W un lossy base NE) as (l & out & H1 & H2 & H3).
  exists l, out. split; [exact H1|]. split; [exact H2|]. intros H. exact (proj1 (H3 H)).
Qed.
Lemma text_dims_decimals (Md S : Type) (SO : storage_ops f32 S) (pf : profile) (e : embeddings Md vocab_wrap S f32) (cols : N) (rows : list (list f32)) :
  emb_made SO pf e cols rows -> norms_fit e -> Forall text_word (v_words wrap_ops (em_vocab e)) ->
  forall un lossy base, v_words wrap_ops (em_vocab e) <> [] -> dims_fit (v_words_len wrap_ops (em_vocab e)) cols ->
  exists l out, output_items un e rows l /\ run_writer (write_text_dims rust_ftext wrap_ops SO un e) base = Ok out /\
    (nan_free l ->
     exists e' : embeddings Md simple_vocab (array2 f32) f32, run_reader (read_text_dims_raw rust_ftext pf lossy) out = Ok e' /\ raw_result e' cols l).
Proof.
  intros M NF W un lossy base NE D. destruct (TextThms.text_dims_round_trip _ rust_ftext_law SO pf e cols rows M NF W un lossy base NE D) as (l & out & H1 & H2 & H3).
  exists l, out. split; [exact H1|]. split; [exact H2|]. intros H. exact (proj1 (H3 H)).
Qed.
Lemma floret_decimals (pf : profile) (Md : Type) (e : embeddings Md (subword_vocab floret_indexer) (array2 f32) f32)
  (ws : list str) (mn mx nb nh seed : N) (ix : floret_indexer) (bow eow : str) :
  floret_indexer_new nb nh seed = Ok ix -> sub_new_with_boundaries floret_ops pf ws mn mx ix bow eow = Ok (em_vocab e) ->
  emb_new_with_maybe_norms (sub_ops floret_ops) (nd_ops f32) pf (em_meta e) (em_vocab e) (em_storage e) (em_norms e) = Ok e ->
  a2_wf (em_storage e) -> Forall (fun n => n < two32) [mn; mx; seed] -> mn <= mx ->
  ~ In x20 bow /\ utf8_valid bow = true -> ~ In x0a eow /\ utf8_valid eow = true ->
  a2_cols (em_storage e) <> 0 -> nb * a2_cols (em_storage e) * 4 <= isize_max ->
  Forall (Forall (fun x => f32_is_nan x = false)) (dropN (lenN ws) (a2_rows (em_storage e))) ->
  forall base, exists out, run_writer (write_floret_text rust_ftext pf e) base = Ok out /\
    exists e' : embeddings Md (subword_vocab floret_indexer) (array2 f32) f32, run_reader (read_floret_text rust_ftext pf) out = Ok e' /\
    floret_result e' nb (a2_cols (em_storage e)) mn mx nh seed bow eow (dropN (lenN ws) (a2_rows (em_storage e))).
Proof. exact (@FloretThms.floret_round_trip rust_ftext rust_ftext_law pf Md e ws mn mx nb nh seed ix bow eow). Qed.
