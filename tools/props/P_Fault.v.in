(** * Theorems about devices that fail (C98, C99, C102). *)
From Verif Require Import Base BaseFacts Utf8 F32 Stream ChunkIO Subword Vocab Storage Embeddings TextIO FastText FileSpec FileExactSpec TextSpec
  TextFacts P_File.
From Verif Require Import SinkThms.
From Verif Require TextThms FastTextSpec P_Emb P_Text P_FastText FaultThms.
Local Open Scope N_scope.

(** [mkBroken p pos true]: the bytes [p], then reading is an error.  *)

(** ** C98: text, word2vec, floret and fastText *)
@thm text_fault_thm FaultThms text_fault
@thm word2vec_fault_thm FaultThms word2vec_fault
@thm floret_fault_thm FaultThms floret_fault
@thm fasttext_fault_thm FaultThms fasttext_fault

(** The kind of a result, on whole data and on broken devices. *)
Inductive kind := kOk | kRead | kOther | kPanic.
Definition kind_of {A} (r : res A) : kind := match r with Ok _ => kOk | Err ERead => kRead | Err _ => kOther | Panic _ => kPanic end.
Definition whole {A} (m : reader A) (data : list byte) : kind := kind_of (fst (m (mkStream data 0))).
Definition broken {A} (m : reader A) (data : list byte) (ns : list N) : list kind := map (fun n => kind_of (fst (m (mkBroken (takeN n data) 0 true)))) ns.

(** A text file is never read from a broken device, not even if all its bytes
    come first; a malformed line is found before the failure. *)
Example text_fault_ex : let m := read_text_raw (Md := unit) P_Text.ex_P Debug false in
  let f := TextThms.text_file P_Text.ex_P P_Text.ex_items in
  whole m f = kOk /\ broken m f [0; 1; 7; lenN f] = [kRead; kRead; kRead; kRead] /\
  broken m ([x61; x20; x62; x0a] ++ f) [3; 4; 5] = [kRead; kOther; kOther].
Proof. vm_compute. repeat split. Qed.
(** "1 1", a word and four bytes; what follows is not needed. *)
Example word2vec_fault_ex : let m := read_word2vec_raw (Md := unit) Debug false in
  let f := [x31; x20; x31; x0a] ++ [x61; x20; x00; x00; x00; x00; x0a] in
  whole m f = kOk /\ broken m f [0; 3; 5; 9; 10; 11] = [kRead; kRead; kRead; kRead; kOk; kOk].
Proof. vm_compute. repeat split. Qed.
Example floret_fault_ex : let m := read_floret_text (Md := unit) P_Text.ex_P Debug in
  let f := P_Text.floret_file 1 2 3 6 2 7 P_Text.ex_row in
  whole m f = kOk /\ broken m f [0; 5; 17; lenN f - 1; lenN f] = [kRead; kRead; kRead; kRead; kRead].
Proof. vm_compute. repeat split. Qed.
Example fasttext_fault_ex : let m := read_fasttext Debug P_FastText.ft_T P_FastText.ft_table false in
  let f := FastTextSpec.ft_bytes (P_FastText.ft_ex_file 2 3 6 [[x61]; [x62]] 0 P_FastText.ft_ex_rows) in
  whole m f = kOk /\ broken m f [0; 7; 64; lenN f - 1; lenN f] = [kRead; kRead; kRead; kRead; kOk].
Proof. vm_compute. repeat split. Qed.

(** ** C99: finalfusion files

    The failure is an error unless the vocabulary and the matrix are complete;
    then the norms are dropped. *)
@thm file_fault_thm FaultThms file_fault
Example file_fault_ex : let m := read_file Release ex_toml in let f := file_of (ex_emb (Some ex_norms)) 0 in
  toml_law ex_toml /\ emb_built Release ex_toml (ex_emb (Some ex_norms)) (SNdArray ex_matrix) /\
  whole m f = kOk /\ broken m f [0; 11; 100; lenN f - 37; lenN f - 36; lenN f - 1; lenN f] = [kRead; kRead; kRead; kRead; kOk; kOk; kOk].
Proof. split; [apply ex_toml_law|]. split; [apply ex_built_norms|]. vm_compute. repeat split. Qed.
(** Hence a failing device is not always noticed: the embeddings differ from
    those in the file. *)
Theorem file_fault_refuted : exists (e e' : emb ex_toml) p q, emb_built Release ex_toml e (em_storage e) /\
  run_writer (write_file ex_toml e) 0 = Ok (p ++ q) /\
  fst (read_file Release ex_toml (mkStream (p ++ q) 0)) = Ok e /\
  fst (read_file Release ex_toml (mkBroken p 0 true)) = Ok e' /\ em_norms e <> None /\ em_norms e' = None.
Proof.
  pose (f := file_of (ex_emb (Some ex_norms)) 0).
  exists (ex_emb (Some ex_norms)), (ex_emb None), (takeN (lenN f - 1) f), (dropN (lenN f - 1) f).
  split; [apply ex_built_norms|]. rewrite takeN_dropN. repeat split; try (vm_compute; reflexivity). vm_compute. discriminate.
Qed.
Print Assumptions file_fault_refuted.

(** ** C102: writing to a device that fills up

    Whatever the embeddings, no writer of any format fails in another way or
    leaves anything but the beginning of what it would have written.  The
    error is [Error::Write], except at some places of fastText files. *)
@thm file_fills_up_thm SinkThms file_fills_up
@thm text_fills_up_thm SinkThms text_fills_up
@thm text_dims_fills_up_thm SinkThms text_dims_fills_up
@thm word2vec_fills_up_thm SinkThms word2vec_fills_up
@thm floret_fills_up_thm SinkThms floret_fills_up
@thm fasttext_fills_up_thm SinkThms fasttext_fills_up

(** What a device with room for [cap] bytes holds afterwards. *)
Definition on_full (w : writer unit) (cap : N) : res unit * list byte := let '(r, k) := w (mkSink 3 [] (Some cap)) in (r, k_out k).
Definition unlimited (w : writer unit) : list byte := ok_or (run_writer w 3) [].
Definition full_ex (w : writer unit) : Prop := let f := unlimited w in 2 < lenN f /\
  on_full w 0 = (Err EWrite, []) /\ on_full w 2 = (Err EWrite, takeN 2 f) /\
  on_full w (lenN f - 1) = (Err EWrite, takeN (lenN f - 1) f) /\ on_full w (lenN f) = (Ok tt, f).
Example file_fills_up_ex : full_ex (write_file ex_toml (ex_emb (Some ex_norms))).
Proof. vm_compute. repeat split. Qed.
Example text_fills_up_ex : full_ex (write_text P_Text.ex_P wrap_ops (nd_ops f32) true P_Emb.ex_emb) /\
  full_ex (write_text_dims P_Text.ex_P wrap_ops (nd_ops f32) true P_Emb.ex_emb).
Proof. vm_compute. repeat split. Qed.
Example word2vec_fills_up_ex : full_ex (write_word2vec wrap_ops (nd_ops f32) false P_Text.w2v_emb).
Proof. vm_compute. repeat split. Qed.
Example floret_fills_up_ex : full_ex (write_floret_text P_Text.ex_P Debug (P_Text.floret_emb [x3c] [x20; x3e])).
Proof. vm_compute. repeat split. Qed.
Example fasttext_fills_up_ex : full_ex (write_fasttext Debug P_FastText.ft_T (nd_ops f32) P_FastText.ft_ex).
Proof. vm_compute. repeat split. Qed.
(** A failure to write need not be [Error::Write]. *)
Definition ft_first_type : N := 92 + lenN (nth 0 (sv_words (em_vocab P_FastText.ft_ex)) []) + 9.
Theorem fasttext_write_error_refuted : exists cap,
  on_full (write_fasttext Debug P_FastText.ft_T (nd_ops f32) P_FastText.ft_ex) cap
  = (Err ERead, takeN cap (unlimited (write_fasttext Debug P_FastText.ft_T (nd_ops f32) P_FastText.ft_ex))) /\
  cap < lenN (unlimited (write_fasttext Debug P_FastText.ft_T (nd_ops f32) P_FastText.ft_ex)).
Proof. exists ft_first_type. vm_compute. repeat split. Qed.
Print Assumptions fasttext_write_error_refuted.
Example fasttext_entry_ex : let w := write_fasttext Debug P_FastText.ft_T (nd_ops f32) P_FastText.ft_ex in
  fst (on_full w (ft_first_type - 1)) = Err EWrite /\ fst (on_full w (ft_first_type + 1)) = Err EWrite.
Proof. vm_compute. repeat split. Qed.
