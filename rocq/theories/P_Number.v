(** * Theorems about numbers as decimal text (C66-C68). *)
From Coq Require Import Strings.String Strings.Byte Floats.SpecFloat.
From Verif Require Import Base BaseFacts Utf8 F32 F32Facts Stream ChunkIO Subword Vocab Storage Embeddings TextIO FileSpec VocabSpec EmbSpec TextSpec
  F32Text F32TextSpec P_Emb P_Sim P_Text.
From Verif Require F32TextFacts F32Nearest F32Shortest NumberThms.
Local Open Scope N_scope.

(** ** C66: which texts are numbers, and which numbers they are *)
Theorem decimal_read_thm : forall s neg d e,
  decimal_text s neg d e -> exists x, f32_parse s = Some x /\ nearest neg d e x.
Proof. exact (@F32Nearest.decimal_read). Qed.
Print Assumptions decimal_read_thm.
Theorem word_read_thm : forall s neg,
  (word_text "inf" neg s \/ word_text "infinity" neg s -> exists x, f32_parse s = Some x /\ f32_to_sf x = S754_infinity neg) /\
  (word_text "nan" neg s -> exists x, f32_parse s = Some x /\ f32_to_sf x = S754_nan).
Proof. exact (@F32Nearest.word_read). Qed.
Print Assumptions word_read_thm.
Theorem number_read_thm : forall s x,
  f32_parse s = Some x ->
  (exists neg d e, decimal_text s neg d e /\ nearest neg d e x) \/
  (exists neg, (word_text "inf" neg s \/ word_text "infinity" neg s) /\ f32_to_sf x = S754_infinity neg) \/
  (exists neg, word_text "nan" neg s /\ f32_to_sf x = S754_nan).
Proof. exact (@F32Nearest.number_read). Qed.
Print Assumptions number_read_thm.

(** "-16777217e0" lies half way between two numbers, the even one is read. *)
Example decimal_read_ex : exists s, s = list_byte_of_string "-16777217e0" /\ decimal_text s true 16777217 0 /\
  f32_parse s = f32_parse (list_byte_of_string "-16777216").
Proof.
  eexists. split; [reflexivity|]. split.
  - exists ["-"%byte], (list_byte_of_string "16777217"), [1; 6; 7; 7; 7; 2; 1; 7], [], ["e"%byte; "0"%byte], 0%Z.
    split; [reflexivity|]. split; [|split; [|repeat split; reflexivity]].
    + split; [discriminate|]. split; [repeat constructor|]. split; [constructor|]. right. split; reflexivity.
    + right. exists "e"%byte, false, [], [0]. split; [left; reflexivity|]. split; [left; reflexivity|]. split; [discriminate|].
      split; [repeat constructor|]. split; reflexivity.
  - vm_compute. reflexivity.
Qed.
Example word_read_ex : word_text "inf" true (list_byte_of_string "-iNf").
Proof.
  exists ["-"%byte], (list_byte_of_string "iNf"). split; [reflexivity|]. split; [reflexivity|].
  constructor; [left; reflexivity|]. constructor; [right; split; [split; discriminate|reflexivity]|]. constructor; [left; reflexivity|constructor].
Qed.
Example number_read_ex : f32_parse (list_byte_of_string "0.1") <> None /\ f32_parse (list_byte_of_string "1e39") = f32_parse (list_byte_of_string "INFINITY") /\
  f32_parse (list_byte_of_string "1e") = None /\ f32_parse (list_byte_of_string ".") = None /\ f32_parse (list_byte_of_string "1 ") = None.
Proof. split; [|split; [|split; [|split]]]; try (vm_compute; reflexivity). intros K. apply (f_equal (option_map f32_bits)) in K. vm_compute in K. discriminate. Qed.

(** ** C67: what is written is read back *)
Theorem decimal_round_trip_thm : ftext_law rust_ftext.
Proof. exact (@F32TextFacts.rust_ftext_law). Qed.
Print Assumptions decimal_round_trip_thm.
Theorem text_decimals_thm : forall (Md S : Type) (SO : storage_ops f32 S) (pf : profile) (e : embeddings Md vocab_wrap S f32) (cols : N) (rows : list (list f32)),
  emb_made SO pf e cols rows -> norms_fit e -> Forall text_word (v_words wrap_ops (em_vocab e)) ->
  forall un lossy base, v_words wrap_ops (em_vocab e) <> [] ->
  exists l out, output_items un e rows l /\ run_writer (write_text rust_ftext wrap_ops SO un e) base = Ok out /\
    (nan_free l ->
     exists e' : embeddings Md simple_vocab (array2 f32) f32, run_reader (read_text_raw rust_ftext pf lossy) out = Ok e' /\ raw_result e' cols l).
Proof. exact (@NumberThms.text_decimals). Qed.
Print Assumptions text_decimals_thm.
Theorem text_dims_decimals_thm : forall (Md S : Type) (SO : storage_ops f32 S) (pf : profile) (e : embeddings Md vocab_wrap S f32) (cols : N) (rows : list (list f32)),
  emb_made SO pf e cols rows -> norms_fit e -> Forall text_word (v_words wrap_ops (em_vocab e)) ->
  forall un lossy base, v_words wrap_ops (em_vocab e) <> [] -> dims_fit (v_words_len wrap_ops (em_vocab e)) cols ->
  exists l out, output_items un e rows l /\ run_writer (write_text_dims rust_ftext wrap_ops SO un e) base = Ok out /\
    (nan_free l ->
     exists e' : embeddings Md simple_vocab (array2 f32) f32, run_reader (read_text_dims_raw rust_ftext pf lossy) out = Ok e' /\ raw_result e' cols l).
Proof. exact (@NumberThms.text_dims_decimals). Qed.
Print Assumptions text_dims_decimals_thm.
Theorem floret_decimals_thm : forall (pf : profile) (Md : Type) (e : embeddings Md (subword_vocab floret_indexer) (array2 f32) f32)
  (ws : list str) (mn mx nb nh seed : N) (ix : floret_indexer) (bow eow : str),
  floret_indexer_new nb nh seed = Ok ix -> sub_new_with_boundaries floret_ops pf ws mn mx ix bow eow = Ok (em_vocab e) ->
  emb_new_with_maybe_norms (sub_ops floret_ops) (nd_ops f32) pf (em_meta e) (em_vocab e) (em_storage e) (em_norms e) = Ok e ->
  a2_wf (em_storage e) -> Forall (fun n => n < two32) [mn; mx; seed] -> mn <= mx ->
  ~ In x20 bow /\ utf8_valid bow = true -> ~ In x0a eow /\ utf8_valid eow = true ->
  a2_cols (em_storage e) <> 0 -> nb * a2_cols (em_storage e) * 4 <= isize_max ->
  Forall (Forall (fun x => f32_is_nan x = false)) (dropN (lenN ws) (a2_rows (em_storage e))) ->
  forall base, exists out, run_writer (write_floret_text rust_ftext pf e) base = Ok out /\
    exists e' : embeddings Md (subword_vocab floret_indexer) (array2 f32) f32, run_reader (read_floret_text rust_ftext pf) out = Ok e' /\
    floret_result e' nb (a2_cols (em_storage e)) mn mx nh seed bow eow (dropN (lenN ws) (a2_rows (em_storage e))).
Proof. exact (@NumberThms.floret_decimals). Qed.
Print Assumptions floret_decimals_thm.

Example decimal_round_trip_ex : map f32_print [f32_of_bits 1036831949; f32_of_bits 1; f32_of_bits 2147483648; fN 3] =
  map list_byte_of_string ["0.1"; "0.000000000000000000000000000000000000000000001"; "-0"; "3"]%string.
Proof. vm_compute. reflexivity. Qed.
Example text_decimals_ex : emb_made (nd_ops f32) Debug ex_emb 2 ex_rows /\ norms_fit ex_emb /\
  Forall text_word (v_words wrap_ops (em_vocab ex_emb)) /\ v_words wrap_ops (em_vocab ex_emb) <> [] /\
  dims_fit (v_words_len wrap_ops (em_vocab ex_emb)) 2 /\
  exists out e', run_writer (write_text_dims rust_ftext wrap_ops (nd_ops f32) true ex_emb) 0 = Ok out /\
  run_reader (read_text_dims_raw (Md := unit) rust_ftext Debug true) out = Ok e' /\
  a2_rows (em_storage e') = [[fN 7; fN 14]; [fN 16; fN 24]].
Proof.
  split; [apply ex_emb_made|]. split; [apply ex_norms_fit|]. split; [apply ex_text_words|]. split; [discriminate|].
  split; [split; vm_compute; discriminate|].
  eexists. eexists. split; [vm_compute; reflexivity|]. split; vm_compute; reflexivity.
Qed.
Example floret_decimals_ex : floret_emb_built [x3c] [x20; x3e] /\
  exists out e', run_writer (write_floret_text rust_ftext Debug (floret_emb [x3c] [x20; x3e])) 0 = Ok out /\
  run_reader (read_floret_text (Md := unit) rust_ftext Debug) out = Ok e' /\ a2_rows (em_storage e') = [[fN 1]; [fN 2]].
Proof. split; [apply floret_emb_ok|]. eexists. eexists. split; [vm_compute; reflexivity|]. split; vm_compute; reflexivity. Qed.

(** ** C68: the shortest text *)
Theorem shortest_decimal_thm : forall v neg u,
  f32_units v = Some (neg, u) -> u <> 0%Z -> exists d e ds fs,
  (f32_print v = (if neg then ["-"%byte] else []) ++ digits_text ds ++ (match fs with [] => [] | _ => "."%byte :: digits_text fs end) /\
   ds <> [] /\ Forall (fun x => x < 10) ds /\ Forall (fun x => x < 10) fs /\
   digits_value (ds ++ fs) = d * 10 ^ Z.to_N e /\ lenN fs = Z.to_N (- e)) /\
  forall s' d' e', decimal_text s' neg d' e' -> f32_parse s' = Some v ->
    (forall n, 10 ^ n <= d -> 10 ^ n <= d') /\ (e' <= e)%Z /\ (e' = e -> (distance d e u <= distance d' e u)%Z).
Proof. exact (@F32Shortest.print_shortest). Qed.
Print Assumptions shortest_decimal_thm.

Example shortest_decimal_ex : f32_units (f32_of_bits 1036831949) = Some (false, 13421773 * 2 ^ 122)%Z /\
  f32_print (f32_of_bits 1036831949) = list_byte_of_string "0.1".
Proof. split; vm_compute; reflexivity. Qed.
