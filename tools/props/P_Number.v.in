(** * Theorems about numbers as decimal text (C66-C68). *)
From Coq Require Import Strings.String Strings.Byte Floats.SpecFloat.
From Verif Require Import Base BaseFacts Utf8 F32 F32Facts Stream ChunkIO Subword Vocab Storage Embeddings TextIO FileSpec VocabSpec EmbSpec TextSpec
  F32Text F32TextSpec P_Emb P_Sim P_Text.
From Verif Require F32TextFacts F32Nearest F32Shortest NumberThms.
Local Open Scope N_scope.

(** ** C66: which texts are numbers, and which numbers they are *)
@thm decimal_read_thm F32Nearest decimal_read
@thm word_read_thm F32Nearest word_read
@thm number_read_thm F32Nearest number_read

(** "-16777217e0" lies half way between two numbers, the even one is read. *)
Example decimal_read_ex : exists s, s = list_byte_of_string "-16777217e0" /\ decimal_text s true 16777217 0 /\
  f32_parse s = f32_parse (list_byte_of_string "-16777216").
Proof.
  eexists. split; [reflexivity|]. split.
  - exists ["-"%byte], (list_byte_of_string "16777217"), [1; 6; 7; 7; 7; 2; 1; 7], [], ["e"%byte; "0"%byte], 0%Z.
    split; [reflexivity|]. split; [|split; [|repeat split; reflexivity]].
    + split; [discriminate|]. split; [repeat constructor|]. split; [constructor|]. right. split; reflexivity.
    + right. exists "e"%byte, false, [], [0]. split; [left; reflexivity|]. split; [left; reflexivity|]. split; [discriminate|].
      split; [repeat constructor|]. split; reflexivity.
  - vm_compute. reflexivity.
Qed.
Example word_read_ex : word_text "inf" true (list_byte_of_string "-iNf").
Proof.
  exists ["-"%byte], (list_byte_of_string "iNf"). split; [reflexivity|]. split; [reflexivity|].
  constructor; [left; reflexivity|]. constructor; [right; split; [split; discriminate|reflexivity]|]. constructor; [left; reflexivity|constructor].
Qed.
Example number_read_ex : f32_parse (list_byte_of_string "0.1") <> None /\ f32_parse (list_byte_of_string "1e39") = f32_parse (list_byte_of_string "INFINITY") /\
  f32_parse (list_byte_of_string "1e") = None /\ f32_parse (list_byte_of_string ".") = None /\ f32_parse (list_byte_of_string "1 ") = None.
Proof. split; [|split; [|split; [|split]]]; try (vm_compute; reflexivity). intros K. apply (f_equal (option_map f32_bits)) in K. vm_compute in K. discriminate. Qed.

(** ** C67: what is written is read back *)
@thm decimal_round_trip_thm F32TextFacts rust_ftext_law
@thm text_decimals_thm NumberThms text_decimals
@thm text_dims_decimals_thm NumberThms text_dims_decimals
@thm floret_decimals_thm NumberThms floret_decimals

Example decimal_round_trip_ex : map f32_print [f32_of_bits 1036831949; f32_of_bits 1; f32_of_bits 2147483648; fN 3] =
  map list_byte_of_string ["0.1"; "0.000000000000000000000000000000000000000000001"; "-0"; "3"]%string.
Proof. vm_compute. reflexivity. Qed.
Example text_decimals_ex : emb_made (nd_ops f32) Debug ex_emb 2 ex_rows /\ norms_fit ex_emb /\
  Forall text_word (v_words wrap_ops (em_vocab ex_emb)) /\ v_words wrap_ops (em_vocab ex_emb) <> [] /\
  dims_fit (v_words_len wrap_ops (em_vocab ex_emb)) 2 /\
  exists out e', run_writer (write_text_dims rust_ftext wrap_ops (nd_ops f32) true ex_emb) 0 = Ok out /\
  run_reader (read_text_dims_raw (Md := unit) rust_ftext Debug true) out = Ok e' /\
  a2_rows (em_storage e') = [[fN 7; fN 14]; [fN 16; fN 24]].
Proof.
  split; [apply ex_emb_made|]. split; [apply ex_norms_fit|]. split; [apply ex_text_words|]. split; [discriminate|].
  split; [split; vm_compute; discriminate|].
  eexists. eexists. split; [vm_compute; reflexivity|]. split; vm_compute; reflexivity.
Qed.
Example floret_decimals_ex : floret_emb_built [x3c] [x20; x3e] /\
  exists out e', run_writer (write_floret_text rust_ftext Debug (floret_emb [x3c] [x20; x3e])) 0 = Ok out /\
  run_reader (read_floret_text (Md := unit) rust_ftext Debug) out = Ok e' /\ a2_rows (em_storage e') = [[fN 1]; [fN 2]].
Proof. split; [apply floret_emb_ok|]. eexists. eexists. split; [vm_compute; reflexivity|]. split; vm_compute; reflexivity. Qed.

(** ** C68: the shortest text *)
@thm shortest_decimal_thm F32Shortest print_shortest

Example shortest_decimal_ex : f32_units (f32_of_bits 1036831949) = Some (false, 13421773 * 2 ^ 122)%Z /\
  f32_print (f32_of_bits 1036831949) = list_byte_of_string "0.1".
Proof. split; vm_compute; reflexivity. Qed.
