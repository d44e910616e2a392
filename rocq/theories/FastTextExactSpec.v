(** * Vocabulary of the statements about every outcome of the fastText reader.

    Nothing here is part of the model. *)
From Verif Require Import Base Utf8 F32 ChunkIO Subword Vocab Storage Embeddings TextIO FastText
  FileSpec VocabSpec EmbSpec TextSpec FastTextSpec TextExactSpec.
Local Open Scope N_scope.

(** A number in a file: its width in bytes, and which values are accepted. *)
Definition num_field : Type := nat * (N -> Prop).
Definition any_value (n : N) : Prop := True.

(** [data] starts with the numbers [ns], all accepted; then [rest] follows. *)
Inductive fields_of : list num_field -> list byte -> list N -> list byte -> Prop :=
| fs_nil rest : fields_of [] rest [] rest
| fs_cons w (ok : N -> Prop) fs n data ns rest : n < 256 ^ N.of_nat w -> ok n -> fields_of fs data ns rest ->
    fields_of ((w, ok) :: fs) (le_bytes w n ++ data) (n :: ns) rest.
(** The first number that is not accepted is cut off or has a value that is
    not accepted. *)
Inductive bad_field : list num_field -> list byte -> error -> Prop :=
| bf_short w (ok : N -> Prop) fs data : lenN data < N.of_nat w -> bad_field ((w, ok) :: fs) data ERead
| bf_value w (ok : N -> Prop) fs n data : n < 256 ^ N.of_nat w -> ~ ok n -> bad_field ((w, ok) :: fs) (le_bytes w n ++ data) EFormat
| bf_later w (ok : N -> Prop) fs n data er : n < 256 ^ N.of_nat w -> ok n -> bad_field fs data er ->
    bad_field ((w, ok) :: fs) (le_bytes w n ++ data) er.

(** Everything before the words: magic number and version; dimensions, window,
    epochs, minimum count, negative samples, length of word n-grams, loss
    function, model type, buckets, n-gram lengths and update rate of the
    learning rate; sampling threshold; number of entries; numbers of words,
    labels and tokens; size of the pruning index, negative if there is none. *)
Definition ft_head_fields : list num_field :=
  [(4%nat, fun n => n = 793712314); (4%nat, fun n => n <= 12);
   (4%nat, any_value); (4%nat, any_value); (4%nat, any_value); (4%nat, any_value); (4%nat, any_value); (4%nat, any_value);
   (4%nat, fun n => 1 <= n <= 3); (4%nat, fun n => 1 <= n <= 3);
   (4%nat, any_value); (4%nat, any_value); (4%nat, any_value); (4%nat, any_value);
   (8%nat, any_value);
   (4%nat, any_value); (4%nat, any_value); (4%nat, fun n => n = 0); (8%nat, any_value); (8%nat, fun n => 2 ^ 63 <= n)].
Definition ft_head_of (data : list byte) (c : ft_config) (size : N) (rest : list byte) : Prop :=
  exists magic version nwords nlabels tokens prune,
  fields_of ft_head_fields data
    ([magic; version] ++ config_numbers c ++ [fc_threshold c; size; nwords; nlabels; tokens; prune]) rest.

(** After every word: its frequency, and the kind of the entry. *)
Definition ft_entry_fields : list num_field := [(8%nat, any_value); (1%nat, fun n => n = 0)].
(** [n] words, then [rest]. *)
Inductive ft_words_of (lossy : bool) : N -> list byte -> list str -> list byte -> Prop :=
| fw_nil rest : ft_words_of lossy 0 rest [] rest
| fw_cons n data w r ns r' ws rest : text_of x00 lossy data w r -> fields_of ft_entry_fields r ns r' ->
    ft_words_of lossy n r' ws rest -> ft_words_of lossy (1 + n) data (w :: ws) rest.
(** The first bad entry is an ill-formed word, a label, or cut off. *)
Inductive bad_ft_word (lossy : bool) : N -> list byte -> error -> Prop :=
| bw_word n data r : no_text x00 lossy data r -> bad_ft_word lossy (1 + n) data EFormat
| bw_field n data w r er : text_of x00 lossy data w r -> bad_field ft_entry_fields r er -> bad_ft_word lossy (1 + n) data er
| bw_later n data w r ns r' er : text_of x00 lossy data w r -> fields_of ft_entry_fields r ns r' ->
    bad_ft_word lossy n r' er -> bad_ft_word lossy (1 + n) data er.

(** Whether the matrix is quantized; its size. *)
Definition ft_quant_fields : list num_field := [(1%nat, fun n => n <> 1)].
Definition ft_shape_fields : list num_field := [(8%nat, any_value); (8%nat, any_value)].

Section Reader.
  Context (pf : profile) (T : toml_ops) (config_table : ft_config -> option (toml_table T)).
  Notation fte := (embeddings (toml_table T) (subword_vocab ft_indexer) (array2 f32) f32).

  (** Once the configuration [c], the distinct words [ws] and the matrix [a]
      have been read. *)
  Inductive ft_matrix_outcome (c : ft_config) (ws : list str) (a : array2 f32) : res fte -> Prop :=
  | fm_range : ws <> [] -> ~ range_ok (fc_min_n c) (fc_max_n c) -> ft_matrix_outcome c ws a (Panic PAssert)
  | fm_buckets w g : range_ok (fc_min_n c) (fc_max_n c) -> fc_bucket c = 0 -> In w ws ->
      ngram_in (default_bow ++ w ++ default_eow) (fc_min_n c) (fc_max_n c) g -> ft_matrix_outcome c ws a (Panic PDivByZero)
  | fm_missing v subs : (ws <> [] -> range_ok (fc_min_n c) (fc_max_n c)) ->
      sub_new ft_ops pf ws (fc_min_n c) (fc_max_n c) (mkFtIx (fc_bucket c)) = Ok v -> subwords_are v subs ->
      rows_missing ws subs (lenN (a2_rows a)) -> ft_matrix_outcome c ws a (Panic PIndexOutOfBounds)
  | fm_shape v subs : (ws <> [] -> range_ok (fc_min_n c) (fc_max_n c)) ->
      sub_new ft_ops pf ws (fc_min_n c) (fc_max_n c) (mkFtIx (fc_bucket c)) = Ok v -> subwords_are v subs ->
      ~ rows_missing ws subs (lenN (a2_rows a)) -> lenN (a2_rows a) <> lenN ws + fc_bucket c ->
      ft_matrix_outcome c ws a (Err EMatrixShape)
  | fm_config v subs : (ws <> [] -> range_ok (fc_min_n c) (fc_max_n c)) ->
      sub_new ft_ops pf ws (fc_min_n c) (fc_max_n c) (mkFtIx (fc_bucket c)) = Ok v -> subwords_are v subs ->
      lenN (a2_rows a) = lenN ws + fc_bucket c -> config_table c = None -> ft_matrix_outcome c ws a (Err EFormat)
  | fm_done subs e : (ws <> [] -> range_ok (fc_min_n c) (fc_max_n c)) -> lenN (a2_rows a) = lenN ws + fc_bucket c ->
      ft_contents T config_table pf a c ws subs e -> ft_matrix_outcome c ws a (Ok e).

  Inductive ft_outcome (lossy : bool) (data : list byte) : res fte -> Prop :=
  | fto_head er : bad_field ft_head_fields data er -> ft_outcome lossy data (Err er)
  | fto_word c size rest er : ft_head_of data c size rest -> bad_ft_word lossy size rest er -> ft_outcome lossy data (Err er)
  | fto_many_buckets c size rest ws r : ft_head_of data c size rest -> ft_words_of lossy size rest ws r ->
      2 ^ 31 <= fc_bucket c -> ft_outcome lossy data (Panic PAssert)
  | fto_duplicate c size rest ws r : ft_head_of data c size rest -> ft_words_of lossy size rest ws r ->
      fc_bucket c < 2 ^ 31 -> ~ NoDup ws -> ft_outcome lossy data (Panic PDuplicateWords)
  | fto_quant c size rest ws r er : ft_head_of data c size rest -> ft_words_of lossy size rest ws r ->
      fc_bucket c < 2 ^ 31 -> NoDup ws -> bad_field ft_quant_fields r er -> ft_outcome lossy data (Err er)
  | fto_shape c size rest ws r q r' er : ft_head_of data c size rest -> ft_words_of lossy size rest ws r ->
      fc_bucket c < 2 ^ 31 -> NoDup ws -> fields_of ft_quant_fields r q r' -> bad_field ft_shape_fields r' er ->
      ft_outcome lossy data (Err er)
  | fto_large c size rest ws r q r' m n r'' : ft_head_of data c size rest -> ft_words_of lossy size rest ws r ->
      fc_bucket c < 2 ^ 31 -> NoDup ws -> fields_of ft_quant_fields r q r' -> fields_of ft_shape_fields r' [m; n] r'' ->
      ~ dims_ok [m; n] 4 -> ft_outcome lossy data (Panic PCapacity)
  | fto_short c size rest ws r q r' m n r'' : ft_head_of data c size rest -> ft_words_of lossy size rest ws r ->
      fc_bucket c < 2 ^ 31 -> NoDup ws -> fields_of ft_quant_fields r q r' -> fields_of ft_shape_fields r' [m; n] r'' ->
      dims_ok [m; n] 4 -> lenN r'' < m * n * 4 -> ft_outcome lossy data (Err ERead)
  | fto_matrix c size rest ws r q r' m n rows tail o : ft_head_of data c size rest -> ft_words_of lossy size rest ws r ->
      fc_bucket c < 2 ^ 31 -> NoDup ws -> fields_of ft_quant_fields r q r' ->
      fields_of ft_shape_fields r' [m; n] (f32s_bytes (concat rows) ++ tail) ->
      dims_ok [m; n] 4 -> lenN rows = m -> Forall (fun row => lenN row = n) rows ->
      ft_matrix_outcome c ws (mkA2 n rows) o -> ft_outcome lossy data o.
End Reader.
