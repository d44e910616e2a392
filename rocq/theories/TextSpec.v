(** * Vocabulary of the statements about the text formats.

    Nothing here is part of the model. *)
From Verif Require Import Base Utf8 F32 ChunkIO Subword Vocab Storage Embeddings TextIO FileSpec EmbSpec.
Local Open Scope N_scope.

(** ** Decimal numerals *)

(** The value of a list of digits, most significant first. *)
Fixpoint digits_value (ds : list N) : N :=
  match ds with [] => 0 | d :: ds' => d * 10 ^ lenN ds' + digits_value ds' end.
Definition digits_text (ds : list N) : str := map (fun d => Nb (48 + d)) ds.

(** [s] is a decimal numeral for [n], possibly with a plus sign. *)
Definition numeral (s : str) (n : N) : Prop :=
  exists ds, ds <> [] /\ Forall (fun d => d < 10) ds /\ n = digits_value ds /\
  (s = digits_text ds \/ s = x2b :: digits_text ds).

(** ** Lines and fields *)

(** [data] consists of the lines [ls]; the last one may lack a newline. *)
Inductive lines : list byte -> list (list byte) -> Prop :=
| lines_nil : lines [] []
| lines_last l : l <> [] -> ~ In x0a l -> lines l [l]
| lines_cons l r ls : ~ In x0a l -> lines r ls -> lines (l ++ x0a :: r) (l :: ls).

(** Space, tab, line feed, form feed, carriage return. *)
Definition blank (b : byte) : Prop := In b [x20; x09; x0a; x0c; x0d].

(** [fs] are the maximal runs of non-blank bytes of [s], in order. *)
Inductive has_fields : str -> list str -> Prop :=
| hf_nil s : Forall blank s -> has_fields s []
| hf_cons pre f r fs : Forall blank pre -> f <> [] -> Forall (fun b => ~ blank b) f ->
    (forall b r', r = b :: r' -> blank b) -> has_fields r fs -> has_fields (pre ++ f ++ r) (f :: fs).

(** The text of a line: ill-formed UTF-8 is an error or is replaced. *)
Definition decodes (lossy : bool) (l : list byte) (s : str) : Prop :=
  if lossy then s = from_utf8_lossy l else s = l /\ utf8_valid l = true.

(** A line with a word and numbers. *)
Definition line_item (P : ftext_ops) (lossy : bool) (l : list byte) (it : str * list f32) : Prop :=
  exists s ps, decodes lossy l s /\ has_fields s (fst it :: ps) /\
  Forall2 (fun p x => ft_parse P p = Some x) ps (snd it).

(** A text file with a word and numbers on each line. *)
Definition text_items (P : ftext_ops) (lossy : bool) (data : list byte) (items : list (str * list f32)) : Prop :=
  exists ls, lines data ls /\ Forall2 (line_item P lossy) ls items.

(** ** Words that survive *)

(** A word that is one field. *)
Definition text_word (w : str) : Prop := w <> [] /\ Forall (fun b => ~ blank b) w /\ utf8_valid w = true.

(** A vocabulary and a matrix that a reader can allocate. *)
Definition dims_fit (n d : N) : Prop := n * 24 <= isize_max /\ n * d * 4 <= isize_max.

(** ** Embeddings and files *)

(** The words and vectors that are written: the row of each word, multiplied
    by its norm if asked for. *)
Definition output_items {Md S} (unnormalize : bool) (e : embeddings Md vocab_wrap S f32) (rows : list (list f32))
           (l : list (str * list f32)) : Prop :=
  map fst l = v_words wrap_ops (em_vocab e) /\
  forall i w v, nthN l i = Some (w, v) -> exists r n, nthN rows i = Some r /\ norm_of f32_ops e i n /\
  v = if unnormalize then map (fun x => fmul f32_ops x n) r else r.

(** If there are norms, there is one for each word. *)
Definition norms_fit {Md S F} (e : embeddings Md vocab_wrap S F) : Prop :=
  forall ns, em_norms e = Some ns -> lenN ns = v_words_len wrap_ops (em_vocab e).

(** Embeddings with the given words and vectors and no norms. *)
Definition raw_result {Md} (e : embeddings Md simple_vocab (array2 f32) f32) (cols : N) (l : list (str * list f32)) : Prop :=
  simple_new (map fst l) = Ok (em_vocab e) /\ em_storage e = mkA2 cols (map snd l) /\ em_norms e = None /\ em_meta e = None.

(** Embeddings with the given words, whose vectors are divided by their
    lengths, and the lengths. *)
Definition normalized_result {Md F} (o : fops F) (e : embeddings Md simple_vocab (array2 F) F) (cols : N)
           (l : list (str * list F)) : Prop :=
  simple_new (map fst l) = Ok (em_vocab e) /\ em_meta e = None /\ a2_cols (em_storage e) = cols /\
  lenN (a2_rows (em_storage e)) = lenN l /\
  exists ns, em_norms e = Some ns /\ lenN ns = lenN l /\
  forall i w v, nthN l i = Some (w, v) -> exists r n,
    nthN (a2_rows (em_storage e)) i = Some r /\ nthN ns i = Some n /\ scaled_by_length o v r n.

Definition nan_free (l : list (str * list f32)) : Prop :=
  Forall (fun it => Forall (fun x => f32_is_nan x = false) (snd it)) l.

(** Embeddings with the words of the lines; the matrix holds the numbers of
    all lines one after the other. *)
Definition text_contents {Md} (e : embeddings Md simple_vocab (array2 f32) f32) (items : list (str * list f32)) (cols : N) : Prop :=
  simple_new (map fst items) = Ok (em_vocab e) /\ v_words simple_ops (em_vocab e) = map fst items /\
  concat (a2_rows (em_storage e)) = flat_map snd items /\ lenN (a2_rows (em_storage e)) = lenN items /\
  Forall (fun r => lenN r = cols) (a2_rows (em_storage e)) /\ a2_cols (em_storage e) = cols /\ items <> [] /\
  em_norms e = None /\ em_meta e = None.

(** ** word2vec files *)

(** [w] is [s] without the white space at its ends. *)
Definition trims (s w : str) : Prop :=
  exists a cs b, s = utf8_encode (a ++ cs ++ b) /\ forallb scalarb (a ++ cs ++ b) = true /\ w = utf8_encode cs /\
  Forall (fun c => is_whitespace c = true) a /\ Forall (fun c => is_whitespace c = true) b /\
  (forall c r, cs = c :: r -> is_whitespace c = false) /\ (forall c r, cs = r ++ [c] -> is_whitespace c = false).

(** A word without spaces, and without white space at its ends. *)
Definition binary_word (w : str) : Prop := ~ In x20 w /\ trims w w.

(** Words and vectors of [d] floats one after the other, then [rest]. *)
Inductive binary_items (lossy : bool) (d : N) : list byte -> list (str * list f32) -> list byte -> Prop :=
| bi_nil rest : binary_items lossy d rest [] rest
| bi_cons name s w v r l rest : ~ In x20 name -> decodes lossy name s -> trims s w -> lenN v = d ->
    binary_items lossy d r l rest ->
    binary_items lossy d (name ++ x20 :: f32s_bytes v ++ r) ((w, v) :: l) rest.

(** A matrix and words that the reader can allocate. *)
Definition binary_fits (n d : N) : Prop := dims_ok [n; d] 4 /\ n * 24 <= isize_max.

(** A header with two numbers. *)
Definition header_line (data : list byte) (n d : N) (rest : list byte) : Prop :=
  exists f g, numeral f n /\ numeral g d /\ n < two64 /\ d < two64 /\ data = f ++ x20 :: g ++ x0a :: rest.

(** ** floret files *)

(** The header of a floret file. *)
Definition floret_head (data : list byte) (nb dims mn mx nh seed : N) (bow eow : str) (rest : list byte) : Prop :=
  exists f1 f2 f3 f4 f5 f6,
  numeral f1 nb /\ numeral f2 dims /\ numeral f3 mn /\ numeral f4 mx /\ numeral f5 nh /\ numeral f6 seed /\
  Forall (fun n => n < two64) [nb; dims; mn; mx; nh; seed] /\
  ~ In x20 bow /\ utf8_valid bow = true /\ ~ In x0a eow /\ utf8_valid eow = true /\
  data = f1 ++ x20 :: f2 ++ x20 :: f3 ++ x20 :: f4 ++ x20 :: f5 ++ x20 :: f6 ++ x20 :: bow ++ x20 :: eow ++ x0a :: rest.

(** The parameters that are accepted. *)
Definition params_ok (nb dims mn mx nh : N) : Prop :=
  nb <> 0 /\ dims <> 0 /\ mn mod two32 <= mx mod two32 /\ 1 <= nh mod two32 <= 4.

(** A line with [dims] numbers after its first field. *)
Definition floret_row (P : ftext_ops) (dims : N) (l : list byte) (v : list f32) : Prop :=
  exists f ps, utf8_valid l = true /\ has_fields l (f :: ps) /\ Forall2 (fun p x => ft_parse P p = Some x) ps v /\ lenN v = dims.
Definition floret_rows (P : ftext_ops) (dims : N) (data : list byte) (rows : list (list f32)) : Prop :=
  exists ls, lines data ls /\ Forall2 (floret_row P dims) ls rows.

(** Embeddings with the given parameters and matrix and no words. *)
Definition floret_result {Md} (e : embeddings Md (subword_vocab floret_indexer) (array2 f32) f32)
           (nb dims mn mx nh seed : N) (bow eow : str) (rows : list (list f32)) : Prop :=
  sv_words (em_vocab e) = [] /\ sv_indices (em_vocab e) = create_indices [] /\
  sv_min (em_vocab e) = mn /\ sv_max (em_vocab e) = mx /\
  sv_bow (em_vocab e) = bow /\ sv_eow (em_vocab e) = eow /\ sv_ix (em_vocab e) = mkFloretIx nb seed nh /\
  em_storage e = mkA2 dims rows /\ em_norms e = None /\ em_meta e = None.
