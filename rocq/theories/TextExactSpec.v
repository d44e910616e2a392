(** * Vocabulary of the statements about every outcome of the text readers.

    Nothing here is part of the model. *)
From Verif Require Import Base Utf8 F32 ChunkIO Subword Vocab Storage Embeddings TextIO FileSpec VocabSpec EmbSpec TextSpec.
Local Open Scope N_scope.

(** [data] starts with the field [f], then [rest] follows.  A field without a
    delimiter extends to the end and loses its last byte. *)
Inductive field_of (d : byte) : list byte -> list byte -> list byte -> Prop :=
| field_delimited f rest : ~ In d f -> field_of d (f ++ d :: rest) f rest
| field_cut f b : ~ In d (f ++ [b]) -> field_of d (f ++ [b]) f []
| field_none : field_of d [] [] [].

(** The field is a decimal numeral for a number below [2^64], or not. *)
Definition number_of (d : byte) (data : list byte) (n : N) (rest : list byte) : Prop :=
  exists f, field_of d data f rest /\ numeral f n /\ n < two64.
Definition no_number (d : byte) (data : list byte) (rest : list byte) : Prop :=
  exists f, field_of d data f rest /\ forall n, numeral f n -> two64 <= n.
(** The field is a text, or ill-formed. *)
Definition text_of (d : byte) (lossy : bool) (data : list byte) (s : str) (rest : list byte) : Prop :=
  exists f, field_of d data f rest /\ decodes lossy f s.
Definition no_text (d : byte) (lossy : bool) (data : list byte) (rest : list byte) : Prop :=
  exists f, field_of d data f rest /\ lossy = false /\ utf8_valid f = false.

(** A line with two numbers, or not. *)
Definition shape_of (data : list byte) (n d : N) (rest : list byte) : Prop :=
  exists r, number_of x20 data n r /\ number_of x0a r d rest.
Definition no_shape (data : list byte) : Prop :=
  (exists r, no_number x20 data r) \/ exists n r r', number_of x20 data n r /\ no_number x0a r r'.

Section Readers.
  Context (P : ftext_ops) (pf : profile) {Md : Type}.
  Notation semb := (embeddings Md simple_vocab (array2 f32) f32).
  Notation femb := (embeddings Md (subword_vocab floret_indexer) (array2 f32) f32).

  (** Room for [n * d] numbers is reserved: this fails, or goes on.  Without
      overflow checks the product wraps around. *)
  Inductive no_room (n d : N) : panic -> Prop :=
  | nr_overflow : pf = Debug -> two64 <= n * d -> no_room n d PArithOverflow
  | nr_wrapped : pf = Release -> isize_max < n * d mod two64 * 4 -> no_room n d PCapacity
  | nr_large : n * d < two64 -> isize_max < n * d * 4 -> no_room n d PCapacity.

  (** ** [read_text_raw] *)
  Inductive text_outcome (lossy : bool) (data : list byte) : res semb -> Prop :=
  | to_lines : (forall items, ~ text_items P lossy data items) -> text_outcome lossy data (Err EFormat)
  | to_empty : text_items P lossy data [] -> text_outcome lossy data (Panic PDivByZero)
  | to_ragged items : text_items P lossy data items -> items <> [] -> lenN (flat_map snd items) mod lenN items <> 0 ->
      text_outcome lossy data (Err EMatrixShape)
  | to_duplicate items : text_items P lossy data items -> items <> [] -> lenN (flat_map snd items) mod lenN items = 0 ->
      ~ NoDup (map fst items) -> text_outcome lossy data (Panic PDuplicateWords)
  | to_done items e : text_items P lossy data items -> items <> [] -> lenN (flat_map snd items) mod lenN items = 0 ->
      NoDup (map fst items) -> text_contents e items (lenN (flat_map snd items) / lenN items) -> text_outcome lossy data (Ok e).

  (** ** [read_text_dims_raw] *)

  (** The lines after the header. *)
  Inductive body_outcome (lossy : bool) (n d : N) (data : list byte) : res semb -> Prop :=
  | bo_lines : (forall items, ~ text_items P lossy data items) -> body_outcome lossy n d data (Err EFormat)
  | bo_count items : text_items P lossy data items -> lenN items <> n -> body_outcome lossy n d data (Err EFormat)
  | bo_empty : text_items P lossy data [] -> n = 0 -> body_outcome lossy n d data (Panic PDivByZero)
  | bo_columns items : text_items P lossy data items -> lenN items = n -> n <> 0 -> lenN (flat_map snd items) / n <> d ->
      body_outcome lossy n d data (Err EFormat)
  | bo_ragged items : text_items P lossy data items -> lenN items = n -> n <> 0 -> lenN (flat_map snd items) / n = d ->
      lenN (flat_map snd items) <> n * d -> body_outcome lossy n d data (Err EMatrixShape)
  | bo_duplicate items : text_items P lossy data items -> lenN items = n -> n <> 0 -> lenN (flat_map snd items) = n * d ->
      ~ NoDup (map fst items) -> body_outcome lossy n d data (Panic PDuplicateWords)
  | bo_done items e : text_items P lossy data items -> lenN items = n -> n <> 0 -> lenN (flat_map snd items) = n * d ->
      NoDup (map fst items) -> text_contents e items d -> body_outcome lossy n d data (Ok e).
  Inductive dims_outcome (lossy : bool) (data : list byte) : res semb -> Prop :=
  | do_header : no_shape data -> dims_outcome lossy data (Err EFormat)
  | do_words n d rest : shape_of data n d rest -> isize_max < n * 24 -> dims_outcome lossy data (Panic PCapacity)
  | do_numbers n d rest p : shape_of data n d rest -> n * 24 <= isize_max -> no_room n d p -> dims_outcome lossy data (Panic p)
  | do_body n d rest o : shape_of data n d rest -> n * 24 <= isize_max -> (forall p, ~ no_room n d p) ->
      body_outcome lossy n d rest o -> dims_outcome lossy data o.

  (** ** [read_word2vec_binary_raw] *)

  (** [n] entries, then [rest]. *)
  Inductive entries_of (lossy : bool) (d : N) : N -> list byte -> list (str * list f32) -> list byte -> Prop :=
  | eo_nil rest : entries_of lossy d 0 rest [] rest
  | eo_cons n data s w v r l rest : text_of x20 lossy data s (f32s_bytes v ++ r) -> trims s w -> lenN v = d ->
      entries_of lossy d n r l rest -> entries_of lossy d (1 + n) data ((w, v) :: l) rest.
  (** The first bad entry has an ill-formed word or too few bytes. *)
  Inductive bad_entry (lossy : bool) (d : N) : N -> list byte -> error -> Prop :=
  | be_word n data r : no_text x20 lossy data r -> bad_entry lossy d (1 + n) data EFormat
  | be_short n data s r : text_of x20 lossy data s r -> lenN r < d * 4 -> bad_entry lossy d (1 + n) data ERead
  | be_later n data s v r er : text_of x20 lossy data s (f32s_bytes v ++ r) -> lenN v = d -> bad_entry lossy d n r er ->
      bad_entry lossy d (1 + n) data er.
  Inductive binary_outcome (lossy : bool) (data : list byte) : res semb -> Prop :=
  | wo_header : no_shape data -> binary_outcome lossy data (Err EFormat)
  | wo_large n d rest : shape_of data n d rest -> ~ binary_fits n d -> binary_outcome lossy data (Panic PCapacity)
  | wo_entry n d rest er : shape_of data n d rest -> binary_fits n d -> bad_entry lossy d n rest er -> binary_outcome lossy data (Err er)
  | wo_duplicate n d rest l tail : shape_of data n d rest -> binary_fits n d -> entries_of lossy d n rest l tail ->
      ~ NoDup (map fst l) -> binary_outcome lossy data (Panic PDuplicateWords)
  | wo_done n d rest l tail e : shape_of data n d rest -> binary_fits n d -> entries_of lossy d n rest l tail ->
      NoDup (map fst l) -> raw_result e d l -> binary_outcome lossy data (Ok e).

  (** ** [read_floret_text] *)

  (** The eight fields of the first line, or the first ill-formed one. *)
  Inductive numbers_of (d : byte) : list byte -> list N -> list byte -> Prop :=
  | no_nil rest : numbers_of d rest [] rest
  | no_cons data n r l rest : number_of d data n r -> numbers_of d r l rest -> numbers_of d data (n :: l) rest.
  Definition no_numbers (d : byte) (k : N) (data : list byte) : Prop :=
    exists l r r', numbers_of d data l r /\ lenN l < k /\ no_number d r r'.
  Definition head_of (data : list byte) (nb dims mn mx nh seed : N) (bow eow : str) (rest : list byte) : Prop :=
    exists r r', numbers_of x20 data [nb; dims; mn; mx; nh; seed] r /\ text_of x20 false r bow r' /\ text_of x0a false r' eow rest.
  Definition no_head (data : list byte) : Prop :=
    no_numbers x20 6 data \/
    exists l r, numbers_of x20 data l r /\ lenN l = 6 /\
      ((exists r', no_text x20 false r r') \/ exists bow r' r'', text_of x20 false r bow r' /\ no_text x0a false r' r'').

  (** The first line that is not a row is ill-formed or has not [dims]
      numbers after its first field. *)
  Definition bad_row (dims : N) (data : list byte) (er : error) : Prop :=
    exists ls rows l ls', lines data (ls ++ l :: ls') /\ Forall2 (floret_row P dims) ls rows /\
    (utf8_valid l = false /\ er = ERead \/ utf8_valid l = true /\ (forall v, ~ floret_row P dims l v) /\ er = EFormat).
  Inductive floret_outcome (data : list byte) : res femb -> Prop :=
  | fo_head : no_head data -> floret_outcome data (Err EFormat)
  | fo_params nb dims mn mx nh seed bow eow rest : head_of data nb dims mn mx nh seed bow eow rest ->
      ~ params_ok nb dims mn mx nh -> floret_outcome data (Err EFormat)
  | fo_large nb dims mn mx nh seed bow eow rest p : head_of data nb dims mn mx nh seed bow eow rest ->
      params_ok nb dims mn mx nh -> no_room nb dims p -> floret_outcome data (Panic p)
  | fo_row nb dims mn mx nh seed bow eow rest er : head_of data nb dims mn mx nh seed bow eow rest ->
      params_ok nb dims mn mx nh -> (forall p, ~ no_room nb dims p) -> bad_row dims rest er -> floret_outcome data (Err er)
  | fo_count nb dims mn mx nh seed bow eow rest rows : head_of data nb dims mn mx nh seed bow eow rest ->
      params_ok nb dims mn mx nh -> (forall p, ~ no_room nb dims p) -> floret_rows P dims rest rows -> lenN rows <> nb ->
      floret_outcome data (Err EMatrixShape)
  | fo_done nb dims mn mx nh seed bow eow rest rows e : head_of data nb dims mn mx nh seed bow eow rest ->
      params_ok nb dims mn mx nh -> (forall p, ~ no_room nb dims p) -> floret_rows P dims rest rows -> lenN rows = nb ->
      floret_result e nb dims (mn mod two32) (mx mod two32) (nh mod two32) (seed mod two32) bow eow rows ->
      floret_outcome data (Ok e).
End Readers.
