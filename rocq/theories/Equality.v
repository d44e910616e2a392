(** * Equality of vocabularies ([PartialEq]) and [Indexer::infallible]. *)
From Verif Require Import Base Subword Vocab.
Local Open Scope N_scope.

(** [PartialEq for Vec<String>]: the same length and equal elements. *)
Fixpoint strs_eq (a b : list str) : bool :=
  match a, b with
  | [], [] => true
  | x :: a', y :: b' => str_eqb x y && strs_eq a' b'
  | _, _ => false
  end.

(** [PartialEq for HashMap<String, _>] of the standard library: the same
    number of entries, and every entry of the first is in the second. *)
Definition hm_eq (a b : hmap N) : bool :=
  (hm_len a =? hm_len b) &&
  forallb (fun '(k, v) => match hm_get b k with Some v' => v =? v' | None => false end) a.

(** [PartialEq for HashIndexer], /repo/src/subword.rs 134-138: only the masks
    are compared. *)
Definition hash_eq (a b : hash_indexer) : bool := hi_mask a =? hi_mask b.

(** The derived equalities of [ExplicitIndexer], /repo/src/subword.rs 144,
    of [FastTextIndexer], /repo/src/compat/fasttext/indexer.rs 8, and of
    [FloretIndexer], /repo/src/compat/floret/indexer.rs 12. *)
Definition explicit_eq (a b : explicit_indexer) : bool :=
  strs_eq (ei_ngrams a) (ei_ngrams b) && hm_eq (ei_index a) (ei_index b) && (ei_bound a =? ei_bound b).
Definition ft_eq (a b : ft_indexer) : bool := fi_buckets a =? fi_buckets b.
Definition floret_eq (a b : floret_indexer) : bool :=
  (fl_buckets a =? fl_buckets b) && (fl_seed a =? fl_seed b) && (fl_hashes a =? fl_hashes b).

(** The derived equality of [SimpleVocab], /repo/src/chunks/vocab/simple.rs 12. *)
Definition simple_eq (a b : simple_vocab) : bool :=
  hm_eq (sm_indices a) (sm_indices b) && strs_eq (sm_words a) (sm_words b).

(** The derived equality of [SubwordVocab], /repo/src/chunks/vocab/subword.rs 33. *)
Definition sub_eq {I} (ix_eq : I -> I -> bool) (a b : subword_vocab I) : bool :=
  str_eqb (sv_bow a) (sv_bow b) && str_eqb (sv_eow a) (sv_eow b) && ix_eq (sv_ix a) (sv_ix b)
  && hm_eq (sv_indices a) (sv_indices b) && strs_eq (sv_words a) (sv_words b)
  && (sv_min a =? sv_min b) && (sv_max a =? sv_max b).

(** The derived equality of [VocabWrap], /repo/src/chunks/vocab/wrappers.rs 23. *)
Definition wrap_eq (a b : vocab_wrap) : bool :=
  match a, b with
  | VSimple a, VSimple b => simple_eq a b
  | VExplicit a, VExplicit b => sub_eq explicit_eq a b
  | VFastText a, VFastText b => sub_eq ft_eq a b
  | VFloret a, VFloret b => sub_eq floret_eq a b
  | VBucket a, VBucket b => sub_eq hash_eq a b
  | _, _ => false
  end.

(** [Indexer::infallible]: /repo/src/subword.rs 125-127 and 238-240,
    /repo/src/compat/fasttext/indexer.rs 55-57,
    /repo/src/compat/floret/indexer.rs 72-74. *)
Definition hash_infallible : bool := true.
Definition explicit_infallible : bool := false.
Definition ft_infallible : bool := true.
Definition floret_infallible : bool := true.
