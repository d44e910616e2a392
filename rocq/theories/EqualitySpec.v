(** * Vocabulary of the statements about equal vocabularies.

    Nothing here is part of the model. *)
From Verif Require Import Base Subword Vocab.

(** Two vocabularies of the same type with the same words in the same order,
    the same n-gram lengths and boundaries, and indexers with the same
    parameters or, for explicit n-grams, the same n-grams in the same order
    with the same indices. *)
Definition same_sub {I} (same_ix : I -> I -> Prop) (a b : subword_vocab I) : Prop :=
  sv_words a = sv_words b /\ sv_min a = sv_min b /\ sv_max a = sv_max b /\
  sv_bow a = sv_bow b /\ sv_eow a = sv_eow b /\ same_ix (sv_ix a) (sv_ix b).
Definition same_vocab (a b : vocab_wrap) : Prop :=
  match a, b with
  | VSimple a, VSimple b => sm_words a = sm_words b
  | VExplicit a, VExplicit b => same_sub (fun i j => ei_ngrams i = ei_ngrams j /\
      forall g, explicit_index i (swcl_new g) = explicit_index j (swcl_new g)) a b
  | VFastText a, VFastText b => same_sub (fun i j => fi_buckets i = fi_buckets j) a b
  | VFloret a, VFloret b => same_sub (fun i j =>
      fl_buckets i = fl_buckets j /\ fl_seed i = fl_seed j /\ fl_hashes i = fl_hashes j) a b
  | VBucket a, VBucket b => same_sub (fun i j => hi_exp i = hi_exp j) a b
  | _, _ => False
  end.
