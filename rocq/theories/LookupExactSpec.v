(** * Vocabulary of the statements about when lookups panic.

    Nothing here is part of the model. *)
From Verif Require Import Base Utf8 Subword Vocab FileSpec VocabSpec.
Local Open Scope N_scope.

(** Every vocabulary that the constructors build, also with the indexers
    that [vocab_made] leaves out: the hash indexer with 2^64 buckets and the
    fastText indexer without buckets. *)
Inductive vocab_accepted (pf : profile) : vocab_wrap -> Prop :=
| va_simple ws v : simple_new ws = Ok v -> vocab_accepted pf (VSimple v)
| va_bucket exp ws mn mx ix bow eow v : hash_indexer_new exp = Ok ix ->
    sub_new_with_boundaries hash_ops pf ws mn mx ix bow eow = Ok v -> vocab_accepted pf (VBucket v)
| va_fasttext n ws mn mx ix bow eow v : ft_indexer_new n = Ok ix ->
    sub_new_with_boundaries ft_ops pf ws mn mx ix bow eow = Ok v -> vocab_accepted pf (VFastText v)
| va_explicit ws mn mx ix bow eow v : explicit_built ix ->
    sub_new_with_boundaries explicit_ops pf ws mn mx ix bow eow = Ok v -> vocab_accepted pf (VExplicit v)
| va_floret nb nh seed ws mn mx ix bow eow v : floret_indexer_new nb nh seed = Ok ix ->
    sub_new_with_boundaries floret_ops pf ws mn mx ix bow eow = Ok v -> vocab_accepted pf (VFloret v).

(** A fastText vocabulary without buckets. *)
Definition no_buckets (v : vocab_wrap) : Prop :=
  exists sv, v = VFastText sv /\ ft_indexer_new 0 = Ok (sv_ix sv).

(** The reasons for which looking up the subwords of [w] panics: n-gram
    lengths that make no sense, or an n-gram and no bucket to put it in. *)
Definition subwords_panic (v : vocab_wrap) (w : str) (p : panic) : Prop :=
  exists mn mx bow eow, vocab_range v = Some (mn, mx, bow, eow) /\
  (p = PAssert /\ ~ range_ok mn mx \/
   p = PDivByZero /\ range_ok mn mx /\ no_buckets v /\ exists g, ngram_in (bow ++ w ++ eow) mn mx g).

(** The two methods that ask for subwords, for the vocabularies that have
    them. *)
Definition subword_indices_of (pf : profile) (v : vocab_wrap) (w : str) : option (res (option (list N))) :=
  match v with
  | VSimple _ => None
  | VBucket v => Some (sub_subword_indices hash_ops pf v w)
  | VFastText v => Some (sub_subword_indices ft_ops pf v w)
  | VExplicit v => Some (sub_subword_indices explicit_ops pf v w)
  | VFloret v => Some (sub_subword_indices floret_ops pf v w)
  end.
Definition ngram_indices_of (pf : profile) (v : vocab_wrap) (w : str)
  : option (res (option (list (str * list N)))) :=
  match v with
  | VSimple _ => None
  | VBucket v => Some (sub_ngram_indices hash_ops pf v w)
  | VFastText v => Some (sub_ngram_indices ft_ops pf v w)
  | VExplicit v => Some (sub_ngram_indices explicit_ops pf v w)
  | VFloret v => Some (sub_ngram_indices floret_ops pf v w)
  end.

(** The boundaries of words are strings. *)
Definition bounds_utf8 (v : vocab_wrap) : Prop := forall mn mx bow eow,
  vocab_range v = Some (mn, mx, bow, eow) -> utf8_valid bow = true /\ utf8_valid eow = true.

(** [w] is not a word and the n-gram lengths make no sense. *)
Definition unusable_lookup (v : vocab_wrap) (w : str) : Prop :=
  ~ In w (v_words wrap_ops v) /\
  exists mn mx bow eow, vocab_range v = Some (mn, mx, bow, eow) /\ ~ range_ok mn mx.
