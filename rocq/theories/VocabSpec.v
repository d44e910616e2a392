(** * Vocabulary of the statements about n-grams, indexers and vocabularies.

    Nothing here is part of the model. *)
From Coq Require Import Sorting.Sorted.
From Verif Require Import Base Utf8 Subword Vocab FileSpec.
Local Open Scope N_scope.

(** ** N-grams *)

(** [n] characters from position [i]. *)
Definition substring (i n : N) (cs : list N) : list N := takeN n (dropN i cs).

(** Start and length of every n-gram, each once: by start, the longer ones
    first. *)
Definition ngram_before (p q : N * N) : Prop := fst p < fst q \/ fst p = fst q /\ snd q < snd p.
Definition ngram_positions (len mn mx : N) (ps : list (N * N)) : Prop :=
  StronglySorted ngram_before ps /\ forall i n, In (i, n) ps <-> mn <= n <= mx /\ i + n <= len.

(** [items] are the n-grams of [s], in this order, with their lengths in
    characters. *)
Definition ngrams_of (s : str) (mn mx : N) (items : list swcl) : Prop :=
  exists cs ps, forallb scalarb cs = true /\ s = utf8_encode cs /\
  ngram_positions (lenN cs) mn mx ps /\
  items = map (fun p => mkSwcl (utf8_encode (substring (fst p) (snd p) cs)) (snd p)) ps.

(** [g] is an n-gram of [s]. *)
Definition ngram_in (s : str) (mn mx : N) (g : str) : Prop :=
  exists cs i n, forallb scalarb cs = true /\ s = utf8_encode cs /\ mn <= n <= mx /\ i + n <= lenN cs /\
  g = utf8_encode (substring i n cs).

(** The states of an n-gram iterator. *)
Inductive ngrams_state (s : str) (mn mx : N) : ngrams -> Prop :=
| ns_new g : ngrams_new s mn mx = Ok g -> ngrams_state s mn mx g
| ns_next g x g' : ngrams_state s mn mx g -> ngrams_next g = Ok (x, g') -> ngrams_state s mn mx g'.

(** The items that remain. *)
Inductive remaining : ngrams -> list swcl -> Prop :=
| rem_nil g g' : ngrams_next g = Ok (None, g') -> remaining g []
| rem_cons g x g' l : ngrams_next g = Ok (Some x, g') -> remaining g' l -> remaining g (x :: l).

Definition range_ok (mn mx : N) : Prop := 1 <= mn /\ mn <= mx.

(** ** Indexers *)

(** Indexers that the constructors build.  2^64 buckets and zero fastText
    buckets are accepted by the constructors but do not work, see
    [hash_bound_refuted] and [fasttext_zero_refuted]. *)
Inductive ix_made : forall I, indexer_ops I -> I -> Prop :=
| im_hash exp ix : exp <> 64 -> hash_indexer_new exp = Ok ix -> ix_made _ hash_ops ix
| im_fasttext n ix : n <> 0 -> ft_indexer_new n = Ok ix -> ix_made _ ft_ops ix
| im_floret nb nh seed ix : floret_indexer_new nb nh seed = Ok ix -> ix_made _ floret_ops ix
| im_explicit ix : explicit_built ix -> ix_made _ explicit_ops ix.

(** 32-bit FNV-1a on integers; the second one casts each byte to a signed
    8-bit integer first, as fastText does. *)
Definition fnv1a32 (s : list byte) : N :=
  fold_left (fun h b => N.lxor h (bN b) * 16777619 mod 2 ^ 32) s 2166136261.
Definition as_i8 (b : byte) : Z := if bN b <? 128 then Z.of_N (bN b) else (Z.of_N (bN b) - 256)%Z.
Definition fasttext32 (s : list byte) : Z :=
  fold_left (fun h b => (Z.lxor h (as_i8 b) * 16777619) mod 2 ^ 32)%Z s 2166136261%Z.

(** Distinct numbers in order of first appearance. *)
Definition first_seen (l : list N) : list N :=
  fold_left (fun acc b => if existsb (N.eqb b) acc then acc else acc ++ [b]) l [].

(** ** Vocabularies *)

(** Vocabularies that the constructors build from any boundaries. *)
Inductive vocab_made (pf : profile) : vocab_wrap -> Prop :=
| vm_simple ws v : simple_new ws = Ok v -> vocab_made pf (VSimple v)
| vm_bucket ws mn mx ix bow eow v : ix_made _ hash_ops ix ->
    sub_new_with_boundaries hash_ops pf ws mn mx ix bow eow = Ok v -> vocab_made pf (VBucket v)
| vm_fasttext ws mn mx ix bow eow v : ix_made _ ft_ops ix ->
    sub_new_with_boundaries ft_ops pf ws mn mx ix bow eow = Ok v -> vocab_made pf (VFastText v)
| vm_explicit ws mn mx ix bow eow v : ix_made _ explicit_ops ix ->
    sub_new_with_boundaries explicit_ops pf ws mn mx ix bow eow = Ok v -> vocab_made pf (VExplicit v)
| vm_floret ws mn mx ix bow eow v : ix_made _ floret_ops ix ->
    sub_new_with_boundaries floret_ops pf ws mn mx ix bow eow = Ok v -> vocab_made pf (VFloret v).

(** The n-gram lengths and boundaries of a vocabulary, if it has any. *)
Definition vocab_range (v : vocab_wrap) : option (N * N * str * str) :=
  let f {I} (v : subword_vocab I) := Some (sv_min v, sv_max v, sv_bow v, sv_eow v) in
  match v with
  | VSimple _ => None
  | VBucket v => f v | VFastText v => f v | VExplicit v => f v | VFloret v => f v
  end.

(** A vocabulary whose lookups work: the n-gram lengths are sensible (the
    constructors do not check them, see [lookup_range_refuted]) and the
    boundaries are strings. *)
Definition vocab_usable (v : vocab_wrap) : Prop := forall mn mx bow eow,
  vocab_range v = Some (mn, mx, bow, eow) ->
  range_ok mn mx /\ utf8_valid bow = true /\ utf8_valid eow = true.

(** What an indexer is asked about a string: its n-grams and, for floret,
    first the string itself. *)
Definition queried {I} (ops : indexer_ops I) (s : str) (mn mx : N) (qs : list swcl) : Prop :=
  exists items, ngrams_of s mn mx items /\
  qs = (match ix_scope ops with Substrings => [] | StringAndSubstrings => [swcl_new s] end) ++ items.

(** [is] are the answers of the indexer to [qs], in order. *)
Definition answers {I} (ops : indexer_ops I) (ix : I) (qs : list swcl) (is : list (list N)) : Prop :=
  Forall2 (fun q l => ix_index ops ix q = Ok l) qs is.

(** [g] is an n-gram of a word of the vocabulary between its boundaries. *)
Definition occurs {I} (v : subword_vocab I) (g : str) : Prop :=
  exists w, In w (sv_words v) /\ ngram_in (sv_bow v ++ w ++ sv_eow v) (sv_min v) (sv_max v) g.

(** Bucketed vocabularies: hash and fastText indexers. *)
Definition vocab_bucketed (v : vocab_wrap) : Prop :=
  match v with VBucket _ | VFastText _ => True | _ => False end.
