(** * Theorems about n-grams, indexers and vocabularies (C17-C25, C73, C75, C76, C91, C93,
    C94). *)
From Verif Require Import Base BaseFacts Utf8 Subword Vocab FileSpec VocabFacts VocabSpec LookupExactSpec HashSpec
  Stream Equality EqualitySpec.
From Verif Require SubwordFacts IndexerFacts LookupFacts LookupExact HashThms EqualityThms.
From Verif Require Import Markers.
Local Open Scope N_scope.

(** ** Concrete values for the examples *)
Definition ex_words : list str := [[x65; x65; x6e]; [x74; x77; x65; x65]].   (* een, twee *)
Definition ex_unknown : str := [xc3; xab; x65; x6e].                          (* ëen *)
Definition ex_hash : hash_indexer := mkHashIx 21 2097151.
Definition ex_bucket : subword_vocab hash_indexer :=
  mkSub default_bow default_eow ex_hash (create_indices ex_words) ex_words 3 6.
Lemma ex_hash_made : ix_made _ hash_ops ex_hash.
Proof. apply (im_hash 21); [discriminate|reflexivity]. Qed.
Lemma ex_bucket_made : vocab_made Debug (VBucket ex_bucket).
Proof. apply (vm_bucket Debug ex_words 3 6 ex_hash default_bow default_eow); [apply ex_hash_made|vm_compute; reflexivity]. Qed.
Definition ex_floret_ix : floret_indexer := mkFloretIx 100 42 3.
Lemma ex_floret_made : ix_made _ floret_ops ex_floret_ix.
Proof. apply (im_floret 100 3 42). reflexivity. Qed.

(** ** C17: words and indices *)
@thm simple_new_iff_thm LookupFacts simple_new_iff
@thm subword_new_iff_thm LookupFacts sub_new_iff
@thm words_bijection_thm LookupFacts words_bijection
Example words_bijection_ex : vocab_made Debug (VBucket ex_bucket) /\
  map (v_idx wrap_ops Debug (VBucket ex_bucket)) ex_words = [Ok (Some (Word 0)); Ok (Some (Word 1))] /\
  simple_new (ex_words ++ [[x65; x65; x6e]]) = Panic PDuplicateWords.
Proof. split; [apply ex_bucket_made|]. vm_compute. auto. Qed.

(** ** C18: subword indices of unknown words *)
(** Vocabularies whose n-gram range is unusable (not checked by the
    constructors) are excluded here and in C19; their lookups panic. *)
@thm unknown_word_thm LookupFacts sub_lookup_unknown | forall I (ops : indexer_ops I) pf ws mn mx ix bow eow v, ix_made I ops ix -> sub_new_with_boundaries ops pf ws mn mx ix bow eow = Ok v -> utf8_valid bow = true -> utf8_valid eow = true ->
@thm unknown_word_simple_thm LookupFacts simple_unknown
(** Vocabularies that were made without markers use "<" and ">", and so do
    those that were read from files that do not store them. *)
@thm default_markers_thm Markers sub_new_lookup
@thm read_markers_thm Markers read_marked
Example default_markers_ex : sub_new hash_ops Debug ex_words 3 6 ex_hash = Ok ex_bucket /\ marked ex_bucket /\
  exists v s', read_vocab_wrap Debug (mkStream (le_bytes 4 3 ++ le_bytes 8 20 ++ le_bytes 8 0 ++ le_bytes 4 3 ++ le_bytes 4 6 ++ le_bytes 4 2) 0) = (Ok (VBucket v), s').
Proof. split; [vm_compute; reflexivity|]. split; [split; reflexivity|]. do 2 eexists. vm_compute. reflexivity. Qed.
@thm subword_indices_thm LookupFacts sub_indices_exact | forall I (ops : indexer_ops I) pf ws mn mx ix bow eow v, ix_made I ops ix -> sub_new_with_boundaries ops pf ws mn mx ix bow eow = Ok v -> utf8_valid bow = true -> utf8_valid eow = true ->
@thm lookup_range_thm LookupFacts sub_lookup_range | forall I (ops : indexer_ops I) pf ws mn mx ix bow eow v, sub_new_with_boundaries ops pf ws mn mx ix bow eow = Ok v ->
Example unknown_word_ex : ix_made _ hash_ops ex_hash /\
  sub_new_with_boundaries hash_ops Debug ex_words 3 6 ex_hash default_bow default_eow = Ok ex_bucket /\
  range_ok 3 6 /\ utf8_valid ex_unknown = true /\ ~ In ex_unknown ex_words /\
  exists l, v_idx (sub_ops hash_ops) Debug ex_bucket ex_unknown = Ok (Some (Subwords l)) /\ lenN l = 6 /\
  v_idx (sub_ops hash_ops) Debug ex_bucket [] = Ok None.
Proof.
  split; [apply ex_hash_made|]. split; [vm_compute; reflexivity|]. split; [split; vm_compute; discriminate|].
  split; [reflexivity|]. split; [intros [H|[H|[]]]; discriminate|].
  eexists. split; [vm_compute; reflexivity|]. vm_compute. auto.
Qed.
Theorem lookup_range_refuted : exists v,
  sub_new_with_boundaries hash_ops Debug ex_words 0 6 ex_hash default_bow default_eow = Ok v /\
  v_idx (sub_ops hash_ops) Debug v ex_unknown = Panic PAssert.
Proof. eexists. split; [vm_compute; reflexivity|]. vm_compute. reflexivity. Qed.
Print Assumptions lookup_range_refuted.

(** ** C19: bounds *)
@thm lookup_in_bounds_thm LookupFacts lookup_in_bounds
@thm vocab_len_thm LookupFacts sub_vocab_len_exact | forall I (ops : indexer_ops I) pf ws mn mx ix bow eow v, sub_new_with_boundaries ops pf ws mn mx ix bow eow = Ok v ->
Example lookup_in_bounds_ex : vocab_made Debug (VBucket ex_bucket) /\ vocab_usable (VBucket ex_bucket) /\
  v_vocab_len wrap_ops Debug (VBucket ex_bucket) = Ok 2097154.
Proof.
  split; [apply ex_bucket_made|]. split; [|vm_compute; reflexivity].
  intros mn mx bow eow H. inv H. split; [split; vm_compute; discriminate|]. auto.
Qed.
(** 2^64 buckets: the reported length is the number of words. *)
Theorem lookup_bounds_refuted : exists ix v w l,
  hash_indexer_new 64 = Ok ix /\
  sub_new_with_boundaries hash_ops Release ex_words 3 6 ix default_bow default_eow = Ok v /\
  v_vocab_len (sub_ops hash_ops) Release v = Ok 2 /\
  v_idx (sub_ops hash_ops) Release v w = Ok (Some (Subwords l)) /\ Forall (fun i => 2 <= i) l.
Proof.
  do 2 eexists. exists ex_unknown. eexists. split; [vm_compute; reflexivity|]. split; [vm_compute; reflexivity|].
  split; [vm_compute; reflexivity|]. split; [vm_compute; reflexivity|]. repeat constructor; vm_compute; discriminate.
Qed.
Print Assumptions lookup_bounds_refuted.

(** ** C20: n-grams *)
@thm ngrams_exact_thm SubwordFacts ngrams_exact
@thm ngrams_unique_thm SubwordFacts ngrams_of_fun
@thm ngrams_iterator_thm SubwordFacts ngrams_iterator
@thm ngrams_range_thm SubwordFacts ngrams_new_panics
Example ngrams_exact_ex : utf8_valid ex_unknown = true /\ range_ok 2 3 /\
  ngrams_collect ex_unknown 2 3 = Ok [mkSwcl [xc3; xab; x65; x6e] 3; mkSwcl [xc3; xab; x65] 2; mkSwcl [x65; x6e] 2].
Proof. split; [reflexivity|]. split; [split; vm_compute; discriminate|]. vm_compute. reflexivity. Qed.
Example ngrams_iterator_ex : exists g g', ngrams_new ex_unknown 4 4 = Ok g /\ ngrams_next g = Ok (None, g') /\
  ngrams_state ex_unknown 4 4 g'.
Proof.
  do 2 eexists. split; [vm_compute; reflexivity|]. split; [vm_compute; reflexivity|].
  eapply ns_next; [apply ns_new; vm_compute; reflexivity|]. vm_compute. reflexivity.
Qed.

(** ** C21: bucket bounds *)
(** Missing from the claim: 2^64 hash buckets and zero fastText buckets are
    accepted, see the refutations. *)
@thm hash_bound_partial IndexerFacts hash_index_bound
@thm fasttext_bound_partial IndexerFacts ft_index_bound
Example hash_bound_ex : hash_indexer_new 21 = Ok ex_hash /\ exists n, hash_index ex_hash (swcl_new ex_unknown) = Ok [n] /\ n < 2 ^ 21.
Proof. split; [reflexivity|]. eexists. split; [vm_compute; reflexivity|]. vm_compute. reflexivity. Qed.
Theorem hash_bound_refuted : exists ix g i,
  hash_indexer_new 64 = Ok ix /\ ix_bound hash_ops Debug ix = Panic PArithOverflow /\
  ix_bound hash_ops Release ix = Ok 0 /\ ix_index hash_ops ix g = Ok [i] /\ 0 < i.
Proof.
  eexists. exists (swcl_new ex_unknown). eexists. split; [vm_compute; reflexivity|]. split; [vm_compute; reflexivity|].
  split; [vm_compute; reflexivity|]. split; [vm_compute; reflexivity|]. vm_compute. reflexivity.
Qed.
Print Assumptions hash_bound_refuted.
Theorem fasttext_zero_refuted : exists ix, ft_indexer_new 0 = Ok ix /\
  forall g, ix_index ft_ops ix g = Panic PDivByZero.
Proof. eexists. split; [reflexivity|]. intros g. reflexivity. Qed.
Print Assumptions fasttext_zero_refuted.

(** ** C22: fastText hash *)
@thm fasttext_ascii_thm IndexerFacts ft_ascii
@thm fasttext_signed_thm IndexerFacts ft_signed
@thm fasttext_index_thm IndexerFacts ft_index_bound
Example fasttext_hash_ex : Forall (fun b => bN b < 128) [x3c; x61] /\
  ft_hash [x3c; x61] = fnv1a32 [x3c; x61] /\ ft_hash ex_unknown <> fnv1a32 ex_unknown /\
  Z.of_N (ft_hash ex_unknown) = fasttext32 ex_unknown.
Proof. split; [repeat constructor; reflexivity|]. split; [reflexivity|]. split; [vm_compute; discriminate|]. vm_compute. reflexivity. Qed.

(** ** C23: floret indexer *)
@thm floret_index_thm IndexerFacts floret_index_exact
(** The bracketed word itself is queried too. *)
Example floret_index_ex : floret_indexer_new 100 3 42 = Ok ex_floret_ix /\
  (exists l, floret_index ex_floret_ix (swcl_new ex_unknown) = Ok l /\ lenN l = 3) /\
  exists v l, sub_new_with_boundaries floret_ops Debug [] 3 3 ex_floret_ix [x3c] [x3e] = Ok v /\
    v_idx (sub_ops floret_ops) Debug v ex_unknown = Ok (Some (Subwords l)) /\ lenN l = 12.
Proof.
  split; [reflexivity|]. split; [eexists; split; [vm_compute; reflexivity|reflexivity]|].
  do 2 eexists. split; [vm_compute; reflexivity|]. split; [vm_compute; reflexivity|]. reflexivity.
Qed.

(** ** C24: explicit indexer *)
@thm explicit_numbering_thm IndexerFacts explicit_numbering
@thm explicit_share_thm IndexerFacts first_seen_share
@thm explicit_new_thm IndexerFacts explicit_new_exact
Example explicit_numbering_ex :
  let tuples := [([x61], 9); ([x62], 4); ([x63], 9); ([x64], 1)] in
  NoDup (map fst tuples) /\ first_seen (map snd tuples) = [9; 4; 1] /\
  exists ix o2n, explicit_new_with_indices tuples = Ok (ix, o2n) /\
  map (fun g => explicit_index ix (swcl_new g)) [[x61]; [x62]; [x63]; [x64]; [x65]]
  = [Ok [0]; Ok [1]; Ok [0]; Ok [2]; Ok []].
Proof.
  cbv zeta. split.
  - cbn. repeat constructor; cbn; intuition discriminate.
  - split; [reflexivity|]. do 2 eexists. split; [vm_compute; reflexivity|]. vm_compute. reflexivity.
Qed.

(** ** C25: size hints *)
(** Missing from the claim: the lower bound and the floret iterator, see the
    refutations. *)
@thm size_hint_upper_partial SubwordFacts ngrams_hint_upper
Example size_hint_ex : exists g l, ngrams_new ex_unknown 2 3 = Ok g /\ ngrams_state ex_unknown 2 3 g /\
  ngrams_drain 10 g = Ok l /\ lenN l = 3 /\ ngrams_size_hint Debug g = Ok (6, Some 6).
Proof.
  do 2 eexists. split; [vm_compute; reflexivity|]. split; [apply ns_new; vm_compute; reflexivity|].
  split; [vm_compute; reflexivity|]. split; [reflexivity|]. vm_compute. reflexivity.
Qed.
Theorem size_hint_lower_refuted : exists g lo hi,
  ngrams_state ex_unknown 2 3 g /\ ngrams_size_hint Debug g = Ok (lo, hi) /\
  exists l, remaining g l /\ lenN l < lo.
Proof.
  do 3 eexists. split; [apply ns_new; vm_compute; reflexivity|]. split; [vm_compute; reflexivity|].
  eexists. split; [apply (LookupFacts.drain_remaining 10); vm_compute; reflexivity|]. vm_compute. reflexivity.
Qed.
Print Assumptions size_hint_lower_refuted.
(** The iterator over n-grams and indices can yield one item more. *)
Theorem size_hint_floret_refuted : exists it lo hi l,
  ngi_new floret_ops [x61] 1 1 ex_floret_ix = Ok it /\ ngi_size_hint Debug it = Ok (lo, Some hi) /\
  ngi_drain floret_ops 10 it = Ok l /\ hi < lenN l.
Proof.
  do 4 eexists. split; [vm_compute; reflexivity|]. split; [vm_compute; reflexivity|]. split; [vm_compute; reflexivity|].
  vm_compute. reflexivity.
Qed.
Print Assumptions size_hint_floret_refuted.
(** A huge maximum overflows the computation of the hint. *)
Theorem size_hint_overflow_refuted : exists g, ngrams_new ex_unknown 1 (two64 - 1) = Ok g /\
  ngrams_size_hint Debug g = Panic PArithOverflow.
Proof. eexists. split; [vm_compute; reflexivity|]. vm_compute. reflexivity. Qed.
Print Assumptions size_hint_overflow_refuted.

(** ** C73: exactly when lookups panic *)
@thm lookup_panics_thm LookupExact lookup_panics
(** A vocabulary with usable lengths, one with a minimum of zero, one without
    buckets: the last two panic for the unknown word only, and the one
    without buckets does not panic for strings that are too short. *)
Definition ex_bad_range : vocab_wrap :=
  VBucket (mkSub default_bow default_eow ex_hash (create_indices ex_words) ex_words 0 6).
Definition ex_no_buckets : vocab_wrap :=
  VFastText (mkSub default_bow default_eow (mkFtIx 0) (create_indices ex_words) ex_words 3 6).
Example lookup_panics_ex :
  vocab_accepted Debug ex_bad_range /\ bounds_utf8 ex_bad_range /\ utf8_valid ex_unknown = true /\
  vocab_accepted Debug ex_no_buckets /\ bounds_utf8 ex_no_buckets /\
  map (v_idx wrap_ops Debug ex_bad_range) [[x65; x65; x6e]; ex_unknown; []]
  = [Ok (Some (Word 0)); Panic PAssert; Panic PAssert] /\
  map (v_idx wrap_ops Debug ex_no_buckets) [[x65; x65; x6e]; ex_unknown; []]
  = [Ok (Some (Word 0)); Panic PDivByZero; Ok None].
Proof.
  split; [apply (va_bucket Debug 21 ex_words 0 6 ex_hash default_bow default_eow); vm_compute; reflexivity|].
  split; [intros mn mx bow eow H; inv H; auto|]. split; [reflexivity|].
  split; [apply (va_fasttext Debug 0 ex_words 3 6 (mkFtIx 0) default_bow default_eow); vm_compute; reflexivity|].
  split; [intros mn mx bow eow H; inv H; auto|]. split; vm_compute; reflexivity.
Qed.

(** ** C75: all bucket counts *)
@thm hash_counts_thm LookupExact hash_counts
@thm fasttext_counts_thm LookupExact ft_counts
@thm floret_counts_thm LookupExact floret_counts
Example counts_ex : hash_indexer_new 65 = Panic PAssert /\ hash_indexer_new 64 = Ok (mkHashIx 64 (two64 - 1)) /\
  ft_indexer_new 2147483647 = Ok (mkFtIx 2147483647) /\ ft_indexer_new 2147483648 = Panic PAssert /\
  floret_indexer_new 100 3 42 = Ok ex_floret_ix /\ floret_indexer_new 100 5 42 = Panic PAssert.
Proof. repeat split; vm_compute; reflexivity. Qed.

(** ** C76: size hints of new iterators *)
@thm size_hint_exact_thm LookupExact hint_exact
Example size_hint_exact_ex : exists g l, ngrams_new (utf8_encode [235; 101; 110]) 1 2 = Ok g /\ remaining g l /\
  lenN l = 5 /\ ngrams_size_hint Debug g = Ok (6, Some 6).
Proof.
  do 2 eexists. split; [vm_compute; reflexivity|].
  split; [apply (LookupFacts.drain_remaining 10); vm_compute; reflexivity|]. split; vm_compute; reflexivity.
Qed.

(** ** C91: published hash functions *)
@thm hash_published_thm HashThms hash_published
@thm hash_published_exists_thm HashThms hash_published_exists
@thm hash_input_unique_thm HashThms hash_input_unique
@thm hash_input_injective_thm HashThms hash_input_inj
@thm fnv_unique_thm HashThms fnv_unique
@thm floret_published_thm HashThms floret_published
@thm floret_published_exists_thm HashThms floret_published_exists
@thm murmur_unique_thm HashThms murmur_unique

(** The published values for "a" (FNV-1a) and "hello" (MurmurHash3); the
    input of the hash of the n-gram "ën". *)
Example published_ex : fnv1a64 [] 0xcbf29ce484222325 /\ fnv1a64 [x61] 0xaf63dc4c8601ec8c /\
  (exists bs, hash_input [235; 110] bs /\ bs = [x02; x00; x00; x00; x00; x00; x00; x00; xeb; x00; x00; x00; x6e; x00; x00; x00]) /\
  hash_indexer_new 21 = Ok ex_hash /\ forallb scalarb [235; 110] = true /\
  murmur3 0 [x68; x65; x6c; x6c; x6f] 0xcbd8a7b341bd9b02 0x5b1e906a48ae1d19 /\
  (exists lo hi, murmur3 42 (utf8_encode [235; 101; 110]) lo hi) /\ floret_indexer_new 100 3 42 = Ok ex_floret_ix.
Proof.
  split; [constructor|]. split.
  { assert (0xaf63dc4c8601ec8c = fnv64 [x61]) as -> by (vm_compute; reflexivity). apply HashThms.fnv64_is. }
  split; [eexists; split; [apply HashThms.hash_input_is; vm_compute; reflexivity|vm_compute; reflexivity]|].
  split; [vm_compute; reflexivity|]. split; [reflexivity|]. split.
  { apply (HashThms.murmur_exists 0 [x68; x65; x6c; x6c; x6f]); vm_compute; reflexivity. }
  split; [apply HashThms.floret_published_exists; vm_compute; reflexivity|vm_compute; reflexivity].
Qed.

(** ** C93: equality of vocabularies *)
@thm vocab_equality_thm EqualityThms vocab_equality
@thm vocab_equal_same_thm EqualityThms vocab_equal_same
@thm vocab_equal_refl_thm EqualityThms vocab_equal_refl
(** The profile that built a vocabulary is not part of it; another number of
    buckets, another order of the words and another boundary are. *)
Example vocab_equality_ex :
  let bucket pf ws exp bow := let* ix := hash_indexer_new exp in
    let* v := sub_new_with_boundaries hash_ops pf ws 3 6 ix bow default_eow in Ok (VBucket v) in
  let eq a b := let* a := a in let* b := b in Ok (wrap_eq a b) in
  bucket Debug ex_words 21 default_bow = Ok (VBucket ex_bucket) /\ vocab_accepted Debug (VBucket ex_bucket) /\
  eq (bucket Debug ex_words 21 default_bow) (bucket Release ex_words 21 default_bow) = Ok true /\
  eq (bucket Debug ex_words 21 default_bow) (bucket Debug ex_words 20 default_bow) = Ok false /\
  eq (bucket Debug ex_words 21 default_bow) (bucket Debug (rev ex_words) 21 default_bow) = Ok false /\
  eq (bucket Debug ex_words 21 default_bow) (bucket Debug ex_words 21 default_eow) = Ok false /\
  explicit_eq (mkExIx [[x61]; [x62]] [([x61], 0); ([x62], 1)] 2) (mkExIx [[x61]; [x62]] [([x62], 1); ([x61], 0)] 2) = true /\
  explicit_eq (mkExIx [[x61]; [x62]] [([x61], 0); ([x62], 1)] 2) (mkExIx [[x61]; [x62]] [([x61], 0); ([x62], 0)] 2) = false.
Proof.
  split; [vm_compute; reflexivity|]. split.
  - apply (va_bucket Debug 21 ex_words 3 6 ex_hash default_bow default_eow); vm_compute; reflexivity.
  - vm_compute. repeat split.
Qed.

(** ** C94: infallible indexers *)
@thm infallible_exact_thm EqualityThms infallible_exact
Example infallible_ex :
  (exists ix, hash_indexer_new 64 = Ok ix) /\ (exists ix, ft_indexer_new 3 = Ok ix /\ ft_index ix (swcl_new [x61]) = Ok [1]) /\
  floret_indexer_new 100 3 42 = Ok ex_floret_ix /\
  (exists ix, explicit_new [[x61]] = Ok ix /\ explicit_index ix (swcl_new [x61]) = Ok [0] /\ explicit_index ix (swcl_new [x62]) = Ok []).
Proof. split; [|split; [|split]]; try eexists; vm_compute; repeat split. Qed.
