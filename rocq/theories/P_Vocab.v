(** * Theorems about n-grams, indexers and vocabularies (C17-C25, C73, C75, C76, C91, C93,
    C94). *)
From Verif Require Import Base BaseFacts Utf8 Subword Vocab FileSpec VocabFacts VocabSpec LookupExactSpec HashSpec
  Stream Equality EqualitySpec.
From Verif Require SubwordFacts IndexerFacts LookupFacts LookupExact HashThms EqualityThms.
From Verif Require Import Markers.
Local Open Scope N_scope.

(** ** Concrete values for the examples *)
Definition ex_words : list str := [[x65; x65; x6e]; [x74; x77; x65; x65]].   (* een, twee *)
Definition ex_unknown : str := [xc3; xab; x65; x6e].                          (* ëen *)
Definition ex_hash : hash_indexer := mkHashIx 21 2097151.
Definition ex_bucket : subword_vocab hash_indexer :=
  mkSub default_bow default_eow ex_hash (create_indices ex_words) ex_words 3 6.
Lemma ex_hash_made : ix_made _ hash_ops ex_hash.
Proof. apply (im_hash 21); [discriminate|reflexivity]. Qed.
Lemma ex_bucket_made : vocab_made Debug (VBucket ex_bucket).
Proof. apply (vm_bucket Debug ex_words 3 6 ex_hash default_bow default_eow); [apply ex_hash_made|vm_compute; reflexivity]. Qed.
Definition ex_floret_ix : floret_indexer := mkFloretIx 100 42 3.
Lemma ex_floret_made : ix_made _ floret_ops ex_floret_ix.
Proof. apply (im_floret 100 3 42). reflexivity. Qed.

(** ** C17: words and indices *)
Theorem simple_new_iff_thm : forall ws,
  ((exists v, simple_new ws = Ok v) <-> NoDup ws) /\ (~ NoDup ws -> simple_new ws = Panic PDuplicateWords).
Proof. exact (@LookupFacts.simple_new_iff). Qed.
Print Assumptions simple_new_iff_thm.
Theorem subword_new_iff_thm : forall (I : Type) (ops : indexer_ops I) pf ws mn mx ix bow eow b,
  ix_bound ops pf ix = Ok b -> lenN ws + b < two64 ->
  ((exists v, sub_new_with_boundaries ops pf ws mn mx ix bow eow = Ok v) <-> NoDup ws) /\
  (~ NoDup ws -> sub_new_with_boundaries ops pf ws mn mx ix bow eow = Panic PDuplicateWords).
Proof. exact (@LookupFacts.sub_new_iff). Qed.
Print Assumptions subword_new_iff_thm.
Theorem words_bijection_thm : forall pf v w i,
  vocab_made pf v ->
  (v_idx wrap_ops pf v w = Ok (Some (Word i)) <-> nthN (v_words wrap_ops v) i = Some w) /\
  v_words_len wrap_ops v = lenN (v_words wrap_ops v) /\ NoDup (v_words wrap_ops v).
Proof. exact (@LookupFacts.words_bijection). Qed.
Print Assumptions words_bijection_thm.
Example words_bijection_ex : vocab_made Debug (VBucket ex_bucket) /\
  map (v_idx wrap_ops Debug (VBucket ex_bucket)) ex_words = [Ok (Some (Word 0)); Ok (Some (Word 1))] /\
  simple_new (ex_words ++ [[x65; x65; x6e]]) = Panic PDuplicateWords.
Proof. split; [apply ex_bucket_made|]. vm_compute. auto. Qed.

(** ** C18: subword indices of unknown words *)
(** Vocabularies whose n-gram range is unusable (not checked by the
    constructors) are excluded here and in C19; their lookups panic. *)
Theorem unknown_word_thm : forall I (ops : indexer_ops I) pf ws mn mx ix bow eow v, ix_made I ops ix -> sub_new_with_boundaries ops pf ws mn mx ix bow eow = Ok v -> utf8_valid bow = true -> utf8_valid eow = true ->
  forall w,
  range_ok mn mx -> utf8_valid w = true -> ~ In w ws ->
    exists qs is, queried ops (bow ++ w ++ eow) mn mx qs /\ answers ops ix qs is /\
    v_idx (sub_ops ops) pf v w
      = Ok (match concat is with [] => None | _ => Some (Subwords (map (fun i => lenN ws + i) (concat is))) end).
Proof. exact (@LookupFacts.sub_lookup_unknown). Qed.
Print Assumptions unknown_word_thm.
Theorem unknown_word_simple_thm : forall pf ws v w,
  simple_new ws = Ok v -> ~ In w ws -> v_idx simple_ops pf v w = Ok None.
Proof. exact (@LookupFacts.simple_unknown). Qed.
Print Assumptions unknown_word_simple_thm.
(** Vocabularies that were made without markers use "<" and ">", and so do
    those that were read from files that do not store them. *)
Theorem default_markers_thm : forall (I : Type) (ops : indexer_ops I) pf ws mn mx ix v,
  ix_made I ops ix -> sub_new ops pf ws mn mx ix = Ok v ->
  forall w, range_ok mn mx -> utf8_valid w = true -> ~ In w ws ->
  exists qs is, queried ops ([x3c] ++ w ++ [x3e]) mn mx qs /\ answers ops ix qs is /\
    v_idx (sub_ops ops) pf v w
      = Ok (match concat is with [] => None | _ => Some (Subwords (map (fun i => lenN ws + i) (concat is))) end).
Proof. exact (@Markers.sub_new_lookup). Qed.
Print Assumptions default_markers_thm.
Theorem read_markers_thm : forall pf s v s',
  read_vocab_wrap pf s = (Ok v, s') ->
  match v with
  | VBucket v => marked v
  | VFastText v => marked v
  | VExplicit v => marked v
  | VFloret _ | VSimple _ => True
  end.
Proof. exact (@Markers.read_marked). Qed.
Print Assumptions read_markers_thm.
Example default_markers_ex : sub_new hash_ops Debug ex_words 3 6 ex_hash = Ok ex_bucket /\ marked ex_bucket /\
  exists v s', read_vocab_wrap Debug (mkStream (le_bytes 4 3 ++ le_bytes 8 20 ++ le_bytes 8 0 ++ le_bytes 4 3 ++ le_bytes 4 6 ++ le_bytes 4 2) 0) = (Ok (VBucket v), s').
Proof. split; [vm_compute; reflexivity|]. split; [split; reflexivity|]. do 2 eexists. vm_compute. reflexivity. Qed.
Theorem subword_indices_thm : forall I (ops : indexer_ops I) pf ws mn mx ix bow eow v, ix_made I ops ix -> sub_new_with_boundaries ops pf ws mn mx ix bow eow = Ok v -> utf8_valid bow = true -> utf8_valid eow = true ->
  forall w,
  range_ok mn mx -> utf8_valid w = true ->
    exists qs is, queried ops (bow ++ w ++ eow) mn mx qs /\ answers ops ix qs is /\
    Forall (fun i => exists b, ix_bound ops pf ix = Ok b /\ i < b) (concat is) /\
    sub_subword_indices ops pf v w
      = Ok (match concat is with [] => None | _ => Some (map (fun i => lenN ws + i) (concat is)) end) /\
    sub_ngram_indices ops pf v w
      = Ok (match qs with [] => None
            | _ => Some (combine (map sw_str qs) (map (map (fun i => lenN ws + i)) is)) end).
Proof. exact (@LookupFacts.sub_indices_exact). Qed.
Print Assumptions subword_indices_thm.
Theorem lookup_range_thm : forall I (ops : indexer_ops I) pf ws mn mx ix bow eow v, sub_new_with_boundaries ops pf ws mn mx ix bow eow = Ok v ->
  forall w,
  ~ range_ok mn mx -> ~ In w ws -> v_idx (sub_ops ops) pf v w = Panic PAssert.
Proof. exact (@LookupFacts.sub_lookup_range). Qed.
Print Assumptions lookup_range_thm.
Example unknown_word_ex : ix_made _ hash_ops ex_hash /\
  sub_new_with_boundaries hash_ops Debug ex_words 3 6 ex_hash default_bow default_eow = Ok ex_bucket /\
  range_ok 3 6 /\ utf8_valid ex_unknown = true /\ ~ In ex_unknown ex_words /\
  exists l, v_idx (sub_ops hash_ops) Debug ex_bucket ex_unknown = Ok (Some (Subwords l)) /\ lenN l = 6 /\
  v_idx (sub_ops hash_ops) Debug ex_bucket [] = Ok None.
Proof.
  split; [apply ex_hash_made|]. split; [vm_compute; reflexivity|]. split; [split; vm_compute; discriminate|].
  split; [reflexivity|]. split; [intros [H|[H|[]]]; discriminate|].
  eexists. split; [vm_compute; reflexivity|]. vm_compute. auto.
Qed.
Theorem lookup_range_refuted : exists v,
  sub_new_with_boundaries hash_ops Debug ex_words 0 6 ex_hash default_bow default_eow = Ok v /\
  v_idx (sub_ops hash_ops) Debug v ex_unknown = Panic PAssert.
Proof. eexists. split; [vm_compute; reflexivity|]. vm_compute. reflexivity. Qed.
Print Assumptions lookup_range_refuted.

(** ** C19: bounds *)
Theorem lookup_in_bounds_thm : forall pf v w,
  vocab_made pf v -> vocab_usable v -> utf8_valid w = true ->
  exists r n, v_idx wrap_ops pf v w = Ok r /\ v_vocab_len wrap_ops pf v = Ok n /\
  v_words_len wrap_ops v <= n /\
  match r with
  | None => True
  | Some (Word i) => i < v_words_len wrap_ops v
  | Some (Subwords l) => l <> [] /\ Forall (fun i => v_words_len wrap_ops v <= i < n) l
  end.
Proof. exact (@LookupFacts.lookup_in_bounds). Qed.
Print Assumptions lookup_in_bounds_thm.
Theorem vocab_len_thm : forall I (ops : indexer_ops I) pf ws mn mx ix bow eow v, sub_new_with_boundaries ops pf ws mn mx ix bow eow = Ok v ->
  exists b, ix_bound ops pf ix = Ok b /\ v_vocab_len (sub_ops ops) pf v = Ok (lenN ws + b).
Proof. exact (@LookupFacts.sub_vocab_len_exact). Qed.
Print Assumptions vocab_len_thm.
Example lookup_in_bounds_ex : vocab_made Debug (VBucket ex_bucket) /\ vocab_usable (VBucket ex_bucket) /\
  v_vocab_len wrap_ops Debug (VBucket ex_bucket) = Ok 2097154.
Proof.
  split; [apply ex_bucket_made|]. split; [|vm_compute; reflexivity].
  intros mn mx bow eow H. inv H. split; [split; vm_compute; discriminate|]. auto.
Qed.
(** 2^64 buckets: the reported length is the number of words. *)
Theorem lookup_bounds_refuted : exists ix v w l,
  hash_indexer_new 64 = Ok ix /\
  sub_new_with_boundaries hash_ops Release ex_words 3 6 ix default_bow default_eow = Ok v /\
  v_vocab_len (sub_ops hash_ops) Release v = Ok 2 /\
  v_idx (sub_ops hash_ops) Release v w = Ok (Some (Subwords l)) /\ Forall (fun i => 2 <= i) l.
Proof.
  do 2 eexists. exists ex_unknown. eexists. split; [vm_compute; reflexivity|]. split; [vm_compute; reflexivity|].
  split; [vm_compute; reflexivity|]. split; [vm_compute; reflexivity|]. repeat constructor; vm_compute; discriminate.
Qed.
Print Assumptions lookup_bounds_refuted.

(** ** C20: n-grams *)
Theorem ngrams_exact_thm : forall s mn mx,
  utf8_valid s = true -> range_ok mn mx ->
  exists items, ngrams_collect s mn mx = Ok items /\ ngrams_of s mn mx items.
Proof. exact (@SubwordFacts.ngrams_exact). Qed.
Print Assumptions ngrams_exact_thm.
Theorem ngrams_unique_thm : forall s mn mx l l',
  ngrams_of s mn mx l -> ngrams_of s mn mx l' -> l = l'.
Proof. exact (@SubwordFacts.ngrams_of_fun). Qed.
Print Assumptions ngrams_unique_thm.
Theorem ngrams_iterator_thm : forall s mn mx g,
  utf8_valid s = true -> ngrams_state s mn mx g ->
  (exists l, remaining g l) /\
  (forall g', ngrams_next g = Ok (None, g') -> exists g'', ngrams_next g' = Ok (None, g'')).
Proof. exact (@SubwordFacts.ngrams_iterator). Qed.
Print Assumptions ngrams_iterator_thm.
Theorem ngrams_range_thm : forall s mn mx,
  ~ range_ok mn mx -> ngrams_new s mn mx = Panic PAssert.
Proof. exact (@SubwordFacts.ngrams_new_panics). Qed.
Print Assumptions ngrams_range_thm.
Example ngrams_exact_ex : utf8_valid ex_unknown = true /\ range_ok 2 3 /\
  ngrams_collect ex_unknown 2 3 = Ok [mkSwcl [xc3; xab; x65; x6e] 3; mkSwcl [xc3; xab; x65] 2; mkSwcl [x65; x6e] 2].
Proof. split; [reflexivity|]. split; [split; vm_compute; discriminate|]. vm_compute. reflexivity. Qed.
Example ngrams_iterator_ex : exists g g', ngrams_new ex_unknown 4 4 = Ok g /\ ngrams_next g = Ok (None, g') /\
  ngrams_state ex_unknown 4 4 g'.
Proof.
  do 2 eexists. split; [vm_compute; reflexivity|]. split; [vm_compute; reflexivity|].
  eapply ns_next; [apply ns_new; vm_compute; reflexivity|]. vm_compute. reflexivity.
Qed.

(** ** C21: bucket bounds *)
(** Missing from the claim: 2^64 hash buckets and zero fastText buckets are
    accepted, see the refutations. *)
Theorem hash_bound_partial : forall exp ix pf g,
  hash_indexer_new exp = Ok ix -> exp <> 64 ->
  exists i, ix_index hash_ops ix g = Ok [i] /\ ix_bound hash_ops pf ix = Ok (2 ^ exp) /\ i < 2 ^ exp
  /\ i = fnv64 (swcl_hash_bytes g) mod 2 ^ exp.
Proof. exact (@IndexerFacts.hash_index_bound). Qed.
Print Assumptions hash_bound_partial.
Theorem fasttext_bound_partial : forall n ix pf g,
  ft_indexer_new n = Ok ix -> n <> 0 ->
  exists i, ix_index ft_ops ix g = Ok [i] /\ ix_bound ft_ops pf ix = Ok n /\ i < n
  /\ i = ft_hash (sw_str g) mod n.
Proof. exact (@IndexerFacts.ft_index_bound). Qed.
Print Assumptions fasttext_bound_partial.
Example hash_bound_ex : hash_indexer_new 21 = Ok ex_hash /\ exists n, hash_index ex_hash (swcl_new ex_unknown) = Ok [n] /\ n < 2 ^ 21.
Proof. split; [reflexivity|]. eexists. split; [vm_compute; reflexivity|]. vm_compute. reflexivity. Qed.
Theorem hash_bound_refuted : exists ix g i,
  hash_indexer_new 64 = Ok ix /\ ix_bound hash_ops Debug ix = Panic PArithOverflow /\
  ix_bound hash_ops Release ix = Ok 0 /\ ix_index hash_ops ix g = Ok [i] /\ 0 < i.
Proof.
  eexists. exists (swcl_new ex_unknown). eexists. split; [vm_compute; reflexivity|]. split; [vm_compute; reflexivity|].
  split; [vm_compute; reflexivity|]. split; [vm_compute; reflexivity|]. vm_compute. reflexivity.
Qed.
Print Assumptions hash_bound_refuted.
Theorem fasttext_zero_refuted : exists ix, ft_indexer_new 0 = Ok ix /\
  forall g, ix_index ft_ops ix g = Panic PDivByZero.
Proof. eexists. split; [reflexivity|]. intros g. reflexivity. Qed.
Print Assumptions fasttext_zero_refuted.

(** ** C22: fastText hash *)
Theorem fasttext_ascii_thm : forall s,
  Forall (fun b => bN b < 128) s -> ft_hash s = fnv1a32 s.
Proof. exact (@IndexerFacts.ft_ascii). Qed.
Print Assumptions fasttext_ascii_thm.
Theorem fasttext_signed_thm : forall s,
  Z.of_N (ft_hash s) = fasttext32 s.
Proof. exact (@IndexerFacts.ft_signed). Qed.
Print Assumptions fasttext_signed_thm.
Theorem fasttext_index_thm : forall n ix pf g,
  ft_indexer_new n = Ok ix -> n <> 0 ->
  exists i, ix_index ft_ops ix g = Ok [i] /\ ix_bound ft_ops pf ix = Ok n /\ i < n
  /\ i = ft_hash (sw_str g) mod n.
Proof. exact (@IndexerFacts.ft_index_bound). Qed.
Print Assumptions fasttext_index_thm.
Example fasttext_hash_ex : Forall (fun b => bN b < 128) [x3c; x61] /\
  ft_hash [x3c; x61] = fnv1a32 [x3c; x61] /\ ft_hash ex_unknown <> fnv1a32 ex_unknown /\
  Z.of_N (ft_hash ex_unknown) = fasttext32 ex_unknown.
Proof. split; [repeat constructor; reflexivity|]. split; [reflexivity|]. split; [vm_compute; discriminate|]. vm_compute. reflexivity. Qed.

(** ** C23: floret indexer *)
Theorem floret_index_thm : forall nb nh seed ix g,
  floret_indexer_new nb nh seed = Ok ix ->
  exists l, ix_index floret_ops ix g = Ok l /\ lenN l = nh /\ Forall (fun i => i < nb) l /\
  forall k, k < nh -> nthN l k = Some (murmur3_x64_128 (sw_str g) seed / 2 ^ (32 * k) mod 2 ^ 32 mod nb).
Proof. exact (@IndexerFacts.floret_index_exact). Qed.
Print Assumptions floret_index_thm.
(** The bracketed word itself is queried too. *)
Example floret_index_ex : floret_indexer_new 100 3 42 = Ok ex_floret_ix /\
  (exists l, floret_index ex_floret_ix (swcl_new ex_unknown) = Ok l /\ lenN l = 3) /\
  exists v l, sub_new_with_boundaries floret_ops Debug [] 3 3 ex_floret_ix [x3c] [x3e] = Ok v /\
    v_idx (sub_ops floret_ops) Debug v ex_unknown = Ok (Some (Subwords l)) /\ lenN l = 12.
Proof.
  split; [reflexivity|]. split; [eexists; split; [vm_compute; reflexivity|reflexivity]|].
  do 2 eexists. split; [vm_compute; reflexivity|]. split; [vm_compute; reflexivity|]. reflexivity.
Qed.

(** ** C24: explicit indexer *)
Theorem explicit_numbering_thm : forall tuples,
  (~ NoDup (map fst tuples) -> explicit_new_with_indices tuples = Panic PDuplicateNGrams) /\
  (NoDup (map fst tuples) -> exists ix o2n,
     explicit_new_with_indices tuples = Ok (ix, o2n) /\
     ei_ngrams ix = map fst tuples /\
     ei_bound ix = lenN (first_seen (map snd tuples)) /\
     (forall old new, nm_get o2n old = Some new <-> nthN (first_seen (map snd tuples)) new = Some old) /\
     (forall g, (exists b, In (g, b) tuples /\ forall new, nthN (first_seen (map snd tuples)) new = Some b ->
                   explicit_index ix (swcl_new g) = Ok [new])
                \/ (~ In g (map fst tuples) /\ explicit_index ix (swcl_new g) = Ok []))).
Proof. exact (@IndexerFacts.explicit_numbering). Qed.
Print Assumptions explicit_numbering_thm.
Theorem explicit_share_thm : forall (tuples : list (str * N)) g1 g2 b1 b2 n1 n2,
  In (g1, b1) tuples -> In (g2, b2) tuples ->
  nthN (first_seen (map snd tuples)) n1 = Some b1 -> nthN (first_seen (map snd tuples)) n2 = Some b2 ->
  (n1 = n2 <-> b1 = b2).
Proof. exact (@IndexerFacts.first_seen_share). Qed.
Print Assumptions explicit_share_thm.
Theorem explicit_new_thm : forall ngs,
  (~ NoDup ngs -> explicit_new ngs = Panic PDuplicateNGrams) /\
  (NoDup ngs -> exists ix, explicit_new ngs = Ok ix /\ ei_ngrams ix = ngs /\ ei_bound ix = lenN ngs /\
     forall g, (forall i, nthN ngs i = Some g -> explicit_index ix (swcl_new g) = Ok [i]) /\
               (~ In g ngs -> explicit_index ix (swcl_new g) = Ok [])).
Proof. exact (@IndexerFacts.explicit_new_exact). Qed.
Print Assumptions explicit_new_thm.
Example explicit_numbering_ex :
  let tuples := [([x61], 9); ([x62], 4); ([x63], 9); ([x64], 1)] in
  NoDup (map fst tuples) /\ first_seen (map snd tuples) = [9; 4; 1] /\
  exists ix o2n, explicit_new_with_indices tuples = Ok (ix, o2n) /\
  map (fun g => explicit_index ix (swcl_new g)) [[x61]; [x62]; [x63]; [x64]; [x65]]
  = [Ok [0]; Ok [1]; Ok [0]; Ok [2]; Ok []].
Proof.
  cbv zeta. split.
  - cbn. repeat constructor; cbn; intuition discriminate.
  - split; [reflexivity|]. do 2 eexists. split; [vm_compute; reflexivity|]. vm_compute. reflexivity.
Qed.

(** ** C25: size hints *)
(** Missing from the claim: the lower bound and the floret iterator, see the
    refutations. *)
Theorem size_hint_upper_partial : forall pf s mn mx g lo hi l,
  utf8_valid s = true -> ngrams_state s mn mx g ->
  (mx - mn + 1) * lenN s < two64 ->
  ngrams_size_hint pf g = Ok (lo, hi) -> remaining g l ->
  exists h, hi = Some h /\ lenN l <= h.
Proof. exact (@SubwordFacts.ngrams_hint_upper). Qed.
Print Assumptions size_hint_upper_partial.
Example size_hint_ex : exists g l, ngrams_new ex_unknown 2 3 = Ok g /\ ngrams_state ex_unknown 2 3 g /\
  ngrams_drain 10 g = Ok l /\ lenN l = 3 /\ ngrams_size_hint Debug g = Ok (6, Some 6).
Proof.
  do 2 eexists. split; [vm_compute; reflexivity|]. split; [apply ns_new; vm_compute; reflexivity|].
  split; [vm_compute; reflexivity|]. split; [reflexivity|]. vm_compute. reflexivity.
Qed.
Theorem size_hint_lower_refuted : exists g lo hi,
  ngrams_state ex_unknown 2 3 g /\ ngrams_size_hint Debug g = Ok (lo, hi) /\
  exists l, remaining g l /\ lenN l < lo.
Proof.
  do 3 eexists. split; [apply ns_new; vm_compute; reflexivity|]. split; [vm_compute; reflexivity|].
  eexists. split; [apply (LookupFacts.drain_remaining 10); vm_compute; reflexivity|]. vm_compute. reflexivity.
Qed.
Print Assumptions size_hint_lower_refuted.
(** The iterator over n-grams and indices can yield one item more. *)
Theorem size_hint_floret_refuted : exists it lo hi l,
  ngi_new floret_ops [x61] 1 1 ex_floret_ix = Ok it /\ ngi_size_hint Debug it = Ok (lo, Some hi) /\
  ngi_drain floret_ops 10 it = Ok l /\ hi < lenN l.
Proof.
  do 4 eexists. split; [vm_compute; reflexivity|]. split; [vm_compute; reflexivity|]. split; [vm_compute; reflexivity|].
  vm_compute. reflexivity.
Qed.
Print Assumptions size_hint_floret_refuted.
(** A huge maximum overflows the computation of the hint. *)
Theorem size_hint_overflow_refuted : exists g, ngrams_new ex_unknown 1 (two64 - 1) = Ok g /\
  ngrams_size_hint Debug g = Panic PArithOverflow.
Proof. eexists. split; [vm_compute; reflexivity|]. vm_compute. reflexivity. Qed.
Print Assumptions size_hint_overflow_refuted.

(** ** C73: exactly when lookups panic *)
Theorem lookup_panics_thm : forall pf v w,
  vocab_accepted pf v -> bounds_utf8 v -> utf8_valid w = true ->
  (forall p, v_idx wrap_ops pf v w = Panic p <-> ~ In w (v_words wrap_ops v) /\ subwords_panic v w p) /\
  (forall e, v_idx wrap_ops pf v w <> Err e) /\
  (forall r, subword_indices_of pf v w = Some r ->
     (forall p, r = Panic p <-> subwords_panic v w p) /\ (forall e, r <> Err e)) /\
  (forall r, ngram_indices_of pf v w = Some r ->
     (forall p, r = Panic p <-> subwords_panic v w p) /\ (forall e, r <> Err e)).
Proof. exact (@LookupExact.lookup_panics). Qed.
Print Assumptions lookup_panics_thm.
(** A vocabulary with usable lengths, one with a minimum of zero, one without
    buckets: the last two panic for the unknown word only, and the one
    without buckets does not panic for strings that are too short. *)
Definition ex_bad_range : vocab_wrap :=
  VBucket (mkSub default_bow default_eow ex_hash (create_indices ex_words) ex_words 0 6).
Definition ex_no_buckets : vocab_wrap :=
  VFastText (mkSub default_bow default_eow (mkFtIx 0) (create_indices ex_words) ex_words 3 6).
Example lookup_panics_ex :
  vocab_accepted Debug ex_bad_range /\ bounds_utf8 ex_bad_range /\ utf8_valid ex_unknown = true /\
  vocab_accepted Debug ex_no_buckets /\ bounds_utf8 ex_no_buckets /\
  map (v_idx wrap_ops Debug ex_bad_range) [[x65; x65; x6e]; ex_unknown; []]
  = [Ok (Some (Word 0)); Panic PAssert; Panic PAssert] /\
  map (v_idx wrap_ops Debug ex_no_buckets) [[x65; x65; x6e]; ex_unknown; []]
  = [Ok (Some (Word 0)); Panic PDivByZero; Ok None].
Proof.
  split; [apply (va_bucket Debug 21 ex_words 0 6 ex_hash default_bow default_eow); vm_compute; reflexivity|].
  split; [intros mn mx bow eow H; inv H; auto|]. split; [reflexivity|].
  split; [apply (va_fasttext Debug 0 ex_words 3 6 (mkFtIx 0) default_bow default_eow); vm_compute; reflexivity|].
  split; [intros mn mx bow eow H; inv H; auto|]. split; vm_compute; reflexivity.
Qed.

(** ** C75: all bucket counts *)
Theorem hash_counts_thm : forall exp,
  (64 < exp -> hash_indexer_new exp = Panic PAssert) /\
  (exp <= 64 -> exists ix, hash_indexer_new exp = Ok ix /\
     (forall g, ix_index hash_ops ix g = Ok [fnv64 (swcl_hash_bytes g) mod 2 ^ exp]) /\
     (exp < 64 -> forall pf, ix_bound hash_ops pf ix = Ok (2 ^ exp)) /\
     (exp = 64 -> ix_bound hash_ops Debug ix = Panic PArithOverflow /\ ix_bound hash_ops Release ix = Ok 0)).
Proof. exact (@LookupExact.hash_counts). Qed.
Print Assumptions hash_counts_thm.
Theorem fasttext_counts_thm : forall n,
  (2 ^ 31 <= n -> ft_indexer_new n = Panic PAssert) /\
  (n < 2 ^ 31 -> exists ix, ft_indexer_new n = Ok ix /\ (forall pf, ix_bound ft_ops pf ix = Ok n) /\
     (n = 0 -> forall g, ix_index ft_ops ix g = Panic PDivByZero) /\
     (n <> 0 -> forall g, ix_index ft_ops ix g = Ok [ft_hash (sw_str g) mod n])).
Proof. exact (@LookupExact.ft_counts). Qed.
Print Assumptions fasttext_counts_thm.
Theorem floret_counts_thm : forall nb nh seed,
  (nb = 0 \/ nh = 0 \/ 4 < nh -> floret_indexer_new nb nh seed = Panic PAssert) /\
  (nb <> 0 -> 0 < nh <= 4 -> exists ix, floret_indexer_new nb nh seed = Ok ix /\
     (forall pf, ix_bound floret_ops pf ix = Ok nb) /\
     (forall g, exists l, ix_index floret_ops ix g = Ok l /\ lenN l = nh /\
        forall k, k < nh -> nthN l k = Some (murmur3_x64_128 (sw_str g) seed / 2 ^ (32 * k) mod 2 ^ 32 mod nb))).
Proof. exact (@LookupExact.floret_counts). Qed.
Print Assumptions floret_counts_thm.
Example counts_ex : hash_indexer_new 65 = Panic PAssert /\ hash_indexer_new 64 = Ok (mkHashIx 64 (two64 - 1)) /\
  ft_indexer_new 2147483647 = Ok (mkFtIx 2147483647) /\ ft_indexer_new 2147483648 = Panic PAssert /\
  floret_indexer_new 100 3 42 = Ok ex_floret_ix /\ floret_indexer_new 100 5 42 = Panic PAssert.
Proof. repeat split; vm_compute; reflexivity. Qed.

(** ** C76: size hints of new iterators *)
Theorem size_hint_exact_thm : forall pf cs mn mx g l,
  forallb scalarb cs = true -> mx < two64 ->
  ngrams_new (utf8_encode cs) mn mx = Ok g -> remaining g l ->
  lenN l <= (mx - mn + 1) * lenN cs /\
  (lenN l = (mx - mn + 1) * lenN cs <-> cs = [] \/ mx = 1) /\
  ngrams_size_hint pf g =
    (if (mx - mn + 1) * lenN cs <? two64 then Ok ((mx - mn + 1) * lenN cs, Some ((mx - mn + 1) * lenN cs))
     else match pf with
          | Debug => Panic PArithOverflow
          | Release => Ok ((mx - mn + 1) * lenN cs mod two64, Some ((mx - mn + 1) * lenN cs mod two64))
          end).
Proof. exact (@LookupExact.hint_exact). Qed.
Print Assumptions size_hint_exact_thm.
Example size_hint_exact_ex : exists g l, ngrams_new (utf8_encode [235; 101; 110]) 1 2 = Ok g /\ remaining g l /\
  lenN l = 5 /\ ngrams_size_hint Debug g = Ok (6, Some 6).
Proof.
  do 2 eexists. split; [vm_compute; reflexivity|].
  split; [apply (LookupFacts.drain_remaining 10); vm_compute; reflexivity|]. split; vm_compute; reflexivity.
Qed.

(** ** C91: published hash functions *)
Theorem hash_published_thm : forall exp ix cs bs h,
  hash_indexer_new exp = Ok ix -> forallb scalarb cs = true ->
  hash_input cs bs -> fnv1a64 bs h -> ix_index hash_ops ix (mkSwcl (utf8_encode cs) (lenN cs)) = Ok [h mod 2 ^ exp].
Proof. exact (@HashThms.hash_published). Qed.
Print Assumptions hash_published_thm.
Theorem hash_published_exists_thm : forall cs,
  forallb scalarb cs = true -> lenN cs < 2 ^ 64 -> exists bs h, hash_input cs bs /\ fnv1a64 bs h.
Proof. exact (@HashThms.hash_published_exists). Qed.
Print Assumptions hash_published_exists_thm.
Theorem hash_input_unique_thm : forall cs bs bs',
  hash_input cs bs -> hash_input cs bs' -> bs = bs'.
Proof. exact (@HashThms.hash_input_unique). Qed.
Print Assumptions hash_input_unique_thm.
Theorem hash_input_injective_thm : forall cs cs' bs,
  hash_input cs bs -> hash_input cs' bs -> cs = cs'.
Proof. exact (@HashThms.hash_input_inj). Qed.
Print Assumptions hash_input_injective_thm.
Theorem fnv_unique_thm : forall bs h h',
  fnv1a64 bs h -> fnv1a64 bs h' -> h = h'.
Proof. exact (@HashThms.fnv_unique). Qed.
Print Assumptions fnv_unique_thm.
Theorem floret_published_thm : forall nb nh seed ix g lo hi,
  floret_indexer_new nb nh seed = Ok ix -> seed < 2 ^ 32 -> lenN (sw_str g) < 2 ^ 64 ->
  murmur3 seed (sw_str g) lo hi ->
  ix_index floret_ops ix g = Ok (map (fun x => x mod nb) (firstn (N.to_nat nh) [lo mod 2 ^ 32; lo / 2 ^ 32; hi mod 2 ^ 32; hi / 2 ^ 32])).
Proof. exact (@HashThms.floret_published). Qed.
Print Assumptions floret_published_thm.
Theorem floret_published_exists_thm : forall seed bs,
  seed < 2 ^ 32 -> lenN bs < 2 ^ 64 -> exists lo hi, murmur3 seed bs lo hi.
Proof. exact (@HashThms.floret_published_exists). Qed.
Print Assumptions floret_published_exists_thm.
Theorem murmur_unique_thm : forall seed bs lo hi lo' hi',
  seed < 2 ^ 32 -> lenN bs < 2 ^ 64 -> murmur3 seed bs lo hi -> murmur3 seed bs lo' hi' -> lo = lo' /\ hi = hi'.
Proof. exact (@HashThms.murmur_unique). Qed.
Print Assumptions murmur_unique_thm.

(** The published values for "a" (FNV-1a) and "hello" (MurmurHash3); the
    input of the hash of the n-gram "ën". *)
Example published_ex : fnv1a64 [] 0xcbf29ce484222325 /\ fnv1a64 [x61] 0xaf63dc4c8601ec8c /\
  (exists bs, hash_input [235; 110] bs /\ bs = [x02; x00; x00; x00; x00; x00; x00; x00; xeb; x00; x00; x00; x6e; x00; x00; x00]) /\
  hash_indexer_new 21 = Ok ex_hash /\ forallb scalarb [235; 110] = true /\
  murmur3 0 [x68; x65; x6c; x6c; x6f] 0xcbd8a7b341bd9b02 0x5b1e906a48ae1d19 /\
  (exists lo hi, murmur3 42 (utf8_encode [235; 101; 110]) lo hi) /\ floret_indexer_new 100 3 42 = Ok ex_floret_ix.
Proof.
  split; [constructor|]. split.
  { assert (0xaf63dc4c8601ec8c = fnv64 [x61]) as -> by (vm_compute; reflexivity). apply HashThms.fnv64_is. }
  split; [eexists; split; [apply HashThms.hash_input_is; vm_compute; reflexivity|vm_compute; reflexivity]|].
  split; [vm_compute; reflexivity|]. split; [reflexivity|]. split.
  { apply (HashThms.murmur_exists 0 [x68; x65; x6c; x6c; x6f]); vm_compute; reflexivity. }
  split; [apply HashThms.floret_published_exists; vm_compute; reflexivity|vm_compute; reflexivity].
Qed.

(** ** C93: equality of vocabularies *)
Theorem vocab_equality_thm : forall pf pf' a b,
  vocab_accepted pf a -> vocab_accepted pf' b ->
  (wrap_eq a b = true <-> same_vocab a b).
Proof. exact (@EqualityThms.vocab_equality). Qed.
Print Assumptions vocab_equality_thm.
Theorem vocab_equal_same_thm : forall pf pf' a b,
  vocab_accepted pf a -> vocab_accepted pf' b -> wrap_eq a b = true ->
  (forall p w, v_idx wrap_ops p a w = v_idx wrap_ops p b w) /\
  (forall p w, subword_indices_of p a w = subword_indices_of p b w) /\
  (forall p, v_vocab_len wrap_ops p a = v_vocab_len wrap_ops p b) /\
  v_words_len wrap_ops a = v_words_len wrap_ops b /\
  (forall pos, run_writer (write_vocab_wrap a) pos = run_writer (write_vocab_wrap b) pos).
Proof. exact (@EqualityThms.vocab_equal_same). Qed.
Print Assumptions vocab_equal_same_thm.
Theorem vocab_equal_refl_thm : forall pf a,
  vocab_accepted pf a -> wrap_eq a a = true.
Proof. exact (@EqualityThms.vocab_equal_refl). Qed.
Print Assumptions vocab_equal_refl_thm.
(** The profile that built a vocabulary is not part of it; another number of
    buckets, another order of the words and another boundary are. *)
Example vocab_equality_ex :
  let bucket pf ws exp bow := let* ix := hash_indexer_new exp in
    let* v := sub_new_with_boundaries hash_ops pf ws 3 6 ix bow default_eow in Ok (VBucket v) in
  let eq a b := let* a := a in let* b := b in Ok (wrap_eq a b) in
  bucket Debug ex_words 21 default_bow = Ok (VBucket ex_bucket) /\ vocab_accepted Debug (VBucket ex_bucket) /\
  eq (bucket Debug ex_words 21 default_bow) (bucket Release ex_words 21 default_bow) = Ok true /\
  eq (bucket Debug ex_words 21 default_bow) (bucket Debug ex_words 20 default_bow) = Ok false /\
  eq (bucket Debug ex_words 21 default_bow) (bucket Debug (rev ex_words) 21 default_bow) = Ok false /\
  eq (bucket Debug ex_words 21 default_bow) (bucket Debug ex_words 21 default_eow) = Ok false /\
  explicit_eq (mkExIx [[x61]; [x62]] [([x61], 0); ([x62], 1)] 2) (mkExIx [[x61]; [x62]] [([x62], 1); ([x61], 0)] 2) = true /\
  explicit_eq (mkExIx [[x61]; [x62]] [([x61], 0); ([x62], 1)] 2) (mkExIx [[x61]; [x62]] [([x61], 0); ([x62], 0)] 2) = false.
Proof.
  split; [vm_compute; reflexivity|]. split.
  - apply (va_bucket Debug 21 ex_words 3 6 ex_hash default_bow default_eow); vm_compute; reflexivity.
  - vm_compute. repeat split.
Qed.

(** ** C94: infallible indexers *)
Theorem infallible_exact_thm : (forall exp ix, hash_indexer_new exp = Ok ix ->
     (hash_infallible = true <-> forall g, exists i l, hash_index ix g = Ok (i :: l))) /\
  (forall n ix, n <> 0 -> ft_indexer_new n = Ok ix ->
     (ft_infallible = true <-> forall g, exists i l, ft_index ix g = Ok (i :: l))) /\
  (forall nb nh seed ix, floret_indexer_new nb nh seed = Ok ix ->
     (floret_infallible = true <-> forall g, exists i l, floret_index ix g = Ok (i :: l))) /\
  (forall ix, explicit_built ix ->
     (explicit_infallible = true <->
      forall g, utf8_valid g = true -> exists i l, explicit_index ix (swcl_new g) = Ok (i :: l))).
Proof. exact (@EqualityThms.infallible_exact). Qed.
Print Assumptions infallible_exact_thm.
Example infallible_ex :
  (exists ix, hash_indexer_new 64 = Ok ix) /\ (exists ix, ft_indexer_new 3 = Ok ix /\ ft_index ix (swcl_new [x61]) = Ok [1]) /\
  floret_indexer_new 100 3 42 = Ok ex_floret_ix /\
  (exists ix, explicit_new [[x61]] = Ok ix /\ explicit_index ix (swcl_new [x61]) = Ok [0] /\ explicit_index ix (swcl_new [x62]) = Ok []).
Proof. split; [|split; [|split]]; try eexists; vm_compute; repeat split. Qed.
