(** * Conformance on the project's unit tests without data files

    The tests of /repo/src not replayed in [Conformance] and [ConformanceData]:
    evidence that the model describes the code, not part of any proof.  As in
    [ConformanceData], [check] computes each test while the file is compiled.
    The test of the angular similarity needs [acos] and is left out. *)
From Coq Require Import Strings.String Strings.Byte.
From Verif Require Import Base Utf8 Stream F32 ChunkIO Subword Vocab Storage Embeddings Similarity TextIO FastText F32Text FastTextMeta.
Local Open Scope N_scope.

Ltac check t := let x := eval vm_compute in t in match x with true => exact I end.
Definition s (x : string) : str := list_byte_of_string x.
Definition ok {A} (r : res A) (f : A -> bool) : bool := match r with Ok a => f a | _ => false end.
Definition run {A} (m : reader A) (bs : list byte) : res A := fst (m (mkStream bs 0)).
(** The reader, starting at an offset, stops at the end. *)
Definition run_at {A} (m : reader A) (offset : N) (bs : list byte) (f : A -> bool) : bool :=
  match m (mkStream bs offset) with
  | (Ok a, st) => f a && (s_pos st =? offset + lenN bs)
  | _ => false
  end.
Fixpoint list_eqb {A B} (eqb : A -> B -> bool) (l1 : list A) (l2 : list B) : bool :=
  match l1, l2 with
  | [], [] => true
  | a :: l1', b :: l2' => eqb a b && list_eqb eqb l1' l2'
  | _, _ => false
  end.
Definition f32_same (a b : f32) : bool := f32_bits a =? f32_bits b.
Definition f32_abs (x : f32) : f32 := f32_of_bits (f32_bits x mod 2147483648).
(** [abs_diff_eq]: [|a - b| <= eps]. *)
Definition close (eps a b : f32) : bool :=
  match f32_cmp (f32_abs (f32_sub a b)) eps with Some Gt | None => false | _ => true end.
(** [n] millionths. *)
Definition millionths (n : N) : f32 := f32_div (f32_of_N n) (f32_of_N 1000000).

(** ** /repo/src/compat/floret/io.rs 147-256 *)
Definition floret_embeds_small_text : str := s
"10 10 2 3 2 2166136261 < >
0 -2.2611 3.9302 2.6676 -11.233 0.093715 -10.52 -9.6463 -0.11853 2.101 -0.10145
1 -3.12 -1.7981 10.7 -6.171 4.4527 10.967 9.073 6.2056 -6.1199 -2.0402
2 9.5689 5.6721 -8.4832 -1.2249 2.1871 -3.0264 -2.391 -5.3308 -3.2847 -4.0382
3 3.6268 4.2759 -1.7007 1.5002 5.5266 1.8716 -12.063 0.26314 2.7645 2.4929
4 -11.683 -7.7068 2.1102 2.214 7.2202 0.69799 3.2173 -5.382 -2.0838 5.0314
5 -4.3024 8.0241 2.0714 -1.0174 -0.28369 1.7622 7.8797 -1.7795 6.7541 5.6703
6 8.3574 -5.225 8.6529 8.5605 -8.9465 3.767 -5.4636 -1.4635 -0.98947 -0.58025
7 -10.01 3.3894 -4.4487 1.1669 -11.904 6.5158 4.3681 0.79913 -6.9131 -8.687
8 -5.4576 7.1019 -8.8259 1.7189 4.955 -8.9157 -3.8905 -0.60086 -2.1233 5.892
9 8.0678 -4.4142 3.6236 4.5889 -2.7611 2.4455 0.67096 -4.2822 2.0875 4.6274
".
Definition floret_embeds_square_brackets : str := s
"10 10 2 3 2 2166136261 [ ]
0 -2.2611 3.9302 2.6676 -11.233 0.093715 -10.52 -9.6463 -0.11853 2.101 -0.10145
1 -3.12 -1.7981 10.7 -6.171 4.4527 10.967 9.073 6.2056 -6.1199 -2.0402
2 9.5689 5.6721 -8.4832 -1.2249 2.1871 -3.0264 -2.391 -5.3308 -3.2847 -4.0382
3 3.6268 4.2759 -1.7007 1.5002 5.5266 1.8716 -12.063 0.26314 2.7645 2.4929
4 -11.683 -7.7068 2.1102 2.214 7.2202 0.69799 3.2173 -5.382 -2.0838 5.0314
5 -4.3024 8.0241 2.0714 -1.0174 -0.28369 1.7622 7.8797 -1.7795 6.7541 5.6703
6 8.3574 -5.225 8.6529 8.5605 -8.9465 3.767 -5.4636 -1.4635 -0.98947 -0.58025
7 -10.01 3.3894 -4.4487 1.1669 -11.904 6.5158 4.3681 0.79913 -6.9131 -8.687
8 -5.4576 7.1019 -8.8259 1.7189 4.955 -8.9157 -3.8905 -0.60086 -2.1233 5.892
9 8.0678 -4.4142 3.6236 4.5889 -2.7611 2.4455 0.67096 -4.2822 2.0875 4.6274".
Definition check_embeds : str := s
"10 10
, -5.7814 2.6918 0.57029 -3.6985 -2.7079 1.4406 1.0084 1.7463 -3.8625 -3.0565
. 3.8016 -1.759 0.59118 3.3044 -0.72975 0.45221 -2.1412 -3.8933 -2.1238 -0.47409
der 0.08224 2.6601 -1.173 1.1549 -0.42821 -0.097268 -2.5589 -1.609 -0.16968 0.84687
die -2.8781 0.082576 1.9286 -0.33279 0.79488 3.36 3.5609 -0.64328 -2.4152 0.17266
und 2.1558 1.8606 -1.382 0.45424 -0.65889 1.2706 0.5929 -2.0592 -2.6949 -1.6015
"" -1.1242 1.4588 -1.6263 1.0382 -2.7609 -0.99794 -0.83478 -1.5711 -1.2137 1.0239
in -0.87635 2.0958 4.0018 -2.2473 -1.2429 2.3474 1.8846 0.46521 -0.506 -0.26653
von -0.10589 1.196 1.1143 -0.40907 -1.0848 -0.054756 -2.5016 -1.0381 -0.41598 0.36982
( 0.59263 2.1856 0.67346 1.0769 1.0701 1.2151 1.718 -3.0441 2.7291 3.719
) 0.13812 3.3267 1.657 0.34729 -3.5459 0.72372 0.63034 -1.6145 1.2733 0.37798".
Definition check_embeds_square_brackets : str := s
"10 10
, 1.3844874 2.3464875 1.2599748 -0.6150249 -2.7724452 -0.79785013 -4.0532503 -1.1515112 0.19298255 -0.7406751
. 5.3217626 2.0444875 -2.7715 2.684125 -0.52285004 -2.1163874 -3.1512802 -3.050415 -1.7490175 0.39203754
der -0.30920622 3.038363 -0.68778753 -0.563806 1.5502453 -0.06880643 -1.2151338 -0.047910027 -1.5533295 0.95536256
die -2.2371624 0.43071893 1.4706686 -0.67453104 1.2487259 2.3045924 0.17036629 0.23663676 -2.5797918 0.075331196
und 0.24818125 2.7903755 0.3526249 0.09495008 -2.0179207 0.23948678 -0.71544373 -1.95366 0.3281494 -0.07667194
"" -2.6215875 3.4702003 -0.0053626 -3.4728873 2.9032319 -4.2840385 -5.7323003 -0.9489587 1.7973748 2.659394
in 1.3580999 2.151925 0.028333127 -1.8494834 1.0040858 0.08962494 -2.3529234 -0.5272758 -1.1616334 -0.076175064
von -1.6226685 -0.16304988 2.0203125 -0.8460312 -0.5596545 2.6361988 -0.19833624 -0.30120564 -2.102173 -0.793722
( -5.6849623 -0.17611253 -1.6755875 2.0539 -4.991875 3.5249727 2.00655 -1.7952224 -4.5117707 -3.6629562
) -3.4659 3.5374627 -2.0717626 0.44365007 -1.2155627 3.4016874 -2.2377748 1.0989438 -2.586125 -1.8413126".
Notation femb := (embeddings unit (subword_vocab floret_indexer) (array2 f32) f32).
Notation wemb := (embeddings unit simple_vocab (array2 f32) f32).
Definition same_embeddings (floret text : str) : bool :=
  ok (run (A := femb) (read_floret_text rust_ftext Debug) floret) (fun e =>
  ok (run (A := wemb) (read_text_dims rust_ftext Debug false) text) (fun c =>
    list_eqb (fun w r =>
      ok (emb_embedding f32_ops (sub_ops floret_ops) (nd_ops f32) Debug e w) (fun v =>
        match v with Some v => list_eqb (close (millionths 100)) v r | None => false end))
      (v_words simple_ops (em_vocab c)) (a2_rows (em_storage c)) && (a2_nrows (em_storage c) =? 10))).
Definition test_floret_against_known : bool := same_embeddings floret_embeds_small_text check_embeds.
Goal True. check test_floret_against_known. Qed.
Definition test_floret_non_standard_brackets : bool := same_embeddings floret_embeds_square_brackets check_embeds_square_brackets.
Goal True. check test_floret_non_standard_brackets. Qed.
Definition test_floret_read_write_roundtrip : bool :=
  ok (run (A := femb) (read_floret_text rust_ftext Debug) floret_embeds_small_text) (fun e =>
  ok (run_writer (write_floret_text rust_ftext Debug e) 0) (list_eqb byte_eqb floret_embeds_small_text)).
Goal True. check test_floret_read_write_roundtrip. Qed.

(** ** /repo/src/chunks/vocab/subword.rs 770-899 and simple.rs 128-155 *)
Definition words : list str := map s ["this"; "is"; "a"; "test"]%string.
Definition test_simple_vocab : res vocab_wrap := let* v := simple_new words in Ok (VSimple v).
Definition test_fasttext_subword_vocab : res vocab_wrap :=
  let* ix := ft_indexer_new 20 in let* v := sub_new ft_ops Debug words 3 6 ix in Ok (VFastText v).
Definition test_floret_subword_vocab : res vocab_wrap :=
  let* ix := floret_indexer_new 65535 3 42 in
  let* v := sub_new_with_boundaries floret_ops Debug [] 3 6 ix (s "[") (s "]") in Ok (VFloret v).
Definition hash_vocab : res (subword_vocab hash_indexer) :=
  let* ix := hash_indexer_new 20 in sub_new hash_ops Debug words 3 6 ix.
Definition test_subword_vocab : res vocab_wrap := let* v := hash_vocab in Ok (VBucket v).
Definition ngram_vocab : res (subword_vocab explicit_indexer) :=
  let* r := explicit_new_with_indices [(s "is>", 0); (s "is", 1); (s "<t", 2)] in
  sub_new explicit_ops Debug words 2 3 (fst r).
Definition test_ngram_vocab : res vocab_wrap := let* v := ngram_vocab in Ok (VExplicit v).
(** [test_vocab_chunk_len], and reading what was written gives a vocabulary
    that is written in the same way. *)
Definition embedded_size (bs : list byte) : N := le_value (takeN 8 (dropN 4 bs)).
Definition chunk_ok_at {A} (offsets : list N) (write : A -> writer unit) (len : A -> N -> N) (read : reader A) (a : A) : bool :=
  forallb (fun offset =>
    ok (run_writer (write a) offset) (fun out =>
      (lenN out =? len a offset) && (lenN out - 12 =? embedded_size out) && negb (lenN out =? 0) &&
      run_at read offset out (fun a' => ok (run_writer (write a') offset) (list_eqb byte_eqb out))))
    offsets.
Definition chunk_ok {A} := @chunk_ok_at A (rangeN 16).
Definition vocab_ok (r : res vocab_wrap) : bool :=
  ok r (chunk_ok write_vocab_wrap vocab_wrap_chunk_len (read_vocab_wrap Debug)).
Definition vocab_chunks : bool :=
  vocab_ok test_simple_vocab && vocab_ok test_fasttext_subword_vocab && vocab_ok test_floret_subword_vocab
  && vocab_ok test_subword_vocab && vocab_ok test_ngram_vocab.
Goal True. check vocab_chunks. Qed.
Definition is_none {A} (r : res (option A)) : bool := match r with Ok None => true | _ => false end.
Definition bucket_vocabs_no_indices_are_none : bool :=
  ok hash_vocab (fun v => is_none (sub_idx hash_ops Debug v [])) && ok ngram_vocab (fun v => is_none (sub_idx explicit_ops Debug v [])).
Goal True. check bucket_vocabs_no_indices_are_none. Qed.
Definition one_index (r : res (list N)) (f : N -> bool) : bool := match r with Ok [i] => f i | _ => false end.
Definition test_conversion : bool :=
  ok (hash_indexer_new 21) (fun ix =>
  ok (sub_new hash_ops Debug (map s ["groß"; "allerdings"]%string) 3 6 ix) (fun v =>
  ok (sub_to_explicit hash_bucket_ops Debug (fun m => m) v) (fun '(x, _) =>
    let same {I} (index : I -> swcl -> res (list N)) (ix : I) :=
      one_index (index ix (swcl_new (s "dings"))) (fun i => one_index (index ix (swcl_new (s "<gro"))) (N.eqb i)) in
    same explicit_index (sv_ix x) && same hash_index (sv_ix v) &&
    ok (sub_vocab_len explicit_ops Debug x) (fun n => n =? sub_words_len x + 43) &&
    ok (ix_bound explicit_ops Debug (sv_ix x)) (N.eqb 43)))).
Goal True. check test_conversion. Qed.

(** ** /repo/src/chunks/norms.rs 158-203, metadata.rs 148-193, io.rs 274-294 *)
Definition ndnorms : bool :=
  chunk_ok write_norms norms_chunk_len read_norms (map f32_of_N (rangeN 100)).
Goal True. check ndnorms. Qed.
Definition raw_toml : toml_ops := mkToml str (fun t => t) Some.
Definition test_metadata : str := s
"[description]
description = ""Test model""
language = ""de""

[hyperparameters]
dims = 300
ns = 5
".
Definition metadata : bool :=
  chunk_ok (write_metadata raw_toml) (metadata_chunk_len raw_toml) (read_metadata_chunk raw_toml) test_metadata.
Goal True. check metadata. Qed.
Definition header_test : bool :=
  ok (run_writer (write_header [CSimpleVocab; CNdArray]) 0) (fun out =>
    (lenN out =? header_chunk_len [CSimpleVocab; CNdArray] 0) &&
    run_at read_header 0 out (list_eqb chunk_eqb [CSimpleVocab; CNdArray])).
Goal True. check header_test. Qed.

(** ** /repo/src/chunks/storage/array.rs 390-460 *)
Definition test_ndarray : array2 f32 := mkA2 100 (map (fun r => map (fun c => f32_of_N (r * 100 + c)) (rangeN 100)) (rangeN 100)).
(** Two of the sixteen offsets, for the compilation time. *)
Definition ndarray_chunks : bool :=
  chunk_ok_at [0; 5] write_ndarray nd_chunk_len read_ndarray test_ndarray.
Goal True. check ndarray_chunks. Qed.
Definition expected {S} (SO : storage_ops f32 S) (a : S) : bool :=
  ok (st_embeddings SO a [0; 50; 99; 0]) (fun m =>
    list_eqb (fun r i => ok (st_embedding SO a i) (list_eqb f32_same r) && list_eqb f32_same r (map (fun c => f32_of_N (i * 100 + c)) (rangeN 100)))
      (a2_rows m) [0; 50; 99; 0]).
Definition embeddings_returns_expected_embeddings : bool :=
  expected (nd_ops f32) test_ndarray &&
  ok (run_writer (write_ndarray test_ndarray) 0) (fun out => ok (run (mmap_ndarray Debug) out) (expected mma_ops)).
Goal True. check embeddings_returns_expected_embeddings. Qed.

(** ** /repo/src/similarity.rs 503-557; FRAC_1_SQRT_2 is 0.707106781 *)
Definition minus (x : f32) : f32 := f32_sub (f32_of_N 0) x.
Definition frac_1_sqrt_2 : f32 := f32_div (f32_of_N 707106781) (f32_of_N 1000000000).
Definition at_cosine (f : wsr f32 -> f32) (x y : f32) : bool := close (millionths 10) (f (mkWsr x (s "test"))) y.
Definition cosine_to_euclidean_distance : bool :=
  at_cosine (euclidean_distance f32_ops) (f32_of_N 1) (f32_of_N 0) &&
  at_cosine (euclidean_distance f32_ops) frac_1_sqrt_2 (millionths 765370) &&
  at_cosine (euclidean_distance f32_ops) (f32_of_N 0) (f32_sqrt (f32_of_N 2)) &&
  at_cosine (euclidean_distance f32_ops) (minus (f32_of_N 1)) (f32_of_N 2).
Goal True. check cosine_to_euclidean_distance. Qed.
Definition cosine_to_euclidean_similarity : bool :=
  at_cosine (euclidean_similarity f32_ops) (f32_of_N 1) (f32_of_N 1) &&
  at_cosine (euclidean_similarity f32_ops) frac_1_sqrt_2 (millionths 617320) &&
  at_cosine (euclidean_similarity f32_ops) (f32_of_N 0) (f32_sub (f32_of_N 1) (f32_div (f32_of_N 1) (f32_sqrt (f32_of_N 2)))) &&
  at_cosine (euclidean_similarity f32_ops) (minus (f32_of_N 1)) (f32_of_N 0).
Goal True. check cosine_to_euclidean_similarity. Qed.
