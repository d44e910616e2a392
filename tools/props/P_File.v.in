(** * Theorems about files (C01-C16, C51-C53, C69-C72). *)
From Verif Require Import Base BaseFacts Utf8 Stream StreamFacts F32 ChunkIO Subword Vocab Storage
  Embeddings FileSpec Grammar FileExactSpec VocabFacts.
From Verif Require FileExact FileThms PanicFacts ReadFacts.
Local Open Scope N_scope.

(** ** Concrete values for the examples *)

(** A toml library with two documents. *)
Definition ex_doc (b : bool) : str :=
  if b then [x78; x20; x3d; x20; x31; x0a] (* x = 1 *) else [].
Definition ex_toml : toml_ops := mkToml bool ex_doc
  (fun s => if str_eqb s (ex_doc true) then Some true else if str_eqb s [] then Some false else None).
Lemma ex_toml_law : toml_law ex_toml.
Proof. intros []; split; reflexivity. Qed.

Definition ex_words : list str := [[x65; x65; x6e]; [x74; x77; x65; x65]].   (* een, twee *)
Definition ok_or {A} (r : res A) (d : A) : A := match r with Ok a => a | _ => d end.
Definition ex_f (n : N) : f32 := f32_of_bits n.

Lemma ex_words_ok : words_ok ex_words.
Proof. split; [repeat constructor; vm_compute; auto|vm_compute; discriminate]. Qed.

(** A bucket vocabulary with 2^2 buckets; a 6 x 2 matrix; norms. *)
Definition ex_bucket : subword_vocab hash_indexer :=
  mkSub default_bow default_eow (mkHashIx 2 3) (create_indices ex_words) ex_words 3 6.
Definition ex_matrix : array2 f32 :=
  mkA2 2 (map (fun n => [ex_f (1065353216 + n); ex_f n]) [0; 1; 2; 3; 4; 5]).
Definition ex_norms : list f32 := [ex_f 1065353216; ex_f 1073741824].
Definition ex_emb (norms : option (list f32)) : emb ex_toml :=
  mkEmb (Some true) (SNdArray ex_matrix) (VBucket ex_bucket) norms.

Lemma ex_nd_ok : nd_ok ex_matrix.
Proof.
  split; [|split; [|split; [|split]]]; [repeat constructor|reflexivity|reflexivity|vm_compute; discriminate..].
Qed.
Lemma ex_built norms : (forall ns, norms = Some ns -> lenN ns * 4 <= isize_max) ->
  emb_built Release ex_toml (ex_emb norms) (SNdArray ex_matrix).
Proof.
  intros HN. split.
  - apply (vb_bucket Release ex_words 3 6 2 (mkHashIx 2 3)); [apply ex_words_ok|reflexivity..].
  - constructor. apply ex_nd_ok.
  - intros [] _; vm_compute; discriminate.
  - exact HN.
Qed.
Lemma ex_built_norms : emb_built Release ex_toml (ex_emb (Some ex_norms)) (SNdArray ex_matrix).
Proof. apply ex_built. intros ns H. inv H. vm_compute; discriminate. Qed.
Lemma ex_built_none : emb_built Release ex_toml (ex_emb None) (SNdArray ex_matrix).
Proof. apply ex_built. discriminate. Qed.

(** A product quantizer with a projection and norms. *)
Definition ex_pq : pq f32 :=
  mkPq (Some (mkA2 4 (map (fun i => map (fun j => ex_f (if i =? j then 1065353216 else 0)) [0;1;2;3]) [0;1;2;3])))
       2 3 2 (map (fun s => map (fun c => [ex_f (s + c); ex_f (1065353216 + c)]) [0;1;2]) [10; 20]).
Definition ex_quantized : quantized f32 :=
  mkQuant ex_pq (mkA2 2 [[x00; x02]; [x01; x01]; [x02; x00]; [x00; x00]; [x01; x02]; [x02; x02]])
          (Some (map ex_f [1; 2; 3; 4; 5; 6])).
Lemma ex_qa_ok : qa_ok ex_quantized.
Proof.
  assert (pq_ok ex_pq) as HP.
  { split; [reflexivity|]. split.
    { intros pr H. inv H. split; [repeat constructor|]. split; vm_compute; discriminate. }
    split; [reflexivity|]. split; [repeat constructor|]. split; [reflexivity|]. split; [reflexivity|].
    split; vm_compute; discriminate. }
  split; [exact HP|]. split; [repeat constructor|]. split; [reflexivity|]. split; [reflexivity|].
  split; [split; vm_compute; discriminate|]. intros ns H. inv H. split; [reflexivity|]. split; vm_compute; discriminate.
Qed.

Definition file_of {T} (e : emb T) (base : N) : list byte := ok_or (run_writer (write_file T e) base) [].

(** ** C01: whole-file round trip *)
@thm file_round_trip_thm FileThms file_round_trip
(** Anything that can be read can be written and read back. *)
@thm file_reread_thm FileThms file_reread

Example file_round_trip_ex :
  run_writer (write_file ex_toml (ex_emb (Some ex_norms))) 3 = Ok (file_of (ex_emb (Some ex_norms)) 3) /\
  fst (read_file Release ex_toml (mkStream (file_of (ex_emb (Some ex_norms)) 3 ++ [x01; x02]) 3)) = Ok (ex_emb (Some ex_norms)).
Proof. vm_compute. auto. Qed.

(** Without norms, following bytes that look like a norms chunk become norms:
    the "whatever bytes follow" of the claim is false. *)
Theorem trailing_norms_refuted : exists (e : emb ex_toml) tail e' s',
  emb_built Release ex_toml e (em_storage e) /\ em_norms e = None /\
  read_file Release ex_toml (mkStream (file_of e 0 ++ tail) 0) = (Ok e', s') /\
  em_norms e' = Some [ex_f 7; ex_f 9].
Proof.
  exists (ex_emb None), (ok_or (run_writer (write_norms [ex_f 7; ex_f 9]) (lenN (file_of (ex_emb None) 0))) []).
  do 2 eexists. split; [apply ex_built_none|]. split; [reflexivity|]. split; [vm_compute; reflexivity|reflexivity].
Qed.
Print Assumptions trailing_norms_refuted.

(** ** C02: predicted length *)
@thm file_length_thm FileThms file_length
Example file_length_ex :
  map (fun base => lenN (file_of (ex_emb (Some ex_norms)) base)) [0; 1; 2; 3]
  = map (write_file_len ex_toml (ex_emb (Some ex_norms))) [0; 1; 2; 3] /\
  write_file_len ex_toml (ex_emb (Some ex_norms)) 0 <> write_file_len ex_toml (ex_emb (Some ex_norms)) 1.
Proof. vm_compute. split; [reflexivity|discriminate]. Qed.

(** ** C03, C06: the header lists the chunks; chunks can be skipped *)
@thm file_chunks_thm FileThms file_chunks
Example file_chunks_ex : expected_chunks (ex_emb (Some ex_norms)) = [5; 3; 2; 6] /\
  skim 4 (dropN 28 (file_of (ex_emb (Some ex_norms)) 1)) = Some ([5; 3; 2; 6], []).
Proof. vm_compute. auto. Qed.

(** ** C04: alignment *)
@thm file_aligned_thm FileThms file_aligned
Example file_aligned_ex : forall base, In base [0; 1; 2; 3] ->
  aligned_floats base (file_of (ex_emb (Some ex_norms)) base) (storage_floats (SNdArray ex_matrix)).
Proof.
  intros base _. destruct (FileThms.file_round_trip Release ex_toml (ex_emb (Some ex_norms)) _ base ex_toml_law ex_built_norms)
    as (bytes & HW & _). unfold file_of. rewrite HW.
  exact (proj1 (file_aligned_thm Release ex_toml _ _ base bytes ex_toml_law ex_built_norms HW)).
Qed.

(** ** C05: header validation *)
@thm header_valid_thm FileThms header_valid
@thm header_no_panic_thm PanicFacts read_header_no_panic
Example header_valid_ex :
  fst (read_header (mkStream (header_layout [CMetadata; CNdArray] ++ [x07]) 0)) = Ok [CMetadata; CNdArray] /\
  fst (read_header (mkStream ([x46; x69; x46; x74] ++ dropN 4 (header_layout [CNdArray])) 0)) = Err EFormat /\
  fst (read_header (mkStream ([x46; x69; x46; x75; x01] ++ dropN 5 (header_layout [CNdArray])) 0)) = Err EFormat /\
  fst (read_header (mkStream (header_layout [CHeader]) 0)) = Err (EUnknownChunk 0).
Proof. vm_compute. auto. Qed.

(** ** C07: bucketed vocabularies *)
@thm bucket_round_trip_thm FileThms bucket_round_trip
@thm fasttext_round_trip_thm FileThms fasttext_round_trip
@thm simple_round_trip_thm FileThms simple_round_trip

Definition ex_odd : subword_vocab hash_indexer :=
  mkSub [x5e] [x24] (mkHashIx 2 3) (create_indices ex_words) ex_words 3 6.
Example bucket_round_trip_ex :
  sub_new_with_boundaries hash_ops Release ex_words 3 6 (mkHashIx 2 3) [x5e] [x24] = Ok ex_odd /\
  default_boundaries ex_bucket = ex_bucket /\
  fst (read_bucketed hash_bucket_ops Release CBucketSubwordVocab
        (mkStream (ok_or (run_writer (ck_write bucket_chunk ex_odd) 0) []) 0)) = Ok ex_bucket.
Proof. vm_compute. auto. Qed.

(** With other boundaries the lookup of an unknown word changes. *)
Theorem bucket_boundaries_refuted : exists v v' w,
  sub_new_with_boundaries hash_ops Release ex_words 3 6 (mkHashIx 2 3) [x5e] [x24] = Ok v /\
  fst (read_bucketed hash_bucket_ops Release CBucketSubwordVocab
        (mkStream (ok_or (run_writer (ck_write bucket_chunk v) 0) []) 0)) = Ok v' /\
  sub_idx hash_ops Release v w <> sub_idx hash_ops Release v' w.
Proof.
  exists ex_odd, ex_bucket, [x61; x61]. split; [reflexivity|]. split; [vm_compute; reflexivity|].
  vm_compute. discriminate.
Qed.
Print Assumptions bucket_boundaries_refuted.

(** ** C08: explicit vocabularies *)
@thm explicit_round_trip_thm FileThms explicit_round_trip
Definition ex_tuples : list (str * N) :=
  [([x3c; x65], 7); ([x65; x65], 3); ([x65; x6e], 7); ([x6e; x3e], 1)].
Definition ex_explicit_ix : explicit_indexer := fst (ok_or (explicit_new_with_indices ex_tuples) (mkExIx [] [] 0, [])).
Definition ex_explicit : subword_vocab explicit_indexer :=
  mkSub default_bow default_eow ex_explicit_ix (create_indices ex_words) ex_words 2 2.
Example explicit_round_trip_ex :
  explicit_built ex_explicit_ix /\ sub_new explicit_ops Release ex_words 2 2 ex_explicit_ix = Ok ex_explicit /\
  map (fun g => ok_or (explicit_index ex_explicit_ix (swcl_new g)) []) (map fst ex_tuples) = [[0]; [1]; [0]; [2]] /\
  fst (read_explicit Release (mkStream (ok_or (run_writer (ck_write explicit_chunk ex_explicit) 5) []) 5)) = Ok ex_explicit.
Proof.
  split; [right; exists ex_tuples; eexists; vm_compute; reflexivity|]. vm_compute. auto.
Qed.

(** ** C09: floret vocabularies *)
@thm floret_round_trip_thm FileThms floret_round_trip
Definition ex_floret_ix : floret_indexer := mkFloretIx 10 123 2.
Example floret_round_trip_ex :
  floret_indexer_new 10 2 123 = Ok ex_floret_ix /\
  exists v, sub_new_with_boundaries floret_ops Release ex_words 3 5 ex_floret_ix [x3c] [x3e; x3e] = Ok v /\
  fst (read_floret Release (mkStream (ok_or (run_writer (ck_write floret_chunk v) 0) []) 0))
  = Ok (mkSub [x3c] [x3e; x3e] ex_floret_ix [] [] 3 5).
Proof. split; [reflexivity|]. eexists. split; [vm_compute; reflexivity|]. vm_compute; reflexivity. Qed.
(** The words are lost. *)
Theorem floret_words_refuted : exists v v',
  sub_new_with_boundaries floret_ops Release ex_words 3 5 ex_floret_ix [x3c] [x3e] = Ok v /\
  fst (read_floret Release (mkStream (ok_or (run_writer (ck_write floret_chunk v) 0) []) 0)) = Ok v' /\
  v_words (sub_ops floret_ops) v = ex_words /\ v_words (sub_ops floret_ops) v' = [].
Proof. do 2 eexists. split; [vm_compute; reflexivity|]. split; [vm_compute; reflexivity|]. split; reflexivity. Qed.
Print Assumptions floret_words_refuted.

(** ** C10: quantized matrices *)
@thm quantized_round_trip_thm FileThms quantized_round_trip
@thm ndarray_round_trip_thm FileThms ndarray_round_trip
Example quantized_round_trip_ex : qa_ok ex_quantized /\
  fst (read_quantized (mkStream (ok_or (run_writer (ck_write qa_chunk ex_quantized) 2) [] ++ [x05]) 2)) = Ok ex_quantized.
Proof. split; [apply ex_qa_ok|vm_compute; reflexivity]. Qed.

(** ** C11: metadata alone *)
@thm metadata_agrees_thm FileThms metadata_agrees
@thm metadata_alone_thm FileThms metadata_alone
Example metadata_alone_ex :
  fst (read_metadata ex_toml (mkStream (takeN 46 (file_of (ex_emb (Some ex_norms)) 0)) 0)) = Ok (Some true) /\
  fst (read_metadata ex_toml (mkStream (takeN 45 (file_of (ex_emb (Some ex_norms)) 0)) 0)) = Err ERead.
Proof. vm_compute. auto. Qed.

(** ** C12: truncated files *)
@thm file_truncation_thm FileThms file_truncation
Example file_truncation_ex : let f := file_of (ex_emb (Some ex_norms)) 0 in
  storage_nonempty (SNdArray ex_matrix) /\
  map (fun n => match fst (read_file Release ex_toml (mkStream (takeN n f) 0)) with
                | Ok e => is_some (em_norms e) | _ => false end)
      [0; 11; 100; lenN f - 36; lenN f - 1; lenN f] = [false; false; false; false; false; true].
Proof. vm_compute. split; [discriminate|reflexivity]. Qed.
(** An empty matrix: a file cut inside the padding is accepted. *)
Theorem truncated_empty_refuted : exists e : emb ex_toml,
  emb_built Release ex_toml e (em_storage e) /\ em_norms e = None /\
  exists s', read_file Release ex_toml (mkStream (takeN (lenN (file_of e 0) - 1) (file_of e 0)) 0) = (Ok e, s').
Proof.
  exists (mkEmb None (SNdArray (mkA2 2 [])) (VSimple (mkSimple [] [])) None). split.
  - split.
    + apply (vb_simple Release []); [split; [constructor|vm_compute; discriminate]|reflexivity].
    + constructor. split; [constructor|]. split; [reflexivity|]. split; [reflexivity|]. split; vm_compute; discriminate.
    + discriminate.
    + discriminate.
  - split; [reflexivity|]. eexists. vm_compute. reflexivity.
Qed.
Print Assumptions truncated_empty_refuted.

(** ** C13: failing writer *)
@thm file_write_fails_thm FileThms file_write_fails
Example file_write_fails_ex : let f := file_of (ex_emb None) 7 in
  (forall cap, In cap [0; 1; 50; lenN f - 1] ->
     write_file ex_toml (ex_emb None) (mkSink 7 [] (Some cap)) = (Err EWrite, mkSink 7 (takeN cap f) (Some cap))) /\
  write_file ex_toml (ex_emb None) (mkSink 7 [] (Some (lenN f))) = (Ok tt, mkSink 7 f (Some (lenN f))).
Proof. split; [intros cap [<-|[<-|[<-|[<-|[]]]]]; vm_compute; reflexivity|vm_compute; reflexivity]. Qed.

(** ** C14: memory mapping *)
@thm mmap_equals_read_thm FileThms mmap_equals_read
Example mmap_equals_read_ex :
  match mmap_file Release ex_toml (mkStream (file_of (ex_emb (Some ex_norms)) 0) 0) with
  | (Ok e, _) => st_embedding (swrap_ops (fun _ r => r)) (em_storage e) 5 = a2_row ex_matrix 5
                 /\ em_norms e = Some ex_norms
  | _ => False end.
Proof. vm_compute. auto. Qed.

(** ** C15: mapped views *)
(** Missing from the claim: a file shorter than the region is not rejected,
    and a product of the dimensions that overflows wraps in release builds,
    see the refutations. *)
@thm mmap_window_partial FileThms mmap_window
@thm mmap_quantized_window_partial FileThms mmap_quantized_window
Definition ex_nd_file : list byte := ok_or (run_writer (ck_write nd_chunk ex_matrix) 0) [].
Example mmap_window_ex : exists m s', mmap_ndarray Release (mkStream ex_nd_file 0) = (Ok m, s') /\
  ma_rows m * ma_cols m * 4 < two64 /\ mma_row m 5 = a2_row ex_matrix 5.
Proof. do 2 eexists. split; [vm_compute; reflexivity|]. vm_compute. auto. Qed.
(** A truncated file is mapped; a row below the reported shape is outside. *)
Theorem mmap_truncated_refuted : exists bs m s' i,
  mmap_ndarray Release (mkStream bs 0) = (Ok m, s') /\ i < ma_rows m /\ mma_row m i = Panic PUnsafe.
Proof. exists (takeN 60 ex_nd_file). do 2 eexists. exists 5. split; [vm_compute; reflexivity|]. vm_compute. auto. Qed.
Print Assumptions mmap_truncated_refuted.
(** 2^62 rows of one column: the region has no bytes. *)
Theorem mmap_overflow_refuted : exists bs m s' i,
  mmap_ndarray Release (mkStream bs 0) = (Ok m, s') /\ i < ma_rows m /\
  mm_len (ma_map m) = 0 /\ mma_row m i = Panic PUnsafe.
Proof.
  exists (le_bytes 4 2 ++ le_bytes 8 0 ++ le_bytes 8 4611686018427387904 ++ le_bytes 4 1 ++ le_bytes 4 10 ++ [x00; x00; x00; x00]).
  do 2 eexists. exists 0. split; [vm_compute; reflexivity|]. vm_compute. auto.
Qed.
Print Assumptions mmap_overflow_refuted.

(** ** C16: wrappers *)
@thm vocab_wrapper_thm FileThms vkind_typed
@thm storage_wrapper_thm FileThms skind_typed
@thm vocab_wrapper_ops_thm FileThms vkind_ops
@thm storage_wrapper_ops_thm FileThms skind_ops
@thm wrapped_file_thm FileThms wrapped_file
Example wrapper_ex :
  vkind Release _ (sub_ops hash_ops) (read_bucketed hash_bucket_ops Release CBucketSubwordVocab) bucket_chunk VBucket /\
  let s := mkStream (ok_or (run_writer (ck_write bucket_chunk ex_bucket) 0) []) 0 in
  fst (read_vocab_wrap Release s) = Ok (VBucket ex_bucket) /\
  fst (read_bucketed ft_bucket_ops Release CFastTextSubwordVocab s) = Err EFormat.
Proof. split; [constructor|]. vm_compute. auto. Qed.

(** ** C51: stream position *)
(** Missing from the claim: embeddings without norms, see the refutation. *)
@thm file_position_partial FileThms file_position
Example file_position_ex :
  snd (read_file Release ex_toml (mkStream (file_of (ex_emb (Some ex_norms)) 0 ++ [x01; x02; x03]) 0))
  = mkStream [x01; x02; x03] (lenN (file_of (ex_emb (Some ex_norms)) 0)).
Proof. vm_compute. reflexivity. Qed.
Theorem file_position_refuted : exists (e : emb ex_toml) tail s',
  emb_built Release ex_toml e (em_storage e) /\
  read_file Release ex_toml (mkStream (file_of e 0 ++ tail) 0) = (Ok e, s') /\
  tail <> [] /\ s_rest s' <> tail /\ lenN (file_of e 0) < s_pos s'.
Proof.
  exists (ex_emb None), [x01; x02; x03; x04; x05]. eexists. split; [apply ex_built_none|].
  split; [vm_compute; reflexivity|]. split; [discriminate|]. split; [discriminate|vm_compute; reflexivity].
Qed.
Print Assumptions file_position_refuted.

(** ** C52: consistency of what is loaded *)
(** Missing from the claim: the number of rows and of norms, see the
    refutation.  What does hold: the vocabulary and the storage could each
    have been made by their constructors. *)
@thm file_loaded_partial ReadFacts read_file_built
Theorem file_consistent_refuted : exists bs e s' n,
  read_file Release ex_toml (mkStream bs 0) = (Ok e, s') /\
  v_vocab_len wrap_ops Release (em_vocab e) = Ok n /\
  n = 6 /\ fst (st_shape (swrap_ops (fun _ r => r)) (em_storage e)) = 1 /\
  v_words_len wrap_ops (em_vocab e) = 2 /\ em_norms e = Some [ex_f 3].
Proof.
  exists (file_of (mkEmb None (SNdArray (mkA2 1 [[ex_f 1]])) (VBucket ex_bucket) (Some [ex_f 3]) : emb ex_toml) 0).
  do 3 eexists. split; [vm_compute; reflexivity|]. split; [vm_compute; reflexivity|]. vm_compute. auto.
Qed.
Print Assumptions file_consistent_refuted.

(** ** C53: malformed input *)
(** Missing from the claim: the listed panics do happen, see the refutation. *)
@thm file_panics_partial PanicFacts read_file_panics
Definition ex_head (ids : list chunk_id) : list byte := header_layout ids.
Theorem file_panics_refuted :
  forall p, In p [PDuplicateWords; PDuplicateNGrams; PCapacity; PDivByZero; PAssert; PArithOverflow] ->
  exists bs, fst (read_file Debug ex_toml (mkStream bs 0)) = Panic p.
Proof.
  intros p [<-|[<-|[<-|[<-|[<-|[<-|[]]]]]]].
  - (* the same word twice *)
    exists (ex_head [CSimpleVocab] ++ le_bytes 4 1 ++ le_bytes 8 0 ++ le_bytes 8 2 ++ le_bytes 4 1 ++ [x61] ++ le_bytes 4 1 ++ [x61]).
    vm_compute. reflexivity.
  - (* the same n-gram twice *)
    exists (ex_head [CExplicitSubwordVocab] ++ le_bytes 4 8 ++ le_bytes 8 0 ++ le_bytes 8 0 ++ le_bytes 8 2 ++ le_bytes 4 3 ++ le_bytes 4 6
      ++ le_bytes 4 1 ++ [x61] ++ le_bytes 8 0 ++ le_bytes 4 1 ++ [x61] ++ le_bytes 8 1).
    vm_compute. reflexivity.
  - (* 2^63 words *)
    exists (ex_head [CSimpleVocab] ++ le_bytes 4 1 ++ le_bytes 8 0 ++ le_bytes 8 9223372036854775808).
    vm_compute. reflexivity.
  - (* quantized length 0 *)
    exists (ex_head [CSimpleVocab] ++ le_bytes 4 1 ++ le_bytes 8 0 ++ le_bytes 8 0
      ++ le_bytes 4 4 ++ le_bytes 8 0 ++ le_bytes 4 0 ++ le_bytes 4 0 ++ le_bytes 4 0 ++ le_bytes 4 0 ++ le_bytes 4 0 ++ le_bytes 8 0).
    vm_compute. reflexivity.
  - (* 65 bits of buckets *)
    exists (ex_head [CBucketSubwordVocab] ++ le_bytes 4 3 ++ le_bytes 8 0 ++ le_bytes 8 0 ++ le_bytes 4 3 ++ le_bytes 4 6 ++ le_bytes 4 65).
    vm_compute. reflexivity.
  - (* 64 bits of buckets, with overflow checks *)
    exists (ex_head [CBucketSubwordVocab] ++ le_bytes 4 3 ++ le_bytes 8 0 ++ le_bytes 8 0 ++ le_bytes 4 3 ++ le_bytes 4 6 ++ le_bytes 4 64).
    vm_compute. reflexivity.
Qed.
Print Assumptions file_panics_refuted.

(** ** C69: files followed by other data *)
@thm file_followed_thm FileExact file_followed
(** After a file without norms, four bytes are lost, or 24 bytes of what looks
    like norms of another type; norms of any length are taken. *)
Example file_followed_ex : let f := file_of (ex_emb None) 0 in
  let norms := ok_or (run_writer (write_norms [ex_f 7]) (lenN f)) [] in
  emb_built Release ex_toml (ex_emb None) (SNdArray ex_matrix) /\
  s_rest (snd (read_file Release ex_toml (mkStream (f ++ [x01; x02; x03; x04; x05]) 0))) = [x05] /\
  left_after_norms [x01; x02; x03; x04; x05] = [x05] /\
  s_rest (snd (read_file Release ex_toml (mkStream (f ++ takeN 20 norms ++ [x01; x02; x03; x04; x05]) 0))) = [x05] /\
  em_norms (ok_or (fst (read_file Release ex_toml (mkStream (f ++ norms ++ [x05]) 0))) (ex_emb None)) = Some [ex_f 7] /\
  fst (read_file Release ex_toml (mkStream (f ++ le_bytes 4 6 ++ le_bytes 8 0 ++ le_bytes 8 isize_max ++ le_bytes 4 10) 0)) = Panic PCapacity.
Proof. split; [apply ex_built_none|]. vm_compute. auto. Qed.

(** ** C70: truncated files *)
@thm file_cut_thm FileExact file_cut
(** An empty matrix and empty norms: the results of reading all prefixes. *)
Definition ex_hollow : emb ex_toml := mkEmb None (SNdArray (mkA2 2 [])) (VSimple (mkSimple [] [])) (Some []).
Example file_cut_ex : let f := file_of ex_hollow 0 in
  emb_built Release ex_toml ex_hollow (SNdArray (mkA2 2 [])) /\ storage_empty (SNdArray (mkA2 2 [])) = true /\ lenN f = 104 /\
  map (fun n => match fst (read_file Release ex_toml (mkStream (takeN n f) 0)) with
                | Ok e => Some (em_norms e) | _ => None end) [0; 71; 72; 75; 76; 99; 100; 103; 104]
  = [None; None; Some None; Some None; Some None; Some None; Some (Some []); Some (Some []); Some (Some [])].
Proof.
  split; [|split; [reflexivity|split; vm_compute; reflexivity]]. split.
  - apply (vb_simple Release []); [split; [constructor|vm_compute; discriminate]|reflexivity].
  - constructor. split; [constructor|]. split; [reflexivity|]. split; [reflexivity|]. split; vm_compute; discriminate.
  - discriminate.
  - intros ns H. inv H. vm_compute. discriminate.
Qed.

(** ** C71: what can be loaded *)
@thm loadable_thm FileExact loadable
Example loadable_ex : toml_law ex_toml /\ (forall t, em_meta (ex_emb (Some ex_norms)) = Some t -> lenN (toml_print ex_toml t) <= isize_max) /\
  emb_built Release ex_toml (ex_emb (Some ex_norms)) (em_storage (ex_emb (Some ex_norms))).
Proof. split; [apply ex_toml_law|]. split; [intros [] _; vm_compute; discriminate|apply ex_built_norms]. Qed.

(** ** C72: reading and writing again *)
@thm file_rewrite_thm FileExact file_rewrite
@thm file_same_bytes_thm FileExact file_same_bytes
Example file_same_bytes_ex : let f := file_of (ex_emb (Some ex_norms)) 5 in
  file_of (ok_or (fst (read_file Release ex_toml (mkStream f 5))) (ex_emb None)) 5 = f.
Proof. vm_compute. reflexivity. Qed.
