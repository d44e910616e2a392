(** * Theorems about files (C01-C16, C51-C53, C69-C72). *)
From Verif Require Import Base BaseFacts Utf8 Stream StreamFacts F32 ChunkIO Subword Vocab Storage
  Embeddings FileSpec Grammar FileExactSpec VocabFacts.
From Verif Require FileExact FileThms PanicFacts ReadFacts.
Local Open Scope N_scope.

(** ** Concrete values for the examples *)

(** A toml library with two documents. *)
Definition ex_doc (b : bool) : str :=
  if b then [x78; x20; x3d; x20; x31; x0a] (* x = 1 *) else [].
Definition ex_toml : toml_ops := mkToml bool ex_doc
  (fun s => if str_eqb s (ex_doc true) then Some true else if str_eqb s [] then Some false else None).
Lemma ex_toml_law : toml_law ex_toml.
Proof. intros []; split; reflexivity. Qed.

Definition ex_words : list str := [[x65; x65; x6e]; [x74; x77; x65; x65]].   (* een, twee *)
Definition ok_or {A} (r : res A) (d : A) : A := match r with Ok a => a | _ => d end.
Definition ex_f (n : N) : f32 := f32_of_bits n.

Lemma ex_words_ok : words_ok ex_words.
Proof. split; [repeat constructor; vm_compute; auto|vm_compute; discriminate]. Qed.

(** A bucket vocabulary with 2^2 buckets; a 6 x 2 matrix; norms. *)
Definition ex_bucket : subword_vocab hash_indexer :=
  mkSub default_bow default_eow (mkHashIx 2 3) (create_indices ex_words) ex_words 3 6.
Definition ex_matrix : array2 f32 :=
  mkA2 2 (map (fun n => [ex_f (1065353216 + n); ex_f n]) [0; 1; 2; 3; 4; 5]).
Definition ex_norms : list f32 := [ex_f 1065353216; ex_f 1073741824].
Definition ex_emb (norms : option (list f32)) : emb ex_toml :=
  mkEmb (Some true) (SNdArray ex_matrix) (VBucket ex_bucket) norms.

Lemma ex_nd_ok : nd_ok ex_matrix.
Proof.
  split; [|split; [|split; [|split]]]; [repeat constructor|reflexivity|reflexivity|vm_compute; discriminate..].
Qed.
Lemma ex_built norms : (forall ns, norms = Some ns -> lenN ns * 4 <= isize_max) ->
  emb_built Release ex_toml (ex_emb norms) (SNdArray ex_matrix).
Proof.
  intros HN. split.
  - apply (vb_bucket Release ex_words 3 6 2 (mkHashIx 2 3)); [apply ex_words_ok|reflexivity..].
  - constructor. apply ex_nd_ok.
  - intros [] _; vm_compute; discriminate.
  - exact HN.
Qed.
Lemma ex_built_norms : emb_built Release ex_toml (ex_emb (Some ex_norms)) (SNdArray ex_matrix).
Proof. apply ex_built. intros ns H. inv H. vm_compute; discriminate. Qed.
Lemma ex_built_none : emb_built Release ex_toml (ex_emb None) (SNdArray ex_matrix).
Proof. apply ex_built. discriminate. Qed.

(** A product quantizer with a projection and norms. *)
Definition ex_pq : pq f32 :=
  mkPq (Some (mkA2 4 (map (fun i => map (fun j => ex_f (if i =? j then 1065353216 else 0)) [0;1;2;3]) [0;1;2;3])))
       2 3 2 (map (fun s => map (fun c => [ex_f (s + c); ex_f (1065353216 + c)]) [0;1;2]) [10; 20]).
Definition ex_quantized : quantized f32 :=
  mkQuant ex_pq (mkA2 2 [[x00; x02]; [x01; x01]; [x02; x00]; [x00; x00]; [x01; x02]; [x02; x02]])
          (Some (map ex_f [1; 2; 3; 4; 5; 6])).
Lemma ex_qa_ok : qa_ok ex_quantized.
Proof.
  assert (pq_ok ex_pq) as HP.
  { split; [reflexivity|]. split.
    { intros pr H. inv H. split; [repeat constructor|]. split; vm_compute; discriminate. }
    split; [reflexivity|]. split; [repeat constructor|]. split; [reflexivity|]. split; [reflexivity|].
    split; vm_compute; discriminate. }
  split; [exact HP|]. split; [repeat constructor|]. split; [reflexivity|]. split; [reflexivity|].
  split; [split; vm_compute; discriminate|]. intros ns H. inv H. split; [reflexivity|]. split; vm_compute; discriminate.
Qed.

Definition file_of {T} (e : emb T) (base : N) : list byte := ok_or (run_writer (write_file T e) base) [].

(** ** C01: whole-file round trip *)
Theorem file_round_trip_thm : forall pf T e s0 base,
  toml_law T -> emb_built pf T e s0 ->
  exists bytes, run_writer (write_file T e) base = Ok bytes /\
  forall tail, (em_norms e = None -> not_norms tail) ->
  exists s', read_file pf T (mkStream (bytes ++ tail) base) = (Ok (loaded e s0 (em_norms e)), s').
Proof. exact (@FileThms.file_round_trip). Qed.
Print Assumptions file_round_trip_thm.
(** Anything that can be read can be written and read back. *)
Theorem file_reread_thm : forall pf T s e s1 base,
  toml_law T ->
  (forall t, em_meta e = Some t -> lenN (toml_print T t) <= isize_max) ->
  read_file pf T s = (Ok e, s1) ->
  exists bytes, run_writer (write_file T e) base = Ok bytes /\
  exists s', read_file pf T (mkStream bytes base) = (Ok e, s').
Proof. exact (@FileThms.file_reread). Qed.
Print Assumptions file_reread_thm.

Example file_round_trip_ex :
  run_writer (write_file ex_toml (ex_emb (Some ex_norms))) 3 = Ok (file_of (ex_emb (Some ex_norms)) 3) /\
  fst (read_file Release ex_toml (mkStream (file_of (ex_emb (Some ex_norms)) 3 ++ [x01; x02]) 3)) = Ok (ex_emb (Some ex_norms)).
Proof. vm_compute. auto. Qed.

(** Without norms, following bytes that look like a norms chunk become norms:
    the "whatever bytes follow" of the claim is false. *)
Theorem trailing_norms_refuted : exists (e : emb ex_toml) tail e' s',
  emb_built Release ex_toml e (em_storage e) /\ em_norms e = None /\
  read_file Release ex_toml (mkStream (file_of e 0 ++ tail) 0) = (Ok e', s') /\
  em_norms e' = Some [ex_f 7; ex_f 9].
Proof.
  exists (ex_emb None), (ok_or (run_writer (write_norms [ex_f 7; ex_f 9]) (lenN (file_of (ex_emb None) 0))) []).
  do 2 eexists. split; [apply ex_built_none|]. split; [reflexivity|]. split; [vm_compute; reflexivity|reflexivity].
Qed.
Print Assumptions trailing_norms_refuted.

(** ** C02: predicted length *)
Theorem file_length_thm : forall pf T e s0 base bytes,
  toml_law T -> emb_built pf T e s0 ->
  run_writer (write_file T e) base = Ok bytes -> lenN bytes = write_file_len T e base.
Proof. exact (@FileThms.file_length). Qed.
Print Assumptions file_length_thm.
Example file_length_ex :
  map (fun base => lenN (file_of (ex_emb (Some ex_norms)) base)) [0; 1; 2; 3]
  = map (write_file_len ex_toml (ex_emb (Some ex_norms))) [0; 1; 2; 3] /\
  write_file_len ex_toml (ex_emb (Some ex_norms)) 0 <> write_file_len ex_toml (ex_emb (Some ex_norms)) 1.
Proof. vm_compute. split; [reflexivity|discriminate]. Qed.

(** ** C03, C06: the header lists the chunks; chunks can be skipped *)
Theorem file_chunks_thm : forall pf T e s0 base bytes tail,
  toml_law T -> emb_built pf T e s0 ->
  run_writer (write_file T e) base = Ok bytes -> lenN bytes < two64 ->
  takeN 8 bytes = [x46; x69; x46; x75; x00; x00; x00; x00] /\
  le_value (takeN 4 (dropN 8 bytes)) = lenN (expected_chunks e) /\
  (forall i id, nthN (expected_chunks e) i = Some id -> le_value (takeN 4 (dropN (12 + 4 * i) bytes)) = id) /\
  skim (length (expected_chunks e)) (dropN (12 + 4 * lenN (expected_chunks e)) (bytes ++ tail))
  = Some (expected_chunks e, tail).
Proof. exact (@FileThms.file_chunks). Qed.
Print Assumptions file_chunks_thm.
Example file_chunks_ex : expected_chunks (ex_emb (Some ex_norms)) = [5; 3; 2; 6] /\
  skim 4 (dropN 28 (file_of (ex_emb (Some ex_norms)) 1)) = Some ([5; 3; 2; 6], []).
Proof. vm_compute. auto. Qed.

(** ** C04: alignment *)
Theorem file_aligned_thm : forall pf T e s0 base bytes,
  toml_law T -> emb_built pf T e s0 ->
  run_writer (write_file T e) base = Ok bytes ->
  aligned_floats base bytes (storage_floats s0) /\
  (forall ns, em_norms e = Some ns -> aligned_floats base bytes ns).
Proof. exact (@FileThms.file_aligned). Qed.
Print Assumptions file_aligned_thm.
Example file_aligned_ex : forall base, In base [0; 1; 2; 3] ->
  aligned_floats base (file_of (ex_emb (Some ex_norms)) base) (storage_floats (SNdArray ex_matrix)).
Proof.
  intros base _. destruct (FileThms.file_round_trip Release ex_toml (ex_emb (Some ex_norms)) _ base ex_toml_law ex_built_norms)
    as (bytes & HW & _). unfold file_of. rewrite HW.
  exact (proj1 (file_aligned_thm Release ex_toml _ _ base bytes ex_toml_law ex_built_norms HW)).
Qed.

(** ** C05: header validation *)
Theorem header_valid_thm : forall ids bs pos,
  (exists s', read_header (mkStream bs pos) = (Ok ids, s')) <->
  (exists tail, bs = header_layout ids ++ tail) /\ ~ In CHeader ids /\ lenN ids < two32.
Proof. exact (@FileThms.header_valid). Qed.
Print Assumptions header_valid_thm.
Theorem header_no_panic_thm : panics_only read_header [].
Proof. exact (@PanicFacts.read_header_no_panic). Qed.
Print Assumptions header_no_panic_thm.
Example header_valid_ex :
  fst (read_header (mkStream (header_layout [CMetadata; CNdArray] ++ [x07]) 0)) = Ok [CMetadata; CNdArray] /\
  fst (read_header (mkStream ([x46; x69; x46; x74] ++ dropN 4 (header_layout [CNdArray])) 0)) = Err EFormat /\
  fst (read_header (mkStream ([x46; x69; x46; x75; x01] ++ dropN 5 (header_layout [CNdArray])) 0)) = Err EFormat /\
  fst (read_header (mkStream (header_layout [CHeader]) 0)) = Err (EUnknownChunk 0).
Proof. vm_compute. auto. Qed.

(** ** C07: bucketed vocabularies *)
Theorem bucket_round_trip_thm : forall pf ws mn mx exp ix bow eow v base,
  words_ok ws -> mn < two32 -> mx < two32 -> hash_indexer_new exp = Ok ix ->
  sub_new_with_boundaries hash_ops pf ws mn mx ix bow eow = Ok v ->
  exists bytes, run_writer (ck_write bucket_chunk v) base = Ok bytes /\
  lenN bytes = ck_len bucket_chunk v base /\
  reads_back (read_bucketed hash_bucket_ops pf CBucketSubwordVocab) base bytes (default_boundaries v).
Proof. exact (@FileThms.bucket_round_trip). Qed.
Print Assumptions bucket_round_trip_thm.
Theorem fasttext_round_trip_thm : forall pf ws mn mx n ix bow eow v base,
  words_ok ws -> mn < two32 -> mx < two32 -> ft_indexer_new n = Ok ix ->
  sub_new_with_boundaries ft_ops pf ws mn mx ix bow eow = Ok v ->
  exists bytes, run_writer (ck_write ft_chunk v) base = Ok bytes /\
  lenN bytes = ck_len ft_chunk v base /\
  reads_back (read_bucketed ft_bucket_ops pf CFastTextSubwordVocab) base bytes (default_boundaries v).
Proof. exact (@FileThms.fasttext_round_trip). Qed.
Print Assumptions fasttext_round_trip_thm.
Theorem simple_round_trip_thm : forall ws v base,
  words_ok ws -> simple_new ws = Ok v ->
  exists bytes, run_writer (ck_write simple_chunk v) base = Ok bytes /\
  lenN bytes = ck_len simple_chunk v base /\ reads_back read_simple base bytes v.
Proof. exact (@FileThms.simple_round_trip). Qed.
Print Assumptions simple_round_trip_thm.

Definition ex_odd : subword_vocab hash_indexer :=
  mkSub [x5e] [x24] (mkHashIx 2 3) (create_indices ex_words) ex_words 3 6.
Example bucket_round_trip_ex :
  sub_new_with_boundaries hash_ops Release ex_words 3 6 (mkHashIx 2 3) [x5e] [x24] = Ok ex_odd /\
  default_boundaries ex_bucket = ex_bucket /\
  fst (read_bucketed hash_bucket_ops Release CBucketSubwordVocab
        (mkStream (ok_or (run_writer (ck_write bucket_chunk ex_odd) 0) []) 0)) = Ok ex_bucket.
Proof. vm_compute. auto. Qed.

(** With other boundaries the lookup of an unknown word changes. *)
Theorem bucket_boundaries_refuted : exists v v' w,
  sub_new_with_boundaries hash_ops Release ex_words 3 6 (mkHashIx 2 3) [x5e] [x24] = Ok v /\
  fst (read_bucketed hash_bucket_ops Release CBucketSubwordVocab
        (mkStream (ok_or (run_writer (ck_write bucket_chunk v) 0) []) 0)) = Ok v' /\
  sub_idx hash_ops Release v w <> sub_idx hash_ops Release v' w.
Proof.
  exists ex_odd, ex_bucket, [x61; x61]. split; [reflexivity|]. split; [vm_compute; reflexivity|].
  vm_compute. discriminate.
Qed.
Print Assumptions bucket_boundaries_refuted.

(** ** C08: explicit vocabularies *)
Theorem explicit_round_trip_thm : forall pf ws mn mx ix bow eow v base,
  words_ok ws -> mn < two32 -> mx < two32 -> explicit_built ix ->
  Forall str_ok (ei_ngrams ix) -> lenN (ei_ngrams ix) * 32 <= isize_max ->
  sub_new_with_boundaries explicit_ops pf ws mn mx ix bow eow = Ok v ->
  exists bytes, run_writer (ck_write explicit_chunk v) base = Ok bytes /\
  lenN bytes = ck_len explicit_chunk v base /\
  reads_back (read_explicit pf) base bytes (default_boundaries v).
Proof. exact (@FileThms.explicit_round_trip). Qed.
Print Assumptions explicit_round_trip_thm.
Definition ex_tuples : list (str * N) :=
  [([x3c; x65], 7); ([x65; x65], 3); ([x65; x6e], 7); ([x6e; x3e], 1)].
Definition ex_explicit_ix : explicit_indexer := fst (ok_or (explicit_new_with_indices ex_tuples) (mkExIx [] [] 0, [])).
Definition ex_explicit : subword_vocab explicit_indexer :=
  mkSub default_bow default_eow ex_explicit_ix (create_indices ex_words) ex_words 2 2.
Example explicit_round_trip_ex :
  explicit_built ex_explicit_ix /\ sub_new explicit_ops Release ex_words 2 2 ex_explicit_ix = Ok ex_explicit /\
  map (fun g => ok_or (explicit_index ex_explicit_ix (swcl_new g)) []) (map fst ex_tuples) = [[0]; [1]; [0]; [2]] /\
  fst (read_explicit Release (mkStream (ok_or (run_writer (ck_write explicit_chunk ex_explicit) 5) []) 5)) = Ok ex_explicit.
Proof.
  split; [right; exists ex_tuples; eexists; vm_compute; reflexivity|]. vm_compute. auto.
Qed.

(** ** C09: floret vocabularies *)
Theorem floret_round_trip_thm : forall pf ws mn mx nb nh seed bow eow ix v base,
  mn < two32 -> mx < two32 -> nb < two64 -> seed < two32 -> str_ok bow -> str_ok eow ->
  floret_indexer_new nb nh seed = Ok ix ->
  sub_new_with_boundaries floret_ops pf ws mn mx ix bow eow = Ok v ->
  exists bytes, run_writer (ck_write floret_chunk v) base = Ok bytes /\
  lenN bytes = ck_len floret_chunk v base /\
  reads_back (read_floret pf) base bytes (mkSub bow eow ix [] [] mn mx).
Proof. exact (@FileThms.floret_round_trip). Qed.
Print Assumptions floret_round_trip_thm.
Definition ex_floret_ix : floret_indexer := mkFloretIx 10 123 2.
Example floret_round_trip_ex :
  floret_indexer_new 10 2 123 = Ok ex_floret_ix /\
  exists v, sub_new_with_boundaries floret_ops Release ex_words 3 5 ex_floret_ix [x3c] [x3e; x3e] = Ok v /\
  fst (read_floret Release (mkStream (ok_or (run_writer (ck_write floret_chunk v) 0) []) 0))
  = Ok (mkSub [x3c] [x3e; x3e] ex_floret_ix [] [] 3 5).
Proof. split; [reflexivity|]. eexists. split; [vm_compute; reflexivity|]. vm_compute; reflexivity. Qed.
(** The words are lost. *)
Theorem floret_words_refuted : exists v v',
  sub_new_with_boundaries floret_ops Release ex_words 3 5 ex_floret_ix [x3c] [x3e] = Ok v /\
  fst (read_floret Release (mkStream (ok_or (run_writer (ck_write floret_chunk v) 0) []) 0)) = Ok v' /\
  v_words (sub_ops floret_ops) v = ex_words /\ v_words (sub_ops floret_ops) v' = [].
Proof. do 2 eexists. split; [vm_compute; reflexivity|]. split; [vm_compute; reflexivity|]. split; reflexivity. Qed.
Print Assumptions floret_words_refuted.

(** ** C10: quantized matrices *)
Theorem quantized_round_trip_thm : forall q base,
  qa_ok q ->
  exists bytes, run_writer (ck_write qa_chunk q) base = Ok bytes /\
  lenN bytes = ck_len qa_chunk q base /\ reads_back read_quantized base bytes q.
Proof. exact (@FileThms.quantized_round_trip). Qed.
Print Assumptions quantized_round_trip_thm.
Theorem ndarray_round_trip_thm : forall a base,
  nd_ok a ->
  exists bytes, run_writer (ck_write nd_chunk a) base = Ok bytes /\
  lenN bytes = ck_len nd_chunk a base /\ reads_back read_ndarray base bytes a.
Proof. exact (@FileThms.ndarray_round_trip). Qed.
Print Assumptions ndarray_round_trip_thm.
Example quantized_round_trip_ex : qa_ok ex_quantized /\
  fst (read_quantized (mkStream (ok_or (run_writer (ck_write qa_chunk ex_quantized) 2) [] ++ [x05]) 2)) = Ok ex_quantized.
Proof. split; [apply ex_qa_ok|vm_compute; reflexivity]. Qed.

(** ** C11: metadata alone *)
Theorem metadata_agrees_thm : forall T (V S : Type) (rv : reader V) (rs : reader S) s e s',
  read_embeddings T rv rs s = (Ok e, s') -> exists s'', read_metadata T s = (Ok (em_meta e), s'').
Proof. exact (@FileThms.metadata_agrees). Qed.
Print Assumptions metadata_agrees_thm.
Theorem metadata_alone_thm : forall pf T e s0 base bytes,
  toml_law T -> emb_built pf T e s0 ->
  run_writer (write_file T e) base = Ok bytes ->
  exists pre post, bytes = pre ++ post /\
  lenN pre = 12 + 4 * lenN (expected_chunks e) + match em_meta e with Some t => 12 + lenN (toml_print T t) | None => 0 end /\
  reads_back (read_metadata T) base pre (em_meta e).
Proof. exact (@FileThms.metadata_alone). Qed.
Print Assumptions metadata_alone_thm.
Example metadata_alone_ex :
  fst (read_metadata ex_toml (mkStream (takeN 46 (file_of (ex_emb (Some ex_norms)) 0)) 0)) = Ok (Some true) /\
  fst (read_metadata ex_toml (mkStream (takeN 45 (file_of (ex_emb (Some ex_norms)) 0)) 0)) = Err ERead.
Proof. vm_compute. auto. Qed.

(** ** C12: truncated files *)
Theorem file_truncation_thm : forall pf T e s0 base bytes,
  toml_law T -> emb_built pf T e s0 ->
  storage_nonempty s0 -> em_norms e <> Some [] ->
  run_writer (write_file T e) base = Ok bytes ->
  exists main norms, bytes = main ++ norms /\
  (forall ns, em_norms e = Some ns -> exists pad, takeN 4 norms = le_bytes 4 6 /\ lenN norms = 24 + pad + 4 * lenN ns /\ 1 <= pad <= 4) /\
  (em_norms e = None -> norms = []) /\
  forall p q, bytes = p ++ q -> q <> [] ->
    (lenN p < lenN main -> exists err s', read_file pf T (mkStream p base) = (Err err, s')) /\
    (lenN main <= lenN p -> exists s', read_file pf T (mkStream p base) = (Ok (loaded e s0 None), s')).
Proof. exact (@FileThms.file_truncation). Qed.
Print Assumptions file_truncation_thm.
Example file_truncation_ex : let f := file_of (ex_emb (Some ex_norms)) 0 in
  storage_nonempty (SNdArray ex_matrix) /\
  map (fun n => match fst (read_file Release ex_toml (mkStream (takeN n f) 0)) with
                | Ok e => is_some (em_norms e) | _ => false end)
      [0; 11; 100; lenN f - 36; lenN f - 1; lenN f] = [false; false; false; false; false; true].
Proof. vm_compute. split; [discriminate|reflexivity]. Qed.
(** An empty matrix: a file cut inside the padding is accepted. *)
Theorem truncated_empty_refuted : exists e : emb ex_toml,
  emb_built Release ex_toml e (em_storage e) /\ em_norms e = None /\
  exists s', read_file Release ex_toml (mkStream (takeN (lenN (file_of e 0) - 1) (file_of e 0)) 0) = (Ok e, s').
Proof.
  exists (mkEmb None (SNdArray (mkA2 2 [])) (VSimple (mkSimple [] [])) None). split.
  - split.
    + apply (vb_simple Release []); [split; [constructor|vm_compute; discriminate]|reflexivity].
    + constructor. split; [constructor|]. split; [reflexivity|]. split; [reflexivity|]. split; vm_compute; discriminate.
    + discriminate.
    + discriminate.
  - split; [reflexivity|]. eexists. vm_compute. reflexivity.
Qed.
Print Assumptions truncated_empty_refuted.

(** ** C13: failing writer *)
Theorem file_write_fails_thm : forall pf T e s0 base bytes cap,
  toml_law T -> emb_built pf T e s0 ->
  run_writer (write_file T e) base = Ok bytes ->
  write_file T e (mkSink base [] (Some cap))
  = (if lenN bytes <=? cap then Ok tt else Err EWrite, mkSink base (takeN cap bytes) (Some cap)).
Proof. exact (@FileThms.file_write_fails). Qed.
Print Assumptions file_write_fails_thm.
Example file_write_fails_ex : let f := file_of (ex_emb None) 7 in
  (forall cap, In cap [0; 1; 50; lenN f - 1] ->
     write_file ex_toml (ex_emb None) (mkSink 7 [] (Some cap)) = (Err EWrite, mkSink 7 (takeN cap f) (Some cap))) /\
  write_file ex_toml (ex_emb None) (mkSink 7 [] (Some (lenN f))) = (Ok tt, mkSink 7 f (Some (lenN f))).
Proof. split; [intros cap [<-|[<-|[<-|[<-|[]]]]]; vm_compute; reflexivity|vm_compute; reflexivity]. Qed.

(** ** C14: memory mapping *)
Theorem mmap_equals_read_thm : forall pf pf' T gemm s e s',
  read_file pf T s = (Ok e, s') ->
  exists e', mmap_embeddings T (read_vocab_wrap pf) (mmap_storage_wrap pf') s = (Ok e', s') /\
  em_meta e' = em_meta e /\ em_vocab e' = em_vocab e /\ em_norms e' = em_norms e /\
  st_shape (swrap_ops gemm) (em_storage e') = st_shape (swrap_ops gemm) (em_storage e) /\
  (forall i, st_embedding (swrap_ops gemm) (em_storage e') i = st_embedding (swrap_ops gemm) (em_storage e) i) /\
  (forall is, st_embeddings (swrap_ops gemm) (em_storage e') is = st_embeddings (swrap_ops gemm) (em_storage e) is) /\
  (forall is, swrap_clone_from_mapping (em_storage e') is = swrap_clone_from_mapping (em_storage e) is) /\
  (forall base, run_writer (write_file T e') base = run_writer (write_file T e) base).
Proof. exact (@FileThms.mmap_equals_read). Qed.
Print Assumptions mmap_equals_read_thm.
Example mmap_equals_read_ex :
  match mmap_file Release ex_toml (mkStream (file_of (ex_emb (Some ex_norms)) 0) 0) with
  | (Ok e, _) => st_embedding (swrap_ops (fun _ r => r)) (em_storage e) 5 = a2_row ex_matrix 5
                 /\ em_norms e = Some ex_norms
  | _ => False end.
Proof. vm_compute. auto. Qed.

(** ** C15: mapped views *)
(** Missing from the claim: a file shorter than the region is not rejected,
    and a product of the dimensions that overflows wraps in release builds,
    see the refutations. *)
Theorem mmap_window_partial : forall pf s m s',
  mmap_ndarray pf s = (Ok m, s') ->
  pf = Debug \/ ma_rows m * ma_cols m * 4 < two64 ->
  exists start, start mod 4 = 0 /\ s_pos s <= start /\
  mm_bytes (ma_map m) = takeN (mm_len (ma_map m)) (dropN (start - s_pos s) (s_rest s)) /\
  (forall i, i < ma_rows m -> i * (ma_cols m * 4) + ma_cols m * 4 <= mm_len (ma_map m)) /\
  (start + mm_len (ma_map m) <= s_pos s + lenN (s_rest s) ->
   forall i, i < ma_rows m -> exists row, mma_row m i = Ok row /\ lenN row = ma_cols m).
Proof. exact (@FileThms.mmap_window). Qed.
Print Assumptions mmap_window_partial.
Theorem mmap_quantized_window_partial : forall pf s m s',
  mmap_quantized_chunk pf s = (Ok m, s') ->
  (forall i, i < mmq_nrows m -> i * pq_ql (mq_pq m) + pq_ql (mq_pq m) <= mm_len (mq_map m)) /\
  (lenN (mm_bytes (mq_map m)) = mm_len (mq_map m) ->
   forall i, i < mmq_nrows m -> exists codes, mmq_codes_row m i = Ok codes /\ lenN codes = pq_ql (mq_pq m)).
Proof. exact (@FileThms.mmap_quantized_window). Qed.
Print Assumptions mmap_quantized_window_partial.
Definition ex_nd_file : list byte := ok_or (run_writer (ck_write nd_chunk ex_matrix) 0) [].
Example mmap_window_ex : exists m s', mmap_ndarray Release (mkStream ex_nd_file 0) = (Ok m, s') /\
  ma_rows m * ma_cols m * 4 < two64 /\ mma_row m 5 = a2_row ex_matrix 5.
Proof. do 2 eexists. split; [vm_compute; reflexivity|]. vm_compute. auto. Qed.
(** A truncated file is mapped; a row below the reported shape is outside. *)
Theorem mmap_truncated_refuted : exists bs m s' i,
  mmap_ndarray Release (mkStream bs 0) = (Ok m, s') /\ i < ma_rows m /\ mma_row m i = Panic PUnsafe.
Proof. exists (takeN 60 ex_nd_file). do 2 eexists. exists 5. split; [vm_compute; reflexivity|]. vm_compute. auto. Qed.
Print Assumptions mmap_truncated_refuted.
(** 2^62 rows of one column: the region has no bytes. *)
Theorem mmap_overflow_refuted : exists bs m s' i,
  mmap_ndarray Release (mkStream bs 0) = (Ok m, s') /\ i < ma_rows m /\
  mm_len (ma_map m) = 0 /\ mma_row m i = Panic PUnsafe.
Proof.
  exists (le_bytes 4 2 ++ le_bytes 8 0 ++ le_bytes 8 4611686018427387904 ++ le_bytes 4 1 ++ le_bytes 4 10 ++ [x00; x00; x00; x00]).
  do 2 eexists. exists 0. split; [vm_compute; reflexivity|]. vm_compute. auto.
Qed.
Print Assumptions mmap_overflow_refuted.

(** ** C16: wrappers *)
Theorem vocab_wrapper_thm : forall pf V VO rd ck inj,
  vkind pf V VO rd ck inj -> typed (read_vocab_wrap pf) rd inj.
Proof. exact (@FileThms.vkind_typed). Qed.
Print Assumptions vocab_wrapper_thm.
Theorem storage_wrapper_thm : forall pf gemm rw S SO rs ck inj,
  skind pf gemm rw S SO rs ck inj -> typed rw rs inj.
Proof. exact (@FileThms.skind_typed). Qed.
Print Assumptions storage_wrapper_thm.
Theorem vocab_wrapper_ops_thm : forall pf V VO rd ck inj,
  vkind pf V VO rd ck inj -> forall v,
  (forall pf' w, v_idx wrap_ops pf' (inj v) w = v_idx VO pf' v w) /\
  v_words_len wrap_ops (inj v) = v_words_len VO v /\
  (forall pf', v_vocab_len wrap_ops pf' (inj v) = v_vocab_len VO pf' v) /\
  v_words wrap_ops (inj v) = v_words VO v /\
  ck_id vwrap_chunk (inj v) = ck_id ck v /\
  (forall pos, ck_len vwrap_chunk (inj v) pos = ck_len ck v pos) /\
  ck_write vwrap_chunk (inj v) = ck_write ck v.
Proof. exact (@FileThms.vkind_ops). Qed.
Print Assumptions vocab_wrapper_ops_thm.
Theorem storage_wrapper_ops_thm : forall pf gemm rw S SO rs ck inj,
  skind pf gemm rw S SO rs ck inj -> forall s,
  (forall i, st_embedding (swrap_ops gemm) (inj s) i = st_embedding SO s i) /\
  (forall is, st_embeddings (swrap_ops gemm) (inj s) is = st_embeddings SO s is) /\
  st_shape (swrap_ops gemm) (inj s) = st_shape SO s /\
  ck_id swrap_chunk (inj s) = ck_id ck s /\
  (forall pos, ck_len swrap_chunk (inj s) pos = ck_len ck s pos) /\
  ck_write swrap_chunk (inj s) = ck_write ck s.
Proof. exact (@FileThms.skind_ops). Qed.
Print Assumptions storage_wrapper_ops_thm.
Theorem wrapped_file_thm : forall pf gemm T V VO rv cv fv rw S SO rs cs fs,
  vkind pf V VO rv cv fv -> skind pf gemm rw S SO rs cs fs ->
  typed (read_embeddings T (read_vocab_wrap pf) rw) (read_embeddings T rv rs) (emb_wrap fv fs) /\
  forall e : embeddings (toml_table T) V S f32,
    (forall k, write_file T (emb_wrap fv fs e) k = write_embeddings T cv cs e k) /\
    (forall pos, write_file_len T (emb_wrap fv fs e) pos = write_embeddings_len T cv cs e pos).
Proof. exact (@FileThms.wrapped_file). Qed.
Print Assumptions wrapped_file_thm.
Example wrapper_ex :
  vkind Release _ (sub_ops hash_ops) (read_bucketed hash_bucket_ops Release CBucketSubwordVocab) bucket_chunk VBucket /\
  let s := mkStream (ok_or (run_writer (ck_write bucket_chunk ex_bucket) 0) []) 0 in
  fst (read_vocab_wrap Release s) = Ok (VBucket ex_bucket) /\
  fst (read_bucketed ft_bucket_ops Release CFastTextSubwordVocab s) = Err EFormat.
Proof. split; [constructor|]. vm_compute. auto. Qed.

(** ** C51: stream position *)
(** Missing from the claim: embeddings without norms, see the refutation. *)
Theorem file_position_partial : forall pf T e s0 base,
  toml_law T -> emb_built pf T e s0 -> em_norms e <> None ->
  exists bytes, run_writer (write_file T e) base = Ok bytes /\
  reads_back (read_file pf T) base bytes (loaded e s0 (em_norms e)).
Proof. exact (@FileThms.file_position). Qed.
Print Assumptions file_position_partial.
Example file_position_ex :
  snd (read_file Release ex_toml (mkStream (file_of (ex_emb (Some ex_norms)) 0 ++ [x01; x02; x03]) 0))
  = mkStream [x01; x02; x03] (lenN (file_of (ex_emb (Some ex_norms)) 0)).
Proof. vm_compute. reflexivity. Qed.
Theorem file_position_refuted : exists (e : emb ex_toml) tail s',
  emb_built Release ex_toml e (em_storage e) /\
  read_file Release ex_toml (mkStream (file_of e 0 ++ tail) 0) = (Ok e, s') /\
  tail <> [] /\ s_rest s' <> tail /\ lenN (file_of e 0) < s_pos s'.
Proof.
  exists (ex_emb None), [x01; x02; x03; x04; x05]. eexists. split; [apply ex_built_none|].
  split; [vm_compute; reflexivity|]. split; [discriminate|]. split; [discriminate|vm_compute; reflexivity].
Qed.
Print Assumptions file_position_refuted.

(** ** C52: consistency of what is loaded *)
(** Missing from the claim: the number of rows and of norms, see the
    refutation.  What does hold: the vocabulary and the storage could each
    have been made by their constructors. *)
Theorem file_loaded_partial : forall pf T s e s',
  read_file pf T s = (Ok e, s') ->
  (forall t, em_meta e = Some t -> lenN (toml_print T t) <= isize_max) ->
  emb_built pf T e (em_storage e).
Proof. exact (@ReadFacts.read_file_built). Qed.
Print Assumptions file_loaded_partial.
Theorem file_consistent_refuted : exists bs e s' n,
  read_file Release ex_toml (mkStream bs 0) = (Ok e, s') /\
  v_vocab_len wrap_ops Release (em_vocab e) = Ok n /\
  n = 6 /\ fst (st_shape (swrap_ops (fun _ r => r)) (em_storage e)) = 1 /\
  v_words_len wrap_ops (em_vocab e) = 2 /\ em_norms e = Some [ex_f 3].
Proof.
  exists (file_of (mkEmb None (SNdArray (mkA2 1 [[ex_f 1]])) (VBucket ex_bucket) (Some [ex_f 3]) : emb ex_toml) 0).
  do 3 eexists. split; [vm_compute; reflexivity|]. split; [vm_compute; reflexivity|]. vm_compute. auto.
Qed.
Print Assumptions file_consistent_refuted.

(** ** C53: malformed input *)
(** Missing from the claim: the listed panics do happen, see the refutation. *)
Theorem file_panics_partial : forall pf T,
  panics_only (read_file pf T)
  [PDuplicateWords; PDuplicateNGrams; PCapacity; PDivByZero; PAssert; PArithOverflow].
Proof. exact (@PanicFacts.read_file_panics). Qed.
Print Assumptions file_panics_partial.
Definition ex_head (ids : list chunk_id) : list byte := header_layout ids.
Theorem file_panics_refuted :
  forall p, In p [PDuplicateWords; PDuplicateNGrams; PCapacity; PDivByZero; PAssert; PArithOverflow] ->
  exists bs, fst (read_file Debug ex_toml (mkStream bs 0)) = Panic p.
Proof.
  intros p [<-|[<-|[<-|[<-|[<-|[<-|[]]]]]]].
  - (* the same word twice *)
    exists (ex_head [CSimpleVocab] ++ le_bytes 4 1 ++ le_bytes 8 0 ++ le_bytes 8 2 ++ le_bytes 4 1 ++ [x61] ++ le_bytes 4 1 ++ [x61]).
    vm_compute. reflexivity.
  - (* the same n-gram twice *)
    exists (ex_head [CExplicitSubwordVocab] ++ le_bytes 4 8 ++ le_bytes 8 0 ++ le_bytes 8 0 ++ le_bytes 8 2 ++ le_bytes 4 3 ++ le_bytes 4 6
      ++ le_bytes 4 1 ++ [x61] ++ le_bytes 8 0 ++ le_bytes 4 1 ++ [x61] ++ le_bytes 8 1).
    vm_compute. reflexivity.
  - (* 2^63 words *)
    exists (ex_head [CSimpleVocab] ++ le_bytes 4 1 ++ le_bytes 8 0 ++ le_bytes 8 9223372036854775808).
    vm_compute. reflexivity.
  - (* quantized length 0 *)
    exists (ex_head [CSimpleVocab] ++ le_bytes 4 1 ++ le_bytes 8 0 ++ le_bytes 8 0
      ++ le_bytes 4 4 ++ le_bytes 8 0 ++ le_bytes 4 0 ++ le_bytes 4 0 ++ le_bytes 4 0 ++ le_bytes 4 0 ++ le_bytes 4 0 ++ le_bytes 8 0).
    vm_compute. reflexivity.
  - (* 65 bits of buckets *)
    exists (ex_head [CBucketSubwordVocab] ++ le_bytes 4 3 ++ le_bytes 8 0 ++ le_bytes 8 0 ++ le_bytes 4 3 ++ le_bytes 4 6 ++ le_bytes 4 65).
    vm_compute. reflexivity.
  - (* 64 bits of buckets, with overflow checks *)
    exists (ex_head [CBucketSubwordVocab] ++ le_bytes 4 3 ++ le_bytes 8 0 ++ le_bytes 8 0 ++ le_bytes 4 3 ++ le_bytes 4 6 ++ le_bytes 4 64).
    vm_compute. reflexivity.
Qed.
Print Assumptions file_panics_refuted.

(** ** C69: files followed by other data *)
Theorem file_followed_thm : forall pf T e s0 base,
  toml_law T -> emb_built pf T e s0 ->
  exists bytes, run_writer (write_file T e) base = Ok bytes /\
  forall tail, let whole := mkStream (bytes ++ tail) base in let rest := mkStream tail (base + lenN bytes) in
  match em_norms e with
  | Some ns => read_file pf T whole = (Ok (loaded e s0 (Some ns)), rest)
  | None =>
      (forall ns s', norms_at rest ns s' -> read_file pf T whole = (Ok (loaded e s0 (Some ns)), s')) /\
      (norms_too_long rest -> exists s', read_file pf T whole = (Panic PCapacity, s')) /\
      (~ (exists ns s', norms_at rest ns s') -> ~ norms_too_long rest ->
       exists s', read_file pf T whole = (Ok (loaded e s0 None), s') /\ s_rest s' = left_after_norms tail)
  end.
Proof. exact (@FileExact.file_followed). Qed.
Print Assumptions file_followed_thm.
(** After a file without norms, four bytes are lost, or 24 bytes of what looks
    like norms of another type; norms of any length are taken. *)
Example file_followed_ex : let f := file_of (ex_emb None) 0 in
  let norms := ok_or (run_writer (write_norms [ex_f 7]) (lenN f)) [] in
  emb_built Release ex_toml (ex_emb None) (SNdArray ex_matrix) /\
  s_rest (snd (read_file Release ex_toml (mkStream (f ++ [x01; x02; x03; x04; x05]) 0))) = [x05] /\
  left_after_norms [x01; x02; x03; x04; x05] = [x05] /\
  s_rest (snd (read_file Release ex_toml (mkStream (f ++ takeN 20 norms ++ [x01; x02; x03; x04; x05]) 0))) = [x05] /\
  em_norms (ok_or (fst (read_file Release ex_toml (mkStream (f ++ norms ++ [x05]) 0))) (ex_emb None)) = Some [ex_f 7] /\
  fst (read_file Release ex_toml (mkStream (f ++ le_bytes 4 6 ++ le_bytes 8 0 ++ le_bytes 8 isize_max ++ le_bytes 4 10) 0)) = Panic PCapacity.
Proof. split; [apply ex_built_none|]. vm_compute. auto. Qed.

(** ** C70: truncated files *)
Theorem file_cut_thm : forall pf T e s0 base bytes,
  toml_law T -> emb_built pf T e s0 ->
  run_writer (write_file T e) base = Ok bytes ->
  exists main norms, bytes = main ++ norms /\
  match em_norms e with
  | Some ns => exists pad, takeN 4 norms = le_bytes 4 6 /\ lenN norms = 24 + pad + 4 * lenN ns /\ 1 <= pad <= 4
  | None => norms = []
  end /\
  exists pad, (if storage_empty s0 then 1 <= pad <= 4 /\ exists data, main = data ++ zeros pad else pad = 0) /\
  forall p q, bytes = p ++ q -> q <> [] ->
    (lenN p + pad < lenN main -> exists err s', read_file pf T (mkStream p base) = (Err err, s')) /\
    (lenN main <= lenN p + pad -> exists s', read_file pf T (mkStream p base) =
       (Ok (loaded e s0 (match em_norms e with
                         | Some [] => if lenN main + 24 <=? lenN p then Some [] else None
                         | _ => None
                         end)), s')).
Proof. exact (@FileExact.file_cut). Qed.
Print Assumptions file_cut_thm.
(** An empty matrix and empty norms: the results of reading all prefixes. *)
Definition ex_hollow : emb ex_toml := mkEmb None (SNdArray (mkA2 2 [])) (VSimple (mkSimple [] [])) (Some []).
Example file_cut_ex : let f := file_of ex_hollow 0 in
  emb_built Release ex_toml ex_hollow (SNdArray (mkA2 2 [])) /\ storage_empty (SNdArray (mkA2 2 [])) = true /\ lenN f = 104 /\
  map (fun n => match fst (read_file Release ex_toml (mkStream (takeN n f) 0)) with
                | Ok e => Some (em_norms e) | _ => None end) [0; 71; 72; 75; 76; 99; 100; 103; 104]
  = [None; None; Some None; Some None; Some None; Some None; Some (Some []); Some (Some []); Some (Some [])].
Proof.
  split; [|split; [reflexivity|split; vm_compute; reflexivity]]. split.
  - apply (vb_simple Release []); [split; [constructor|vm_compute; discriminate]|reflexivity].
  - constructor. split; [constructor|]. split; [reflexivity|]. split; [reflexivity|]. split; vm_compute; discriminate.
  - discriminate.
  - intros ns H. inv H. vm_compute. discriminate.
Qed.

(** ** C71: what can be loaded *)
Theorem loadable_thm : forall pf T e,
  toml_law T -> (forall t, em_meta e = Some t -> lenN (toml_print T t) <= isize_max) ->
  (exists s s', read_file pf T s = (Ok e, s')) <-> emb_built pf T e (em_storage e).
Proof. exact (@FileExact.loadable). Qed.
Print Assumptions loadable_thm.
Example loadable_ex : toml_law ex_toml /\ (forall t, em_meta (ex_emb (Some ex_norms)) = Some t -> lenN (toml_print ex_toml t) <= isize_max) /\
  emb_built Release ex_toml (ex_emb (Some ex_norms)) (em_storage (ex_emb (Some ex_norms))).
Proof. split; [apply ex_toml_law|]. split; [intros [] _; vm_compute; discriminate|apply ex_built_norms]. Qed.

(** ** C72: reading and writing again *)
Theorem file_rewrite_thm : forall pf T e s0,
  toml_law T -> emb_built pf T e s0 ->
  forall k, write_file T (loaded e s0 (em_norms e)) k = write_file T e k.
Proof. exact (@FileExact.file_rewrite). Qed.
Print Assumptions file_rewrite_thm.
Theorem file_same_bytes_thm : forall pf T e s0 base bytes,
  toml_law T -> emb_built pf T e s0 ->
  run_writer (write_file T e) base = Ok bytes ->
  exists e' s', read_file pf T (mkStream bytes base) = (Ok e', s') /\ run_writer (write_file T e') base = Ok bytes.
Proof. exact (@FileExact.file_same_bytes). Qed.
Print Assumptions file_same_bytes_thm.
Example file_same_bytes_ex : let f := file_of (ex_emb (Some ex_norms)) 5 in
  file_of (ok_or (fst (read_file Release ex_toml (mkStream f 5))) (ex_emb None)) 5 = f.
Proof. vm_compute. reflexivity. Qed.
