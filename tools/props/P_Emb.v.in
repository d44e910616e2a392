(** * Theorems about lookups, batches and matrices (C26-C30, C33, C74, C107). *)
From Coq Require Import Reals.
From Verif Require Import Base BaseFacts Utf8 F32 Subword Vocab Storage Embeddings FileSpec VocabSpec EmbSpec LookupExactSpec RealOps EmbReal.
From Verif Require Import IterThms.
From Verif Require MatrixFacts EmbFacts BatchFacts EmbExact.
Local Open Scope N_scope.

(** ** Concrete values for the examples

    Two words and four buckets; six rows of two columns. *)
Definition ex_words : list str := [[x65; x65; x6e]; [x74; x77; x65; x65]].   (* een, twee *)
Definition ex_unknown : str := [xc3; xab; x65; x6e].                          (* ëen *)
Definition ex_hash : hash_indexer := mkHashIx 2 3.
Definition ex_vocab : vocab_wrap :=
  VBucket (mkSub default_bow default_eow ex_hash (create_indices ex_words) ex_words 3 6).
Lemma ex_vocab_made : vocab_made Debug ex_vocab.
Proof.
  apply (vm_bucket Debug ex_words 3 6 ex_hash default_bow default_eow); [|vm_compute; reflexivity].
  apply (im_hash 2); [discriminate|reflexivity].
Qed.
Lemma ex_vocab_usable : vocab_usable ex_vocab.
Proof. intros mn mx bow eow H. inv H. split; [split; vm_compute; discriminate|]. auto. Qed.

Definition fN : N -> f32 := f32_of_N.
Definition ex_rows : list (list f32) := map (fun i => [fN i; fN (i + 1)]) [1; 2; 3; 4; 5; 6].
Definition ex_matrix : array2 f32 := mkA2 2 ex_rows.
Definition ex_emb : embeddings unit vocab_wrap (array2 f32) f32 :=
  mkEmb None ex_matrix ex_vocab (Some [fN 7; fN 8]).
Lemma ex_matrix_wf : a2_wf ex_matrix.
Proof. repeat constructor. Qed.
Lemma ex_emb_made : emb_made (nd_ops f32) Debug ex_emb 2 ex_rows.
Proof.
  split; [apply ex_vocab_made|]. split; [apply (MatrixFacts.nd_matrix ex_matrix ex_matrix_wf)|]. vm_compute. reflexivity.
Qed.
Definition ex_real_rows : list (list R) := map (fun i => [IZR i; IZR (i + 1)]) [1; 2; 3; 4; 5; 6]%Z.
Definition ex_real : embeddings unit vocab_wrap (array2 R) R := mkEmb None (mkA2 2 ex_real_rows) ex_vocab None.
Lemma ex_real_made : emb_made (nd_ops R) Debug ex_real 2 ex_real_rows.
Proof.
  split; [apply ex_vocab_made|]. split.
  - apply (MatrixFacts.nd_matrix (mkA2 2 ex_real_rows)). repeat constructor.
  - reflexivity.
Qed.

(** ** C33: storages *)
@thm storage_matrix_thm MatrixFacts storage_matrix
@thm storage_clones_thm MatrixFacts storage_clones
@thm storage_reconstruct_thm MatrixFacts storage_reconstruct
@thm reconstruct_norms_thm MatrixFacts reconstruct_norms
@thm matrix_stacks_thm MatrixFacts matrix_stacks
@thm nd_matrix_thm MatrixFacts nd_matrix
@thm nd_clones_thm MatrixFacts nd_clones
@thm quantized_matrix_thm MatrixFacts qa_matrix | forall (F : Type) (o : fops F) gemm q, qa_usable q -> gemm_exact o gemm q ->
@thm quantized_clones_thm MatrixFacts qa_clones
Definition ex_gemm (m : array2 f32) (vs : list (list f32)) : list (list f32) :=
  map (fun v => map (fun r => vdot f32_ops r v) (a2_rows m)) vs.
(** Two subquantizers with two centroids of one component; a projection that
    swaps the components; norms. *)
Definition ex_quantized : quantized f32 :=
  mkQuant (mkPq (Some (mkA2 2 [[fN 0; fN 1]; [fN 1; fN 0]])) 2 2 1 [[[fN 1]; [fN 2]]; [[fN 3]; [fN 4]]])
              (mkA2 2 [[x00; x01]; [x01; x00]; [x01; x01]]) (Some [fN 1; fN 10; fN 100]).
Lemma ex_quantized_usable : qa_usable ex_quantized.
Proof.
  split; try reflexivity.
  - repeat constructor.
  - intros m H. inv H. reflexivity.
  - repeat constructor.
  - intros ns H. inv H. reflexivity.
Qed.
Example storage_matrix_ex : holds_matrix ex_gemm (SQuantized ex_quantized) 2 (quantized_rows f32_ops ex_quantized) /\
  quantized_rows f32_ops ex_quantized = [[fN 4; fN 1]; [fN 30; fN 20]; [fN 400; fN 200]] /\
  holds_matrix ex_gemm (SNdArray ex_matrix) 2 ex_rows /\
  selects ex_rows [5; 0; 5] [[fN 6; fN 7]; [fN 1; fN 2]; [fN 6; fN 7]].
Proof.
  split; [apply (hm_qa ex_gemm ex_quantized ex_quantized_usable); intros m H vs; inv H; reflexivity|].
  split; [vm_compute; reflexivity|]. split; [apply (hm_nd ex_gemm ex_matrix ex_matrix_wf)|]. repeat constructor.
Qed.
Example reconstruct_norms_ex : let q := mkQuant (qa_pq ex_quantized) (qa_codes ex_quantized) None in
  qa_usable q /\ gemm_exact f32_ops ex_gemm q /\ a2_nrows (qa_codes q) = 3 /\
  quantized_rows f32_ops q = [[fN 4; fN 1]; [fN 3; fN 2]; [fN 4; fN 2]].
Proof.
  split; [|split; [intros m H vs; inv H; reflexivity|split; [reflexivity|vm_compute; reflexivity]]].
  destruct ex_quantized_usable as [U1 U2 U3 U4 _]. split; auto. intros ns H. discriminate.
Qed.
(** A file may contain codes that are not numbers of centroids. *)
Theorem quantized_code_refuted : exists q : quantized f32,
  st_shape (qa_ops f32_ops ex_gemm) q = (1, 2) /\ st_embedding (qa_ops f32_ops ex_gemm) q 0 = Panic PIndexOutOfBounds.
Proof.
  exists (mkQuant (qa_pq ex_quantized) (mkA2 2 [[x00; x02]]) None). split; vm_compute; reflexivity.
Qed.
Print Assumptions quantized_code_refuted.

(** ** C26: known words, and no lookup panics *)
@thm known_word_thm EmbFacts known_word | forall (Md S F : Type) (o : fops F) (SO : storage_ops F S) pf (e : embeddings Md vocab_wrap S F) cols rows, emb_made SO pf e cols rows ->
(** Full statement: without the hypothesis [vocab_usable]. *)
@thm lookup_total_partial EmbFacts lookup_cases | forall (Md S F : Type) (o : fops F) (SO : storage_ops F S) pf (e : embeddings Md vocab_wrap S F) cols rows, emb_made SO pf e cols rows -> vocab_usable (em_vocab e) ->
Example known_word_ex : emb_made (nd_ops f32) Debug ex_emb 2 ex_rows /\ vocab_usable (em_vocab ex_emb) /\
  nthN (v_words wrap_ops (em_vocab ex_emb)) 1 = Some [x74; x77; x65; x65] /\
  emb_embedding f32_ops wrap_ops (nd_ops f32) Debug ex_emb [x74; x77; x65; x65] = Ok (Some [fN 2; fN 3]) /\
  emb_embedding f32_ops wrap_ops (nd_ops f32) Debug ex_emb [] = Ok None.
Proof. split; [apply ex_emb_made|]. split; [apply ex_vocab_usable|]. vm_compute. auto. Qed.
(** The constructors accept n-grams of length zero; lookups then panic. *)
Theorem lookup_total_refuted : exists (e : embeddings unit vocab_wrap (array2 f32) f32) w,
  emb_made (nd_ops f32) Debug e 2 ex_rows /\ utf8_valid w = true /\
  emb_embedding f32_ops wrap_ops (nd_ops f32) Debug e w = Panic PAssert.
Proof.
  exists (mkEmb None ex_matrix (VBucket (mkSub default_bow default_eow ex_hash (create_indices ex_words) ex_words 0 6)) None), ex_unknown.
  split; [|split; vm_compute; reflexivity].
  split; [|split; [apply (MatrixFacts.nd_matrix ex_matrix ex_matrix_wf)|vm_compute; reflexivity]].
  apply (vm_bucket Debug ex_words 0 6 ex_hash default_bow default_eow); [|vm_compute; reflexivity].
  apply (im_hash 2); [discriminate|reflexivity].
Qed.
Print Assumptions lookup_total_refuted.

(** ** C27: unknown words *)
@thm unknown_sum_thm EmbFacts unknown_word | forall (Md S F : Type) (o : fops F) (SO : storage_ops F S) pf (e : embeddings Md vocab_wrap S F) cols rows, emb_made SO pf e cols rows ->
@thm unknown_unit_thm EmbReal unknown_unit
Example unknown_sum_ex : emb_made (nd_ops f32) Debug ex_emb 2 ex_rows /\
  exists is v, v_idx wrap_ops Debug ex_vocab ex_unknown = Ok (Some (Subwords is)) /\ lenN is = 6 /\
  Forall (fun i => i < lenN ex_rows) is /\
  emb_embedding f32_ops wrap_ops (nd_ops f32) Debug ex_emb ex_unknown = Ok (Some v) /\
  f32_cmp (vdot f32_ops v v) (f32_div (fN 9999) (fN 10000)) = Some Gt.
Proof.
  split; [apply ex_emb_made|]. do 2 eexists. split; [vm_compute; reflexivity|]. split; [reflexivity|].
  split; [repeat constructor|]. split; [vm_compute; reflexivity|]. vm_compute. reflexivity.
Qed.
Example unknown_unit_ex : emb_made (nd_ops R) Debug ex_real 2 ex_real_rows /\
  exists is, v_idx wrap_ops Debug ex_vocab ex_unknown = Ok (Some (Subwords is)) /\ Forall (fun i => i < lenN ex_real_rows) is /\ is <> [].
Proof.
  split; [apply ex_real_made|]. eexists. split; [vm_compute; reflexivity|]. split; [|discriminate]. repeat constructor.
Qed.
(** In [f32] the length of a vector that is not zero may be computed as zero
    (squares underflow): the vector is not scaled.  It may also be computed
    as infinity: the result is the zero vector. *)
Definition ex_tiny : f32 := F32 x00 x00 x00 x10.
Definition ex_huge : f32 := F32 x00 x00 x00 x70.
Theorem unit_length_refuted :
  (exists v, l2_normalize f32_ops v = (v, f32_zero) /\ Exists (fun x => f32_is_zero x = false) v) /\
  (exists v, Forall (fun x => f32_is_zero x = false) v /\
     Forall (fun x => f32_is_zero x = true) (fst (l2_normalize f32_ops v))).
Proof.
  split.
  - exists [ex_tiny; ex_tiny]. split; [vm_compute; reflexivity|]. left. vm_compute. reflexivity.
  - exists [ex_huge; ex_huge]. split; [repeat constructor|].
    assert (fst (l2_normalize f32_ops [ex_huge; ex_huge]) = [f32_zero; f32_zero]) as -> by (vm_compute; reflexivity).
    repeat constructor.
Qed.
Print Assumptions unit_length_refuted.

(** ** C28: embedding_into *)
@thm into_agrees_thm EmbFacts into_agrees | forall (Md S F : Type) (o : fops F) (SO : storage_ops F S) pf (e : embeddings Md vocab_wrap S F) cols rows, emb_made SO pf e cols rows -> vocab_usable (em_vocab e) ->
@thm into_wrong_thm EmbFacts into_wrong | forall (Md S F : Type) (o : fops F) (SO : storage_ops F S) pf (e : embeddings Md vocab_wrap S F) cols rows, emb_made SO pf e cols rows ->
Example into_agrees_ex : emb_made (nd_ops f32) Debug ex_emb 2 ex_rows /\ vocab_usable (em_vocab ex_emb) /\
  lenN [fN 9; fN 9] = 2 /\ utf8_valid ex_unknown = true /\
  emb_embedding_into f32_ops wrap_ops (nd_ops f32) Debug ex_emb [x65; x65; x6e] [fN 9; fN 9] = Ok ([fN 1; fN 2], true) /\
  emb_embedding_into f32_ops wrap_ops (nd_ops f32) Debug ex_emb [] [fN 9; fN 9] = Ok ([fN 9; fN 9], false).
Proof. split; [apply ex_emb_made|]. split; [apply ex_vocab_usable|]. vm_compute. auto. Qed.

(** ** C29: batches *)
@thm batch_into_thm BatchFacts batch_into_lookups | forall (Md S F : Type) (o : fops F) (SO : storage_ops F S) pf,
@thm batch_thm BatchFacts batch_lookups | forall (Md S F : Type) (o : fops F) (SO : storage_ops F S) pf,
@thm batch_order_thm BatchFacts batch_order | forall (Md S F : Type) (o : fops F) (SO : storage_ops F S) pf,
@thm batch_wrong_thm BatchFacts batch_wrong | forall (Md S F : Type) (o : fops F) (SO : storage_ops F S) pf,
Example batch_ex : any_order (@rev (str * list N)) /\ emb_made (nd_ops f32) Debug ex_emb 2 ex_rows /\
  vocab_usable (em_vocab ex_emb) /\
  emb_batch f32_ops wrap_ops (nd_ops f32) Debug (@rev _) ex_emb [[x65; x65; x6e]; []; [x65; x65; x6e]]
  = Ok ([[fN 1; fN 2]; [fN 0; fN 0]; [fN 1; fN 2]], [true; false; true]).
Proof.
  split; [intros m; apply Permutation.Permutation_rev|]. split; [apply ex_emb_made|]. split; [apply ex_vocab_usable|].
  vm_compute. reflexivity.
Qed.

(** ** C30: norms and iterators *)
@thm with_norm_thm BatchFacts with_norm_known | forall (Md S F : Type) (o : fops F) (SO : storage_ops F S) pf,
@thm iter_thm BatchFacts iter_exact | forall (Md S F : Type) (o : fops F) (SO : storage_ops F S) pf,
@thm iter_with_norms_thm BatchFacts iter_with_norms_exact | forall (Md S F : Type) (o : fops F) (SO : storage_ops F S) pf,
Example iter_with_norms_ex : emb_made (nd_ops f32) Debug ex_emb 2 ex_rows /\
  (forall ns, em_norms ex_emb = Some ns -> lenN ns = v_words_len wrap_ops (em_vocab ex_emb)) /\
  emb_iter_with_norms f32_ops wrap_ops (nd_ops f32) ex_emb
  = Ok [([x65; x65; x6e], ([fN 1; fN 2], fN 7)); ([x74; x77; x65; x65], ([fN 2; fN 3], fN 8))] /\
  into_unnormalized f32_ops ([fN 1; fN 2], fN 7) = [fN 7; fN 14].
Proof. split; [apply ex_emb_made|]. split; [intros ns H; inv H; reflexivity|]. split; vm_compute; reflexivity. Qed.

(** ** C107: iterators, call by call *)
@thm iter_calls_thm IterThms iter_calls | forall (Md V S F : Type) (VO : vocab_ops V) (SO : storage_ops F S),
@thm iter_norms_calls_thm IterThms iter_norms_calls | forall (Md V S F : Type) (o : fops F) (VO : vocab_ops V) (SO : storage_ops F S),
@thm iter_loop_thm IterThms iter_loop | forall (Md V S F : Type) (o : fops F) (VO : vocab_ops V) (SO : storage_ops F S),
@thm iter_made_thm IterThms iter_made | forall (Md S F : Type) (o : fops F) (SO : storage_ops F S) pf,
@thm iter_norms_made_thm IterThms iter_norms_made | forall (Md S F : Type) (o : fops F) (SO : storage_ops F S) pf,
(** Four calls for two words.  With a matrix and norms for one word only
    (which no constructor builds) the second call panics and the third one
    returns the end. *)
Definition ex_short : embeddings unit vocab_wrap (array2 f32) f32 :=
  mkEmb None (mkA2 2 [[fN 1; fN 2]]) (em_vocab ex_emb) (Some [fN 7]).
Example iter_calls_ex :
  emb_made (nd_ops f32) Debug ex_emb 2 ex_rows /\
  (forall ns, em_norms ex_emb = Some ns -> lenN ns = v_words_len wrap_ops (em_vocab ex_emb)) /\
  (length (v_words wrap_ops (em_vocab ex_emb)) < 4)%nat /\
  calls (iter_next (nd_ops f32) ex_emb) 4 (iter_start wrap_ops ex_emb)
  = [Ok (Some ([x65; x65; x6e], [fN 1; fN 2])); Ok (Some ([x74; x77; x65; x65], [fN 2; fN 3])); Ok None; Ok None] /\
  calls (iter_norms_next f32_ops (nd_ops f32) ex_emb) 3 (iter_start wrap_ops ex_emb)
  = [Ok (Some ([x65; x65; x6e], ([fN 1; fN 2], fN 7))); Ok (Some ([x74; x77; x65; x65], ([fN 2; fN 3], fN 8))); Ok None] /\
  calls (iter_norms_next f32_ops (nd_ops f32) ex_short) 4 (iter_start wrap_ops ex_short)
  = [Ok (Some ([x65; x65; x6e], ([fN 1; fN 2], fN 7))); Panic PIndexOutOfBounds; Ok None; Ok None].
Proof.
  split; [apply ex_emb_made|]. split; [intros ns H; inv H; reflexivity|]. repeat split; vm_compute; try reflexivity. repeat constructor.
Qed.

(** ** C74: exactly when lookups of embeddings panic *)
@thm embedding_panics_thm EmbExact lookup_panics_exact | forall (Md S F : Type) (o : fops F) (SO : storage_ops F S) pf (e : embeddings Md vocab_wrap S F) cols rows, emb_made SO pf e cols rows -> bounds_utf8 (em_vocab e) ->
@thm with_norm_panics_thm EmbExact with_norm_panics_exact | forall (Md S F : Type) (o : fops F) (SO : storage_ops F S) pf (e : embeddings Md vocab_wrap S F) cols rows, emb_made SO pf e cols rows -> bounds_utf8 (em_vocab e) ->
@thm into_always_agrees_thm EmbExact emb_into_agrees | forall (Md S F : Type) (o : fops F) (SO : storage_ops F S) pf (e : embeddings Md vocab_wrap S F) cols rows, emb_made SO pf e cols rows -> bounds_utf8 (em_vocab e) ->
@thm batch_into_panics_thm EmbExact batch_into_panics | forall (Md S F : Type) (o : fops F) (SO : storage_ops F S) pf (e : embeddings Md vocab_wrap S F) cols rows, emb_made SO pf e cols rows -> bounds_utf8 (em_vocab e) -> forall words out0, Forall (fun w => utf8_valid w = true) words -> lenN out0 = lenN words -> Forall (fun r => lenN r = cols) out0 ->
@thm batch_panics_thm EmbExact batch_panics | forall (Md S F : Type) (o : fops F) (SO : storage_ops F S) pf,
(** n-grams of length zero: words are found, other strings panic, also in a
    batch. *)
Definition ex_bad : embeddings unit vocab_wrap (array2 f32) f32 :=
  mkEmb None ex_matrix (VBucket (mkSub default_bow default_eow ex_hash (create_indices ex_words) ex_words 0 6)) None.
Example embedding_panics_ex :
  emb_made (nd_ops f32) Debug ex_bad 2 ex_rows /\ bounds_utf8 (em_vocab ex_bad) /\
  unusable_lookup (em_vocab ex_bad) ex_unknown /\
  emb_batch f32_ops wrap_ops (nd_ops f32) Debug (@rev _) ex_bad [[x65; x65; x6e]; ex_unknown] = Panic PAssert /\
  emb_batch f32_ops wrap_ops (nd_ops f32) Debug (@rev _) ex_bad [[x65; x65; x6e]] = Ok ([[fN 1; fN 2]], [true]).
Proof.
  split.
  - split; [|split; [apply (MatrixFacts.nd_matrix ex_matrix ex_matrix_wf)|vm_compute; reflexivity]].
    apply (vm_bucket Debug ex_words 0 6 ex_hash default_bow default_eow); [|vm_compute; reflexivity].
    apply (im_hash 2); [discriminate|reflexivity].
  - split; [intros mn mx bow eow H; inv H; auto|]. split; [|split; vm_compute; reflexivity].
    split; [intros [H|[H|[]]]; discriminate|]. exists 0, 6, default_bow, default_eow. split; [reflexivity|].
    intros [H _]. apply H. reflexivity.
Qed.
(** Two words and 2^61 columns: the result would not fit in memory. *)
Definition ex_wide : embeddings unit vocab_wrap (array2 f32) f32 :=
  mkEmb None (mkA2 (2 ^ 61) []) (VSimple (mkSimple (create_indices []) [])) None.
Example batch_capacity_ex :
  emb_made (nd_ops f32) Debug ex_wide (2 ^ 61) [] /\ bounds_utf8 (em_vocab ex_wide) /\
  isize_max < 4 * lenN [ex_unknown; []] * 2 ^ 61 /\
  emb_batch f32_ops wrap_ops (nd_ops f32) Debug (@rev _) ex_wide [ex_unknown; []] = Panic PCapacity.
Proof.
  split; [split; [apply (vm_simple Debug []); vm_compute; reflexivity|]|].
  - split; [|vm_compute; reflexivity]. apply (MatrixFacts.nd_matrix (mkA2 (2 ^ 61) [])). constructor.
  - split; [intros mn mx bow eow H; inv H|]. split; vm_compute; reflexivity.
Qed.
