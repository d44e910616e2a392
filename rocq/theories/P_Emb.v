(** * Theorems about lookups, batches and matrices (C26-C30, C33, C74, C107). *)
From Coq Require Import Reals.
From Verif Require Import Base BaseFacts Utf8 F32 Subword Vocab Storage Embeddings FileSpec VocabSpec EmbSpec LookupExactSpec RealOps EmbReal.
From Verif Require Import IterThms.
From Verif Require MatrixFacts EmbFacts BatchFacts EmbExact.
Local Open Scope N_scope.

(** ** Concrete values for the examples

    Two words and four buckets; six rows of two columns. *)
Definition ex_words : list str := [[x65; x65; x6e]; [x74; x77; x65; x65]].   (* een, twee *)
Definition ex_unknown : str := [xc3; xab; x65; x6e].                          (* ëen *)
Definition ex_hash : hash_indexer := mkHashIx 2 3.
Definition ex_vocab : vocab_wrap :=
  VBucket (mkSub default_bow default_eow ex_hash (create_indices ex_words) ex_words 3 6).
Lemma ex_vocab_made : vocab_made Debug ex_vocab.
Proof.
  apply (vm_bucket Debug ex_words 3 6 ex_hash default_bow default_eow); [|vm_compute; reflexivity].
  apply (im_hash 2); [discriminate|reflexivity].
Qed.
Lemma ex_vocab_usable : vocab_usable ex_vocab.
Proof. intros mn mx bow eow H. inv H. split; [split; vm_compute; discriminate|]. auto. Qed.

Definition fN : N -> f32 := f32_of_N.
Definition ex_rows : list (list f32) := map (fun i => [fN i; fN (i + 1)]) [1; 2; 3; 4; 5; 6].
Definition ex_matrix : array2 f32 := mkA2 2 ex_rows.
Definition ex_emb : embeddings unit vocab_wrap (array2 f32) f32 :=
  mkEmb None ex_matrix ex_vocab (Some [fN 7; fN 8]).
Lemma ex_matrix_wf : a2_wf ex_matrix.
Proof. repeat constructor. Qed.
Lemma ex_emb_made : emb_made (nd_ops f32) Debug ex_emb 2 ex_rows.
Proof.
  split; [apply ex_vocab_made|]. split; [apply (MatrixFacts.nd_matrix ex_matrix ex_matrix_wf)|]. vm_compute. reflexivity.
Qed.
Definition ex_real_rows : list (list R) := map (fun i => [IZR i; IZR (i + 1)]) [1; 2; 3; 4; 5; 6]%Z.
Definition ex_real : embeddings unit vocab_wrap (array2 R) R := mkEmb None (mkA2 2 ex_real_rows) ex_vocab None.
Lemma ex_real_made : emb_made (nd_ops R) Debug ex_real 2 ex_real_rows.
Proof.
  split; [apply ex_vocab_made|]. split.
  - apply (MatrixFacts.nd_matrix (mkA2 2 ex_real_rows)). repeat constructor.
  - reflexivity.
Qed.

(** ** C33: storages *)
Theorem storage_matrix_thm : forall gemm s cols rows,
  holds_matrix gemm s cols rows ->
  st_matrix (swrap_ops gemm) s cols rows.
Proof. exact (@MatrixFacts.storage_matrix). Qed.
Print Assumptions storage_matrix_thm.
Theorem storage_clones_thm : forall gemm s cols rows,
  holds_matrix gemm s cols rows ->
  forall is rs, selects rows is rs -> exists s', swrap_clone_from_mapping s is = Ok s' /\ holds_matrix gemm s' cols rs.
Proof. exact (@MatrixFacts.storage_clones). Qed.
Print Assumptions storage_clones_thm.
Theorem storage_reconstruct_thm : forall gemm s cols rows,
  holds_matrix gemm s cols rows ->
  match s with
  | SQuantized q => qa_reconstruct f32_ops gemm q = Ok (mkA2 cols rows)
  | SMmapQuantized m => mmq_reconstruct gemm m = Ok (mkA2 cols rows)
  | SNdArray a => a = mkA2 cols rows
  | SMmapArray m => mma_view m = Ok (mkA2 cols rows)
  end.
Proof. exact (@MatrixFacts.storage_reconstruct). Qed.
Print Assumptions storage_reconstruct_thm.
Theorem reconstruct_norms_thm : forall (F : Type) (o : fops F) gemm p codes ns,
  qa_usable (mkQuant p codes None) -> gemm_exact o gemm (mkQuant p codes None) ->
  let rows := quantized_rows o (mkQuant p codes None) in
  qa_reconstruct o gemm (mkQuant p codes None) = Ok (mkA2 (pq_rl p) rows) /\
  (lenN ns = a2_nrows codes -> qa_reconstruct o gemm (mkQuant p codes (Some ns)) = Ok (mkA2 (pq_rl p) (zip_with (fun r n => map (fun x => fmul o x n) r) rows ns))) /\
  (forall n, ns = [n] -> a2_nrows codes <> 1 ->
    qa_reconstruct o gemm (mkQuant p codes (Some ns)) = Ok (mkA2 (pq_rl p) (map (map (fun x => fmul o x n)) rows))) /\
  (lenN ns <> a2_nrows codes -> lenN ns <> 1 -> qa_reconstruct o gemm (mkQuant p codes (Some ns)) = Panic PAssert).
Proof. exact (@MatrixFacts.reconstruct_norms). Qed.
Print Assumptions reconstruct_norms_thm.
Theorem matrix_stacks_thm : forall (F S : Type) (SO : storage_ops F S) s cols rows,
  st_matrix SO s cols rows ->
  forall is, st_embeddings SO s is = (let* rs := rmap (st_embedding SO s) is in Ok (mkA2 (snd (st_shape SO s)) rs)).
Proof. exact (@MatrixFacts.matrix_stacks). Qed.
Print Assumptions matrix_stacks_thm.
Theorem nd_matrix_thm : forall (F : Type) (a : array2 F),
  a2_wf a -> st_matrix (nd_ops F) a (a2_cols a) (a2_rows a).
Proof. exact (@MatrixFacts.nd_matrix). Qed.
Print Assumptions nd_matrix_thm.
Theorem nd_clones_thm : forall (F : Type) (a : array2 F),
  a2_wf a ->
  clones nd_clone_from_mapping (nd_ops F) a (a2_cols a) (a2_rows a).
Proof. exact (@MatrixFacts.nd_clones). Qed.
Print Assumptions nd_clones_thm.
Theorem quantized_matrix_thm : forall (F : Type) (o : fops F) gemm q, qa_usable q -> gemm_exact o gemm q ->
  st_matrix (qa_ops o gemm) q (pq_rl (qa_pq q)) (quantized_rows o q).
Proof. exact (@MatrixFacts.qa_matrix). Qed.
Print Assumptions quantized_matrix_thm.
Theorem quantized_clones_thm : forall (F : Type) (o : fops F) gemm q,
  qa_usable q -> gemm_exact o gemm q ->
  clones qa_clone_from_mapping (qa_ops o gemm) q (pq_rl (qa_pq q)) (quantized_rows o q).
Proof. exact (@MatrixFacts.qa_clones). Qed.
Print Assumptions quantized_clones_thm.
Definition ex_gemm (m : array2 f32) (vs : list (list f32)) : list (list f32) :=
  map (fun v => map (fun r => vdot f32_ops r v) (a2_rows m)) vs.
(** Two subquantizers with two centroids of one component; a projection that
    swaps the components; norms. *)
Definition ex_quantized : quantized f32 :=
  mkQuant (mkPq (Some (mkA2 2 [[fN 0; fN 1]; [fN 1; fN 0]])) 2 2 1 [[[fN 1]; [fN 2]]; [[fN 3]; [fN 4]]])
              (mkA2 2 [[x00; x01]; [x01; x00]; [x01; x01]]) (Some [fN 1; fN 10; fN 100]).
Lemma ex_quantized_usable : qa_usable ex_quantized.
Proof.
  split; try reflexivity.
  - repeat constructor.
  - intros m H. inv H. reflexivity.
  - repeat constructor.
  - intros ns H. inv H. reflexivity.
Qed.
Example storage_matrix_ex : holds_matrix ex_gemm (SQuantized ex_quantized) 2 (quantized_rows f32_ops ex_quantized) /\
  quantized_rows f32_ops ex_quantized = [[fN 4; fN 1]; [fN 30; fN 20]; [fN 400; fN 200]] /\
  holds_matrix ex_gemm (SNdArray ex_matrix) 2 ex_rows /\
  selects ex_rows [5; 0; 5] [[fN 6; fN 7]; [fN 1; fN 2]; [fN 6; fN 7]].
Proof.
  split; [apply (hm_qa ex_gemm ex_quantized ex_quantized_usable); intros m H vs; inv H; reflexivity|].
  split; [vm_compute; reflexivity|]. split; [apply (hm_nd ex_gemm ex_matrix ex_matrix_wf)|]. repeat constructor.
Qed.
Example reconstruct_norms_ex : let q := mkQuant (qa_pq ex_quantized) (qa_codes ex_quantized) None in
  qa_usable q /\ gemm_exact f32_ops ex_gemm q /\ a2_nrows (qa_codes q) = 3 /\
  quantized_rows f32_ops q = [[fN 4; fN 1]; [fN 3; fN 2]; [fN 4; fN 2]].
Proof.
  split; [|split; [intros m H vs; inv H; reflexivity|split; [reflexivity|vm_compute; reflexivity]]].
  destruct ex_quantized_usable as [U1 U2 U3 U4 _]. split; auto. intros ns H. discriminate.
Qed.
(** A file may contain codes that are not numbers of centroids. *)
Theorem quantized_code_refuted : exists q : quantized f32,
  st_shape (qa_ops f32_ops ex_gemm) q = (1, 2) /\ st_embedding (qa_ops f32_ops ex_gemm) q 0 = Panic PIndexOutOfBounds.
Proof.
  exists (mkQuant (qa_pq ex_quantized) (mkA2 2 [[x00; x02]]) None). split; vm_compute; reflexivity.
Qed.
Print Assumptions quantized_code_refuted.

(** ** C26: known words, and no lookup panics *)
Theorem known_word_thm : forall (Md S F : Type) (o : fops F) (SO : storage_ops F S) pf (e : embeddings Md vocab_wrap S F) cols rows, emb_made SO pf e cols rows ->
  forall w i,
  nthN (v_words wrap_ops (em_vocab e)) i = Some w ->
    exists r, nthN rows i = Some r /\ emb_embedding o wrap_ops SO pf e w = Ok (Some r).
Proof. exact (@EmbFacts.known_word). Qed.
Print Assumptions known_word_thm.
(** Full statement: without the hypothesis [vocab_usable]. *)
Theorem lookup_total_partial : forall (Md S F : Type) (o : fops F) (SO : storage_ops F S) pf (e : embeddings Md vocab_wrap S F) cols rows, emb_made SO pf e cols rows -> vocab_usable (em_vocab e) ->
  forall w,
  utf8_valid w = true ->
    (exists i r, v_idx wrap_ops pf (em_vocab e) w = Ok (Some (Word i)) /\ i < v_words_len wrap_ops (em_vocab e) /\
       nthN rows i = Some r /\ lenN r = cols /\ emb_embedding o wrap_ops SO pf e w = Ok (Some r)) \/
    (exists is rs v n, v_idx wrap_ops pf (em_vocab e) w = Ok (Some (Subwords is)) /\ is <> [] /\
       selects rows is rs /\ scaled_by_length o (component_sums o cols rs) v n /\ lenN v = cols /\
       emb_embedding o wrap_ops SO pf e w = Ok (Some v) /\ emb_with_norm o wrap_ops SO pf e w = Ok (Some (v, n))) \/
    (v_idx wrap_ops pf (em_vocab e) w = Ok None /\ emb_embedding o wrap_ops SO pf e w = Ok None /\
     emb_with_norm o wrap_ops SO pf e w = Ok None).
Proof. exact (@EmbFacts.lookup_cases). Qed.
Print Assumptions lookup_total_partial.
Example known_word_ex : emb_made (nd_ops f32) Debug ex_emb 2 ex_rows /\ vocab_usable (em_vocab ex_emb) /\
  nthN (v_words wrap_ops (em_vocab ex_emb)) 1 = Some [x74; x77; x65; x65] /\
  emb_embedding f32_ops wrap_ops (nd_ops f32) Debug ex_emb [x74; x77; x65; x65] = Ok (Some [fN 2; fN 3]) /\
  emb_embedding f32_ops wrap_ops (nd_ops f32) Debug ex_emb [] = Ok None.
Proof. split; [apply ex_emb_made|]. split; [apply ex_vocab_usable|]. vm_compute. auto. Qed.
(** The constructors accept n-grams of length zero; lookups then panic. *)
Theorem lookup_total_refuted : exists (e : embeddings unit vocab_wrap (array2 f32) f32) w,
  emb_made (nd_ops f32) Debug e 2 ex_rows /\ utf8_valid w = true /\
  emb_embedding f32_ops wrap_ops (nd_ops f32) Debug e w = Panic PAssert.
Proof.
  exists (mkEmb None ex_matrix (VBucket (mkSub default_bow default_eow ex_hash (create_indices ex_words) ex_words 0 6)) None), ex_unknown.
  split; [|split; vm_compute; reflexivity].
  split; [|split; [apply (MatrixFacts.nd_matrix ex_matrix ex_matrix_wf)|vm_compute; reflexivity]].
  apply (vm_bucket Debug ex_words 0 6 ex_hash default_bow default_eow); [|vm_compute; reflexivity].
  apply (im_hash 2); [discriminate|reflexivity].
Qed.
Print Assumptions lookup_total_refuted.

(** ** C27: unknown words *)
Theorem unknown_sum_thm : forall (Md S F : Type) (o : fops F) (SO : storage_ops F S) pf (e : embeddings Md vocab_wrap S F) cols rows, emb_made SO pf e cols rows ->
  forall w is,
  v_idx wrap_ops pf (em_vocab e) w = Ok (Some (Subwords is)) ->
    Forall (fun i => i < lenN rows) is ->
    exists rs v n, selects rows is rs /\ scaled_by_length o (component_sums o cols rs) v n /\
    emb_embedding o wrap_ops SO pf e w = Ok (Some v) /\
    emb_with_norm o wrap_ops SO pf e w = Ok (Some (v, n)).
Proof. exact (@EmbFacts.unknown_word). Qed.
Print Assumptions unknown_sum_thm.
Theorem unknown_unit_thm : forall (Md S : Type) (SO : storage_ops R S) pf (e : embeddings Md vocab_wrap S R) cols rows w is,
  emb_made SO pf e cols rows -> v_idx wrap_ops pf (em_vocab e) w = Ok (Some (Subwords is)) ->
  Forall (fun i => i < lenN rows) is ->
  exists rs v n, selects rows is rs /\
  emb_embedding R_ops wrap_ops SO pf e w = Ok (Some v) /\
  emb_with_norm R_ops wrap_ops SO pf e w = Ok (Some (v, n)) /\
  (n = 0%R <-> Forall (fun x => x = 0%R) (real_sum cols rs)) /\
  (n = 0%R -> v = real_sum cols rs) /\
  (n <> 0%R -> inner v v = 1%R) /\
  into_unnormalized R_ops (v, n) = real_sum cols rs.
Proof. exact (@EmbReal.unknown_unit). Qed.
Print Assumptions unknown_unit_thm.
Example unknown_sum_ex : emb_made (nd_ops f32) Debug ex_emb 2 ex_rows /\
  exists is v, v_idx wrap_ops Debug ex_vocab ex_unknown = Ok (Some (Subwords is)) /\ lenN is = 6 /\
  Forall (fun i => i < lenN ex_rows) is /\
  emb_embedding f32_ops wrap_ops (nd_ops f32) Debug ex_emb ex_unknown = Ok (Some v) /\
  f32_cmp (vdot f32_ops v v) (f32_div (fN 9999) (fN 10000)) = Some Gt.
Proof.
  split; [apply ex_emb_made|]. do 2 eexists. split; [vm_compute; reflexivity|]. split; [reflexivity|].
  split; [repeat constructor|]. split; [vm_compute; reflexivity|]. vm_compute. reflexivity.
Qed.
Example unknown_unit_ex : emb_made (nd_ops R) Debug ex_real 2 ex_real_rows /\
  exists is, v_idx wrap_ops Debug ex_vocab ex_unknown = Ok (Some (Subwords is)) /\ Forall (fun i => i < lenN ex_real_rows) is /\ is <> [].
Proof.
  split; [apply ex_real_made|]. eexists. split; [vm_compute; reflexivity|]. split; [|discriminate]. repeat constructor.
Qed.
(** In [f32] the length of a vector that is not zero may be computed as zero
    (squares underflow): the vector is not scaled.  It may also be computed
    as infinity: the result is the zero vector. *)
Definition ex_tiny : f32 := F32 x00 x00 x00 x10.
Definition ex_huge : f32 := F32 x00 x00 x00 x70.
Theorem unit_length_refuted :
  (exists v, l2_normalize f32_ops v = (v, f32_zero) /\ Exists (fun x => f32_is_zero x = false) v) /\
  (exists v, Forall (fun x => f32_is_zero x = false) v /\
     Forall (fun x => f32_is_zero x = true) (fst (l2_normalize f32_ops v))).
Proof.
  split.
  - exists [ex_tiny; ex_tiny]. split; [vm_compute; reflexivity|]. left. vm_compute. reflexivity.
  - exists [ex_huge; ex_huge]. split; [repeat constructor|].
    assert (fst (l2_normalize f32_ops [ex_huge; ex_huge]) = [f32_zero; f32_zero]) as -> by (vm_compute; reflexivity).
    repeat constructor.
Qed.
Print Assumptions unit_length_refuted.

(** ** C28: embedding_into *)
Theorem into_agrees_thm : forall (Md S F : Type) (o : fops F) (SO : storage_ops F S) pf (e : embeddings Md vocab_wrap S F) cols rows, emb_made SO pf e cols rows -> vocab_usable (em_vocab e) ->
  forall w target,
  lenN target = cols -> utf8_valid w = true ->
    emb_embedding_into o wrap_ops SO pf e w target
    = let* r := emb_embedding o wrap_ops SO pf e w in
      Ok (match r with Some v => (v, true) | None => (target, false) end).
Proof. exact (@EmbFacts.into_agrees). Qed.
Print Assumptions into_agrees_thm.
Theorem into_wrong_thm : forall (Md S F : Type) (o : fops F) (SO : storage_ops F S) pf (e : embeddings Md vocab_wrap S F) cols rows, emb_made SO pf e cols rows ->
  forall w target,
  lenN target <> cols -> emb_embedding_into o wrap_ops SO pf e w target = Panic PAssert.
Proof. exact (@EmbFacts.into_wrong). Qed.
Print Assumptions into_wrong_thm.
Example into_agrees_ex : emb_made (nd_ops f32) Debug ex_emb 2 ex_rows /\ vocab_usable (em_vocab ex_emb) /\
  lenN [fN 9; fN 9] = 2 /\ utf8_valid ex_unknown = true /\
  emb_embedding_into f32_ops wrap_ops (nd_ops f32) Debug ex_emb [x65; x65; x6e] [fN 9; fN 9] = Ok ([fN 1; fN 2], true) /\
  emb_embedding_into f32_ops wrap_ops (nd_ops f32) Debug ex_emb [] [fN 9; fN 9] = Ok ([fN 9; fN 9], false).
Proof. split; [apply ex_emb_made|]. split; [apply ex_vocab_usable|]. vm_compute. auto. Qed.

(** ** C29: batches *)
Theorem batch_into_thm : forall (Md S F : Type) (o : fops F) (SO : storage_ops F S) pf,
  forall order (e : embeddings Md vocab_wrap S F) cols rows words out0,
  any_order order ->
    emb_made SO pf e cols rows -> vocab_usable (em_vocab e) -> Forall (fun w => utf8_valid w = true) words ->
    lenN out0 = lenN words -> Forall (fun r => lenN r = cols) out0 ->
    exists out found, emb_batch_into o wrap_ops SO pf order e words (mkA2 cols out0) = Ok (out, found) /\
    lenN out = lenN words /\ lenN found = lenN words /\
    forall i w, nthN words i = Some w ->
      (exists v, emb_embedding o wrap_ops SO pf e w = Ok (Some v) /\ nthN out i = Some v /\ nthN found i = Some true) \/
      (emb_embedding o wrap_ops SO pf e w = Ok None /\ nthN out i = nthN out0 i /\ nthN found i = Some false).
Proof. exact (@BatchFacts.batch_into_lookups). Qed.
Print Assumptions batch_into_thm.
Theorem batch_thm : forall (Md S F : Type) (o : fops F) (SO : storage_ops F S) pf,
  forall order (e : embeddings Md vocab_wrap S F) cols rows words,
  any_order order ->
    emb_made SO pf e cols rows -> vocab_usable (em_vocab e) -> Forall (fun w => utf8_valid w = true) words ->
    lenN words <= isize_max -> cols <= isize_max -> 4 * lenN words * cols <= isize_max ->
    exists out found, emb_batch o wrap_ops SO pf order e words = Ok (out, found) /\
    lenN out = lenN words /\ lenN found = lenN words /\
    forall i w, nthN words i = Some w ->
      (exists v, emb_embedding o wrap_ops SO pf e w = Ok (Some v) /\ nthN out i = Some v /\ nthN found i = Some true) \/
      (emb_embedding o wrap_ops SO pf e w = Ok None /\ nthN out i = Some (repeat (fzero o) (N.to_nat cols)) /\ nthN found i = Some false).
Proof. exact (@BatchFacts.batch_lookups). Qed.
Print Assumptions batch_thm.
Theorem batch_order_thm : forall (Md S F : Type) (o : fops F) (SO : storage_ops F S) pf,
  forall order order' (e : embeddings Md vocab_wrap S F) cols rows words out0,
  any_order order -> any_order order' ->
    emb_made SO pf e cols rows -> vocab_usable (em_vocab e) -> Forall (fun w => utf8_valid w = true) words ->
    lenN out0 = lenN words -> Forall (fun r => lenN r = cols) out0 ->
    emb_batch_into o wrap_ops SO pf order e words (mkA2 cols out0)
    = emb_batch_into o wrap_ops SO pf order' e words (mkA2 cols out0).
Proof. exact (@BatchFacts.batch_order). Qed.
Print Assumptions batch_order_thm.
Theorem batch_wrong_thm : forall (Md S F : Type) (o : fops F) (SO : storage_ops F S) pf,
  forall order (e : embeddings Md vocab_wrap S F) cols rows words output,
  emb_made SO pf e cols rows ->
    (a2_nrows output <> lenN words \/ a2_cols output <> cols) ->
    emb_batch_into o wrap_ops SO pf order e words output = Panic PAssert.
Proof. exact (@BatchFacts.batch_wrong). Qed.
Print Assumptions batch_wrong_thm.
Example batch_ex : any_order (@rev (str * list N)) /\ emb_made (nd_ops f32) Debug ex_emb 2 ex_rows /\
  vocab_usable (em_vocab ex_emb) /\
  emb_batch f32_ops wrap_ops (nd_ops f32) Debug (@rev _) ex_emb [[x65; x65; x6e]; []; [x65; x65; x6e]]
  = Ok ([[fN 1; fN 2]; [fN 0; fN 0]; [fN 1; fN 2]], [true; false; true]).
Proof.
  split; [intros m; apply Permutation.Permutation_rev|]. split; [apply ex_emb_made|]. split; [apply ex_vocab_usable|].
  vm_compute. reflexivity.
Qed.

(** ** C30: norms and iterators *)
Theorem with_norm_thm : forall (Md S F : Type) (o : fops F) (SO : storage_ops F S) pf,
  forall (e : embeddings Md vocab_wrap S F) cols rows w i,
  emb_made SO pf e cols rows ->
    (forall ns, em_norms e = Some ns -> lenN ns = v_words_len wrap_ops (em_vocab e)) ->
    nthN (v_words wrap_ops (em_vocab e)) i = Some w ->
    exists r n, nthN rows i = Some r /\ norm_of o e i n /\
    emb_embedding o wrap_ops SO pf e w = Ok (Some r) /\
    emb_with_norm o wrap_ops SO pf e w = Ok (Some (r, n)).
Proof. exact (@BatchFacts.with_norm_known). Qed.
Print Assumptions with_norm_thm.
Theorem iter_thm : forall (Md S F : Type) (o : fops F) (SO : storage_ops F S) pf,
  forall (e : embeddings Md vocab_wrap S F) cols rows,
  emb_made SO pf e cols rows ->
    exists l, emb_iter wrap_ops SO e = Ok l /\ map fst l = v_words wrap_ops (em_vocab e) /\
    forall i w v, nthN l i = Some (w, v) ->
      nthN rows i = Some v /\ emb_embedding o wrap_ops SO pf e w = Ok (Some v).
Proof. exact (@BatchFacts.iter_exact). Qed.
Print Assumptions iter_thm.
Theorem iter_with_norms_thm : forall (Md S F : Type) (o : fops F) (SO : storage_ops F S) pf,
  forall (e : embeddings Md vocab_wrap S F) cols rows,
  emb_made SO pf e cols rows ->
    (forall ns, em_norms e = Some ns -> lenN ns = v_words_len wrap_ops (em_vocab e)) ->
    exists l, emb_iter_with_norms o wrap_ops SO e = Ok l /\ map fst l = v_words wrap_ops (em_vocab e) /\
    forall i w v n, nthN l i = Some (w, (v, n)) ->
      nthN rows i = Some v /\ norm_of o e i n /\ emb_with_norm o wrap_ops SO pf e w = Ok (Some (v, n)).
Proof. exact (@BatchFacts.iter_with_norms_exact). Qed.
Print Assumptions iter_with_norms_thm.
Example iter_with_norms_ex : emb_made (nd_ops f32) Debug ex_emb 2 ex_rows /\
  (forall ns, em_norms ex_emb = Some ns -> lenN ns = v_words_len wrap_ops (em_vocab ex_emb)) /\
  emb_iter_with_norms f32_ops wrap_ops (nd_ops f32) ex_emb
  = Ok [([x65; x65; x6e], ([fN 1; fN 2], fN 7)); ([x74; x77; x65; x65], ([fN 2; fN 3], fN 8))] /\
  into_unnormalized f32_ops ([fN 1; fN 2], fN 7) = [fN 7; fN 14].
Proof. split; [apply ex_emb_made|]. split; [intros ns H; inv H; reflexivity|]. split; vm_compute; reflexivity. Qed.

(** ** C107: iterators, call by call *)
Theorem iter_calls_thm : forall (Md V S F : Type) (VO : vocab_ops V) (SO : storage_ops F S),
  forall (e : embeddings Md V S F) n,
  lenN (calls (iter_next SO e) n (iter_start VO e)) = N.of_nat n /\
    forall k, k < N.of_nat n -> nthN (calls (iter_next SO e) n (iter_start VO e)) k =
      Some (match nthN (v_words VO (em_vocab e)) k with
            | None => Ok None
            | Some w => match st_embedding SO (em_storage e) k with Ok v => Ok (Some (w, v)) | Err x => Err x | Panic p => Panic p end
            end).
Proof. exact (@IterThms.iter_calls). Qed.
Print Assumptions iter_calls_thm.
Theorem iter_norms_calls_thm : forall (Md V S F : Type) (o : fops F) (VO : vocab_ops V) (SO : storage_ops F S),
  forall (e : embeddings Md V S F) n,
  lenN (calls (iter_norms_next o SO e) n (iter_start VO e)) = N.of_nat n /\
    forall k, k < N.of_nat n -> nthN (calls (iter_norms_next o SO e) n (iter_start VO e)) k =
      Some (match nthN (v_words VO (em_vocab e)) k with
            | None => Ok None
            | Some w => match st_embedding SO (em_storage e) k with
                        | Ok v => match em_norms e with
                                  | None => Ok (Some (w, (v, fone o)))
                                  | Some ns => match nthN ns k with Some x => Ok (Some (w, (v, x))) | None => Panic PIndexOutOfBounds end
                                  end
                        | Err x => Err x | Panic p => Panic p end
            end).
Proof. exact (@IterThms.iter_norms_calls). Qed.
Print Assumptions iter_norms_calls_thm.
Theorem iter_loop_thm : forall (Md V S F : Type) (o : fops F) (VO : vocab_ops V) (SO : storage_ops F S),
  forall (e : embeddings Md V S F) n,
  (length (v_words VO (em_vocab e)) < n)%nat ->
    loop (iter_next SO e) n (iter_start VO e) = emb_iter VO SO e /\
    loop (iter_norms_next o SO e) n (iter_start VO e) = emb_iter_with_norms o VO SO e.
Proof. exact (@IterThms.iter_loop). Qed.
Print Assumptions iter_loop_thm.
Theorem iter_made_thm : forall (Md S F : Type) (o : fops F) (SO : storage_ops F S) pf,
  forall (e : embeddings Md vocab_wrap S F) cols rows n k,
  emb_made SO pf e cols rows -> k < N.of_nat n ->
    (forall w, nthN (v_words wrap_ops (em_vocab e)) k = Some w -> exists v,
       nthN rows k = Some v /\ emb_embedding o wrap_ops SO pf e w = Ok (Some v) /\
       nthN (calls (iter_next SO e) n (iter_start wrap_ops e)) k = Some (Ok (Some (w, v)))) /\
    (lenN (v_words wrap_ops (em_vocab e)) <= k ->
       nthN (calls (iter_next SO e) n (iter_start wrap_ops e)) k = Some (Ok None)).
Proof. exact (@IterThms.iter_made). Qed.
Print Assumptions iter_made_thm.
Theorem iter_norms_made_thm : forall (Md S F : Type) (o : fops F) (SO : storage_ops F S) pf,
  forall (e : embeddings Md vocab_wrap S F) cols rows n k,
  emb_made SO pf e cols rows ->
    (forall ns, em_norms e = Some ns -> lenN ns = v_words_len wrap_ops (em_vocab e)) -> k < N.of_nat n ->
    (forall w, nthN (v_words wrap_ops (em_vocab e)) k = Some w -> exists v x,
       nthN rows k = Some v /\ norm_of o e k x /\ emb_with_norm o wrap_ops SO pf e w = Ok (Some (v, x)) /\
       nthN (calls (iter_norms_next o SO e) n (iter_start wrap_ops e)) k = Some (Ok (Some (w, (v, x))))) /\
    (lenN (v_words wrap_ops (em_vocab e)) <= k ->
       nthN (calls (iter_norms_next o SO e) n (iter_start wrap_ops e)) k = Some (Ok None)).
Proof. exact (@IterThms.iter_norms_made). Qed.
Print Assumptions iter_norms_made_thm.
(** Four calls for two words.  With a matrix and norms for one word only
    (which no constructor builds) the second call panics and the third one
    returns the end. *)
Definition ex_short : embeddings unit vocab_wrap (array2 f32) f32 :=
  mkEmb None (mkA2 2 [[fN 1; fN 2]]) (em_vocab ex_emb) (Some [fN 7]).
Example iter_calls_ex :
  emb_made (nd_ops f32) Debug ex_emb 2 ex_rows /\
  (forall ns, em_norms ex_emb = Some ns -> lenN ns = v_words_len wrap_ops (em_vocab ex_emb)) /\
  (length (v_words wrap_ops (em_vocab ex_emb)) < 4)%nat /\
  calls (iter_next (nd_ops f32) ex_emb) 4 (iter_start wrap_ops ex_emb)
  = [Ok (Some ([x65; x65; x6e], [fN 1; fN 2])); Ok (Some ([x74; x77; x65; x65], [fN 2; fN 3])); Ok None; Ok None] /\
  calls (iter_norms_next f32_ops (nd_ops f32) ex_emb) 3 (iter_start wrap_ops ex_emb)
  = [Ok (Some ([x65; x65; x6e], ([fN 1; fN 2], fN 7))); Ok (Some ([x74; x77; x65; x65], ([fN 2; fN 3], fN 8))); Ok None] /\
  calls (iter_norms_next f32_ops (nd_ops f32) ex_short) 4 (iter_start wrap_ops ex_short)
  = [Ok (Some ([x65; x65; x6e], ([fN 1; fN 2], fN 7))); Panic PIndexOutOfBounds; Ok None; Ok None].
Proof.
  split; [apply ex_emb_made|]. split; [intros ns H; inv H; reflexivity|]. repeat split; vm_compute; try reflexivity. repeat constructor.
Qed.

(** ** C74: exactly when lookups of embeddings panic *)
Theorem embedding_panics_thm : forall (Md S F : Type) (o : fops F) (SO : storage_ops F S) pf (e : embeddings Md vocab_wrap S F) cols rows, emb_made SO pf e cols rows -> bounds_utf8 (em_vocab e) ->
  forall w p,
  utf8_valid w = true ->
    (emb_embedding o wrap_ops SO pf e w = Panic p <-> p = PAssert /\ unusable_lookup (em_vocab e) w) /\
    (forall target, emb_embedding_into o wrap_ops SO pf e w target = Panic p <->
       p = PAssert /\ (lenN target <> cols \/ unusable_lookup (em_vocab e) w)) /\
    (forall x, emb_embedding o wrap_ops SO pf e w <> Err x) /\
    (forall target x, emb_embedding_into o wrap_ops SO pf e w target <> Err x).
Proof. exact (@EmbExact.lookup_panics_exact). Qed.
Print Assumptions embedding_panics_thm.
Theorem with_norm_panics_thm : forall (Md S F : Type) (o : fops F) (SO : storage_ops F S) pf (e : embeddings Md vocab_wrap S F) cols rows, emb_made SO pf e cols rows -> bounds_utf8 (em_vocab e) ->
  forall w p,
  utf8_valid w = true ->
    (forall ns, em_norms e = Some ns -> lenN ns = v_words_len wrap_ops (em_vocab e)) ->
    (emb_with_norm o wrap_ops SO pf e w = Panic p <-> p = PAssert /\ unusable_lookup (em_vocab e) w) /\
    (forall x, emb_with_norm o wrap_ops SO pf e w <> Err x).
Proof. exact (@EmbExact.with_norm_panics_exact). Qed.
Print Assumptions with_norm_panics_thm.
Theorem into_always_agrees_thm : forall (Md S F : Type) (o : fops F) (SO : storage_ops F S) pf (e : embeddings Md vocab_wrap S F) cols rows, emb_made SO pf e cols rows -> bounds_utf8 (em_vocab e) ->
  forall w target,
  utf8_valid w = true -> lenN target = cols ->
    emb_embedding_into o wrap_ops SO pf e w target
    = let* r := emb_embedding o wrap_ops SO pf e w in
      Ok (match r with Some v => (v, true) | None => (target, false) end).
Proof. exact (@EmbExact.emb_into_agrees). Qed.
Print Assumptions into_always_agrees_thm.
Theorem batch_into_panics_thm : forall (Md S F : Type) (o : fops F) (SO : storage_ops F S) pf (e : embeddings Md vocab_wrap S F) cols rows, emb_made SO pf e cols rows -> bounds_utf8 (em_vocab e) -> forall words out0, Forall (fun w => utf8_valid w = true) words -> lenN out0 = lenN words -> Forall (fun r => lenN r = cols) out0 ->
  forall order,
  any_order order ->
      (Exists (unusable_lookup (em_vocab e)) words ->
       emb_batch_into o wrap_ops SO pf order e words (mkA2 cols out0) = Panic PAssert) /\
      (Forall (fun w => ~ unusable_lookup (em_vocab e) w) words ->
       exists out found, emb_batch_into o wrap_ops SO pf order e words (mkA2 cols out0) = Ok (out, found) /\
       lenN out = lenN words /\ lenN found = lenN words /\
       forall i w, nthN words i = Some w ->
         (exists v, emb_embedding o wrap_ops SO pf e w = Ok (Some v) /\ nthN out i = Some v /\ nthN found i = Some true) \/
         (emb_embedding o wrap_ops SO pf e w = Ok None /\ nthN out i = nthN out0 i /\ nthN found i = Some false)).
Proof. exact (@EmbExact.batch_into_panics). Qed.
Print Assumptions batch_into_panics_thm.
Theorem batch_panics_thm : forall (Md S F : Type) (o : fops F) (SO : storage_ops F S) pf,
  forall order (e : embeddings Md vocab_wrap S F) cols rows words,
  any_order order ->
    emb_made SO pf e cols rows -> bounds_utf8 (em_vocab e) -> Forall (fun w => utf8_valid w = true) words ->
    (isize_max < lenN words \/ isize_max < cols \/ isize_max < 4 * lenN words * cols ->
     emb_batch o wrap_ops SO pf order e words = Panic PCapacity) /\
    (lenN words <= isize_max -> cols <= isize_max -> 4 * lenN words * cols <= isize_max ->
     Exists (unusable_lookup (em_vocab e)) words -> emb_batch o wrap_ops SO pf order e words = Panic PAssert) /\
    (lenN words <= isize_max -> cols <= isize_max -> 4 * lenN words * cols <= isize_max ->
     Forall (fun w => ~ unusable_lookup (em_vocab e) w) words ->
     exists out found, emb_batch o wrap_ops SO pf order e words = Ok (out, found) /\
     lenN out = lenN words /\ lenN found = lenN words /\
     forall i w, nthN words i = Some w ->
       (exists v, emb_embedding o wrap_ops SO pf e w = Ok (Some v) /\ nthN out i = Some v /\ nthN found i = Some true) \/
       (emb_embedding o wrap_ops SO pf e w = Ok None /\ nthN out i = Some (repeat (fzero o) (N.to_nat cols)) /\
        nthN found i = Some false)).
Proof. exact (@EmbExact.batch_panics). Qed.
Print Assumptions batch_panics_thm.
(** n-grams of length zero: words are found, other strings panic, also in a
    batch. *)
Definition ex_bad : embeddings unit vocab_wrap (array2 f32) f32 :=
  mkEmb None ex_matrix (VBucket (mkSub default_bow default_eow ex_hash (create_indices ex_words) ex_words 0 6)) None.
Example embedding_panics_ex :
  emb_made (nd_ops f32) Debug ex_bad 2 ex_rows /\ bounds_utf8 (em_vocab ex_bad) /\
  unusable_lookup (em_vocab ex_bad) ex_unknown /\
  emb_batch f32_ops wrap_ops (nd_ops f32) Debug (@rev _) ex_bad [[x65; x65; x6e]; ex_unknown] = Panic PAssert /\
  emb_batch f32_ops wrap_ops (nd_ops f32) Debug (@rev _) ex_bad [[x65; x65; x6e]] = Ok ([[fN 1; fN 2]], [true]).
Proof.
  split.
  - split; [|split; [apply (MatrixFacts.nd_matrix ex_matrix ex_matrix_wf)|vm_compute; reflexivity]].
    apply (vm_bucket Debug ex_words 0 6 ex_hash default_bow default_eow); [|vm_compute; reflexivity].
    apply (im_hash 2); [discriminate|reflexivity].
  - split; [intros mn mx bow eow H; inv H; auto|]. split; [|split; vm_compute; reflexivity].
    split; [intros [H|[H|[]]]; discriminate|]. exists 0, 6, default_bow, default_eow. split; [reflexivity|].
    intros [H _]. apply H. reflexivity.
Qed.
(** Two words and 2^61 columns: the result would not fit in memory. *)
Definition ex_wide : embeddings unit vocab_wrap (array2 f32) f32 :=
  mkEmb None (mkA2 (2 ^ 61) []) (VSimple (mkSimple (create_indices []) [])) None.
Example batch_capacity_ex :
  emb_made (nd_ops f32) Debug ex_wide (2 ^ 61) [] /\ bounds_utf8 (em_vocab ex_wide) /\
  isize_max < 4 * lenN [ex_unknown; []] * 2 ^ 61 /\
  emb_batch f32_ops wrap_ops (nd_ops f32) Debug (@rev _) ex_wide [ex_unknown; []] = Panic PCapacity.
Proof.
  split; [split; [apply (vm_simple Debug []); vm_compute; reflexivity|]|].
  - split; [|vm_compute; reflexivity]. apply (MatrixFacts.nd_matrix (mkA2 (2 ^ 61) [])). constructor.
  - split; [intros mn mx bow eow H; inv H|]. split; vm_compute; reflexivity.
Qed.
