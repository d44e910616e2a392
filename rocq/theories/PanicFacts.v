(** * Which panics reading can cause. *)
From Verif Require Import Base BaseFacts Utf8 Stream StreamFacts F32 ChunkIO ChunkFacts Subword
  Vocab VocabFacts Storage StorageFacts Embeddings FileSpec FileFacts ReadFacts.
Local Open Scope N_scope.

Lemma po_ret {A} (a : A) ps : panics_only (ret a) ps.
Proof. intros s p s' H. discriminate. Qed.
Lemma po_fail {A} e ps : panics_only (@fail _ A e) ps.
Proof. intros s p s' H. discriminate. Qed.
Lemma po_lift {A} (r : res A) ps : (forall p, r = Panic p -> In p ps) -> panics_only (lift r) ps.
Proof. intros H s p s' E. unfold lift in E. inv E. auto. Qed.
Lemma po_bind {A B} (m : reader A) (k : A -> reader B) ps :
  panics_only m ps -> (forall a, panics_only (k a) ps) -> panics_only (a <- m ;; k a) ps.
Proof.
  intros Hm Hk s p s' H. unfold bind in H. destruct (m s) as [[a|e|q] s1] eqn:E.
  - eapply Hk, H.
  - discriminate.
  - inv H. eapply Hm, E.
Qed.
Lemma po_exact n ps : panics_only (read_exact n) ps.
Proof. intros s p s' H. unfold read_exact in H. destruct (n <=? lenN (s_rest s)); discriminate. Qed.
Lemma po_u32 ps : panics_only read_u32 ps.
Proof. apply po_bind; [apply po_exact|intros; apply po_ret]. Qed.
Lemma po_u64 ps : panics_only read_u64 ps.
Proof. apply po_bind; [apply po_exact|intros; apply po_ret]. Qed.
Lemma po_f32s n ps : panics_only (read_f32s n) ps.
Proof. apply po_bind; [apply po_exact|intros; apply po_ret]. Qed.
Lemma po_position ps : panics_only position ps.
Proof. intros s p s' H. discriminate. Qed.
Lemma po_seek n ps : panics_only (seek_forward n) ps.
Proof. intros s p s' H. discriminate. Qed.
Lemma po_reserve n k ps : In PCapacity ps -> panics_only (reserve n k) ps.
Proof. intros HI s p s' H. unfold reserve in H. destruct (n * k <=? isize_max); inv H. auto. Qed.
Lemma po_alloc dims k ps : In PCapacity ps -> panics_only (alloc_zeros dims k) ps.
Proof. intros HI s p s' H. unfold alloc_zeros in H. destruct (_ && _); inv H. auto. Qed.
Lemma po_repeat_nat {A} n (m : reader A) ps : panics_only m ps -> panics_only (repeat_nat n m) ps.
Proof. intros H. induction n; cbn [repeat_nat]; [apply po_ret|]. apply po_bind; [auto|]. intros a. apply po_bind; [auto|]. intros; apply po_ret. Qed.
Lemma po_repeat {A} n (m : reader A) ps : panics_only m ps -> panics_only (repeat_m n m) ps.
Proof. intros H s p s' E. rewrite repeat_m_nat in E. eapply po_repeat_nat; eauto. Qed.
Lemma po_ok_opt {A} (m : reader A) ps : panics_only m ps -> panics_only (ok_opt m) ps.
Proof. intros H s p s' E. unfold ok_opt in E. destruct (m s) as [[]] eqn:X; inv E. eapply H, X. Qed.
Lemma po_peek {A} (m : reader A) ps : panics_only m ps -> panics_only (peek m) ps.
Proof. intros H s p s' E. unfold peek in E. destruct (m s) as [[]] eqn:X; inv E. eapply H, X. Qed.
Lemma po_if {A} (b : bool) (m1 m2 : reader A) ps :
  panics_only m1 ps -> panics_only m2 ps -> panics_only (if b then m1 else m2) ps.
Proof. destruct b; auto. Qed.
Lemma po_chunk_of_num n ps : panics_only (lift (chunk_of_num n)) ps.
Proof.
  apply po_lift. intros p H. unfold chunk_of_num in H.
  repeat match type of H with match ?x with _ => _ end = _ => destruct x; try discriminate end.
Qed.
Lemma po_incl {A} (m : reader A) ps qs : panics_only m ps -> incl ps qs -> panics_only m qs.
Proof. intros H HI s p s' E. apply HI. eapply H, E. Qed.

Ltac po := repeat first
  [ apply po_ret | apply po_fail | apply po_u32 | apply po_u64 | apply po_exact | apply po_f32s
  | apply po_position | apply po_seek | apply po_chunk_of_num
  | (apply po_reserve; cbn; tauto) | (apply po_alloc; cbn; tauto)
  | apply po_if | apply po_ok_opt | apply po_peek | apply po_repeat
  | (apply po_bind; [|intros ?]) ].

Lemma po_chunk_type c ps : panics_only (ensure_chunk_type c) ps.
Proof. unfold ensure_chunk_type. po. Qed.
Lemma po_data_type t ps : panics_only (ensure_data_type t) ps.
Proof. unfold ensure_data_type. po. Qed.

Lemma read_header_no_panic : panics_only read_header [].
Proof. unfold read_header. po. Qed.

Lemma po_norms ps : In PCapacity ps -> panics_only read_norms ps.
Proof. intros H. eapply po_incl with (ps := [PCapacity]); [|intros x [<-|[]]; auto].
  unfold read_norms. repeat first [apply po_chunk_type|apply po_data_type|progress po]. Qed.

Lemma po_metadata T : panics_only (read_metadata_chunk T) [PCapacity].
Proof.
  unfold read_metadata_chunk. apply po_bind; [apply po_chunk_type|intros _]. po.
  destruct (toml_parse T a1); po.
Qed.

Lemma po_string_item ps : panics_only read_string_item ps.
Proof. unfold read_string_item. po. Qed.
Lemma po_items n ps : In PCapacity ps -> panics_only (read_items n) ps.
Proof. intros H. unfold read_items. apply po_bind; [apply po_reserve; auto|intros _]. apply po_repeat, po_string_item. Qed.

Lemma rassert_panic b p q : rassert b p = Panic q -> q = p.
Proof. unfold rassert. destruct b; intros H; inv H; auto. Qed.
Lemma rbind_panic {A B} (m : res A) (f : A -> res B) p : rbind m f = Panic p ->
  m = Panic p \/ exists a, m = Ok a /\ f a = Panic p.
Proof. destruct m; cbn; intros H; inv H; eauto. Qed.

Lemma sub_new_panics {I} (ops : indexer_ops I) pf ws mn mx ix bow eow p :
  sub_new_with_boundaries ops pf ws mn mx ix bow eow = Panic p ->
  p = PDuplicateWords \/ p = PAssert \/ ix_bound ops pf ix = Panic p.
Proof.
  unfold sub_new_with_boundaries. intros H. apply rbind_panic in H as [H|(a & _ & H)].
  - apply rassert_panic in H. auto.
  - apply rbind_panic in H as [H|(b & _ & H)]; [auto|]. apply rbind_panic in H as [H|(c & _ & H)]; [|discriminate].
    apply rassert_panic in H. auto.
Qed.

Definition vocab_panics := [PDuplicateWords; PDuplicateNGrams; PCapacity; PAssert; PArithOverflow].

Lemma po_bucketed {I} (B : bucket_ops I) pf id :
  (forall n p, bk_new B n = Panic p -> p = PAssert) ->
  (forall ix p, ix_bound (bk_ops B) pf ix = Panic p -> p = PArithOverflow) ->
  panics_only (read_bucketed B pf id) vocab_panics.
Proof.
  intros H1 H2. unfold read_bucketed. apply po_bind; [apply po_chunk_type|intros _].
  do 5 (apply po_bind; [po|intros ?]). apply po_bind; [apply po_items; cbn; tauto|intros ws].
  apply po_bind; [apply po_lift; intros p H; apply H1 in H as ->; cbn; tauto|intros ix].
  apply po_lift. intros p H. apply sub_new_panics in H as [->|[->|H]]; [cbn; tauto..|].
  apply H2 in H as ->. cbn; tauto.
Qed.

Lemma nwi_panics tuples st p : rfold nwi_step tuples st = Panic p -> p = PDuplicateNGrams.
Proof.
  revert st. induction tuples as [|t l IH]; intros st H; [discriminate|]. cbn [rfold] in H.
  apply rbind_panic in H as [H|(st' & _ & H)]; [|eapply IH, H].
  destruct st as [[o2n idx] ngs], t as [g b]. unfold nwi_step in H.
  destruct (nm_get o2n b); destruct (hm_get idx g); inv H; auto.
Qed.

Lemma po_vocab_wrap pf : panics_only (read_vocab_wrap pf) vocab_panics.
Proof.
  unfold read_vocab_wrap. apply po_bind; [apply po_peek; unfold peek_chunk_id; po|]. intros []; try apply po_fail.
  - apply po_bind; [|intros; apply po_ret]. unfold read_simple. apply po_bind; [apply po_chunk_type|intros _].
    do 2 (apply po_bind; [po|intros ?]). apply po_bind; [apply po_items; cbn; tauto|intros ws].
    apply po_lift. intros p H. unfold simple_new in H. apply rbind_panic in H as [H|(u & _ & H)]; [|discriminate].
    apply rassert_panic in H as ->. cbn; tauto.
  - apply po_bind; [|intros; apply po_ret]. apply po_bucketed.
    + intros n p H. cbn [bk_new hash_bucket_ops] in H. unfold hash_indexer_new in H.
      apply rbind_panic in H as [H|(u & _ & H)]; [|discriminate]. apply rassert_panic in H. auto.
    + intros ix p H. cbn [bk_ops hash_bucket_ops ix_bound hash_ops] in H. unfold hash_bound in H.
      destruct (2 ^ hi_exp ix <? two64); [discriminate|]. destruct pf; inv H. auto.
  - apply po_bind; [|intros; apply po_ret]. apply po_bucketed.
    + intros n p H. cbn [bk_new ft_bucket_ops] in H. unfold ft_indexer_new in H.
      apply rbind_panic in H as [H|(u & _ & H)]; [|discriminate]. apply rassert_panic in H. auto.
    + discriminate.
  - apply po_bind; [|intros; apply po_ret]. unfold read_explicit. apply po_bind; [apply po_chunk_type|intros _].
    do 5 (apply po_bind; [po|intros ?]). apply po_bind; [apply po_items; cbn; tauto|intros ws].
    apply po_bind; [unfold read_ngrams_with_indices, read_ngram_item, vocab_panics; po|intros ngs].
    apply po_bind; [apply po_lift; intros p H|intros r].
    + unfold explicit_new_with_indices in H. apply rbind_panic in H as [H|(((x & y) & z) & _ & H)]; [|discriminate].
      apply nwi_panics in H as ->. cbn; tauto.
    + apply po_lift. intros p H. apply sub_new_panics in H as [->|[->|H]]; [cbn; tauto..|discriminate].
  - apply po_bind; [|intros; apply po_ret]. unfold read_floret. apply po_bind; [apply po_chunk_type|intros _].
    do 5 (apply po_bind; [po|intros ?]). apply po_if; [apply po_fail|]. apply po_bind; [po|intros ?].
    do 2 (apply po_bind; [apply po_string_item|intros ?]).
    apply po_bind; [apply po_lift; intros p H|intros r].
    + unfold floret_indexer_new in H. apply rbind_panic in H as [H|(u & _ & H)]; [apply rassert_panic in H as ->; cbn; tauto|].
      apply rbind_panic in H as [H|(u' & _ & H)]; [apply rassert_panic in H as ->; cbn; tauto|discriminate].
    + apply po_lift. intros p H. apply sub_new_panics in H as [->|[->|H]]; [cbn; tauto..|discriminate].
Qed.

Definition storage_panics := [PCapacity; PDivByZero; PAssert].

Lemma po_storage_wrap : panics_only read_storage_wrap storage_panics.
Proof.
  unfold read_storage_wrap. apply po_bind; [apply po_peek; unfold peek_chunk_id; po|]. intros []; try apply po_fail.
  - apply po_bind; [|intros; apply po_ret]. unfold read_ndarray, storage_panics.
    repeat first [apply po_chunk_type|apply po_data_type|progress po].
  - apply po_bind; [|intros; apply po_ret]. unfold read_quantized. apply po_bind; [apply po_chunk_type|intros _].
    apply po_bind; [po|intros ?]. apply po_bind.
    + unfold read_product_quantizer. do 6 (apply po_bind; [po|intros ?]).
      apply po_bind; [apply po_lift; intros p H|intros _].
      { unfold check_quantizer_invariants in H. destruct (_ =? 0); [inv H; cbn; tauto|]. destruct (_ =? 0); discriminate. }
      do 2 (apply po_bind; [apply po_data_type|intros _]). do 2 (apply po_bind; [po|intros ?]).
      apply po_bind; [unfold storage_panics; po|intros ?]. apply po_bind; [unfold storage_panics; po|intros ?]. apply po_bind; [po|intros ?].
      apply po_bind; [apply po_lift; intros p H|intros; apply po_ret].
      unfold pq_new in H. apply rbind_panic in H as [H|(u & _ & H)]; [apply rassert_panic in H as ->; cbn; tauto|].
      apply rbind_panic in H as [H|(u' & _ & H)]; [apply rassert_panic in H as ->; cbn; tauto|discriminate].
    + intros [[n q] has]. unfold read_quantized_norms, storage_panics. po.
Qed.

Lemma read_file_panics pf T : panics_only (read_file pf T)
  [PDuplicateWords; PDuplicateNGrams; PCapacity; PDivByZero; PAssert; PArithOverflow].
Proof.
  unfold read_file, read_embeddings. apply po_bind; [eapply po_incl; [apply read_header_no_panic|intros ? []]|].
  intros [|id ids]; [apply po_fail|].
  apply po_bind; [apply po_if; [apply po_bind; [|intros; apply po_ret]|apply po_ret]|intros md].
  { eapply po_incl; [apply po_metadata|]. intros x [<-|[]]. cbn; tauto. }
  apply po_bind; [eapply po_incl; [apply po_vocab_wrap|]|intros v].
  { intros x H. cbn in *. tauto. }
  apply po_bind; [eapply po_incl; [apply po_storage_wrap|]|intros st].
  { intros x H. cbn in *. tauto. }
  apply po_bind; [apply po_ok_opt, po_norms; cbn; tauto|intros; apply po_ret].
Qed.
