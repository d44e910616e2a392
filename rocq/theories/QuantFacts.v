(** * Quantizing matrices and embeddings (C34). *)
From Verif Require Import Base BaseFacts Utf8 F32 Subword Vocab Storage Embeddings FileSpec VocabSpec EmbSpec MatrixFacts EmbFacts.
Local Open Scope N_scope.

Lemma max_bits_iff rows bits : bits <= max_subquantizer_bits rows <-> trainable rows bits.
Proof.
  unfold max_subquantizer_bits, trainable. rewrite N.min_glb_iff.
  split; intros [H1 H2]; (split; [exact H1|]).
  - destruct (N.eq_dec bits 0) as [->|Hb]; [left; reflexivity|]. right.
    destruct (N.eq_dec rows 0) as [->|Hr]; [change (N.log2 0) with 0 in H2; lia|].
    apply N.log2_le_pow2; lia.
  - destruct H2 as [->|H2]; [lia|]. apply N.log2_le_pow2; [|exact H2].
    assert (2 ^ bits <> 0) by (apply N.pow_nonzero; lia). lia.
Qed.

Lemma zip_norms {F} (o : fops F) rows :
  zip_with (vdivs o) rows (map (row_norm o) rows)
  = map (fun r => map (fun x => fdiv o x (fsqrt o (vdot o r r))) r) rows.
Proof. induction rows as [|r rows IH]; [reflexivity|]. cbn [map zip_with]. rewrite IH. reflexivity. Qed.

Section Quantize.
  Context {F : Type} (o : fops F) (tr : trainer F).

  Lemma quantize_cases ns bits it at_ normalize (a : array2 F) :
    (~ trainable (a2_nrows a) bits -> quantize_using o tr ns bits it at_ normalize a = Err EQuantization) /\
    (trainable (a2_nrows a) bits -> exists data norms, training_data o normalize (a2_rows a) data norms /\
       quantize_using o tr ns bits it at_ normalize a
       = (let* p := tr_train tr ns bits it at_ (mkA2 (a2_cols a) data) in
          Ok (mkQuant p (tr_quantize tr p (mkA2 (a2_cols a) data)) norms))).
  Proof.
    unfold quantize_using. destruct (max_subquantizer_bits (a2_nrows a) <? bits) eqn:E.
    - apply N.ltb_lt in E. split; [reflexivity|]. intros T. apply max_bits_iff in T. lia.
    - apply N.ltb_ge in E. apply max_bits_iff in E. split; [tauto|]. intros _. destruct normalize.
      + rewrite zip_norms. do 2 eexists. split; [split; reflexivity|]. reflexivity.
      + exists (a2_rows a), None. split; [split; reflexivity|]. destruct a. reflexivity.
  Qed.

  Lemma quantize_shape ns bits it at_ normalize (a : array2 F) q : trainer_fits tr ->
    quantize_using o tr ns bits it at_ normalize a = Ok q ->
    qa_usable q /\ a2_nrows (qa_codes q) = a2_nrows a /\ pq_rl (qa_pq q) = a2_cols a /\
    exists data, training_data o normalize (a2_rows a) data (qa_norms q) /\
      tr_train tr ns bits it at_ (mkA2 (a2_cols a) data) = Ok (qa_pq q) /\
      qa_codes q = tr_quantize tr (qa_pq q) (mkA2 (a2_cols a) data).
  Proof.
    intros TF H. destruct (quantize_cases ns bits it at_ normalize a) as [N0 T0].
    assert (trainable (a2_nrows a) bits) as T.
    { apply max_bits_iff. destruct (N.le_gt_cases bits (max_subquantizer_bits (a2_nrows a))) as [L|L]; [exact L|].
      rewrite N0 in H; [discriminate|]. intros T. apply max_bits_iff in T. lia. }
    destruct (T0 T) as (data & norms & TD & E). rewrite E in H. apply rbind_Ok_inv in H as (p & TP & H). inv H.
    cbn [qa_pq qa_codes qa_norms].
    destruct (tf_train _ TF _ _ _ _ _ _ TP) as (R & C & S & P). cbn [a2_cols] in R.
    destruct (tf_codes _ TF _ _ _ _ _ _ TP) as (L & CO).
    assert (lenN data = a2_nrows a) as LD.
    { unfold training_data in TD. unfold a2_nrows. destruct normalize; destruct TD as [-> _]; [apply lenN_map|reflexivity]. }
    unfold a2_nrows in L at 2. cbn [a2_rows] in L. rewrite LD in L.
    split; [|eauto 10]. constructor; cbn [qa_pq qa_codes qa_norms]; auto.
    intros ns' E'. subst norms. unfold training_data in TD. destruct normalize; [|destruct TD; discriminate].
    destruct TD as [_ TD]. inv TD. rewrite L. apply lenN_map.
  Qed.
End Quantize.

(** Quantized embeddings are embeddings over the same vocabulary. *)
Lemma emb_quantize {Md S F} (o : fops F) (SO : storage_ops F S) gemm pf (view : S -> res (array2 F)) (tr : trainer F)
      ns bits it at_ normalize (e : embeddings Md vocab_wrap S F) a :
  trainer_fits tr -> view (em_storage e) = Ok a -> emb_made SO pf e (a2_cols a) (a2_rows a) ->
  (~ trainable (lenN (a2_rows a)) bits -> emb_quantize_using o view tr ns bits it at_ normalize e = Err EQuantization) /\
  forall e', emb_quantize_using o view tr ns bits it at_ normalize e = Ok e' ->
    em_meta e' = em_meta e /\ em_vocab e' = em_vocab e /\ em_norms e' = em_norms e /\
    lenN (quantized_rows o (em_storage e')) = lenN (a2_rows a) /\
    (gemm_exact o gemm (em_storage e') ->
     emb_made (qa_ops o gemm) pf e' (a2_cols a) (quantized_rows o (em_storage e'))).
Proof.
  intros TF V M. unfold emb_quantize_using. rewrite V. cbn [rbind].
  destruct (quantize_cases o tr ns bits it at_ normalize a) as [N0 _]. split.
  - intros T. unfold a2_nrows in N0. rewrite (N0 T). reflexivity.
  - intros e' H. apply rbind_Ok_inv in H as (q & E & H). inv H. cbn [em_meta em_vocab em_norms em_storage].
    destruct (quantize_shape o tr _ _ _ _ _ _ _ TF E) as (U & L & R & _).
    pose proof (emb_made_len SO pf e _ _ M) as VL. destruct M as (MV & MS & MN).
    assert (lenN (quantized_rows o q) = lenN (a2_rows a)) as LQ.
    { unfold quantized_rows. unfold lenN. rewrite map_length, seq_length. exact L. }
    split; [auto|]. split; [auto|]. split; [auto|]. split; [exact LQ|]. intros G.
    split; [exact MV|]. cbn [em_storage em_vocab em_meta em_norms]. split.
    + rewrite <- R. apply qa_matrix; auto.
    + unfold emb_new_with_maybe_norms. rewrite VL. cbn [rbind st_shape qa_ops fst]. rewrite L.
      unfold a2_nrows. rewrite N.eqb_refl. reflexivity.
Qed.
