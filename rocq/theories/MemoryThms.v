(** * Readers with little memory. *)
From Verif Require Import Base BaseFacts Utf8 Stream StreamFacts F32 ChunkIO ChunkFacts Subword Vocab VocabFacts
  Storage FileSpec StorageFacts Embeddings ReadFacts LossyFacts TextIO TextSpec TextFacts FastText FastTextThms Width WidthThms Memory.
Local Open Scope N_scope.

(** ** Less memory: the same result, or the program ends *)
Definition frugal {A} (m1 m2 : reader A) : Prop := forall s, m1 s = m2 s \/ fst (m1 s) = Panic PCapacity.

Lemma frugal_refl {A} (m : reader A) : frugal m m. Proof. intros s. left. reflexivity. Qed.
Lemma frugal_bind {A B} (m1 m2 : reader A) (k1 k2 : A -> reader B) : frugal m1 m2 -> (forall a, frugal (k1 a) (k2 a)) -> frugal (bind m1 k1) (bind m2 k2).
Proof.
  intros H K s. unfold bind. destruct (H s) as [E|R].
  - rewrite E. destruct (m2 s) as [[a|e|p] s1]; [apply K|left; reflexivity|left; reflexivity].
  - right. destruct (m1 s) as [[a|e|p] s1]; cbn [fst] in *; [discriminate|discriminate|injection R as ->; reflexivity].
Qed.
Lemma frugal_repeat {A} n (m1 m2 : reader A) : frugal m1 m2 -> frugal (repeat_m n m1) (repeat_m n m2).
Proof.
  intros H s. rewrite !repeat_m_nat. revert s. induction (N.to_nat n) as [|k IH]; [apply frugal_refl|].
  apply (frugal_bind _ _ _ _ H). intros a. apply frugal_bind; [exact IH|intros l; apply frugal_refl].
Qed.
Lemma frugal_ok_opt {A} (m1 m2 : reader A) : frugal m1 m2 -> frugal (ok_opt m1) (ok_opt m2).
Proof.
  intros H s. unfold ok_opt. destruct (H s) as [E|R]; [left; rewrite E; reflexivity|right].
  destruct (m1 s) as [[a|e|p] s1]; cbn [fst] in *; [discriminate|discriminate|injection R as ->; reflexivity].
Qed.
Lemma frugal_same {A} (m1 m2 m3 : reader A) : frugal m1 m2 -> same_r m2 m3 -> frugal m1 m3.
Proof. intros H E s. rewrite <- (E s). apply H. Qed.

Section Less.
  Context (l l' : N) (L : l <= l').
  Lemma frugal_reserve n c : frugal (w_reserve (limited l) n c) (w_reserve (limited l') n c).
  Proof.
    intros s. unfold w_reserve, limited. cbn [mw_limit]. destruct (N.leb_spec (n * c) l) as [K|K]; [left|right; reflexivity].
    assert (n * c <= l') as K' by lia. apply N.leb_le in K'. rewrite K'. reflexivity.
  Qed.
  Lemma frugal_zeros dims c : frugal (w_zeros (limited l) dims c) (w_zeros (limited l') dims c).
  Proof.
    intros s. unfold w_zeros. change (w_max (limited l)) with isize_max. change (w_max (limited l')) with isize_max. unfold limited. cbn [mw_limit].
    destruct (_ <=? isize_max); [|left; reflexivity]. cbn [andb]. destruct (N.leb_spec (fold_left N.mul dims 1 * c) l) as [K|K]; [left|right; reflexivity].
    assert (fold_left N.mul dims 1 * c <= l') as K' by lia. apply N.leb_le in K'. rewrite K'. reflexivity.
  Qed.
  Lemma less_size : w_size (limited l) = w_size (limited l'). Proof. unfold w_size, limited. cbn [mw_bits]. reflexivity. Qed.
  Lemma less_max : w_max (limited l) = w_max (limited l'). Proof. unfold w_max, limited. cbn [mw_bits]. reflexivity. Qed.
  Lemma frugal_eq {A} (m1 m2 : reader A) : m1 = m2 -> frugal m1 m2. Proof. intros ->. apply frugal_refl. Qed.
  Lemma frugal_try n : frugal (w_try (limited l) n) (w_try (limited l') n). Proof. apply frugal_eq. unfold w_try. rewrite less_size. reflexivity. Qed.
  Lemma frugal_as b n : frugal (w_as (limited l) b n) (w_as (limited l') b n). Proof. apply frugal_eq. unfold w_as, w_try. rewrite less_size. reflexivity. Qed.
  Lemma less_mul pf n m : w_mul (limited l) pf n m = w_mul (limited l') pf n m. Proof. unfold w_mul. rewrite less_size. reflexivity. Qed.
  Lemma frugal_map n : frugal (w_map (limited l) n) (w_map (limited l') n). Proof. apply frugal_eq. unfold w_map. rewrite less_max. reflexivity. Qed.
  Lemma less_sub_new {I} (ops : indexer_ops I) pf words mn mx ix bow eow : w_sub_new (limited l) ops pf words mn mx ix bow eow = w_sub_new (limited l') ops pf words mn mx ix bow eow.
  Proof. unfold w_sub_new. rewrite less_size. reflexivity. Qed.
  Ltac alloc := apply frugal_bind; [first [apply frugal_reserve | apply frugal_zeros]|intros ?].
  Ltac keep := apply frugal_bind; [lazymatch goal with |- frugal (w_try _ _) _ => apply frugal_try | |- frugal (w_as _ _ _) _ => apply frugal_as | |- frugal (w_map _ _) _ => apply frugal_map | |- frugal (lift (w_mul _ _ _ _)) _ => rewrite less_mul; apply frugal_refl | _ => apply frugal_refl end|intros ?].
  Ltac sub := apply frugal_eq; rewrite less_sub_new; reflexivity.
  Ltac step lem := apply frugal_bind; [apply lem|intros ?].
  Lemma f_header : frugal (w_header (limited l)) (w_header (limited l')).
  Proof. keep. destruct (negb _); [apply frugal_refl|]. keep. destruct (negb _); [apply frugal_refl|]. keep. alloc. apply frugal_refl. Qed.
  Lemma f_metadata b T : frugal (w_metadata (limited l) b T) (w_metadata (limited l') b T).
  Proof. do 3 keep. alloc. apply frugal_refl. Qed.
  Lemma f_norms : frugal (w_norms (limited l)) (w_norms (limited l')).
  Proof. do 7 keep. alloc. apply frugal_refl. Qed.
  Lemma f_string : frugal (w_string_item (limited l)) (w_string_item (limited l')). Proof. keep. alloc. apply frugal_refl. Qed.
  Lemma f_ngram : frugal (w_ngram_item (limited l)) (w_ngram_item (limited l')). Proof. keep. alloc. apply frugal_refl. Qed.
  Lemma f_items n : frugal (w_items (limited l) n) (w_items (limited l') n). Proof. alloc. apply frugal_repeat, f_string. Qed.
  Lemma f_ngrams n : frugal (w_ngrams (limited l) n) (w_ngrams (limited l') n). Proof. alloc. apply frugal_repeat, f_ngram. Qed.
  Lemma f_simple : frugal (w_simple (limited l)) (w_simple (limited l')). Proof. do 4 keep. step f_items. apply frugal_refl. Qed.
  Lemma f_bucketed {I} b (B : bucket_ops I) pf id : frugal (w_bucketed (limited l) b B pf id) (w_bucketed (limited l') b B pf id).
  Proof. do 7 keep. step f_items. keep. sub. Qed.
  Lemma f_explicit b pf : frugal (w_explicit (limited l) b pf) (w_explicit (limited l') b pf).
  Proof. do 7 keep. step f_items. keep. step f_ngrams. keep. sub. Qed.
  Lemma f_floret pf : frugal (w_floret (limited l) pf) (w_floret (limited l') pf).
  Proof. do 6 keep. destruct (negb _); [apply frugal_refl|]. keep. do 2 step f_string. keep. sub. Qed.
  Lemma f_vocab b pf : frugal (w_vocab (limited l) b pf) (w_vocab (limited l') b pf).
  Proof.
    keep. destruct a; (lazymatch goal with |- frugal (bind _ _) _ => apply frugal_bind; [|intros ?; apply frugal_refl] | _ => apply frugal_refl end).
    - apply f_simple. - apply f_bucketed. - apply f_bucketed. - apply f_explicit. - apply f_floret.
  Qed.
  Lemma f_ndarray : frugal (w_ndarray (limited l)) (w_ndarray (limited l')). Proof. do 8 keep. alloc. apply frugal_refl. Qed.
  Lemma f_mmap_ndarray pf : frugal (w_mmap_ndarray (limited l) pf) (w_mmap_ndarray (limited l') pf). Proof. do 11 keep. apply frugal_refl. Qed.
  Lemma f_pq : frugal (w_pq (limited l)) (w_pq (limited l')).
  Proof. do 12 keep. apply frugal_bind; [destruct (negb _); [alloc; apply frugal_refl|apply frugal_refl]|intros ?]. alloc. apply frugal_refl. Qed.
  Lemma f_qnorms has n : frugal (w_quantized_norms (limited l) has n) (w_quantized_norms (limited l') has n).
  Proof. destruct has; [|apply frugal_refl]. alloc. apply frugal_refl. Qed.
  Lemma f_quantized : frugal (w_quantized (limited l)) (w_quantized (limited l')).
  Proof. do 2 keep. apply frugal_bind; [apply f_pq|]. intros [[n q] has]. step f_qnorms. alloc. apply frugal_refl. Qed.
  Lemma f_mmap_quantized pf : frugal (w_mmap_quantized (limited l) pf) (w_mmap_quantized (limited l') pf).
  Proof. do 2 keep. apply frugal_bind; [apply f_pq|]. intros [[n q] has]. step f_qnorms. do 2 keep. apply frugal_refl. Qed.
  Lemma f_storage : frugal (w_storage (limited l)) (w_storage (limited l')).
  Proof.
    keep. destruct a; (lazymatch goal with |- frugal (bind _ _) _ => apply frugal_bind; [|intros ?; apply frugal_refl] | _ => apply frugal_refl end); [apply f_ndarray|apply f_quantized].
  Qed.
  Lemma f_mmap_storage pf : frugal (w_mmap_storage (limited l) pf) (w_mmap_storage (limited l') pf).
  Proof.
    keep. destruct a; (lazymatch goal with |- frugal (bind _ _) _ => apply frugal_bind; [|intros ?; apply frugal_refl] | _ => apply frugal_refl end); [apply f_mmap_ndarray|apply f_mmap_quantized].
  Qed.
  Lemma f_file b T {V S} (rv1 rv2 : reader V) (rs1 rs2 : reader S) : frugal rv1 rv2 -> frugal rs1 rs2 ->
    frugal (w_file (limited l) b T rv1 rs1) (w_file (limited l') b T rv2 rs2).
  Proof.
    intros HV HS. apply frugal_bind; [apply f_header|]. intros [|id ids]; [apply frugal_refl|].
    apply frugal_bind; [destruct (chunk_eqb _ _); [step f_metadata; apply frugal_refl|apply frugal_refl]|intros ?].
    step HV. step HS. apply frugal_bind; [apply frugal_ok_opt, f_norms|intros ?]. apply frugal_refl.
  Qed.
  Lemma less_read b T pf : frugal (w_read (limited l) b T pf) (w_read (limited l') b T pf).
  Proof. apply f_file; [apply f_vocab|apply f_storage]. Qed.
  Lemma less_mmap b T pf : frugal (w_mmap (limited l) b T pf) (w_mmap (limited l') b T pf).
  Proof. apply f_file; [apply f_vocab|apply f_mmap_storage]. Qed.

  Lemma less_text_dims_raw P pf {Md} lossy : frugal (l_text_dims_raw (Md := Md) l P pf lossy) (l_text_dims_raw l' P pf lossy).
  Proof. do 2 keep. alloc. keep. alloc. apply frugal_refl. Qed.
  Lemma less_text_dims P pf {Md} lossy : frugal (l_text_dims (Md := Md) l P pf lossy) (l_text_dims l' P pf lossy).
  Proof. step @less_text_dims_raw. apply frugal_refl. Qed.
  Lemma less_word2vec_raw pf {Md} lossy : frugal (l_word2vec_raw (Md := Md) l pf lossy) (l_word2vec_raw l' pf lossy).
  Proof. do 2 keep. do 2 alloc. apply frugal_refl. Qed.
  Lemma less_word2vec pf {Md} lossy : frugal (l_word2vec (Md := Md) l pf lossy) (l_word2vec l' pf lossy).
  Proof. step @less_word2vec_raw. apply frugal_refl. Qed.
  Lemma less_floret P pf {Md} : frugal (l_floret_text (Md := Md) l P pf) (l_floret_text l' P pf).
  Proof.
    do 8 keep. cbv zeta. destruct (_ =? 0); [apply frugal_refl|]. destruct (_ =? 0); [apply frugal_refl|]. destruct (_ <? _); [apply frugal_refl|].
    destruct (negb _); [apply frugal_refl|]. keep. alloc. apply frugal_refl.
  Qed.
  Lemma f_ft_vocab pf c lossy : frugal (l_ft_vocab l pf c lossy) (l_ft_vocab l' pf c lossy).
  Proof. do 3 keep. destruct (0 <? _); [apply frugal_refl|]. do 2 keep. destruct (_ <=? _); [apply frugal_refl|]. alloc. apply frugal_refl. Qed.
  Lemma f_ft_matrix : frugal (l_ft_matrix l) (l_ft_matrix l'). Proof. do 2 keep. alloc. apply frugal_refl. Qed.
  Lemma less_fasttext pf T ct lossy : frugal (l_fasttext l pf T ct lossy) (l_fasttext l' pf T ct lossy).
  Proof.
    keep. destruct (negb _); [apply frugal_refl|]. keep. destruct (_ <? _); [apply frugal_refl|]. keep. step f_ft_vocab. keep.
    destruct (_ =? 1); [apply frugal_refl|]. step f_ft_matrix. apply frugal_refl.
  Qed.
End Less.

(** With as much memory as can be asked for these are the readers of the rest
    of the model. *)
Lemma all_reserve n c : same_r (w_reserve (limited isize_max) n c) (reserve n c). Proof. apply same_reserve. Qed.
Lemma all_zeros dims c : same_r (w_zeros (limited isize_max) dims c) (alloc_zeros dims c). Proof. apply same_zeros. Qed.
Lemma same_trans {A} (m1 m2 m3 : reader A) : same_r m1 m2 -> same_r m2 m3 -> same_r m1 m3. Proof. intros H K s. rewrite H. apply K. Qed.
Lemma same_assoc {A B C} (m : reader A) (k : A -> reader B) (f : B -> reader C) : same_r (bind (bind m k) f) (bind m (fun a => bind (k a) f)).
Proof. intros s. unfold bind. destruct (m s) as [[a| |] s1]; reflexivity. Qed.
Section All.
  Ltac keep := apply same_bind; [apply same_refl|intros ? _].
  Ltac alloc := apply same_bind; [first [apply all_reserve | apply all_zeros]|intros ? _].
  Lemma all_text_dims_raw P pf {Md} lossy : same_r (l_text_dims_raw (Md := Md) isize_max P pf lossy) (read_text_dims_raw P pf lossy).
  Proof.
    do 2 keep. unfold read_embeds. eapply same_trans; [|intros s; symmetry; apply same_assoc].
    alloc. eapply same_trans; [|intros s; symmetry; apply same_assoc]. keep. alloc. apply same_refl.
  Qed.
  Lemma all_text_dims P pf {Md} lossy : same_r (l_text_dims (Md := Md) isize_max P pf lossy) (read_text_dims P pf lossy).
  Proof. apply same_bind; [apply all_text_dims_raw|intros ? _]. apply same_refl. Qed.
  Lemma all_word2vec_raw pf {Md} lossy : same_r (l_word2vec_raw (Md := Md) isize_max pf lossy) (read_word2vec_raw pf lossy).
  Proof. do 2 keep. do 2 alloc. apply same_refl. Qed.
  Lemma all_word2vec pf {Md} lossy : same_r (l_word2vec (Md := Md) isize_max pf lossy) (read_word2vec pf lossy).
  Proof. apply same_bind; [apply all_word2vec_raw|intros ? _]. apply same_refl. Qed.
  Lemma all_floret P pf {Md} : same_r (l_floret_text (Md := Md) isize_max P pf) (read_floret_text P pf).
  Proof.
    do 8 keep. cbv zeta. destruct (_ =? 0); [apply same_refl|]. destruct (_ =? 0); [apply same_refl|]. destruct (_ <? _); [apply same_refl|].
    destruct (negb _); [apply same_refl|]. keep. alloc. apply same_refl.
  Qed.
  Lemma all_ft_vocab pf c lossy : same_r (l_ft_vocab isize_max pf c lossy) (read_ft_vocab pf c lossy).
  Proof. do 3 keep. destruct (0 <? _); [apply same_refl|]. do 2 keep. destruct (_ <=? _); [apply same_refl|]. alloc. apply same_refl. Qed.
  Lemma all_ft_matrix : same_r (l_ft_matrix isize_max) read_ft_matrix. Proof. do 2 keep. alloc. apply same_refl. Qed.
  Lemma all_fasttext pf T ct lossy : same_r (l_fasttext isize_max pf T ct lossy) (read_fasttext pf T ct lossy).
  Proof.
    keep. destruct (negb _); [apply same_refl|]. keep. destruct (_ <? _); [apply same_refl|]. keep. apply same_bind; [apply all_ft_vocab|intros ? _]. keep.
    destruct (_ =? 1); [apply same_refl|]. apply same_bind; [apply all_ft_matrix|intros ? _]. apply same_refl.
  Qed.
End All.

(** ** Enough memory *)

Lemma takes_weaken {A} k (m1 m2 : reader A) Q : takes k m1 m2 Q -> (forall s a s', m2 s = (Ok a, s') -> Q a) -> takes k m1 m2 (fun _ => True).
Proof. intros H K s a s' L E _. apply (H s a s' L E). exact (K s a s' E). Qed.
Lemma add64_lt pf a b n : add64 pf a b = Ok n -> n < two64.
Proof.
  unfold add64. cbv zeta. destruct (N.ltb_spec (a + b) two64) as [L|L]; [intros E; inv E; exact L|]. destruct pf; intros E; inv E. apply N.mod_lt. discriminate.
Qed.
Lemma sub_len_lt {I} (ops : indexer_ops I) pf v n : sub_vocab_len ops pf v = Ok n -> n < two64.
Proof. unfold sub_vocab_len. intros H. apply rbind_Ok_inv in H as (x & _ & H). exact (add64_lt _ _ _ _ H). Qed.

Section Enough.
  Context (l : N) (LM : l <= isize_max) (b : bool) (k : N) (K : 6 * k <= l).
  Let w := limited l.
  Let RO : roomy w k := limited_roomy l k LM K.
  Lemma limited_size n : n < two64 -> n < w_size w. Proof. intros H. exact H. Qed.
  Lemma enough_vocab pf : takes k (w_vocab w b pf) (read_vocab_wrap pf) (fun _ => True).
  Proof.
    intros s a s' L H _. unfold w_vocab, read_vocab_wrap in *. minv H as cid X. apply shrinking_peek in X as LX. rewrite (bind_step _ _ _ _ _ X).
    destruct cid; try discriminate; minv H as v Y; apply ret_inv in H as [<- <-].
    - rewrite (bind_step _ _ _ _ _ (takes_use k _ _ _ _ _ _ (takes_simple w k RO) Y ltac:(lia) Logic.I)). reflexivity.
    - rewrite (bind_step _ _ _ _ _ (takes_use k _ _ _ _ _ _ (takes_bucketed w b k RO hash_bucket_ops pf CBucketSubwordVocab) Y ltac:(lia) (sub_len_lt _ pf v))). reflexivity.
    - rewrite (bind_step _ _ _ _ _ (takes_use k _ _ _ _ _ _ (takes_bucketed w b k RO ft_bucket_ops pf CFastTextSubwordVocab) Y ltac:(lia) (sub_len_lt _ pf v))). reflexivity.
    - rewrite (bind_step _ _ _ _ _ (takes_use k _ _ _ _ _ _ (takes_explicit w b k RO pf) Y ltac:(lia) (sub_len_lt _ pf v))). reflexivity.
    - rewrite (bind_step _ _ _ _ _ (takes_use k _ _ _ _ _ _ (takes_floret w k RO pf) Y ltac:(lia) (sub_len_lt _ pf v))). reflexivity.
  Qed.
  Lemma nonzero_pair n d : nonzero n * nonzero d <= isize_max -> n <= isize_max /\ d <= isize_max.
  Proof. unfold nonzero. destruct (N.eqb_spec n 0), (N.eqb_spec d 0); intros H; subst; try nia; unfold isize_max in *; lia. Qed.
  Lemma ndarray_shape s a s' : read_ndarray s = (Ok a, s') -> a2_nrows a <= w_max w /\ a2_cols a <= w_max w.
  Proof.
    intros H. unfold read_ndarray in H. minv H as u1 A1. minv H as u2 A2. minv H as rows A3. minv H as cols A4. minv H as u5 A5. minv H as u6 A6. minv H as u7 A7.
    minv H as u8 A8. minv H as data A9. apply ret_inv in H as [<- _]. apply alloc_inv in A8 as [[D _] _]. cbn [fold_left] in D. rewrite N.mul_1_l in D.
    apply nonzero_pair in D. cbn [a2_cols]. unfold a2_nrows. cbn [a2_rows]. rewrite FileFacts.unflattenN_lenN. exact D.
  Qed.
  Lemma enough_storage : takes k (w_storage w) read_storage_wrap (fun _ => True).
  Proof.
    intros s a s' L H _. unfold w_storage, read_storage_wrap in *. minv H as cid X. apply shrinking_peek in X as LX. rewrite (bind_step _ _ _ _ _ X).
    destruct cid; try discriminate; minv H as v Y; apply ret_inv in H as [<- <-].
    - rewrite (bind_step _ _ _ _ _ (takes_use k _ _ _ _ _ _ (takes_ndarray w k RO) Y ltac:(lia) (ndarray_shape _ _ _ Y))). reflexivity.
    - rewrite (bind_step _ _ _ _ _ (takes_use k _ _ _ _ _ _ (takes_quantized w k RO) Y ltac:(lia) Logic.I)). reflexivity.
  Qed.
  Lemma pq_count s n q has s' : read_product_quantizer s = (Ok (n, q, has), s') -> n < two64.
  Proof.
    intros H. unfold read_product_quantizer in H. minv H as u1 A1. minv H as u2 A2. minv H as u3 A3. minv H as u4 A4. minv H as u5 A5. minv H as n0 A6. apply u64_lt in A6.
    minv H as u7 A7. minv H as u8 A8. minv H as u9 A9. minv H as u10 A10. minv H as u11 A11. minv H as u12 A12. minv H as u13 A13. minv H as u14 A14. minv H as u15 A15.
    apply ret_inv in H as [E _]. injection E as -> _ _. exact A6.
  Qed.
  Lemma limited_map n : same_r (w_map w n) (mmap_region n).
  Proof. intros s. unfold w_map, mmap_region. replace (w_max w) with isize_max by reflexivity. reflexivity. Qed.
  Lemma limited_mul pf n m : w_mul w pf n m = mul64 pf n m.
  Proof. unfold w_mul, mul64. replace (w_size w) with two64 by reflexivity. reflexivity. Qed.
  Lemma limited_mmap_ndarray pf : same_r (w_mmap_ndarray w pf) (mmap_ndarray pf).
  Proof.
    do 2 (apply same_bind; [apply same_refl|intros ? _]). apply same_bind; [apply same_refl|intros n Y]. apply yields_u64 in Y.
    eapply same_skip; [intros s; apply try_ok, limited_size, Y|]. do 4 (apply same_bind; [apply same_refl|intros ? _]).
    do 2 (apply same_bind; [apply same_lift, limited_mul|intros ? _]). apply same_bind; [apply limited_map|intros ? _]. apply same_refl.
  Qed.
  Lemma enough_mmap_quantized pf : takes k (w_mmap_quantized w pf) (mmap_quantized_chunk pf) (fun _ => True).
  Proof.
    intros s a s' L H _. unfold w_mmap_quantized, mmap_quantized_chunk in *. minv H as u1 A1. minv H as u2 A2. minv H as r A3. destruct r as [[n q] has]. minv H as ns A4.
    rewrite (bind_step _ _ _ _ _ A1), (bind_step _ _ _ _ _ A2). apply shrinking_chunk_type in A1. apply shrinking_u64 in A2. pose proof (pq_count _ _ _ _ _ A3) as C.
    apply (takes_pq w k RO) in A3 as (EX & Q & LQ & L2); [|lia]. apply (takes_qnorms w k RO) in A4 as [EY L3]; [|lia].
    rewrite (bind_step _ _ _ _ _ (EX (limited_size _ C))). cbv beta iota. rewrite (bind_step _ _ _ _ _ EY). rewrite limited_mul.
    minv H as len A5. minv H as map A6. rewrite (bind_step _ _ _ _ _ A5), (bind_step (w_map w len) _ _ _ _ (eq_trans (limited_map _ _) A6)). exact H.
  Qed.
  Lemma enough_mmap_storage pf : takes k (w_mmap_storage w pf) (mmap_storage_wrap pf) (fun _ => True).
  Proof.
    intros s a s' L H _. unfold w_mmap_storage, mmap_storage_wrap in *. minv H as cid X. apply shrinking_peek in X as LX. rewrite (bind_step _ _ _ _ _ X).
    destruct cid; try discriminate; minv H as v Y; apply ret_inv in H as [<- <-].
    - rewrite (bind_step (w_mmap_ndarray w pf) _ _ _ _ (eq_trans (limited_mmap_ndarray pf _) Y)). reflexivity.
    - rewrite (bind_step _ _ _ _ _ (takes_use k _ _ _ _ _ _ (enough_mmap_quantized pf) Y ltac:(lia) Logic.I)). reflexivity.
  Qed.
End Enough.

Lemma enough_file l T {V S} (rv1 rv2 : reader V) (rs1 rs2 : reader S) s e s' : l <= isize_max -> 6 * lenN (s_rest s) <= l ->
  takes (lenN (s_rest s)) rv1 rv2 (fun _ => True) -> takes (lenN (s_rest s)) rs1 rs2 (fun _ => True) -> shrinking rv2 -> shrinking rs2 ->
  frugal (w_file (limited l) false T rv1 rs1) (read_embeddings T rv2 rs2) ->
  read_embeddings T rv2 rs2 s = (Ok e, s') ->
  w_file (limited l) false T rv1 rs1 s = (Ok e, s') \/ em_norms e = None /\ fst (w_file (limited l) false T rv1 rs1 s) = Panic PCapacity.
Proof.
  intros LM K TV TS SV SS F H.
  destruct (takes_file (limited l) false _ (limited_roomy l _ LM K) T rv1 rv2 rs1 rs2 _ _ s e s' TV TS SV SS ltac:(lia) H Logic.I Logic.I) as [_ [E|E]]; [|right; exact E].
  destruct (F s) as [X|X]; [left; congruence|rewrite E in X; discriminate].
Qed.
(** A file that can be read needs at most six times its size.  A damaged chunk of
    norms may ask for more before it is ignored. *)
Lemma enough_read l T pf s e s' : l <= isize_max -> 6 * lenN (s_rest s) <= l ->
  read_embeddings T (read_vocab_wrap pf) read_storage_wrap s = (Ok e, s') ->
  w_read (limited l) false T pf s = (Ok e, s') \/ em_norms e = None /\ fst (w_read (limited l) false T pf s) = Panic PCapacity.
Proof.
  intros LM K. apply (enough_file l T); auto using enough_vocab, enough_storage, shrinking_vocab, shrinking_storage.
  apply (frugal_same _ (w_read (limited isize_max) false T pf)); [apply less_read; exact LM|intros s0; apply width_64].
Qed.
Lemma enough_mmap l T pf s e s' : l <= isize_max -> 6 * lenN (s_rest s) <= l ->
  mmap_embeddings T (read_vocab_wrap pf) (mmap_storage_wrap pf) s = (Ok e, s') ->
  w_mmap (limited l) false T pf s = (Ok e, s') \/ em_norms e = None /\ fst (w_mmap (limited l) false T pf s) = Panic PCapacity.
Proof.
  intros LM K. apply (enough_file l T); auto using enough_vocab, enough_mmap_storage, shrinking_vocab, shrinking_mmap_storage.
  apply (frugal_same _ (w_mmap (limited isize_max) false T pf)); [apply less_mmap; exact LM|intros s0; apply width_64_mmap].
Qed.

(** *** The other formats *)
Lemma until_size d s buf s' : read_until d s = (Ok buf, s') -> lenN (s_rest s) = lenN buf + lenN (s_rest s').
Proof.
  unfold read_until. destruct (split_until d (s_rest s)) as [x y] eqn:E. destruct (_ && _)%bool; intros H; inv H. cbn [s_rest].
  revert buf y E. induction (s_rest s) as [|c r IH]; cbn [split_until]; intros x y E; [inv E; reflexivity|].
  destruct (byte_eqb c d); [inv E; rewrite !lenN_cons, lenN_nil; lia|]. destruct (split_until d r) as [x0 y0]. inv E. rewrite !lenN_cons, (IH _ _ eq_refl). lia.
Qed.
Lemma string_consumes d lossy s a s' : read_string d lossy s = (Ok a, s') -> lenN (s_rest s') <= lenN (s_rest s).
Proof.
  unfold read_string. intros H. minv H as buf X. apply until_size in X. destruct lossy; [apply ret_inv in H as [_ <-]; lia|].
  destruct (utf8_valid _); [apply ret_inv in H as [_ <-]; lia|discriminate].
Qed.
Lemma removelast_len (l : list byte) : l <> [] -> lenN l = 1 + lenN (removelast l).
Proof. intros H. rewrite (app_removelast_last x00 H) at 1. rewrite lenN_app, lenN_cons, lenN_nil. lia. Qed.
Lemma number_size d s n s' : read_number d s = (Ok n, s') -> 2 + lenN (s_rest s') <= lenN (s_rest s).
Proof.
  unfold read_number, read_string. intros H. minv H as t X. minv X as buf Y. apply until_size in Y.
  destruct (utf8_valid _); [|discriminate]. apply ret_inv in X as [<- <-].
  destruct buf as [|b0 buf]; [discriminate|]. pose proof (removelast_len (b0 :: buf) ltac:(discriminate)) as R.
  destruct (removelast (b0 :: buf)) as [|b1 t]; [discriminate|]. rewrite !lenN_cons in R. rewrite lenN_cons in Y. destruct (dec_parse _); [|discriminate]. apply ret_inv in H as [_ <-]. lia.
Qed.
Lemma lossy_size l : lenN (from_utf8_lossy l) <= 3 * lenN l.
Proof.
  unfold lenN. enough (length (from_utf8_lossy l) <= 3 * length l)%nat by lia.
  remember (length l) as n eqn:E. assert (length l <= n)%nat as L by lia. rewrite E. clear E. revert l L.
  induction n as [|n IH]; intros l L.
  - destruct l; [cbn; lia|cbn in L; lia].
  - destruct l as [|c l]; [cbn; lia|]. assert (c :: l <> []) as NE by discriminate. rewrite lossy_unfold by exact NE.
    pose proof (step_width_le (c :: l) NE) as W. destruct (utf8_step (c :: l)) as [x w|w] eqn:ES; cbn [step_width] in W; rewrite app_length.
    + specialize (IH (skipn w (c :: l))). rewrite skipn_length in IH. rewrite firstn_length. lia.
    + specialize (IH (skipn w (c :: l))). rewrite skipn_length in IH. cbn [replacement length] in *. lia.
Qed.
Lemma fields_count s fs : has_fields s fs -> lenN fs <= lenN s.
Proof.
  induction 1 as [s H|pre f r fs H NE NB B H' IH]; [rewrite lenN_nil; lia|]. rewrite !lenN_app, lenN_cons. destruct f; [contradiction|]. rewrite lenN_cons. lia.
Qed.
Lemma strip_nl_size l : lenN (strip_nl l) <= lenN l.
Proof.
  unfold strip_nl. destruct (rev l) as [|c r] eqn:E; [lia|]. assert (lenN (rev r) <= lenN l) as K.
  { rewrite <- (rev_involutive l), E. cbn [rev]. rewrite lenN_app. lia. }
  destruct c; try lia; exact K.
Qed.
Lemma forall2_size {A B} (R : A -> B -> Prop) l1 l2 : Forall2 R l1 l2 -> lenN l1 = lenN l2.
Proof. induction 1; [reflexivity|]. rewrite !lenN_cons. lia. Qed.
Lemma line_item_size P lossy l it : line_item P lossy l it -> lenN (snd it) <= 3 * lenN l.
Proof.
  intros (s & ps & D & H & F). apply fields_count in H. rewrite lenN_cons in H. apply forall2_size in F.
  assert (lenN s <= 3 * lenN l) as K by (destruct lossy; [rewrite D; apply lossy_size|destruct D as [-> _]; lia]). lia.
Qed.
Lemma text_lines_size P lossy fuel : forall s ws xs s', text_lines P fuel lossy s = (Ok (ws, xs), s') -> lenN ws <= lenN (s_rest s) /\ lenN xs <= 3 * lenN (s_rest s).
Proof.
  induction fuel as [|fuel IH]; intros s ws xs s' H; [discriminate|]. cbn [text_lines] in H. minv H as buf X. apply until_size in X.
  destruct buf as [|b0 buf]; [apply ret_inv in H as [E _]; injection E as <- <-; split; apply N.le_0_l|].
  minv H as wx Y. apply lift_inv in Y as [Y <-]. minv H as r Z. destruct r as [ws' xs']. apply ret_inv in H as [E _]. cbn [fst snd] in E. injection E as <- <-.
  apply IH in Z as [Z1 Z2]. apply text_line_item, line_item_size in Y. pose proof (strip_nl_size (b0 :: buf)). rewrite lenN_cons, lenN_app. rewrite lenN_cons in *. lia.
Qed.
Lemma mul64_le pf n d c : mul64 pf n d = Ok c -> c <= n * d.
Proof.
  unfold mul64. cbv zeta. destruct (_ <? _); [intros H; inv H; lia|]. destruct pf; intros H; inv H. apply N.mod_le. discriminate.
Qed.
Lemma limited_reserve l n c s : n * c <= l -> w_reserve (limited l) n c s = (Ok tt, s). Proof. intros H. apply w_reserve_ok. exact H. Qed.
Lemma limited_zeros l dims c s : dims_ok dims c -> fold_left N.mul dims 1 * c <= l -> w_zeros (limited l) dims c s = (Ok tt, s).
Proof. intros [D _] H. apply zeros_ok; [exact D|exact H]. Qed.

Lemma enough_text_dims_raw l P pf {Md} lossy s e s' : 24 * lenN (s_rest s) <= l -> read_text_dims_raw (Md := Md) P pf lossy s = (Ok e, s') ->
  l_text_dims_raw l P pf lossy s = (Ok e, s').
Proof.
  intros K H. unfold read_text_dims_raw, read_embeds in H. minv H as n X1. minv H as d X2. minv H as u X3. minv X3 as u1 X4. minv X3 as c X5.
  apply reserve_inv in X3 as [_ <-]. apply reserve_inv in X4 as [_ <-]. apply lift_inv in X5 as X5'. destruct X5' as [M <-]. apply mul64_le in M.
  unfold l_text_dims_raw. rewrite (bind_step _ _ _ _ _ X1), (bind_step _ _ _ _ _ X2). apply number_size in X1, X2. pose proof H as H'. minv H' as wd X6. destruct wd as [ws xs].
  minv H' as sh X7. apply lift_inv in X7 as [X7 <-]. minv H' as a X8. apply lift_inv in X8 as [X8 <-]. apply text_lines_size in X6 as [B1 B2].
  unfold text_shape in X7. destruct (N.eqb_spec (lenN ws) n) as [EN|]; [|discriminate]. cbn [negb] in X7. apply rbind_Ok_inv in X7 as (dd & X9 & X7).
  destruct (negb _); [discriminate|]. injection X7 as <-. unfold from_shape_vec in X8. cbn [fst snd] in X8. destruct (N.eqb_spec (lenN xs) (n * d)) as [ED|]; [|discriminate].
  rewrite (bind_step _ _ _ _ _ (limited_reserve l n 24 _ ltac:(lia))), (bind_step _ _ _ _ _ X5), (bind_step _ _ _ _ _ (limited_reserve l c 4 _ ltac:(lia))). exact H.
Qed.
Lemma enough_text_dims l P pf {Md} lossy s e s' : 24 * lenN (s_rest s) <= l -> read_text_dims (Md := Md) P pf lossy s = (Ok e, s') ->
  l_text_dims l P pf lossy s = (Ok e, s').
Proof. intros K H. unfold read_text_dims, l_text_dims in *. minv H as e0 X. rewrite (bind_step _ _ _ _ _ (enough_text_dims_raw l P pf lossy _ _ _ K X)). exact H. Qed.

(** A binary file: without components, entries after the end of the file have
    the empty word. *)
Lemma f32s_read_len n s v s' : read_f32s n s = (Ok v, s') -> lenN (s_rest s) = 4 * n + lenN (s_rest s').
Proof. apply f32s_size. Qed.
Lemma w2v_entry_size d lossy s it s' : read_w2v_entry d lossy s = (Ok it, s') ->
  4 * d + lenN (s_rest s') <= lenN (s_rest s) /\ (s_rest s <> [] -> 1 + lenN (s_rest s') <= lenN (s_rest s)) /\ (s_rest s = [] -> fst it = [] /\ s_rest s' = []).
Proof.
  unfold read_w2v_entry, read_string. intros H. minv H as t X. minv X as buf Y. minv H as v U. apply ret_inv in H as [<- <-]. apply f32s_size in U.
  assert ((s_rest s <> [] -> buf <> []) /\ (s_rest s = [] -> buf = [])) as [B1 B2].
  { unfold read_until in Y. destruct (s_rest s) as [|c r]; cbn [split_until] in Y.
    - destruct (_ && _)%bool; inv Y. split; [contradiction|reflexivity].
    - split; [|discriminate]. intros _ ->. destruct (byte_eqb c x20); [destruct (_ && _)%bool; inv Y|]. destruct (split_until x20 r). destruct (_ && _)%bool; inv Y. }
  apply until_size in Y.
  match type of X with _ ?a = (_, ?b) => assert (a = b /\ (buf = [] -> t = [])) as [EA ET] end.
  { destruct lossy; [|destruct (utf8_valid _); [|discriminate]]; apply ret_inv in X as [<- <-]; (split; [reflexivity|intros ->; reflexivity]). }
  rewrite <- EA in U. split; [lia|]. split.
  - intros NE. apply B1 in NE. destruct buf; [contradiction|]. rewrite lenN_cons in Y. lia.
  - intros E. rewrite E, lenN_nil in Y. rewrite (ET (B2 E)). split; [reflexivity|]. apply lenN_0. lia.
Qed.
Lemma w2v_entries_size d lossy i : forall s es s', repeat_nat i (read_w2v_entry d lossy) s = (Ok es, s') -> NoDup (map fst es) ->
  4 * (N.of_nat i * d) + lenN (s_rest s') <= lenN (s_rest s) /\ N.of_nat i <= 1 + lenN (s_rest s).
Proof.
  assert (forall i s es s', s_rest s = [] -> repeat_nat i (read_w2v_entry d lossy) s = (Ok es, s') -> map fst es = repeat [] i) as A.
  { clear i. intros i. induction i as [|i IH]; intros s es s' E H; cbn [repeat_nat] in H; [apply ret_inv in H as [<- _]; reflexivity|].
    minv H as it X. minv H as l Y. apply ret_inv in H as [<- _]. apply w2v_entry_size in X as (_ & _ & X). destruct (X E) as [X1 X2].
    cbn [map repeat]. rewrite X1, (IH _ _ _ X2 Y). reflexivity. }
  induction i as [|i IH]; intros s es s' H ND; cbn [repeat_nat] in H; [apply ret_inv in H as [_ <-]; lia|].
  minv H as it X. minv H as l Y. apply ret_inv in H as [<- <-]. cbn [map] in ND. apply w2v_entry_size in X as (X1 & X2 & X3).
  assert (NoDup (map fst l)) as ND' by (inversion ND; assumption). destruct (IH _ _ _ Y ND') as [I1 I2]. rewrite Nat2N.inj_succ, N.mul_succ_l. split; [lia|].
  destruct (s_rest s) as [|c r] eqn:E; [|specialize (X2 ltac:(discriminate)); lia].
  destruct (X3 eq_refl) as [F E']. rewrite (A _ _ _ _ E' Y), F in ND. destruct i as [|i]; [cbn; lia|]. cbn [repeat] in ND. inversion ND as [|? ? NI _]. destruct NI. left. reflexivity.
Qed.
Lemma simple_new_ND ws v : simple_new ws = Ok v -> NoDup ws.
Proof. intros H. apply simple_new_Ok in H as [H _]. exact H. Qed.
Lemma enough_word2vec_raw l pf {Md} lossy s e s' : 24 * lenN (s_rest s) <= l -> read_word2vec_raw (Md := Md) pf lossy s = (Ok e, s') ->
  l_word2vec_raw l pf lossy s = (Ok e, s').
Proof.
  intros K H. unfold read_word2vec_raw, l_word2vec_raw in *. minv H as n X1. minv H as d X2. minv H as u X3. minv H as u1 X4.
  apply alloc_inv in X3 as [D <-]. apply reserve_inv in X4 as [_ <-]. rewrite (bind_step _ _ _ _ _ X1), (bind_step _ _ _ _ _ X2). apply number_size in X1, X2.
  pose proof H as H'. minv H' as es X5. minv H' as v X6. apply lift_inv in X6 as [X6 <-]. apply simple_new_ND in X6. rewrite repeat_m_nat in X5.
  apply w2v_entries_size in X5 as [B1 B2]; [|exact X6]. rewrite N2Nat.id in *.
  assert (fold_left N.mul [n; d] 1 * 4 <= l) as Z by (cbn [fold_left]; rewrite N.mul_1_l; lia).
  rewrite (bind_step _ _ _ _ _ (limited_zeros l _ _ _ D Z)), (bind_step _ _ _ _ _ (limited_reserve l n 24 _ ltac:(lia))). exact H.
Qed.
Lemma enough_word2vec l pf {Md} lossy s e s' : 24 * lenN (s_rest s) <= l -> read_word2vec (Md := Md) pf lossy s = (Ok e, s') ->
  l_word2vec l pf lossy s = (Ok e, s').
Proof. intros K H. unfold read_word2vec, l_word2vec in *. minv H as e0 X. rewrite (bind_step _ _ _ _ _ (enough_word2vec_raw l pf lossy _ _ _ K X)). exact H. Qed.

Lemma strip_crlf_size l : lenN (strip_crlf l) <= lenN l.
Proof.
  assert (forall r : list byte, lenN (rev r) = lenN r) as R by (intros r; unfold lenN; rewrite rev_length; reflexivity).
  unfold strip_crlf. pose proof (R l) as RL. destruct (rev l) as [|c r]; [lia|]. rewrite lenN_cons in RL. destruct c; try lia.
  destruct r as [|c r]; [cbn [rev]; rewrite lenN_nil; lia|]. pose proof (R r). pose proof (R (c :: r)). rewrite lenN_cons in *. destruct c; lia.
Qed.
Lemma floret_lines_size P dims fuel : forall s xs s', floret_lines P fuel dims s = (Ok xs, s') -> lenN xs <= lenN (s_rest s).
Proof.
  induction fuel as [|fuel IH]; intros s xs s' H; [discriminate|]. cbn [floret_lines] in H. minv H as buf X. apply until_size in X.
  destruct buf as [|b0 buf]; [apply ret_inv in H as [E _]; subst xs; apply N.le_0_l|].
  minv H as ys Y. apply lift_inv in Y as [Y <-]. minv H as r Z. apply ret_inv in H as [E _]. subst xs. apply IH in Z. rewrite lenN_app.
  pose proof (strip_crlf_size (b0 :: buf)) as C. unfold floret_line in Y. destruct (utf8_valid _); [|discriminate]. apply rbind_Ok_inv in Y as (zs & Y & E).
  destruct (_ =? _); [|discriminate]. injection E as <-. unfold parse_floats in Y. apply rmap_Ok_inv, forall2_size in Y. pose proof (fields_count _ _ (fields_has (strip_crlf (b0 :: buf)))) as FC.
  destruct (fields _) as [|f fs]; cbn [tl] in Y; [|rewrite (lenN_cons f) in FC]; rewrite ?lenN_nil in *; lia.
Qed.
Lemma shrinking_read_number d : shrinking (read_number d). Proof. intros s a s' H. apply number_size in H. lia. Qed.
Lemma enough_floret l P pf {Md} s e s' : 24 * lenN (s_rest s) <= l -> read_floret_text (Md := Md) P pf s = (Ok e, s') ->
  l_floret_text l P pf s = (Ok e, s').
Proof.
  intros K H. unfold read_floret_text, l_floret_text in *.
  minv H as nb X1. minv H as dims X2. minv H as mn X3. minv H as mx X4. minv H as nh X5. minv H as seed X6. minv H as bow X7. minv H as eow X8. cbv zeta in *.
  rewrite (bind_step _ _ _ _ _ X1), (bind_step _ _ _ _ _ X2), (bind_step _ _ _ _ _ X3), (bind_step _ _ _ _ _ X4), (bind_step _ _ _ _ _ X5), (bind_step _ _ _ _ _ X6), (bind_step _ _ _ _ _ X7), (bind_step _ _ _ _ _ X8).
  apply number_size in X1, X2, X3, X4, X5, X6. apply string_consumes in X7, X8.
  destruct (_ =? 0); [discriminate|]. destruct (_ =? 0); [discriminate|]. destruct (_ <? _); [discriminate|]. destruct (negb _); [discriminate|].
  minv H as c Y1. minv H as u Y2. apply reserve_inv in Y2 as [_ <-]. rewrite (bind_step _ _ _ _ _ Y1). apply lift_inv in Y1 as [Y1 <-]. apply mul64_le in Y1.
  pose proof H as H'. minv H' as data Y3. minv H' as a Y4. apply lift_inv in Y4 as [Y4 <-]. apply floret_lines_size in Y3. unfold from_shape_vec in Y4.
  destruct (N.eqb_spec (lenN data) (nb * dims)) as [ED|]; [|discriminate].
  rewrite (bind_step _ _ _ _ _ (limited_reserve l c 4 _ ltac:(lia))). exact H.
Qed.

Lemma ft_entry_size lossy s w s' : read_ft_entry lossy s = (Ok w, s') -> 9 + lenN (s_rest s') <= lenN (s_rest s).
Proof.
  unfold read_ft_entry, read_u64, read_u8. intros H. minv H as t X. apply string_consumes in X. minv H as i Y. minv Y as bs Z. apply ret_inv in Y as [_ <-]. apply exact_shorter in Z.
  minv H as j Y. minv Y as bs1 Z1. apply ret_inv in Y as [_ <-]. apply exact_shorter in Z1. destruct (negb _); [discriminate|]. apply ret_inv in H as [_ <-]. lia.
Qed.
Lemma enough_ft_vocab l pf c lossy s v s' : 24 * lenN (s_rest s) <= l -> read_ft_vocab pf c lossy s = (Ok v, s') ->
  l_ft_vocab l pf c lossy s = (Ok v, s') /\ lenN (s_rest s') <= lenN (s_rest s).
Proof.
  intros K H. unfold read_ft_vocab, l_ft_vocab in *. minv H as n X1. minv H as u2 X2. minv H as nl X3. rewrite (bind_step _ _ _ _ _ X1), (bind_step _ _ _ _ _ X2), (bind_step _ _ _ _ _ X3).
  apply shrinking_u32 in X1, X2, X3. destruct (0 <? nl); [discriminate|]. minv H as u4 X4. minv H as pr X5. rewrite (bind_step _ _ _ _ _ X4), (bind_step _ _ _ _ _ X5).
  apply shrinking_u64 in X4, X5. destruct (_ <=? _); [discriminate|]. minv H as u Y. apply reserve_inv in Y as [_ <-]. pose proof H as H'. minv H' as ws Z. minv H' as ix Z1.
  apply lift_inv in Z1 as [_ <-]. apply lift_inv in H' as [_ <-].
  apply (repeat_takes (read_ft_entry lossy) _ 9 (lenN (s_rest s))) in Z as (B & _ & _); [|apply ft_entry_size|intros ? ? ? _ E _; exact E|lia].
  rewrite (bind_step _ _ _ _ _ (limited_reserve l n 24 _ ltac:(lia))). split; [exact H|lia].
Qed.
Lemma enough_ft_matrix l s a s' : 24 * lenN (s_rest s) <= l -> read_ft_matrix s = (Ok a, s') -> l_ft_matrix l s = (Ok a, s').
Proof.
  intros K H. unfold read_ft_matrix, l_ft_matrix in *. minv H as m X1. minv H as n X2. minv H as u X3. apply alloc_inv in X3 as [D <-]. rewrite (bind_step _ _ _ _ _ X1), (bind_step _ _ _ _ _ X2).
  apply shrinking_u64 in X1, X2. pose proof H as H'. minv H' as xs X4. apply f32s_size in X4.
  assert (fold_left N.mul [m; n] 1 * 4 <= l) as Z by (cbn [fold_left]; rewrite N.mul_1_l; lia).
  rewrite (bind_step _ _ _ _ _ (limited_zeros l _ _ _ D Z)). exact H.
Qed.
Lemma shrinking_loss : shrinking read_loss.
Proof. apply shrinking_bind; [apply shrinking_u32|intros [|[[|[]|]|[[]|[]|]|]]]; shrinks. Qed.
Lemma shrinking_model : shrinking read_model.
Proof. apply shrinking_bind; [apply shrinking_u32|intros [|[[|[]|]|[[]|[]|]|]]]; shrinks. Qed.
Lemma shrinking_config : shrinking read_config.
Proof. unfold read_config. repeat first [apply shrinking_loss | apply shrinking_model | progress shrinks]. Qed.
Lemma enough_fasttext l pf T ct lossy s e s' : 24 * lenN (s_rest s) <= l -> read_fasttext pf T ct lossy s = (Ok e, s') ->
  l_fasttext l pf T ct lossy s = (Ok e, s').
Proof.
  intros K H. unfold read_fasttext, l_fasttext in *. minv H as m X1. rewrite (bind_step _ _ _ _ _ X1). apply shrinking_u32 in X1. destruct (negb _); [discriminate|].
  minv H as ver X2. rewrite (bind_step _ _ _ _ _ X2). apply shrinking_u32 in X2. destruct (_ <? _); [discriminate|]. minv H as c X3. rewrite (bind_step _ _ _ _ _ X3). apply shrinking_config in X3.
  minv H as v X4. apply (enough_ft_vocab l) in X4 as [X4 L4]; [|lia]. rewrite (bind_step _ _ _ _ _ X4). minv H as q X5. rewrite (bind_step _ _ _ _ _ X5).
  assert (shrinking read_u8) as S8 by (unfold read_u8; shrinks). apply S8 in X5. destruct (_ =? 1); [discriminate|].
  minv H as a0 X6. apply (enough_ft_matrix l) in X6; [|lia]. rewrite (bind_step _ _ _ _ _ X6). exact H.
Qed.
