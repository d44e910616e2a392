(** * Finalfusion files on machines with pointers of other widths. *)
From Verif Require Import Base BaseFacts Utf8 Stream StreamFacts F32 ChunkIO ChunkFacts Subword Vocab VocabFacts
  Storage StorageFacts Embeddings ReadFacts FastTextThms Width.
Local Open Scope N_scope.

Lemma w_size_64 : w_size m64 = two64. Proof. reflexivity. Qed.
Lemma w_max_64 : w_max m64 = isize_max. Proof. reflexivity. Qed.
Lemma limit_64 : mw_limit m64 = isize_max. Proof. reflexivity. Qed.

Lemma exact_shorter n s bs s' : read_exact n s = (Ok bs, s') -> lenN (s_rest s) = n + lenN (s_rest s').
Proof. intros H. apply read_exact_inv in H as (E & L & _). rewrite E, lenN_app. lia. Qed.
Lemma u32_lt s n s' : read_u32 s = (Ok n, s') -> n < two32. Proof. intros H. apply read_u32_inv in H. tauto. Qed.
Lemma u64_lt s n s' : read_u64 s = (Ok n, s') -> n < two64. Proof. intros H. apply read_u64_inv in H. tauto. Qed.

(** ** The 64-bit machine *)

(** A value that a reader can give. *)
Definition yields {A} (m : reader A) (a : A) : Prop := exists s s', m s = (Ok a, s').
Definition same_r {A} (m1 m2 : reader A) : Prop := forall s, m1 s = m2 s.

Lemma same_refl {A} (m : reader A) : same_r m m. Proof. intros s. reflexivity. Qed.
Lemma same_bind {A B} (m1 m2 : reader A) (k1 k2 : A -> reader B) : same_r m1 m2 ->
  (forall a, yields m2 a -> same_r (k1 a) (k2 a)) -> same_r (bind m1 k1) (bind m2 k2).
Proof.
  intros H K s. unfold bind. rewrite (H s). destruct (m2 s) as [[a|e|p] s1] eqn:E; [|reflexivity|reflexivity].
  apply K. exists s, s1. exact E.
Qed.
Lemma same_skip {A B} (a : A) (m : reader A) (k1 : A -> reader B) (m2 : reader B) : (forall s, m s = (Ok a, s)) ->
  same_r (k1 a) m2 -> same_r (bind m k1) m2.
Proof. intros H K s. unfold bind. rewrite H. apply K. Qed.
Lemma same_repeat {A} n (m1 m2 : reader A) : same_r m1 m2 -> same_r (repeat_m n m1) (repeat_m n m2).
Proof.
  intros H s. rewrite !repeat_m_nat. revert s. induction (N.to_nat n) as [|k IH]; intros s; [reflexivity|].
  cbn [repeat_nat]. unfold bind. rewrite (H s). destruct (m2 s) as [[a|e|p] s1]; auto. rewrite IH. reflexivity.
Qed.
Lemma same_ok_opt {A} (m1 m2 : reader A) : same_r m1 m2 -> same_r (ok_opt m1) (ok_opt m2).
Proof. intros H s. unfold ok_opt. rewrite (H s). reflexivity. Qed.
Lemma yields_u32 n : yields read_u32 n -> n < two32. Proof. intros (s & s' & H). exact (u32_lt _ _ _ H). Qed.
Lemma yields_u64 n : yields read_u64 n -> n < two64. Proof. intros (s & s' & H). exact (u64_lt _ _ _ H). Qed.

Lemma try_ok w n s : n < w_size w -> w_try w n s = (Ok n, s).
Proof. intros H. unfold w_try. apply N.ltb_lt in H. rewrite H. reflexivity. Qed.
Lemma as_ok w b n s : n < w_size w -> w_as w b n s = (Ok n, s).
Proof. intros H. unfold w_as. destruct b; [apply try_ok; exact H|]. rewrite N.mod_small by exact H. reflexivity. Qed.
Lemma w_reserve_ok w n c s : n * c <= mw_limit w -> w_reserve w n c s = (Ok tt, s).
Proof. intros H. unfold w_reserve. apply N.leb_le in H. rewrite H. reflexivity. Qed.

Section M64.
  Variable b : bool.
  Lemma same_reserve n c : same_r (w_reserve m64 n c) (reserve n c).
  Proof. intros s. unfold w_reserve, reserve. rewrite limit_64. reflexivity. Qed.
  Lemma same_zeros dims c : same_r (w_zeros m64 dims c) (alloc_zeros dims c).
  Proof. intros s. unfold w_zeros, alloc_zeros. rewrite limit_64, w_max_64. reflexivity. Qed.
  Lemma same_map n : same_r (w_map m64 n) (mmap_region n).
  Proof. intros s. unfold w_map, mmap_region. rewrite w_max_64. reflexivity. Qed.
  Lemma same_mul pf n k : w_mul m64 pf n k = mul64 pf n k.
  Proof. unfold w_mul, mul64. rewrite w_size_64. reflexivity. Qed.
  Lemma same_string : same_r (w_string_item m64) read_string_item.
  Proof.
    apply same_bind; [apply same_refl|]. intros n Y. apply yields_u32 in Y. eapply same_skip; [|apply same_refl].
    intros s. apply w_reserve_ok. rewrite limit_64. unfold isize_max, two32 in *. lia.
  Qed.
  Lemma same_ngram : same_r (w_ngram_item m64) read_ngram_item.
  Proof.
    apply same_bind; [apply same_refl|]. intros n Y. apply yields_u32 in Y. eapply same_skip; [|apply same_refl].
    intros s. apply w_reserve_ok. rewrite limit_64. unfold isize_max, two32 in *. lia.
  Qed.
  Lemma same_items n : same_r (w_items m64 n) (read_items n).
  Proof. apply same_bind; [apply same_reserve|]. intros _ _. apply same_repeat, same_string. Qed.
  Lemma same_ngrams n : same_r (w_ngrams m64 n) (read_ngrams_with_indices n).
  Proof. apply same_bind; [apply same_reserve|]. intros _ _. apply same_repeat, same_ngram. Qed.
  Lemma same_sub_new {I} (ops : indexer_ops I) pf words mn mx ix bow eow :
    w_sub_new m64 ops pf words mn mx ix bow eow = sub_new_with_boundaries ops pf words mn mx ix bow eow.
  Proof.
    unfold w_sub_new, sub_new_with_boundaries. destruct (rassert (lenN words =? _) _); [|reflexivity|reflexivity]. cbn [rbind].
    destruct (ix_bound ops pf ix) as [n| |]; [|reflexivity|reflexivity]. cbn [rbind]. rewrite w_size_64.
    destruct (N.ltb_spec (lenN words + n) two64) as [L|L].
    - replace (n <? two64) with true by (symmetry; apply N.ltb_lt; lia). reflexivity.
    - destruct (n <? two64); reflexivity.
  Qed.
  Lemma same_header : same_r (w_header m64) read_header.
  Proof.
    apply same_bind; [apply same_refl|]. intros mg _. destruct (negb _); [apply same_refl|].
    apply same_bind; [apply same_refl|]. intros v _. destruct (negb _); [apply same_refl|].
    apply same_bind; [apply same_refl|]. intros n Y. apply yields_u32 in Y. eapply same_skip; [|apply same_refl].
    intros s. apply w_reserve_ok. rewrite limit_64. unfold isize_max, two32 in *. lia.
  Qed.
  Ltac keep := apply same_bind; [apply same_refl|intros ? ?].
  Ltac u64s := repeat match goal with Y : yields read_u64 _ |- _ => apply yields_u64 in Y end.
  Ltac cast := u64s; eapply same_skip; [intros s; first [apply try_ok | apply as_ok]; rewrite w_size_64; eassumption|].
  Lemma same_metadata T : same_r (w_metadata m64 b T) (read_metadata_chunk T).
  Proof. keep. keep. cast. apply same_bind; [apply same_reserve|intros _ _]. apply same_refl. Qed.
  Lemma zeros_one n s : w_zeros m64 [n] 4 s = reserve n 4 s.
  Proof.
    unfold w_zeros, reserve. cbn [fold_left]. rewrite limit_64, w_max_64, !N.mul_1_l. destruct (N.leb_spec (n * 4) isize_max) as [L|L].
    - assert (nonzero n <= isize_max) as K by (unfold nonzero; destruct (n =? 0); unfold isize_max in *; lia).
      apply N.leb_le in K. rewrite K. reflexivity.
    - rewrite Bool.andb_false_r. reflexivity.
  Qed.
  Lemma same_norms : same_r (w_norms m64) read_norms.
  Proof. do 3 keep. cast. do 3 keep. apply same_bind; [intros s; apply zeros_one|intros _ _]. apply same_refl. Qed.
  Lemma same_simple : same_r (w_simple m64) read_simple.
  Proof. do 3 keep. cast. apply same_bind; [apply same_items|intros ? ?]. apply same_refl. Qed.
  Lemma same_lift {A} (r1 r2 : res A) : r1 = r2 -> same_r (lift r1) (lift r2). Proof. intros -> s. reflexivity. Qed.
  Lemma same_bucketed {I} (B : bucket_ops I) pf id : same_r (w_bucketed m64 b B pf id) (read_bucketed B pf id).
  Proof. do 3 keep. cast. do 3 keep. apply same_bind; [apply same_items|intros ? ?]. keep. apply same_lift, same_sub_new. Qed.
  Lemma same_explicit pf : same_r (w_explicit m64 b pf) (read_explicit pf).
  Proof.
    do 6 keep. cast. apply same_bind; [apply same_items|intros ? ?]. cast. apply same_bind; [apply same_ngrams|intros ? ?]. keep.
    apply same_lift, same_sub_new.
  Qed.
  Lemma same_floret pf : same_r (w_floret m64 pf) (read_floret pf).
  Proof.
    do 6 keep. destruct (negb _); [apply same_refl|]. keep. do 2 (apply same_bind; [apply same_string|intros ? ?]). keep.
    apply same_lift, same_sub_new.
  Qed.
  Lemma same_vocab pf : same_r (w_vocab m64 b pf) (read_vocab_wrap pf).
  Proof.
    keep. destruct a; (lazymatch goal with |- same_r (bind _ _) _ => apply same_bind; [|intros ? ?; apply same_refl] | _ => apply same_refl end).
    - apply same_simple. - apply same_bucketed. - apply same_bucketed. - apply same_explicit. - apply same_floret.
  Qed.
  Lemma same_ndarray : same_r (w_ndarray m64) read_ndarray.
  Proof. do 3 keep. cast. do 4 keep. apply same_bind; [apply same_zeros|intros _ _]. apply same_refl. Qed.
  Lemma same_mmap_ndarray pf : same_r (w_mmap_ndarray m64 pf) (mmap_ndarray pf).
  Proof.
    do 3 keep. cast. do 4 keep. do 2 (apply same_bind; [apply same_lift, same_mul|intros ? ?]). apply same_bind; [apply same_map|intros ? ?].
    apply same_refl.
  Qed.
  Lemma same_pq : same_r (w_pq m64) read_product_quantizer.
  Proof.
    do 6 keep. cast. do 5 keep.
    apply same_bind; [destruct (negb _); [apply same_bind; [apply same_zeros|intros ? ?; apply same_refl]|apply same_refl]|intros ? ?].
    apply same_bind; [apply same_zeros|intros ? ?]. apply same_refl.
  Qed.
  Lemma same_qnorms has n : same_r (w_quantized_norms m64 has n) (read_quantized_norms has n).
  Proof. destruct has; [|apply same_refl]. apply same_bind; [apply same_zeros|intros ? ?]. apply same_refl. Qed.
  Lemma same_quantized : same_r (w_quantized m64) read_quantized.
  Proof. do 2 keep. apply same_bind; [apply same_pq|]. intros [[n q] has] _. apply same_bind; [apply same_qnorms|intros ? ?]. apply same_bind; [apply same_zeros|intros ? ?]. apply same_refl. Qed.
  Lemma same_mmap_quantized pf : same_r (w_mmap_quantized m64 pf) (mmap_quantized_chunk pf).
  Proof. do 2 keep. apply same_bind; [apply same_pq|]. intros [[n q] has] _. apply same_bind; [apply same_qnorms|intros ? ?]. apply same_bind; [apply same_lift, same_mul|intros ? ?].
    apply same_bind; [apply same_map|intros ? ?]. apply same_refl. Qed.
  Lemma same_storage : same_r (w_storage m64) read_storage_wrap.
  Proof.
    keep. destruct a; (lazymatch goal with |- same_r (bind _ _) _ => apply same_bind; [|intros ? ?; apply same_refl] | _ => apply same_refl end); [apply same_ndarray|apply same_quantized].
  Qed.
  Lemma same_mmap_storage pf : same_r (w_mmap_storage m64 pf) (mmap_storage_wrap pf).
  Proof.
    keep. destruct a; (lazymatch goal with |- same_r (bind _ _) _ => apply same_bind; [|intros ? ?; apply same_refl] | _ => apply same_refl end); [apply same_mmap_ndarray|apply same_mmap_quantized].
  Qed.
  Lemma same_file T {V S} (rv1 rv2 : reader V) (rs1 rs2 : reader S) : same_r rv1 rv2 -> same_r rs1 rs2 ->
    same_r (w_file m64 b T rv1 rs1) (read_embeddings T rv2 rs2).
  Proof.
    intros HV HS. apply same_bind; [apply same_header|]. intros [|id ids] _; [apply same_refl|].
    apply same_bind; [destruct (chunk_eqb _ _); [apply same_bind; [apply same_metadata|intros ? ?; apply same_refl]|apply same_refl]|intros ? ?].
    apply same_bind; [exact HV|intros ? ?]. apply same_bind; [exact HS|intros ? ?].
    apply same_bind; [apply same_ok_opt, same_norms|intros ? ?]. apply same_refl.
  Qed.
End M64.

(** On a 64-bit machine these are the readers of the rest of the model. *)
Lemma width_64 b T pf s : w_read m64 b T pf s = read_embeddings T (read_vocab_wrap pf) read_storage_wrap s.
Proof. apply same_file; [apply same_vocab|apply same_storage]. Qed.
Lemma width_64_mmap b T pf s : w_mmap m64 b T pf s = mmap_embeddings T (read_vocab_wrap pf) (mmap_storage_wrap pf) s.
Proof. apply (same_file b T); [apply same_vocab|apply same_mmap_storage]. Qed.

(** ** Narrower machines refuse what they cannot represent

    When conversions take the place of the casts.  *)

(** Pointers of at most 32 bits. *)
Definition narrow (w : machine) : Prop :=
  8 <= mw_bits w <= 32 /\ 0 < mw_string w <= 12 /\ 0 < mw_pair w <= 24 /\ mw_limit w = w_max w.
Lemma narrow_i686 : narrow i686. Proof. unfold narrow, i686; cbn [mw_bits mw_string mw_pair mw_limit]. do 3 (split; [lia|]). reflexivity. Qed.
Lemma narrow_arm32 : narrow arm32. Proof. unfold narrow, arm32; cbn [mw_bits mw_string mw_pair mw_limit]. do 3 (split; [lia|]). reflexivity. Qed.
Lemma narrow_limit w : narrow w -> mw_limit w = w_max w. Proof. intros (_ & _ & _ & E). exact E. Qed.

Lemma narrow_size w : narrow w -> w_size w = 2 * (w_max w + 1) /\ 127 <= w_max w /\ w_max w < 2147483648.
Proof.
  intros (B & _ & _ & _). unfold w_size, w_max. replace (mw_bits w) with (N.succ (mw_bits w - 1)) at 1 by lia. rewrite N.pow_succ_r'.
  pose proof (N.pow_le_mono_r 2 7 (mw_bits w - 1) ltac:(lia) ltac:(lia)) as L. pose proof (N.pow_le_mono_r 2 (mw_bits w - 1) 31 ltac:(lia) ltac:(lia)) as U.
  change (2 ^ 7) with 128 in L. change (2 ^ 31) with 2147483648 in U. lia.
Qed.

(** What all machines have in common. *)
Record sane (w : machine) : Prop := {
  sn_limit : mw_limit w <= w_max w; sn_max : w_max w <= isize_max; sn_size : w_max w < w_size w; sn_pos : 1 <= w_max w
}.
Lemma narrow_sane w : narrow w -> sane w.
Proof. intros H. destruct (narrow_size w H) as (Z & P & U). pose proof (narrow_limit w H). constructor; unfold isize_max; lia. Qed.
Lemma limited_sane l : l <= isize_max -> sane (limited l).
Proof. intros H. constructor; [exact H|reflexivity..|discriminate]. Qed.

(** What a machine does with a file that is too large for it. *)
Definition refused {A} (mapped : bool) (r : res A) : Prop :=
  match r with
  | Err EOverflow | Panic PCapacity | Panic PAssert => True
  | Err ERead | Panic PArithOverflow => mapped = true
  | _ => False
  end.
Definition cautious {A} (mapped : bool) (m1 m2 : reader A) : Prop := forall s, m1 s = m2 s \/ refused mapped (fst (m1 s)).

Lemma refused_to {A B} mapped (r : res A) (r' : res B) : match r, r' with Err e, Err e' => e = e' | Panic p, Panic p' => p = p' | _, _ => False end ->
  refused mapped r -> refused mapped r'.
Proof. destruct r, r'; intros H R; try contradiction; subst; exact R. Qed.

Section Cautious.
  Variable mapped : bool.
  Lemma cautious_refl {A} (m : reader A) : cautious mapped m m. Proof. intros s. left. reflexivity. Qed.
  Lemma cautious_bind {A B} (m1 m2 : reader A) (k1 k2 : A -> reader B) : cautious mapped m1 m2 ->
    (forall a, cautious mapped (k1 a) (k2 a)) -> cautious mapped (bind m1 k1) (bind m2 k2).
  Proof.
    intros H K s. unfold bind. destruct (H s) as [E|R].
    - rewrite E. destruct (m2 s) as [[a|e|p] s1]; [apply K|left; reflexivity|left; reflexivity].
    - right. destruct (m1 s) as [[a|e|p] s1]; cbn [fst] in *; [contradiction|exact R|exact R].
  Qed.
  (** A step that only the narrow machine makes. *)
  Lemma cautious_skip {A B} (a : A) (m : reader A) (k1 : A -> reader B) (m2 : reader B) :
    (forall s, m s = (Ok a, s) \/ refused mapped (fst (m s))) -> cautious mapped (k1 a) m2 -> cautious mapped (bind m k1) m2.
  Proof.
    intros H K s. unfold bind. destruct (H s) as [E|R]; [rewrite E; apply K|].
    right. destruct (m s) as [[x|e|p] s1]; cbn [fst] in *; [contradiction|exact R|exact R].
  Qed.
  Lemma cautious_repeat {A} n (m1 m2 : reader A) : cautious mapped m1 m2 -> cautious mapped (repeat_m n m1) (repeat_m n m2).
  Proof.
    intros H s. rewrite !repeat_m_nat. revert s. induction (N.to_nat n) as [|k IH]; [apply cautious_refl|].
    apply (cautious_bind _ _ _ _ H). intros a. apply cautious_bind; [exact IH|intros l; apply cautious_refl].
  Qed.
  Lemma cautious_lift {A} (r1 r2 : res A) : r1 = r2 \/ refused mapped r1 -> cautious mapped (lift r1) (lift r2).
  Proof. intros [->|R] s; [left; reflexivity|right; exact R]. Qed.
  Lemma cautious_mono {A} (m1 m2 : reader A) : cautious false m1 m2 -> cautious mapped m1 m2.
  Proof. intros H s. destruct (H s) as [E|R]; [auto|right]. destruct (fst (m1 s)) as [|[]|[]]; try contradiction; try discriminate R; exact I. Qed.

  Context (w : machine) (N : narrow w).
  Lemma cautious_try n s : w_try w n s = (Ok n, s) \/ refused mapped (fst (w_try w n s)).
  Proof. unfold w_try. destruct (n <? w_size w); [left; reflexivity|right; exact I]. Qed.
  Lemma cautious_as n s : w_as w true n s = (Ok n, s) \/ refused mapped (fst (w_as w true n s)).
  Proof. apply cautious_try. Qed.
  Lemma cautious_w_reserve n c s : w_reserve w n c s = (Ok tt, s) \/ refused mapped (fst (w_reserve w n c s)).
  Proof. unfold w_reserve. destruct (_ <=? _); [left; reflexivity|right; exact I]. Qed.
  Lemma cautious_reserve n c c' : 0 < c -> c' <= 32 -> cautious mapped (w_reserve w n c) (reserve n c').
  Proof.
    intros C C' s. unfold w_reserve, reserve. rewrite (narrow_limit w N). destruct (N.leb_spec (n * c) (w_max w)) as [L|L]; [left|right; exact I].
    destruct (narrow_size w N) as (_ & _ & U). assert (n * c' <= isize_max) as K by (unfold isize_max; nia).
    apply N.leb_le in K. rewrite K. reflexivity.
  Qed.
  Lemma cautious_zeros dims c : cautious mapped (w_zeros w dims c) (alloc_zeros dims c).
  Proof.
    intros s. unfold w_zeros, alloc_zeros. rewrite (narrow_limit w N). destruct (narrow_size w N) as (_ & _ & U).
    destruct (N.leb_spec (fold_left (fun a d => a * nonzero d) dims 1) (w_max w)) as [L1|L1]; [|right; exact I].
    destruct (N.leb_spec (fold_left N.mul dims 1 * c) (w_max w)) as [L2|L2]; [|right; exact I]. left. cbn [andb].
    assert (fold_left (fun a d => a * nonzero d) dims 1 <= isize_max) as K1 by (unfold isize_max; lia).
    assert (fold_left N.mul dims 1 * c <= isize_max) as K2 by (unfold isize_max; lia).
    apply N.leb_le in K1, K2. rewrite K1, K2. reflexivity.
  Qed.
  Lemma cautious_zeros_one n : cautious mapped (w_zeros w [n] 4) (reserve n 4).
  Proof.
    intros s. unfold w_zeros, reserve. rewrite (narrow_limit w N). cbn [fold_left]. rewrite !N.mul_1_l. destruct (narrow_size w N) as (_ & _ & U).
    destruct (nonzero n <=? w_max w); [|right; exact I]. destruct (N.leb_spec (n * 4) (w_max w)) as [L|L]; [left|right; exact I].
    assert (n * 4 <= isize_max) as K by (unfold isize_max; lia). apply N.leb_le in K. rewrite K. reflexivity.
  Qed.
  Lemma cautious_sub_new {I} (ops : indexer_ops I) pf words mn mx ix bow eow :
    w_sub_new w ops pf words mn mx ix bow eow = sub_new_with_boundaries ops pf words mn mx ix bow eow \/
    refused mapped (w_sub_new w ops pf words mn mx ix bow eow).
  Proof.
    unfold w_sub_new, sub_new_with_boundaries. destruct (narrow_size w N) as (Z & _ & U).
    destruct (rassert (lenN words =? _) _); [|left; reflexivity|left; reflexivity]. cbn [rbind].
    destruct (ix_bound ops pf ix) as [n| |]; [|left; reflexivity|left; reflexivity]. cbn [rbind].
    destruct (n <? w_size w); [|right; exact Logic.I]. cbn [rassert rbind].
    destruct (N.ltb_spec (lenN words + n) (w_size w)) as [L|L]; [|right; exact Logic.I]. left.
    assert (lenN words + n < two64) as K by (unfold two64; lia). apply N.ltb_lt in K. rewrite K. reflexivity.
  Qed.
End Cautious.

(** The ends of the readers of norms. *)
Definition w_norms_tail w n : reader (list f32) := w_zeros w [n] 4 ;;; read_f32s n.
Definition norms_tail n : reader (list f32) := reserve n 4 ;;; read_f32s n.
Definition norms_rest n : reader (list f32) :=
  ensure_data_type f32_type_id ;;; pos <- position ;; seek_forward (padding4 pos) ;;; norms_tail n.

Section Narrow.
  Context (w : machine) (N : narrow w).
  Ltac keep := apply cautious_bind; [apply cautious_refl|intros ?].
  Ltac cast := eapply cautious_skip; [intros s; lazymatch goal with |- w_try _ _ _ = _ \/ _ => apply cautious_try | |- w_as _ _ _ _ = _ \/ _ => apply cautious_as | _ => apply cautious_w_reserve end|].

  Section Chunks.
  Variable p : bool.
  Lemma c_string : cautious p (w_string_item w) read_string_item. Proof. keep. cast. apply cautious_refl. Qed.
  Lemma c_ngram : cautious p (w_ngram_item w) read_ngram_item. Proof. keep. cast. apply cautious_refl. Qed.
  Lemma c_items n : cautious p (w_items w n) (read_items n).
  Proof. destruct N as (_ & ? & _ & _). apply cautious_bind; [apply cautious_reserve; auto; lia|intros _]. apply cautious_repeat, c_string. Qed.
  Lemma c_ngrams n : cautious p (w_ngrams w n) (read_ngrams_with_indices n).
  Proof. destruct N as (_ & _ & ? & _). apply cautious_bind; [apply cautious_reserve; auto; lia|intros _]. apply cautious_repeat, c_ngram. Qed.
  Lemma c_header : cautious p (w_header w) read_header.
  Proof.
    keep. destruct (negb _); [apply cautious_refl|]. keep. destruct (negb _); [apply cautious_refl|]. keep. cast. apply cautious_refl.
  Qed.
  Lemma c_metadata T : cautious p (w_metadata w true T) (read_metadata_chunk T).
  Proof. do 2 keep. cast. apply cautious_bind; [apply cautious_reserve; auto; lia|intros _]. apply cautious_refl. Qed.
  Lemma c_simple : cautious p (w_simple w) read_simple.
  Proof. do 3 keep. cast. apply cautious_bind; [apply c_items|intros ?]. apply cautious_refl. Qed.
  Lemma c_bucketed {I} (B : bucket_ops I) pf id : cautious p (w_bucketed w true B pf id) (read_bucketed B pf id).
  Proof. do 3 keep. cast. do 3 keep. apply cautious_bind; [apply c_items|intros ?]. keep. apply cautious_lift, cautious_sub_new, N. Qed.
  Lemma c_explicit pf : cautious p (w_explicit w true pf) (read_explicit pf).
  Proof.
    do 6 keep. cast. apply cautious_bind; [apply c_items|intros ?]. cast. apply cautious_bind; [apply c_ngrams|intros ?]. keep.
    apply cautious_lift, cautious_sub_new, N.
  Qed.
  Lemma c_floret pf : cautious p (w_floret w pf) (read_floret pf).
  Proof.
    do 6 keep. destruct (negb _); [apply cautious_refl|]. keep. do 2 (apply cautious_bind; [apply c_string|intros ?]). keep.
    apply cautious_lift, cautious_sub_new, N.
  Qed.
  Lemma c_vocab pf : cautious p (w_vocab w true pf) (read_vocab_wrap pf).
  Proof.
    keep. destruct a; (lazymatch goal with |- cautious _ (bind _ _) _ => apply cautious_bind; [|intros ?; apply cautious_refl] | _ => apply cautious_refl end).
    - apply c_simple. - apply c_bucketed. - apply c_bucketed. - apply c_explicit. - apply c_floret.
  Qed.
  Lemma c_ndarray : cautious p (w_ndarray w) read_ndarray.
  Proof. do 3 keep. cast. do 4 keep. apply cautious_bind; [apply cautious_zeros, N|intros _]. apply cautious_refl. Qed.
  Lemma c_pq : cautious p (w_pq w) read_product_quantizer.
  Proof.
    do 6 keep. cast. do 5 keep.
    apply cautious_bind; [destruct (negb _); [apply cautious_bind; [apply cautious_zeros, N|intros ?; apply cautious_refl]|apply cautious_refl]|intros ?].
    apply cautious_bind; [apply cautious_zeros, N|intros ?]. apply cautious_refl.
  Qed.
  Lemma c_qnorms has n : cautious p (w_quantized_norms w has n) (read_quantized_norms has n).
  Proof. destruct has; [|apply cautious_refl]. apply cautious_bind; [apply cautious_zeros, N|intros ?]. apply cautious_refl. Qed.
  Lemma c_quantized : cautious p (w_quantized w) read_quantized.
  Proof.
    do 2 keep. apply cautious_bind; [apply c_pq|]. intros [[n q] has]. apply cautious_bind; [apply c_qnorms|intros ?].
    apply cautious_bind; [apply cautious_zeros, N|intros ?]. apply cautious_refl.
  Qed.
  Lemma c_storage : cautious p (w_storage w) read_storage_wrap.
  Proof.
    keep. destruct a; (lazymatch goal with |- cautious _ (bind _ _) _ => apply cautious_bind; [|intros ?; apply cautious_refl] | _ => apply cautious_refl end);
      [apply c_ndarray|apply c_quantized].
  Qed.
  End Chunks.

  (** With overflow checks, also when mapping. *)
  Lemma c_mul n k : w_mul w Debug n k = mul64 Debug n k \/ refused true (w_mul w Debug n k).
  Proof.
    unfold w_mul, mul64. destruct (narrow_size w N) as (Z & _ & U). destruct (N.ltb_spec (n * k) (w_size w)) as [L|L]; [left|right; reflexivity].
    assert (n * k < two64) as K by (unfold two64; lia). apply N.ltb_lt in K. cbv zeta. rewrite K. reflexivity.
  Qed.
  Lemma c_map n : cautious true (w_map w n) (mmap_region n).
  Proof.
    intros s. unfold w_map, mmap_region. destruct (narrow_size w N) as (_ & _ & U). destruct (N.leb_spec n (w_max w)) as [L|L]; [left|right; reflexivity].
    assert (n <= isize_max) as K by (unfold isize_max; lia). apply N.leb_le in K. rewrite K. reflexivity.
  Qed.
  Lemma c_mmap_ndarray : cautious true (w_mmap_ndarray w Debug) (mmap_ndarray Debug).
  Proof.
    do 3 keep. cast. do 4 keep. do 2 (apply cautious_bind; [apply cautious_lift, c_mul|intros ?]). apply cautious_bind; [apply c_map|intros ?].
    apply cautious_refl.
  Qed.
  Lemma c_mmap_quantized : cautious true (w_mmap_quantized w Debug) (mmap_quantized_chunk Debug).
  Proof.
    do 2 keep. apply cautious_bind; [apply c_pq|]. intros [[n q] has]. apply cautious_bind; [apply c_qnorms|intros ?].
    apply cautious_bind; [apply cautious_lift, c_mul|intros ?]. apply cautious_bind; [apply c_map|intros ?]. apply cautious_refl.
  Qed.
  Lemma c_mmap_storage : cautious true (w_mmap_storage w Debug) (mmap_storage_wrap Debug).
  Proof.
    keep. destruct a; (lazymatch goal with |- cautious _ (bind _ _) _ => apply cautious_bind; [|intros ?; apply cautious_refl] | _ => apply cautious_refl end);
      [apply c_mmap_ndarray|apply c_mmap_quantized].
  Qed.

End Narrow.

(** The norms: refusing them leaves them out of the result. *)
Section Norms.
  Context (w : machine) (SN : sane w).
  Definition optional (m1 m2 : reader (list f32)) : Prop := forall s,
    ok_opt m1 s = ok_opt m2 s \/ fst (ok_opt m1 s) = Panic PCapacity \/
    fst (ok_opt m1 s) = Ok None /\
    match fst (ok_opt m2 s) with
    | Ok None => True | Ok (Some ns) => w_size w <= lenN ns | Err _ => False | Panic x => x = PCapacity
    end.
  Lemma optional_bind {A} (m : reader A) k1 k2 : (forall a, optional (k1 a) (k2 a)) -> optional (bind m k1) (bind m k2).
  Proof.
    intros K s. unfold ok_opt, bind. destruct (m s) as [[a|e|x] s1]; [apply K|left; reflexivity|left; reflexivity].
  Qed.
  Lemma optional_skip {A} (a : A) m k1 m2 : (forall s, m s = (Ok a, s)) -> optional (k1 a) m2 -> optional (bind m k1) m2.
  Proof. intros H K s. unfold ok_opt, bind. rewrite H. apply K. Qed.
  Lemma norms_ok n s : ok_opt (w_norms_tail w n) s = ok_opt (norms_tail n) s \/ fst (ok_opt (w_norms_tail w n) s) = Panic PCapacity.
  Proof.
    unfold ok_opt, w_norms_tail, norms_tail, w_zeros, reserve, bind. cbn [fold_left]. rewrite !N.mul_1_l. destruct SN as [S1 S2 S3 S4].
    destruct (nonzero n <=? w_max w); [|right; reflexivity]. destruct (N.leb_spec (n * 4) (mw_limit w)) as [L'|L']; [left|right; reflexivity].
    assert (n * 4 <= isize_max) as K by lia. apply N.leb_le in K. rewrite K. reflexivity.
  Qed.
  Lemma norms_large n : w_size w <= n -> forall s,
    match fst (ok_opt (norms_rest n) s) with
    | Ok None => True | Ok (Some ns) => w_size w <= lenN ns | Err _ => False | Panic x => x = PCapacity
    end.
  Proof.
    intros L s. unfold norms_rest, norms_tail, ok_opt, position, seek_forward, reserve, read_f32s.
    unfold bind. destruct (ensure_data_type f32_type_id s) as [[[]|e|x] s4] eqn:ED; [|exact I|].
    - destruct (n * 4 <=? isize_max); [|reflexivity].
      match goal with |- context [read_exact ?k ?t] => destruct (read_exact k t) as [[bs|e|x] s6] eqn:E end; [|exact I|].
      + cbn [ret fst]. apply read_exact_inv in E as (_ & E & _). rewrite f32s_of_bytes_lenN, E, N.mul_comm, N.div_mul by lia. exact L.
      + unfold read_exact in E. destruct (_ <=? _); discriminate.
    - exfalso. unfold ensure_data_type, read_u32, bind, read_exact in ED. destruct (4 <=? lenN (s_rest s)); [|discriminate].
      unfold ret, fail in ED. destruct (_ =? _); discriminate.
  Qed.
  Lemma c_norms : optional (w_norms w) read_norms.
  Proof.
    do 3 (apply optional_bind; intros ?). destruct (N.ltb_spec a1 (w_size w)) as [L|L].
    - apply (optional_skip a1); [intros s; apply try_ok, L|]. do 3 (apply optional_bind; intros ?). intros s. destruct (norms_ok a1 s) as [E|E]; [left; exact E|right; left; exact E].
    - intros s. right. right. split; [|exact (norms_large a1 L s)].
      unfold ok_opt, bind, w_try. apply N.ltb_ge in L. rewrite L. reflexivity.
  Qed.
End Norms.

(** With conversions in the place of casts a narrow machine gives the same
    result as a 64-bit machine, or refuses the file, or leaves out the norms,
    of which there would be too many. *)
Definition as_64 (w : machine) {T : toml_ops} {V S} (mapped : bool) (r r64 : res (embeddings (toml_table T) V S f32) * stream) : Prop :=
  r = r64 \/ refused mapped (fst r) \/
  exists md v st, fst r = Ok (mkEmb md st v None) /\
    (fst r64 = Panic PCapacity \/ fst r64 = Ok (mkEmb md st v None) \/
     exists ns, fst r64 = Ok (mkEmb md st v (Some ns)) /\ w_size w <= lenN ns).

Section NarrowFile.
  Context (w : machine) (N : narrow w) (T : toml_ops).

  Lemma as_64_bind {A V S} mapped (m1 m2 : reader A) (k1 k2 : A -> reader (embeddings (toml_table T) V S f32)) : cautious mapped m1 m2 ->
    (forall a s, as_64 w mapped (k1 a s) (k2 a s)) -> forall s, as_64 w mapped (bind m1 k1 s) (bind m2 k2 s).
  Proof.
    intros H K s. unfold bind. destruct (H s) as [E|R].
    - rewrite E. destruct (m2 s) as [[a|e|p] s1]; [apply K|left; reflexivity|left; reflexivity].
    - right. left. destruct (m1 s) as [[a|e|p] s1]; cbn [fst] in *; [contradiction|exact R|exact R].
  Qed.
  Lemma as_64_file {V S} mapped (rv1 rv2 : reader V) (rs1 rs2 : reader S) : cautious mapped rv1 rv2 -> cautious mapped rs1 rs2 ->
    forall s, as_64 w mapped (w_file w true T rv1 rs1 s) (read_embeddings T rv2 rs2 s).
  Proof.
    intros HV HS. apply as_64_bind; [apply c_header|]. intros [|id ids]; [left; reflexivity|].
    apply as_64_bind; [destruct (chunk_eqb _ _); [apply cautious_bind; [apply c_metadata, N|intros ?; apply cautious_refl]|apply cautious_refl]|intros md].
    apply as_64_bind; [exact HV|intros v]. apply as_64_bind; [exact HS|intros st s].
    destruct (c_norms w (narrow_sane w N) s) as [E|[E|[E1 E2]]].
    - left. unfold bind. rewrite E. reflexivity.
    - right. left. unfold bind. destruct (ok_opt (w_norms w) s) as [[?|?|?] s1]; cbn [fst] in E |- *; try discriminate. injection E as ->. exact I.
    - right. right. exists md, v, st. unfold bind. destruct (ok_opt (w_norms w) s) as [[?|?|?] s1]; cbn [fst] in E1 |- *; try discriminate. injection E1 as ->.
      split; [reflexivity|]. destruct (ok_opt read_norms s) as [[[ns|]|?|?] s2]; cbn [fst] in E2 |- *; [|auto|contradiction|left; congruence].
      right. right. exists ns. auto.
  Qed.
  Lemma strict_read pf s :
    as_64 w false (w_read w true T pf s) (read_embeddings T (read_vocab_wrap pf) read_storage_wrap s).
  Proof. apply as_64_file; [apply c_vocab, N|apply c_storage, N]. Qed.
  Lemma strict_mmap s :
    as_64 w true (w_mmap w true T Debug s) (mmap_embeddings T (read_vocab_wrap Debug) (mmap_storage_wrap Debug) s).
  Proof. apply as_64_file; [apply c_vocab, N|apply c_mmap_storage, N]. Qed.
End NarrowFile.

(** ** The casts

    The code differs from this only where a conversion would have refused a
    count. *)
Definition looser {A} (m1 m2 : reader A) : Prop := forall s, m1 s = m2 s \/ fst (m2 s) = Err EOverflow.
Lemma looser_refl {A} (m : reader A) : looser m m. Proof. intros s. left. reflexivity. Qed.
Lemma looser_bind {A B} (m1 m2 : reader A) (k1 k2 : A -> reader B) : looser m1 m2 -> (forall a, looser (k1 a) (k2 a)) ->
  looser (bind m1 k1) (bind m2 k2).
Proof.
  intros H K s. unfold bind. destruct (H s) as [E|R].
  - rewrite E. destruct (m2 s) as [[a|e|p] s1]; [apply K|left; reflexivity|left; reflexivity].
  - right. destruct (m2 s) as [[a|e|p] s1]; cbn [fst] in *; congruence.
Qed.
Section Looser.
  Variable w : machine.
  Ltac keep := apply looser_bind; [apply looser_refl|intros ?].
  Lemma looser_as n : looser (w_as w false n) (w_as w true n).
  Proof.
    intros s. cbn [w_as]. unfold w_try. destruct (N.ltb_spec n (w_size w)) as [L|L]; [left|right; reflexivity].
    rewrite N.mod_small by exact L. reflexivity.
  Qed.
  Ltac cast := apply looser_bind; [apply looser_as|intros ?].
  Lemma l_metadata T : looser (w_metadata w false T) (w_metadata w true T).
  Proof. do 2 keep. cast. apply looser_refl. Qed.
  Lemma l_bucketed {I} (B : bucket_ops I) pf id : looser (w_bucketed w false B pf id) (w_bucketed w true B pf id).
  Proof. do 3 keep. cast. apply looser_refl. Qed.
  Lemma l_explicit pf : looser (w_explicit w false pf) (w_explicit w true pf).
  Proof. do 6 keep. cast. keep. cast. apply looser_refl. Qed.
  Lemma l_vocab pf : looser (w_vocab w false pf) (w_vocab w true pf).
  Proof.
    keep. destruct a; (lazymatch goal with |- looser (bind _ _) _ => apply looser_bind; [|intros ?; apply looser_refl] | _ => apply looser_refl end).
    - apply looser_refl. - apply l_bucketed. - apply l_bucketed. - apply l_explicit. - apply looser_refl.
  Qed.
  Lemma l_file T {V S} (rv1 rv2 : reader V) (rs : reader S) : looser rv1 rv2 -> looser (w_file w false T rv1 rs) (w_file w true T rv2 rs).
  Proof.
    intros HV. keep. destruct a as [|id ids]; [apply looser_refl|].
    apply looser_bind; [destruct (chunk_eqb _ _); [apply looser_bind; [apply l_metadata|intros ?; apply looser_refl]|apply looser_refl]|intros md].
    apply looser_bind; [exact HV|intros v]. apply looser_refl.
  Qed.
  Lemma casts_read T pf s : w_read w false T pf s = w_read w true T pf s \/ fst (w_read w true T pf s) = Err EOverflow.
  Proof. apply l_file, l_vocab. Qed.
  Lemma casts_mmap T pf s : w_mmap w false T pf s = w_mmap w true T pf s \/ fst (w_mmap w true T pf s) = Err EOverflow.
  Proof. apply l_file, l_vocab. Qed.
End Looser.

(** ** Files that fit *)

(** What a 64-bit machine reads from a file of at most [k] bytes. *)
Definition takes {A} (k : N) (m1 m2 : reader A) (Q : A -> Prop) : Prop := forall s a s',
  lenN (s_rest s) <= k -> m2 s = (Ok a, s') -> Q a -> m1 s = (Ok a, s').
Definition shrinking {A} (m : reader A) : Prop := forall s a s', m s = (Ok a, s') -> lenN (s_rest s') <= lenN (s_rest s).

Lemma shrinking_bind {A B} (m : reader A) (k : A -> reader B) : shrinking m -> (forall a, shrinking (k a)) -> shrinking (bind m k).
Proof. intros H K s b s' E. minv E as a X. apply H in X. apply K in E. lia. Qed.
Lemma shrinking_lift {A} (r : res A) : shrinking (lift r). Proof. intros s a s' E. apply lift_inv in E as [_ <-]. lia. Qed.
Lemma shrinking_ret {A} (r : A) : shrinking (ret r). Proof. intros s a s' E. apply ret_inv in E as [_ <-]. lia. Qed.
Lemma shrinking_fail {A} e : shrinking (fail (A := A) e). Proof. intros s a s' E. discriminate. Qed.
Lemma shrinking_exact n : shrinking (read_exact n). Proof. intros s a s' E. apply exact_shorter in E. lia. Qed.
Lemma shrinking_position : shrinking position. Proof. intros s a s' E. unfold position in E. inv E. lia. Qed.
Lemma shrinking_seek n : shrinking (seek_forward n).
Proof. intros s a s' E. unfold seek_forward in E. inv E. cbn [s_rest]. destruct (_ <=? _); [rewrite lenN_dropN|rewrite lenN_nil]; lia. Qed.
Lemma shrinking_reserve n c : shrinking (reserve n c). Proof. intros s a s' E. apply reserve_inv in E as [_ <-]. lia. Qed.
Lemma shrinking_zeros n c : shrinking (alloc_zeros n c). Proof. intros s a s' E. apply alloc_inv in E as [_ <-]. lia. Qed.
Lemma shrinking_region n : shrinking (mmap_region n). Proof. intros s a s' E. unfold mmap_region in E. destruct (_ <=? _); inv E. lia. Qed.
Lemma shrinking_u32 : shrinking read_u32. Proof. apply shrinking_bind; [apply shrinking_exact|intros ?; apply shrinking_ret]. Qed.
Lemma shrinking_u64 : shrinking read_u64. Proof. apply shrinking_bind; [apply shrinking_exact|intros ?; apply shrinking_ret]. Qed.
Lemma shrinking_f32s n : shrinking (read_f32s n). Proof. apply shrinking_bind; [apply shrinking_exact|intros ?; apply shrinking_ret]. Qed.
Lemma shrinking_chunk_type c : shrinking (ensure_chunk_type c).
Proof. apply shrinking_bind; [apply shrinking_u32|intros ?]. apply shrinking_bind; [apply shrinking_lift|intros ?]. destruct (chunk_eqb _ _); [apply shrinking_ret|apply shrinking_fail]. Qed.
Lemma shrinking_data_type c : shrinking (ensure_data_type c).
Proof. apply shrinking_bind; [apply shrinking_u32|intros ?]. destruct (_ =? _); [apply shrinking_ret|apply shrinking_fail]. Qed.
Lemma shrinking_peek {A} (m : reader A) : shrinking (peek m).
Proof. intros s a s' E. unfold peek in E. destruct (m s) as [[x|e|p] t]; inv E. lia. Qed.
Lemma metadata_shrinking T : shrinking (read_metadata_chunk T).
Proof.
  repeat (apply shrinking_bind; [first [apply shrinking_chunk_type|apply shrinking_u64|apply shrinking_reserve|apply shrinking_exact]|intros ?]).
  destruct (utf8_valid _); [|apply shrinking_fail]. destruct (toml_parse _ _); [apply shrinking_ret|apply shrinking_fail].
Qed.
Lemma shrinking_opt {A} (m : reader A) : shrinking m -> forall s a s', ok_opt m s = (Ok (Some a), s') -> lenN (s_rest s') <= lenN (s_rest s).
Proof. intros H s a s' E. unfold ok_opt in E. destruct (m s) as [[x|e|p] t] eqn:X; inv E. exact (H _ _ _ X). Qed.

(** Repeated items of at least [c] bytes. *)
Lemma repeat_takes {A} (m1 m2 : reader A) (c k : N) : (forall s a s', m2 s = (Ok a, s') -> c + lenN (s_rest s') <= lenN (s_rest s)) ->
  takes k m1 m2 (fun _ => True) -> forall n s l s', lenN (s_rest s) <= k -> repeat_m n m2 s = (Ok l, s') ->
  c * n + lenN (s_rest s') <= lenN (s_rest s) /\ lenN l = n /\ repeat_m n m1 s = (Ok l, s').
Proof.
  intros H K n s l s' LK. rewrite !repeat_m_nat. pose proof (N2Nat.id n) as EN. revert EN. generalize (N.to_nat n) as i. intros i <-.
  revert s l LK. induction i as [|i IH]; intros s l LK E; cbn [repeat_nat] in E |- *.
  - apply ret_inv in E as [<- <-]. change (lenN (@nil A)) with 0. cbn [N.of_nat]. split; [lia|]. split; reflexivity.
  - minv E as a X. minv E as l' Y. apply ret_inv in E as [<- <-]. pose proof (H _ _ _ X) as HX. apply IH in Y as (Y1 & Y2 & Y3); [|lia].
    rewrite lenN_cons, Nat2N.inj_succ, N.mul_succ_r. split; [lia|]. split; [lia|]. rewrite (bind_step _ _ _ _ _ (K _ _ _ LK X Logic.I)), (bind_step _ _ _ _ _ Y3). reflexivity.
Qed.

(** The number of rows that a vocabulary needs and the shape of a matrix fit. *)
Definition vocab_fits (w : machine) (pf : profile) (v : vocab_wrap) : Prop :=
  forall n, v_vocab_len wrap_ops pf v = Ok n -> n < w_size w.
Definition shape_fits (w : machine) (st : storage_wrap) : Prop :=
  match st with
  | SNdArray a => a2_nrows a <= w_max w /\ a2_cols a <= w_max w
  | SMmapArray m => ma_rows m <= w_max w /\ ma_rows m * ma_cols m * 4 <= w_max w
  | SMmapQuantized q => mm_len (mq_map q) <= w_max w
  | _ => True
  end.

(** A file of [k] bytes fits. *)
Record roomy (w : machine) (k : N) : Prop := {
  ro_sane : sane w; ro_limit : k <= mw_limit w;
  ro_string : forall n, 4 * n <= k -> n * mw_string w <= mw_limit w;
  ro_pair : forall n, 12 * n <= k -> n * mw_pair w <= mw_limit w
}.
Lemma narrow_roomy w k : narrow w -> 3 * k <= w_max w -> roomy w k.
Proof.
  intros N K. pose proof N as (_ & S & P & E). split; [apply narrow_sane, N|lia| |]; intros n H.
  - assert (n * mw_string w <= n * 12) by (apply N.mul_le_mono_l; lia). lia.
  - assert (n * mw_pair w <= n * 24) by (apply N.mul_le_mono_l; lia). lia.
Qed.
Lemma limited_roomy l k : l <= isize_max -> 6 * k <= l -> roomy (limited l) k.
Proof. intros L K. split; [apply limited_sane, L|..]; unfold limited; cbn [mw_limit mw_string mw_pair]; intros; lia. Qed.

Section Fits.
  Context (w : machine) (b : bool) (k : BinNums.N) (RO : roomy w k).
  Lemma limit_k : k <= mw_limit w. Proof. apply RO. Qed.
  Lemma limit_max : mw_limit w <= w_max w. Proof. apply RO. Qed.
  Lemma max_size : w_max w < w_size w. Proof. apply RO. Qed.
  Ltac lim := pose proof limit_k; pose proof limit_max; pose proof max_size; lia.
  Ltac shr := first [apply shrinking_u32 | apply shrinking_u64 | apply shrinking_exact | apply shrinking_lift | apply shrinking_ret | apply shrinking_position
    | apply shrinking_seek | apply shrinking_reserve | apply shrinking_zeros | apply shrinking_region | apply shrinking_f32s | apply shrinking_chunk_type | apply shrinking_data_type | apply shrinking_peek].
  (** One step that both machines make. *)
  Ltac go H x := let X := fresh "GX" in let L := fresh "GL" in
    minv H as x X; rewrite (bind_step _ _ _ _ _ X); match type of X with ?m _ = _ => let S := fresh "S" in assert (shrinking m) as S by shr; pose proof (S _ _ _ X) as L; clear S end.
  Ltac cast := match goal with |- bind (w_try ?w ?n) _ ?s = _ => rewrite (bind_step _ _ _ _ _ (try_ok w n s ltac:(lia)))
    | |- bind (w_as ?w ?b ?n) _ ?s = _ => rewrite (bind_step _ _ _ _ _ (as_ok w b n s ltac:(lia))) end.

  Lemma takes_use {A} (m1 m2 : reader A) Q s a s' : takes k m1 m2 Q -> m2 s = (Ok a, s') -> lenN (s_rest s) <= k -> Q a -> m1 s = (Ok a, s').
  Proof. intros T E L. exact (T s a s' L E). Qed.
  (** The next step is [X], by [lem]. *)
  Ltac next X lem := let Y := fresh "Y" in
    pose proof (takes_use _ _ _ _ _ _ lem X ltac:(lia)) as Y; cbv beta in Y; rewrite (bind_step _ _ _ _ _ (Y ltac:(first [assumption | exact Logic.I]))); clear Y.
  Lemma takes_string : takes k (w_string_item w) read_string_item (fun _ => True).
  Proof.
    intros s a s' L H _. unfold w_string_item, read_string_item in *. go H n. pose proof H as H'. minv H' as bs Y. apply exact_shorter in Y as Z.
    rewrite (bind_step _ _ _ _ _ (w_reserve_ok w n 1 _ ltac:(lim))). exact H.
  Qed.
  Lemma takes_ngram : takes k (w_ngram_item w) read_ngram_item (fun _ => True).
  Proof.
    intros s a s' L H _. unfold w_ngram_item, read_ngram_item in *. go H n. pose proof H as H'. minv H' as bs Y. apply exact_shorter in Y as Z.
    rewrite (bind_step _ _ _ _ _ (w_reserve_ok w n 1 _ ltac:(lim))). exact H.
  Qed.
  Lemma string_size s a s' : read_string_item s = (Ok a, s') -> 4 + lenN (s_rest s') <= lenN (s_rest s).
  Proof.
    unfold read_string_item, read_u32. intros H. minv H as n X. minv X as bs Y. apply ret_inv in X as [_ <-]. apply exact_shorter in Y.
    minv H as c Z. apply exact_shorter in Z. destruct (utf8_valid c); [|discriminate]. apply ret_inv in H as [_ <-]. lia.
  Qed.
  Lemma ngram_size s a s' : read_ngram_item s = (Ok a, s') -> 12 + lenN (s_rest s') <= lenN (s_rest s).
  Proof.
    unfold read_ngram_item, read_u32, read_u64. intros H. minv H as n X. minv X as bs Y. apply ret_inv in X as [_ <-]. apply exact_shorter in Y.
    minv H as c Z. apply exact_shorter in Z. destruct (utf8_valid c); [|discriminate]. minv H as i X. minv X as d U. apply ret_inv in X as [_ <-].
    apply exact_shorter in U. apply ret_inv in H as [_ <-]. lia.
  Qed.
  Lemma takes_items n s l s' : lenN (s_rest s) <= k -> read_items n s = (Ok l, s') ->
    4 * n <= k /\ lenN (s_rest s') <= lenN (s_rest s) /\ lenN l = n /\ w_items w n s = (Ok l, s').
  Proof.
    intros L H. unfold read_items in H. minv H as u X. apply reserve_inv in X as [_ <-].
    apply (repeat_takes _ _ 4 k string_size takes_string) in H as (H1 & H2 & H3); [|exact L].
    split; [lia|]. split; [lia|]. split; [exact H2|].
    unfold w_items. rewrite (bind_step _ _ _ _ _ (w_reserve_ok w n (mw_string w) s (ro_string _ _ RO n ltac:(lia)))). exact H3.
  Qed.
  Lemma takes_ngrams n s l s' : lenN (s_rest s) <= k -> read_ngrams_with_indices n s = (Ok l, s') ->
    12 * n <= k /\ lenN (s_rest s') <= lenN (s_rest s) /\ w_ngrams w n s = (Ok l, s').
  Proof.
    intros L H. unfold read_ngrams_with_indices in H. minv H as u X. apply reserve_inv in X as [_ <-].
    apply (repeat_takes _ _ 12 k ngram_size takes_ngram) in H as (H1 & H2 & H3); [|exact L].
    split; [lia|]. split; [lia|].
    unfold w_ngrams. rewrite (bind_step _ _ _ _ _ (w_reserve_ok w n (mw_pair w) s (ro_pair _ _ RO n ltac:(lia)))). exact H3.
  Qed.
  Lemma takes_sub_new {I} (ops : indexer_ops I) pf words mn mx ix bow eow v : sub_new_with_boundaries ops pf words mn mx ix bow eow = Ok v ->
    (forall n, sub_vocab_len ops pf v = Ok n -> n < w_size w) -> w_sub_new w ops pf words mn mx ix bow eow = Ok v.
  Proof.
    unfold w_sub_new, sub_new_with_boundaries, sub_vocab_len, sub_words_len.
    destruct (N.eqb_spec (lenN words) (hm_len (create_indices words))) as [EL|]; [|discriminate]. cbn [rassert rbind].
    destruct (ix_bound ops pf ix) as [n| |] eqn:EB; [|discriminate|discriminate]. cbn [rbind].
    destruct (N.ltb_spec (lenN words + n) two64) as [L|L]; [|discriminate]. cbn [rassert rbind]. intros E V. injection E as <-. cbn [sv_ix sv_indices] in V.
    rewrite EB in V. cbn [rbind] in V. unfold add64 in V. rewrite <- EL in V. cbv zeta in V. apply N.ltb_lt in L. rewrite L in V. specialize (V _ eq_refl).
    assert (n < w_size w) as L1 by lia. apply N.ltb_lt in L1, V. rewrite L1, V. reflexivity.
  Qed.

  Lemma takes_header : takes k (w_header w) read_header (fun _ => True).
  Proof.
    intros s a s' L H _. unfold w_header, read_header in *. go H mg. destruct (negb _); [discriminate|]. go H v. destruct (negb _); [discriminate|]. go H n.
    assert (4 * n <= k) as B.
    { apply (repeat_takes (i <- read_u32 ;; lift (chunk_of_num i)) _ 4 k) in H as (H1 & _ & _); [lia| |intros ? ? ? _ E _; exact E|lia].
      intros t c t' E. apply chunk_id_item_inv in E as (E & _ & _). rewrite E, lenN_app, le_bytes_lenN. lia. }
    rewrite (bind_step _ _ _ _ _ (w_reserve_ok w n 4 _ ltac:(lim))). exact H.
  Qed.
  Lemma size_gt : k < w_size w. Proof. lim. Qed.
  Lemma takes_metadata T : takes k (w_metadata w b T) (read_metadata_chunk T) (fun _ => True).
  Proof.
    intros s a s' L H _. pose proof size_gt. unfold w_metadata, read_metadata_chunk in *. go H u. go H n. minv H as t X. apply reserve_inv in X as [_ <-].
    pose proof H as H'. minv H' as bs Y. apply exact_shorter in Y. cast. rewrite (bind_step _ _ _ _ _ (w_reserve_ok w n 1 _ ltac:(lim))). exact H.
  Qed.
  Lemma takes_simple : takes k (w_simple w) read_simple (fun _ => True).
  Proof.
    intros s a s' L H _. pose proof size_gt. unfold w_simple, read_simple in *. go H u. go H t. go H n. minv H as words X.
    apply takes_items in X as (X1 & X2 & X3 & X4); [|lia]. cast. rewrite (bind_step _ _ _ _ _ X4). exact H.
  Qed.
  Lemma takes_bucketed {I} (B : bucket_ops I) pf id : takes k (w_bucketed w b B pf id) (read_bucketed B pf id)
    (fun v => forall n, sub_vocab_len (bk_ops B) pf v = Ok n -> n < w_size w).
  Proof.
    intros s a s' L H V. pose proof size_gt. unfold w_bucketed, read_bucketed in *. go H u. go H t. go H n. 
    minv H as mn X. minv H as mx Y. minv H as bk Z. apply shrinking_u32 in X as LX, Y as LY, Z as LZ. minv H as words W.
    apply takes_items in W as (X1 & X2 & X3 & X4); [|lia]. cast. rewrite (bind_step _ _ _ _ _ X), (bind_step _ _ _ _ _ Y), (bind_step _ _ _ _ _ Z), (bind_step _ _ _ _ _ X4).
    go H ix. apply lift_inv in H as [H <-]. unfold lift. f_equal. apply takes_sub_new; assumption.
  Qed.
  Lemma takes_explicit pf : takes k (w_explicit w b pf) (read_explicit pf)
    (fun v => forall n, sub_vocab_len explicit_ops pf v = Ok n -> n < w_size w).
  Proof.
    intros s a s' L H V. pose proof size_gt. unfold w_explicit, read_explicit in *. go H u. go H t. go H n. go H g. go H mn. go H mx.
    minv H as words W. apply takes_items in W as (X7 & X8 & X9 & X10); [|lia]. cast. rewrite (bind_step _ _ _ _ _ X10).
    minv H as ngrams W. apply takes_ngrams in W as (Y1 & Y2 & Y3); [|lia]. cast. rewrite (bind_step _ _ _ _ _ Y3).
    go H ix. apply lift_inv in H as [H <-]. unfold lift. f_equal. apply takes_sub_new; assumption.
  Qed.
  Lemma takes_floret pf : takes k (w_floret w pf) (read_floret pf) (fun v => forall n, sub_vocab_len floret_ops pf v = Ok n -> n < w_size w).
  Proof.
    intros s a s' L H V. unfold w_floret, read_floret in *. go H u. go H t. go H mn. go H mx. go H bk. go H hs. destruct (negb _); [discriminate|].
    go H seed. minv H as bow W. apply string_size in W as W'. next W takes_string.
    minv H as eow W1. apply string_size in W1 as W1'. next W1 takes_string.
    go H ix. apply lift_inv in H as [H <-]. unfold lift. f_equal. apply takes_sub_new; assumption.
  Qed.
  Lemma takes_vocab pf : takes k (w_vocab w b pf) (read_vocab_wrap pf) (vocab_fits w pf).
  Proof.
    intros s a s' L H V. unfold w_vocab, read_vocab_wrap in *. go H cid.
    destruct cid; try discriminate; minv H as v X; apply ret_inv in H as [<- <-].
    - next X takes_simple. reflexivity.
    - next X (takes_bucketed hash_bucket_ops pf CBucketSubwordVocab). reflexivity.
    - next X (takes_bucketed ft_bucket_ops pf CFastTextSubwordVocab). reflexivity.
    - next X (takes_explicit pf). reflexivity.
    - next X (takes_floret pf). reflexivity.
  Qed.

  Lemma zeros_ok dims c s : fold_left (fun a d => a * nonzero d) dims 1 <= w_max w -> fold_left N.mul dims 1 * c <= mw_limit w -> w_zeros w dims c s = (Ok tt, s).
  Proof. intros A B. unfold w_zeros. apply N.leb_le in A, B. rewrite A, B. reflexivity. Qed.
  Lemma nz_le d m : d <= m -> 1 <= m -> nonzero d <= m. Proof. unfold nonzero. destruct (d =? 0); lia. Qed.
  Lemma nz_id d : d <> 0 -> nonzero d = d. Proof. unfold nonzero. destruct (N.eqb_spec d 0); lia. Qed.
  Lemma max_pos : 1 <= w_max w. Proof. apply RO. Qed.
  Lemma f32s_size n s l s' : read_f32s n s = (Ok l, s') -> lenN (s_rest s) = 4 * n + lenN (s_rest s').
  Proof. unfold read_f32s. intros H. minv H as bs X. apply ret_inv in H as [_ <-]. exact (exact_shorter _ _ _ _ X). Qed.

  (** [w_zeros] for data that is in the file. *)
  Lemma zeros_one_ok n s : 4 * n <= k -> w_zeros w [n] 4 s = (Ok tt, s).
  Proof. intros L. apply zeros_ok; cbn [fold_left]; rewrite !N.mul_1_l; [apply nz_le; [lim|apply max_pos]|lim]. Qed.
  Lemma zeros_two_ok n m s : 4 * (n * m) <= k -> n <= w_max w -> m <= w_max w -> w_zeros w [n; m] 4 s = (Ok tt, s).
  Proof.
    intros L A B. pose proof max_pos. pose proof limit_k. pose proof limit_max. apply zeros_ok; cbn [fold_left]; rewrite !N.mul_1_l; [|lia].
    destruct (N.eq_dec n 0) as [->|ZN]; [unfold nonzero at 1; cbn [N.eqb]; rewrite N.mul_1_l; apply nz_le; auto|].
    destruct (N.eq_dec m 0) as [->|ZM]; [unfold nonzero at 2; cbn [N.eqb]; rewrite N.mul_1_r; apply nz_le; auto|].
    rewrite !nz_id by assumption. lia.
  Qed.

  Lemma takes_norms : takes k (w_norms w) read_norms (fun _ => True).
  Proof.
    intros s a s' L H _. pose proof size_gt. unfold w_norms, read_norms in *. go H u. go H t. go H n.
    minv H as d X. minv H as pos Y. minv H as e Z. minv H as r R. apply reserve_inv in R as [_ <-].
    apply shrinking_data_type in X as LX. apply shrinking_position in Y as LY. apply shrinking_seek in Z as LZ. apply f32s_size in H as LH. cast.
    rewrite (bind_step _ _ _ _ _ X), (bind_step _ _ _ _ _ Y), (bind_step _ _ _ _ _ Z), (bind_step _ _ _ _ _ (zeros_one_ok n _ ltac:(lia))). exact H.
  Qed.
  Lemma takes_ndarray : takes k (w_ndarray w) read_ndarray (fun a => a2_nrows a <= w_max w /\ a2_cols a <= w_max w).
  Proof.
    intros s a s' L H [R C].  pose proof max_size. pose proof limit_max. pose proof limit_k. unfold w_ndarray, read_ndarray in *. go H u. go H t. go H rows.
    minv H as cols X0. minv H as d X. minv H as pos Y. minv H as e Z0. minv H as r R0. apply alloc_inv in R0 as [_ <-]. minv H as data D. pose proof H as H'. apply ret_inv in H' as [<- <-].
    apply shrinking_u32 in X0 as LX0. apply shrinking_data_type in X as LX. apply shrinking_position in Y as LY. apply shrinking_seek in Z0 as LZ. apply f32s_size in D as LH.
    cbn [a2_cols] in C. unfold a2_nrows in R. cbn [a2_rows] in R. rewrite FileFacts.unflattenN_lenN in R. cast.
    rewrite (bind_step _ _ _ _ _ X0), (bind_step _ _ _ _ _ X), (bind_step _ _ _ _ _ Y), (bind_step _ _ _ _ _ Z0), (bind_step _ _ _ _ _ (zeros_two_ok rows cols _ ltac:(lia) R C)), (bind_step _ _ _ _ _ D).
    exact H.
  Qed.
  Lemma takes_pq s n q has s' : lenN (s_rest s) <= k -> read_product_quantizer s = (Ok (n, q, has), s') ->
    (n < w_size w -> w_pq w s = (Ok (n, q, has), s')) /\ pq_ql q <> 0 /\ pq_ql q <= k /\ lenN (s_rest s') <= lenN (s_rest s).
  Proof.
    intros L H. pose proof max_pos. pose proof limit_k. pose proof limit_max. unfold w_pq, read_product_quantizer in *.
    minv H as proj A1. minv H as norms A2. minv H as ql A3. minv H as rl A4. minv H as nc A5. minv H as n0 X0.
    apply shrinking_u32 in A1 as B1, A2 as B2, A3 as B3, A4 as B4, A5 as B5. apply shrinking_u64 in X0 as LX0.
    minv H as iv X1. minv H as d8 X2. minv H as d32 X3. minv H as pos X4. minv H as sk X5. minv H as pj X6. minv H as al X7. apply alloc_inv in X7 as [_ <-].
    minv H as data X8. minv H as q0 X9. pose proof H as H'. apply ret_inv in H' as [E <-]. injection E as E1 E2 E3. subst n0 q0.
    apply lift_inv in X9 as X9'. destruct X9' as [Q <-].
    apply lift_inv in X1 as X1'. destruct X1' as [IV <-]. apply shrinking_data_type in X2 as LX2, X3 as LX3. apply shrinking_position in X4 as LX4. apply shrinking_seek in X5 as LX5.
    apply f32s_size in X8 as LX8.
    unfold pq_new in Q. destruct (N.eqb_spec (ql * nc * (rl / ql)) 0) as [|NZ]; [discriminate|]. cbn [negb rassert rbind] in Q.
    assert (ql <> 0) as Q1 by (intros ->; apply NZ; reflexivity). assert (nc <> 0) as Q2 by (intros ->; apply NZ; rewrite N.mul_0_r; reflexivity).
    assert (rl / ql <> 0) as Q3 by (intros E; apply NZ; rewrite E, N.mul_0_r; reflexivity).
    assert (rl <> 0) as Q4 by (intros ->; apply Q3; apply N.div_0_l; exact Q1).
    match type of X6 with _ ?t = (_, ?t') =>
    assert (lenN (s_rest t') <= lenN (s_rest t) /\ (if negb (proj =? 0) then w_zeros w [rl; rl] 4 ;;; data <- read_f32s (rl * rl) ;; ret (Some (mkA2 rl (unflattenN rl rl data))) else ret None) t = (Ok pj, t')) as [L6 E6] end.
    { destruct (negb _); [|apply ret_inv in X6 as [<- <-]; split; [lia|reflexivity]]. minv X6 as al0 Y. apply alloc_inv in Y as [_ <-]. minv X6 as dd Y. pose proof X6 as X6'. apply ret_inv in X6' as [<- <-].
      apply f32s_size in Y as LY. split; [lia|]. assert (rl <= rl * rl) as SQ by nia. assert (rl <= w_max w) as RL by lia.
      rewrite (bind_step _ _ _ _ _ (zeros_two_ok rl rl _ ltac:(lia) RL RL)), (bind_step _ _ _ _ _ Y). exact X6. }
    assert (ql <= ql * nc * (rl / ql)) as LQ by (rewrite <- N.mul_assoc; rewrite <- (N.mul_1_r ql) at 1; apply N.mul_le_mono_l; nia).
    assert (pq_ql q = ql) as EQ by (destruct (rassert _ _); [|discriminate|discriminate]; cbn [rbind] in Q; injection Q as <-; reflexivity).
    rewrite EQ. split; [|split; [exact Q1|split; lia]]. intros F.
    rewrite (bind_step _ _ _ _ _ A1), (bind_step _ _ _ _ _ A2), (bind_step _ _ _ _ _ A3), (bind_step _ _ _ _ _ A4), (bind_step _ _ _ _ _ A5), (bind_step _ _ _ _ _ X0).
    rewrite (bind_step _ _ _ _ _ (try_ok w n _ F)), (bind_step _ _ _ _ _ X1), (bind_step _ _ _ _ _ X2), (bind_step _ _ _ _ _ X3), (bind_step _ _ _ _ _ X4), (bind_step _ _ _ _ _ X5), (bind_step _ _ _ _ _ E6).
    match type of X8 with _ ?t = _ => assert (w_zeros w [ql; nc; rl / ql] 4 t = (Ok tt, t)) as E7 by (apply zeros_ok; cbn [fold_left]; rewrite !N.mul_1_l, ?nz_id by assumption; lia) end.
    rewrite (bind_step _ _ _ _ _ E7), (bind_step _ _ _ _ _ X8), (bind_step _ _ _ _ _ X9). exact H.
  Qed.
  Lemma takes_qnorms has n s ns s' : lenN (s_rest s) <= k -> read_quantized_norms has n s = (Ok ns, s') ->
    w_quantized_norms w has n s = (Ok ns, s') /\ lenN (s_rest s') <= lenN (s_rest s).
  Proof.
    intros L H. unfold w_quantized_norms, read_quantized_norms in *. destruct has; [|apply ret_inv in H as [<- <-]; split; [reflexivity|lia]].
    minv H as u X. apply alloc_inv in X as [_ <-]. minv H as l X. apply f32s_size in X as LX. apply ret_inv in H as [<- <-].
    rewrite (bind_step _ _ _ _ _ (zeros_one_ok n _ ltac:(lia))), (bind_step _ _ _ _ _ X). split; [reflexivity|lia].
  Qed.
  Lemma takes_quantized : takes k (w_quantized w) read_quantized (fun _ => True).
  Proof.
    intros s a s' L H _. pose proof size_gt. pose proof max_pos. pose proof limit_k. pose proof limit_max. unfold w_quantized, read_quantized in *. go H u. go H t. minv H as r X. destruct r as [[n q] has].
    minv H as ns Y. minv H as al Z. apply alloc_inv in Z as [_ <-]. pose proof H as H'. minv H' as data D. apply exact_shorter in D.
    apply takes_pq in X as (EX & Q & LQ & L2); [|lia]. apply takes_qnorms in Y as [EY L3]; [|lia].
    assert (n <= n * pq_ql q) as M by nia.
    rewrite (bind_step _ _ _ _ _ (EX ltac:(lia))). cbv beta iota. rewrite (bind_step _ _ _ _ _ EY).
    match goal with |- bind _ _ ?t = _ => rewrite (bind_step (w_zeros w [n; pq_ql q] 1) _ t tt t) end; [exact H|]. apply zeros_ok; cbn [fold_left]; rewrite !N.mul_1_l; [|lia].
    destruct (N.eq_dec n 0) as [->|ZN]; [unfold nonzero at 1; cbn [N.eqb]; rewrite N.mul_1_l|rewrite !nz_id by assumption; lia].
    rewrite nz_id by exact Q. lia.
  Qed.
  Lemma takes_storage : takes k (w_storage w) read_storage_wrap (shape_fits w).
  Proof.
    intros s a s' L H V. unfold w_storage, read_storage_wrap in *. go H cid.
    destruct cid; try discriminate; minv H as v X; apply ret_inv in H as [<- <-]; cbn [shape_fits] in V.
    - next X takes_ndarray. reflexivity.
    - next X takes_quantized. reflexivity.
  Qed.

  Lemma w_mul_ok pf n m : n * m <= w_max w -> w_mul w pf n m = Ok (n * m).
  Proof. intros L.  pose proof max_size. pose proof limit_max. pose proof limit_k. unfold w_mul. assert (n * m < w_size w) as B by lia. apply N.ltb_lt in B. rewrite B. reflexivity. Qed.
  Lemma mul_debug n m x : mul64 Debug n m = Ok x -> x = n * m.
  Proof. unfold mul64. cbv zeta. destruct (_ <? _); intros H; inv H. reflexivity. Qed.
  Lemma w_map_ok n s m s' : mmap_region n s = (Ok m, s') -> n <= w_max w -> w_map w n s = (Ok m, s').
  Proof. intros H L. apply N.leb_le in L. unfold w_map, mmap_region in *. rewrite L. destruct (_ <=? _); [exact H|discriminate]. Qed.
  Lemma takes_mmap_ndarray pf : takes k (w_mmap_ndarray w pf) (mmap_ndarray Debug)
    (fun m => ma_rows m <= w_max w /\ ma_rows m * ma_cols m * 4 <= w_max w).
  Proof.
    intros s a s' L H [R C].  pose proof max_size. pose proof limit_max. pose proof limit_k. unfold w_mmap_ndarray, mmap_ndarray in *. go H u. go H t. go H rows.
    minv H as cols A1. minv H as d A2. minv H as pos A3. minv H as e A4. minv H as size A5. minv H as len A6. minv H as map A7. minv H as sk A8.
    pose proof H as H'. apply ret_inv in H' as [<- <-]. cbn [ma_rows ma_cols] in R, C. cast.
    apply lift_inv in A5 as [A5 <-]. apply lift_inv in A6 as [A6 <-]. apply mul_debug in A5, A6. subst size len.
    rewrite (bind_step _ _ _ _ _ A1), (bind_step _ _ _ _ _ A2), (bind_step _ _ _ _ _ A3), (bind_step _ _ _ _ _ A4).
    rewrite (w_mul_ok pf rows cols) by lia. unfold lift at 1. unfold bind at 1. rewrite (w_mul_ok pf _ 4) by exact C. unfold lift at 1. unfold bind at 1.
    rewrite (bind_step _ _ _ _ _ (w_map_ok _ _ _ _ A7 C)), (bind_step _ _ _ _ _ A8). exact H.
  Qed.
  Lemma takes_mmap_quantized pf : takes k (w_mmap_quantized w pf) (mmap_quantized_chunk Debug) (fun q => mm_len (mq_map q) <= w_max w).
  Proof.
    intros s a s' L H C.  pose proof max_size. pose proof limit_max. pose proof limit_k. unfold w_mmap_quantized, mmap_quantized_chunk in *. go H u. go H t. minv H as r X. destruct r as [[n q] has].
    minv H as ns Y. minv H as len A6. minv H as map A7. minv H as sk A8. pose proof H as H'. apply ret_inv in H' as [<- <-]. cbn [mq_map] in C.
    apply lift_inv in A6 as [A6 <-]. apply mul_debug in A6. subst len.
    assert (mm_len map = n * pq_ql q) as E by (unfold mmap_region in A7; destruct (_ <=? _); inv A7; reflexivity). rewrite E in C.
    apply takes_pq in X as (EX & Q & LQ & L2); [|lia]. apply takes_qnorms in Y as [EY L3]; [|lia].
    assert (n <= n * pq_ql q) as M by nia.
    rewrite (bind_step _ _ _ _ _ (EX ltac:(lia))). cbv beta iota. rewrite (bind_step _ _ _ _ _ EY).
    rewrite (w_mul_ok pf n) by exact C. unfold lift at 1. unfold bind at 1. rewrite (bind_step _ _ _ _ _ (w_map_ok _ _ _ _ A7 C)), (bind_step _ _ _ _ _ A8). exact H.
  Qed.
  Lemma takes_mmap_storage pf : takes k (w_mmap_storage w pf) (mmap_storage_wrap Debug) (shape_fits w).
  Proof.
    intros s a s' L H V. unfold w_mmap_storage, mmap_storage_wrap in *. go H cid.
    destruct cid; try discriminate; minv H as v X; apply ret_inv in H as [<- <-]; cbn [shape_fits] in V.
    - next X (takes_mmap_ndarray pf). reflexivity.
    - next X (takes_mmap_quantized pf). reflexivity.
  Qed.

  (** When the norms of the file are damaged, a 64-bit machine may have left
      them out where a narrow one cannot allocate them. *)
  Lemma takes_file T {V S} (rv1 rv2 : reader V) (rs1 rs2 : reader S) QV QS s e s' :
    takes k rv1 rv2 QV -> takes k rs1 rs2 QS -> shrinking rv2 -> shrinking rs2 -> lenN (s_rest s) <= k ->
    read_embeddings T rv2 rs2 s = (Ok e, s') -> QV (em_vocab e) -> QS (em_storage e) ->
    (em_norms e <> None -> w_file w b T rv1 rs1 s = (Ok e, s')) /\
    (fst (w_file w b T rv1 rs1 s) = Ok e \/ em_norms e = None /\ fst (w_file w b T rv1 rs1 s) = Panic PCapacity).
  Proof.
    intros TV TS SV SS L H V1 V2. unfold w_file, read_embeddings in *. minv H as ids X.
    assert (shrinking read_header) as SH. { intros a1 a2 a3 E. apply read_header_inv in E as (E & _). rewrite E, lenN_app. lia. }
    apply SH in X as LX. next X takes_header. destruct ids as [|i ids]; [discriminate|].
    minv H as md Y. minv H as v Z. minv H as st U. minv H as ns R. apply ret_inv in H as [<- <-]. cbn [em_vocab em_storage em_norms] in *.
    match type of Y with _ ?t = (_, ?t') =>
    assert (lenN (s_rest t') <= lenN (s_rest t) /\ (if chunk_eqb i CMetadata then t <- w_metadata w b T ;; ret (Some t) else ret None) t = (Ok md, t')) as [LY EY] end.
    { destruct (chunk_eqb _ _); [|apply ret_inv in Y as [<- <-]; split; [lia|reflexivity]]. minv Y as t M. apply ret_inv in Y as [<- <-].
      split; [|next M (takes_metadata T); reflexivity]. revert M. apply metadata_shrinking. }
    rewrite (bind_step _ _ _ _ _ EY). apply SV in Z as LZ. apply SS in U as LU. next Z TV. next U TS. clear Z U. unfold bind.
    unfold ok_opt in R. match type of R with (let (_, _) := ?m in _) = _ => destruct m as [[l|er|pn] t] eqn:RN end; inv R.
    - apply (takes_use _ _ _ _ _ _ takes_norms) in RN; [|lia|exact Logic.I]. unfold ok_opt. rewrite RN. split; [reflexivity|left; reflexivity].
    - split; [congruence|].
      match goal with |- context [ok_opt (w_norms w) ?t0] => destruct (c_norms w (ro_sane _ _ RO) t0) as [E|[E|[E _]]]; destruct (ok_opt (w_norms w) t0) as [[x|x|x] t1]; cbn [fst] in * end.
      all: try (unfold ok_opt in E; rewrite RN in E). all: try discriminate.
      + injection E as -> ->. left. reflexivity.
      + injection E as ->. right. auto.
      + injection E as ->. left. reflexivity.
  Qed.
End Fits.

Ltac shrinks := repeat (cbv zeta; first [apply shrinking_lift | apply shrinking_ret | apply shrinking_fail | apply shrinking_exact | apply shrinking_u32
  | apply shrinking_u64 | apply shrinking_position | apply shrinking_seek | apply shrinking_reserve | apply shrinking_zeros | apply shrinking_region
  | apply shrinking_f32s | apply shrinking_chunk_type | apply shrinking_data_type | apply shrinking_peek
  | match goal with |- shrinking (bind _ _) => apply shrinking_bind; [|intros ?] | |- shrinking (if ?x then _ else _) => destruct x end]).
Lemma shrinking_repeat {A} n (m : reader A) : shrinking m -> shrinking (repeat_m n m).
Proof.
  intros H s a s'. rewrite repeat_m_nat. revert s a s'. change (shrinking (repeat_nat (N.to_nat n) m)).
  induction (N.to_nat n) as [|i IH]; cbn [repeat_nat]; [apply shrinking_ret|]. apply shrinking_bind; [exact H|intros ?]. apply shrinking_bind; [exact IH|intros ?]. apply shrinking_ret.
Qed.
Lemma shrinking_string : shrinking read_string_item. Proof. unfold read_string_item. shrinks. Qed.
Lemma shrinking_items n : shrinking (read_items n). Proof. apply shrinking_bind; [apply shrinking_reserve|intros ?]. apply shrinking_repeat, shrinking_string. Qed.
Lemma shrinking_ngrams n : shrinking (read_ngrams_with_indices n).
Proof. apply shrinking_bind; [apply shrinking_reserve|intros ?]. apply shrinking_repeat. unfold read_ngram_item. shrinks. Qed.
Lemma shrinking_vocab pf : shrinking (read_vocab_wrap pf).
Proof.
  apply shrinking_bind; [apply shrinking_peek|]. intros []; try apply shrinking_fail; (apply shrinking_bind; [|intros ?; apply shrinking_ret]);
  unfold read_simple, read_bucketed, read_explicit, read_floret; repeat (first [apply shrinking_items | apply shrinking_ngrams | apply shrinking_string | progress shrinks]).
Qed.
Lemma shrinking_pq : shrinking read_product_quantizer. Proof. unfold read_product_quantizer. shrinks. Qed.
Lemma shrinking_qnorms h n : shrinking (read_quantized_norms h n). Proof. unfold read_quantized_norms. shrinks. Qed.
Lemma shrinking_storage : shrinking read_storage_wrap.
Proof.
  apply shrinking_bind; [apply shrinking_peek|]. intros []; try apply shrinking_fail; (apply shrinking_bind; [|intros ?; apply shrinking_ret]);
  unfold read_ndarray, read_quantized; shrinks.
  - apply shrinking_pq.
  - destruct a1 as [[n q] h]. apply shrinking_bind; [apply shrinking_qnorms|intros ?]. shrinks.
Qed.
Lemma shrinking_mmap_storage pf : shrinking (mmap_storage_wrap pf).
Proof.
  apply shrinking_bind; [apply shrinking_peek|]. intros []; try apply shrinking_fail; (apply shrinking_bind; [|intros ?; apply shrinking_ret]);
  unfold mmap_ndarray, mmap_quantized_chunk; shrinks.
  - apply shrinking_pq.
  - destruct a1 as [[n q] h]. apply shrinking_bind; [apply shrinking_qnorms|intros ?]. shrinks.
Qed.

(** A file that a 64-bit machine reads, and that fits. *)
Lemma fits_read w b T pf s e s' : narrow w -> 3 * lenN (s_rest s) <= w_max w ->
  read_embeddings T (read_vocab_wrap pf) read_storage_wrap s = (Ok e, s') ->
  vocab_fits w pf (em_vocab e) -> shape_fits w (em_storage e) ->
  (em_norms e <> None -> w_read w b T pf s = (Ok e, s')) /\
  (fst (w_read w b T pf s) = Ok e \/ em_norms e = None /\ fst (w_read w b T pf s) = Panic PCapacity).
Proof.
  intros N K H V S. pose proof (narrow_roomy w _ N K) as RO. apply (takes_file w b _ RO T _ (read_vocab_wrap pf) _ read_storage_wrap (vocab_fits w pf) (shape_fits w)); auto; try lia.
  - apply takes_vocab; auto. - apply takes_storage; auto. - apply shrinking_vocab. - apply shrinking_storage.
Qed.
Lemma fits_mmap w b T pf s e s' : narrow w -> 3 * lenN (s_rest s) <= w_max w ->
  mmap_embeddings T (read_vocab_wrap pf) (mmap_storage_wrap Debug) s = (Ok e, s') ->
  vocab_fits w pf (em_vocab e) -> shape_fits w (em_storage e) ->
  (em_norms e <> None -> w_mmap w b T pf s = (Ok e, s')) /\
  (fst (w_mmap w b T pf s) = Ok e \/ em_norms e = None /\ fst (w_mmap w b T pf s) = Panic PCapacity).
Proof.
  intros N K H V S. pose proof (narrow_roomy w _ N K) as RO. apply (takes_file w b _ RO T _ (read_vocab_wrap pf) _ (mmap_storage_wrap Debug) (vocab_fits w pf) (shape_fits w)); auto; try lia.
  - apply takes_vocab; auto. - apply takes_mmap_storage; auto. - apply shrinking_vocab. - apply shrinking_mmap_storage.
Qed.

(** ** Mapped matrices without overflow checks

    The size of the map wraps, the shape does not. *)
Lemma short_map w s m s' : w_mmap_ndarray w Release s = (Ok m, s') -> w_size w <= ma_rows m * ma_cols m * 4 ->
  mm_len (ma_map m) < ma_rows m * ma_cols m * 4 /\ mma_row m (ma_rows m - 1) = Panic PUnsafe.
Proof.
  intros H B. unfold w_mmap_ndarray in H. minv H as u A1. minv H as t A2. minv H as rows0 A3. minv H as rows A4. minv H as cols A5. minv H as d A6. minv H as pos A7.
  minv H as sk A8. minv H as size A9. minv H as len A10. minv H as map A11. minv H as sk2 A12. apply ret_inv in H as [<- <-]. cbn [ma_rows ma_cols ma_map] in *.
  apply lift_inv in A9 as [A9 <-]. apply lift_inv in A10 as [A10 <-].
  assert (0 < w_size w) as P by (unfold w_size; apply N.neq_0_lt_0, N.pow_nonzero; lia).
  assert (forall a c x, w_mul w Release a c = Ok x -> x < w_size w) as M.
  { intros a c x E. unfold w_mul in E. destruct (N.ltb_spec (a * c) (w_size w)); inv E; [assumption|]. apply N.mod_lt. lia. }
  apply M in A10. unfold w_map in A11. destruct (_ <=? _); [|discriminate]. injection A11 as <- <-. cbn [mm_len].
  split; [lia|]. unfold mma_row. cbn [ma_rows ma_cols ma_map]. assert (0 < rows) as R by nia.
  replace (rows - 1 <? rows) with true by (symmetry; apply N.ltb_lt; lia). unfold mm_read. cbn [mm_bytes]. rewrite lenN_takeN.
  replace ((rows - 1) * (cols * 4) + cols * 4) with (rows * cols * 4) by nia.
  match goal with |- context [?x <=? ?y] => replace (x <=? y) with false by (symmetry; apply N.leb_gt; lia) end. reflexivity.
Qed.
