(** * Exactly the input described in [Grammar] makes reading panic. *)
From Verif Require Import Base BaseFacts Utf8 Stream StreamFacts F32 ChunkIO ChunkFacts Subword
  Vocab VocabSpec VocabFacts Storage StorageFacts Embeddings FileSpec FileFacts ReadFacts Grammar GrammarFacts PanicFacts.
From Verif Require LookupFacts IndexerFacts.
Local Open Scope N_scope.

Definition panics {A} (m : reader A) (s : stream) (p : panic) : Prop := exists s', m s = (Panic p, s').
Definition never {A} (m : reader A) : Prop := panics_only m [].

Lemma never_no {A} (m : reader A) s p : never m -> ~ panics m s p.
Proof. intros H (s' & E). exact (H s p s' E). Qed.

Lemma panics_bind {A B} (m : reader A) (k : A -> reader B) s p :
  panics (a <- m ;; k a) s p <-> panics m s p \/ exists a s1, m s = (Ok a, s1) /\ panics (k a) s1 p.
Proof.
  unfold panics. split.
  - intros (s' & H). apply bind_Panic_inv in H as [H|(a & s1 & E & H)]; [eauto|right; eauto 6].
  - unfold bind. intros [(s' & E)|(a & s1 & E & s' & H)]; rewrite E; eauto.
Qed.
Lemma panics_step {A B} (m : reader A) (k : A -> reader B) s p a s1 :
  m s = (Ok a, s1) -> panics (k a) s1 p -> panics (a <- m ;; k a) s p.
Proof. intros E H. apply panics_bind. right. eauto. Qed.
Lemma panics_here {A B} (m : reader A) (k : A -> reader B) s p : panics m s p -> panics (a <- m ;; k a) s p.
Proof. intros H. apply panics_bind. auto. Qed.
Lemma panics_inv {A B} (m : reader A) (k : A -> reader B) s p :
  never m -> panics (a <- m ;; k a) s p -> exists a s1, m s = (Ok a, s1) /\ panics (k a) s1 p.
Proof. intros N H. apply panics_bind in H as [H|H]; [exfalso; eapply never_no; eauto|exact H]. Qed.

Lemma bind_red {A B} (m : reader A) (k : A -> reader B) s a s1 : m s = (Ok a, s1) -> bind m k s = k a s1.
Proof. intros E. unfold bind. rewrite E. reflexivity. Qed.
Lemma panics_lift {A} (r : res A) s p : panics (lift r) s p <-> r = Panic p.
Proof. unfold panics, lift. split; [intros (s' & H); inv H; auto|intros ->; eauto]. Qed.
Lemma panics_reserve n k s p : panics (reserve n k) s p <-> isize_max < n * k /\ p = PCapacity.
Proof.
  unfold panics, reserve. destruct (N.leb_spec (n * k) isize_max) as [L|L].
  - split; [intros (s' & H); discriminate|lia].
  - split; [intros (s' & H); inv H; auto|intros [_ ->]; eauto].
Qed.
Lemma panics_alloc dims k s p : panics (alloc_zeros dims k) s p <-> ~ dims_ok dims k /\ p = PCapacity.
Proof.
  unfold panics, alloc_zeros, dims_ok.
  destruct (N.leb_spec (fold_left (fun a d => a * nonzero d) dims 1) isize_max) as [L|L];
  destruct (N.leb_spec (fold_left N.mul dims 1 * k) isize_max) as [L1|L1]; cbn [andb].
  1: split; [intros (s' & H); discriminate|intros [H _]; exfalso; apply H; auto].
  all: (split; [intros (s' & H); inv H; split; [lia|reflexivity]|intros [_ ->]; eauto]).
Qed.
Lemma panics_ret {A} (a : A) s p : ~ panics (ret a) s p.
Proof. intros (s' & H). discriminate. Qed.
Lemma panics_bind_ret {A B} (m : reader A) (f : A -> B) s p : panics (a <- m ;; ret (f a)) s p <-> panics m s p.
Proof.
  rewrite panics_bind. split; [intros [H|(a & s1 & _ & H)]; [exact H|apply panics_ret in H; contradiction]|auto].
Qed.

Lemma never_items n s p : panics (read_items n) s p <-> isize_max < n * 24 /\ p = PCapacity.
Proof.
  unfold read_items. rewrite panics_bind, panics_reserve. split; [|auto].
  intros [H|(a & s1 & _ & H)]; [exact H|]. exfalso. eapply never_no; [|exact H]. apply po_repeat, po_string_item.
Qed.
Lemma panics_ngrams n s p : panics (read_ngrams_with_indices n) s p <-> isize_max < n * 32 /\ p = PCapacity.
Proof.
  unfold read_ngrams_with_indices. rewrite panics_bind, panics_reserve. split; [|auto].
  intros [H|(a & s1 & _ & H)]; [exact H|]. exfalso. eapply never_no; [|exact H].
  apply po_repeat. unfold read_ngram_item. po; apply po_string_item.
Qed.

Lemma starts_after s bs : starts s bs <-> exists s', after s bs s'.
Proof.
  split.
  - intros (rest & E). exists (mkBroken rest (s_pos s + lenN bs) (s_broken s)). repeat split; auto.
  - intros (s' & E & _). eexists; exact E.
Qed.

Ltac nevers := first [apply po_chunk_type|apply po_data_type|apply po_u32|apply po_u64|apply po_exact|apply po_f32s
  |apply po_position|apply po_seek|apply po_string_item].
Ltac pinv H a X := let t := fresh "sp" in apply panics_inv in H as (a & t & X & H); [|nevers].
Ltac pstep_chunk := match goal with
  | H : after ?s (le_bytes 4 _) ?s1 |- panics (bind (ensure_chunk_type ?c) _) ?s _ =>
      let HC := fresh in assert (c <> CHeader) as HC by (discriminate || assumption);
      destruct (proj2 (chunk_type_iff c s s1 HC) H) as (? & ?);
      eapply panics_step; [eassumption|]; clear HC H
  end.
Ltac pstep_skip := match goal with
  | H : after ?s ?l ?s1, L : lenN ?l = 8 |- panics (bind read_u64 _) ?s _ =>
      destruct (proj2 (skip_iff s s1) (ex_intro _ l (conj L H))) as (? & ?);
      eapply panics_step; [eassumption|]; clear H
  end.
Ltac pstep_type := match goal with
  | H : after ?s (le_bytes 4 ?t) ?s1 |- panics (bind (ensure_data_type _) _) ?s _ =>
      destruct (proj2 (data_type_iff t s s1 eq_refl) H) as (? & ?);
      eapply panics_step; [eassumption|]; clear H
  end.
Ltac pstep_int := match goal with
  | H : after ?s (le_bytes 4 ?n) ?s1 |- panics (bind read_u32 _) ?s _ =>
      eapply panics_step; [apply u32_iff; split; [|exact H]|]; clear H
  | H : after ?s (le_bytes 8 ?n) ?s1 |- panics (bind read_u64 _) ?s _ =>
      eapply panics_step; [apply u64_iff; split; [|exact H]|]; clear H
  end.

(** ** Constructors *)
Lemma simple_new_panic ws p : simple_new ws = Panic p <-> ~ NoDup ws /\ p = PDuplicateWords.
Proof.
  rewrite ci_len_NoDup. unfold simple_new. destruct (N.eqb_spec (lenN ws) (hm_len (create_indices ws))) as [E|E]; cbn [rassert rbind].
  - split; [discriminate|]. intros [H _]. exfalso. apply H. auto.
  - split; [intros H; inv H; split; [congruence|auto]|intros [_ ->]; auto].
Qed.
Lemma sub_new_panic {I} (ops : indexer_ops I) pf ws mn mx ix bow eow p :
  (forall b, ix_bound ops pf ix = Ok b -> lenN ws + b < two64) ->
  sub_new_with_boundaries ops pf ws mn mx ix bow eow = Panic p <->
  (~ NoDup ws /\ p = PDuplicateWords \/ NoDup ws /\ ix_bound ops pf ix = Panic p).
Proof.
  intros LT. rewrite ci_len_NoDup. unfold sub_new_with_boundaries.
  destruct (N.eqb_spec (lenN ws) (hm_len (create_indices ws))) as [E|E]; cbn [rassert rbind].
  - destruct (ix_bound ops pf ix) as [b|e|q]; cbn [rbind].
    + specialize (LT b eq_refl). replace (lenN ws + b <? two64) with true by lia. cbn [rassert rbind].
      split; [discriminate|]. intros [[H _]|[_ H]]; [contradiction|discriminate].
    + split; [discriminate|]. intros [[H _]|[_ H]]; [contradiction|discriminate].
    + split; [intros H; inv H; auto|]. intros [[H _]|[_ H]]; [contradiction|inv H; reflexivity].
  - split; [intros H; inv H; left; split; [congruence|auto]|]. intros [[_ ->]|[H _]]; [auto|contradiction].
Qed.

(** ** Vocabularies *)
Ltac fin_starts := apply starts_after; eexists; fin_after.

Lemma simple_panics pf s p : panics read_simple s p -> vocab_panic_at pf s p.
Proof.
  unfold read_simple. intros H. pinv H u X0. pinv H l X1. pinv H n X2.
  apply chunk_inv in X0. apply skip_inv in X1 as (lb & L & A1). apply u64_iff in X2 as [L2 A2].
  apply panics_bind in H as [H|(ws & s1 & X3 & H)].
  - apply never_items in H as [LT ->]. apply (vpa_words _ _ 1 lb n []); auto. cbn [app]. rewrite app_nil_r. fin_starts.
  - apply items_iff in X3 as (<- & W & A3). apply panics_lift, simple_new_panic in H as [ND ->].
    apply (vpa_simple _ _ lb ws); auto. fin_starts.
Qed.

Lemma bucketed_panics {I} (B : bucket_ops I) c s pf p :
  panics (read_bucketed B pf c) s p ->
  (exists l n fields, lenN l = 8 /\ n < two64 /\ lenN fields = 12 /\ isize_max < n * 24 /\ p = PCapacity /\
     starts s (le_bytes 4 (chunk_num c) ++ l ++ le_bytes 8 n ++ fields)) \/
  exists l ws mn mx n, lenN l = 8 /\ words_ok ws /\ mn < two32 /\ mx < two32 /\ n < two32 /\
    starts s (le_bytes 4 (chunk_num c) ++ l ++ le_bytes 8 (lenN ws) ++ le_bytes 4 mn ++ le_bytes 4 mx ++ le_bytes 4 n
              ++ strings_layout ws) /\
    (bk_new B n = Panic p \/ exists ix, bk_new B n = Ok ix /\ sub_new (bk_ops B) pf ws mn mx ix = Panic p).
Proof.
  unfold read_bucketed. intros H. pinv H u X0. pinv H l X1. pinv H n X2. pinv H mn X3. pinv H mx X4. pinv H b X5.
  apply chunk_inv in X0. apply skip_inv in X1 as (lb & L & A1). apply u64_iff in X2 as [L2 A2].
  apply u32_iff in X3 as [L3 A3]. apply u32_iff in X4 as [L4 A4]. apply u32_iff in X5 as [L5 A5].
  apply panics_bind in H as [H|(ws & s1 & X6 & H)].
  - left. apply never_items in H as [LT ->]. exists lb, n, (le_bytes 4 mn ++ le_bytes 4 mx ++ le_bytes 4 b).
    rewrite !lenN_app, !le_bytes_lenN. repeat (split; [auto; fail|]). fin_starts.
  - right. apply items_iff in X6 as (<- & W & A6). exists lb, ws, mn, mx, b. repeat (split; [auto; fail|]).
    split; [fin_starts|]. apply panics_bind in H as [H|(ix & s2 & X7 & H)].
    + left. apply panics_lift in H. exact H.
    + right. apply lift_inv in X7 as [X7 ->]. apply panics_lift in H. eauto.
Qed.
Lemma bucketed_panics_conv {I} (B : bucket_ops I) c s pf p : c <> CHeader ->
  (exists l n fields, lenN l = 8 /\ n < two64 /\ lenN fields = 12 /\ isize_max < n * 24 /\ p = PCapacity /\
     starts s (le_bytes 4 (chunk_num c) ++ l ++ le_bytes 8 n ++ fields)) \/
  (exists l ws mn mx n, lenN l = 8 /\ words_ok ws /\ mn < two32 /\ mx < two32 /\ n < two32 /\
    starts s (le_bytes 4 (chunk_num c) ++ l ++ le_bytes 8 (lenN ws) ++ le_bytes 4 mn ++ le_bytes 4 mx ++ le_bytes 4 n
              ++ strings_layout ws) /\
    (bk_new B n = Panic p \/ exists ix, bk_new B n = Ok ix /\ sub_new (bk_ops B) pf ws mn mx ix = Panic p)) ->
  panics (read_bucketed B pf c) s p.
Proof.
  intros HC [(l & n & f & L & L2 & LF & LT & -> & S)|(l & ws & mn & mx & n & L & W & L1 & L2 & L3 & S & H)];
  apply starts_after in S as (s9 & S); split_after; unfold read_bucketed.
  - pstep_chunk. pstep_skip. pstep_int; [auto|].
    assert (exists a b c, f = le_bytes 4 a ++ le_bytes 4 b ++ le_bytes 4 c /\ a < two32 /\ b < two32 /\ c < two32) as
      (a & b & d & -> & LA & LB & LD).
    { pose proof (le_bytes_of 4 (takeN 4 f)) as [E1 Q1]; [rewrite lenN_takeN; lia|].
      pose proof (le_bytes_of 4 (takeN 4 (dropN 4 f))) as [E2 Q2]; [rewrite lenN_takeN, lenN_dropN; lia|].
      pose proof (le_bytes_of 4 (dropN 4 (dropN 4 f))) as [E3 Q3]; [rewrite !lenN_dropN; lia|].
      exists (le_value (takeN 4 f)), (le_value (takeN 4 (dropN 4 f))), (le_value (dropN 4 (dropN 4 f))).
      rewrite <- E1, <- E2, <- E3, !takeN_dropN. rewrite pow256_4 in *. auto. }
    split_after. pstep_int; [auto|]. pstep_int; [auto|]. pstep_int; [auto|]. apply panics_here, never_items. auto.
  - pstep_chunk. pstep_skip. pstep_int; [apply words_len; auto|]. pstep_int; [auto|]. pstep_int; [auto|]. pstep_int; [auto|].
    eapply panics_step; [apply items_iff; eauto|].
    destruct H as [H|(ix & E & H)]; [apply panics_here, panics_lift, H|].
    eapply panics_step; [unfold lift; rewrite E; reflexivity|]. apply panics_lift, H.
Qed.

Lemma hash_bound_panic pf exp ix p : hash_indexer_new exp = Ok ix ->
  (hash_bound pf ix = Panic p <-> exp = 64 /\ pf = Debug /\ p = PArithOverflow).
Proof.
  unfold hash_indexer_new. intros H. apply rbind_Ok_inv in H as (u & R & H). apply rassert_Ok in R. inv H.
  unfold hash_bound. cbn [hi_exp]. destruct (N.ltb_spec (2 ^ exp) two64) as [L|L].
  - split; [discriminate|]. intros (-> & _). exfalso. vm_compute in L. discriminate.
  - assert (exp = 64) as ->.
    { destruct (N.lt_ge_cases exp 64) as [L1|L1]; [|lia]. exfalso. apply (N.pow_lt_mono_r 2) in L1; [|lia].
      unfold two64 in L. change (2 ^ 64) with 18446744073709551616 in L1. lia. }
    destruct pf; split; try (intros H; inv H; auto; fail); try (intros (_ & E & _); discriminate). intros (_ & _ & ->). reflexivity.
Qed.
Lemma hash_bound_lt pf exp ix b : hash_indexer_new exp = Ok ix -> hash_bound pf ix = Ok b -> b <= 9223372036854775808.
Proof.
  unfold hash_indexer_new. intros H. apply rbind_Ok_inv in H as (u & R & H). apply rassert_Ok in R. inv H.
  unfold hash_bound. cbn [hi_exp]. destruct (N.ltb_spec (2 ^ exp) two64) as [L|L].
  - intros H. inv H. assert (exp <= 63) as LE.
    { destruct (N.le_gt_cases exp 63) as [|G]; [auto|]. exfalso. assert (exp = 64) as -> by lia. vm_compute in L. discriminate. }
    apply (N.pow_le_mono_r 2) in LE; [|lia]. exact LE.
  - assert (exp = 64) as ->.
    { destruct (N.lt_ge_cases exp 64) as [L1|L1]; [|lia]. exfalso. apply (N.pow_lt_mono_r 2) in L1; [|lia].
      unfold two64 in L. change (2 ^ 64) with 18446744073709551616 in L1. lia. }
    destruct pf; [discriminate|]. intros H. inv H. discriminate.
Qed.

Lemma isize_words ws : words_ok ws -> lenN ws < 576460752303423488.
Proof. intros [_ L]. unfold isize_max in L. lia. Qed.


Lemma hash_sub_panic pf ws mn mx exp p : words_ok ws ->
  (bk_new hash_bucket_ops exp = Panic p \/
   exists ix, bk_new hash_bucket_ops exp = Ok ix /\ sub_new hash_ops pf ws mn mx ix = Panic p) <->
  (64 < exp /\ p = PAssert \/ exp <= 64 /\ ~ NoDup ws /\ p = PDuplicateWords \/
   exp = 64 /\ NoDup ws /\ pf = Debug /\ p = PArithOverflow).
Proof.
  intros W. apply isize_words in W. cbn [bk_new hash_bucket_ops]. destruct (hash_indexer_new exp) as [ix|e|q] eqn:E.
  - assert (exp <= 64) as LE.
    { unfold hash_indexer_new in E. apply rbind_Ok_inv in E as (u & R & _). apply rassert_Ok in R. lia. }
    assert (sub_new hash_ops pf ws mn mx ix = Panic p <->
      (~ NoDup ws /\ p = PDuplicateWords \/ NoDup ws /\ ix_bound hash_ops pf ix = Panic p)) as X.
    { apply sub_new_panic. intros b B. apply (hash_bound_lt _ _ _ _ E) in B. unfold two64. lia. }
    pose proof (hash_bound_panic pf exp ix p E) as Y. cbn [ix_bound hash_ops] in X. rewrite Y in X. split.
    + intros [H|(ix' & H & H1)]; [discriminate|]. inv H. apply X in H1 as [[H1 ->]|(H1 & -> & -> & ->)]; auto 8.
    + intros [[H _]|[(_ & H & ->)|(-> & H & -> & ->)]]; [lia| |]; right; exists ix; (split; [auto|]); apply X; auto 6.
  - unfold hash_indexer_new, rassert in E. destruct (exp <=? 64); discriminate.
  - assert (64 < exp /\ q = PAssert) as [LT ->].
    { unfold hash_indexer_new, rassert in E. destruct (N.leb_spec exp 64); inv E. auto. }
    split.
    + intros [H|(ix' & H & _)]; [inv H; auto|discriminate].
    + intros [[_ ->]|[(H & _)|(H & _)]]; [auto|lia|lia].
Qed.
Lemma ft_sub_panic pf ws mn mx n p : words_ok ws -> n < two32 ->
  (bk_new ft_bucket_ops n = Panic p \/
   exists ix, bk_new ft_bucket_ops n = Ok ix /\ sub_new ft_ops pf ws mn mx ix = Panic p) <->
  (i32_max < n /\ p = PAssert \/ n <= i32_max /\ ~ NoDup ws /\ p = PDuplicateWords).
Proof.
  intros W LN. apply isize_words in W. cbn [bk_new ft_bucket_ops]. destruct (ft_indexer_new n) as [ix|e|q] eqn:E.
  - assert (n <= i32_max /\ ix = mkFtIx (n mod two32)) as [LE EI].
    { unfold ft_indexer_new in E. apply rbind_Ok_inv in E as (u & R & E). apply rassert_Ok in R. inv E. split; [lia|auto]. }
    assert (sub_new ft_ops pf ws mn mx ix = Panic p <->
      (~ NoDup ws /\ p = PDuplicateWords \/ NoDup ws /\ ix_bound ft_ops pf ix = Panic p)) as X.
    { apply sub_new_panic. intros b B. cbn [ix_bound ft_ops] in B. inv B. cbn [fi_buckets].
      pose proof (N.mod_upper_bound n two32). unfold two32, two64 in *. lia. }
    cbn [ix_bound ft_ops] in X. split.
    + intros [H|(ix' & H & H1)]; [discriminate|]. inv H. apply X in H1 as [[H1 ->]|(_ & H1)]; [auto|discriminate].
    + intros [[H _]|(_ & H & ->)]; [lia|]. right; exists ix; (split; [auto|]); apply X; auto 6.
  - unfold ft_indexer_new, rassert in E. destruct (n <=? i32_max); discriminate.
  - assert (i32_max < n /\ q = PAssert) as [LT ->].
    { unfold ft_indexer_new, rassert in E. destruct (N.leb_spec n i32_max); inv E. auto. }
    split.
    + intros [H|(ix' & H & _)]; [inv H; auto|discriminate].
    + intros [[_ ->]|(H & _)]; [auto|lia].
Qed.

Lemma bucket_panics pf s p : panics (read_bucketed hash_bucket_ops pf CBucketSubwordVocab) s p -> vocab_panic_at pf s p.
Proof.
  intros H. apply bucketed_panics in H as
    [(l & n & f & L & L2 & LF & LT & -> & S)|(l & ws & mn & mx & n & L & W & L1 & L2 & L3 & S & H)].
  - apply (vpa_words _ _ 3 l n f); auto. cbn [fields_len]. congruence.
  - apply hash_sub_panic in H; [|exact W]. apply (vpa_bucket _ _ l ws mn mx n); auto.
Qed.
Lemma fasttext_panics pf s p : panics (read_bucketed ft_bucket_ops pf CFastTextSubwordVocab) s p -> vocab_panic_at pf s p.
Proof.
  intros H. apply bucketed_panics in H as
    [(l & n & f & L & L2 & LF & LT & -> & S)|(l & ws & mn & mx & n & L & W & L1 & L2 & L3 & S & H)].
  - apply (vpa_words _ _ 7 l n f); auto. cbn [fields_len]. congruence.
  - apply ft_sub_panic in H; [|exact W|exact L3]. apply (vpa_fasttext _ _ l ws mn mx n); auto.
Qed.

Lemma explicit_new_panic gs p : explicit_new_with_indices gs = Panic p <-> ~ NoDup (map fst gs) /\ p = PDuplicateNGrams.
Proof.
  destruct (IndexerFacts.explicit_numbering gs) as [H1 H2]. split.
  - intros H. assert (~ NoDup (map fst gs)) as ND.
    { intros ND. destruct (H2 ND) as (ix & o2n & E & _). rewrite E in H. discriminate. }
    rewrite (H1 ND) in H. inv H. auto.
  - intros [ND ->]. auto.
Qed.
Lemma explicit_new_bound gs r : lenN gs * 32 <= isize_max -> explicit_new_with_indices gs = Ok r ->
  NoDup (map fst gs) /\ ei_bound (fst r) < 576460752303423488.
Proof.
  intros LG H. destruct (IndexerFacts.explicit_numbering gs) as [H1 H2].
  assert (NoDup (map fst gs)) as ND.
  { assert (~ ~ NoDup (map fst gs)) as NN by (intros X; rewrite (H1 X) in H; discriminate).
    rewrite ci_len_NoDup in *. lia. }
  split; [exact ND|]. destruct (H2 ND) as (ix & o2n & E & _ & EB & _). rewrite E in H. inv H. cbn [fst]. rewrite EB.
  assert (lenN (first_seen (map snd gs)) <= lenN gs) as LE.
  { rewrite <- (lenN_map snd gs). unfold lenN. 
    assert (length (first_seen (map snd gs)) <= length (map snd gs))%nat as X; [|lia].
    apply NoDup_incl_length; [apply IndexerFacts.first_seen_NoDup|]. intros b. apply IndexerFacts.first_seen_In. }
  unfold isize_max in LG. lia.
Qed.

Lemma explicit_panics pf s p : panics (read_explicit pf) s p -> vocab_panic_at pf s p.
Proof.
  unfold read_explicit. intros H. pinv H u X0. pinv H l X1. pinv H nw X2. pinv H ng X3. pinv H mn X4. pinv H mx X5.
  apply chunk_inv in X0. apply skip_inv in X1 as (lb & L & A1). apply u64_iff in X2 as [L2 A2].
  apply u64_iff in X3 as [L3 A3]. apply u32_iff in X4 as [L4 A4]. apply u32_iff in X5 as [L5 A5].
  apply panics_bind in H as [H|(ws & s1 & X6 & H)].
  { apply never_items in H as [LT ->]. apply (vpa_words _ _ 8 lb nw (le_bytes 8 ng ++ le_bytes 4 mn ++ le_bytes 4 mx)); auto.
    fin_starts. }
  apply items_iff in X6 as (<- & W & A6). apply panics_bind in H as [H|(gs & s2 & X7 & H)].
  { apply panics_ngrams in H as [LT ->]. apply (vpa_ngrams _ _ lb ws ng mn mx); auto. fin_starts. }
  apply ngrams_iff in X7 as (<- & F & R & A7).
  apply (vpa_explicit _ _ lb ws gs mn mx); auto; [fin_starts|].
  apply panics_bind in H as [H|(r & s3 & X8 & H)].
  - apply panics_lift, explicit_new_panic in H. auto.
  - apply lift_inv in X8 as [X8 ->]. destruct (explicit_new_bound _ _ R X8) as [ND LB]. apply panics_lift in H.
    apply sub_new_panic in H as [[NW ->]|[_ H]]; [auto|discriminate|].
    intros b B. cbn [ix_bound explicit_ops] in B. inv B. apply isize_words in W. unfold two64. lia.
Qed.

Lemma floret_panics pf s p : panics (read_floret pf) s p -> vocab_panic_at pf s p.
Proof.
  unfold read_floret. intros H. pinv H u X0. pinv H l X1. pinv H mn X2. pinv H mx X3. pinv H nb X4. pinv H nh X5.
  destruct ((1 <=? nh) && (nh <=? 4)) eqn:EH; cbn [negb] in H; [|destruct H as (? & H); discriminate].
  pinv H seed X6. pinv H bow X7. pinv H eow X8.
  apply u32_iff in X2 as [L2 A2]. apply u32_iff in X3 as [L3 A3]. apply u64_iff in X4 as [L4 A4].
  apply u32_iff in X5 as [L5 A5]. apply u32_iff in X6 as [L6 A6].
  apply string_iff in X7 as [W7 A7]. apply string_iff in X8 as [W8 A8].
  apply skip_inv in X1 as (lb & L & A1). apply chunk_inv in X0.
  apply panics_bind in H as [H|(ix & s1 & X9 & H)].
  - apply panics_lift in H. unfold floret_indexer_new in H.
    replace ((0 <? nh) && (nh <=? 4)) with true in H by (symmetry; lia). cbn [rassert rbind] in H.
    destruct (N.eqb_spec nb 0) as [->|]; [|discriminate]. inv H.
    apply (vpa_floret _ _ lb mn mx nh seed bow eow); auto; [lia|]. fin_starts.
  - exfalso. apply lift_inv in X9 as [X9 ->]. apply panics_lift in H. unfold floret_indexer_new in X9.
    apply rbind_Ok_inv in X9 as (u1 & _ & X9). apply rbind_Ok_inv in X9 as (u2 & _ & X9). inv X9.
    apply sub_new_panic in H as [[NW _]|[_ H]]; [apply NW; constructor|discriminate|].
    intros b B. cbn [ix_bound floret_ops fl_buckets] in B. inv B. rewrite lenN_nil. cbn. exact L4.
Qed.

Lemma wrap_inv pf s p : panics (read_vocab_wrap pf) s p -> vocab_panic_at pf s p.
Proof.
  unfold read_vocab_wrap. intros H. apply panics_inv in H as (id & s1 & X & H).
  2: { apply po_peek. unfold peek_chunk_id. po. }
  apply peek_inv in X as [<- _].
  destruct id; try (destruct H as (? & H); discriminate);
  (apply panics_bind in H as [H|(a & s1 & _ & H)]; [|apply panics_ret in H; contradiction]).
  - apply simple_panics, H. - apply bucket_panics, H. - apply fasttext_panics, H. - apply explicit_panics, H.
  - apply floret_panics, H.
Qed.

Lemma starts_app s a b : starts s (a ++ b) -> starts s a.
Proof. intros (r & E). exists (b ++ r). rewrite E, app_assoc. reflexivity. Qed.

Lemma wrap_panics {A} pf c s p (m : reader A) f : c <> CHeader -> starts s (le_bytes 4 (chunk_num c)) ->
  (forall s', (v <- m ;; ret (f v)) s' = match c with
    | CSimpleVocab => (v <- read_simple ;; ret (VSimple v)) s'
    | CBucketSubwordVocab => (v <- read_bucketed hash_bucket_ops pf CBucketSubwordVocab ;; ret (VBucket v)) s'
    | CFastTextSubwordVocab => (v <- read_bucketed ft_bucket_ops pf CFastTextSubwordVocab ;; ret (VFastText v)) s'
    | CExplicitSubwordVocab => (v <- read_explicit pf ;; ret (VExplicit v)) s'
    | CFloretSubwordVocab => (v <- read_floret pf ;; ret (VFloret v)) s'
    | _ => fail EFormat s' end) ->
  panics m s p -> panics (read_vocab_wrap pf) s p.
Proof.
  intros HC S E H. apply starts_after in S as (s1 & S). unfold read_vocab_wrap.
  eapply panics_step; [apply peek_chunk_iff; split; [reflexivity|]; split; [exact HC|exists s1; exact S]|].
  apply (panics_bind_ret m f) in H. destruct H as (s' & H). exists s'. rewrite <- H, E. destruct c; reflexivity.
Qed.

Lemma vocab_panics_iff pf s p : panics (read_vocab_wrap pf) s p <-> vocab_panic_at pf s p.
Proof.
  split; [apply wrap_inv|]. intros H. inv H.
  - (* too many words *)
    destruct (N.eq_dec id 1) as [->|N1].
    { apply (wrap_panics pf CSimpleVocab _ _ read_simple VSimple); [discriminate|eapply starts_app; eassumption|reflexivity|].
      match goal with S : starts _ _ |- _ => apply starts_after in S as (s9 & S) end. split_after.
      unfold read_simple. pstep_chunk. pstep_skip. pstep_int; [auto|]. apply panics_here, never_items. auto. }
    destruct (N.eq_dec id 3) as [->|N3].
    { apply (wrap_panics pf CBucketSubwordVocab _ _ (read_bucketed hash_bucket_ops pf CBucketSubwordVocab) VBucket); [discriminate|eapply starts_app; eassumption|reflexivity|].
      apply bucketed_panics_conv; [discriminate|]. left. cbn [fields_len] in *. exists l, n, fields. repeat (split; [auto; congruence|]). assumption. }
    destruct (N.eq_dec id 7) as [->|N7].
    { apply (wrap_panics pf CFastTextSubwordVocab _ _ (read_bucketed ft_bucket_ops pf CFastTextSubwordVocab) VFastText); [discriminate|eapply starts_app; eassumption|reflexivity|].
      apply bucketed_panics_conv; [discriminate|]. left. cbn [fields_len] in *. exists l, n, fields. repeat (split; [auto; congruence|]). assumption. }
    destruct (N.eq_dec id 8) as [->|N8].
    { cbn [fields_len] in *. assert (lenN fields = 16) as LF by congruence.
      apply (wrap_panics pf CExplicitSubwordVocab _ _ (read_explicit pf) VExplicit); [discriminate|eapply starts_app; eassumption|reflexivity|].
      match goal with S : starts _ _ |- _ => apply starts_after in S as (s9 & S) end. split_after.
      unfold read_explicit. pstep_chunk. pstep_skip. pstep_int; [auto|].
      assert (exists a b c, fields = le_bytes 8 a ++ le_bytes 4 b ++ le_bytes 4 c /\ a < two64 /\ b < two32 /\ c < two32) as
        (a & b & d & -> & LA & LB & LD).
      { pose proof (le_bytes_of 8 (takeN 8 fields)) as [E1 Q1]; [rewrite lenN_takeN; lia|].
        pose proof (le_bytes_of 4 (takeN 4 (dropN 8 fields))) as [E2 Q2]; [rewrite lenN_takeN, lenN_dropN; lia|].
        pose proof (le_bytes_of 4 (dropN 4 (dropN 8 fields))) as [E3 Q3]; [rewrite !lenN_dropN; lia|].
        exists (le_value (takeN 8 fields)), (le_value (takeN 4 (dropN 8 fields))), (le_value (dropN 4 (dropN 8 fields))).
        rewrite <- E1, <- E2, <- E3, !takeN_dropN. rewrite pow256_4, pow256_8 in *. auto. }
      split_after. pstep_int; [auto|]. pstep_int; [auto|]. pstep_int; [auto|]. apply panics_here, never_items. auto. }
    exfalso. unfold fields_len in *. repeat match goal with E : match ?x with _ => _ end = _ |- _ => destruct x; try discriminate; try contradiction end.
  - apply (wrap_panics pf CSimpleVocab _ _ read_simple VSimple); [discriminate|eapply starts_app; eassumption|reflexivity|].
    match goal with S : starts _ _ |- _ => apply starts_after in S as (s9 & S) end. split_after.
    unfold read_simple. pstep_chunk. pstep_skip. pstep_int; [apply words_len; auto|].
    eapply panics_step; [apply items_iff; eauto|]. apply panics_lift, simple_new_panic. auto.
  - apply (wrap_panics pf CBucketSubwordVocab _ _ (read_bucketed hash_bucket_ops pf CBucketSubwordVocab) VBucket); [discriminate|eapply starts_app; eassumption|reflexivity|].
    apply bucketed_panics_conv; [discriminate|]. right. exists l, ws, mn, mx, exp. repeat (split; [assumption|]).
    apply hash_sub_panic; assumption.
  - apply (wrap_panics pf CFastTextSubwordVocab _ _ (read_bucketed ft_bucket_ops pf CFastTextSubwordVocab) VFastText); [discriminate|eapply starts_app; eassumption|reflexivity|].
    apply bucketed_panics_conv; [discriminate|]. right. exists l, ws, mn, mx, n. repeat (split; [assumption|]).
    apply ft_sub_panic; assumption.
  - apply (wrap_panics pf CExplicitSubwordVocab _ _ (read_explicit pf) VExplicit); [discriminate|eapply starts_app; eassumption|reflexivity|].
    match goal with S : starts _ _ |- _ => apply starts_after in S as (s9 & S) end. split_after.
    unfold read_explicit. pstep_chunk. pstep_skip. pstep_int; [apply words_len; auto|]. pstep_int; [auto|]. pstep_int; [auto|]. pstep_int; [auto|].
    eapply panics_step; [apply items_iff; eauto|]. apply panics_here, panics_ngrams. auto.
  - apply (wrap_panics pf CExplicitSubwordVocab _ _ (read_explicit pf) VExplicit); [discriminate|eapply starts_app; eassumption|reflexivity|].
    match goal with S : starts _ _ |- _ => apply starts_after in S as (s9 & S) end. split_after.
    unfold read_explicit. pstep_chunk. pstep_skip. pstep_int; [apply words_len; auto|]. pstep_int; [unfold isize_max, two64 in *; lia|].
    pstep_int; [auto|]. pstep_int; [auto|].
    eapply panics_step; [apply items_iff; eauto|]. eapply panics_step; [apply ngrams_iff; eauto 6|].
    match goal with X : _ \/ _ |- _ => destruct X as [(ND & ->)|(ND & NW & ->)] end.
    + apply panics_here, panics_lift, explicit_new_panic. auto.
    + destruct (IndexerFacts.explicit_numbering gs) as [_ X]. destruct (X ND) as (ix & o2n & E & _).
      eapply panics_step; [unfold lift; rewrite E; reflexivity|]. cbn [fst]. apply panics_lift.
      apply sub_new_panic; [|auto]. intros b B. cbn [ix_bound explicit_ops] in B. inv B.
      destruct (explicit_new_bound gs (ix, o2n)) as [_ LB]; [auto|auto|]. cbn [fst] in LB.
      match goal with W : words_ok ws |- _ => apply isize_words in W end. unfold two64. lia.
  - apply (wrap_panics pf CFloretSubwordVocab _ _ (read_floret pf) VFloret); [discriminate|eapply starts_app; eassumption|reflexivity|].
    match goal with S : starts _ _ |- _ => apply starts_after in S as (s9 & S) end. split_after.
    unfold read_floret. pstep_chunk. pstep_skip. pstep_int; [auto|]. pstep_int; [auto|]. pstep_int; [reflexivity|]. pstep_int; [unfold two32; lia|].
    replace ((1 <=? nh) && (nh <=? 4)) with true by (symmetry; lia). cbn [negb]. pstep_int; [auto|].
    eapply panics_step; [apply string_iff; eauto|]. eapply panics_step; [apply string_iff; eauto|].
    apply panics_here, panics_lift. unfold floret_indexer_new. replace ((0 <? nh) && (nh <=? 4)) with true by (symmetry; lia). reflexivity.
Qed.

(** ** Storages *)
Lemma nd_panics s p : panics read_ndarray s p <-> storage_panic_at s p /\ starts s (le_bytes 4 2).
Proof.
  split.
  - unfold read_ndarray. intros H. pinv H u X0. pinv H l X1. pinv H r X2. pinv H c X3. pinv H u1 X4. pinv H pos X5. pinv H u2 X6.
    apply panics_bind in H as [H|(u3 & s3 & _ & H)].
    + apply panics_alloc in H as [D ->]. apply u64_iff in X2 as [L2 A2]. apply u32_iff in X3 as [L3 A3].
      apply type_inv in X4; [|reflexivity]. apply skip_inv in X1 as (lb & L & A1). apply chunk_inv in X0.
      split; [|apply starts_after; eauto]. apply (spa_nd _ lb r c); auto. fin_starts.
    + exfalso. pinv H d X7. exact (panics_ret _ _ _ H).
  - intros [H S]. inv H.
    + match goal with S : starts _ (_ ++ _ ++ _) |- _ => apply starts_after in S as (s9 & X) end. split_after.
      unfold read_ndarray. pstep_chunk. pstep_skip. pstep_int; [auto|]. pstep_int; [auto|]. pstep_type.
      eapply panics_step; [reflexivity|]. eapply panics_step; [reflexivity|]. apply panics_here, panics_alloc. auto.
    + exfalso. destruct S as (r1 & S). match goal with S : starts _ (quantized_sizes _ _ _ _ _ _ _) |- _ => destruct S as (r2 & S2) end.
      unfold quantized_sizes in S2. rewrite S in S2. discriminate.
    + exfalso. destruct S as (r1 & S). match goal with A : after_padded _ _ _ _ |- _ => apply padded_iff in A as (s2 & s3 & [S2 _] & _) end.
      unfold quantized_sizes in S2. rewrite S in S2. discriminate.
Qed.

Definition proj_reader (fp rl : N) : reader (option (array2 f32)) :=
  if negb (fp =? 0) then
    alloc_zeros [rl; rl] 4 ;;;
    data <- read_f32s (rl * rl) ;;
    ret (Some (mkA2 rl (unflattenN rl rl data)))
  else ret None.

Lemma proj_ok fp rl s s' : (exists pr, proj_reader fp rl s = (Ok pr, s')) <->
  (fp <> 0 -> dims_ok [rl; rl] 4) /\
  exists fs, lenN fs = (if fp =? 0 then 0 else rl * rl) /\ after s (floats_layout fs) s'.
Proof.
  unfold proj_reader. destruct (N.eqb_spec fp 0) as [E|E]; cbn [negb].
  - split.
    + intros (pr & H). apply ret_inv in H as [_ <-]. split; [contradiction|]. exists []. split; [reflexivity|]. apply after_nil. reflexivity.
    + intros (_ & fs & L & A). apply lenN_0 in L as ->. apply after_nil in A as ->. eexists; reflexivity.
  - split.
    + intros (pr & H). minv H as u X0. minv H as d X1. apply ret_inv in H as [_ <-]. apply alloc_inv in X0 as [D ->].
      apply floats_iff in X1 as [L A]. split; [auto|]. eauto.
    + intros (D & fs & L & A). eexists. eapply bind_ok; [apply alloc_zeros_ok, D, E|].
      eapply bind_ok; [apply floats_iff; eauto|]. reflexivity.
Qed.
Lemma proj_shape fp rl s s' pr p : proj_reader fp rl s = (Ok pr, s') -> pr = Some p -> a2_nrows p = rl /\ a2_cols p = rl.
Proof.
  unfold proj_reader. intros H ->. destruct (negb (fp =? 0)).
  - minv H as u X0. minv H as d X1. apply ret_inv in H as [E _]. inv E. unfold a2_nrows. cbn [a2_rows a2_cols]. split; [|auto].
    apply floats_iff in X1 as [L _]. destruct (unflattenN_spec _ _ _ L) as (_ & _ & ->). auto.
  - apply ret_inv in H as [E _]. discriminate.
Qed.
Lemma proj_panics fp rl s p : panics (proj_reader fp rl) s p <-> fp <> 0 /\ ~ dims_ok [rl; rl] 4 /\ p = PCapacity.
Proof.
  unfold proj_reader. destruct (N.eqb_spec fp 0) as [E|E]; cbn [negb].
  - split; [intros H; apply panics_ret in H; contradiction|intros (H & _); contradiction].
  - split.
    + intros H. apply panics_bind in H as [H|(u & s1 & _ & H)]; [apply panics_alloc in H; auto|].
      exfalso. pinv H d X. exact (panics_ret _ _ _ H).
    + intros (_ & D & ->). apply panics_here, panics_alloc. auto.
Qed.
Lemma pq_new_panic (pr : option (array2 f32)) ql nc sub cent p :
  (forall x, pr = Some x -> a2_nrows x = ql * sub /\ a2_cols x = ql * sub) ->
  pq_new pr ql nc sub cent = Panic p <-> ql * nc * sub = 0 /\ p = PAssert.
Proof.
  intros H. unfold pq_new. destruct (N.eqb_spec (ql * nc * sub) 0) as [E|E]; cbn [negb rassert rbind].
  - split; [intros X; inv X; auto|intros [_ ->]; auto].
  - split; [|intros [X _]; contradiction].
    destruct pr as [x|]; [|discriminate]. destruct (H x eq_refl) as [-> ->]. rewrite N.eqb_refl. discriminate.
Qed.
Lemma pq_new_ok (pr : option (array2 f32)) ql nc sub cent :
  (forall x, pr = Some x -> a2_nrows x = ql * sub /\ a2_cols x = ql * sub) -> ql * nc * sub <> 0 ->
  pq_new pr ql nc sub cent = Ok (mkPq pr ql nc sub cent).
Proof.
  intros H NZ. unfold pq_new. destruct (N.eqb_spec (ql * nc * sub) 0) as [E|E]; [contradiction|]; cbn [negb rassert rbind].
  destruct pr as [x|]; [|reflexivity]. destruct (H x eq_refl) as [-> ->]. rewrite N.eqb_refl. reflexivity.
Qed.

Lemma floats_app_after s a b s' : after s (floats_layout (a ++ b)) s' <->
  exists s1, after s (floats_layout a) s1 /\ after s1 (floats_layout b) s'.
Proof. unfold floats_layout. rewrite flat_map_app. apply after_app. Qed.

Lemma qa_panics_1 s p : panics read_quantized s p -> storage_panic_at s p.
Proof.
  unfold read_quantized. intros H. pinv H u X0. pinv H l X1. apply chunk_inv in X0. apply skip_inv in X1 as (lb & L & A1).
  apply panics_bind in H as [H|(r & s2 & X2 & H)].
  - unfold read_product_quantizer in H. pinv H fp Y0. pinv H fn Y1. pinv H ql Y2. pinv H rl Y3. pinv H nc Y4. pinv H n Y5.
    apply u32_iff in Y0 as [L0 B0]. apply u32_iff in Y1 as [L1 B1]. apply u32_iff in Y2 as [L2 B2].
    apply u32_iff in Y3 as [L3 B3]. apply u32_iff in Y4 as [L4 B4]. apply u64_iff in Y5 as [L5 B5].
    apply panics_bind in H as [H|(u6 & s6 & Y6 & H)].
    { apply panics_lift in H. unfold check_quantizer_invariants in H. destruct (N.eqb_spec ql 0) as [->|]; [|destruct (rl mod ql =? 0); discriminate].
      inv H. apply (spa_zero _ lb fp fn rl nc n); auto. unfold quantized_sizes. fin_starts. }
    apply lift_inv in Y6 as [Y6 ->]. unfold check_quantizer_invariants in Y6. destruct (N.eqb_spec ql 0) as [|NZ]; [discriminate|].
    destruct (N.eqb_spec (rl mod ql) 0) as [RM|]; [|discriminate].
    assert (rl = ql * (rl / ql)) as ER by (pose proof (N.div_mod rl ql NZ); lia).
    set (sub := rl / ql) in *. clearbody sub. subst rl.
    pinv H u7 Y7. pinv H u8 Y8. apply type_inv in Y7; [|reflexivity]. apply type_inv in Y8; [|reflexivity].
    pinv H pos Y9. pinv H u10 Y10. unfold position in Y9. inv Y9. apply seek_Ok in Y10.
    change (if negb (fp =? 0) then _ else ret None) with (proj_reader fp (ql * sub)) in H.
    match type of Y10 with _ = (_, ?sb) =>
      assert (forall fs s', after sb (floats_layout fs) s' ->
        after_padded s (quantized_sizes lb fp fn ql (ql * sub) nc n ++ le_bytes 4 1 ++ le_bytes 4 10) (floats_layout fs) s') as PAD end.
    { intros fs s' A. apply padded_iff. do 2 eexists. split; [|split; [exact Y10|exact A]].
      unfold quantized_sizes. rewrite <- !app_assoc. fin_after. }
    assert (ql * sub / ql = sub) as EDIV by (rewrite N.mul_comm; apply N.div_mul; auto). 
    apply panics_bind in H as [H|(pr & s11 & Y11 & H)].
    { apply proj_panics in H as (NF & D & ->). eapply (spa_qa _ lb fp fn ql sub nc n PCapacity []); auto.
      apply PAD, after_nil. reflexivity. }
    assert (exists pr0, proj_reader fp (ql * sub) _ = (Ok pr0, s11)) as P by (eexists; exact Y11).
    apply proj_ok in P as (D1 & fs1 & LF1 & A11).
    apply panics_bind in H as [H|(u12 & s12 & Y12 & H)].
    { apply panics_alloc in H as [D ->]. apply (spa_qa _ lb fp fn ql sub nc n PCapacity fs1 s11); auto. right. auto. }
    apply alloc_inv in Y12 as [D2 ->]. pinv H cdata Y13. apply floats_iff in Y13 as [L13 A13].
    apply panics_bind in H as [H|(q0 & s14 & _ & H)]; [|apply panics_ret in H; contradiction].
    apply panics_lift, pq_new_panic in H as [Z ->].
    2: { intros y Ey. eapply proj_shape; eauto. }
    eapply (spa_qa _ lb fp fn ql sub nc n PAssert (fs1 ++ cdata)); auto.
    { apply PAD, floats_app_after. eauto. }
    right. split; [exact D1|]. right. left. rewrite lenN_app, LF1, L13. auto.
  - destruct r as [[n q] has]. apply pq_iff in X2 as (fp & fn & L5 & PQ & [LP FP] & [LN FN] & A2).
    destruct PQ as (PN & PP & PL & PF & PR & PC & PD). destruct q as [pr ql nc sub cent].
    cbn [pq_proj pq_ql pq_nc pq_sub pq_cent] in *. unfold pq_rl in *. cbn [pq_ql pq_sub] in *.
    assert (ql * nc * sub <> 0 /\ forall x, pr = Some x -> a2_nrows x = ql * sub /\ a2_cols x = ql * sub) as [NZ SH].
    { unfold pq_new in PN. apply rbind_Ok_inv in PN as (a & R0 & PN). apply rassert_Ok, negb_true_iff, N.eqb_neq in R0.
      split; [exact R0|]. intros x ->. apply rbind_Ok_inv in PN as (a' & R1 & _). apply rassert_Ok in R1. lia. }
    assert (ql <> 0) as NQ by (intros ->; lia).
    assert (ql <= ql * sub) as LQ.
    { destruct (N.eq_dec sub 0) as [->|]; [lia|]. rewrite <- (N.mul_1_r ql) at 1. apply N.mul_le_mono_l. lia. }
    set (fl := pq_floats (mkPq pr ql nc sub cent)) in A2.
    assert (lenN fl = (if fp =? 0 then 0 else ql * sub * (ql * sub)) + ql * nc * sub) as LFL.
    { unfold fl, pq_floats. cbn [pq_proj pq_cent]. rewrite lenN_app.
      destruct (cent_len (mkPq pr ql nc sub cent) PL PF) as [CL _]. cbn [pq_ql pq_nc pq_sub pq_cent] in CL. rewrite CL.
      destruct (N.eqb_spec fp 0) as [E|E].
      - destruct pr as [x|]; [exfalso; apply (proj2 FP); auto|]. rewrite lenN_nil. lia.
      - destruct pr as [x|]; [|apply FP in E; discriminate].
        destruct (PP x eq_refl) as [W _]. destruct (SH x eq_refl) as [S1 S2]. rewrite nd_data_len by exact W. rewrite S1, S2. lia. }
    assert (fp <> 0 -> dims_ok [ql * sub; ql * sub] 4) as DP.
    { intros E. destruct pr as [x|]; [apply (PP x eq_refl)|]. apply FP in E. discriminate. }
    assert (forall fs s', after s2 (floats_layout fs) s' ->
      after_padded s (quantized_sizes lb fp fn ql (ql * sub) nc n ++ le_bytes 4 1 ++ le_bytes 4 10) (floats_layout (fl ++ fs)) s') as PAD.
    { intros fs s' A. unfold floats_layout. rewrite flat_map_app. apply padded_app. exists s2. split; [|exact A].
      unfold quantized_sizes. rewrite <- !app_assoc. apply padded_head. eexists. split; [exact X0|].
      apply padded_head. eexists. split; [exact A1|]. exact A2. }
    clearbody fl. unfold read_quantized_norms in H.
    apply panics_bind in H as [H|(ns & s3 & X3 & H)].
    { destruct has; [|apply panics_ret in H; contradiction].
      apply panics_bind in H as [H|(u1 & s3 & _ & H)]; [|exfalso; pinv H d X; exact (panics_ret _ _ _ H)].
      apply panics_alloc in H as [D ->]. eapply (spa_qa _ lb fp fn ql sub nc n PCapacity (fl ++ [])); auto; [lia| |].
      { apply PAD, after_nil. reflexivity. }
      rewrite app_nil_r. right. split; [exact DP|]. right. right. left. assert (fn <> 0) by tauto. auto 10. }
    change (read_quantized_norms has n s2 = (Ok ns, s3)) in X3. apply qnorms_iff in X3 as (HS & DN & A3).
    apply panics_bind in H as [H|(u1 & s4 & _ & H)]; [|exfalso; pinv H d X; exact (panics_ret _ _ _ H)].
    apply panics_alloc in H as [D ->].
    apply (spa_qa _ lb fp fn ql sub nc n PCapacity (fl ++ match ns with Some x => x | None => [] end) s3); auto; [lia|].
    right. split; [exact DP|]. right. right. right. split; [exact PD|]. split; [exact NZ|].
    rewrite lenN_app, LFL. destruct ns as [x|]; cbn [is_some] in HS; subst has.
    + destruct (DN x eq_refl) as [LX DX]. split; [auto|]. split; [|auto].
      destruct (N.eqb_spec fn 0); [exfalso; apply (proj2 FN); auto|]. lia.
    + split; [intros E; apply FN in E; discriminate|]. split; [|auto].
      destruct (N.eqb_spec fn 0) as [|E]; [reflexivity|]. apply FN in E. discriminate.
Qed.

Lemma floats_split floats k m s s' : after s (floats_layout floats) s' -> lenN floats = k + m ->
  exists f1 f2 s1, lenN f1 = k /\ lenN f2 = m /\ after s (floats_layout f1) s1 /\ after s1 (floats_layout f2) s'.
Proof.
  intros A L. rewrite <- (takeN_dropN k floats) in A. apply floats_app_after in A as (s1 & A1 & A2).
  exists (takeN k floats), (dropN k floats), s1. rewrite lenN_takeN, lenN_dropN. split; [lia|]. split; [lia|]. auto.
Qed.

Lemma qa_panics_2 s p : storage_panic_at s p -> starts s (le_bytes 4 4) -> panics read_quantized s p.
Proof.
  intros H S. inversion H as [l rows cols L L1 L2 D X|l fp fn rl nc n L L0 L1 L2 L3 L4 X
    |l fp fn ql sub nc n p0 floats s1 L L0 L1 NZ L2 L3 L4 L5 X C]; subst.
  - exfalso. destruct S as (r1 & S), X as (r2 & X). rewrite S in X. discriminate.
  - apply starts_after in X as (s9 & X). unfold quantized_sizes in X. split_after. unfold read_quantized. pstep_chunk. pstep_skip.
    apply panics_here. unfold read_product_quantizer. pstep_int; [auto|]. pstep_int; [auto|]. pstep_int; [reflexivity|].
    pstep_int; [auto|]. pstep_int; [auto|]. pstep_int; [auto|]. apply panics_here, panics_lift. reflexivity.
  - apply padded_iff in X as (s2 & s3 & X & P & A). unfold quantized_sizes in X. split_after.
    unfold read_quantized. pstep_chunk. pstep_skip.
    assert (ql * sub / ql = sub) as EDIV by (rewrite N.mul_comm; apply N.div_mul; auto).
    assert ((ql * sub) mod ql = 0) as EMOD by (rewrite N.mul_comm; apply N.mod_mul; auto).
    (* the part up to the floats *)
    match goal with |- panics (bind read_product_quantizer ?k) ?s _ =>
      assert (forall r, read_product_quantizer s = r <->
        (projection <- proj_reader fp (ql * sub) ;;
         alloc_zeros [ql; nc; sub] 4 ;;;
         data <- read_f32s (ql * nc * sub) ;;
         q <- lift (pq_new projection ql nc sub
                      (map (unflattenN nc sub) (unflattenN ql (nc * sub) data))) ;;
         ret (n, q, negb (fn =? 0))) s3 = r) as ST end.
    { intros r. unfold read_product_quantizer.
      repeat match goal with
      | H : after ?s (le_bytes 4 ?n) ?s1 |- bind read_u32 _ ?s = _ <-> _ =>
          rewrite (bind_red _ _ s n s1) by (apply u32_iff; auto)
      | H : after ?s (le_bytes 8 ?n) ?s1 |- bind read_u64 _ ?s = _ <-> _ =>
          rewrite (bind_red _ _ s n s1) by (apply u64_iff; auto)
      end.
      match goal with |- bind _ _ ?s = _ <-> _ => rewrite (bind_red _ _ s tt s) end.
      2: { unfold lift, check_quantizer_invariants. destruct (N.eqb_spec ql 0); [contradiction|]. rewrite EMOD. reflexivity. }
      repeat match goal with
      | H : after ?s (le_bytes 4 ?t) ?s1 |- bind (ensure_data_type _) _ ?s = _ <-> _ =>
          let E := fresh in
          destruct (proj2 (data_type_iff t s s1 eq_refl) H) as ([] & E);
          rewrite (bind_red _ _ s tt s1) by exact E; clear H E
      end.
      rewrite (bind_red _ _ s2 (s_pos s2) s2) by reflexivity. rewrite (bind_red _ _ _ _ _ P). rewrite EDIV. reflexivity. }
    destruct C as [(NF & -> & D & ->)|(DP & C)].
    { apply panics_here. assert (panics (proj_reader fp (ql * sub)) s3 PCapacity) as (s' & E) by (apply proj_panics; auto).
      eexists. apply ST. unfold bind at 1. rewrite E. reflexivity. }
    cbv zeta in C. set (pn := if fp =? 0 then 0 else ql * sub * (ql * sub)) in *.
    assert (forall fs s', lenN fs = pn -> after s3 (floats_layout fs) s' -> exists pr, proj_reader fp (ql * sub) s3 = (Ok pr, s') /\
       forall x, pr = Some x -> a2_nrows x = ql * sub /\ a2_cols x = ql * sub) as PR.
    { intros fs s' LF AF. destruct (proj2 (proj_ok fp (ql * sub) s3 s')) as (pr & E); [split; [exact DP|eauto]|].
      exists pr. split; [exact E|]. intros y Ey. eapply proj_shape; eauto. }
    destruct C as [(LF & D & ->)|[(D & LF & Z & ->)|[(D & LF & NZ' & NF & D2 & ->)|(D & NZ' & D2 & LF & D3 & ->)]]].
    + destruct (PR _ _ LF A) as (pr & E & _). apply panics_here.
      assert (panics (alloc_zeros [ql; nc; sub] 4) s1 PCapacity) as (s' & E1) by (apply panics_alloc; auto).
      eexists. apply ST. eapply bind_ok; [exact E|]. unfold bind at 1. rewrite E1. reflexivity.
    + apply (floats_split _ pn (ql * nc * sub)) in A as (f1 & f2 & s4 & LF1 & LF2 & A1 & A2); [|lia].
      destruct (PR _ _ LF1 A1) as (pr & E & SH). apply panics_here. eexists. apply ST. eapply bind_ok; [exact E|].
      eapply bind_ok; [apply alloc_zeros_ok, D|]. eapply bind_ok; [apply floats_iff; eauto|].
      unfold bind at 1. unfold lift. erewrite (proj2 (pq_new_panic pr ql nc sub _ PAssert SH)); [reflexivity|auto].
    + apply (floats_split _ pn (ql * nc * sub)) in A as (f1 & f2 & s4 & LF1 & LF2 & A1 & A2); [|lia].
      destruct (PR _ _ LF1 A1) as (pr & E & SH). eapply panics_step.
      { apply ST. eapply bind_ok; [exact E|]. eapply bind_ok; [apply alloc_zeros_ok, D|]. eapply bind_ok; [apply floats_iff; eauto|].
        unfold bind at 1. unfold lift. rewrite pq_new_ok by auto. reflexivity. }
      destruct (N.eqb_spec fn 0); [contradiction|]. cbn [negb]. apply panics_here. unfold read_quantized_norms.
      apply panics_here, panics_alloc. auto.
    + apply (floats_split _ pn (ql * nc * sub + if fn =? 0 then 0 else n)) in A as (f1 & f2 & s4 & LF1 & LF2 & A1 & A2); [|lia].
      eapply floats_split in A2 as (f3 & f4 & s5 & LF3 & LF4 & A3 & A4); [|exact LF2].
      destruct (PR _ _ LF1 A1) as (pr & E & SH). eapply panics_step.
      { apply ST. eapply bind_ok; [exact E|]. eapply bind_ok; [apply alloc_zeros_ok, D|]. eapply bind_ok; [apply floats_iff; eauto|].
        unfold bind at 1. unfold lift. rewrite pq_new_ok by auto. reflexivity. }
      cbv beta iota. eapply panics_step.
      { apply (proj2 (qnorms_iff _ n s5 (if fn =? 0 then None else Some f4) s1)).
        destruct (N.eqb_spec fn 0) as [E0|E0]; cbn [negb is_some].
        - split; [reflexivity|]. split; [discriminate|]. apply lenN_0 in LF4 as ->. exact A4.
        - split; [reflexivity|]. split; [|exact A4]. intros y Ey. inv Ey. auto. }
      cbn [pq_ql]. apply panics_here, panics_alloc. auto.
Qed.

Lemma storage_panics_iff s p : panics read_storage_wrap s p <-> storage_panic_at s p.
Proof.
  split.
  - unfold read_storage_wrap. intros H. apply panics_inv in H as (id & s1 & X & H).
    2: { apply po_peek. unfold peek_chunk_id. po. }
    apply peek_inv in X as [<- _].
    destruct id; try (destruct H as (? & H); discriminate);
    (apply panics_bind in H as [H|(a & s1 & _ & H)]; [|apply panics_ret in H; contradiction]).
    + apply nd_panics in H. tauto. + apply qa_panics_1, H.
  - intros H. unfold read_storage_wrap.
    assert (starts s (le_bytes 4 (chunk_num CNdArray)) \/ starts s (le_bytes 4 (chunk_num CQuantizedArray))) as [S|S].
    { inv H.
      - left. eapply starts_app; eassumption.
      - right. unfold quantized_sizes in *. eapply starts_app; eassumption.
      - right. match goal with A : after_padded _ _ _ _ |- _ => apply padded_iff in A as (s2 & s3 & A' & _) end.
        unfold quantized_sizes in A'. rewrite <- app_assoc in A'. eapply starts_app. apply starts_after. eauto. }
    + pose proof S as S'. apply starts_after in S' as (s1 & S1).
      eapply panics_step; [apply peek_chunk_iff; split; [reflexivity|]; split; [|exists s1; exact S1]; discriminate|].
      cbv iota. apply panics_here, nd_panics. auto.
    + pose proof S as S'. apply starts_after in S' as (s1 & S1).
      eapply panics_step; [apply peek_chunk_iff; split; [reflexivity|]; split; [|exists s1; exact S1]; discriminate|].
      cbv iota. apply panics_here, qa_panics_2; auto.
Qed.

(** ** Files *)
Lemma metadata_panics T s p : panics (read_metadata_chunk T) s p <->
  p = PCapacity /\ exists n, n < two64 /\ isize_max < n /\ starts s (le_bytes 4 5 ++ le_bytes 8 n).
Proof.
  unfold read_metadata_chunk. split.
  - intros H. pinv H u X0. pinv H n X1. apply chunk_inv in X0. apply u64_iff in X1 as [L1 A1].
    apply panics_bind in H as [H|(u2 & s2 & _ & H)].
    + apply panics_reserve in H as [LT ->]. split; [reflexivity|]. exists n. split; [auto|]. split; [lia|]. fin_starts.
    + exfalso. pinv H bs X3. destruct H as (s' & H). destruct (utf8_valid bs); [|discriminate]. destruct (toml_parse T bs); discriminate.
  - intros (-> & n & L & LT & S). apply starts_after in S as (s9 & S). split_after. pstep_chunk. pstep_int; [auto|].
    apply panics_here, panics_reserve. split; [lia|auto].
Qed.
Lemma norms_panics s p : panics (ok_opt read_norms) s p <-> p = PCapacity /\ norms_too_long s.
Proof.
  rewrite <- norms_panic_iff. unfold panics, ok_opt. split.
  - intros (s' & H). destruct (read_norms s) as [[]] eqn:E; inv H.
    split; [|eauto]. assert (In p [PCapacity]) as [<-|[]]; [|reflexivity]. eapply (po_norms [PCapacity]); [left; auto|exact E].
  - intros (-> & q & s' & H). rewrite H. assert (In q [PCapacity]) as [<-|[]].
    + eapply (po_norms [PCapacity]); [left; auto|exact H]. + eauto.
Qed.

Lemma file_panics_iff pf T s p : (exists s', read_file pf T s = (Panic p, s')) <-> file_panic_at pf T s p.
Proof.
  change (panics (read_file pf T) s p <-> file_panic_at pf T s p). unfold read_file, read_embeddings. split.
  - intros H. apply panics_inv in H as (ids & s1 & X & H); [|apply read_header_no_panic]. apply header_iff in X.
    destruct ids as [|id ids]; [destruct H as (? & H); discriminate|].
    apply panics_bind in H as [H|(md & s2 & XM & H)].
    { destruct (chunk_eqb id CMetadata) eqn:EC; [|apply panics_ret in H; contradiction]. apply chunk_eqb_eq in EC.
      apply panics_bind in H as [H|(t & s3 & _ & H)]; [|apply panics_ret in H; contradiction].
      apply metadata_panics in H as (-> & n & L & LT & S). eapply fpa_metadata; eauto. }
    assert (id = CMetadata /\ (exists t, metadata_at T s1 t s2) \/ id <> CMetadata /\ s2 = s1) as M.
    { destruct (chunk_eqb id CMetadata) eqn:EC.
      - apply chunk_eqb_eq in EC. left. split; [auto|]. minv XM as t XT. apply ret_inv in XM as [_ <-]. apply metadata_iff in XT. eauto.
      - right. apply ret_inv in XM as [_ <-]. split; [|auto]. intros ->. discriminate. }
    apply panics_bind in H as [H|(v & s3 & XV & H)].
    { apply vocab_panics_iff in H. eapply fpa_vocab; eauto. }
    apply vocab_iff in XV. apply panics_bind in H as [H|(a & s4 & XS & H)].
    { apply storage_panics_iff in H. eapply fpa_storage; eauto. }
    apply storage_iff in XS. apply panics_bind in H as [H|(ns & s5 & _ & H)]; [|apply panics_ret in H; contradiction].
    apply norms_panics in H as [-> H]. eapply fpa_norms; eauto.
  - assert (forall id s1 s2, (id = CMetadata /\ (exists t, metadata_at T s1 t s2) \/ id <> CMetadata /\ s2 = s1) ->
      exists md, (if chunk_eqb id CMetadata then t <- read_metadata_chunk T ;; ret (Some t) else ret None) s1 = (Ok md, s2)) as MD.
    { intros id s1 s2 [(-> & t & M)|(N & ->)].
      - apply metadata_iff in M. eexists. eapply bind_ok; [exact M|reflexivity].
      - exists None. destruct (chunk_eqb id CMetadata) eqn:EC; [|reflexivity]. apply chunk_eqb_eq in EC. contradiction. }
    intros H. destruct H as [id ids s1 n HH -> L LT S|id ids s1 s2 p HH M V|id ids s1 s2 v s3 p HH M V S
      |id ids s1 s2 v s3 a s4 HH M V S N]; apply header_iff in HH; (eapply panics_step; [exact HH|]); cbv iota.
    + apply panics_here. cbn [chunk_eqb]. apply panics_here, metadata_panics. split; [reflexivity|]. eauto.
    + destruct (MD _ _ _ M) as (md & E). eapply panics_step; [exact E|]. apply panics_here, vocab_panics_iff, V.
    + destruct (MD _ _ _ M) as (md & E). eapply panics_step; [exact E|]. apply vocab_iff in V. eapply panics_step; [exact V|].
      apply panics_here, storage_panics_iff, S.
    + destruct (MD _ _ _ M) as (md & E). eapply panics_step; [exact E|]. apply vocab_iff in V. eapply panics_step; [exact V|].
      apply storage_iff in S. eapply panics_step; [exact S|]. apply panics_here, norms_panics. auto.
Qed.
Lemma vocab_panic_iff pf s p : (exists s', read_vocab_wrap pf s = (Panic p, s')) <-> vocab_panic_at pf s p.
Proof. apply vocab_panics_iff. Qed.
Lemma storage_panic_iff s p : (exists s', read_storage_wrap s = (Panic p, s')) <-> storage_panic_at s p.
Proof. apply storage_panics_iff. Qed.
