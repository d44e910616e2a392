(** * Lookups, queries and the other formats with pointers of other widths. *)
From Coq Require Import Permutation ListDec.
From Verif Require FileFacts FastTextFacts.
From Verif Require Import Base BaseFacts Utf8 Stream StreamFacts F32 ChunkIO ChunkFacts Subword Vocab VocabSpec VocabFacts IndexerFacts LookupFacts
  Storage StorageFacts Embeddings Similarity EmbSpec ExplicitFacts ReadFacts TextIO TextSpec TextFacts FastText FastTextThms
  Width WidthThms MemoryThms WrapThms WidthUse.
Local Open Scope N_scope.

(** ** Vocabularies *)

(** Indices are below the bound of the indexer. *)
Definition ix_safe {I} (ops : indexer_ops I) (ix : I) (b : N) : Prop :=
  forall g l, ix_index ops ix g = Ok l -> Forall (fun i => i < b) l.
Definition fit_vocab (w : machine) {I} (ops : indexer_ops I) (pf : profile) (v : subword_vocab I) : Prop :=
  exists b, ix_bound ops pf (sv_ix v) = Ok b /\ sub_words_len v + b < w_size w /\ ix_safe ops (sv_ix v) b.

Lemma ix_made_safe I (ops : indexer_ops I) ix pf b : ix_made I ops ix -> ix_bound ops pf ix = Ok b -> ix_safe ops ix b.
Proof.
  intros M B. apply ix_made_total in M as (b' & T & S). rewrite T in B. inv B. intros g l E. destruct (S g) as (l' & E' & F). congruence.
Qed.
Lemma ft_safe n ix b : ft_indexer_new n = Ok ix -> ix_bound ft_ops Debug ix = Ok b -> ix_safe ft_ops ix b.
Proof.
  intros H B. destruct (N.eq_dec n 0) as [->|NE]; [|eapply ix_made_safe; [econstructor; eassumption|exact B]].
  intros g l E. unfold ft_indexer_new in H. apply rbind_Ok_inv in H as (u & _ & H). inv H. discriminate.
Qed.

Lemma drain_safe {I} (ops : indexer_ops I) (b : N) fuel : forall it l, ix_safe ops (ni_ix it) b -> ngi_drain ops fuel it = Ok l ->
  Forall (fun p => Forall (fun i => i < b) (snd p)) l.
Proof.
  induction fuel as [|fuel IH]; intros it l S H; [discriminate|]. cbn [ngi_drain] in H. apply rbind_Ok_inv in H as ([x it'] & X & H).
  unfold ngi_next in X. destruct (ni_string it) as [t|].
  - apply rbind_Ok_inv in X as (idx & X & E). inv E. apply rbind_Ok_inv in H as (l' & Y & H). inv H. constructor; [exact (S _ _ X)|]. eapply IH; [|exact Y]. exact S.
  - apply rbind_Ok_inv in X as ([[g|] g'] & X & E).
    + apply rbind_Ok_inv in E as (idx & Z & E). inv E. apply rbind_Ok_inv in H as (l' & Y & H). inv H. constructor; [exact (S _ _ Z)|]. eapply IH; [|exact Y]. exact S.
    + inv E. inv H. constructor.
Qed.
Lemma ngrams_safe {I} (ops : indexer_ops I) (b : N) s mn mx ix l : ix_safe ops ix b -> subword_indices_with_ngrams ops s mn mx ix = Ok l ->
  Forall (fun p => Forall (fun i => i < b) (snd p)) l.
Proof.
  intros S H. unfold subword_indices_with_ngrams in H. apply rbind_Ok_inv in H as (it & X & H). eapply drain_safe; [|exact H].
  unfold ngi_new in X. apply rbind_Ok_inv in X as (g & _ & X). inv X. exact S.
Qed.

Section Vocabularies.
  Context (w : machine) (W : w_size w <= two64).
  Lemma w_add_same pf a b : a + b < w_size w -> w_add w pf a b = add64 pf a b.
  Proof. intros L. unfold w_add, add64. assert (a + b < two64) as L' by lia. apply N.ltb_lt in L, L'. rewrite L. cbv zeta. rewrite L'. reflexivity. Qed.
  Lemma w_row_same pf i n b : i < b -> n + b < w_size w -> w_row w pf i n = add64 pf i n.
  Proof. intros L K. unfold w_row. rewrite N.mod_small by lia. apply w_add_same. lia. Qed.

  Context {I : Type} (ops : indexer_ops I) (pf : profile) (v : subword_vocab I) (FV : fit_vocab w ops pf v).
  Lemma w_vocab_len_same : w_sub_vocab_len w ops pf v = sub_vocab_len ops pf v.
  Proof.
    destruct FV as (b & B & L & _). unfold w_sub_vocab_len, sub_vocab_len. rewrite B. cbn [rbind]. rewrite N.mod_small by lia. apply w_add_same. exact L.
  Qed.
  Lemma w_subword_indices_same s : w_sub_subword_indices w ops pf v s = sub_subword_indices ops pf v s.
  Proof.
    destruct FV as (b & B & L & S). unfold w_sub_subword_indices, sub_subword_indices, str_subword_indices.
    destruct (subword_indices_with_ngrams ops _ _ _ _) as [l| |] eqn:E; [|reflexivity|reflexivity]. cbn [rbind]. apply (ngrams_safe _ b) in E; [|exact S].
    rewrite (rmap_ext (fun i => w_row w pf i (sub_words_len v)) (fun i => add64 pf i (sub_words_len v))); [reflexivity|].
    intros i Hi. apply in_flat_map in Hi as (p & Hp & Hi). rewrite Forall_forall in E. specialize (E p Hp). rewrite Forall_forall in E. eapply w_row_same; [apply E, Hi|exact L].
  Qed.
  Lemma w_ngram_indices_same s : w_sub_ngram_indices w ops pf v s = sub_ngram_indices ops pf v s.
  Proof.
    destruct FV as (b & B & L & S). unfold w_sub_ngram_indices, sub_ngram_indices.
    destruct (subword_indices_with_ngrams ops _ _ _ _) as [l| |] eqn:E; [|reflexivity|reflexivity]. cbn [rbind]. apply (ngrams_safe _ b) in E; [|exact S].
    match goal with |- rbind (rmap ?f l) _ = rbind (rmap ?g l) _ => rewrite (rmap_ext f g); [reflexivity|] end.
    intros [g is] Hp. rewrite Forall_forall in E. specialize (E _ Hp). cbn [snd] in E. rewrite Forall_forall in E.
    rewrite (rmap_ext (fun i => w_row w pf i (sub_words_len v)) (fun i => add64 pf i (sub_words_len v))); [reflexivity|].
    intros i Hi. eapply w_row_same; [apply E, Hi|exact L].
  Qed.
  Lemma w_idx_same s : w_sub_idx w ops pf v s = sub_idx ops pf v s.
  Proof. unfold w_sub_idx, sub_idx. rewrite w_subword_indices_same. reflexivity. Qed.
End Vocabularies.

(** A vocabulary that a machine builds is that of 64-bit machines, and fits. *)
Lemma w_sub_new_inv w {I} (ops : indexer_ops I) pf words mn mx ix bow eow v : w_size w <= two64 -> w_sub_new w ops pf words mn mx ix bow eow = Ok v ->
  sub_new_with_boundaries ops pf words mn mx ix bow eow = Ok v /\ exists b, ix_bound ops pf (sv_ix v) = Ok b /\ sub_words_len v + b < w_size w.
Proof.
  intros W H. unfold w_sub_new, sub_new_with_boundaries in *. apply rbind_Ok_inv in H as (u1 & A1 & H). apply rbind_Ok_inv in H as (b & A2 & H).
  apply rbind_Ok_inv in H as (u2 & A3 & H). apply rbind_Ok_inv in H as (u3 & A4 & H). inv H. rewrite A1, A2. cbn [rbind]. apply rassert_Ok in A1, A3, A4.
  apply N.ltb_lt in A4. assert (lenN words + b < two64) as L by lia. apply N.ltb_lt in L. rewrite L. split; [reflexivity|].
  exists b. unfold sub_words_len. cbn [sv_ix sv_indices]. split; [exact A2|]. apply N.eqb_eq in A1. lia.
Qed.
Lemma built_fits w {I} (ops : indexer_ops I) pf words mn mx ix bow eow v : ix_made I ops ix ->
  sub_new_with_boundaries ops pf words mn mx ix bow eow = Ok v -> (forall n, sub_vocab_len ops pf v = Ok n -> n < w_size w) -> fit_vocab w ops pf v.
Proof.
  intros M H F. pose proof (sub_vocab_len_exact ops pf words mn mx ix bow eow v H) as (b & B & VL). specialize (F _ VL).
  apply sub_new_Ok in H as (ND & -> & _). exists b. cbn [sv_ix]. split; [exact B|]. split; [|eapply ix_made_safe; eassumption].
  unfold sub_words_len. cbn [sv_indices]. replace (hm_len (create_indices words)) with (lenN words) by (apply ci_len_NoDup; exact ND). exact F.
Qed.
(** What a machine itself builds fits. *)
Lemma width_built w {I} (ops : indexer_ops I) pf words mn mx ix bow eow v : w_size w <= two64 -> ix_made I ops ix ->
  w_sub_new w ops pf words mn mx ix bow eow = Ok v ->
  sub_new_with_boundaries ops pf words mn mx ix bow eow = Ok v /\ w_sub_vocab_len w ops pf v = sub_vocab_len ops pf v /\
  forall s, w_sub_idx w ops pf v s = sub_idx ops pf v s /\ w_sub_subword_indices w ops pf v s = sub_subword_indices ops pf v s /\
    w_sub_ngram_indices w ops pf v s = sub_ngram_indices ops pf v s.
Proof.
  intros W M H. apply w_sub_new_inv in H as (H & b & B & L); [|exact W]. split; [exact H|].
  assert (fit_vocab w ops pf v) as FV.
  { exists b. split; [exact B|]. split; [exact L|]. apply sub_new_Ok in H as (_ & -> & _). eapply ix_made_safe; [exact M|exact B]. }
  split; [apply w_vocab_len_same; assumption|]. intros s. split; [apply w_idx_same; assumption|]. split; [apply w_subword_indices_same; assumption|apply w_ngram_indices_same; assumption].
Qed.

(** Lookups in any vocabulary that fits. *)
Lemma width_lookup w pf v s : w_size w <= two64 -> vocab_made pf v -> vocab_fits w pf v -> v_idx (w_wrap_ops w) pf v s = v_idx wrap_ops pf v s.
Proof.
  intros W M F. destruct M; cbn [v_idx w_wrap_ops wrap_ops w_sub_ops sub_ops]; [reflexivity|..]; apply w_idx_same; try exact W; eapply built_fits; try eassumption; exact F.
Qed.
Lemma width_vocab_len w pf v : w_size w <= two64 -> vocab_made pf v -> vocab_fits w pf v -> v_vocab_len (w_wrap_ops w) pf v = v_vocab_len wrap_ops pf v.
Proof.
  intros W M F. destruct M; cbn [v_vocab_len w_wrap_ops wrap_ops w_sub_ops sub_ops]; [reflexivity|..]; apply w_vocab_len_same; try exact W; eapply built_fits; try eassumption; exact F.
Qed.

(** ** Embeddings *)
Section Embeddings.
  Context (w : machine) (W : w_size w <= two64) {Md S F : Type} (o : fops F) (SO : storage_ops F S) (pf : profile) (e : embeddings Md vocab_wrap S F).
  Context (M : vocab_made pf (em_vocab e)) (FV : vocab_fits w pf (em_vocab e)).
  Lemma width_embedding s : emb_embedding o (w_wrap_ops w) SO pf e s = emb_embedding o wrap_ops SO pf e s.
  Proof. unfold emb_embedding. rewrite (width_lookup w pf _ s W M FV). reflexivity. Qed.
  Lemma width_embedding_into s t : emb_embedding_into o (w_wrap_ops w) SO pf e s t = emb_embedding_into o wrap_ops SO pf e s t.
  Proof. unfold emb_embedding_into. rewrite (width_lookup w pf _ s W M FV). reflexivity. Qed.
  Lemma width_with_norm s : emb_with_norm o (w_wrap_ops w) SO pf e s = emb_with_norm o wrap_ops SO pf e s.
  Proof. unfold emb_with_norm. rewrite (width_lookup w pf _ s W M FV). reflexivity. Qed.
  Lemma width_batch_into order words out : emb_batch_into o (w_wrap_ops w) SO pf order e words out = emb_batch_into o wrap_ops SO pf order e words out.
  Proof.
    unfold emb_batch_into. do 2 (destruct (rassert _ _); [cbn [rbind]|reflexivity|reflexivity]). apply rfold_ext. intros st [s is].
    unfold batch_step. destruct st as [rows found]. destruct (index is 0) as [i| |]; [|reflexivity|reflexivity]. cbn [rbind].
    destruct (index rows i) as [t| |]; [|reflexivity|reflexivity]. cbn [rbind]. rewrite width_embedding_into. reflexivity.
  Qed.
  (** A batch is the same, or its matrix is too large for the machine. *)
  Lemma width_batch order words : w_max w <= isize_max -> mw_limit w <= isize_max ->
    w_batch w o (w_wrap_ops w) SO pf order e words =
      if (nonzero (lenN words) * nonzero (emb_dims SO e) <=? w_max w) && (lenN words * emb_dims SO e * 4 <=? mw_limit w)
      then emb_batch o wrap_ops SO pf order e words else Panic PCapacity.
  Proof.
    intros L1 L2. unfold w_batch, emb_batch, zeros_fit. destruct (N.leb_spec (nonzero (lenN words) * nonzero (emb_dims SO e)) (w_max w)) as [K1|K1]; [|reflexivity].
    destruct (N.leb_spec (lenN words * emb_dims SO e * 4) (mw_limit w)) as [K2|K2]; [|reflexivity]. cbn [andb].
    assert (nonzero (lenN words) * nonzero (emb_dims SO e) <= isize_max) as K3 by lia. assert (lenN words * emb_dims SO e * 4 <= isize_max) as K4 by lia.
    apply N.leb_le in K3, K4. rewrite K3, K4. cbn [andb rassert rbind]. apply width_batch_into.
  Qed.

  (** Queries are the same, or the heap is too large for the machine. *)
  Context (view : S -> res (array2 F)).
  Lemma width_similarity q skip limit bs : limit * mw_string w <= mw_limit w -> limit * 24 <= isize_max ->
    w_similarity w o (w_wrap_ops w) view e q skip limit bs = similarity_ o wrap_ops view e q skip limit bs.
  Proof. intros L K. unfold w_similarity, similarity_. apply N.leb_le in L, K. rewrite L, K. reflexivity. Qed.
  Lemma lookup3_same q : lookup_words3 o (w_wrap_ops w) SO pf e q = lookup_words3 o wrap_ops SO pf e q.
  Proof. destruct q as [[w1 w2] w3]. unfold lookup_words3. rewrite !width_embedding. reflexivity. Qed.
  Lemma width_queries limit bs : limit * mw_string w <= mw_limit w -> limit * 24 <= isize_max ->
    (forall s, w_word_similarity w o (w_wrap_ops w) SO view pf e s limit bs = word_similarity o wrap_ops SO view pf e s limit bs) /\
    (forall q skip, w_embedding_similarity_masked w o (w_wrap_ops w) view e q limit skip bs = embedding_similarity_masked o wrap_ops view e q limit skip bs) /\
    (forall q r, w_analogy_masked w o (w_wrap_ops w) SO view pf e q r limit bs = analogy_masked o wrap_ops SO view pf e q r limit bs).
  Proof.
    intros L K. split; [|split].
    - intros s. unfold w_word_similarity, word_similarity. rewrite width_embedding. destruct (emb_embedding _ _ _ _ _ _) as [[x|]| |]; try reflexivity. cbn [rbind]. rewrite width_similarity by assumption. reflexivity.
    - intros q skip. unfold w_embedding_similarity_masked, embedding_similarity_masked. rewrite width_similarity by assumption. reflexivity.
    - intros q r. unfold w_analogy_masked, analogy_masked. rewrite lookup3_same. destruct (lookup_words3 _ _ _ _ _ _) as [[[[v1 v2] v3]|]| |]; try reflexivity. cbn [rbind].
      destruct q as [[w1 w2] w3], r as [[r1 r2] r3]. rewrite width_similarity by assumption. reflexivity.
  Qed.
  Lemma width_queries_large limit bs : mw_limit w < limit * mw_string w ->
    (forall s, w_word_similarity w o (w_wrap_ops w) SO view pf e s limit bs =
       match emb_embedding o wrap_ops SO pf e s with Ok None => Ok None | Ok (Some _) => Panic PCapacity | Err er => Err er | Panic p => Panic p end) /\
    (forall q skip, w_embedding_similarity_masked w o (w_wrap_ops w) view e q limit skip bs = Panic PCapacity) /\
    (forall q r, w_analogy_masked w o (w_wrap_ops w) SO view pf e q r limit bs =
       match lookup_words3 o wrap_ops SO pf e q with Ok (inr p) => Ok (inr p) | Ok (inl _) => Panic PCapacity | Err er => Err er | Panic p => Panic p end).
  Proof.
    intros L. assert (forall q skip, w_similarity w o (w_wrap_ops w) view e q skip limit bs = Panic PCapacity) as X.
    { intros q skip. unfold w_similarity. apply N.leb_gt in L. rewrite L. reflexivity. }
    split; [|split].
    - intros s. unfold w_word_similarity. rewrite width_embedding. destruct (emb_embedding _ _ _ _ _ _) as [[x|]| |]; try reflexivity. cbn [rbind]. rewrite X. reflexivity.
    - intros q skip. unfold w_embedding_similarity_masked. rewrite X. reflexivity.
    - intros q r. unfold w_analogy_masked. rewrite lookup3_same. destruct (lookup_words3 _ _ _ _ _ _) as [[[[v1 v2] v3]|]| |]; try reflexivity. cbn [rbind].
      destruct q as [[w1 w2] w3], r as [[r1 r2] r3]. rewrite X. reflexivity.
  Qed.
End Embeddings.

(** *** Conversion to explicit n-grams *)
Lemma te_ngram_below (b : N) l : forall m m', Forall (fun p => Forall (fun i => i < b) (snd p)) l -> Forall (fun p : str * N => snd p < b) m ->
  rfold te_ngram l m = Ok m' -> Forall (fun p => snd p < b) m'.
Proof.
  induction l as [|[g is] l IH]; intros m m' FL FM H; [inv H; exact FM|]. cbn [rfold] in H. apply rbind_Ok_inv in H as (m1 & X & H). inv FL.
  eapply IH; [eassumption| |exact H]. unfold te_ngram in X. destruct is as [|i [|j is]]; [inv X; exact FM| |discriminate].
  destruct (hm_get m g); inv X; [exact FM|]. unfold hm_insert. constructor; [cbn [snd]; inv H2; assumption|].
  rewrite Forall_forall in *. intros p Hp. apply FM. clear - Hp. induction m as [|[k x] m IHm]; [exact Hp|]. cbn [hm_remove] in Hp.
  destruct (str_eqb g k); [right; auto|]. destruct Hp as [Hp|Hp]; [left; exact Hp|right; auto].
Qed.
Lemma te_words_below {I} (B : bucket_ops I) (v : subword_vocab I) (b : N) ws : ix_safe (bk_ops B) (sv_ix v) b -> forall m m',
  Forall (fun p : str * N => snd p < b) m -> rfold (te_word B v) ws m = Ok m' -> Forall (fun p => snd p < b) m'.
Proof.
  intros S. induction ws as [|x ws IH]; intros m m' FM H; [inv H; exact FM|]. cbn [rfold] in H. apply rbind_Ok_inv in H as (m1 & X & H). eapply IH; [|exact H].
  unfold te_word in X. apply rbind_Ok_inv in X as (l & Y & X). eapply te_ngram_below; [eapply ngrams_safe; eassumption|exact FM|exact X].
Qed.

Section ToExplicit.
  Context (w : machine) (W : w_size w <= two64) {Md I S S' F : Type} (B : bucket_ops I) (SO' : storage_ops F S') (pf : profile) (clone : S -> list N -> res S').
  Context (order : hmap N -> list (str * N)) (order' : nmap N -> list (N * N)) (O : any_order order) (O' : any_order order').
  Context (v : subword_vocab I) (FV : fit_vocab w (bk_ops B) pf v) (WL : sub_words_len v = lenN (sv_words v)).

  Lemma explicit_new_same ix : ei_bound ix + lenN (sv_words v) < w_size w ->
    w_sub_new w explicit_ops pf (sv_words v) (sv_min v) (sv_max v) ix default_bow default_eow = sub_new explicit_ops pf (sv_words v) (sv_min v) (sv_max v) ix.
  Proof.
    intros L. unfold w_sub_new, sub_new, sub_new_with_boundaries. destruct (rassert (_ =? _) _); [|reflexivity|reflexivity]. cbn [rbind ix_bound explicit_ops]. unfold explicit_bound.
    assert (ei_bound ix < w_size w) as L1 by lia. assert (lenN (sv_words v) + ei_bound ix < w_size w) as L2 by lia. assert (lenN (sv_words v) + ei_bound ix < two64) as L3 by lia.
    apply N.ltb_lt in L1, L2, L3. cbn [rbind]. rewrite L1, L2, L3. reflexivity.
  Qed.
  (** The new indices and the rows they refer to. *)
  Lemma explicit_small m ix o2n : rfold (te_word B v) (sv_words v) [] = Ok m -> explicit_new_with_indices (order m) = Ok (ix, o2n) ->
    ei_bound ix + lenN (sv_words v) < w_size w /\
    forall old new, In (old, new) (order' o2n) -> new < ei_bound ix /\ old + lenN (sv_words v) < w_size w.
  Proof.
    intros R E. destruct FV as (b & Bb & L & Sf). rewrite WL in L. pose proof (te_words_below B v b (sv_words v) Sf _ _ (Forall_nil _) R) as FM.
    destruct (nwi_o2n _ _ _ E) as (ND1 & ND2 & Lb).
    assert (Forall (fun i => i < b) (map snd (order m))) as FB.
    { apply Forall_forall. intros i Hi. apply in_map_iff in Hi as (p & <- & Hi). rewrite Forall_forall in FM. apply FM. eapply Permutation_in; [apply Permutation_sym, O|exact Hi]. }
    destruct (ListDec.NoDup_dec str_eq_dec (map fst (order m))) as [NDo|Dup].
    - destruct (proj2 (explicit_numbering (order m)) NDo) as (ix' & o2n' & E' & _ & Eb & Eo & _). rewrite E in E'. inv E'.
      pose proof (first_seen_bound _ _ FB) as Lfs. split; [lia|]. intros old new HI.
      assert (nm_get o2n' old = Some new) as G by (apply nm_get_NoDup; [exact ND1|]; eapply Permutation_in; [apply Permutation_sym, O'|exact HI]).
      apply Eo in G. split; [apply nthN_Some_lt in G; lia|]. apply nthN_In, (proj1 (first_seen_In _ _)) in G. rewrite Forall_forall in FB. specialize (FB _ G). lia.
    - apply (proj1 (explicit_numbering (order m))) in Dup. congruence.
  Qed.
  Lemma width_explicit (s : S) (norms : option (list F)) :
    w_to_explicit (Md := Md) w B SO' pf clone order order' v s norms = to_explicit_impl B SO' pf clone order order' v s norms.
  Proof.
    unfold w_to_explicit, to_explicit_impl, w_sub_to_explicit, sub_to_explicit. destruct (rfold _ _ _) as [m| |] eqn:R; [|reflexivity|reflexivity]. cbn [rbind].
    destruct (explicit_new_with_indices (order m)) as [[ix o2n]| |] eqn:E; [|reflexivity|reflexivity]. cbn [rbind].
    destruct (explicit_small m ix o2n R E) as [L P]. rewrite explicit_new_same by exact L.
    destruct (sub_new explicit_ops pf _ _ _ ix) as [ev| |] eqn:N; [|reflexivity|reflexivity]. cbn [rbind]. unfold sub_new in N. apply sub_new_Ok in N as (ND & -> & _).
    assert (sub_words_len (mkSub default_bow default_eow ix (create_indices (sv_words v)) (sv_words v) (sv_min v) (sv_max v)) = lenN (sv_words v)) as WE.
    { unfold sub_words_len. cbn [sv_indices]. symmetry. apply ci_len_NoDup. exact ND. }
    assert (forall ev, sv_ix ev = ix -> sub_words_len ev = lenN (sv_words v) -> w_sub_vocab_len w explicit_ops pf ev = sub_vocab_len explicit_ops pf ev) as VL.
    { intros ev E1 E2. unfold w_sub_vocab_len, sub_vocab_len. rewrite E1, E2. cbn [ix_bound explicit_ops]. unfold explicit_bound. cbn [rbind]. rewrite N.mod_small by lia. apply w_add_same; [exact W|lia]. }
    rewrite VL by (reflexivity || exact WE). destruct (sub_vocab_len _ _ _) as [n| |] eqn:EN; [|reflexivity|reflexivity]. cbn [rbind].
    replace (w_explicit_mapping w pf (sub_words_len _) n (order' o2n)) with (explicit_mapping pf (lenN (sv_words v)) n (order' o2n)).
    2: { rewrite WE. unfold w_explicit_mapping, explicit_mapping. generalize (rangeN n). induction (order' o2n) as [|[old new] l IH]; [reflexivity|]. intros r. cbn [rfold].
         destruct (P old new ltac:(left; reflexivity)) as [P1 P2]. rewrite (w_add_same w W pf (lenN (sv_words v)) new) by lia.
         unfold w_row. rewrite (N.mod_small old) by lia. rewrite (w_add_same w W pf old) by lia.
         destruct (add64 pf _ new) as [x| |]; [|reflexivity|reflexivity]. cbn [rbind]. destruct (add64 pf old _) as [y| |]; [|reflexivity|reflexivity]. cbn [rbind].
         destruct (set_row r x y) as [r'| |]; [|reflexivity|reflexivity]. cbn [rbind]. apply IH. intros o0 n0 H0. apply P. right. exact H0. }
    rewrite WE. destruct (explicit_mapping _ _ _ _) as [mp| |]; [|reflexivity|reflexivity]. cbn [rbind]. destruct (clone s mp) as [s'| |]; [|reflexivity|reflexivity]. cbn [rbind].
    unfold emb_new_with_maybe_norms. cbn [v_vocab_len w_sub_ops sub_ops]. rewrite VL by (reflexivity || exact WE). reflexivity.
  Qed.
End ToExplicit.
Lemma width_to_explicit w {Md I S S' F} (B : bucket_ops I) (SO' : storage_ops F S') pf (clone : S -> list N -> res S') order order' words mn mx ix bow eow v
  (s : S) (norms : option (list F)) : w_size w <= two64 -> any_order order -> any_order order' -> ix_made I (bk_ops B) ix ->
  sub_new_with_boundaries (bk_ops B) pf words mn mx ix bow eow = Ok v -> (forall n, sub_vocab_len (bk_ops B) pf v = Ok n -> n < w_size w) ->
  w_to_explicit (Md := Md) w B SO' pf clone order order' v s norms = to_explicit_impl B SO' pf clone order order' v s norms.
Proof.
  intros W O O' M H F0. apply width_explicit; try assumption; [eapply built_fits; eassumption|]. apply sub_new_Ok in H as (ND & -> & _).
  unfold sub_words_len. cbn [sv_indices sv_words]. symmetry. apply ci_len_NoDup. exact ND.
Qed.

(** ** Readers

    *** On 64-bit machines nothing changes. *)
Lemma add_64 pf a b : w_add m64 pf a b = add64 pf a b. Proof. unfold w_add, add64. rewrite w_size_64. reflexivity. Qed.
Lemma le_64 : w_size m64 <= two64. Proof. rewrite w_size_64. reflexivity. Qed.
Lemma yields_number d n : yields (read_number d) n -> n < two64.
Proof.
  intros (s & s' & H). unfold read_number in H. minv H as t X. destruct (dec_parse t) as [k|] eqn:E; [|discriminate]. apply ret_inv in H as [<- _].
  assert (forall t acc k, acc < two64 -> dec_digits t acc = Some k -> k < two64) as D.
  { clear. intros t. induction t as [|c t IH]; intros acc k A H; cbn [dec_digits] in H; [inv H; exact A|]. destruct (digit_value c) as [x|]; [|discriminate]. cbv zeta in H.
    destruct (N.ltb_spec (acc * 10 + x) two64); [|discriminate]. eapply IH; eassumption. }
  destruct t as [|c t]; [discriminate|]. cbn [dec_parse] in E. destruct (byte_eqb c x2b); [destruct t; [discriminate|]|]; refine (D _ _ _ _ E); reflexivity.
Qed.
Lemma bind_at {A B} (m1 m2 : reader A) (k1 k2 : A -> reader B) s : m1 s = m2 s -> (forall a s', m2 s = (Ok a, s') -> k1 a s' = k2 a s') ->
  bind m1 k1 s = bind m2 k2 s.
Proof. intros H K. unfold bind. rewrite H. destruct (m2 s) as [[a| |] s'] eqn:E; auto. Qed.
Lemma number_at d s : w_number m64 d s = read_number d s.
Proof.
  unfold w_number, bind. destruct (read_number d s) as [[n| |] s'] eqn:E; [|reflexivity|reflexivity].
  assert (n < two64) as L by (apply (yields_number d); exists s, s'; exact E). rewrite w_size_64. apply N.ltb_lt in L. rewrite L. reflexivity.
Qed.
Lemma shape_vec_64 {F} r c (data : list F) : r <= isize_max -> c <= isize_max -> lenN data <= isize_max -> w_from_shape m64 r c data = from_shape_vec r c data.
Proof.
  intros R C D. unfold w_from_shape. rewrite w_max_64. destruct (N.leb_spec (nonzero r * nonzero c) isize_max) as [L|L]; [reflexivity|].
  unfold from_shape_vec. destruct (N.eqb_spec (lenN data) (r * c)) as [E|]; [|reflexivity]. exfalso. revert L. unfold nonzero.
  destruct (N.eqb_spec r 0), (N.eqb_spec c 0); subst; rewrite ?N.mul_1_l, ?N.mul_1_r; unfold isize_max in *; lia.
Qed.
Lemma text_shape_inv shape nw nd r c : text_shape shape nw nd = Ok (r, c) -> r = nw /\ c = nd / nw /\ nw <> 0 /\ match shape with Some rc => rc = (r, c) | None => True end.
Proof.
  unfold text_shape, div64. destruct shape as [[n d]|].
  - destruct (N.eqb_spec nw n) as [->|]; [|discriminate]. cbn [negb]. destruct (N.eqb_spec n 0); [discriminate|]. cbn [rbind].
    destruct (N.eqb_spec (nd / n) d) as [E|]; [|discriminate]. cbn [negb]. intros H. inv H. auto.
  - destruct (N.eqb_spec nw 0); [discriminate|]. cbn [rbind]. intros H. inv H. auto.
Qed.
Lemma div_small a b : b <> 0 -> a / b <= a.
Proof. intros H. destruct (N.eq_dec a 0) as [->|NE]; [rewrite N.div_0_l by exact H; lia|]. destruct (N.eq_dec b 1) as [->|]; [rewrite N.div_1_r; lia|]. apply N.lt_le_incl, N.div_lt; lia. Qed.
Lemma embeds_64 P pf {Md} shape lossy s : 3 * lenN (s_rest s) <= isize_max ->
  w_embeds (Md := Md) m64 P pf shape lossy s =
  (wd <- read_lines P lossy ;;
   let '(words, data) := wd in
   sh <- lift (text_shape shape (lenN words) (lenN data)) ;;
   a <- lift (from_shape_vec (fst sh) (snd sh) data) ;;
   v <- lift (simple_new words) ;;
   lift (emb_new_with_maybe_norms simple_ops (nd_ops f32) pf None v a None)) s.
Proof.
  intros K. unfold w_embeds. apply bind_at; [reflexivity|]. intros [ws xs] s1 X. apply text_lines_size in X as [B1 B2]. apply bind_at; [reflexivity|].
  intros [r c] s2 Y. apply lift_inv in Y as [Y <-]. apply text_shape_inv in Y as (-> & -> & NZ & _). cbn [fst snd].
  pose proof (div_small (lenN xs) (lenN ws) NZ). rewrite shape_vec_64 by lia. reflexivity.
Qed.
Lemma width_64_text P pf {Md} lossy s : 3 * lenN (s_rest s) <= isize_max ->
  w_text_raw (Md := Md) m64 P pf lossy s = read_text_raw P pf lossy s /\ w_text (Md := Md) m64 P pf lossy s = read_text P pf lossy s.
Proof.
  intros K. assert (w_text_raw (Md := Md) m64 P pf lossy s = read_text_raw P pf lossy s) as E by (apply embeds_64; exact K). split; [exact E|].
  apply bind_at; [exact E|reflexivity].
Qed.
Lemma width_64_text_dims P pf {Md} lossy s : 3 * lenN (s_rest s) <= isize_max ->
  w_text_dims_raw (Md := Md) m64 P pf lossy s = read_text_dims_raw P pf lossy s /\ w_text_dims (Md := Md) m64 P pf lossy s = read_text_dims P pf lossy s.
Proof.
  intros K. assert (w_text_dims_raw (Md := Md) m64 P pf lossy s = read_text_dims_raw P pf lossy s) as E.
  { unfold w_text_dims_raw, read_text_dims_raw. apply bind_at; [apply number_at|]. intros n s1 X1. apply number_size in X1. apply bind_at; [apply number_at|]. intros d s2 X2. apply number_size in X2.
    unfold read_embeds. rewrite same_assoc. apply bind_at; [apply same_reserve|]. intros u s3 X3. apply reserve_inv in X3 as [_ <-]. rewrite same_assoc, same_mul.
    apply bind_at; [reflexivity|]. intros c s4 X4. apply lift_inv in X4 as [_ <-]. apply bind_at; [apply same_reserve|]. intros u' s5 X5. apply reserve_inv in X5 as [_ <-]. apply embeds_64. lia. }
  split; [exact E|]. apply bind_at; [exact E|reflexivity].
Qed.
Lemma width_64_word2vec pf {Md} lossy s :
  w_word2vec_raw (Md := Md) m64 pf lossy s = read_word2vec_raw pf lossy s /\ w_word2vec (Md := Md) m64 pf lossy s = read_word2vec pf lossy s.
Proof.
  assert (w_word2vec_raw (Md := Md) m64 pf lossy s = read_word2vec_raw pf lossy s) as E.
  { do 2 (apply bind_at; [apply number_at|intros ? ? _]). apply bind_at; [apply same_zeros|intros ? ? _]. apply bind_at; [apply same_reserve|intros ? ? _]. reflexivity. }
  split; [exact E|]. apply bind_at; [exact E|reflexivity].
Qed.
(** Floret vocabularies without words. *)
Lemma floret_fits w pf mn mx nb nh seed ix bow eow v : floret_indexer_new nb nh seed = Ok ix -> nb < w_size w ->
  sub_new_with_boundaries floret_ops pf [] mn mx ix bow eow = Ok v -> fit_vocab w floret_ops pf v.
Proof.
  intros H L B. eapply built_fits; [econstructor; exact H|exact B|]. intros n VL. destruct (sub_vocab_len_exact floret_ops pf [] mn mx ix bow eow v B) as (b & Bb & VL').
  cbn [v_vocab_len sub_ops] in VL'. rewrite VL in VL'. inv VL'. unfold floret_indexer_new in H. apply rbind_Ok_inv in H as (u & _ & H). apply rbind_Ok_inv in H as (u' & _ & H). inv H.
  cbn [ix_bound floret_ops floret_bound fl_buckets] in Bb. unfold floret_bound in Bb. inv Bb. rewrite lenN_nil. cbn [fl_buckets]. lia.
Qed.
Lemma number_yields d s n s' : read_number d s = (Ok n, s') -> n < two64 /\ 2 + lenN (s_rest s') <= lenN (s_rest s).
Proof. intros H. split; [apply (yields_number d); exists s, s'; exact H|apply number_size in H; exact H]. Qed.
Lemma width_64_floret P pf {Md} s : 3 * lenN (s_rest s) <= isize_max -> w_floret_text (Md := Md) m64 P pf s = read_floret_text P pf s.
Proof.
  intros K. unfold w_floret_text, read_floret_text.
  apply bind_at; [apply number_at|intros nb s1 Y1; apply number_yields in Y1 as [Lb Z1]]. apply bind_at; [apply number_at|intros d s2 Y2; apply number_yields in Y2 as [Ld Z2]].
  do 4 (apply bind_at; [apply number_at|intros ? ? ?Y; apply number_yields in Y as [_ ?Z]; cbv zeta]).
  apply bind_at; [reflexivity|intros bw sb Yb; apply string_consumes in Yb]. apply bind_at; [reflexivity|intros ew se Ye; apply string_consumes in Ye].
  destruct (N.eqb_spec nb 0) as [|NB]; [reflexivity|]. destruct (N.eqb_spec d 0) as [|ND]; [reflexivity|]. destruct (_ <? _); [reflexivity|]. destruct (negb _); [reflexivity|].
  rewrite same_mul. apply bind_at; [reflexivity|]. intros c s9 X. apply lift_inv in X as [_ <-]. apply bind_at; [apply same_reserve|]. intros u s10 X. apply reserve_inv in X as [_ <-].
  apply bind_at; [reflexivity|]. intros data s11 X. apply floret_lines_size in X. apply bind_at.
  { unfold w_from_shape. rewrite w_max_64. unfold nonzero. replace (nb =? 0) with false by (symmetry; apply N.eqb_neq; exact NB).
    replace (d =? 0) with false by (symmetry; apply N.eqb_neq; exact ND). destruct (N.leb_spec (nb * d) isize_max) as [L|L]; [reflexivity|].
    unfold from_shape_vec. destruct (N.eqb_spec (lenN data) (nb * d)) as [E|]; [lia|reflexivity]. }
  intros arr s12 X2. apply lift_inv in X2 as [_ <-]. apply bind_at; [reflexivity|]. intros ix s13 X3. apply lift_inv in X3 as [X3 <-]. rewrite same_sub_new. apply bind_at; [reflexivity|].
  intros v s14 X4. apply lift_inv in X4 as [X4 <-]. assert (nb < w_size m64) as Lw by (rewrite w_size_64; exact Lb). pose proof (floret_fits m64 pf _ _ _ _ _ _ _ _ _ X3 Lw X4) as FV.
  unfold emb_new_with_maybe_norms. cbn [v_vocab_len w_sub_ops sub_ops]. rewrite w_vocab_len_same by (exact le_64 || exact FV). reflexivity.
Qed.

(** The end of the reader of fastText models. *)
Lemma add_subwords_same w {F} (o : fops F) pf v a : w_size w <= two64 -> fit_vocab w ft_ops pf v -> w_add_subwords w o pf v a = add_subword_embeddings o pf v a.
Proof.
  intros W FV. unfold w_add_subwords, add_subword_embeddings. apply rfold_ext. intros b [i s]. unfold w_subwords_step, add_subwords_step. rewrite w_subword_indices_same by assumption. reflexivity.
Qed.
Definition w_ft_tail w pf (T : toml_ops) (ct : ft_config -> option (toml_table T)) c (v : subword_vocab ft_indexer) (a0 : array2 f32) : reader (embeddings (toml_table T) (subword_vocab ft_indexer) (array2 f32) f32) :=
  a1 <- lift (w_add_subwords w f32_ops pf v a0) ;;
  an <- lift (normalize_words f32_ops (sub_words_len v) a1) ;;
  n <- lift (w_add w pf (sub_words_len v) (fc_bucket c)) ;;
  if negb (a2_nrows (fst an) =? n) then fail EMatrixShape else
  match ct c with
  | None => fail EFormat
  | Some t => lift (emb_new (w_sub_ops w ft_ops) (nd_ops f32) pf (Some t) v (fst an) (snd an))
  end.
Definition ft_tail pf (T : toml_ops) (ct : ft_config -> option (toml_table T)) c (v : subword_vocab ft_indexer) (a0 : array2 f32) : reader (embeddings (toml_table T) (subword_vocab ft_indexer) (array2 f32) f32) :=
  a1 <- lift (add_subword_embeddings f32_ops pf v a0) ;;
  an <- lift (normalize_words f32_ops (sub_words_len v) a1) ;;
  n <- lift (add64 pf (sub_words_len v) (fc_bucket c)) ;;
  if negb (a2_nrows (fst an) =? n) then fail EMatrixShape else
  match ct c with
  | None => fail EFormat
  | Some t => lift (emb_new (sub_ops ft_ops) (nd_ops f32) pf (Some t) v (fst an) (snd an))
  end.
Lemma ft_tail_same w pf T ct c v a0 : w_size w <= two64 -> fit_vocab w ft_ops pf v -> ix_bound ft_ops pf (sv_ix v) = Ok (fc_bucket c) ->
  same_r (w_ft_tail w pf T ct c v a0) (ft_tail pf T ct c v a0).
Proof.
  intros W FV B. unfold w_ft_tail, ft_tail. rewrite add_subwords_same by assumption. do 2 (apply same_bind; [apply same_refl|intros ? _]).
  assert (w_add w pf (sub_words_len v) (fc_bucket c) = add64 pf (sub_words_len v) (fc_bucket c)) as A.
  { destruct FV as (b & B' & L & _). rewrite B in B'. inv B'. apply w_add_same; assumption. }
  rewrite A. apply same_bind; [apply same_refl|intros n _]. destruct (negb _); [apply same_refl|]. destruct (ct c); [|apply same_refl].
  apply same_lift. unfold emb_new, emb_new_with_maybe_norms. cbn [v_words_len v_vocab_len w_sub_ops sub_ops]. rewrite w_vocab_len_same by assumption. reflexivity.
Qed.
Lemma ft_built w pf words mn mx n ix v : w_size w <= two64 -> ft_indexer_new n = Ok ix -> w_sub_new w ft_ops pf words mn mx ix default_bow default_eow = Ok v ->
  fit_vocab w ft_ops pf v /\ ix_bound ft_ops pf (sv_ix v) = Ok n /\ sub_new ft_ops pf words mn mx ix = Ok v.
Proof.
  intros W H B. apply w_sub_new_inv in B as (B & b & Bb & L); [|exact W]. pose proof B as B'. apply sub_new_Ok in B' as (_ & E & _).
  assert (sv_ix v = ix) as EI by (rewrite E; reflexivity). split; [|split; [|exact B]].
  - exists b. split; [exact Bb|]. split; [exact L|]. rewrite EI in *. eapply ft_safe; [exact H|]. exact Bb.
  - rewrite EI. unfold ft_indexer_new, rassert in H. destruct (N.leb_spec n i32_max) as [LE|]; [|discriminate]. cbn [rbind] in H. injection H as <-.
    cbn [ix_bound ft_ops ft_bound fi_buckets]. unfold ft_bound. cbn [fi_buckets]. rewrite N.mod_small; [reflexivity|unfold i32_max, two32 in *; lia].
Qed.
Lemma ft_vocab_same s pf c lossy : w_ft_vocab m64 pf c lossy s = read_ft_vocab pf c lossy s.
Proof.
  unfold w_ft_vocab, read_ft_vocab. do 3 (apply bind_at; [reflexivity|intros ? ? _]). destruct (0 <? _); [reflexivity|]. do 2 (apply bind_at; [reflexivity|intros ? ? _]).
  destruct (_ <=? _); [reflexivity|]. apply bind_at; [apply same_reserve|intros ? ? _]. do 2 (apply bind_at; [reflexivity|intros ? ? _]). rewrite same_sub_new. reflexivity.
Qed.
Lemma w_ft_vocab_inv w pf c lossy s v s' : w_size w <= two64 -> w_ft_vocab w pf c lossy s = (Ok v, s') ->
  fit_vocab w ft_ops pf v /\ ix_bound ft_ops pf (sv_ix v) = Ok (fc_bucket c).
Proof.
  intros W H. unfold w_ft_vocab in H. minv H as n X1. minv H as u2 X2. minv H as nl X3. destruct (0 <? nl); [discriminate|]. minv H as u4 X4. minv H as pr X5. destruct (_ <=? _); [discriminate|].
  minv H as u Y. minv H as ws Z. minv H as ix Z1. apply lift_inv in Z1 as [Z1 _]. apply lift_inv in H as [H _].
  destruct (ft_built w pf ws (fc_min_n c) (fc_max_n c) (fc_bucket c) ix v W Z1 H) as (A & B & _). auto.
Qed.
Lemma width_64_fasttext pf T ct lossy s : w_fasttext m64 pf T ct lossy s = read_fasttext pf T ct lossy s.
Proof.
  unfold w_fasttext, read_fasttext. apply bind_at; [reflexivity|intros ? ? _]. destruct (negb _); [reflexivity|]. apply bind_at; [reflexivity|intros ? ? _]. destruct (_ <? _); [reflexivity|].
  apply bind_at; [reflexivity|intros c ? _]. apply bind_at; [apply ft_vocab_same|intros v ? X]. rewrite <- ft_vocab_same in X. apply w_ft_vocab_inv in X as [FV B]; [|exact le_64].
  apply bind_at; [reflexivity|intros q ? _]. destruct (_ =? 1); [reflexivity|]. apply bind_at; [|intros mat ? _; apply ft_tail_same; [exact le_64|exact FV|exact B]].
  unfold w_ft_matrix, read_ft_matrix. apply bind_at; [reflexivity|]. intros m s1 X1. apply u64_lt in X1. rewrite (bind_step _ _ _ _ _ (try_ok m64 m s1 X1)).
  apply bind_at; [reflexivity|]. intros n s2 X2. apply u64_lt in X2. rewrite (bind_step _ _ _ _ _ (try_ok m64 n s2 X2)). apply bind_at; [apply same_zeros|intros ? ? _]. reflexivity.
Qed.

(** *** What a narrow machine reads is what a 64-bit machine reads *)
Definition sound {A} (m1 m2 : reader A) : Prop := forall s a s', m1 s = (Ok a, s') -> m2 s = (Ok a, s').
Lemma sound_refl {A} (m : reader A) : sound m m. Proof. intros s a s' H. exact H. Qed.
Lemma sound_bind {A B} (m1 m2 : reader A) (k1 k2 : A -> reader B) : sound m1 m2 -> (forall a, yields m1 a -> sound (k1 a) (k2 a)) -> sound (bind m1 k1) (bind m2 k2).
Proof.
  intros H K s b s' E. minv E as a X. match type of X with _ = (_, ?t) => rename t into s1 end. rewrite (bind_step _ _ _ _ _ (H _ _ _ X)). eapply K; [|exact E]. exists s, s1. exact X.
Qed.
Lemma sound_same {A} (m1 m2 : reader A) : same_r m1 m2 -> sound m1 m2. Proof. intros H s a s' E. rewrite <- (H s). exact E. Qed.
Lemma sound_skip {A B} (m : reader A) (a : A) (k : A -> reader B) m2 : (forall s x s', m s = (Ok x, s') -> x = a /\ s' = s) -> (yields m a -> sound (k a) m2) -> sound (bind m k) m2.
Proof. intros H K s b s' E. minv E as x X. pose proof (H _ _ _ X) as [-> ->]. eapply K; [|exact E]. eexists _, _. exact X. Qed.
Lemma bind_lift_Ok {A B} (a : A) (k : A -> reader B) s : bind (lift (Ok a)) k s = k a s. Proof. reflexivity. Qed.
Section Sound.
  Context (w : machine) (N : narrow w).
  Lemma narrow_two64 : w_size w <= two64. Proof. destruct (narrow_size w N) as (Z & _ & U). unfold two64. lia. Qed.
  Lemma sound_number d : sound (w_number w d) (read_number d).
  Proof. intros s n s' H. unfold w_number in H. minv H as k X. destruct (_ <? _); [|discriminate]. apply ret_inv in H as [<- <-]. exact X. Qed.
  Lemma number_lt d n : yields (w_number w d) n -> n < w_size w.
  Proof. intros (s & s' & H). unfold w_number in H. minv H as k X. destruct (N.ltb_spec k (w_size w)); [|discriminate]. apply ret_inv in H as [<- _]. assumption. Qed.
  Lemma sound_reserve n c c' : c' <= 32 -> 0 < c -> sound (w_reserve w n c) (reserve n c').
  Proof.
    intros C C0 s u s' H. destruct (cautious_reserve false w N n c c' C0 C s) as [E|R]; [rewrite <- E; exact H|]. rewrite H in R. contradiction.
  Qed.
  Lemma sound_zeros dims c : sound (w_zeros w dims c) (alloc_zeros dims c).
  Proof. intros s u s' H. destruct (cautious_zeros false w N dims c s) as [E|R]; [rewrite <- E; exact H|]. rewrite H in R. contradiction. Qed.
  Lemma sound_shape {F} r c (data : list F) a : w_from_shape w r c data = Ok a -> from_shape_vec r c data = Ok a /\ r * c <= w_max w.
  Proof.
    unfold w_from_shape. destruct (N.leb_spec (nonzero r * nonzero c) (w_max w)) as [L|L]; [|discriminate]. intros H. split; [exact H|].
    revert L. unfold nonzero. destruct (N.eqb_spec r 0), (N.eqb_spec c 0); subst; lia.
  Qed.
  Lemma sound_embeds P pf {Md} shape lossy s e s' : w_embeds (Md := Md) w P pf shape lossy s = (Ok e, s') ->
    (wd <- read_lines P lossy ;;
     let '(words, data) := wd in
     sh <- lift (text_shape shape (lenN words) (lenN data)) ;;
     a <- lift (from_shape_vec (fst sh) (snd sh) data) ;;
     v <- lift (simple_new words) ;;
     lift (emb_new_with_maybe_norms simple_ops (nd_ops f32) pf None v a None)) s = (Ok e, s') /\
    match shape with Some (r, c) => r * c <= w_max w | None => True end.
  Proof.
    intros H. unfold w_embeds in H. minv H as wd X. rewrite (bind_step _ _ _ _ _ X). destruct wd as [ws xs]. minv H as sh Y. rewrite (bind_step _ _ _ _ _ Y). apply lift_inv in Y as [Y ->].
    destruct sh as [r c]. cbn [fst snd] in *. minv H as a Z. apply lift_inv in Z as [Z ->]. apply sound_shape in Z as [Z L]. unfold bind at 1, lift at 1. rewrite Z. split; [exact H|].
    apply text_shape_inv in Y as (_ & _ & _ & E). destruct shape as [[r' c']|]; [|exact Logic.I]. injection E as -> ->. exact L.
  Qed.
  Lemma narrow_text P pf {Md} lossy s e s' :
    (w_text_raw (Md := Md) w P pf lossy s = (Ok e, s') -> read_text_raw P pf lossy s = (Ok e, s')) /\
    (w_text (Md := Md) w P pf lossy s = (Ok e, s') -> read_text P pf lossy s = (Ok e, s')).
  Proof.
    assert (sound (w_text_raw (Md := Md) w P pf lossy) (read_text_raw P pf lossy)) as R by (intros t x t' H; apply (sound_embeds P pf None lossy _ _ _ H)).
    split; [apply R|]. apply sound_bind; [exact R|intros ? _; apply sound_refl].
  Qed.
  Lemma w_string_pos : 0 < mw_string w. Proof. apply N. Qed.
  Lemma narrow_text_dims P pf {Md} lossy s e s' :
    (w_text_dims_raw (Md := Md) w P pf lossy s = (Ok e, s') -> read_text_dims_raw P pf lossy s = (Ok e, s')) /\
    (w_text_dims (Md := Md) w P pf lossy s = (Ok e, s') -> read_text_dims P pf lossy s = (Ok e, s')).
  Proof.
    assert (sound (w_text_dims_raw (Md := Md) w P pf lossy) (read_text_dims_raw P pf lossy)) as R.
    { apply sound_bind; [apply sound_number|intros n _]. apply sound_bind; [apply sound_number|intros d _]. unfold read_embeds. clear s e s'. intros s e s' H. rewrite same_assoc.
      revert s e s' H. apply sound_bind; [apply sound_reserve; [lia|apply w_string_pos]|intros _ _]. intros s e s' H. rewrite same_assoc.
      minv H as c X. apply lift_inv in X as [_ ->]. minv H as u Y. unfold w_reserve in Y. destruct (_ <=? _); [|discriminate]. injection Y as <- <-.
      apply sound_embeds in H as [H L]. assert (n * d <= w_max w) as LM by exact L. destruct (narrow_size w N) as (_ & _ & U).
      assert (mul64 pf n d = Ok (n * d)) as M by (unfold mul64; cbv zeta; replace (n * d <? two64) with true by (symmetry; apply N.ltb_lt; unfold two64; lia); reflexivity).
      rewrite M, bind_lift_Ok.
      assert (forall t : stream, reserve (n * d) 4 t = (Ok tt, t)) as RS by (intros t; unfold reserve; replace (n * d * 4 <=? isize_max) with true by (symmetry; apply N.leb_le; unfold isize_max; lia); reflexivity).
      rewrite (bind_step _ _ _ _ _ (RS _)). exact H. }
    split; [apply R|]. apply sound_bind; [exact R|intros ? _; apply sound_refl].
  Qed.
  Lemma narrow_word2vec pf {Md} lossy s e s' :
    (w_word2vec_raw (Md := Md) w pf lossy s = (Ok e, s') -> read_word2vec_raw pf lossy s = (Ok e, s')) /\
    (w_word2vec (Md := Md) w pf lossy s = (Ok e, s') -> read_word2vec pf lossy s = (Ok e, s')).
  Proof.
    assert (sound (w_word2vec_raw (Md := Md) w pf lossy) (read_word2vec_raw pf lossy)) as R.
    { do 2 (apply sound_bind; [apply sound_number|intros ? _]). apply sound_bind; [apply sound_zeros|intros ? _].
      apply sound_bind; [apply sound_reserve; [lia|apply w_string_pos]|intros ? _]. apply sound_refl. }
    split; [apply R|]. apply sound_bind; [exact R|intros ? _; apply sound_refl].
  Qed.
  Lemma sound_sub_new {I} (ops : indexer_ops I) pf words mn mx ix bow eow : sound (lift (w_sub_new w ops pf words mn mx ix bow eow)) (lift (sub_new_with_boundaries ops pf words mn mx ix bow eow)).
  Proof. intros s v s' H. apply lift_inv in H as [H <-]. apply w_sub_new_inv in H as (H & _); [|apply narrow_two64]. rewrite H. reflexivity. Qed.
  Lemma narrow_floret P pf {Md} s e s' : w_floret_text (Md := Md) w P pf s = (Ok e, s') -> read_floret_text P pf s = (Ok e, s').
  Proof.
    revert s e s'. change (sound (w_floret_text (Md := Md) w P pf) (read_floret_text P pf)).
    apply sound_bind; [apply sound_number|intros nb Yb; apply number_lt in Yb]. do 5 (apply sound_bind; [apply sound_number|intros ? _; cbv zeta]). do 2 (apply sound_bind; [apply sound_refl|intros ? _]).
    destruct (_ =? 0); [apply sound_refl|]. destruct (_ =? 0); [apply sound_refl|]. destruct (_ <? _); [apply sound_refl|]. destruct (negb _); [apply sound_refl|].
    intros s e s' H. minv H as c X. apply lift_inv in X as [_ ->]. minv H as u Y. unfold w_reserve in Y. destruct (_ <=? _); [|discriminate]. injection Y as <- <-.
    minv H as data D. minv H as arr A. apply lift_inv in A as [A ->]. apply sound_shape in A as [A L]. destruct (narrow_size w N) as (_ & _ & U).
    match type of L with ?x <= _ => set (nd := x) in * end.
    assert (mul64 pf nb a = Ok nd) as M by (unfold mul64; cbv zeta; fold nd; replace (nd <? two64) with true by (symmetry; apply N.ltb_lt; unfold two64; lia); reflexivity).
    rewrite M, bind_lift_Ok.
    assert (forall t : stream, reserve nd 4 t = (Ok tt, t)) as RS by (intros t; unfold reserve; replace (nd * 4 <=? isize_max) with true by (symmetry; apply N.leb_le; unfold isize_max; lia); reflexivity).
    rewrite (bind_step _ _ _ _ _ (RS _)), (bind_step _ _ _ _ _ D), A, bind_lift_Ok.
    minv H as ix X3. rewrite (bind_step _ _ _ _ _ X3). apply lift_inv in X3 as [X3 ->]. minv H as v X4. apply lift_inv in X4 as [X4 ->]. apply w_sub_new_inv in X4 as (X4 & _); [|apply narrow_two64].
    rewrite X4, bind_lift_Ok.
    pose proof (floret_fits w pf _ _ _ _ _ _ _ _ _ X3 Yb X4) as FV. unfold emb_new_with_maybe_norms in *. cbn [v_vocab_len w_sub_ops sub_ops] in *.
    rewrite w_vocab_len_same in H by (apply narrow_two64 || exact FV). exact H.
  Qed.
  Lemma sound_ft_vocab pf c lossy : sound (w_ft_vocab w pf c lossy) (read_ft_vocab pf c lossy).
  Proof.
    do 3 (apply sound_bind; [apply sound_refl|intros ? _]). destruct (0 <? _); [apply sound_refl|]. do 2 (apply sound_bind; [apply sound_refl|intros ? _]). destruct (_ <=? _); [apply sound_refl|].
    apply sound_bind; [apply sound_reserve; [lia|apply w_string_pos]|intros ? _]. do 2 (apply sound_bind; [apply sound_refl|intros ? _]). apply sound_sub_new.
  Qed.
  Lemma try_inv n s x s' : w_try w n s = (Ok x, s') -> x = n /\ s' = s. Proof. unfold w_try. destruct (_ <? _); intros H; [inv H; auto|discriminate]. Qed.
  Lemma sound_ft_matrix : sound (w_ft_matrix w) read_ft_matrix.
  Proof.
    apply sound_bind; [apply sound_refl|intros m _]. eapply sound_skip; [apply try_inv|intros _]. apply sound_bind; [apply sound_refl|intros n _]. eapply sound_skip; [apply try_inv|intros _].
    apply sound_bind; [apply sound_zeros|intros ? _]. apply sound_refl.
  Qed.
  Lemma narrow_fasttext pf T ct lossy s e s' : w_fasttext w pf T ct lossy s = (Ok e, s') -> read_fasttext pf T ct lossy s = (Ok e, s').
  Proof.
    revert s e s'. change (sound (w_fasttext w pf T ct lossy) (read_fasttext pf T ct lossy)).
    apply sound_bind; [apply sound_refl|intros ? _]. destruct (negb _); [apply sound_refl|]. apply sound_bind; [apply sound_refl|intros ? _]. destruct (_ <? _); [apply sound_refl|].
    apply sound_bind; [apply sound_refl|intros c _]. apply sound_bind; [apply sound_ft_vocab|intros v (t & t' & X)]. apply w_ft_vocab_inv in X as [FV B]; [|apply narrow_two64].
    apply sound_bind; [apply sound_refl|intros q _]. destruct (_ =? 1); [apply sound_refl|]. apply sound_bind; [apply sound_ft_matrix|intros mat _].
    apply sound_same. apply (ft_tail_same w pf T ct c v mat narrow_two64 FV B).
  Qed.
End Sound.

(** *** What fits is read on a narrow machine too *)
Section Fit.
  Context (w : machine) (N : narrow w).
  Lemma number_fits d s n s' : read_number d s = (Ok n, s') -> n < w_size w -> w_number w d s = (Ok n, s').
  Proof. intros H L. unfold w_number. rewrite (bind_step _ _ _ _ _ H). apply N.ltb_lt in L. rewrite L. reflexivity. Qed.
  Lemma mul_fits pf n d : n * d <= w_max w -> w_mul w pf n d = Ok (n * d).
  Proof. intros L. destruct (narrow_size w N) as (E & _ & _). unfold w_mul. replace (n * d <? w_size w) with true by (symmetry; apply N.ltb_lt; lia). reflexivity. Qed.
  Lemma reserve_fits n c s : n * c <= w_max w -> w_reserve w n c s = (Ok tt, s).
  Proof. intros L. apply w_reserve_ok. rewrite narrow_limit by exact N. exact L. Qed.
  Lemma strings_fit n s : n * 12 <= w_max w -> w_reserve w n (mw_string w) s = (Ok tt, s).
  Proof. intros L. apply reserve_fits. destruct N as (_ & B & _ & _). assert (n * mw_string w <= n * 12) by (apply N.mul_le_mono_l; lia). lia. Qed.
  Lemma shape_fits2 {F} r c (data : list F) : nonzero r * nonzero c <= w_max w -> w_from_shape w r c data = from_shape_vec r c data.
  Proof. intros L. unfold w_from_shape. apply N.leb_le in L. rewrite L. reflexivity. Qed.
  Lemma nonzero_mul r c m : r * c <= m -> r <= m -> c <= m -> 1 <= m -> nonzero r * nonzero c <= m.
  Proof. intros. unfold nonzero. destruct (N.eqb_spec r 0), (N.eqb_spec c 0); subst; lia. Qed.
  Lemma zeros_fit n m s : 4 * (n * m) <= w_max w -> n <= w_max w -> m <= w_max w -> w_zeros w [n; m] 4 s = (Ok tt, s).
  Proof.
    intros L A B. destruct (narrow_size w N) as (_ & Z & _). apply zeros_ok; cbn [fold_left]; rewrite !N.mul_1_l; [apply nonzero_mul; lia|]. rewrite narrow_limit by exact N. lia.
  Qed.
  Lemma embeds_fit P pf {Md} shape lossy s e s' : 3 * lenN (s_rest s) <= w_max w ->
    (wd <- read_lines P lossy ;;
     let '(words, data) := wd in
     sh <- lift (text_shape shape (lenN words) (lenN data)) ;;
     a <- lift (from_shape_vec (fst sh) (snd sh) data) ;;
     v <- lift (simple_new words) ;;
     lift (emb_new_with_maybe_norms simple_ops (nd_ops f32) pf None v a None)) s = (Ok e, s') ->
    w_embeds (Md := Md) w P pf shape lossy s = (Ok e, s') /\
    match shape with Some (r, c) => r <= lenN (s_rest s) /\ c <= 3 * lenN (s_rest s) /\ r * c <= 3 * lenN (s_rest s) | None => True end.
  Proof.
    intros K H. unfold w_embeds. minv H as wd X. rewrite (bind_step _ _ _ _ _ X). destruct wd as [ws xs]. apply text_lines_size in X as [B1 B2]. minv H as sh Y. rewrite (bind_step _ _ _ _ _ Y).
    apply lift_inv in Y as [Y ->]. destruct sh as [r c]. cbn [fst snd] in *. pose proof Y as Y'. apply text_shape_inv in Y' as (-> & -> & NZ & E). pose proof (div_small (lenN xs) (lenN ws) NZ) as D.
    pose proof (N.mul_div_le (lenN xs) (lenN ws) NZ) as MD.
    rewrite shape_fits2 by (destruct (narrow_size w N) as (_ & Z & _); apply nonzero_mul; lia). split; [exact H|]. destruct shape as [[r c]|]; [|exact Logic.I]. injection E as -> ->. lia.
  Qed.
  Lemma fits_text P pf {Md} lossy s e s' : 12 * lenN (s_rest s) <= w_max w ->
    (read_text_raw (Md := Md) P pf lossy s = (Ok e, s') -> w_text_raw w P pf lossy s = (Ok e, s')) /\
    (read_text (Md := Md) P pf lossy s = (Ok e, s') -> w_text w P pf lossy s = (Ok e, s')).
  Proof.
    intros K. assert (forall e s', read_text_raw (Md := Md) P pf lossy s = (Ok e, s') -> w_text_raw w P pf lossy s = (Ok e, s')) as R by (intros x t H; apply (embeds_fit P pf None lossy s x t); [lia|exact H]).
    split; [apply R|]. intros H. unfold read_text, w_text in *. minv H as e0 X. rewrite (bind_step _ _ _ _ _ (R _ _ X)). exact H.
  Qed.
  Lemma fits_text_dims P pf {Md} lossy s e s' : 12 * lenN (s_rest s) <= w_max w ->
    (read_text_dims_raw (Md := Md) P pf lossy s = (Ok e, s') -> w_text_dims_raw w P pf lossy s = (Ok e, s')) /\
    (read_text_dims (Md := Md) P pf lossy s = (Ok e, s') -> w_text_dims w P pf lossy s = (Ok e, s')).
  Proof.
    intros K. assert (forall e s', read_text_dims_raw (Md := Md) P pf lossy s = (Ok e, s') -> w_text_dims_raw w P pf lossy s = (Ok e, s')) as R.
    { clear e s'. intros e s' H. destruct (narrow_size w N) as (SZ & _ & _). unfold read_text_dims_raw, read_embeds in H. minv H as n X1. minv H as d X2. minv H as u X3. minv X3 as u1 X4. minv X3 as c X5.
      apply reserve_inv in X3 as [_ <-]. apply reserve_inv in X4 as [_ <-]. apply lift_inv in X5 as [_ <-]. pose proof (number_size _ _ _ _ X1) as Z1. pose proof (number_size _ _ _ _ X2) as Z2.
      apply embeds_fit in H as [H (L1 & L2 & L3)]; [|lia]. unfold w_text_dims_raw.
      rewrite (bind_step _ _ _ _ _ (number_fits _ _ _ _ X1 ltac:(lia))), (bind_step _ _ _ _ _ (number_fits _ _ _ _ X2 ltac:(lia))), (bind_step _ _ _ _ _ (strings_fit n _ ltac:(lia))).
      rewrite mul_fits, bind_lift_Ok by lia. rewrite (bind_step _ _ _ _ _ (reserve_fits (n * d) 4 _ ltac:(lia))). exact H. }
    split; [apply R|]. intros H. unfold read_text_dims, w_text_dims in *. minv H as e0 X. rewrite (bind_step _ _ _ _ _ (R _ _ X)). exact H.
  Qed.
  Lemma fits_word2vec_raw pf {Md} lossy s e s' : 12 * lenN (s_rest s) <= w_max w -> a2_cols (em_storage e) <= w_max w ->
    read_word2vec_raw (Md := Md) pf lossy s = (Ok e, s') -> w_word2vec_raw w pf lossy s = (Ok e, s').
  Proof.
    intros K C H. destruct (narrow_size w N) as (SZ & _ & _). unfold read_word2vec_raw in H. minv H as n X1. minv H as d X2. minv H as u X3. minv H as u1 X4.
    apply alloc_inv in X3 as [_ <-]. apply reserve_inv in X4 as [_ <-]. pose proof (number_size _ _ _ _ X1) as Z1. pose proof (number_size _ _ _ _ X2) as Z2.
    pose proof H as H'. minv H' as es X5. minv H' as v X6. apply lift_inv in X6 as [X6 <-]. apply lift_inv in H' as [H' _]. apply simple_new_ND in X6. rewrite repeat_m_nat in X5.
    apply w2v_entries_size in X5 as [B1 B2]; [|exact X6]. rewrite N2Nat.id in *.
    assert (d <= w_max w) as LD by (unfold emb_new_with_maybe_norms in H'; apply rbind_Ok_inv in H' as (k & _ & H'); apply rbind_Ok_inv in H' as (k' & _ & H'); injection H' as <-; exact C).
    unfold w_word2vec_raw. rewrite (bind_step _ _ _ _ _ (number_fits _ _ _ _ X1 ltac:(lia))), (bind_step _ _ _ _ _ (number_fits _ _ _ _ X2 ltac:(lia))).
    rewrite (bind_step _ _ _ _ _ (zeros_fit n d _ ltac:(lia) ltac:(lia) LD)), (bind_step _ _ _ _ _ (strings_fit n _ ltac:(lia))). exact H.
  Qed.
  Lemma fits_word2vec pf {Md} lossy s e s' : 12 * lenN (s_rest s) <= w_max w -> a2_cols (em_storage e) <= w_max w ->
    read_word2vec (Md := Md) pf lossy s = (Ok e, s') -> w_word2vec w pf lossy s = (Ok e, s').
  Proof.
    intros K C H. unfold read_word2vec, w_word2vec in *. minv H as e0 X. pose proof H as H'. apply lift_inv in H' as [H' _].
    assert (a2_cols (em_storage e) = a2_cols (em_storage e0)) as EC.
    { unfold normalize_all in H'. destruct (l2_normalize_array _ _) as [rows norms]. unfold emb_new, emb_new_with_maybe_norms in H'.
      apply rbind_Ok_inv in H' as (k0 & _ & H'). apply rbind_Ok_inv in H' as (k & _ & H'). apply rbind_Ok_inv in H' as (k' & _ & H'). injection H' as <-. reflexivity. }
    rewrite EC in C. rewrite (bind_step _ _ _ _ _ (fits_word2vec_raw pf lossy _ _ _ K C X)). exact H.
  Qed.
  Lemma new_fits {I} (ops : indexer_ops I) pf words mn mx ix bow eow v : sub_new_with_boundaries ops pf words mn mx ix bow eow = Ok v ->
    (forall n, sub_vocab_len ops pf v = Ok n -> n < w_size w) -> w_sub_new w ops pf words mn mx ix bow eow = Ok v.
  Proof. apply takes_sub_new. Qed.
  Lemma repeat_S {A} (m : reader A) i s a s1 l s2 : m s = (Ok a, s1) -> repeat_nat i m s1 = (Ok l, s2) -> repeat_nat (S i) m s = (Ok (a :: l), s2).
  Proof. intros X Y. cbn [repeat_nat]. rewrite (bind_step _ _ _ _ _ X), (bind_step _ _ _ _ _ Y). reflexivity. Qed.
  (** The numbers in the header of a floret file. *)
  Lemma fits_floret P pf {Md} s e s' : 12 * lenN (s_rest s) <= w_max w ->
    (forall l s1, repeat_m 6 (read_number x20) s = (Ok l, s1) -> Forall (fun n => n < w_size w) l) ->
    read_floret_text (Md := Md) P pf s = (Ok e, s') -> w_floret_text w P pf s = (Ok e, s').
  Proof.
    intros K HD H. destruct (narrow_size w N) as (SZ & _ & _). unfold read_floret_text, w_floret_text in *.
    minv H as nb X1. minv H as dims X2. minv H as mn X3. minv H as mx X4. minv H as nh X5. minv H as seed X6. minv H as bow X7. minv H as eow X8. cbv zeta in *.
    assert (Forall (fun n => n < w_size w) [nb; dims; mn; mx; nh; seed]) as FA.
    { eapply HD. rewrite repeat_m_nat. change (N.to_nat 6) with 6%nat. do 6 (eapply repeat_S; [eassumption|]). reflexivity. }
    assert (nb < w_size w /\ dims < w_size w /\ mn < w_size w /\ mx < w_size w /\ nh < w_size w /\ seed < w_size w) as (Q1 & Q2 & Q3 & Q4 & Q5 & Q6).
    { repeat match goal with F : Forall _ (_ :: _) |- _ => apply Forall_cons_iff in F as [? F] end. repeat split; assumption. }
    pose proof (number_size _ _ _ _ X1). pose proof (number_size _ _ _ _ X2). pose proof (number_size _ _ _ _ X3). pose proof (number_size _ _ _ _ X4). pose proof (number_size _ _ _ _ X5). pose proof (number_size _ _ _ _ X6).
    rewrite (bind_step _ _ _ _ _ (number_fits _ _ _ _ X1 Q1)), (bind_step _ _ _ _ _ (number_fits _ _ _ _ X2 Q2)), (bind_step _ _ _ _ _ (number_fits _ _ _ _ X3 Q3)),
      (bind_step _ _ _ _ _ (number_fits _ _ _ _ X4 Q4)), (bind_step _ _ _ _ _ (number_fits _ _ _ _ X5 Q5)), (bind_step _ _ _ _ _ (number_fits _ _ _ _ X6 Q6)), (bind_step _ _ _ _ _ X7), (bind_step _ _ _ _ _ X8).
    apply string_consumes in X7, X8. destruct (N.eqb_spec nb 0) as [|NB]; [discriminate|]. destruct (N.eqb_spec dims 0) as [|ND]; [discriminate|]. destruct (_ <? _); [discriminate|]. destruct (negb _); [discriminate|].
    minv H as c Y1. apply lift_inv in Y1 as [_ <-]. minv H as u Y2. apply reserve_inv in Y2 as [_ <-]. pose proof H as H'. minv H' as data Y3. minv H' as a Y4. apply lift_inv in Y4 as [Y4 <-].
    pose proof (floret_lines_size _ _ _ _ _ _ Y3) as Y5. pose proof Y4 as Y6. unfold from_shape_vec in Y6. destruct (N.eqb_spec (lenN data) (nb * dims)) as [ED|]; [|discriminate]. clear Y6.
    rewrite mul_fits, bind_lift_Ok by lia. rewrite (bind_step _ _ _ _ _ (reserve_fits (nb * dims) 4 _ ltac:(lia))), (bind_step _ _ _ _ _ Y3).
    rewrite shape_fits2 by (unfold nonzero; apply N.eqb_neq in NB, ND; rewrite NB, ND; lia). rewrite Y4, bind_lift_Ok.
    minv H' as ix Z1. rewrite (bind_step _ _ _ _ _ Z1). apply lift_inv in Z1 as [Z1 <-]. minv H' as v Z2. apply lift_inv in Z2 as [Z2 <-].
    pose proof (floret_fits w pf _ _ _ _ _ _ _ _ _ Z1 Q1 Z2) as FV. rewrite (new_fits floret_ops pf _ _ _ _ _ _ _ Z2), bind_lift_Ok.
    - unfold emb_new_with_maybe_norms in *. cbn [v_vocab_len w_sub_ops sub_ops] in *. rewrite w_vocab_len_same by (apply narrow_two64, N || exact FV). exact H'.
    - intros n VL. destruct FV as (b & B & L & _). unfold sub_vocab_len in VL. rewrite B in VL. cbn [rbind] in VL. unfold add64 in VL. cbv zeta in VL.
      assert (sub_words_len v + b < two64) as L' by (pose proof (narrow_two64 w N); lia). apply N.ltb_lt in L'. rewrite L' in VL. injection VL as <-. exact L.
  Qed.

  (** fastText models, by the shape of their matrix. *)
  Lemma ft_vocab_fits pf c lossy s v s' : 12 * lenN (s_rest s) <= w_max w -> sub_words_len v + fc_bucket c < w_size w ->
    read_ft_vocab pf c lossy s = (Ok v, s') -> w_ft_vocab w pf c lossy s = (Ok v, s').
  Proof.
    intros K L H. unfold read_ft_vocab, w_ft_vocab in *. minv H as n X1. minv H as u2 X2. minv H as nl X3. rewrite (bind_step _ _ _ _ _ X1), (bind_step _ _ _ _ _ X2), (bind_step _ _ _ _ _ X3).
    apply shrinking_u32 in X1, X2, X3. destruct (0 <? nl); [discriminate|]. minv H as u4 X4. minv H as pr X5. rewrite (bind_step _ _ _ _ _ X4), (bind_step _ _ _ _ _ X5).
    apply shrinking_u64 in X4, X5. destruct (_ <=? _); [discriminate|]. minv H as u Y. apply reserve_inv in Y as [_ <-]. minv H as ws Z. pose proof Z as Z'.
    apply (repeat_takes (read_ft_entry lossy) _ 9 (lenN (s_rest s))) in Z' as (B & _ & _); [|apply ft_entry_size|intros ? ? ? _ E _; exact E|lia].
    rewrite (bind_step _ _ _ _ _ (strings_fit n _ ltac:(lia))), (bind_step _ _ _ _ _ Z). minv H as ix Z1. rewrite (bind_step _ _ _ _ _ Z1). apply lift_inv in Z1 as [Z1 <-]. apply lift_inv in H as [H <-].
    unfold lift. f_equal. apply new_fits; [exact H|]. intros k VL. unfold sub_new in H. rewrite <- same_sub_new in H.
    destruct (ft_built m64 pf ws (fc_min_n c) (fc_max_n c) (fc_bucket c) ix v le_64 Z1 H) as (_ & BB & _). unfold sub_vocab_len in VL. rewrite BB in VL. cbn [rbind] in VL. unfold add64 in VL. cbv zeta in VL.
    assert (sub_words_len v + fc_bucket c < two64) as L' by (pose proof (narrow_two64 w N); lia). apply N.ltb_lt in L'. rewrite L' in VL. injection VL as <-. exact L.
  Qed.
  Lemma ft_vocab_bucket pf c lossy s v s' : read_ft_vocab pf c lossy s = (Ok v, s') ->
    ix_bound ft_ops pf (sv_ix v) = Ok (fc_bucket c) /\ sub_words_len v + fc_bucket c < two64 /\ lenN (s_rest s') <= lenN (s_rest s).
  Proof.
    intros H. pose proof H as H'. rewrite <- ft_vocab_same in H. apply w_ft_vocab_inv in H as [(b & B & L & _) B']; [|exact le_64]. split; [exact B'|]. rewrite B' in B. injection B as <-. rewrite w_size_64 in L.
    split; [exact L|]. apply (enough_ft_vocab (24 * lenN (s_rest s))) in H' as [_ H']; [exact H'|lia].
  Qed.
  Lemma ft_matrix_fits s a s' : 12 * lenN (s_rest s) <= w_max w -> a2_nrows a <= w_max w -> a2_cols a <= w_max w -> read_ft_matrix s = (Ok a, s') -> w_ft_matrix w s = (Ok a, s').
  Proof.
    intros K LR LC H. destruct (narrow_size w N) as (SZ & _ & _). unfold read_ft_matrix, w_ft_matrix in *. minv H as m X1. minv H as n X2. minv H as u X3. apply alloc_inv in X3 as [_ <-]. rewrite (bind_step _ _ _ _ _ X1).
    apply shrinking_u64 in X1. pose proof H as H'. minv H' as xs X4. apply f32s_size in X4. apply ret_inv in H' as [E _]. subst a. unfold a2_nrows in LR. cbn [a2_rows a2_cols] in *. rewrite FileFacts.unflattenN_lenN in LR.
    rewrite (bind_step _ _ _ _ _ (try_ok w m _ ltac:(lia))), (bind_step _ _ _ _ _ X2). apply shrinking_u64 in X2. rewrite (bind_step _ _ _ _ _ (try_ok w n _ ltac:(lia))).
    rewrite (bind_step _ _ _ _ _ (zeros_fit m n _ ltac:(lia) LR LC)). exact H.
  Qed.
  Lemma ft_tail_inv pf T ct c v a0 s e s' : sub_words_len v + fc_bucket c < two64 -> ft_tail pf T ct c v a0 s = (Ok e, s') ->
    a2_nrows a0 = a2_nrows (em_storage e) /\ a2_cols a0 = a2_cols (em_storage e) /\ a2_nrows a0 = sub_words_len v + fc_bucket c.
  Proof.
    intros L H. unfold ft_tail in H. minv H as a1 X. apply lift_inv in X as [X ->]. apply add_subwords_shape in X as [X1 X2]. minv H as an Y. apply lift_inv in Y as [Y ->].
    assert (a2_nrows (fst an) = a2_nrows a1 /\ a2_cols (fst an) = a2_cols a1) as [Y1 Y2].
    { destruct (N.le_gt_cases (sub_words_len v) (lenN (a2_rows a1))) as [LE|GT].
      - destruct (FastTextFacts.normalize_words_exact f32_ops _ a1 LE) as (rows & ns & E & F). rewrite E in Y. injection Y as <-. split; [apply F|reflexivity].
      - unfold normalize_words, a2_nrows in Y. apply N.leb_gt in GT. rewrite GT in Y. discriminate. }
    minv H as n Z. apply lift_inv in Z as [Z ->]. unfold add64 in Z. cbv zeta in Z. apply N.ltb_lt in L. rewrite L in Z. injection Z as <-.
    destruct (N.eqb_spec (a2_nrows (fst an)) (sub_words_len v + fc_bucket c)) as [E|]; [|discriminate]. cbn [negb] in H. destruct (ct c); [|discriminate]. apply lift_inv in H as [H _].
    unfold emb_new, emb_new_with_maybe_norms in H. apply rbind_Ok_inv in H as (k0 & _ & H). apply rbind_Ok_inv in H as (k & _ & H). apply rbind_Ok_inv in H as (k' & _ & H). injection H as <-. cbn [em_storage].
    unfold a2_nrows in *. repeat split; congruence.
  Qed.
  Lemma fits_fasttext pf T ct lossy s e s' : 12 * lenN (s_rest s) <= w_max w -> a2_nrows (em_storage e) <= w_max w -> a2_cols (em_storage e) <= w_max w ->
    read_fasttext pf T ct lossy s = (Ok e, s') -> w_fasttext w pf T ct lossy s = (Ok e, s').
  Proof.
    intros K LR LC H. destruct (narrow_size w N) as (SZ & _ & _). unfold read_fasttext, w_fasttext in *. minv H as m X1. rewrite (bind_step _ _ _ _ _ X1). apply shrinking_u32 in X1. destruct (negb _); [discriminate|].
    minv H as ver X2. rewrite (bind_step _ _ _ _ _ X2). apply shrinking_u32 in X2. destruct (_ <? _); [discriminate|]. minv H as c X3. rewrite (bind_step _ _ _ _ _ X3). apply shrinking_config in X3.
    minv H as v X4. destruct (ft_vocab_bucket _ _ _ _ _ _ X4) as (B & L4 & S4). minv H as q X5. assert (shrinking read_u8) as S8 by (unfold read_u8; shrinks). pose proof (S8 _ _ _ X5) as S5.
    destruct (N.eqb_spec q 1) as [|NQ]; [discriminate|]. minv H as a0 X6. destruct (ft_tail_inv pf T ct c v a0 _ e s' L4 H) as (R1 & R2 & R3).
    assert (sub_words_len v + fc_bucket c < w_size w) as LV by lia. pose proof (fun K' => ft_vocab_fits pf c lossy _ _ _ K' LV X4) as X4'. specialize (X4' ltac:(lia)). rewrite (bind_step _ _ _ _ _ X4'), (bind_step _ _ _ _ _ X5).
    apply N.eqb_neq in NQ. rewrite NQ. 
    pose proof (fun K1 K2 K3 => ft_matrix_fits _ _ _ K1 K2 K3 X6) as X6'. specialize (X6' ltac:(lia) ltac:(lia) ltac:(lia)). rewrite (bind_step _ _ _ _ _ X6').
    apply w_ft_vocab_inv in X4' as [FV _]; [|apply narrow_two64, N]. etransitivity; [apply (ft_tail_same w pf T ct c v a0 (narrow_two64 w N) FV B)|exact H].
  Qed.
End Fit.
