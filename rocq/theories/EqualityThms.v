(** * Equality of vocabularies, infallible indexers. *)
From Verif Require Import Base BaseFacts Utf8 Stream Subword Vocab Equality FileSpec VocabSpec LookupExactSpec EqualitySpec
  VocabFacts IndexerFacts TextFacts.
From Coq Require Import Lia.
Local Open Scope N_scope.

(** ** Lists and maps *)
Lemma strs_eq_iff a b : strs_eq a b = true <-> a = b.
Proof.
  revert b. induction a as [|x a IH]; intros [|y b]; cbn [strs_eq]; try (split; congruence).
  rewrite andb_true_iff, str_eqb_eq, IH. split; [intros [-> ->]; reflexivity|intros E; inv E; auto].
Qed.

Lemma hm_eq_refl m : NoDup (map fst m) -> hm_eq m m = true.
Proof.
  intros ND. unfold hm_eq. rewrite N.eqb_refl. apply forallb_forall. intros [k v] H.
  rewrite (hm_get_NoDup m k v) by auto. apply N.eqb_refl.
Qed.

Lemma hm_eq_get a b k v : hm_eq a b = true -> hm_get a k = Some v -> hm_get b k = Some v.
Proof.
  intros H G. unfold hm_eq in H. apply andb_prop in H as [_ H]. apply hm_get_In in G.
  rewrite forallb_forall in H. specialize (H _ G). cbn beta iota in H.
  destruct (hm_get b k); [|discriminate]. apply N.eqb_eq in H. congruence.
Qed.

(** ** Indexers *)
Lemma hash_eq_iff e1 e2 a b : hash_indexer_new e1 = Ok a -> hash_indexer_new e2 = Ok b ->
  (hash_eq a b = true <-> a = b) /\ (hi_exp a = hi_exp b <-> a = b).
Proof.
  unfold hash_indexer_new. intros H1 H2. apply rbind_Ok_inv in H1 as (u & _ & H1). apply rbind_Ok_inv in H2 as (u' & _ & H2).
  inv H1. inv H2. unfold hash_eq. cbn [hi_mask hi_exp].
  assert (forall e, (if e =? 64 then two64 - 1 else 2 ^ e - 1) = 2 ^ e - 1) as E.
  { intros e. destruct (N.eqb_spec e 64); [subst; reflexivity|reflexivity]. }
  rewrite !E. split.
  - rewrite N.eqb_eq. split; [|intros X; inv X; congruence]. intros X.
    assert (2 ^ e1 <> 0) by (apply N.pow_nonzero; lia). assert (2 ^ e2 <> 0) by (apply N.pow_nonzero; lia).
    assert (e1 = e2) by (apply (N.pow_inj_r 2); lia). subst. reflexivity.
  - split; [intros ->; reflexivity|intros X; inv X; auto].
Qed.

Lemma explicit_built_determined a b : explicit_built a -> explicit_built b ->
  ei_ngrams a = ei_ngrams b ->
  (forall g, In g (ei_ngrams a) -> hm_get (ei_index a) g = hm_get (ei_index b) g) -> a = b.
Proof.
  intros Ha Hb EN EG. destruct (explicit_built_facts a Ha) as (o1 & R1 & _).
  destruct (explicit_built_facts b Hb) as (o2 & R2 & _).
  assert (retuple (ei_index a) (ei_ngrams a) = retuple (ei_index b) (ei_ngrams b)) as E.
  { rewrite <- EN. unfold retuple. apply map_ext_in. intros g Hg. rewrite (EG g Hg). reflexivity. }
  rewrite E in R1. congruence.
Qed.

Lemma explicit_index_keys ix : explicit_built ix -> NoDup (map fst (ei_index ix)).
Proof.
  intros H. apply explicit_built_nwi in H as (tuples & o2n & H).
  unfold explicit_new_with_indices in H. rinv H. destruct a as [[o2n0 idx] ngs]. inv H1. cbn [ei_index].
  clear -H0. revert H0.
  assert (forall l (st : nwi_state) st', NoDup (map fst (snd (fst st))) -> rfold nwi_step l st = Ok st' ->
    NoDup (map fst (snd (fst st')))) as G.
  { induction l as [|[g b] l IH]; intros [[o i] n] st' ND H; cbn [rfold] in H; [inv H; auto|].
    rinv H. eapply IH; [|exact H1]. unfold nwi_step in H0.
    destruct (nm_get o b); destruct (hm_get i g); try discriminate; inv H0;
      cbn [fst snd] in *; apply hm_insert_keys_NoDup; auto. }
  intros H. apply (G _ ([], [], []) _ (NoDup_nil _) H).
Qed.

Lemma explicit_eq_iff a b : explicit_built a -> explicit_built b ->
  (explicit_eq a b = true <-> a = b) /\
  ((ei_ngrams a = ei_ngrams b /\ forall g, explicit_index a (swcl_new g) = explicit_index b (swcl_new g)) <-> a = b).
Proof.
  intros Ha Hb. destruct (explicit_built_facts a Ha) as (_ & _ & _ & KA & _). split; split.
  - unfold explicit_eq. rewrite !andb_true_iff, strs_eq_iff. intros [[EN EI] _].
    apply explicit_built_determined; auto. intros g Hg. apply KA in Hg as [i Hi].
    rewrite Hi. symmetry. eapply hm_eq_get; eauto.
  - intros <-. unfold explicit_eq. rewrite !andb_true_iff, strs_eq_iff, N.eqb_eq. repeat split; auto.
    apply hm_eq_refl, explicit_index_keys, Ha.
  - intros [EN EG]. apply explicit_built_determined; auto. intros g _. specialize (EG g).
    unfold explicit_index in EG. cbn [swcl_new sw_str] in EG.
    destruct (hm_get (ei_index a) g), (hm_get (ei_index b) g); congruence.
  - intros <-. auto.
Qed.

Lemma ft_eq_iff a b : (ft_eq a b = true <-> a = b) /\ (fi_buckets a = fi_buckets b <-> a = b).
Proof.
  assert (fi_buckets a = fi_buckets b <-> a = b) as E.
  { destruct a as [x], b as [y]. cbn [fi_buckets]. split; [intros ->; reflexivity|intros X; inv X; auto]. }
  split; [|exact E]. unfold ft_eq. rewrite N.eqb_eq. exact E.
Qed.

Lemma floret_eq_iff a b : (floret_eq a b = true <-> a = b) /\
  (fl_buckets a = fl_buckets b /\ fl_seed a = fl_seed b /\ fl_hashes a = fl_hashes b <-> a = b).
Proof.
  assert (fl_buckets a = fl_buckets b /\ fl_seed a = fl_seed b /\ fl_hashes a = fl_hashes b <-> a = b) as E.
  { destruct a as [x1 x2 x3], b as [y1 y2 y3]. cbn [fl_buckets fl_seed fl_hashes].
    split; [intros (-> & -> & ->); reflexivity|intros X; inv X; auto]. }
  split; [|exact E]. unfold floret_eq. rewrite !andb_true_iff, !N.eqb_eq, <- E. tauto.
Qed.

(** ** Vocabularies *)
Lemma sub_built_fields {I} (ops : indexer_ops I) pf ws mn mx ix bow eow v :
  sub_new_with_boundaries ops pf ws mn mx ix bow eow = Ok v ->
  v = mkSub bow eow ix (create_indices ws) ws mn mx.
Proof. unfold sub_new_with_boundaries. intros H. rinv H. rinv H1. rinv H2. congruence. Qed.

Lemma sub_eq_iff {I} (ix_eq : I -> I -> bool) (same_ix : I -> I -> Prop) bow1 eow1 i1 ws1 mn1 mx1 bow2 eow2 i2 ws2 mn2 mx2 :
  (ix_eq i1 i2 = true <-> i1 = i2) -> (same_ix i1 i2 <-> i1 = i2) ->
  let a := mkSub bow1 eow1 i1 (create_indices ws1) ws1 mn1 mx1 in
  let b := mkSub bow2 eow2 i2 (create_indices ws2) ws2 mn2 mx2 in
  (sub_eq ix_eq a b = true <-> a = b) /\ (same_sub same_ix a b <-> a = b).
Proof.
  intros E S a b. unfold sub_eq, same_sub, a, b. cbn [sv_bow sv_eow sv_ix sv_indices sv_words sv_min sv_max].
  rewrite !andb_true_iff, !str_eqb_eq, strs_eq_iff, !N.eqb_eq, E, S. split; split.
  - intros ((((((-> & ->) & ->) & _) & ->) & ->) & ->). reflexivity.
  - intros X. inv X. repeat split; auto. apply hm_eq_refl, ci_keys_NoDup.
  - intros (-> & -> & -> & -> & -> & ->). reflexivity.
  - intros X. inv X. auto 10.
Qed.

Lemma wrap_eq_iff pf pf' a b : vocab_accepted pf a -> vocab_accepted pf' b ->
  (wrap_eq a b = true <-> a = b) /\ (same_vocab a b <-> a = b).
Proof.
  intros Ha Hb.
  destruct Ha as [ws v Hv|e ws mn mx ix bow eow v Hi Hv|n ws mn mx ix bow eow v Hi Hv|ws mn mx ix bow eow v Hi Hv
                 |nb nh seed ws mn mx ix bow eow v Hi Hv];
  destruct Hb as [ws' v' Hv'|e' ws' mn' mx' ix' bow' eow' v' Hi' Hv'|n' ws' mn' mx' ix' bow' eow' v' Hi' Hv'
                 |ws' mn' mx' ix' bow' eow' v' Hi' Hv'|nb' nh' seed' ws' mn' mx' ix' bow' eow' v' Hi' Hv'];
  cbn [wrap_eq same_vocab]; try (split; (split; [discriminate || tauto|discriminate])).
  - unfold simple_new in Hv, Hv'. rinv Hv. rinv Hv'. inv H0. inv H2.
    unfold simple_eq. cbn [sm_indices sm_words]. rewrite andb_true_iff, strs_eq_iff. split; split.
    + intros [_ ->]. reflexivity.
    + intros X. inv X. split; auto. apply hm_eq_refl, ci_keys_NoDup.
    + intros ->. reflexivity.
    + congruence.
  - apply sub_built_fields in Hv, Hv'. subst. destruct (hash_eq_iff _ _ _ _ Hi Hi') as [E S].
    edestruct (sub_eq_iff hash_eq (fun i j => hi_exp i = hi_exp j)) as [X Y]; [exact E|exact S|].
    rewrite X, Y. split; split; congruence.
  - apply sub_built_fields in Hv, Hv'. subst.
    edestruct (sub_eq_iff ft_eq (fun i j => fi_buckets i = fi_buckets j)) as [X Y];
      [apply ft_eq_iff|apply ft_eq_iff|].
    rewrite X, Y. split; split; congruence.
  - apply sub_built_fields in Hv, Hv'. subst. destruct (explicit_eq_iff _ _ Hi Hi') as [E S].
    edestruct (sub_eq_iff explicit_eq (fun i j => ei_ngrams i = ei_ngrams j /\
      forall g, explicit_index i (swcl_new g) = explicit_index j (swcl_new g))) as [X Y]; [exact E|exact S|].
    rewrite X, Y. split; split; congruence.
  - apply sub_built_fields in Hv, Hv'. subst.
    edestruct (sub_eq_iff floret_eq (fun i j =>
      fl_buckets i = fl_buckets j /\ fl_seed i = fl_seed j /\ fl_hashes i = fl_hashes j)) as [X Y];
      [apply floret_eq_iff|apply floret_eq_iff|].
    rewrite X, Y. split; split; congruence.
Qed.

(** Equality of vocabularies, whichever profiles built them. *)
Lemma vocab_equality pf pf' a b : vocab_accepted pf a -> vocab_accepted pf' b ->
  (wrap_eq a b = true <-> same_vocab a b).
Proof. intros Ha Hb. destruct (wrap_eq_iff _ _ _ _ Ha Hb) as [-> ->]. tauto. Qed.

(** Equal vocabularies cannot be told apart. *)
Lemma vocab_equal_same pf pf' a b : vocab_accepted pf a -> vocab_accepted pf' b -> wrap_eq a b = true ->
  (forall p w, v_idx wrap_ops p a w = v_idx wrap_ops p b w) /\
  (forall p w, subword_indices_of p a w = subword_indices_of p b w) /\
  (forall p, v_vocab_len wrap_ops p a = v_vocab_len wrap_ops p b) /\
  v_words_len wrap_ops a = v_words_len wrap_ops b /\
  (forall pos, run_writer (write_vocab_wrap a) pos = run_writer (write_vocab_wrap b) pos).
Proof. intros Ha Hb E. apply (proj1 (wrap_eq_iff _ _ _ _ Ha Hb)) in E. subst. auto. Qed.

Lemma vocab_equal_refl pf a : vocab_accepted pf a -> wrap_eq a a = true.
Proof. intros Ha. apply (proj1 (wrap_eq_iff _ _ _ _ Ha Ha)). reflexivity. Qed.

(** ** Infallible indexers *)

(** Every list of strings misses one. *)
Lemma fresh_string (l : list str) : exists g, utf8_valid g = true /\ ~ In g l.
Proof.
  exists (repeat x61 (S (list_max (map (@length byte) l)))). split.
  - apply ascii_valid. intros b H. apply repeat_spec in H. subst. reflexivity.
  - intros H. apply (in_map (@length byte)) in H. rewrite repeat_length in H.
    pose proof (proj1 (list_max_le (map (@length byte) l) (list_max (map (@length byte) l))) (le_n _)) as M.
    rewrite Forall_forall in M. specialize (M _ H). lia.
Qed.

(** [infallible] is true exactly for the indexers that give every string an
    index: the hash indexer with any number of buckets, the fastText indexer
    unless it has no buckets (it panics then), and the floret indexer.  The
    explicit indexer knows finitely many n-grams. *)
Lemma infallible_exact :
  (forall exp ix, hash_indexer_new exp = Ok ix ->
     (hash_infallible = true <-> forall g, exists i l, hash_index ix g = Ok (i :: l))) /\
  (forall n ix, n <> 0 -> ft_indexer_new n = Ok ix ->
     (ft_infallible = true <-> forall g, exists i l, ft_index ix g = Ok (i :: l))) /\
  (forall nb nh seed ix, floret_indexer_new nb nh seed = Ok ix ->
     (floret_infallible = true <-> forall g, exists i l, floret_index ix g = Ok (i :: l))) /\
  (forall ix, explicit_built ix ->
     (explicit_infallible = true <->
      forall g, utf8_valid g = true -> exists i l, explicit_index ix (swcl_new g) = Ok (i :: l))).
Proof.
  split; [|split; [|split]].
  - intros exp ix _. split; [|reflexivity]. intros _ g. unfold hash_index. eauto.
  - intros n ix Hn H. split; [|reflexivity]. intros _ g.
    pose proof (ft_index_bound n ix Debug g H Hn) as B. cbn [ix_index ft_ops] in B.
    destruct B as (i & E & _). eauto.
  - intros nb nh seed ix H. split; [|reflexivity]. intros _ g.
    pose proof (floret_index_exact nb nh seed ix g H) as B.
    cbn [ix_index floret_ops] in B. destruct B as ([|i l] & E & L & _); [exfalso|eauto].
    unfold floret_indexer_new, rassert in H. rewrite lenN_nil in L. subst nh. discriminate H.
  - intros ix H. unfold explicit_infallible. split; [discriminate|]. intros G. exfalso.
    destruct (fresh_string (ei_ngrams ix)) as (g & V & NI). destruct (G g V) as (i & l & E).
    unfold explicit_index in E. cbn [swcl_new sw_str] in E.
    destruct (hm_get (ei_index ix) g) as [k|] eqn:K; [|discriminate]. apply NI.
    destruct (explicit_built_facts ix H) as (_ & _ & _ & KA & _). apply KA. eauto.
Qed.
