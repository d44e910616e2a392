(** * The readers accept exactly the grammar of [Grammar]. *)
From Verif Require Import Base BaseFacts Utf8 Stream StreamFacts F32 ChunkIO ChunkFacts Subword
  Vocab VocabFacts Storage StorageFacts Embeddings FileSpec FileFacts ReadFacts Grammar BlindFacts.
From Verif Require FileThms.
Local Open Scope N_scope.

Lemma stream_eta s : s = mkBroken (s_rest s) (s_pos s) (s_broken s).
Proof. destruct s; reflexivity. Qed.

(** ** [after] *)
Lemma after_app s a b s' : after s (a ++ b) s' <-> exists s1, after s a s1 /\ after s1 b s'.
Proof.
  unfold after. split.
  - intros (E & P & B). exists (mkBroken (b ++ s_rest s') (s_pos s + lenN a) (s_broken s)). cbn [s_rest s_pos s_broken].
    rewrite E, app_assoc, P, lenN_app. repeat split; [lia|exact B].
  - intros (s1 & (E1 & P1 & B1) & (E2 & P2 & B2)). rewrite E1, E2, P2, P1, app_assoc, lenN_app. split; [auto|]. split; [lia|congruence].
Qed.
Lemma after_nil s s' : after s [] s' <-> s = s'.
Proof.
  unfold after. cbn [app]. rewrite lenN_nil, N.add_0_r. split.
  - intros (E & P & B). rewrite (stream_eta s), (stream_eta s'), E, P, B. reflexivity.
  - intros ->. auto.
Qed.
Lemma after_start s a s' : after s a s' -> s = mkBroken (a ++ s_rest s') (s_pos s) (s_broken s) /\
  s' = mkBroken (s_rest s') (s_pos s + lenN a) (s_broken s).
Proof. intros (E & P & B). split; [rewrite <- E; apply stream_eta|]. rewrite <- P, <- B. apply stream_eta. Qed.

(** A reader that reads [f a] and yields [a]. *)
Lemma reads_after {A} (m : reader A) f a s s' : reads m (fconst f) a -> after s f s' -> m s = (Ok a, s').
Proof. intros R H. apply after_start in H as [-> ->]. apply R. Qed.

Lemma bind_ok {S A B} (m : M S A) (k : A -> M S B) s a s1 r : m s = (Ok a, s1) -> k a s1 = r -> bind m k s = r.
Proof. intros H H1. unfold bind. rewrite H. exact H1. Qed.

(** ** Primitive readers *)
Lemma exact_iff n s bs s' : read_exact n s = (Ok bs, s') <-> lenN bs = n /\ after s bs s'.
Proof.
  split.
  - intros H. pose proof (blind_kept _ _ _ _ (blind_exact _) H) as B. apply read_exact_inv in H as (E & L & P). unfold after. rewrite L. auto.
  - intros [L H]. subst n. eapply reads_after; [apply reads_exact|exact H].
Qed.
Lemma u32_iff s n s' : read_u32 s = (Ok n, s') <-> n < two32 /\ after s (le_bytes 4 n) s'.
Proof.
  split.
  - intros H. pose proof (blind_kept _ _ _ _ (blind_u32) H) as B. apply read_u32_inv in H as (E & L & P). unfold after. rewrite le_bytes_lenN. auto.
  - intros [L H]. eapply reads_after; [apply reads_u32, L|exact H].
Qed.
Lemma u64_iff s n s' : read_u64 s = (Ok n, s') <-> n < two64 /\ after s (le_bytes 8 n) s'.
Proof.
  split.
  - intros H. pose proof (blind_kept _ _ _ _ (blind_u64) H) as B. apply read_u64_inv in H as (E & L & P). unfold after. rewrite le_bytes_lenN. auto.
  - intros [L H]. eapply reads_after; [apply reads_u64, L|exact H].
Qed.
(** An ignored length. *)
Lemma skip_iff s s' : (exists n, read_u64 s = (Ok n, s')) <-> exists l, lenN l = 8 /\ after s l s'.
Proof.
  split.
  - intros (n & H). apply u64_iff in H as [_ H]. exists (le_bytes 8 n). rewrite le_bytes_lenN. auto.
  - intros (l & L & H). exists (le_value l). destruct (le_bytes_of 8 l L) as [E B]. rewrite pow256_8 in B.
    apply u64_iff. rewrite <- E. auto.
Qed.
Lemma chunk_type_iff c s s' : c <> CHeader ->
  (exists u, ensure_chunk_type c s = (Ok u, s')) <-> after s (le_bytes 4 (chunk_num c)) s'.
Proof.
  intros HC. split.
  - intros (u & H). pose proof (blind_kept _ _ _ _ (blind_chunk_type _) H) as B. apply ensure_chunk_type_inv in H as (_ & E & P). unfold after. rewrite le_bytes_lenN. auto.
  - intros H. exists tt. eapply reads_after; [apply reads_chunk_type, HC|exact H].
Qed.
Lemma data_type_iff t s s' : t < two32 ->
  (exists u, ensure_data_type t s = (Ok u, s')) <-> after s (le_bytes 4 t) s'.
Proof.
  intros HT. split.
  - intros (u & H). pose proof (blind_kept _ _ _ _ (blind_data_type _) H) as B. apply ensure_data_type_inv in H as (E & P). unfold after. rewrite le_bytes_lenN. auto.
  - intros H. exists tt. eapply reads_after; [apply reads_data_type, HT|exact H].
Qed.
Lemma string_iff s w s' : read_string_item s = (Ok w, s') <-> str_ok w /\ after s (string_layout w) s'.
Proof.
  split.
  - intros H. pose proof (blind_kept _ _ _ _ (blind_string) H) as B. apply read_string_item_inv in H as (E & W & P). unfold after. auto.
  - intros [W H]. eapply reads_after; [apply string_codec, W|exact H].
Qed.
Lemma items_iff n s ws s' : read_items n s = (Ok ws, s') <-> lenN ws = n /\ words_ok ws /\ after s (strings_layout ws) s'.
Proof.
  split.
  - intros H. pose proof (blind_kept _ _ _ _ (blind_items _) H) as B. apply read_items_inv in H as (E & W & L & P). unfold after. auto.
  - intros (L & [W B] & H). eapply reads_after; [apply items_codec; auto|exact H].
Qed.
Lemma ngrams_iff n s gs s' : read_ngrams_with_indices n s = (Ok gs, s') <->
  lenN gs = n /\ Forall (fun g => str_ok (fst g) /\ snd g < two64) gs /\ lenN gs * 32 <= isize_max /\
  after s (ngrams_layout gs) s'.
Proof.
  unfold read_ngrams_with_indices. split.
  - intros X7. minv X7 as u' X9. apply reserve_inv in X9 as [R ->].
    pose proof (blind_kept _ _ _ _ (blind_repeat _ _ blind_ngram) X7) as B.
    apply (repeat_m_inv _ ngram_bytes (fun g => str_ok (fst g) /\ snd g < two64)) in X7 as (E & F & L & P);
      [|apply read_ngram_item_inv].
    rewrite L. unfold after. auto 9.
  - intros (L & F & R & H). subst n. eapply bind_ok; [apply reserve_ok; exact R|].
    eapply reads_after; [|exact H]. apply reads_repeat_const. intros [g i] Hg. rewrite Forall_forall in F.
    destruct (F _ Hg). apply ngram_item_codec; auto.
Qed.
Lemma floats_iff n s l s' : read_f32s n s = (Ok l, s') <-> lenN l = n /\ after s (floats_layout l) s'.
Proof.
  split.
  - intros H. pose proof (blind_kept _ _ _ _ (blind_f32s _) H) as B. apply read_f32s_inv in H as (E & L & P). unfold after. change (floats_layout l) with (f32s_bytes l).
    rewrite f32s_bytes_lenN, L. rewrite P. auto with arith.
  - intros [L H]. eapply reads_after; [apply reads_f32s; auto|exact H].
Qed.
Lemma header_iff s ids s' : read_header s = (Ok ids, s') <-> header_at s ids s'.
Proof.
  unfold header_at. split.
  - intros H. pose proof (blind_kept _ _ _ _ (blind_header) H) as B. apply read_header_inv in H as (E & NI & L & P). unfold after. auto.
  - intros (NI & L & H). eapply reads_after; [apply header_codec|exact H]; auto.
Qed.

(** ** Padding *)
Lemma padded_iff s head data s' : after_padded s head data s' <->
  exists s1 s2, after s head s1 /\ seek_forward (padding4 (s_pos s1)) s1 = (Ok tt, s2) /\ after s2 data s'.
Proof.
  unfold after_padded. split.
  - intros (pad & R & M & P & B & C).
    assert (pad = padding4 (s_pos s + lenN head)) as -> by (unfold padding4; lia).
    set (q := s_pos s + lenN head) in *.
    destruct C as [(p & L & E)|(p & L & E & -> & E')].
    + exists (mkBroken (p ++ data ++ s_rest s') q (s_broken s)), (mkBroken (data ++ s_rest s') (q + padding4 q) (s_broken s)).
      unfold after, seek_forward. cbn [s_rest s_pos s_broken]. rewrite lenN_app, L.
      destruct (N.leb_spec (padding4 q) (padding4 q + lenN (data ++ s_rest s'))); [|lia].
      rewrite <- L at 1. rewrite dropN_app. auto.
    + exists (mkBroken p q (s_broken s)), (mkBroken [] (q + padding4 q) (s_broken s)).
      unfold after, seek_forward. cbn [s_rest s_pos s_broken]. destruct (N.leb_spec (padding4 q) (lenN p)); [lia|].
      rewrite E', P. auto.
  - intros (s1 & s2 & (E1 & P1 & B1) & E & (E2 & P2 & B2)). exists (padding4 (s_pos s1)).
    unfold seek_forward in E. inv E. cbn [s_rest s_pos s_broken] in *. rewrite <- P1.
    split; [apply padding4_range|]. split; [apply padding4_aligned|]. split; [exact P2|]. split; [congruence|].
    destruct (N.leb_spec (padding4 (s_pos s1)) (lenN (s_rest s1))) as [L|L].
    + left. exists (takeN (padding4 (s_pos s1)) (s_rest s1)). rewrite lenN_takeN, <- E2, takeN_dropN.
      split; [lia|exact E1].
    + right. exists (s_rest s1). symmetry in E2. apply app_eq_nil in E2. tauto.
Qed.

(** Steps of a reader backwards: turn [after] hypotheses into steps. *)
Ltac split_after := repeat match goal with
  | H : after _ (_ ++ _) _ |- _ => apply after_app in H as (? & ? & H)
  end.
Ltac step_chunk := match goal with
  | H : after ?s (le_bytes 4 _) ?s1 |- bind (ensure_chunk_type ?c) _ ?s = _ =>
      let HC := fresh in assert (c <> CHeader) as HC by discriminate;
      destruct (proj2 (chunk_type_iff c s s1 HC) H) as (? & ?);
      eapply bind_ok; [eassumption|]; clear HC H
  end.
Ltac step_skip := match goal with
  | H : after ?s ?l ?s1, L : lenN ?l = 8 |- bind read_u64 _ ?s = _ =>
      destruct (proj2 (skip_iff s s1) (ex_intro _ l (conj L H))) as (? & ?);
      eapply bind_ok; [eassumption|]; clear H
  end.
Ltac step_type := match goal with
  | H : after ?s (le_bytes 4 ?t) ?s1 |- bind (ensure_data_type _) _ ?s = _ =>
      destruct (proj2 (data_type_iff t s s1 eq_refl) H) as (? & ?);
      eapply bind_ok; [eassumption|]; clear H
  end.
Ltac step_int := match goal with
  | H : after ?s (le_bytes 4 ?n) ?s1 |- bind read_u32 _ ?s = _ =>
      eapply bind_ok; [apply u32_iff; split; [|exact H]|]; clear H
  | H : after ?s (le_bytes 8 ?n) ?s1 |- bind read_u64 _ ?s = _ =>
      eapply bind_ok; [apply u64_iff; split; [|exact H]|]; clear H
  end.
Ltac step_lift := match goal with
  | H : ?r = Ok ?a |- bind (lift ?r) _ ?s = _ =>
      eapply (bind_ok _ _ s a s); [unfold lift; rewrite H; reflexivity|]
  | H : ?r = Ok ?a |- lift ?r ?s = _ => unfold lift; rewrite H; reflexivity
  end.

Lemma words_len ws : words_ok ws -> lenN ws < two64.
Proof. intros [_ L]. unfold isize_max, two64 in *. lia. Qed.

(** ** Vocabularies *)
Ltac fin_after := repeat (apply after_app; eexists; split; [eassumption|]); eassumption.

Lemma chunk_inv c s u s' : ensure_chunk_type c s = (Ok u, s') -> after s (le_bytes 4 (chunk_num c)) s'.
Proof. intros H. pose proof H as H1. apply ensure_chunk_type_inv in H1 as (C & _ & _). apply (chunk_type_iff c _ _ C). eauto. Qed.
Lemma skip_inv s n s' : read_u64 s = (Ok n, s') -> exists l, lenN l = 8 /\ after s l s'.
Proof. intros H. apply skip_iff. eauto. Qed.
Lemma type_inv s u s' t : t < two32 -> ensure_data_type t s = (Ok u, s') -> after s (le_bytes 4 t) s'.
Proof. intros L H. apply (data_type_iff t _ _ L). eauto. Qed.

Lemma simple_iff pf s v s' : read_simple s = (Ok v, s') <-> vocab_at pf s (VSimple v) s'.
Proof.
  split.
  - unfold read_simple. intros H. minv H as u X0. minv H as l X1. minv H as n X2. minv H as ws X3.
    apply lift_inv in H as [H <-]. apply items_iff in X3 as (<- & W & A3). apply u64_iff in X2 as [_ A2].
    apply skip_inv in X1 as (lb & L & A1). apply chunk_inv in X0.
    apply (va_simple _ _ lb ws); auto. fin_after.
  - intros H. inv H. split_after. unfold read_simple. step_chunk. step_skip. step_int; [apply words_len; auto|].
    eapply bind_ok; [apply items_iff; eauto|]. step_lift.
Qed.

Lemma bucketed_iff {I} (B : bucket_ops I) pf c s v s' : c <> CHeader ->
  read_bucketed B pf c s = (Ok v, s') <->
  exists l ws mn mx n ix, lenN l = 8 /\ words_ok ws /\ mn < two32 /\ mx < two32 /\ n < two32 /\
    bk_new B n = Ok ix /\ sub_new (bk_ops B) pf ws mn mx ix = Ok v /\
    after s (le_bytes 4 (chunk_num c) ++ l ++ le_bytes 8 (lenN ws) ++ le_bytes 4 mn ++ le_bytes 4 mx ++ le_bytes 4 n
             ++ strings_layout ws) s'.
Proof.
  intros HC. split.
  - unfold read_bucketed. intros H. minv H as u X0. minv H as l X1. minv H as n X2. minv H as mn X3. minv H as mx X4.
    minv H as b X5. minv H as ws X6. minv H as ix X7. apply lift_inv in X7 as [X7 ->]. apply lift_inv in H as [H <-].
    apply items_iff in X6 as (<- & W & A3). apply u64_iff in X2 as [_ A2].
    apply u32_iff in X3 as [L3 A3']. apply u32_iff in X4 as [L4 A4]. apply u32_iff in X5 as [L5 A5].
    apply skip_inv in X1 as (lb & L & A1). apply chunk_inv in X0.
    exists lb, ws, mn, mx, b, ix. repeat (split; [auto; fail|]). fin_after.
  - intros (l & ws & mn & mx & n & ix & L & W & L1 & L2 & L3 & E1 & E2 & H). split_after. unfold read_bucketed.
    match goal with H : after s _ _ |- _ => destruct (proj2 (chunk_type_iff c _ _ HC) H) as (? & ?) end.
    eapply bind_ok; [eassumption|]. step_skip. step_int; [apply words_len; auto|].
    step_int; [auto|]. step_int; [auto|]. step_int; [auto|].
    eapply bind_ok; [apply items_iff; eauto|]. step_lift. step_lift.
Qed.

Lemma bucket_iff pf s v s' : read_bucketed hash_bucket_ops pf CBucketSubwordVocab s = (Ok v, s') <-> vocab_at pf s (VBucket v) s'.
Proof.
  rewrite bucketed_iff by discriminate. split.
  - intros (l & ws & mn & mx & n & ix & L & W & L1 & L2 & L3 & E1 & E2 & H). apply (va_bucket _ _ l ws mn mx n ix); auto.
  - intros H. inv H. exists l, ws, mn, mx, exp, ix. auto 10.
Qed.
Lemma fasttext_iff pf s v s' : read_bucketed ft_bucket_ops pf CFastTextSubwordVocab s = (Ok v, s') <-> vocab_at pf s (VFastText v) s'.
Proof.
  rewrite bucketed_iff by discriminate. split.
  - intros (l & ws & mn & mx & n & ix & L & W & L1 & L2 & L3 & E1 & E2 & H). apply (va_fasttext _ _ l ws mn mx n ix); auto.
  - intros H. inv H. exists l, ws, mn, mx, n, ix. auto 10.
Qed.

Lemma explicit_iff pf s v s' : read_explicit pf s = (Ok v, s') <-> vocab_at pf s (VExplicit v) s'.
Proof.
  split.
  - unfold read_explicit. intros H. minv H as u X0. minv H as l X1. minv H as nw X2. minv H as ng X3. minv H as mn X4. minv H as mx X5.
    minv H as ws X6. minv H as gs X7. minv H as r X8. apply lift_inv in X8 as [X8 ->]. apply lift_inv in H as [H <-].
    apply items_iff in X6 as (<- & W & A6). apply ngrams_iff in X7 as (<- & F & R & A7).
    apply u64_iff in X2 as [_ A2]. apply u64_iff in X3 as [_ A3]. apply u32_iff in X4 as [L4 A4]. apply u32_iff in X5 as [L5 A5].
    apply skip_inv in X1 as (lb & L & A1). apply chunk_inv in X0. destruct r as [ix o2n].
    apply (va_explicit _ _ lb ws gs mn mx ix o2n); auto. fin_after.
  - intros H. inv H. split_after. unfold read_explicit. step_chunk. step_skip. step_int; [apply words_len; auto|].
    step_int; [unfold isize_max, two64 in *; lia|]. step_int; [auto|]. step_int; [auto|].
    eapply bind_ok; [apply items_iff; eauto|]. eapply bind_ok; [apply ngrams_iff; eauto 6|]. step_lift. cbn [fst]. step_lift.
Qed.

Lemma floret_iff pf s v s' : read_floret pf s = (Ok v, s') <-> vocab_at pf s (VFloret v) s'.
Proof.
  split.
  - unfold read_floret. intros H. minv H as u X0. minv H as l X1. minv H as mn X2. minv H as mx X3. minv H as nb X4. minv H as nh X5.
    destruct ((1 <=? nh) && (nh <=? 4)) eqn:EH; [|unfold fail in H; discriminate]. cbn [negb] in H.
    minv H as seed X6. minv H as bow X7. minv H as eow X8.
    minv H as ix X9. apply lift_inv in X9 as [X9 ->]. apply lift_inv in H as [H <-].
    apply u32_iff in X2 as [L2 A2]. apply u32_iff in X3 as [L3 A3]. apply u64_iff in X4 as [L4 A4].
    apply u32_iff in X5 as [L5 A5]. apply u32_iff in X6 as [L6 A6].
    apply string_iff in X7 as [W7 A7]. apply string_iff in X8 as [W8 A8].
    apply skip_inv in X1 as (lb & L & A1). apply chunk_inv in X0.
    apply andb_true_iff in EH as [EH1 EH2]. apply N.leb_le in EH1, EH2.
    apply (va_floret _ _ lb mn mx nb nh seed bow eow ix); auto. fin_after.
  - intros H. inv H. split_after. unfold read_floret. step_chunk. step_skip.
    step_int; [auto|]. step_int; [auto|]. step_int; [auto|]. step_int; [unfold two32; lia|].
    assert ((1 <=? nh) && (nh <=? 4) = true) as -> by (apply andb_true_iff; split; apply N.leb_le; lia).
    cbn [negb]. step_int; [auto|].
    eapply bind_ok; [apply string_iff; eauto|]. eapply bind_ok; [apply string_iff; eauto|]. step_lift. step_lift.
Qed.

(** The identifier that is looked at first. *)
Lemma peek_chunk_iff s c s' : peek peek_chunk_id s = (Ok c, s') <->
  s' = s /\ c <> CHeader /\ exists s1, after s (le_bytes 4 (chunk_num c)) s1.
Proof.
  unfold peek_chunk_id. split.
  - intros H. apply peek_inv in H as [<- (s1 & H)]. split; [auto|]. minv H as n X. apply lift_inv in H as [H <-].
    apply chunk_of_num_inv in H as [-> C]. apply u32_iff in X as [_ A]. eauto.
  - intros (-> & C & s1 & A). unfold peek, bind. pose proof (chunk_num_lt c).
    rewrite (proj2 (u32_iff _ _ _) (conj H A)). unfold lift. rewrite chunk_of_num_num by auto. reflexivity.
Qed.

Lemma after_prefix s a b s' : after s (a ++ b) s' -> exists s1, after s a s1.
Proof. intros H. apply after_app in H as (s1 & H & _). eauto. Qed.

Lemma vocab_at_id pf s v s' : vocab_at pf s v s' -> exists s1, after s (le_bytes 4 (chunk_num (vocab_wrap_id v))) s1.
Proof. intros H. inv H; eapply after_prefix; eassumption. Qed.

Lemma vocab_iff pf s v s' : read_vocab_wrap pf s = (Ok v, s') <-> vocab_at pf s v s'.
Proof.
  split.
  - unfold read_vocab_wrap. intros H. minv H as id X. apply peek_inv in X as [<- _].
    destruct id; try (unfold fail in H; discriminate); minv H as v0 X1; apply ret_inv in H as [<- <-].
    + apply simple_iff, X1. + apply bucket_iff, X1. + apply fasttext_iff, X1. + apply explicit_iff, X1. + apply floret_iff, X1.
  - intros H. unfold read_vocab_wrap. destruct (vocab_at_id _ _ _ _ H) as (s1 & A).
    eapply bind_ok; [apply peek_chunk_iff; split; [reflexivity|]; split; [|exists s1; exact A]; destruct v; discriminate|].
    destruct v; cbn [vocab_wrap_id].
    + apply simple_iff in H. eapply bind_ok; [exact H|reflexivity].
    + apply explicit_iff in H. eapply bind_ok; [exact H|reflexivity].
    + apply fasttext_iff in H. eapply bind_ok; [exact H|reflexivity].
    + apply floret_iff in H. eapply bind_ok; [exact H|reflexivity].
    + apply bucket_iff in H. eapply bind_ok; [exact H|reflexivity].
Qed.

(** ** Storages *)
Lemma seek_Ok n s u s' : seek_forward n s = (Ok u, s') -> seek_forward n s = (Ok tt, s').
Proof. destruct u. auto. Qed.

Lemma nd_iff s a s' : read_ndarray s = (Ok a, s') <-> storage_at s (SNdArray a) s'.
Proof.
  split.
  - unfold read_ndarray. intros H. pose proof H as HOK. apply read_mmap_ndarray in HOK as [OK _].
    minv H as u X0. minv H as l X1. minv H as r X2. minv H as c X3. minv H as u1 X4. minv H as q X5. minv H as u2 X6.
    minv H as u3 X7. minv H as data X8. apply ret_inv in H as [<- <-]. apply alloc_inv in X7 as [D ->].
    apply u64_iff in X2 as [L2 A2]. apply u32_iff in X3 as [L3 A3]. apply type_inv in X4; [|reflexivity].
    apply skip_inv in X1 as (lb & L & A1). apply chunk_inv in X0. unfold position in X5. inv X5.
    apply seek_Ok in X6. apply floats_iff in X8 as [L8 A8].
    destruct (unflattenN_spec _ _ _ L8) as (_ & EC & LN).
    apply (sa_nd _ lb); auto. apply padded_iff. unfold a2_nrows, storage_floats. cbn [a2_rows a2_cols]. rewrite LN, EC.
    do 2 eexists. split; [fin_after|]. split; [exact X6|exact A8].
  - intros H. inversion H as [l a0 s0 L (W & L1 & L2 & D) A|]; subst. apply padded_iff in A as (s1 & s2 & A & P & A2).
    unfold storage_floats in A2. split_after. unfold read_ndarray. step_chunk. step_skip. step_int; [auto|]. step_int; [auto|]. step_type.
    eapply bind_ok; [reflexivity|]. eapply bind_ok; [exact P|]. eapply bind_ok; [apply alloc_zeros_ok, D|].
    eapply bind_ok; [apply floats_iff; split; [|exact A2]; apply nd_data_len, W|].
    rewrite unflattenN_concat by auto. unfold ret. destruct a; reflexivity.
Qed.

Lemma flag_negb n b : flag n b -> negb (n =? 0) = b.
Proof. intros [_ [H1 H2]]. destruct (N.eqb_spec n 0) as [E|E]; cbn [negb]; [|symmetry; auto]. destruct b; [|reflexivity]. exfalso. apply H2; auto. Qed.
Lemma negb_flag n : n < two32 -> flag n (negb (n =? 0)).
Proof. intros L. split; [auto|]. destruct (N.eqb_spec n 0); cbn [negb]; split; auto; intros; try discriminate; contradiction. Qed.

Definition pq_head (fp fn ql rl nc n : N) : list byte :=
  le_bytes 4 fp ++ le_bytes 4 fn ++ le_bytes 4 ql ++ le_bytes 4 rl ++ le_bytes 4 nc ++ le_bytes 8 n ++ le_bytes 4 1 ++ le_bytes 4 10.

Lemma padded_app s head a b s' : after_padded s head (a ++ b) s' <-> exists s1, after_padded s head a s1 /\ after s1 b s'.
Proof.
  split.
  - intros H. apply padded_iff in H as (s1 & s2 & A & P & B). apply after_app in B as (s3 & B1 & B2).
    exists s3. split; [apply padded_iff; eauto|exact B2].
  - intros (s3 & H & B2). apply padded_iff in H as (s1 & s2 & A & P & B). apply padded_iff. exists s1, s2.
    split; [exact A|]. split; [exact P|]. apply after_app. eauto.
Qed.
Lemma padded_head s a b data s' : after_padded s (a ++ b) data s' <-> exists s1, after s a s1 /\ after_padded s1 b data s'.
Proof.
  split.
  - intros H. apply padded_iff in H as (s1 & s2 & A & P & B). apply after_app in A as (s3 & A1 & A2).
    exists s3. split; [exact A1|]. apply padded_iff. eauto.
  - intros (s3 & A1 & H). apply padded_iff in H as (s1 & s2 & A & P & B). apply padded_iff. exists s1, s2.
    split; [apply after_app; eauto|auto].
Qed.

Lemma pq_iff s n p has s' : read_product_quantizer s = (Ok (n, p, has), s') <->
  exists fp fn, n < two64 /\ pq_ok p /\ flag fp (is_some (pq_proj p)) /\ flag fn has /\
    after_padded s (pq_head fp fn (pq_ql p) (pq_ql p * pq_sub p) (pq_nc p) n) (floats_layout (pq_floats p)) s'.
Proof.
  split.
  - intros H. pose proof H as HOK. apply read_product_quantizer_inv in HOK as [_ OK]. rename H into X2.
    unfold read_product_quantizer in X2. minv X2 as fp Y0. minv X2 as fn Y1. minv X2 as ql Y2. minv X2 as rl Y3.
    minv X2 as nc Y4. minv X2 as n0 Y5. minv X2 as u6 Y6. minv X2 as u7 Y7. minv X2 as u8 Y8. minv X2 as pos Y9.
    minv X2 as u10 Y10. minv X2 as pr Y11. minv X2 as u12 Y12. minv X2 as cdata Y13. minv X2 as q0 Y14.
    apply ret_inv in X2 as [E <-]. inv E. apply lift_inv in Y6 as [Y6 ->]. apply lift_inv in Y14 as [Y14 ->].
    apply alloc_inv in Y12 as [DC ->]. apply u32_iff in Y0 as [L0 A0]. apply u32_iff in Y1 as [L1 A1'].
    apply u32_iff in Y2 as [L2 A2]. apply u32_iff in Y3 as [L3 A3]. apply u32_iff in Y4 as [L4 A4].
    apply u64_iff in Y5 as [L5 A5']. apply type_inv in Y7; [|reflexivity]. apply type_inv in Y8; [|reflexivity].
    unfold position in Y9. inv Y9. apply seek_Ok in Y10. apply floats_iff in Y13 as [L13 A13].
    unfold check_quantizer_invariants in Y6. destruct (N.eqb_spec ql 0) as [|NZ]; [discriminate|].
    destruct (N.eqb_spec (rl mod ql) 0) as [RM|]; [|discriminate].
    assert (ql * (rl / ql) = rl) as ER by (pose proof (N.div_mod rl ql NZ); lia).
    pose proof (pq_new_inv _ _ _ _ _ _ Y14) as EQ. subst p.
    exists fp, fn. split; [exact L5|]. split; [exact OK|]. split; [|split; [apply negb_flag; auto|]].
    + cbn [pq_proj]. destruct (negb (fp =? 0)) eqn:EF.
      * minv Y11 as v0 B0. minv Y11 as d B1. apply ret_inv in Y11 as [<- _]. cbn [is_some]. rewrite <- EF. apply negb_flag; auto.
      * apply ret_inv in Y11 as [<- _]. cbn [is_some]. rewrite <- EF. apply negb_flag; auto.
    + unfold pq_floats, pq_head. cbn [pq_proj pq_cent pq_ql pq_sub pq_nc]. rewrite ER.
      apply padded_iff. do 2 eexists. split; [fin_after|]. split; [exact Y10|]. unfold floats_layout.
      rewrite flat_map_app.
      assert (lenN cdata = ql * (nc * (rl / ql))) as L13' by (rewrite L13; lia).
      assert (concat (concat (map (unflattenN nc (rl / ql)) (unflattenN ql (nc * (rl / ql)) cdata))) = cdata) as ECC.
      { destruct (unflattenN_spec _ _ _ L13') as (FC & EC' & _). rewrite <- EC' at 2.
        clear -FC. induction FC as [|x l Hx FC IH]; [reflexivity|]. cbn [map concat]. rewrite concat_app, IH.
        destruct (unflattenN_spec _ _ _ Hx) as (_ & -> & _). reflexivity. }
      rewrite ECC. apply after_app. eexists. split; [|exact A13].
      destruct (negb (fp =? 0)).
      * minv Y11 as v0 B0. minv Y11 as d B1. apply ret_inv in Y11 as [<- <-]. apply alloc_inv in B0 as [_ ->].
        apply floats_iff in B1 as [LB AB]. cbn [a2_rows]. destruct (unflattenN_spec _ _ _ LB) as (_ & -> & _). exact AB.
      * apply ret_inv in Y11 as [<- <-]. apply after_nil. reflexivity.
  - intros (fp & fn & LR & PQ & FP & FN & A). apply padded_iff in A as (s1 & s2 & A & P & A2). unfold pq_head in A.
    destruct PQ as (PN & PP & PL & PF & PR & PC & PD). destruct p as [pr ql nc sub cent]. unfold pq_rl, pq_floats in *.
    cbn [pq_proj pq_ql pq_nc pq_sub pq_cent] in *.
    assert (ql * nc * sub <> 0) as NZ.
    { unfold pq_new in PN. apply rbind_Ok_inv in PN as (a & R0 & _). apply rassert_Ok, negb_true_iff, N.eqb_neq in R0. exact R0. }
    assert (ql <> 0) as NZ1 by (intros ->; lia).
    assert (ql * sub / ql = sub) as EDIV by (rewrite N.mul_comm; apply N.div_mul; auto).
    assert ((ql * sub) mod ql = 0) as EMOD by (rewrite N.mul_comm; apply N.mod_mul; auto).
    assert (ql <= ql * sub) as LQ.
    { destruct (N.eq_dec sub 0) as [->|]; [lia|]. rewrite <- (N.mul_1_r ql) at 1. apply N.mul_le_mono_l. lia. }
    unfold floats_layout in *. rewrite flat_map_app in *. split_after.
    destruct FP as [FP0 FP1] eqn:EFP; destruct FN as [FN0 FN1] eqn:EFN. clear EFP EFN.
    pose proof (flag_negb _ _ FP) as FB. pose proof (flag_negb _ _ FN) as NB.
    unfold read_product_quantizer. step_int; [exact FP0|]. step_int; [exact FN0|]. step_int; [lia|].
    step_int; [exact PR|]. step_int; [exact PC|]. step_int; [exact LR|].
    eapply bind_ok.
    { unfold lift, check_quantizer_invariants. destruct (N.eqb_spec ql 0); [contradiction|]. rewrite EMOD. reflexivity. }
    step_type. step_type. eapply bind_ok; [reflexivity|]. eapply bind_ok; [exact P|]. rewrite FB.
    eapply bind_ok.
    { instantiate (2 := pr). destruct pr as [pr|]; cbn [is_some].
      - destruct (PP pr eq_refl) as [W D]. eapply bind_ok; [apply alloc_zeros_ok, D|].
        assert (a2_nrows pr = ql * sub /\ a2_cols pr = ql * sub) as [PR1 PR2].
        { unfold pq_new in PN. apply rbind_Ok_inv in PN as (a & _ & PN). apply rbind_Ok_inv in PN as (a' & R1 & _).
          apply rassert_Ok, andb_true_iff in R1 as [Q1 Q2].
          apply N.eqb_eq in Q1, Q2. auto. }
        eapply bind_ok; [apply floats_iff; split; [|eassumption]; rewrite nd_data_len by exact W; rewrite PR1, PR2; reflexivity|].
        unfold a2_wf in W. rewrite PR2 in W. rewrite unflattenN_concat by auto. unfold ret. rewrite <- PR2. destruct pr; reflexivity.
      - unfold ret. match goal with H : after s2 (flat_map f32_bytes []) _ |- _ => apply after_nil in H as -> end. reflexivity. }
    rewrite EDIV. eapply bind_ok; [apply alloc_zeros_ok, PD|].
    destruct (cent_len (mkPq pr ql nc sub cent) PL PF) as [CL CE]. cbn [pq_ql pq_nc pq_sub pq_cent] in CL, CE.
    eapply bind_ok; [apply floats_iff; split; [|eassumption]; rewrite CL; lia|].
    rewrite CE. step_lift. rewrite NB. reflexivity.
Qed.

Lemma qnorms_iff has n s ns s' : read_quantized_norms has n s = (Ok ns, s') <->
  is_some ns = has /\ (forall x, ns = Some x -> lenN x = n /\ dims_ok [n] 4) /\
  after s (floats_layout (match ns with Some x => x | None => [] end)) s'.
Proof.
  unfold read_quantized_norms. split.
  - destruct has; intros H.
    + minv H as u B0. minv H as d B1. apply ret_inv in H as [<- <-]. apply alloc_inv in B0 as [D ->].
      apply floats_iff in B1 as [L A]. split; [reflexivity|]. split; [|exact A]. intros x E. inv E. auto.
    + apply ret_inv in H as [<- <-]. split; [reflexivity|]. split; [discriminate|]. apply after_nil. reflexivity.
  - intros (<- & D & A). destruct ns as [x|]; cbn [is_some].
    + destruct (D x eq_refl) as [<- DN]. eapply bind_ok; [apply alloc_zeros_ok, DN|].
      eapply bind_ok; [apply floats_iff; split; [reflexivity|exact A]|]. reflexivity.
    + apply after_nil in A as ->. reflexivity.
Qed.

Lemma qa_iff s q s' : read_quantized s = (Ok q, s') <-> storage_at s (SQuantized q) s'.
Proof.
  assert (storage_floats (SQuantized q) = pq_floats (qa_pq q) ++ match qa_norms q with Some ns => ns | None => [] end) as EF
    by apply app_assoc.
  split.
  - intros H. pose proof H as HOK. apply read_mmap_quantized in HOK as [OK _]. unfold read_quantized in H.
    minv H as u0 X0. minv H as l X1. minv H as r X2. destruct r as [[n p] has].
    minv H as ns X3. minv H as u4 X4. apply alloc_inv in X4 as [D ->]. minv H as data X5. apply ret_inv in H as [<- <-].
    apply skip_inv in X1 as (lb & L & A1). apply chunk_inv in X0. apply exact_iff in X5 as [LD A5].
    destruct (unflattenN_spec _ _ _ LD) as (_ & EC & LN).
    apply pq_iff in X2 as (fp & fn & L5 & PQ & FP & FN & A2). apply qnorms_iff in X3 as (<- & _ & A3).
    apply (sa_qa _ lb _ fp fn); auto. rewrite EF. unfold a2_nrows. cbn [qa_pq qa_codes qa_norms a2_rows]. rewrite LN, EC.
    apply padded_head. eexists. split; [exact X0|]. apply padded_head. eexists. split; [exact A1|].
    apply padded_app. eexists. split; [|exact A5]. unfold floats_layout. rewrite flat_map_app.
    apply padded_app. eexists. split; [exact A2|exact A3].
  - intros H. inversion H as [|l q0 fp fn s0 L OK FP FN A]; subst. rewrite EF in A.
    apply padded_head in A as (s1 & A1 & A). apply padded_head in A as (s2 & A2 & A).
    apply padded_app in A as (s3 & A & A3). unfold floats_layout in A. rewrite flat_map_app in A. apply padded_app in A as (s4 & A & A4).
    destruct OK as (PQ & WC & CC & LR & DC & NO). unfold read_quantized. step_chunk. step_skip.
    eapply bind_ok; [apply pq_iff; exists fp, fn; split; [exact LR|]; split; [exact PQ|]; split; [exact FP|]; split; [exact FN|exact A]|].
    cbv beta iota. eapply bind_ok.
    { apply qnorms_iff. split; [reflexivity|]. split; [|exact A4]. intros y E. destruct (NO y E) as [<- D]. auto. }
    eapply bind_ok; [apply alloc_zeros_ok, DC|].
    eapply bind_ok; [apply exact_iff; split; [|exact A3]; rewrite <- CC; apply concat_lenN, WC|].
    unfold a2_wf in WC. rewrite CC in WC. rewrite unflattenN_concat by auto. unfold ret. rewrite <- CC.
    destruct q as [p [c r] n]; reflexivity.
Qed.

Lemma storage_at_id s a s' : storage_at s a s' ->
  exists s1, after s (le_bytes 4 (chunk_num (match a with SNdArray _ | SMmapArray _ => CNdArray | _ => CQuantizedArray end))) s1.
Proof.
  intros H. destruct H as [l a s' _ _ A|l q fp fn s' _ _ _ _ A]; apply padded_iff in A as (s1 & s2 & A & _ & _);
  eapply after_prefix; exact A.
Qed.

Lemma storage_iff s a s' : read_storage_wrap s = (Ok a, s') <-> storage_at s a s'.
Proof.
  split.
  - unfold read_storage_wrap. intros H. minv H as id X. apply peek_inv in X as [<- _].
    destruct id; try (unfold fail in H; discriminate); minv H as v0 X1; apply ret_inv in H as [<- <-].
    + apply nd_iff, X1. + apply qa_iff, X1.
  - intros H. unfold read_storage_wrap. destruct (storage_at_id _ _ _ H) as (s1 & A).
    eapply bind_ok; [apply peek_chunk_iff; split; [reflexivity|]; split; [|exists s1; exact A]; destruct a; discriminate|].
    pose proof H as H0. inv H0.
    + apply nd_iff in H. eapply bind_ok; [exact H|reflexivity].
    + apply qa_iff in H. eapply bind_ok; [exact H|reflexivity].
Qed.

(** ** Norms, metadata *)
Lemma norms_iff s ns s' : read_norms s = (Ok ns, s') <-> norms_at s ns s'.
Proof.
  unfold norms_at. split.
  - unfold read_norms. intros H. minv H as u0 X0. minv H as l X1. minv H as n X2. minv H as u3 X3. minv H as pos X4.
    minv H as u5 X5. minv H as u6 X6. apply reserve_inv in X6 as [R ->]. apply floats_iff in H as [<- A7].
    apply u64_iff in X2 as [L2 A2]. apply type_inv in X3; [|reflexivity]. apply skip_inv in X1 as (lb & L & A1).
    apply chunk_inv in X0. unfold position in X4. inv X4. apply seek_Ok in X5.
    split; [exact R|]. exists lb. split; [exact L|]. apply padded_iff. do 2 eexists. split; [fin_after|]. eauto.
  - intros (R & l & L & A). apply padded_iff in A as (s1 & s2 & A & P & A2). split_after.
    unfold read_norms. step_chunk. step_skip. step_int; [unfold isize_max, two64 in *; lia|]. step_type.
    eapply bind_ok; [reflexivity|]. eapply bind_ok; [exact P|]. eapply bind_ok; [apply reserve_ok, R|].
    apply floats_iff. auto.
Qed.

Lemma bind_Panic_inv {S A B} (m : M S A) (k : A -> M S B) s p s' : bind m k s = (Panic p, s') ->
  m s = (Panic p, s') \/ exists a s1, m s = (Ok a, s1) /\ k a s1 = (Panic p, s').
Proof.
  unfold bind. destruct (m s) as [[a|e|q] s1] eqn:E; intros H.
  - right. eauto.
  - inv H.
  - inv H. left. reflexivity.
Qed.
Lemma read_exact_np n s p s' : read_exact n s <> (Panic p, s').
Proof. unfold read_exact. destruct (n <=? _); discriminate. Qed.
Lemma read_u64_np s p s' : read_u64 s <> (Panic p, s').
Proof. unfold read_u64, bind, read_exact. destruct (8 <=? lenN (s_rest s)); unfold ret; discriminate. Qed.
Lemma chunk_type_np c s p s' : ensure_chunk_type c s <> (Panic p, s').
Proof.
  unfold ensure_chunk_type. intros H. apply bind_Panic_inv in H as [H|(n & s1 & _ & H)]; [eapply read_u32_not_panic; eauto|].
  apply bind_Panic_inv in H as [H|(d & s2 & _ & H)].
  - unfold lift, chunk_of_num in H. repeat match type of H with (match ?x with _ => _ end, _) = _ => destruct x; try discriminate end.
  - destruct (chunk_eqb d c); unfold ret, fail in H; discriminate.
Qed.
Lemma data_type_np t s p s' : ensure_data_type t s <> (Panic p, s').
Proof.
  unfold ensure_data_type. intros H. apply bind_Panic_inv in H as [H|(n & s1 & _ & H)]; [eapply read_u32_not_panic; eauto|].
  destruct (n =? t); unfold ret, fail in H; discriminate.
Qed.

Lemma norms_panic_iff s : (exists p s', read_norms s = (Panic p, s')) <-> norms_too_long s.
Proof.
  unfold norms_too_long. split.
  - intros (p & s' & H). unfold read_norms in H.
    apply bind_Panic_inv in H as [H|(u0 & s0 & X0 & H)]; [exfalso; eapply chunk_type_np; eauto|].
    apply bind_Panic_inv in H as [H|(l & s1 & X1 & H)]; [exfalso; eapply read_u64_np; eauto|].
    apply bind_Panic_inv in H as [H|(n & s2 & X2 & H)]; [exfalso; eapply read_u64_np; eauto|].
    apply bind_Panic_inv in H as [H|(u3 & s3 & X3 & H)]; [exfalso; eapply data_type_np; eauto|].
    apply bind_Panic_inv in H as [H|(pos & s4 & X4 & H)]; [discriminate|].
    apply bind_Panic_inv in H as [H|(u5 & s5 & X5 & H)]; [discriminate|].
    apply bind_Panic_inv in H as [H|(u6 & s6 & X6 & H)].
    + unfold reserve in H. destruct (N.leb_spec (n * 4) isize_max) as [|LT]; [discriminate|].
      apply u64_iff in X2 as [L2 A2]. apply type_inv in X3; [|reflexivity]. apply skip_inv in X1 as (lb & L & A1).
      apply chunk_inv in X0. exists lb, n, (s_rest s3). split; [auto|]. split; [auto|]. split; [auto|].
      destruct X0 as [-> _], A1 as [-> _], A2 as [-> _], X3 as [-> _]. reflexivity.
    + exfalso. unfold read_f32s in H. apply bind_Panic_inv in H as [H|(bs & s7 & _ & H)]; [eapply read_exact_np; eauto|discriminate].
  - intros (l & n & rest & L & Ln & LT & E).
    assert (after s (le_bytes 4 6 ++ l ++ le_bytes 8 n ++ le_bytes 4 10)
      (mkBroken rest (s_pos s + lenN (le_bytes 4 6 ++ l ++ le_bytes 8 n ++ le_bytes 4 10)) (s_broken s))) as A.
    { split; [cbn [s_rest]; rewrite E, <- !app_assoc; reflexivity|split; reflexivity]. }
    set (s9 := mkBroken _ _ _) in A. clearbody s9. split_after. do 2 eexists.
    unfold read_norms. step_chunk. step_skip. step_int; [auto|]. step_type.
    eapply bind_ok; [reflexivity|]. eapply bind_ok; [reflexivity|]. unfold bind, reserve.
    destruct (N.leb_spec (n * 4) isize_max); [lia|]. reflexivity.
Qed.

Lemma metadata_iff T s t s' : read_metadata_chunk T s = (Ok t, s') <-> metadata_at T s t s'.
Proof.
  unfold metadata_at. split.
  - unfold read_metadata_chunk. intros H. minv H as u0 X0. minv H as n X1. minv H as u2 X2. minv H as bs X3.
    apply reserve_inv in X2 as [R ->]. destruct (utf8_valid bs) eqn:U; [|unfold fail in H; discriminate].
    destruct (toml_parse T bs) eqn:TP; [|unfold fail in H; discriminate]. apply ret_inv in H as [<- <-].
    apply chunk_inv in X0. apply u64_iff in X1 as [_ A1]. apply exact_iff in X3 as [<- A3].
    exists bs. split; [auto|]. split; [auto|]. split; [lia|]. fin_after.
  - intros (bs & TP & U & L & A). split_after. unfold read_metadata_chunk. step_chunk.
    step_int; [unfold isize_max, two64 in *; lia|]. eapply bind_ok; [apply reserve_ok; lia|].
    eapply bind_ok; [apply exact_iff; eauto|]. rewrite U, TP. reflexivity.
Qed.


(** ** Mapped storages *)
Lemma mul64_iff pf a b c : mul64 pf a b = Ok c <-> product pf a b c.
Proof.
  unfold mul64, product. destruct (N.ltb_spec (a * b) two64) as [L|L].
  - rewrite N.mod_small by exact L. split; [intros H; inv H; auto|intros [-> _]; reflexivity].
  - destruct pf; split.
    + discriminate. + intros [_ H]. specialize (H eq_refl). lia.
    + intros H. inv H. split; [reflexivity|discriminate]. + intros [-> _]. reflexivity.
Qed.
Lemma window_iff len s m s' : window s len m s' <-> mmap_region len s = (Ok m, s) /\ seek_forward len s = (Ok tt, s').
Proof.
  unfold window, mmap_region, seek_forward.
  assert ((if len <=? lenN (s_rest s) then dropN len (s_rest s) else []) = dropN len (s_rest s)) as ->.
  { destruct (N.leb_spec len (lenN (s_rest s))); [reflexivity|]. symmetry. apply dropN_all. lia. }
  destruct (N.leb_spec len isize_max); split.
  - intros (_ & -> & ->). auto.
  - intros [E1 E2]. inv E1. inv E2. auto.
  - intros (L & _). lia.
  - intros [E _]. discriminate.
Qed.
Lemma window_inv len s m s1 u s' : mmap_region len s = (Ok m, s1) -> seek_forward len s1 = (Ok u, s') -> window s len m s'.
Proof.
  intros H1 H2. assert (s1 = s) as -> by (unfold mmap_region in H1; destruct (len <=? isize_max); inv H1; auto).
  destruct u. apply window_iff. auto.
Qed.

Lemma mapped_nd_iff pf s a s' : mmap_ndarray pf s = (Ok a, s') <-> mapped_at pf s (SMmapArray a) s'.
Proof.
  split.
  - unfold mmap_ndarray. intros H.
    minv H as u X0. minv H as l X1. minv H as r X2. minv H as c X3. minv H as u1 X4. minv H as q X5. minv H as u2 X6.
    minv H as size X7. minv H as len X8. minv H as m X9. minv H as u10 X10. apply ret_inv in H as [<- <-].
    apply lift_inv in X7 as [X7 <-]. apply lift_inv in X8 as [X8 <-]. apply mul64_iff in X7, X8.
    apply u64_iff in X2 as [L2 A2]. apply u32_iff in X3 as [L3 A3]. apply type_inv in X4; [|reflexivity].
    apply skip_inv in X1 as (lb & L & A1). apply chunk_inv in X0. unfold position in X5. inv X5. apply seek_Ok in X6.
    pose proof (window_inv _ _ _ _ _ _ X9 X10) as W. eapply mpa_nd; eauto.
    apply padded_iff. do 2 eexists. split; [fin_after|]. split; [exact X6|]. apply after_nil. reflexivity.
  - intros H. inversion H as [l rows cols size len m s1 s0 L LR LC P1 P2 A W|]; subst.
    apply padded_iff in A as (s2 & s3 & A & P & A2). apply after_nil in A2 as <-. apply mul64_iff in P1, P2.
    apply window_iff in W as [W1 W2]. split_after.
    unfold mmap_ndarray. step_chunk. step_skip. step_int; [auto|]. step_int; [auto|]. step_type.
    eapply bind_ok; [reflexivity|]. eapply bind_ok; [exact P|]. step_lift. step_lift.
    eapply bind_ok; [exact W1|]. eapply bind_ok; [exact W2|]. reflexivity.
Qed.
Lemma mapped_qa_iff pf s q s' : mmap_quantized_chunk pf s = (Ok q, s') <-> mapped_at pf s (SMmapQuantized q) s'.
Proof.
  split.
  - unfold mmap_quantized_chunk. intros H. minv H as u0 X0. minv H as l X1. minv H as r X2. destruct r as [[n p] has].
    minv H as ns X3. minv H as len X4. minv H as m X5. minv H as u6 X6. apply ret_inv in H as [<- <-].
    apply lift_inv in X4 as [X4 <-]. apply mul64_iff in X4. pose proof (window_inv _ _ _ _ _ _ X5 X6) as W.
    apply skip_inv in X1 as (lb & L & A1). apply chunk_inv in X0.
    apply pq_iff in X2 as (fp & fn & L5 & PQ & FP & FN & A2). apply qnorms_iff in X3 as (<- & D & A3).
    eapply mpa_qa; eauto.
    apply padded_head. eexists. split; [exact X0|]. apply padded_head. eexists. split; [exact A1|].
    unfold floats_layout. rewrite flat_map_app. apply padded_app. eexists. split; [exact A2|exact A3].
  - intros H. inversion H as [|l p n ns fp fn len m s1 s0 L PQ LR FP FN D P1 A W]; subst.
    apply padded_head in A as (s2 & A1 & A). apply padded_head in A as (s3 & A2 & A).
    unfold floats_layout in A. rewrite flat_map_app in A. apply padded_app in A as (s4 & A & A4).
    apply mul64_iff in P1. apply window_iff in W as [W1 W2]. unfold mmap_quantized_chunk. step_chunk. step_skip.
    eapply bind_ok; [apply pq_iff; exists fp, fn; split; [exact LR|]; split; [exact PQ|]; split; [exact FP|]; split; [exact FN|exact A]|].
    cbv beta iota. eapply bind_ok; [apply qnorms_iff; split; [reflexivity|]; split; [exact D|exact A4]|]. step_lift.
    eapply bind_ok; [exact W1|]. eapply bind_ok; [exact W2|]. reflexivity.
Qed.

Lemma mapped_at_id pf s a s' : mapped_at pf s a s' ->
  exists s1, after s (le_bytes 4 (chunk_num (match a with SNdArray _ | SMmapArray _ => CNdArray | _ => CQuantizedArray end))) s1.
Proof.
  intros H. destruct H as [l rows cols size len m s1 s' _ _ _ _ _ A _|l p n ns fp fn len m s1 s' _ _ _ _ _ _ _ A _];
  apply padded_head in A as (s2 & A & _); eauto.
Qed.

Lemma mapped_iff pf s a s' : mmap_storage_wrap pf s = (Ok a, s') <-> mapped_at pf s a s'.
Proof.
  split.
  - unfold mmap_storage_wrap. intros H. minv H as id X. apply peek_inv in X as [<- _].
    destruct id; try (unfold fail in H; discriminate); minv H as v0 X1; apply ret_inv in H as [<- <-].
    + apply mapped_nd_iff, X1. + apply mapped_qa_iff, X1.
  - intros H. unfold mmap_storage_wrap. destruct (mapped_at_id _ _ _ _ H) as (s1 & A).
    eapply bind_ok; [apply peek_chunk_iff; split; [reflexivity|]; split; [|exists s1; exact A]; destruct a; discriminate|].
    destruct a.
    + inversion H. + inversion H.
    + apply mapped_nd_iff in H. eapply bind_ok; [exact H|reflexivity].
    + apply mapped_qa_iff in H. eapply bind_ok; [exact H|reflexivity].
Qed.

(** ** Files *)
Lemma embeddings_iff pf T rs (sat : stream -> storage_wrap -> stream -> Prop) s (e : emb T) :
  (forall s a s', rs s = (Ok a, s') <-> sat s a s') ->
  (exists s', read_embeddings T (read_vocab_wrap pf) rs s = (Ok e, s')) <->
  exists id ids s1 s2 s3 s4, header_at s (id :: ids) s1 /\
  match em_meta e with
  | Some t => id = CMetadata /\ metadata_at T s1 t s2
  | None => id <> CMetadata /\ s2 = s1
  end /\
  vocab_at pf s2 (em_vocab e) s3 /\ sat s3 (em_storage e) s4 /\
  match em_norms e with
  | Some ns => exists s5, norms_at s4 ns s5
  | None => ~ (exists ns s5, norms_at s4 ns s5) /\ ~ norms_too_long s4
  end.
Proof.
  intros storage_iff. split.
  - intros (s' & H). apply read_embeddings_inv in H as (ids & s1 & s2 & s3 & s4 & HH & HM & HV & HS & HN).
    apply header_iff in HH. apply vocab_iff in HV. apply storage_iff in HS.
    destruct ids as [|id ids]; [contradiction|]. exists id, ids, s1, s2, s3, s4. split; [exact HH|].
    split; [|split; [exact HV|split; [exact HS|]]].
    + destruct id; try (destruct HM as [-> ->]; split; [discriminate|reflexivity]).
      destruct HM as (t & -> & HM). apply metadata_iff in HM. auto.
    + unfold ok_opt in HN. destruct (read_norms s4) as [[ns|err|p] s5] eqn:EN; inv HN.
      * apply norms_iff in EN. eauto.
      * split.
        -- intros (ns & s5 & X). apply norms_iff in X. rewrite X in EN. discriminate.
        -- intros X. apply norms_panic_iff in X as (p & s5 & X). rewrite X in EN. discriminate.
  - intros (id & ids & s1 & s2 & s3 & s4 & HH & HM & HV & HS & HN). destruct e as [md st v ns].
    cbn [em_meta em_vocab em_storage em_norms] in *.
    apply header_iff in HH. apply vocab_iff in HV. apply storage_iff in HS.
    assert ((if chunk_eqb id CMetadata then t <- read_metadata_chunk T ;; ret (Some t) else ret None) s1 = (Ok md, s2)) as HM'.
    { destruct md as [t|].
      - destruct HM as [-> HM]. apply metadata_iff in HM. eapply bind_ok; [exact HM|reflexivity].
      - destruct HM as [C ->]. destruct id; try reflexivity. contradiction. }
    assert (exists s5, ok_opt read_norms s4 = (Ok ns, s5)) as (s5 & HN').
    { unfold ok_opt. destruct ns as [ns|].
      - destruct HN as (s5 & HN). apply norms_iff in HN. rewrite HN. eauto.
      - destruct HN as [N1 N2]. destruct (read_norms s4) as [[ns|err|p] s5] eqn:EN; [|eauto|].
        + exfalso. apply N1. apply norms_iff in EN. eauto.
        + exfalso. apply N2, norms_panic_iff. eauto. }
    exists s5. unfold read_embeddings.
    eapply bind_ok; [exact HH|]. eapply bind_ok; [exact HM'|]. eapply bind_ok; [exact HV|].
    eapply bind_ok; [exact HS|]. eapply bind_ok; [exact HN'|]. reflexivity.
Qed.
Lemma file_iff pf T s e : (exists s', read_file pf T s = (Ok e, s')) <-> file_at pf T s e.
Proof. apply embeddings_iff, storage_iff. Qed.
Lemma mapped_file_iff pf T s e : (exists s', mmap_file pf T s = (Ok e, s')) <-> mapped_file_at pf T s e.
Proof. apply (embeddings_iff pf T (mmap_storage_wrap pf) (mapped_at pf)), mapped_iff. Qed.

(** ** Consequences *)
Lemma file_unambiguous pf T s e1 e2 : file_at pf T s e1 -> file_at pf T s e2 -> e1 = e2.
Proof. intros H1 H2. apply file_iff in H1 as (s1 & H1). apply file_iff in H2 as (s2 & H2). rewrite H1 in H2. inv H2. reflexivity. Qed.

(** What is read as a plain or quantized file can be mapped and vice versa,
    if the data are there. *)
Lemma takeN_takeN {A} a b (l : list A) : takeN a (takeN b l) = takeN (N.min a b) l.
Proof. unfold takeN. rewrite firstn_firstn, N2Nat.inj_min. reflexivity. Qed.
Lemma takeN_dropN_takeN {A} a b c (l : list A) : b + a <= c -> takeN a (dropN b (takeN c l)) = takeN a (dropN b l).
Proof.
  intros L. unfold takeN, dropN. rewrite skipn_firstn_comm, firstn_firstn. f_equal. lia.
Qed.

Lemma mapped_row pf s m s' : mapped_at pf s (SMmapArray m) s' -> ma_rows m * ma_cols m * 4 < two64 ->
  exists head data s1, after_padded s head [] s1 /\ lenN head = 28 /\ s_rest s1 = data /\
  forall i, let size := 4 * ma_cols m in
    (forall row, st_embedding mma_ops m i = Ok row <->
       i < ma_rows m /\ lenN row = ma_cols m /\
       exists pre post, data = pre ++ floats_layout row ++ post /\ lenN pre = i * size) /\
    (st_embedding mma_ops m i = Panic PIndexOutOfBounds <-> ma_rows m <= i) /\
    (st_embedding mma_ops m i = Panic PUnsafe <-> i < ma_rows m /\ lenN data < (i + 1) * size).
Proof.
  intros H O. inversion H as [l rows cols sz len mm s1 s0 L LR LC P1 P2 A W E|]; subst.
  cbn [ma_rows ma_cols] in *. eexists _, (s_rest s1), s1. split; [exact A|].
  split; [rewrite !lenN_app, !le_bytes_lenN, L; reflexivity|]. split; [reflexivity|].
  destruct P1 as [-> _], P2 as [-> _]. destruct W as (Wl & -> & _).
  assert (((rows * cols) mod two64 * 4) mod two64 = rows * cols * 4) as EM
    by (rewrite (N.mod_small (rows * cols)) by lia; apply N.mod_small, O).
  rewrite EM in Wl |- *. clear EM.
  set (data := s_rest s1). intros i. set (size := 4 * cols). cbn [mma_ops st_embedding]. unfold mma_row, mm_read. cbn [ma_rows ma_cols ma_map mm_bytes].
  replace (cols * 4) with size by (unfold size; lia). replace (rows * cols * 4) with (rows * size) by (unfold size; lia).
  replace (i * size + size) with ((i + 1) * size) by lia.
  destruct (N.ltb_spec i rows) as [Li|Li].
  - assert ((i + 1) * size <= rows * size) as LE by (apply N.mul_le_mono_r; lia).
    rewrite lenN_takeN. destruct (N.leb_spec ((i + 1) * size) (N.min (rows * size) (lenN data))) as [L1|L1].
    + cbn [rbind]. rewrite takeN_dropN_takeN by lia.
      assert (lenN (takeN size (dropN (i * size) data)) = size) as LT by (rewrite lenN_takeN, lenN_dropN; lia).
      split; [|split].
      * intros row. split.
        -- intros E. inv E. split; [exact Li|]. split; [rewrite f32s_of_bytes_lenN, LT; unfold size; lia|].
           exists (takeN (i * size) data), (dropN size (dropN (i * size) data)).
           change (floats_layout ?x) with (f32s_bytes x). rewrite f32s_bytes_of_bytes by (rewrite LT; unfold size; lia).
           rewrite !takeN_dropN. split; [reflexivity|]. rewrite lenN_takeN. lia.
        -- intros (_ & LN & pre & post & E & LP). f_equal. rewrite E, <- LP, dropN_app.
           change (floats_layout row) with (f32s_bytes row).
           assert (size = lenN (f32s_bytes row)) as -> by (rewrite f32s_bytes_lenN, LN; reflexivity).
           rewrite takeN_app. apply f32s_of_bytes_bytes.
      * split; [discriminate|lia].
      * split; [discriminate|]. intros [_ X]. lia.
    + cbn [rbind]. split; [|split].
      * intros row. split; [discriminate|]. intros (_ & LN & pre & post & E & LP). exfalso.
        apply (f_equal lenN) in E. rewrite !lenN_app, LP in E. change (floats_layout row) with (f32s_bytes row) in E.
        rewrite f32s_bytes_lenN, LN in E. unfold size in *. lia.
      * split; [discriminate|lia].
      * split; [intros _|reflexivity]. split; [exact Li|lia].
  - split; [|split].
    + intros row. split; [discriminate|]. intros (X & _). lia.
    + tauto.
    + split; [discriminate|intros [X _]; lia].
Qed.

(** Written files. *)
Lemma written_file pf T e s0 base : toml_law T -> emb_built pf T e s0 ->
  exists bytes, run_writer (write_file T e) base = Ok bytes /\
  file_at pf T (mkStream bytes base) (loaded e s0 (em_norms e)).
Proof.
  intros TL EB. destruct (FileThms.file_round_trip pf T e s0 base TL EB) as (bytes & W & R).
  exists bytes. split; [exact W|]. apply file_iff. destruct (R [] (fun _ => FileThms.not_norms_nil)) as (s' & H).
  rewrite app_nil_r in H. eauto.
Qed.
