(** * What a successful read says about the bytes, for arbitrary streams. *)
From Verif Require Import Base BaseFacts Utf8 Stream StreamFacts F32 ChunkIO ChunkFacts Subword
  Vocab VocabFacts Storage StorageFacts Embeddings FileSpec FileFacts.
Local Open Scope N_scope.

(** Inversion of [bind _ _ _ = (Ok _, _)]: [E] is the first step, which
    yields [x]; [H] becomes the rest. *)
Tactic Notation "minv" hyp(H) "as" ident(x) ident(E) :=
  let s := fresh "s" in apply bind_Ok_inv in H as (x & s & E & H).

Lemma read_exact_inv n s bs s' : read_exact n s = (Ok bs, s') ->
  s_rest s = bs ++ s_rest s' /\ lenN bs = n /\ s_pos s' = s_pos s + n.
Proof.
  unfold read_exact. destruct (N.leb_spec n (lenN (s_rest s))) as [L|L]; intros H; inv H.
  cbn [s_rest s_pos]. rewrite takeN_dropN, lenN_takeN. split; [auto|split; [lia|auto]].
Qed.

Lemma ret_inv {S A} (a b : A) (s s' : S) : ret a s = (Ok b, s') -> a = b /\ s = s'.
Proof. unfold ret. intros H. inv H. auto. Qed.

Lemma le_bytes_of n bs : lenN bs = N.of_nat n -> bs = le_bytes n (le_value bs) /\ le_value bs < 256 ^ N.of_nat n.
Proof.
  intros L. split.
  - rewrite <- (le_bytes_value bs) at 1. f_equal. unfold lenN in L. lia.
  - rewrite <- L. apply le_value_lt.
Qed.

Lemma read_u32_inv s n s' : read_u32 s = (Ok n, s') ->
  s_rest s = le_bytes 4 n ++ s_rest s' /\ n < two32 /\ s_pos s' = s_pos s + 4.
Proof.
  unfold read_u32. intros H. minv H as a E0. apply ret_inv in H as [<- <-].
  apply read_exact_inv in E0 as (E & L & P). destruct (le_bytes_of 4 a L) as [E2 L2]. rewrite pow256_4 in L2.
  rewrite E. split; [f_equal; exact E2|auto].
Qed.
Lemma read_u64_inv s n s' : read_u64 s = (Ok n, s') ->
  s_rest s = le_bytes 8 n ++ s_rest s' /\ n < two64 /\ s_pos s' = s_pos s + 8.
Proof.
  unfold read_u64. intros H. minv H as a E0. apply ret_inv in H as [<- <-].
  apply read_exact_inv in E0 as (E & L & P). destruct (le_bytes_of 8 a L) as [E2 L2]. rewrite pow256_8 in L2.
  rewrite E. split; [f_equal; exact E2|auto].
Qed.

Lemma lift_inv {S A} (r : res A) (s : S) a s' : lift r s = (Ok a, s') -> r = Ok a /\ s = s'.
Proof. unfold lift. intros H. inv H. auto. Qed.
Lemma reserve_inv {S} n k (s : S) u s' : reserve n k s = (Ok u, s') -> n * k <= isize_max /\ s = s'.
Proof. unfold reserve. destruct (N.leb_spec (n * k) isize_max); intros H0; inv H0; auto. Qed.
Lemma alloc_inv {S} dims k (s : S) u s' : alloc_zeros dims k s = (Ok u, s') -> dims_ok dims k /\ s = s'.
Proof.
  unfold alloc_zeros, dims_ok. destruct (N.leb_spec (fold_left (fun a d => a * nonzero d) dims 1) isize_max);
  destruct (N.leb_spec (fold_left N.mul dims 1 * k) isize_max); intros X; inv X; auto.
Qed.

Lemma chunk_of_num_inv n c : chunk_of_num n = Ok c -> n = chunk_num c /\ c <> CHeader.
Proof.
  unfold chunk_of_num. intros H.
  repeat match type of H with match ?x with _ => _ end = _ => destruct x; try discriminate end;
  inv H; split; (reflexivity || discriminate).
Qed.

Lemma ensure_chunk_type_inv c s u s' : ensure_chunk_type c s = (Ok u, s') ->
  c <> CHeader /\ s_rest s = le_bytes 4 (chunk_num c) ++ s_rest s' /\ s_pos s' = s_pos s + 4.
Proof.
  unfold ensure_chunk_type. intros H. minv H as n E0. minv H as d E1. apply lift_inv in E1 as [E1 ->].
  destruct (chunk_eqb d c) eqn:E; [|unfold fail in H; discriminate]. apply ret_inv in H as [_ <-].
  apply chunk_eqb_eq in E. subst d. apply chunk_of_num_inv in E1 as [-> HC].
  apply read_u32_inv in E0 as (E & _ & P). auto.
Qed.

Lemma ensure_data_type_inv t s u s' : ensure_data_type t s = (Ok u, s') ->
  s_rest s = le_bytes 4 t ++ s_rest s' /\ s_pos s' = s_pos s + 4.
Proof.
  unfold ensure_data_type. intros H. minv H as a E0. destruct (N.eqb_spec a t) as [->|]; [|unfold fail in H; discriminate].
  apply ret_inv in H as [_ <-]. apply read_u32_inv in E0 as (E & _ & P). auto.
Qed.

(** Repeated reads. *)
Lemma repeat_nat_inv {A} (m : reader A) (f : A -> list byte) (P : A -> Prop) n s l s' :
  (forall s a s', m s = (Ok a, s') -> s_rest s = f a ++ s_rest s' /\ P a /\ s_pos s' = s_pos s + lenN (f a)) ->
  repeat_nat n m s = (Ok l, s') ->
  s_rest s = flat_map f l ++ s_rest s' /\ Forall P l /\ length l = n /\ s_pos s' = s_pos s + lenN (flat_map f l).
Proof.
  intros HM. revert s l. induction n as [|n IH]; intros s l H; cbn [repeat_nat] in H.
  - apply ret_inv in H as [<- <-]. cbn [flat_map app length]. rewrite lenN_nil, N.add_0_r. auto.
  - minv H as a X1. minv H as l' X2. apply ret_inv in H as [<- <-]. apply HM in X1 as (E1 & P1 & Q1).
    apply IH in X2 as (E2 & P2 & L2 & Q2). cbn [flat_map length]. rewrite <- app_assoc, <- E2, lenN_app.
    repeat split; auto. lia.
Qed.
Lemma repeat_m_inv {A} (m : reader A) (f : A -> list byte) (P : A -> Prop) n s l s' :
  (forall s a s', m s = (Ok a, s') -> s_rest s = f a ++ s_rest s' /\ P a /\ s_pos s' = s_pos s + lenN (f a)) ->
  repeat_m n m s = (Ok l, s') ->
  s_rest s = flat_map f l ++ s_rest s' /\ Forall P l /\ lenN l = n /\ s_pos s' = s_pos s + lenN (flat_map f l).
Proof.
  intros HM H. rewrite repeat_m_nat in H. apply (repeat_nat_inv m f P) in H as (E & F & L & Q); auto.
  split; [auto|]. split; [auto|]. split; [|auto]. unfold lenN. lia.
Qed.

(** ** Header *)
Lemma chunk_id_item_inv s c s' : (i <- read_u32 ;; lift (chunk_of_num i)) s = (Ok c, s') ->
  s_rest s = le_bytes 4 (chunk_num c) ++ s_rest s' /\ c <> CHeader /\ s_pos s' = s_pos s + lenN (le_bytes 4 (chunk_num c)).
Proof.
  intros H. minv H as a X. apply lift_inv in H as [H <-]. apply chunk_of_num_inv in H as [-> HC].
  apply read_u32_inv in X as (E & _ & P). auto.
Qed.
Lemma read_header_inv s ids s' : read_header s = (Ok ids, s') ->
  s_rest s = header_bytes ids ++ s_rest s' /\ ~ In CHeader ids /\ lenN ids < two32 /\
  s_pos s' = s_pos s + lenN (header_bytes ids).
Proof.
  unfold read_header. intros H. minv H as mg X0. destruct (str_eqb mg magic) eqn:EM; [|unfold negb, fail in H; discriminate].
  cbn [negb] in H. apply str_eqb_eq in EM. subst mg. minv H as ver X1.
  destruct (N.eqb_spec ver model_version) as [->|]; [|unfold negb, fail in H; discriminate]. cbn [negb] in H.
  minv H as n X2. apply (repeat_m_inv _ (fun c => le_bytes 4 (chunk_num c)) (fun c => c <> CHeader)) in H
    as (E3 & F3 & L3 & Q3); [|apply chunk_id_item_inv].
  apply read_exact_inv in X0 as (E0 & _ & Q0). apply read_u32_inv in X1 as (E1 & _ & Q1).
  apply read_u32_inv in X2 as (E2 & L2 & Q2). subst n. unfold header_bytes.
  split; [rewrite E0, E1, E2, E3, <- !app_assoc; reflexivity|].
  split; [intros HI; rewrite Forall_forall in F3; apply (F3 _ HI); reflexivity|].
  split; [auto|]. rewrite !lenN_app, !le_bytes_lenN. change (lenN magic) with 4. lia.
Qed.

Lemma read_u32_not_panic s p s' : read_u32 s <> (Panic p, s').
Proof.
  unfold read_u32, bind, read_exact. destruct (4 <=? lenN (s_rest s)); unfold ret; discriminate.
Qed.

(** ** Strings *)
Lemma read_string_item_inv s w s' : read_string_item s = (Ok w, s') ->
  s_rest s = string_bytes w ++ s_rest s' /\ str_ok w /\ s_pos s' = s_pos s + lenN (string_bytes w).
Proof.
  unfold read_string_item. intros H. minv H as n X0. minv H as bs X1.
  destruct (utf8_valid bs) eqn:U; [|unfold fail in H; discriminate]. apply ret_inv in H as [<- <-].
  apply read_u32_inv in X0 as (E0 & L0 & Q0). apply read_exact_inv in X1 as (E1 & L1 & Q1). subst n.
  unfold string_bytes, str_ok. rewrite E0, E1, <- app_assoc, lenN_app, le_bytes_lenN.
  repeat split; auto. lia.
Qed.
Lemma read_items_inv n s ws s' : read_items n s = (Ok ws, s') ->
  s_rest s = flat_map string_bytes ws ++ s_rest s' /\ words_ok ws /\ lenN ws = n /\
  s_pos s' = s_pos s + lenN (flat_map string_bytes ws).
Proof.
  unfold read_items. intros H. minv H as u X. apply reserve_inv in X as [R <-].
  apply (repeat_m_inv _ string_bytes str_ok) in H as (E & F & L & Q); [|apply read_string_item_inv].
  unfold words_ok. rewrite L. auto.
Qed.

(** ** Vocabularies: whatever is read could have been constructed *)
Lemma read_simple_inv s v s' : read_simple s = (Ok v, s') -> exists ws, words_ok ws /\ simple_new ws = Ok v.
Proof.
  unfold read_simple. intros H. minv H as u X0. minv H as l X1. minv H as n X2. minv H as ws X3.
  apply lift_inv in H as [H _]. apply read_items_inv in X3 as (_ & W & _ & _). eauto.
Qed.
Lemma read_bucketed_inv {I} (B : bucket_ops I) pf id s v s' : read_bucketed B pf id s = (Ok v, s') ->
  exists ws mn mx n ix, words_ok ws /\ mn < two32 /\ mx < two32 /\ n < two32 /\ bk_new B n = Ok ix /\
  sub_new (bk_ops B) pf ws mn mx ix = Ok v.
Proof.
  unfold read_bucketed. intros H. minv H as u X0. minv H as l X1. minv H as n X2. minv H as mn X3. minv H as mx X4.
  minv H as b X5. minv H as ws X6. minv H as ix X7.
  apply lift_inv in X7 as [X7 ->]. apply lift_inv in H as [H _].
  apply read_items_inv in X6 as (_ & W & _ & _). apply read_u32_inv in X3 as (_ & L2 & _).
  apply read_u32_inv in X4 as (_ & L3 & _). apply read_u32_inv in X5 as (_ & L4 & _).
  exists ws, mn, mx, b, ix. auto 10.
Qed.
Lemma read_ngram_item_inv s g s' : read_ngram_item s = (Ok g, s') ->
  s_rest s = ngram_bytes g ++ s_rest s' /\ (str_ok (fst g) /\ snd g < two64) /\ s_pos s' = s_pos s + lenN (ngram_bytes g).
Proof.
  unfold read_ngram_item. intros H. minv H as n X0. minv H as bs X1.
  destruct (utf8_valid bs) eqn:U; [|unfold fail in H; discriminate]. minv H as i X2. apply ret_inv in H as [<- <-].
  apply read_u32_inv in X0 as (E0 & L0 & Q0). apply read_exact_inv in X1 as (E1 & L1 & Q1). subst n.
  apply read_u64_inv in X2 as (E2 & L2 & Q2).
  unfold ngram_bytes, string_bytes, str_ok. cbn [fst snd]. rewrite E0, E1, E2, <- !app_assoc, !lenN_app, !le_bytes_lenN.
  repeat split; auto. lia.
Qed.

Lemma nwi_step_ngs st p st' : nwi_step st p = Ok st' -> snd st' = snd st ++ [fst p].
Proof.
  destruct st as [[o2n idx] ngs], p as [g b]. cbn [nwi_step].
  destruct (nm_get o2n b), (hm_get idx g); intros H; inv H; reflexivity.
Qed.
Lemma nwi_ngs tuples st st' : rfold nwi_step tuples st = Ok st' -> snd st' = snd st ++ map fst tuples.
Proof.
  revert st. induction tuples as [|p l IH]; intros st H; cbn [rfold map] in *.
  - inv H. rewrite app_nil_r. reflexivity.
  - rinv H. apply nwi_step_ngs in H0. apply IH in H1. rewrite H1, H0, <- app_assoc. reflexivity.
Qed.
Lemma new_with_indices_ngrams tuples ix o2n : explicit_new_with_indices tuples = Ok (ix, o2n) ->
  ei_ngrams ix = map fst tuples.
Proof.
  unfold explicit_new_with_indices. intros H. rinv H. destruct a as [[o i] n]. inv H1. cbn [ei_ngrams].
  apply nwi_ngs in H0. exact H0.
Qed.

Lemma read_explicit_inv pf s v s' : read_explicit pf s = (Ok v, s') ->
  exists ws mn mx ix, words_ok ws /\ mn < two32 /\ mx < two32 /\ explicit_built ix /\
    Forall str_ok (ei_ngrams ix) /\ lenN (ei_ngrams ix) * 32 <= isize_max /\
    sub_new explicit_ops pf ws mn mx ix = Ok v.
Proof.
  unfold read_explicit. intros H. minv H as u X0. minv H as l X1. minv H as nw X2. minv H as ng X3. minv H as mn X4. minv H as mx X5.
  minv H as ws X6. minv H as gs X7. minv H as r X8.
  apply lift_inv in X8 as [X8 ->]. apply lift_inv in H as [H _].
  apply read_items_inv in X6 as (_ & W & _ & _). apply read_u32_inv in X4 as (_ & L3 & _).
  apply read_u32_inv in X5 as (_ & L4 & _). unfold read_ngrams_with_indices in X7. minv X7 as u' X9.
  apply reserve_inv in X9 as [R ->].
  apply (repeat_m_inv _ ngram_bytes (fun g => str_ok (fst g) /\ snd g < two64)) in X7 as (_ & F & L & _);
    [|apply read_ngram_item_inv].
  destruct r as [ix o2n]. pose proof (new_with_indices_ngrams _ _ _ X8) as EN.
  exists ws, mn, mx, ix. cbn [fst] in H. rewrite EN, lenN_map, L.
  split; [auto|]. split; [auto|]. split; [auto|]. split; [right; eauto|]. split; [|auto].
  apply Forall_map. eapply Forall_impl; [|exact F]. cbv beta. tauto.
Qed.
Lemma read_floret_inv pf s v s' : read_floret pf s = (Ok v, s') ->
  exists mn mx nb nh seed bow eow ix, mn < two32 /\ mx < two32 /\ nb < two64 /\ seed < two32 /\
    str_ok bow /\ str_ok eow /\ floret_indexer_new nb nh seed = Ok ix /\
    sub_new_with_boundaries floret_ops pf [] mn mx ix bow eow = Ok v.
Proof.
  unfold read_floret. intros H. minv H as u X0. minv H as l X1. minv H as mn X2. minv H as mx X3. minv H as nb X4. minv H as nh X5.
  destruct (negb _); [unfold fail in H; discriminate|]. minv H as seed X6. minv H as bow X7. minv H as eow X8.
  minv H as ix X9. apply lift_inv in X9 as [X9 ->]. apply lift_inv in H as [H _].
  apply read_u32_inv in X2 as (_ & L2 & _). apply read_u32_inv in X3 as (_ & L3 & _).
  apply read_u64_inv in X4 as (_ & L4 & _). apply read_u32_inv in X6 as (_ & L5 & _).
  apply read_string_item_inv in X7 as (_ & W6 & _). apply read_string_item_inv in X8 as (_ & W7 & _).
  exists mn, mx, nb, nh, seed, bow, eow, ix. auto 10.
Qed.

Lemma peek_inv {A} (m : reader A) s a s' : peek m s = (Ok a, s') -> s = s' /\ exists s1, m s = (Ok a, s1).
Proof. unfold peek. destruct (m s) as [[] ?] eqn:E; intros H; inv H. eauto. Qed.

Lemma read_vocab_wrap_inv pf s v s' : read_vocab_wrap pf s = (Ok v, s') -> vocab_built pf v.
Proof.
  unfold read_vocab_wrap. intros H. minv H as id X.
  destruct id; try (unfold fail in H; discriminate); minv H as v0 X1; apply ret_inv in H as [<- _]; rename X1 into H.
  - apply read_simple_inv in H as (ws & W & E). econstructor; eauto.
  - apply read_bucketed_inv in H as (ws & mn & mx & n & ix & W & L1 & L2 & L3 & E1 & E2). apply (vb_bucket pf ws mn mx n ix); auto.
  - apply read_bucketed_inv in H as (ws & mn & mx & n & ix & W & L1 & L2 & L3 & E1 & E2). apply (vb_fasttext pf ws mn mx n ix); auto.
  - apply read_explicit_inv in H as (ws & mn & mx & ix & W & L1 & L2 & HB & F & L & E). apply (vb_explicit pf ws mn mx ix); auto.
  - apply read_floret_inv in H as (mn & mx & nb & nh & seed & bow & eow & ix & L1 & L2 & L3 & L4 & B1 & B2 & E1 & E2).
    apply (vb_floret pf mn mx nb nh seed bow eow ix); auto.
Qed.

(** ** Storages *)
Lemma f32s_bytes_of_bytes bs : lenN bs mod 4 = 0 -> f32s_bytes (f32s_of_bytes bs) = bs.
Proof.
  remember (length bs) as k eqn:Hk. assert (length bs <= k)%nat as L by lia. clear Hk. revert bs L.
  induction k as [|k IH]; intros bs L M.
  - destruct bs; [reflexivity|cbn [length] in L; lia].
  - destruct bs as [|a [|b [|c [|d bs]]]]; try reflexivity; try (cbn in M; discriminate).
    cbn [f32s_of_bytes]. unfold f32s_bytes. cbn [flat_map f32_bytes app]. do 4 f_equal. apply IH.
    + cbn [length] in L. lia.
    + unfold lenN in *. cbn [length] in M. lia.
Qed.
Lemma f32s_of_bytes_lenN bs : lenN (f32s_of_bytes bs) = lenN bs / 4.
Proof.
  remember (length bs) as k eqn:Hk. assert (length bs <= k)%nat as L by lia. clear Hk. revert bs L.
  induction k as [|k IH]; intros bs L.
  - destruct bs; [reflexivity|cbn [length] in L; lia].
  - destruct bs as [|a [|b [|c [|d bs]]]]; try reflexivity.
    cbn [f32s_of_bytes]. rewrite lenN_cons, IH by (cbn [length] in L; lia). unfold lenN. cbn [length]. lia.
Qed.

Lemma read_f32s_inv n s l s' : read_f32s n s = (Ok l, s') ->
  s_rest s = f32s_bytes l ++ s_rest s' /\ lenN l = n /\ s_pos s' = s_pos s + 4 * n.
Proof.
  unfold read_f32s. intros H. minv H as bs X. apply ret_inv in H as [<- <-].
  apply read_exact_inv in X as (E & L & Q). rewrite f32s_bytes_of_bytes by lia.
  rewrite f32s_of_bytes_lenN, L. repeat split; auto. lia.
Qed.

Lemma unflatten_spec {A} n c (l : list A) : length l = (n * c)%nat ->
  Forall (fun r => length r = c) (unflatten n c l) /\ concat (unflatten n c l) = l.
Proof.
  revert l. induction n as [|n IH]; intros l L; cbn [unflatten concat].
  - destruct l; [auto|cbn [length] in L; lia].
  - destruct (IH (skipn c l)) as [F E]; [rewrite skipn_length; lia|]. split.
    + constructor; [rewrite firstn_length; lia|auto].
    + rewrite E. apply firstn_skipn.
Qed.
Lemma unflattenN_spec {A} n c (l : list A) : lenN l = n * c ->
  Forall (fun r => lenN r = c) (unflattenN n c l) /\ concat (unflattenN n c l) = l /\ lenN (unflattenN n c l) = n.
Proof.
  intros L. destruct (unflatten_spec (N.to_nat n) (N.to_nat c) l) as [F E]; [unfold lenN in L; lia|].
  unfold unflattenN at 1 2. split; [|split; [auto|apply unflattenN_lenN]].
  eapply Forall_impl; [|exact F]. cbv beta. unfold lenN. lia.
Qed.

(** Everything up to the data of a plain matrix. *)
Definition nd_prefix : reader (N * N) :=
  ensure_chunk_type CNdArray ;;;
  _ <- read_u64 ;;
  rows <- read_u64 ;;
  cols <- read_u32 ;;
  ensure_data_type f32_type_id ;;;
  pos <- position ;;
  seek_forward (padding4 pos) ;;;
  ret (rows, cols).

Lemma bind_eta {S A B} (m : M S A) (k k' : A -> M S B) s : (forall a s', k a s' = k' a s') -> bind m k s = bind m k' s.
Proof. intros H. unfold bind. destruct (m s) as [[] ?]; auto. Qed.

Lemma read_ndarray_split s : read_ndarray s =
  (p <- nd_prefix ;; alloc_zeros [fst p; snd p] 4 ;;; data <- read_f32s (fst p * snd p) ;;
   ret (mkA2 (snd p) (unflattenN (fst p) (snd p) data))) s.
Proof.
  unfold read_ndarray, nd_prefix.
  repeat (rewrite bind_assoc; apply bind_eta; intros). reflexivity.
Qed.
Lemma mmap_ndarray_split pf s : mmap_ndarray pf s =
  (p <- nd_prefix ;; size <- lift (mul64 pf (fst p) (snd p)) ;; len <- lift (mul64 pf size 4) ;;
   map <- mmap_region len ;; seek_forward len ;;; ret (mkMma map (fst p) (snd p))) s.
Proof.
  unfold mmap_ndarray, nd_prefix.
  repeat (rewrite bind_assoc; apply bind_eta; intros). reflexivity.
Qed.
Lemma nd_prefix_inv s p s' : nd_prefix s = (Ok p, s') -> fst p < two64 /\ snd p < two32.
Proof.
  unfold nd_prefix. intros H. minv H as u X0. minv H as l X1. minv H as r X2. minv H as c X3. minv H as u1 X4. minv H as q X5. minv H as u2 X6.
  apply ret_inv in H as [<- _]. apply read_u64_inv in X2 as (_ & L & _). apply read_u32_inv in X3 as (_ & L' & _). auto.
Qed.

Lemma read_mmap_ndarray s a s' : read_ndarray s = (Ok a, s') ->
  nd_ok a /\ forall pf, mmap_ndarray pf s = (Ok (nd_mapped a), s').
Proof.
  rewrite read_ndarray_split. intros H. minv H as p H0. destruct p as [rows cols]. cbn [fst snd] in *. minv H as u X1.
  apply alloc_inv in X1 as [D <-]. minv H as data X2. apply ret_inv in H as [<- <-].
  apply nd_prefix_inv in H0 as HL. cbn [fst snd] in HL. destruct HL as [L1 L2].
  unfold read_f32s in X2. minv X2 as a1 H1. apply ret_inv in X2 as [<- <-]. pose proof H1 as X.
  apply read_exact_inv in X as (E & L & Q).
  destruct (unflattenN_spec rows cols (f32s_of_bytes a1)) as (F & EC & LN).
  { rewrite f32s_of_bytes_lenN, L. lia. }
  split.
  - unfold nd_ok, a2_wf, a2_nrows. cbn [a2_rows a2_cols]. rewrite LN. auto.
  - intros pf. rewrite mmap_ndarray_split. unfold bind at 1. rewrite H0. cbn [fst snd]. apply dims2 in D.
    assert (rows * cols * 4 < two64) as L3 by (unfold isize_max, two64 in *; lia).
    unfold bind at 1, lift at 1. rewrite mul64_ok by lia. unfold bind at 1, lift at 1. rewrite mul64_ok by lia.
    unfold bind at 1, mmap_region. destruct (N.leb_spec (rows * cols * 4) isize_max); [|lia].
    unfold bind, seek_forward, ret, nd_mapped, a2_nrows. cbn [a2_rows a2_cols]. rewrite LN, EC.
    rewrite f32s_bytes_of_bytes by lia.
    unfold read_exact in H1. destruct (N.leb_spec (4 * (rows * cols)) (lenN (s_rest s0))) as [L4|L4]; [|discriminate].
    inv H1. replace (rows * cols * 4) with (4 * (rows * cols)) by lia.
    destruct (N.leb_spec (4 * (rows * cols)) (lenN (s_rest s0))); [|lia]. reflexivity.
Qed.

(** *** Quantized *)
Lemma pq_new_inv {F} (proj : option (array2 F)) ql nc sub cent q :
  pq_new proj ql nc sub cent = Ok q -> q = mkPq proj ql nc sub cent.
Proof. unfold pq_new. intros H. rinv H. rinv H1. inv H2. reflexivity. Qed.

Lemma read_product_quantizer_inv s n q has s' : read_product_quantizer s = (Ok (n, q, has), s') ->
  n < two64 /\ pq_ok q.
Proof.
  unfold read_product_quantizer. intros H. minv H as proj X0. minv H as nrm X1. minv H as ql X2. minv H as rl X3.
  minv H as nc X4. minv H as n0 X5. minv H as u6 X6. minv H as u7 X7. minv H as u8 X8. minv H as pos X9.
  minv H as u10 X10. minv H as pr X11. minv H as u12 X12. minv H as data X13. minv H as q0 X14.
  apply ret_inv in H as [E _]. inv E. apply lift_inv in X6 as [X6 ->]. apply lift_inv in X14 as [X14 ->].
  apply alloc_inv in X12 as [D ->]. apply read_u64_inv in X5 as (_ & Ln & _). split; [exact Ln|].
  apply read_u32_inv in X2 as (_ & Lql & _). apply read_u32_inv in X3 as (_ & Lrl & _).
  apply read_u32_inv in X4 as (_ & Lnc & _). apply read_f32s_inv in X13 as (_ & LD & _).
  unfold check_quantizer_invariants in X6. destruct (N.eqb_spec ql 0) as [|NZ]; [discriminate|].
  destruct (N.eqb_spec (rl mod ql) 0) as [RM|]; [|discriminate].
  assert (ql * (rl / ql) = rl) as ER by (pose proof (N.div_mod rl ql NZ); lia).
  pose proof (pq_new_inv _ _ _ _ _ _ X14) as EQ. subst q. unfold pq_ok, pq_rl.
  cbn [pq_proj pq_ql pq_nc pq_sub pq_cent]. rewrite ER.
  assert (lenN data = ql * (nc * (rl / ql))) as LD' by (rewrite LD; lia).
  destruct (unflattenN_spec _ _ _ LD') as (F & EC & LN).
  split; [exact X14|]. split; [|split; [|split; [|auto]]].
  - intros p E. subst pr. destruct (negb (proj =? 0)).
    + minv X11 as u0 A0. apply alloc_inv in A0 as [DP _]. minv X11 as d A1. apply ret_inv in X11 as [E _]. inv E.
      apply read_f32s_inv in A1 as (_ & LA & _). destruct (unflattenN_spec _ _ _ LA) as (F1 & _ & _).
      split; [exact F1|exact DP].
    + apply ret_inv in X11 as [E _]. discriminate.
  - rewrite lenN_map. exact LN.
  - apply Forall_map. eapply Forall_impl; [|exact F]. intros r Lr. cbv beta in Lr.
    destruct (unflattenN_spec nc (rl / ql) r Lr) as (F1 & _ & L1). auto.
Qed.

Lemma read_mmap_quantized s q s' : read_quantized s = (Ok q, s') ->
  qa_ok q /\ forall pf, mmap_quantized_chunk pf s = (Ok (qa_mapped q), s').
Proof.
  unfold read_quantized. intros H. minv H as u0 X0. minv H as l X1. minv H as r X2. destruct r as [[n p] has].
  minv H as ns X3. minv H as u4 X4. apply alloc_inv in X4 as [D ->]. minv H as data X5. apply ret_inv in H as [<- <-].
  pose proof X2 as X2'. apply read_product_quantizer_inv in X2' as (Ln & PQ).
  pose proof X5 as X5'. apply read_exact_inv in X5' as (_ & LD & _).
  destruct (unflattenN_spec _ _ _ LD) as (F & EC & LN).
  split.
  - unfold qa_ok. cbn [qa_pq qa_codes qa_norms a2_cols]. unfold a2_wf, a2_nrows. cbn [a2_rows a2_cols]. rewrite LN.
    split; [exact PQ|]. split; [exact F|]. split; [reflexivity|]. split; [exact Ln|]. split; [exact D|]. intros m E. subst ns. unfold read_quantized_norms in X3. destruct has.
    + minv X3 as u A0. apply alloc_inv in A0 as [DN _]. minv X3 as m' A1. apply ret_inv in X3 as [E _]. inv E.
      apply read_f32s_inv in A1 as (_ & LA & _). rewrite LA. auto.
    + apply ret_inv in X3 as [E _]. discriminate.
  - intros pf. unfold mmap_quantized_chunk, bind at 1. rewrite X0. unfold bind at 1. rewrite X1.
    unfold bind at 1. rewrite X2. unfold bind at 1. rewrite X3. apply dims2 in D.
    unfold bind at 1, lift at 1. rewrite mul64_ok by (unfold isize_max, two64 in *; lia).
    unfold bind at 1, mmap_region. destruct (N.leb_spec (n * pq_ql p) isize_max); [|lia].
    unfold bind, seek_forward, ret, qa_mapped, a2_nrows. cbn [a2_rows a2_cols qa_codes qa_pq qa_norms].
    rewrite LN, EC. unfold read_exact in X5.
    destruct (N.leb_spec (n * pq_ql p) (lenN (s_rest s4))) as [L4|L4]; [|discriminate]. inv X5. reflexivity.
Qed.

Lemma read_storage_wrap_inv s a s' : read_storage_wrap s = (Ok a, s') ->
  storage_holds a a /\ forall pf, mmap_storage_wrap pf s = (Ok (storage_mapped a), s').
Proof.
  unfold read_storage_wrap. intros H. minv H as id X. pose proof X as XP. apply peek_inv in X as [<- _].
  destruct id; try (unfold fail in H; discriminate); minv H as v X1; apply ret_inv in H as [<- <-].
  - apply read_mmap_ndarray in X1 as [OK M]. split; [constructor; auto|]. intros pf.
    unfold mmap_storage_wrap, bind at 1. rewrite XP. unfold bind. rewrite M. reflexivity.
  - apply read_mmap_quantized in X1 as [OK M]. split; [constructor; auto|]. intros pf.
    unfold mmap_storage_wrap, bind at 1. rewrite XP. unfold bind. rewrite M. reflexivity.
Qed.

(** ** Metadata, norms and whole files *)
Lemma read_metadata_chunk_inv T s t s' : read_metadata_chunk T s = (Ok t, s') ->
  exists bs, toml_parse T bs = Some t /\ lenN bs <= isize_max /\ utf8_valid bs = true /\
  s_rest s = le_bytes 4 5 ++ le_bytes 8 (lenN bs) ++ bs ++ s_rest s'.
Proof.
  unfold read_metadata_chunk. intros H. minv H as u0 X0. minv H as n X1. minv H as u2 X2. minv H as bs X3.
  apply reserve_inv in X2 as [R ->]. destruct (utf8_valid bs) eqn:U; [|unfold fail in H; discriminate].
  destruct (toml_parse T bs) eqn:TP; [|unfold fail in H; discriminate]. apply ret_inv in H as [<- <-].
  apply ensure_chunk_type_inv in X0 as (_ & E0 & _). apply read_u64_inv in X1 as (E1 & _ & _).
  apply read_exact_inv in X3 as (E3 & L & _). subst n. exists bs. rewrite E0, E1, E3.
  repeat split; auto. lia.
Qed.

Lemma read_norms_inv s ns s' : read_norms s = (Ok ns, s') -> lenN ns * 4 <= isize_max.
Proof.
  unfold read_norms. intros H. minv H as u0 X0. minv H as l X1. minv H as n X2. minv H as u3 X3. minv H as pos X4.
  minv H as u5 X5. minv H as u6 X6. apply reserve_inv in X6 as [R ->]. apply read_f32s_inv in H as (_ & L & _).
  rewrite L. exact R.
Qed.

(** The steps of reading embeddings, on an arbitrary stream. *)
Lemma read_embeddings_inv T {V S} (rv : reader V) (rs : reader S) s e s' :
  read_embeddings T rv rs s = (Ok e, s') ->
  exists ids s1 s2 s3 s4, read_header s = (Ok ids, s1) /\
  (match ids with
   | [] => False
   | CMetadata :: _ => exists t, em_meta e = Some t /\ read_metadata_chunk T s1 = (Ok t, s2)
   | _ => em_meta e = None /\ s2 = s1
   end) /\
  rv s2 = (Ok (em_vocab e), s3) /\ rs s3 = (Ok (em_storage e), s4) /\
  ok_opt read_norms s4 = (Ok (em_norms e), s').
Proof.
  unfold read_embeddings. intros H. minv H as ids X0. destruct ids as [|id ids]; [unfold fail in H; discriminate|].
  minv H as md X1. minv H as v X2. minv H as st X3. minv H as ns X4. apply ret_inv in H as [<- <-].
  cbn [em_meta em_vocab em_storage em_norms]. exists (id :: ids), s0, s1, s2, s3. split; [auto|]. split; [|auto].
  destruct id; (apply ret_inv in X1 as [<- <-]; auto) || (minv X1 as t A; apply ret_inv in X1 as [<- <-]; eauto).
Qed.

(** Whatever is read could have been constructed, up to the size of the
    printed metadata. *)
Lemma read_file_built pf T s e s' : read_file pf T s = (Ok e, s') ->
  (forall t, em_meta e = Some t -> lenN (toml_print T t) <= isize_max) ->
  emb_built pf T e (em_storage e).
Proof.
  intros H HM. apply read_embeddings_inv in H as (ids & s1 & s2 & s3 & s4 & _ & _ & HV & HS & HN).
  split; auto.
  - apply read_vocab_wrap_inv in HV. exact HV.
  - apply read_storage_wrap_inv in HS as [X _]. exact X.
  - intros ns E. unfold ok_opt in HN. destruct (read_norms s4) as [[l| |] ?] eqn:EN; inv HN; rewrite E in *; try discriminate.
    inv H0. apply read_norms_inv in EN. exact EN.
Qed.

Lemma read_mmap_file pf T s e s' : read_file pf T s = (Ok e, s') ->
  forall pf', mmap_embeddings T (read_vocab_wrap pf) (mmap_storage_wrap pf') s
    = (Ok (loaded e (storage_mapped (em_storage e)) (em_norms e)), s').
Proof.
  unfold read_file, read_embeddings. intros H pf'. minv H as ids X0. destruct ids as [|id ids]; [unfold fail in H; discriminate|].
  minv H as md X1. minv H as v X2. minv H as st X3. minv H as ns X4. apply ret_inv in H as [<- <-].
  cbn [em_meta em_vocab em_storage em_norms]. unfold mmap_embeddings, bind at 1. rewrite X0.
  unfold bind at 1. rewrite X1. unfold bind at 1. rewrite X2. apply read_storage_wrap_inv in X3 as [_ X3].
  unfold bind at 1. rewrite X3. unfold bind at 1. rewrite X4. reflexivity.
Qed.

(** Mapped and loaded storages answer alike. *)
Lemma storage_mapped_ops gemm s : storage_holds s s ->
  (forall i, st_embedding (swrap_ops gemm) (storage_mapped s) i = st_embedding (swrap_ops gemm) s i) /\
  (forall is, st_embeddings (swrap_ops gemm) (storage_mapped s) is = st_embeddings (swrap_ops gemm) s is) /\
  st_shape (swrap_ops gemm) (storage_mapped s) = st_shape (swrap_ops gemm) s /\
  (forall is, swrap_clone_from_mapping (storage_mapped s) is = swrap_clone_from_mapping s is) /\
  storage_holds (storage_mapped s) s.
Proof.
  intros H. inversion H as [a OK|q OK| |]; subst; cbn [storage_mapped].
  - destruct (mma_ops_mapped a) as (O1 & O2 & O3); [apply OK|].
    cbn [swrap_ops st_embedding st_embeddings st_shape swrap_clone_from_mapping].
    split; [exact O1|]. split; [exact O2|]. split; [exact O3|]. split.
    + intros is. unfold mma_clone_from_mapping, nd_clone_from_mapping. rewrite O2. reflexivity.
    + constructor; [|auto]. apply mma_view_mapped, OK.
  - destruct (mmq_ops_mapped gemm q OK) as (O1 & O2 & O3 & O4 & _).
    cbn [swrap_ops st_embedding st_embeddings st_shape swrap_clone_from_mapping].
    split; [exact O1|]. split; [exact O2|]. split; [exact O3|]. split.
    + intros is. rewrite O4. reflexivity.
    + constructor; [|auto]. apply mmq_to_quantized_mapped; auto.
Qed.
