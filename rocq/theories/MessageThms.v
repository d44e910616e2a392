(** * The texts of errors. *)
From Coq Require Import Strings.String.
From Verif Require Import Base BaseFacts Utf8 Utf8Facts Stream StreamFacts F32 ChunkIO ChunkFacts Subword
  Vocab VocabFacts Storage StorageFacts Embeddings FileSpec FileFacts FileThms Messages MessageSpec.
Local Open Scope N_scope.
Local Open Scope d_scope.

(** ** Forgetting texts *)
Lemma forget_Ok {A} (x : mres A) a : forget x = Ok a -> x = MOk a.
Proof. destruct x; cbn; congruence. Qed.
Lemma forget_Panic {A} (x : mres A) p : forget x = Panic p -> x = MPanic p.
Proof. destruct x; cbn; congruence. Qed.

Lemma same_ext {A} (d d' : D A) m m' : (forall s, d s = d' s) -> (forall s, m s = m' s) -> same d' m' -> same d m.
Proof. intros E1 E2 H s. rewrite E1, E2. apply H. Qed.
Lemma same_bind {A B} (d : D A) m (k : A -> D B) (h : A -> reader B) :
  same d m -> (forall a, same (k a) (h a)) -> same (dbind d k) (Stream.bind m h).
Proof.
  intros H K s. specialize (H s). unfold dbind, Stream.bind. rewrite <- H.
  destruct (d s) as [[a|e|p] s']; cbn [fst snd forget]; auto. apply K.
Qed.
Lemma same_ret {A} (a : A) : same (dret a) (ret a).
Proof. intros s. reflexivity. Qed.
Lemma same_fail {A} e : same (@dfail A e) (fail (kind e)).
Proof. intros s. reflexivity. Qed.
Lemma same_if {A} (b : bool) (d d' : D A) m m' : same d m -> same d' m' -> same (if b then d else d') (if b then m else m').
Proof. destruct b; auto. Qed.

(** I/O operations fail with [Error::Read] only, constructors not at all. *)
Definition io_only {A} (m : reader A) : Prop := forall s e s', m s = (Err e, s') -> e = ERead.
Definition no_err {A} (m : reader A) : Prop := forall s e s', m s <> (Err e, s').

Lemma same_io {A} (m : reader A) what : io_only m -> same (io m what) m.
Proof.
  intros H s. unfold io. destruct (m s) as [[a|e|p] s'] eqn:E; cbn [fst snd forget kind]; [reflexivity| |reflexivity].
  rewrite (H _ _ _ E). reflexivity.
Qed.
Lemma same_build {A} (m : reader A) : no_err m -> same (build m) m.
Proof. intros H. apply same_io. intros s e s' E. exfalso. exact (H _ _ _ E). Qed.

Lemma io_read_exact n : io_only (read_exact n).
Proof. intros s e s'. unfold read_exact. destruct (_ <=? _); congruence. Qed.
Lemma io_bind_ret {A B} (m : reader A) (f : A -> B) : io_only m -> io_only (Stream.bind m (fun x => ret (f x))).
Proof.
  intros H s e s'. unfold Stream.bind, ret. destruct (m s) as [[a|e'|p] s1] eqn:E; try congruence.
  intros X. injection X as <- _. exact (H _ _ _ E).
Qed.
Lemma io_u32 : io_only read_u32. Proof. apply io_bind_ret, io_read_exact. Qed.
Lemma io_u64 : io_only read_u64. Proof. apply io_bind_ret, io_read_exact. Qed.
Lemma io_f32s n : io_only (read_f32s n). Proof. apply io_bind_ret, io_read_exact. Qed.
Lemma io_position : io_only position. Proof. intros s e s'. unfold position. congruence. Qed.
Lemma io_seek n : io_only (seek_forward n). Proof. intros s e s'. unfold seek_forward. congruence. Qed.
Lemma io_mmap n : io_only (mmap_region n).
Proof. intros s e s'. unfold mmap_region. destruct (_ <=? _); congruence. Qed.

Lemma ne_reserve n k : no_err (reserve n k).
Proof. intros s e s'. unfold reserve. destruct (_ <=? _); congruence. Qed.
Lemma ne_alloc dims k : no_err (alloc_zeros dims k).
Proof. intros s e s'. unfold alloc_zeros. destruct (_ && _); congruence. Qed.
Lemma ne_lift {A} (r : res A) : (forall e, r <> Err e) -> no_err (lift r).
Proof. intros H s e s'. unfold lift. intros X. injection X as X _. exact (H _ X). Qed.

(** Results that are no errors. *)
Lemma nr_bind {A B} (m : res A) (f : A -> res B) : (forall e, m <> Err e) -> (forall a e, f a <> Err e) ->
  forall e, rbind m f <> Err e.
Proof. intros H K e. destruct m; cbn [rbind]; try congruence; [apply K|]. exfalso. exact (H _ eq_refl). Qed.
Lemma nr_assert b p : forall e, rassert b p <> Err e.
Proof. intros e. destruct b; discriminate. Qed.
Lemma nr_mul64 pf a b : forall e, mul64 pf a b <> Err e.
Proof. intros e. unfold mul64. destruct (_ <? _); [|destruct pf]; discriminate. Qed.
Lemma nr_simple_new ws : forall e, simple_new ws <> Err e.
Proof. unfold simple_new. intros e. apply nr_bind; [apply nr_assert|discriminate]. Qed.
Lemma nr_sub_wb {I} (ops : indexer_ops I) pf ws mn mx ix bow eow :
  (forall e, ix_bound ops pf ix <> Err e) -> forall e, sub_new_with_boundaries ops pf ws mn mx ix bow eow <> Err e.
Proof.
  intros H e. unfold sub_new_with_boundaries. cbv zeta.
  apply nr_bind; [apply nr_assert|intros _]. apply nr_bind; [exact H|]. intros b.
  apply nr_bind; [apply nr_assert|discriminate].
Qed.
Lemma nr_rfold {A B} (f : B -> A -> res B) l b : (forall b a e, f b a <> Err e) -> forall e, rfold f l b <> Err e.
Proof.
  intros H e. revert b. induction l as [|a l IH]; intros b; cbn [rfold]; [discriminate|].
  apply nr_bind; [apply H|]. intros b' e'. revert e'. assert (forall b e', rfold f l b <> Err e') as X; [|apply X].
  clear IH b b'. induction l as [|a' l IH]; intros b e'; cbn [rfold]; [discriminate|]. apply nr_bind; [apply H|apply IH].
Qed.
Lemma nr_nwi tuples : forall e, explicit_new_with_indices tuples <> Err e.
Proof.
  intros e. unfold explicit_new_with_indices. apply nr_bind.
  - apply nr_rfold. intros [[o i] g] [ng b] e'. unfold nwi_step.
    destruct (nm_get o b); destruct (hm_get i ng); discriminate.
  - intros [[o i] g]. discriminate.
Qed.
Lemma nr_pq_new {F} pr ql nc sub (cent : list (list (list F))) : forall e, pq_new pr ql nc sub cent <> Err e.
Proof.
  intros e. unfold pq_new. apply nr_bind; [apply nr_assert|intros _]. apply nr_bind; [apply nr_assert|discriminate].
Qed.
Lemma nr_floret_new a b c : forall e, floret_indexer_new a b c <> Err e.
Proof.
  intros e. unfold floret_indexer_new. apply nr_bind; [apply nr_assert|intros _]. apply nr_bind; [apply nr_assert|discriminate].
Qed.

(** *** Loops *)
Lemma same_repeat {A} n (d : D A) m : same d m -> same (drepeat n d) (repeat_m n m).
Proof.
  intros H. destruct n as [|p]; [apply same_ret|]. cbn [drepeat repeat_m].
  induction p as [p IH|p IH|]; cbn [drepeat_pos repeat_pos].
  - apply same_bind; [exact H|intros a]. apply same_bind; [exact IH|intros l]. apply same_bind; [exact IH|intros l2]. apply same_ret.
  - apply same_bind; [exact IH|intros l]. apply same_bind; [exact IH|intros l2]. apply same_ret.
  - apply same_bind; [exact H|intros a]. apply same_ret.
Qed.

(** *** The readers *)
Lemma same_try_from n : same (chunk_try_from n) (lift (chunk_of_num n)).
Proof.
  intros s. unfold chunk_try_from, lift. assert (forall x, chunk_of_num n = x -> x = Err (EUnknownChunk n) \/ exists c, x = Ok c) as H.
  { intros x <-. unfold chunk_of_num. repeat (match goal with |- context[match ?n with _ => _ end] => destruct n end; eauto). }
  destruct (H _ eq_refl) as [-> |[c ->]]; reflexivity.
Qed.
Lemma same_context {A} c (d : D A) m : same d m -> same (in_context c d) m.
Proof. intros H s. rewrite <- (H s). unfold in_context. destruct (d s) as [[a|e|p] s']; reflexivity. Qed.

Ltac known := fail.
Ltac same_step := first
  [ apply same_ret | apply same_try_from | known
  | apply same_io; first [apply io_u32|apply io_u64|apply io_read_exact|apply io_f32s|apply io_position|apply io_seek|apply io_mmap]
  | apply same_build; first [apply ne_reserve|apply ne_alloc|apply ne_lift;
      first [apply nr_mul64|apply nr_simple_new|apply nr_nwi|apply nr_pq_new|apply nr_floret_new]]
  | exact (same_fail _)
  | apply same_bind; [|intros ?] | apply same_repeat ].
Ltac same_tac := repeat first [same_step | apply same_if].

Lemma same_chunk_type c : same (ensure_chunk_type_d c) (ensure_chunk_type c).
Proof. unfold ensure_chunk_type_d, ensure_chunk_type. same_tac. Qed.
Lemma same_data_type t : same (ensure_data_type_d t) (ensure_data_type t).
Proof. unfold ensure_data_type_d, ensure_data_type. same_tac. Qed.
Lemma same_header : same read_header_d read_header.
Proof. unfold read_header_d, read_header. same_tac. Qed.
Lemma same_string : same read_string_d read_string_item.
Proof. unfold read_string_d, read_string_item. same_tac. Qed.
Lemma same_skip {A} (k : D A) h : same k h ->
  same (skip_padding_d ;;; k) (Stream.bind position (fun pos => Stream.bind (seek_forward (padding4 pos)) (fun _ => h))).
Proof. intros H s. unfold skip_padding_d, dbind, io, Stream.bind, position, seek_forward. apply H. Qed.
Ltac known ::= first [apply same_chunk_type | apply same_data_type | apply same_header | apply same_string | apply same_skip].

Lemma same_metadata T te : same (read_metadata_chunk_d T te) (read_metadata_chunk T).
Proof.
  unfold read_metadata_chunk_d, read_metadata_chunk. repeat same_step.
  match goal with |- context[utf8_valid ?b] => destruct (utf8_valid b); cbn [negb]; [destruct (toml_parse T b)|] end; same_step.
Qed.
Lemma same_read_metadata T te : same (read_metadata_d T te) (read_metadata T).
Proof.
  unfold read_metadata_d, read_metadata. apply same_bind; [apply same_header|intros [|id ids]]; [same_step|].
  apply same_if; [|same_step]. apply same_bind; [apply same_metadata|intros t; same_step].
Qed.
Lemma same_norms : same read_norms_d read_norms.
Proof. unfold read_norms_d, read_norms. same_tac. Qed.
Lemma same_items n : same (read_items_d n) (read_items n).
Proof. unfold read_items_d, read_items. same_tac. Qed.
Lemma same_ngrams n : same (read_ngrams_d n) (read_ngrams_with_indices n).
Proof. unfold read_ngrams_d, read_ngrams_with_indices, read_ngram_item_d, read_ngram_item. same_tac. Qed.
Ltac known ::= first [apply same_chunk_type | apply same_data_type | apply same_header | apply same_string | apply same_skip
  | apply same_items | apply same_ngrams].

Lemma same_simple : same read_simple_d read_simple.
Proof. unfold read_simple_d, read_simple. same_tac. Qed.
Lemma same_bucketed {I} (B : bucket_ops I) pf id : (forall n e, bk_new B n <> Err e) ->
  (forall ix e, ix_bound (bk_ops B) pf ix <> Err e) ->
  same (read_bucketed_d B pf id) (read_bucketed B pf id).
Proof.
  intros H1 H2. unfold read_bucketed_d, read_bucketed. same_tac.
  - apply same_build, ne_lift, H1.
  - apply same_build, ne_lift, nr_sub_wb, H2.
Qed.
Lemma same_explicit pf : same (read_explicit_d pf) (read_explicit pf).
Proof.
  unfold read_explicit_d, read_explicit. same_tac. apply same_build, ne_lift, nr_sub_wb. cbn. intros e. discriminate.
Qed.
Lemma same_floret pf : same (read_floret_d pf) (read_floret pf).
Proof.
  unfold read_floret_d, read_floret. same_tac; try apply same_context, same_string.
  apply same_build, ne_lift, nr_sub_wb. cbn. intros e. discriminate.
Qed.
Lemma same_hash pf id : same (read_bucketed_d hash_bucket_ops pf id) (read_bucketed hash_bucket_ops pf id).
Proof.
  apply same_bucketed; cbn [bk_new bk_ops hash_bucket_ops].
  - intros n e. unfold hash_indexer_new. apply nr_bind; [apply nr_assert|discriminate].
  - intros ix e. cbn. unfold hash_bound. destruct (_ <? _); [|destruct pf]; discriminate.
Qed.
Lemma same_ft pf id : same (read_bucketed_d ft_bucket_ops pf id) (read_bucketed ft_bucket_ops pf id).
Proof.
  apply same_bucketed; cbn [bk_new bk_ops ft_bucket_ops].
  - intros n e. unfold ft_indexer_new. apply nr_bind; [apply nr_assert|discriminate].
  - intros ix e. discriminate.
Qed.
Lemma same_peek {A} (d : D A) m : same d m -> same (dpeek d) (peek m).
Proof. intros H s. unfold dpeek, peek. rewrite <- (H s). destruct (d s) as [[a|e|p] s']; reflexivity. Qed.
Lemma same_peek_id what : same (dpeek (n <- io read_u32 what ;; chunk_try_from n)) (peek peek_chunk_id).
Proof. apply same_peek. unfold peek_chunk_id. same_tac. Qed.
Lemma same_vocab pf : same (read_vocab_wrap_d pf) (read_vocab_wrap pf).
Proof.
  unfold read_vocab_wrap_d, read_vocab_wrap. apply same_bind; [apply same_peek_id|].
  intros []; try exact (same_fail _); (apply same_bind; [|intros; apply same_ret]);
    first [apply same_simple|apply same_hash|apply same_ft|apply same_explicit|apply same_floret].
Qed.

(** *** Storages *)
Lemma dbind_assoc {A B C} (m : D A) (k : A -> D B) (h : B -> D C) s : dbind (dbind m k) h s = dbind m (fun a => dbind (k a) h) s.
Proof. unfold dbind. destruct (m s) as [[]]; reflexivity. Qed.
Definition nd_shape : reader (N * N) :=
  (ensure_chunk_type CNdArray ;;; _ <- read_u64 ;; rows <- read_u64 ;; cols <- read_u32 ;;
   ensure_data_type f32_type_id ;;; pos <- position ;; seek_forward (padding4 pos) ;;; ret (rows, cols))%m.
Lemma same_nd_shape : same read_nd_shape_d nd_shape.
Proof. unfold read_nd_shape_d, nd_shape. same_tac. Qed.
Lemma nd_shape_bind {A} (k : N -> N -> reader A) s :
  Stream.bind nd_shape (fun rc => let (r, c) := rc in k r c) s =
  (ensure_chunk_type CNdArray ;;; _ <- read_u64 ;; rows <- read_u64 ;; cols <- read_u32 ;;
   ensure_data_type f32_type_id ;;; pos <- position ;; seek_forward (padding4 pos) ;;; k rows cols)%m s.
Proof.
  unfold nd_shape, Stream.bind. destruct (ensure_chunk_type _ s) as [[] s1]; try reflexivity.
  destruct (read_u64 s1) as [[] s2]; try reflexivity. destruct (read_u64 s2) as [[] s3]; try reflexivity.
  destruct (read_u32 s3) as [[] s4]; try reflexivity. destruct (ensure_data_type _ s4) as [[] s5]; reflexivity.
Qed.
Lemma same_ndarray : same read_ndarray_d read_ndarray.
Proof.
  eapply same_ext; [reflexivity|intros s; symmetry; unfold read_ndarray; exact (nd_shape_bind (fun rows cols =>
    alloc_zeros [rows; cols] 4 ;;; data <- read_f32s (rows * cols) ;; ret (mkA2 cols (unflattenN rows cols data)))%m s)|].
  unfold read_ndarray_d. apply same_bind; [apply same_nd_shape|intros [rows cols]]. same_tac.
Qed.
Lemma same_mmap_ndarray pf : same (mmap_ndarray_d pf) (mmap_ndarray pf).
Proof.
  eapply same_ext; [reflexivity|intros s; symmetry; unfold mmap_ndarray; exact (nd_shape_bind (fun rows cols =>
    size <- lift (mul64 pf rows cols) ;; len <- lift (mul64 pf size 4) ;; map <- mmap_region len ;;
    seek_forward len ;;; ret (mkMma map rows cols))%m s)|].
  unfold mmap_ndarray_d. apply same_bind; [apply same_nd_shape|intros [rows cols]]. same_tac.
Qed.
Lemma same_invariants ql rl : same (check_quantizer_invariants_d ql rl) (lift (check_quantizer_invariants ql rl)).
Proof. intros s. unfold check_quantizer_invariants_d, check_quantizer_invariants. destruct (ql =? 0); [reflexivity|]. destruct (_ =? 0); reflexivity. Qed.
Lemma same_pq : same read_product_quantizer_d read_product_quantizer.
Proof.
  unfold read_product_quantizer_d, read_product_quantizer, read_projection_d.
  repeat first [same_step | apply same_invariants | apply same_if].
Qed.
Lemma same_qnorms has n : same (read_quantized_norms_d has n) (read_quantized_norms has n).
Proof. unfold read_quantized_norms_d, read_quantized_norms. same_tac. Qed.
Lemma same_quantized : same read_quantized_d read_quantized.
Proof.
  unfold read_quantized_d, read_quantized. do 2 (apply same_bind; [same_step|intros _]).
  apply same_bind; [apply same_pq|intros [[n q] has]]. apply same_bind; [apply same_qnorms|intros ns]. same_tac.
Qed.
Lemma same_mmap_quantized pf : same (mmap_quantized_chunk_d pf) (mmap_quantized_chunk pf).
Proof.
  unfold mmap_quantized_chunk_d, mmap_quantized_chunk. do 2 (apply same_bind; [same_step|intros _]).
  apply same_bind; [apply same_pq|intros [[n q] has]]. apply same_bind; [apply same_qnorms|intros ns]. same_tac.
Qed.
Lemma same_storage : same read_storage_wrap_d read_storage_wrap.
Proof.
  unfold read_storage_wrap_d, read_storage_wrap. apply same_bind; [apply same_peek_id|].
  intros []; try exact (same_fail _); (apply same_bind; [|intros; apply same_ret]); first [apply same_ndarray|apply same_quantized].
Qed.
Lemma same_mmap_storage pf : same (mmap_storage_wrap_d pf) (mmap_storage_wrap pf).
Proof.
  unfold mmap_storage_wrap_d, mmap_storage_wrap. apply same_bind; [apply same_peek_id|].
  intros []; try exact (same_fail _); (apply same_bind; [|intros; apply same_ret]); first [apply same_mmap_ndarray|apply same_mmap_quantized].
Qed.
Lemma same_storage_view : same read_storage_view_wrap_d read_storage_view_wrap.
Proof.
  unfold read_storage_view_wrap_d, read_storage_view_wrap. apply same_bind; [apply same_peek_id|].
  intros []; try exact (same_fail _). apply same_bind; [apply same_ndarray|intros; apply same_ret].
Qed.
Lemma same_mmap_storage_view pf : same (mmap_storage_view_wrap_d pf) (mmap_storage_view_wrap pf).
Proof.
  unfold mmap_storage_view_wrap_d, mmap_storage_view_wrap. apply same_bind; [apply same_peek_id|].
  intros []; try exact (same_fail _). apply same_bind; [apply same_mmap_ndarray|intros; apply same_ret].
Qed.

(** *** Files *)
Lemma same_dok {A} (d : D A) m : same d m -> same (dok d) (ok_opt m).
Proof. intros H s. unfold dok, ok_opt. rewrite <- (H s). destruct (d s) as [[a|e|p] s']; reflexivity. Qed.
Lemma same_embeddings T te {V S} (dv : D V) (ds : D S) rv rs : same dv rv -> same ds rs ->
  same (read_embeddings_d T te dv ds) (read_embeddings T rv rs) /\
  same (read_embeddings_d T te dv ds) (mmap_embeddings T rv rs).
Proof.
  intros HV HS. assert (same (read_embeddings_d T te dv ds) (read_embeddings T rv rs)) as H; [|split; exact H].
  unfold read_embeddings_d, read_embeddings. apply same_bind; [apply same_header|intros [|id ids]]; [same_step|].
  apply same_bind; [apply same_if; [|same_step]; apply same_bind; [apply same_metadata|intros t; same_step]|intros md].
  apply same_bind; [exact HV|intros v]. apply same_bind; [exact HS|intros s].
  apply same_bind; [apply same_dok, same_norms|intros ns; same_step].
Qed.
Lemma file_erasure pf T te : same (read_file_d pf T te) (read_file pf T) /\ same (mmap_file_d pf T te) (mmap_file pf T).
Proof.
  split; [apply (same_embeddings T te _ _ _ _ (same_vocab pf) same_storage)|
          apply (same_embeddings T te _ _ _ _ (same_vocab pf) (same_mmap_storage pf))].
Qed.

(** ** Cut files *)
Definition tbl := N -> list field.
Definition one (l : list field) : tbl := fun _ => l.
Definition tseq (f : bytesf) (fs gs : tbl) : tbl := fun pos => fs pos ++ gs (pos + lenN (f pos)).

(** [d] reads [f pos] as [a]; if it is cut, [d] says so with the texts of the
    table. *)
Record tells {A} (d : D A) (f : bytesf) (fs : tbl) (a : A) : Prop := {
  tl_len : forall pos, fields_len (fs pos) = lenN (f pos);
  tl_full : forall pos tail b, d (mkBroken (f pos ++ tail) pos b) = (MOk a, mkBroken tail (pos + lenN (f pos)) b);
  tl_cut : forall pos i b, i < lenN (f pos) ->
    match missing (fs pos) i with
    | Some e => exists s', d (mkBroken (takeN i (f pos)) pos b) = (MErr e, s')
    | None => d (mkBroken (takeN i (f pos)) pos b) = (MOk a, mkBroken [] (pos + lenN (f pos)) b)
    end
}.

Lemma fields_len_app a b : fields_len (a ++ b) = fields_len a + fields_len b.
Proof. induction a as [|x a IH]; cbn [fields_len app]; [lia|]. rewrite IH. lia. Qed.
Lemma missing_full fs i : fields_len fs <= i -> missing fs i = None.
Proof.
  revert i. induction fs as [|[n e|n] fs IH]; intros i H; cbn [missing fields_len field_len] in *; [reflexivity| |].
  - destruct (N.ltb_spec i n); [lia|]. apply IH. lia.
  - apply IH. lia.
Qed.
Lemma missing_app a b i : missing (a ++ b) i = match missing a i with Some e => Some e | None => missing b (i - fields_len a) end.
Proof.
  revert i. induction a as [|[n e|n] a IH]; intros i; cbn [missing fields_len field_len app].
  - rewrite N.sub_0_r. reflexivity.
  - destruct (i <? n); [reflexivity|]. rewrite IH. replace (i - n - fields_len a) with (i - (n + fields_len a)) by lia. reflexivity.
  - rewrite IH. replace (i - n - fields_len a) with (i - (n + fields_len a)) by lia. reflexivity.
Qed.

Lemma tells_ext {A} (d : D A) f g fs gs a : (forall pos, f pos = g pos) -> (forall pos, fs pos = gs pos) ->
  tells d f fs a -> tells d g gs a.
Proof.
  intros E1 E2 [L F C]. split; intros pos; specialize (L pos); specialize (F pos); specialize (C pos);
    rewrite <- ?E1, <- ?E2; auto.
Qed.
Lemma tells_extd {A} (d d' : D A) f fs a : (forall s, d' s = d s) -> tells d f fs a -> tells d' f fs a.
Proof.
  intros E [L F C]. split; [exact L|intros; rewrite E; apply F|].
  intros pos i b H. specialize (C pos i b H). rewrite E. exact C.
Qed.
(** Only [i <= lenN (f pos)] bytes, complete or not. *)
Lemma tells_upto {A} (d : D A) f fs a pos i b : tells d f fs a -> i <= lenN (f pos) ->
  match missing (fs pos) i with
  | Some e => exists s', d (mkBroken (takeN i (f pos)) pos b) = (MErr e, s')
  | None => d (mkBroken (takeN i (f pos)) pos b) = (MOk a, mkBroken [] (pos + lenN (f pos)) b)
  end.
Proof.
  intros [L F C] H. destruct (N.eq_dec i (lenN (f pos))) as [->|NE]; [|apply C; lia].
  rewrite missing_full by (rewrite L; lia). rewrite takeN_all. specialize (F pos [] b). rewrite app_nil_r in F. exact F.
Qed.
Lemma tells_bind {A B} (d : D A) (k : A -> D B) f fs g gs a b : tells d f fs a -> tells (k a) g gs b ->
  tells (dbind d k) (fseq f g) (tseq f fs gs) b.
Proof.
  intros T1 T2. pose proof T1 as [L F C]. pose proof T2 as [L2 F2 C2]. split.
  - intros pos. unfold tseq, fseq. rewrite fields_len_app, lenN_app, L, L2. reflexivity.
  - intros pos tail br. unfold fseq, dbind. rewrite <- app_assoc, F, F2, lenN_app, N.add_assoc. reflexivity.
  - intros pos i br H. unfold tseq, fseq in *. rewrite missing_app, lenN_app in *. rewrite L.
    unfold dbind. destruct (N.lt_ge_cases i (lenN (f pos))) as [Hi|Hi].
    + rewrite takeN_app_le by lia. specialize (C pos i br Hi). destruct (missing (fs pos) i) as [e|].
      * destruct C as [s' C]. rewrite C. eauto.
      * rewrite C. replace (i - lenN (f pos)) with 0 by lia.
        pose proof (tells_upto _ _ _ _ (pos + lenN (f pos)) 0 br T2 ltac:(lia)) as U.
        change (takeN 0 (g (pos + lenN (f pos)))) with (@nil byte) in U.
        rewrite N.add_assoc. exact U.
    + rewrite missing_full by (rewrite L; exact Hi). rewrite takeN_app_ge by lia. rewrite F, N.add_assoc.
      apply (tells_upto _ _ _ _ (pos + lenN (f pos)) _ br T2). lia.
Qed.
Lemma tells_ret {A} (a : A) : tells (dret a) (fconst []) (one []) a.
Proof.
  split; [reflexivity| |].
  - intros pos tail b. unfold dret, fconst. rewrite lenN_nil, N.add_0_r. reflexivity.
  - intros pos i b. unfold fconst. rewrite lenN_nil. lia.
Qed.
Lemma tells_map {A B} (d : D A) (h : A -> B) f fs a : tells d f fs a -> tells (dbind d (fun x => dret (h x))) f fs (h a).
Proof.
  intros T. eapply tells_ext; [| |apply (tells_bind d (fun x => dret (h x)) f fs _ _ _ _ T (tells_ret (h a)))].
  - intros pos. unfold fseq, fconst. apply app_nil_r.
  - intros pos. unfold tseq, one. apply app_nil_r.
Qed.
Lemma tells_pure {A B} (d : D A) (k : A -> D B) f fs a b : (forall s, d s = (MOk a, s)) -> tells (k a) f fs b ->
  tells (dbind d k) f fs b.
Proof. intros H. apply tells_extd. intros s. unfold dbind. rewrite H. reflexivity. Qed.
Lemma tells_build {A B} (m : reader A) (k : A -> D B) f fs a b : (forall s, m s = (Ok a, s)) -> tells (k a) f fs b ->
  tells (dbind (build m) k) f fs b.
Proof. intros H. apply tells_pure. intros s. unfold build, io. rewrite H. reflexivity. Qed.

Lemma takeN_dropN_split {A} i (l : list A) : l = takeN i l ++ dropN i l.
Proof. symmetry. apply takeN_dropN. Qed.
Lemma tells_io {A} (m : reader A) what bs a n : reads m (fconst bs) a -> short m (fconst bs) -> lenN bs = n ->
  tells (io m what) (fconst bs) (one [rd n what]) a.
Proof.
  intros R S <-. split.
  - intros pos. unfold one, rd, fconst. cbn [fields_len field_len]. lia.
  - intros pos tail b. unfold io. rewrite R. reflexivity.
  - intros pos i b H. unfold one, rd. cbn [missing]. unfold fconst in *. apply N.ltb_lt in H as H'. rewrite H'.
    destruct (S pos (takeN i bs) (dropN i bs) b) as (e & s' & X).
    + apply takeN_dropN_split.
    + intros E. apply (f_equal lenN) in E. rewrite lenN_dropN, lenN_nil in E. lia.
    + exists s'. unfold io. rewrite X. reflexivity.
Qed.
Lemma tells_u32 n what : n < two32 -> tells (io read_u32 what) (fconst (le_bytes 4 n)) (one [rd 4 what]) n.
Proof. intros H. apply tells_io; [apply reads_u32, H|apply short_u32|apply le_bytes_lenN]. Qed.
Lemma tells_u64 n what : n < two64 -> tells (io read_u64 what) (fconst (le_bytes 8 n)) (one [rd 8 what]) n.
Proof. intros H. apply tells_io; [apply reads_u64, H|apply short_u64|apply le_bytes_lenN]. Qed.
Lemma tells_exact bs n what : n = lenN bs -> tells (io (read_exact n) what) (fconst bs) (one [rd n what]) bs.
Proof. intros ->. apply tells_io; [apply reads_exact|apply short_exact|reflexivity]. Qed.
Lemma tells_f32s l n what : n = lenN l -> tells (io (read_f32s n) what) (fconst (f32s_bytes l)) (one [rd (4 * n) what]) l.
Proof. intros E. apply tells_io; [apply reads_f32s, E|apply short_f32s, E|]. rewrite f32s_bytes_lenN, E. reflexivity. Qed.
(** A length that is read and ignored. *)
Lemma tells_skip_u64 {B} what (k : D B) (g : bytesf) f fs b : (forall pos, lenN (g pos) = 8) -> tells k f fs b ->
  tells (io read_u64 what ;;; k) (fseq g f) (tseq g (one [rd 8 what]) fs) b.
Proof.
  intros Lg T. pose proof T as [L F C]. assert (forall bs rest pos br, lenN bs = 8 ->
    io read_u64 what (mkBroken (bs ++ rest) pos br) = (MOk (le_value bs), mkBroken rest (pos + 8) br)) as R.
  { intros bs rest pos br H. unfold io, read_u64, Stream.bind, ret. rewrite read_exact_app by exact H. reflexivity. }
  split.
  - intros pos. unfold tseq, one, fseq, rd. cbn [app fields_len field_len]. rewrite lenN_app, Lg, L. reflexivity.
  - intros pos tail br. unfold fseq, dbind. rewrite <- app_assoc, R by apply Lg. rewrite lenN_app, Lg, F, N.add_assoc. reflexivity.
  - intros pos i br H. unfold tseq, one, fseq in *. rewrite lenN_app in *. rewrite Lg in *. unfold rd. cbn [app missing].
    unfold dbind. destruct (N.ltb_spec i 8) as [Hi|Hi].
    + rewrite takeN_app_le by (rewrite Lg; lia). unfold io, read_u64, Stream.bind.
      rewrite read_exact_short by (rewrite lenN_takeN, Lg; lia). eauto.
    + rewrite takeN_app_ge by (rewrite Lg; lia). rewrite R by apply Lg. rewrite Lg, N.add_assoc.
      apply (tells_upto _ _ _ _ (pos + 8) _ br T). lia.
Qed.

Lemma tells_try_from {B} c (k : chunk_id -> D B) f fs b : c <> CHeader -> tells (k c) f fs b ->
  tells (dbind (chunk_try_from (chunk_num c)) k) f fs b.
Proof.
  intros H. apply tells_pure. intros s. unfold chunk_try_from. destruct c; try reflexivity. tauto.
Qed.
Lemma chunk_num_lt c : chunk_num c < two32.
Proof. destruct c; reflexivity. Qed.
Lemma tells_chunk_id c what : c <> CHeader ->
  tells (n <- io read_u32 what ;; chunk_try_from n) (fconst (le_bytes 4 (chunk_num c))) (one [rd 4 what]) c.
Proof.
  intros H. eapply tells_ext; [| |eapply tells_bind; [apply tells_u32, (chunk_num_lt c)|
    apply (tells_extd (dret c)); [|apply tells_ret]]].
  - intros pos. unfold fseq, fconst. apply app_nil_r.
  - reflexivity.
  - intros s. unfold chunk_try_from. destruct c; try reflexivity. tauto.
Qed.
Lemma tells_chunk_type c : c <> CHeader ->
  tells (ensure_chunk_type_d c) (fconst (le_bytes 4 (chunk_num c))) (one [rd 4 "Cannot read chunk identifier"]) tt.
Proof.
  intros H. eapply tells_ext; [| |eapply tells_bind; [apply tells_u32, (chunk_num_lt c)|
    apply (tells_extd (dret tt)); [|apply tells_ret]]].
  - intros pos. unfold fseq, fconst. apply app_nil_r.
  - reflexivity.
  - intros s. unfold chunk_try_from, dbind. destruct c; try reflexivity. tauto.
Qed.
Lemma tells_data_type t : t < two32 ->
  tells (ensure_data_type_d t) (fconst (le_bytes 4 t)) (one [rd 4 "Cannot read type identifier"]) tt.
Proof.
  intros H. eapply tells_ext; [| |eapply tells_bind; [apply tells_u32, H|apply (tells_extd (dret tt)); [|apply tells_ret]]].
  - intros pos. unfold fseq, fconst. apply app_nil_r.
  - reflexivity.
  - intros s. rewrite N.eqb_refl. reflexivity.
Qed.
Lemma tells_pad : tells skip_padding_d fpad (fun pos => [Pad (padding4 pos)]) tt.
Proof.
  assert (forall rest pos b, skip_padding_d (mkBroken rest pos b) =
    (MOk tt, mkBroken (if padding4 pos <=? lenN rest then dropN (padding4 pos) rest else []) (pos + padding4 pos) b)) as R by reflexivity.
  split.
  - intros pos. unfold fpad. rewrite zeros_lenN. cbn [fields_len field_len]. lia.
  - intros pos tail b. unfold fpad. rewrite R, lenN_app, zeros_lenN. destruct (N.leb_spec (padding4 pos) (padding4 pos + lenN tail)); [|lia].
    rewrite dropN_app_l by (symmetry; apply zeros_lenN). reflexivity.
  - intros pos i b. unfold fpad. rewrite zeros_lenN. intros H. cbn [missing]. rewrite R, lenN_takeN, zeros_lenN.
    destruct (N.leb_spec (padding4 pos) (N.min i (padding4 pos))); [lia|]. reflexivity.
Qed.
Lemma tells_repeat {A} (d : D A) (g : A -> list byte) (h : A -> list field) (l : list A) :
  (forall a, In a l -> tells d (fconst (g a)) (one (h a)) a) ->
  tells (drepeat (lenN l) d) (fconst (flat_map g l)) (one (flat_map h l)) l.
Proof.
  assert (forall n (m : D A) s, drepeat n m s = (fix rep (k : nat) : D (list A) :=
    match k with O => dret [] | Datatypes.S k' => a <- m ;; l <- rep k' ;; dret (a :: l) end) (N.to_nat n) s) as E.
  { intros n m s. set (rep := fix rep (k : nat) : D (list A) := _).
    assert (forall k1 k2 s, rep (k1 + k2)%nat s = (l1 <- rep k1 ;; l2 <- rep k2 ;; dret (l1 ++ l2)) s) as AD.
    { induction k1 as [|k1 IH]; intros k2 s'.
      - unfold dbind, dret. cbn. destruct (rep k2 s') as [[]]; reflexivity.
      - change (rep (Datatypes.S k1 + k2)%nat s') with ((a <- m ;; l <- rep (k1 + k2)%nat ;; dret (a :: l)) s').
        change (rep (Datatypes.S k1)) with (a <- m ;; l <- rep k1 ;; dret (a :: l)).
        unfold dbind, dret in *. destruct (m s') as [[a| |] s1]; try reflexivity. rewrite IH.
        destruct (rep k1 s1) as [[l1| |] s2]; try reflexivity. destruct (rep k2 s2) as [[]]; reflexivity. }
    destruct n as [|p]; [reflexivity|]. cbn [drepeat]. change (N.to_nat (N.pos p)) with (Pos.to_nat p). revert s.
    induction p as [p IH|p IH|]; intros s; cbn [drepeat_pos].
    - rewrite Pos2Nat.inj_xI. replace (2 * Pos.to_nat p)%nat with (Pos.to_nat p + Pos.to_nat p)%nat by lia.
      change (rep (Datatypes.S (Pos.to_nat p + Pos.to_nat p))) with (a <- m ;; l <- rep (Pos.to_nat p + Pos.to_nat p)%nat ;; dret (a :: l)).
      unfold dbind at 1. unfold dbind at 3. destruct (m s) as [[a| |] s1]; try reflexivity.
      unfold dbind at 3. rewrite AD. unfold dbind, dret. rewrite IH. destruct (rep (Pos.to_nat p) s1) as [[]]; try reflexivity.
      rewrite IH. destruct (rep (Pos.to_nat p) s0) as [[]]; reflexivity.
    - rewrite Pos2Nat.inj_xO. replace (2 * Pos.to_nat p)%nat with (Pos.to_nat p + Pos.to_nat p)%nat by lia.
      rewrite AD. unfold dbind, dret. rewrite IH. destruct (rep (Pos.to_nat p) s) as [[]]; try reflexivity. rewrite IH. reflexivity.
    - reflexivity. }
  intros H. eapply tells_extd; [intros s; apply E|]. unfold lenN. rewrite Nat2N.id. clear E.
  induction l as [|a l IH]; cbn [length flat_map]; [apply tells_ret|].
  eapply tells_ext; [| |eapply tells_bind; [apply H; left; reflexivity|
    apply (tells_map _ (fun l => a :: l)), IH; intros b Hb; apply H; right; exact Hb]]; reflexivity.
Qed.
Lemma tells_context {A} c (d : D A) f fs a : tells d f fs a ->
  tells (in_context c d) f (fun pos => map (fun x => match x with Fld n e => Fld n (MContext (txt c) e) | p => p end) (fs pos)) a.
Proof.
  intros [L F C]. set (g := fun x => match x with Fld n e => Fld n (MContext (txt c) e) | p => p end).
  assert (forall l, fields_len (map g l) = fields_len l) as GL.
  { induction l as [|x l IH]; [reflexivity|]. cbn [map fields_len]. rewrite IH. destruct x; reflexivity. }
  assert (forall l i, missing (map g l) i = option_map (MContext (txt c)) (missing l i)) as GM.
  { induction l as [|[n e|n] l IH]; intros i; [reflexivity| |]; cbn [map g missing]; [destruct (i <? n); [reflexivity|]|]; apply IH. }
  split.
  - intros pos. rewrite GL. apply L.
  - intros pos tail b. unfold in_context. rewrite F. reflexivity.
  - intros pos i b H. rewrite GM. specialize (C pos i b H). unfold in_context.
    destruct (missing (fs pos) i) as [e|]; cbn [option_map].
    + destruct C as [s' C]. rewrite C. eauto.
    + rewrite C. reflexivity.
Qed.

Lemma tells_framed {A} c what (d : D A) body fs a : c <> CHeader -> tells d body fs a ->
  tells (ensure_chunk_type_d c ;;; io read_u64 what ;;; d) (framed (chunk_num c) body)
    (fun pos => rd 4 "Cannot read chunk identifier" :: rd 8 what :: fs (pos + 12)) a.
Proof.
  intros H T. eapply tells_ext; [intros pos; symmetry; apply framed_fseq| |
    eapply tells_bind; [apply tells_chunk_type, H|cbv beta; apply tells_skip_u64; [intros; apply le_bytes_lenN|exact T]]].
  intros pos. unfold tseq, one, fconst. rewrite !le_bytes_lenN. cbn [app].
  replace (pos + N.of_nat 4 + N.of_nat 8) with (pos + 12) by lia. reflexivity.
Qed.
Lemma tells_peek {A} c what x (k : chunk_id -> D A) body fs a : c <> CHeader ->
  tells (k c) (framed (chunk_num c) body) (fun pos => rd 4 x :: fs pos) a ->
  tells (dbind (dpeek (n <- io read_u32 what ;; chunk_try_from n)) k) (framed (chunk_num c) body)
    (fun pos => rd 4 what :: fs pos) a.
Proof.
  intros H [L F C]. pose proof (tells_chunk_id c what H) as [_ PF _].
  split.
  - intros pos. rewrite <- L. reflexivity.
  - intros pos tail b. unfold dbind at 1, dpeek. unfold framed at 1. rewrite <- app_assoc.
    specialize (PF pos ((le_bytes 8 (lenN (body (pos + 12))) ++ body (pos + 12)) ++ tail) b). unfold fconst in PF.
    rewrite PF. apply F.
  - intros pos i b Hi. specialize (C pos i b Hi). unfold rd in *. cbn [missing] in *.
    destruct (N.ltb_spec i 4) as [L4|L4].
    + unfold framed. rewrite takeN_app_le by (rewrite le_bytes_lenN; cbn; lia).
      unfold dpeek, dbind, io, read_u32, Stream.bind. rewrite read_exact_short by (rewrite lenN_takeN, le_bytes_lenN; lia). eauto.
    + assert (exists rest, takeN i (framed (chunk_num c) body pos) = le_bytes 4 (chunk_num c) ++ rest) as [rest E].
      { unfold framed. rewrite takeN_app_ge by (rewrite le_bytes_lenN; cbn; lia). eauto. }
      rewrite E in *. specialize (PF pos rest b). unfold fconst in PF.
      destruct (missing (fs pos) (i - 4)); unfold dbind at 1, dpeek; rewrite PF; exact C.
Qed.

(** *** The header, the metadata and the norms *)
Lemma flat_map_one {A} (x : field) (l : list A) : flat_map (fun _ => [x]) l = repeat x (N.to_nat (lenN l)).
Proof.
  unfold lenN. rewrite Nat2N.id. induction l as [|a l IH]; [reflexivity|]. cbn [flat_map repeat length app]. rewrite IH. reflexivity.
Qed.
Lemma tells_header ids : ~ In CHeader ids -> lenN ids < two32 ->
  tells read_header_d (fconst (header_bytes ids)) (one (header_fields (lenN ids))) ids.
Proof.
  intros NH L. unfold read_header_d. eapply tells_ext; [| |eapply tells_bind; [apply (tells_exact magic 4); reflexivity|]].
  3:{ cbv beta. replace (negb (str_eqb magic magic)) with false by (rewrite str_eqb_refl; reflexivity).
      eapply tells_bind; [apply (tells_u32 0); reflexivity|]. cbv beta.
      change (negb (0 =? model_version)) with false. cbv iota.
      eapply tells_bind; [apply (tells_u32 (lenN ids)), L|]. cbv beta.
      apply tells_repeat. intros c Hc. apply tells_chunk_id. intros ->. tauto. }
  - layout.
  - intros pos. unfold tseq, one, header_fields. rewrite flat_map_one. reflexivity.
Qed.
Lemma build_reserve n size (s : stream) : n * size <= isize_max -> reserve n size s = (Ok tt, s).
Proof. intros H. unfold reserve. apply N.leb_le in H. rewrite H. reflexivity. Qed.

Lemma tells_metadata T te t : toml_law T -> lenN (toml_print T t) <= isize_max ->
  tells (read_metadata_chunk_d T te) (framed 5 (fconst (toml_print T t))) (one (metadata_fields (lenN (toml_print T t)))) t.
Proof.
  intros TL L. assert (lenN (toml_print T t) < two64) as L64 by (unfold isize_max, two64 in *; lia).
  destruct (TL t) as [TP TV]. unfold read_metadata_chunk_d.
  eapply tells_ext; [| |eapply tells_bind; [apply (tells_chunk_type CMetadata); discriminate|]].
  3:{ cbv beta. eapply tells_bind; [apply (tells_u64 (lenN (toml_print T t))), L64|]. cbv beta.
      eapply tells_build; [intros s; apply build_reserve; lia|]. cbv beta.
      eapply tells_bind; [apply (tells_exact (toml_print T t)); reflexivity|]. cbv beta. rewrite TV, TP. apply tells_ret. }
  - layout.
  - reflexivity.
Qed.
Lemma pad_at pos n : n mod 4 = 0 -> padding4 (pos + n) = 4 - pos mod 4.
Proof. intros H. rewrite padding4_add4 by exact H. reflexivity. Qed.
Lemma tells_norms ns : lenN ns * 4 <= isize_max ->
  tells read_norms_d (framed 6 (norms_body ns)) (norms_fields (lenN ns)) ns.
Proof.
  intros L. assert (lenN ns < two64) as L64 by (unfold isize_max, two64 in *; lia).
  unfold read_norms_d. eapply tells_ext; [reflexivity| |apply (tells_framed CNdNorms); [discriminate|]].
  2:{ eapply tells_ext; [| |eapply tells_bind; [apply (tells_u64 (lenN ns)), L64|]].
      3:{ cbv beta. eapply tells_bind; [apply (tells_data_type 10); reflexivity|]. cbv beta.
          eapply tells_bind; [apply tells_pad|]. cbv beta.
          eapply tells_build; [intros s; apply build_reserve; lia|]. cbv beta. apply (tells_f32s ns). reflexivity. }
      - intros pos. unfold norms_body, fseq, fconst, fpad. rewrite !le_bytes_lenN.
        replace (pos + N.of_nat 8 + N.of_nat 4) with (pos + 12) by lia. reflexivity.
      - reflexivity. }
  intros pos. unfold norms_fields, tseq, one, fconst. cbn [app]. rewrite !le_bytes_lenN.
  replace (pos + 12 + N.of_nat 8 + N.of_nat 4) with (pos + 24) by lia. rewrite pad_at by reflexivity. reflexivity.
Qed.

(** *** Vocabularies *)
Lemma tells_string s : str_ok s -> tells read_string_d (fconst (string_bytes s)) (one (string_fields s)) s.
Proof.
  intros [V L]. unfold read_string_d. eapply tells_ext; [| |eapply tells_bind; [apply (tells_u32 (lenN s)), L|]].
  3:{ cbv beta. eapply tells_bind; [apply (tells_exact s); reflexivity|]. cbv beta. rewrite V. apply tells_ret. }
  - layout.
  - reflexivity.
Qed.
Lemma tells_items l : Forall str_ok l -> lenN l * 24 <= isize_max ->
  tells (read_items_d (lenN l)) (fconst (flat_map string_bytes l)) (one (flat_map string_fields l)) l.
Proof.
  intros H L. rewrite Forall_forall in H. unfold read_items_d.
  eapply tells_build; [intros s; apply build_reserve; lia|]. cbv beta. apply tells_repeat. intros s Hs. apply tells_string. auto.
Qed.
Lemma tells_lift {A} (r : res A) a : r = Ok a -> tells (build (lift r)) (fconst []) (one []) a.
Proof.
  intros ->. apply (tells_extd (dret a)); [reflexivity|apply tells_ret].
Qed.
Lemma tells_simple ws v : words_ok ws -> simple_new ws = Ok v ->
  tells read_simple_d (framed 1 (fconst (simple_body ws)))
    (one (rd 4 "Cannot read chunk identifier" :: simple_fields (sm_words v))) v.
Proof.
  intros W E. pose proof (words_ok_64 ws W) as L64. destruct W as [W L].
  pose proof (simple_new_Ok _ _ E) as [_ Ev].
  unfold read_simple_d. eapply tells_ext; [reflexivity| |apply (tells_framed CSimpleVocab); [discriminate|]].
  2:{ eapply tells_ext; [| |eapply tells_bind; [apply (tells_u64 (lenN ws)), L64|]].
      3:{ cbv beta. eapply tells_bind; [apply tells_items; auto|]. cbv beta. apply tells_lift. exact E. }
      - layout.
      - reflexivity. }
  intros pos. rewrite Ev. unfold one, tseq, simple_fields. cbn [sm_words app]. rewrite app_nil_r. reflexivity.
Qed.
Lemma tells_bucketed {I} (B : bucket_ops I) pf id ws mn mx n ix v :
  id <> CHeader -> words_ok ws -> mn < two32 -> mx < two32 -> n < two32 ->
  bk_new B n = Ok ix -> sub_new (bk_ops B) pf ws mn mx ix = Ok v ->
  tells (read_bucketed_d B pf id) (framed (chunk_num id) (fconst (bucket_body ws mn mx n)))
    (one (rd 4 "Cannot read chunk identifier" :: bucket_fields (sv_words v))) v.
Proof.
  intros Hid W Lmn Lmx Ln Hn E. pose proof (words_ok_64 ws W) as L64. destruct W as [W L].
  pose proof E as E'. apply sub_new_wb_Ok in E' as (_ & Ev & _).
  unfold read_bucketed_d. eapply tells_ext; [reflexivity| |apply (tells_framed id); [exact Hid|]].
  2:{ eapply tells_ext; [| |eapply tells_bind; [apply (tells_u64 (lenN ws)), L64|]].
      3:{ cbv beta. eapply tells_bind; [apply (tells_u32 mn), Lmn|]. cbv beta.
          eapply tells_bind; [apply (tells_u32 mx), Lmx|]. cbv beta.
          eapply tells_bind; [apply (tells_u32 n), Ln|]. cbv beta.
          eapply tells_bind; [apply tells_items; auto|]. cbv beta.
          eapply tells_bind; [apply tells_lift; exact Hn|]. cbv beta. apply tells_lift. exact E. }
      - layout.
      - reflexivity. }
  intros pos. rewrite Ev. unfold one, tseq, bucket_fields. cbn [sv_words app]. rewrite app_nil_r. reflexivity.
Qed.
Lemma tells_ngram_item g i : str_ok g -> i < two64 ->
  tells read_ngram_item_d (fconst (ngram_bytes (g, i))) (one (ngram_fields g)) (g, i).
Proof.
  intros [V L] Hi. unfold read_ngram_item_d. eapply tells_ext; [| |eapply tells_bind; [apply (tells_u32 (lenN g)), L|]].
  3:{ cbv beta. eapply tells_bind; [apply (tells_exact g); reflexivity|]. cbv beta. rewrite V.
      eapply tells_bind; [apply (tells_u64 i), Hi|]. cbv beta. apply tells_ret. }
  - unfold ngram_bytes, string_bytes. cbn [fst snd]. layout.
  - reflexivity.
Qed.
Lemma tells_explicit pf ws mn mx ix v :
  words_ok ws -> mn < two32 -> mx < two32 ->
  explicit_built ix -> Forall str_ok (ei_ngrams ix) -> lenN (ei_ngrams ix) * 32 <= isize_max ->
  sub_new explicit_ops pf ws mn mx ix = Ok v ->
  tells (read_explicit_d pf) (framed 8 (fconst (explicit_body ws mn mx (retuple (ei_index ix) (ei_ngrams ix)))))
    (one (rd 4 "Cannot read chunk identifier" :: explicit_fields (sv_words v) (ei_ngrams (sv_ix v)))) v.
Proof.
  intros W Lmn Lmx Hix HG LG E. pose proof (words_ok_64 ws W) as L64. destruct W as [W L].
  pose proof E as E'. apply sub_new_wb_Ok in E' as (_ & Ev & _).
  destruct (explicit_built_facts ix Hix) as (o2n & R & NDg & KG & BG & LB).
  assert (lenN (ei_ngrams ix) < two64) as LG64 by (unfold isize_max, two64 in *; lia).
  set (ngs := retuple (ei_index ix) (ei_ngrams ix)) in *.
  assert (lenN ngs = lenN (ei_ngrams ix)) as Lngs by apply lenN_map.
  assert (forall p, In p ngs -> str_ok (fst p) /\ snd p < two64) as HN.
  { intros [g i] Hp. apply in_map_iff in Hp as (g' & Eg & Ig). inv Eg. cbn [fst snd].
    rewrite Forall_forall in HG. split; [auto|]. apply KG in Ig as [i Hi]. rewrite Hi.
    apply BG in Hi. lia. }
  assert (lenN ngs < two64) as Ln64 by lia.
  unfold read_explicit_d. eapply tells_ext; [reflexivity| |apply (tells_framed CExplicitSubwordVocab); [discriminate|]].
  2:{ eapply tells_ext; [| |eapply tells_bind; [apply (tells_u64 (lenN ws)), L64|]].
      3:{ cbv beta. eapply tells_bind; [apply (tells_u64 (lenN ngs)), Ln64|]. cbv beta.
          eapply tells_bind; [apply (tells_u32 mn), Lmn|]. cbv beta.
          eapply tells_bind; [apply (tells_u32 mx), Lmx|]. cbv beta.
          eapply tells_bind; [apply tells_items; auto|]. cbv beta.
          eapply tells_bind.
          { unfold read_ngrams_d. eapply tells_build; [intros s; apply build_reserve; lia|]. cbv beta.
            apply (tells_repeat _ ngram_bytes (fun p => ngram_fields (fst p))). intros [g i] Hp.
            destruct (HN _ Hp). apply tells_ngram_item; auto. }
          cbv beta. eapply tells_bind; [apply tells_lift; exact R|]. cbv beta. cbn [fst]. apply tells_lift. exact E. }
      - layout.
      - reflexivity. }
  intros pos. rewrite Ev. unfold one, tseq, explicit_fields. cbn [sv_words sv_ix app]. rewrite !app_nil_r.
  unfold ngs, retuple. rewrite (flat_map_concat_map _ (map _ _)), map_map, <- flat_map_concat_map. reflexivity.
Qed.
Lemma tells_floret pf mn mx nb nh seed bow eow ix v :
  mn < two32 -> mx < two32 -> nb < two64 -> seed < two32 -> str_ok bow -> str_ok eow ->
  floret_indexer_new nb nh seed = Ok ix ->
  sub_new_with_boundaries floret_ops pf [] mn mx ix bow eow = Ok v ->
  tells (read_floret_d pf) (framed 9 (fconst (floret_body mn mx nb nh seed bow eow)))
    (one (rd 4 "Cannot read chunk identifier" :: floret_fields (sv_bow v) (sv_eow v))) v.
Proof.
  intros Lmn Lmx Lnb Lseed Hbow Heow Hix E.
  pose proof E as E'. apply sub_new_wb_Ok in E' as (_ & Ev & _).
  assert (1 <= nh <= 4) as Lnh.
  { unfold floret_indexer_new in Hix. rinv Hix. apply rassert_Ok in H.
    apply andb_true_iff in H as [X1 X2]. apply N.ltb_lt in X1. apply N.leb_le in X2. lia. }
  assert (nh < two32) as Lnh' by (unfold two32; lia).
  assert (negb ((1 <=? nh) && (nh <=? 4)) = false) as Cnh.
  { destruct (N.leb_spec 1 nh), (N.leb_spec nh 4); try lia; reflexivity. }
  unfold read_floret_d. eapply tells_ext; [reflexivity| |apply (tells_framed CFloretSubwordVocab); [discriminate|]].
  2:{ eapply tells_ext; [| |eapply tells_bind; [apply (tells_u32 mn), Lmn|]].
      3:{ cbv beta. eapply tells_bind; [apply (tells_u32 mx), Lmx|]. cbv beta.
          eapply tells_bind; [apply (tells_u64 nb), Lnb|]. cbv beta.
          eapply tells_bind; [apply (tells_u32 nh), Lnh'|]. cbv beta. rewrite Cnh.
          eapply tells_bind; [apply (tells_u32 seed), Lseed|]. cbv beta.
          eapply tells_bind; [apply tells_context, tells_string, Hbow|]. cbv beta.
          eapply tells_bind; [apply tells_context, tells_string, Heow|]. cbv beta.
          eapply tells_bind; [apply tells_lift; exact Hix|]. cbv beta. apply tells_lift. exact E. }
      - unfold floret_body. layout.
      - reflexivity. }
  intros pos. rewrite Ev. reflexivity.
Qed.
Lemma tells_vocab pf v : vocab_built pf v -> exists body,
  chunk_codec (vocab_wrap_id v) (write_vocab_wrap v) (read_vocab_wrap pf) (fconst body)
    (vocab_wrap_chunk_len v) v /\
  vocab_wrap_id v <> CMetadata /\
  tells (read_vocab_wrap_d pf) (framed (chunk_num (vocab_wrap_id v)) (fconst body)) (one (vocab_fields v)) v.
Proof.
  destruct 1 as [ws v W E|ws mn mx ex ix v W L1 L2 H E|ws mn mx n ix v W L1 L2 H E
    |ws mn mx ix v W L1 L2 HB HG LG E|mn mx nb nh seed bow eow ix v L1 L2 L3 L4 B1 B2 H E].
  - destruct (simple_codec ws v W E) as [C _]. eexists. split; [|split; [discriminate|]].
    + apply (codec_wrap VSimple _ _ _ _ _ _ _ C). unfold read_vocab_wrap. apply reads_peek; [discriminate|].
      apply (reads_map _ VSimple). apply C.
    + apply (tells_peek CSimpleVocab _ "Cannot read chunk identifier" _ _ (one (simple_fields (sm_words v)))); [discriminate|].
      apply (tells_map _ VSimple), tells_simple; auto.
  - pose proof (hash_new_buckets _ _ H) as [HN HL].
    assert (ex < two32) by (unfold two32; lia).
    destruct (bucket_codec hash_bucket_ops pf CBucketSubwordVocab ws mn mx ex ix v) as [C _]; auto; [discriminate|].
    eexists. split; [|split; [discriminate|]].
    + apply (codec_wrap VBucket _ _ _ _ _ _ _ C). unfold read_vocab_wrap. apply reads_peek; [discriminate|].
      apply (reads_map _ VBucket). apply C.
    + apply (tells_peek CBucketSubwordVocab _ "Cannot read chunk identifier" _ _ (one (bucket_fields (sv_words v)))); [discriminate|].
      apply (tells_map _ VBucket). apply (tells_bucketed hash_bucket_ops pf CBucketSubwordVocab ws mn mx ex ix v); auto. discriminate.
  - pose proof (ft_new_buckets _ _ H) as [HN HL].
    assert (n < two32) by (unfold i32_max, two32 in *; lia).
    destruct (bucket_codec ft_bucket_ops pf CFastTextSubwordVocab ws mn mx n ix v) as [C _]; auto; [discriminate|].
    eexists. split; [|split; [discriminate|]].
    + apply (codec_wrap VFastText _ _ _ _ _ _ _ C). unfold read_vocab_wrap. apply reads_peek; [discriminate|].
      apply (reads_map _ VFastText). apply C.
    + apply (tells_peek CFastTextSubwordVocab _ "Cannot read chunk identifier" _ _ (one (bucket_fields (sv_words v)))); [discriminate|].
      apply (tells_map _ VFastText). apply (tells_bucketed ft_bucket_ops pf CFastTextSubwordVocab ws mn mx n ix v); auto. discriminate.
  - destruct (explicit_codec pf ws mn mx ix v W L1 L2 HB HG LG E) as [C _].
    eexists. split; [|split; [discriminate|]].
    + apply (codec_wrap VExplicit _ _ _ _ _ _ _ C). unfold read_vocab_wrap. apply reads_peek; [discriminate|].
      apply (reads_map _ VExplicit). apply C.
    + apply (tells_peek CExplicitSubwordVocab _ "Cannot read chunk identifier" _ _ (one (explicit_fields (sv_words v) (ei_ngrams (sv_ix v))))); [discriminate|].
      apply (tells_map _ VExplicit). apply tells_explicit; auto.
  - destruct (floret_codec pf mn mx nb nh seed bow eow ix v L1 L2 L3 L4 B1 B2 H E) as [C _].
    eexists. split; [|split; [discriminate|]].
    + apply (codec_wrap VFloret _ _ _ _ _ _ _ C). unfold read_vocab_wrap. apply reads_peek; [discriminate|].
      apply (reads_map _ VFloret). apply C.
    + apply (tells_peek CFloretSubwordVocab _ "Cannot read chunk identifier" _ _ (one (floret_fields (sv_bow v) (sv_eow v)))); [discriminate|].
      apply (tells_map _ VFloret). apply (tells_floret pf mn mx nb nh seed bow eow ix v); auto.
Qed.

(** *** Storages *)
Lemma dbind_ext {A B} (m : D A) (k h : A -> D B) s : (forall a s, k a s = h a s) -> dbind m k s = dbind m h s.
Proof. intros H. unfold dbind. destruct (m s) as [[]]; auto. Qed.
Ltac split_steps := intros s; repeat first [rewrite dbind_assoc; apply dbind_ext; intros ? ?]; reflexivity.

Lemma tells_nd a : nd_ok a ->
  tells read_ndarray_d (framed 2 (nd_body a)) (fun pos => rd 4 "Cannot read chunk identifier" :: nd_fields a pos) a.
Proof.
  intros (W & Lr & Lc & DO). pose proof (nd_data_len a W) as DL.
  assert (mkA2 (a2_cols a) (unflattenN (a2_nrows a) (a2_cols a) (concat (a2_rows a))) = a) as EA.
  { rewrite unflattenN_concat; [destruct a; reflexivity|reflexivity|exact W]. }
  eapply (tells_extd (ensure_chunk_type_d CNdArray ;;; io read_u64 "Cannot read embedding matrix chunk length" ;;;
    rows <- io read_u64 "Cannot read number of rows of the embedding matrix" ;;
    cols <- io read_u32 "Cannot read number of columns of the embedding matrix" ;;
    ensure_data_type_d f32_type_id ;;; skip_padding_d ;;;
    build (alloc_zeros [rows; cols] 4) ;;;
    data <- io (read_f32s (rows * cols)) "Cannot read embedding matrix" ;;
    dret (mkA2 cols (unflattenN rows cols data)))).
  { unfold read_ndarray_d, read_nd_shape_d. split_steps. }
  eapply tells_ext; [reflexivity| |apply (tells_framed CNdArray); [discriminate|]].
  2:{ eapply tells_ext; [intros pos; symmetry; apply nd_body_fseq| |eapply tells_bind; [apply (tells_u64 (a2_nrows a)), Lr|]].
      2:{ cbv beta. eapply tells_bind; [apply (tells_u32 (a2_cols a)), Lc|]. cbv beta.
          eapply tells_bind; [apply (tells_data_type 10); reflexivity|]. cbv beta.
          eapply tells_bind; [apply tells_pad|]. cbv beta.
          eapply tells_build; [intros s; apply alloc_zeros_ok, DO|]. cbv beta.
          pose proof (tells_map _ (fun data => mkA2 (a2_cols a) (unflattenN (a2_nrows a) (a2_cols a) data))
            _ _ _ (tells_f32s (concat (a2_rows a)) _ "Cannot read embedding matrix" (eq_sym DL))) as R.
          cbv beta in R. rewrite EA in R. exact R. }
      reflexivity. }
  intros pos. unfold nd_fields, tseq, one, fconst. cbn [app]. rewrite !le_bytes_lenN.
  replace (pos + 12 + N.of_nat 8 + N.of_nat 4 + N.of_nat 4) with (pos + 28) by lia. rewrite pad_at by reflexivity. reflexivity.
Qed.

Lemma tells_projection p : pq_ok p ->
  tells (read_projection_d (is_some (pq_proj p)) (pq_rl p))
    (fconst (opt_data (fun pr => f32s_bytes (concat (a2_rows pr))) (pq_proj p)))
    (one (if is_some (pq_proj p) then [rd (4 * (pq_rl p * pq_rl p)) "Cannot read projection matrix"] else [])) (pq_proj p).
Proof.
  intros (PN & PP & _). unfold read_projection_d.
  destruct (pq_proj p) as [pr|] eqn:EP; cbn [is_some opt_data]; [|apply tells_ret].
  destruct (PP _ eq_refl) as [PW PD].
  unfold pq_new in PN. rinv PN. rinv H0. apply rassert_Ok, andb_true_iff in H1 as [X1 X2].
  apply N.eqb_eq in X1, X2. fold (pq_rl p) in X1, X2.
  assert (pq_rl p * pq_rl p = lenN (concat (a2_rows pr))) as EL.
  { rewrite (concat_lenN _ _ PW), X2. unfold a2_nrows in X1. rewrite X1. reflexivity. }
  assert (mkA2 (pq_rl p) (unflattenN (pq_rl p) (pq_rl p) (concat (a2_rows pr))) = pr) as EP'.
  { unfold a2_wf in PW. rewrite X2 in PW. rewrite unflattenN_concat; auto. rewrite <- X2. destruct pr; reflexivity. }
  eapply tells_build; [intros s; apply alloc_zeros_ok, PD|]. cbv beta.
  replace (Some pr) with (Some (mkA2 (pq_rl p) (unflattenN (pq_rl p) (pq_rl p) (concat (a2_rows pr))))) by (rewrite EP'; reflexivity).
  apply (tells_map _ (fun data => Some (mkA2 (pq_rl p) (unflattenN (pq_rl p) (pq_rl p) data)))).
  apply tells_f32s, EL.
Qed.
Lemma tells_qnorms q : qa_ok q ->
  tells (read_quantized_norms_d (is_some (qa_norms q)) (a2_nrows (qa_codes q)))
    (fconst (opt_data f32s_bytes (qa_norms q)))
    (one (if is_some (qa_norms q) then [rd (4 * a2_nrows (qa_codes q)) "Cannot read norms"] else [])) (qa_norms q).
Proof.
  intros (_ & _ & _ & _ & _ & HN). unfold read_quantized_norms_d.
  destruct (qa_norms q) as [ns|]; cbn [is_some opt_data]; [|apply tells_ret].
  destruct (HN _ eq_refl) as [E DO]. rewrite E in DO.
  eapply tells_build; [intros s; apply alloc_zeros_ok, DO|]. cbv beta.
  apply (tells_map _ Some), tells_f32s. auto.
Qed.
Definition pq_fields (q : quantized f32) : tbl := fun pos =>
  let p := qa_pq q in
  [rd 4 "Cannot read quantized embedding matrix projection";
   rd 4 "Cannot read quantized embedding matrix norms";
   rd 4 "Cannot read quantized embedding length";
   rd 4 "Cannot read reconstructed embedding length";
   rd 4 "Cannot read number of subquantizers";
   rd 8 "Cannot read number of quantized embeddings";
   rd 4 "Cannot read type identifier"; rd 4 "Cannot read type identifier";
   Pad (4 - pos mod 4)]
  ++ (if is_some (pq_proj p) then [rd (4 * (pq_rl p * pq_rl p)) "Cannot read projection matrix"] else [])
  ++ [rd (4 * (pq_ql p * pq_nc p * pq_sub p)) "Cannot read subquantizer"].
Lemma tells_pq q : qa_ok q ->
  tells read_product_quantizer_d (qa_pq_part q) (pq_fields q) (a2_nrows (qa_codes q), qa_pq q, is_some (qa_norms q)).
Proof.
  intros (HP & W & WC & Ln & LC & HN). pose proof (pq_ok_pos _ HP) as (P1 & P2 & P3 & PS & PM & PL).
  pose proof (tells_projection _ HP) as TP.
  pose proof HP as (PN & PP & CL & CW & Lrl & Lnc & LD).
  destruct (cent_len _ CL CW) as [CE CU]. unfold qa_pq_part, pq_fields. set (p := qa_pq q) in *. cbv zeta.
  assert (pq_ql p < two32) as Lql by lia.
  assert (forall s, check_quantizer_invariants_d (pq_ql p) (pq_rl p) s = (MOk tt, s)) as CI.
  { intros s. unfold check_quantizer_invariants_d. destruct (N.eqb_spec (pq_ql p) 0); [lia|]. rewrite PM. reflexivity. }
  assert (pq_ql p * pq_nc p * pq_sub p = lenN (concat (concat (pq_cent p)))) as EC by (rewrite CE; lia).
  unfold read_product_quantizer_d.
  eapply tells_ext; [| |eapply tells_bind; [apply (tells_u32 (b2n (is_some (pq_proj p)))), b2n_lt|]].
  3:{ cbv beta. eapply tells_bind; [apply (tells_u32 (b2n (is_some (qa_norms q)))), b2n_lt|]. cbv beta.
      eapply tells_bind; [apply (tells_u32 (pq_ql p)), Lql|]. cbv beta.
      eapply tells_bind; [apply (tells_u32 (pq_rl p)), Lrl|]. cbv beta.
      eapply tells_bind; [apply (tells_u32 (pq_nc p)), Lnc|]. cbv beta.
      eapply tells_bind; [apply (tells_u64 (a2_nrows (qa_codes q))), Ln|]. cbv beta.
      eapply tells_pure; [exact CI|]. cbv beta.
      eapply tells_bind; [apply (tells_data_type 1); reflexivity|]. cbv beta.
      eapply tells_bind; [apply (tells_data_type 10); reflexivity|]. cbv beta.
      eapply tells_bind; [apply tells_pad|]. cbv beta. rewrite !b2n_neq, PS.
      eapply tells_bind; [exact TP|]. cbv beta.
      eapply tells_build; [intros s; apply alloc_zeros_ok, LD|]. cbv beta.
      eapply tells_bind; [apply (tells_f32s (concat (concat (pq_cent p)))); exact EC|]. cbv beta. rewrite CU.
      eapply tells_bind; [apply tells_lift; exact PN|]. cbv beta. apply tells_ret. }
  - layout.
  - intros pos. unfold tseq, one, fconst. cbn [app]. rewrite !le_bytes_lenN, ?app_nil_r.
    replace (pos + N.of_nat 4 + N.of_nat 4 + N.of_nat 4 + N.of_nat 4 + N.of_nat 4 + N.of_nat 8 + N.of_nat 4 + N.of_nat 4)
      with (pos + 36) by lia. rewrite pad_at by reflexivity. reflexivity.
Qed.
Lemma tells_qa q : qa_ok q ->
  tells read_quantized_d (framed 4 (qa_body q)) (fun pos => rd 4 "Cannot read chunk identifier" :: qa_fields q pos) q.
Proof.
  intros H. pose proof (tells_pq q H) as TP. pose proof (tells_qnorms q H) as TN.
  pose proof H as (_ & W & WC & _ & LC & _).
  assert (a2_nrows (qa_codes q) * pq_ql (qa_pq q) = lenN (concat (a2_rows (qa_codes q)))) as EL.
  { rewrite (concat_lenN _ _ W), WC. reflexivity. }
  assert (mkQuant (qa_pq q) (mkA2 (pq_ql (qa_pq q)) (unflattenN (a2_nrows (qa_codes q)) (pq_ql (qa_pq q))
            (concat (a2_rows (qa_codes q))))) (qa_norms q) = q) as EQ.
  { rewrite <- WC, unflattenN_concat by auto. destruct q as [p [c r] n]; reflexivity. }
  unfold read_quantized_d. eapply tells_ext; [reflexivity| |apply (tells_framed CQuantizedArray); [discriminate|]].
  2:{ eapply tells_ext; [intros pos; symmetry; apply qa_body_fseq| |eapply tells_bind; [exact TP|]].
      2:{ cbv beta iota. eapply tells_bind; [exact TN|]. cbv beta.
          eapply tells_build; [intros s; apply alloc_zeros_ok, LC|]. cbv beta.
          pose proof (tells_map _ (fun data => mkQuant (qa_pq q) (mkA2 (pq_ql (qa_pq q)) (unflattenN (a2_nrows (qa_codes q)) (pq_ql (qa_pq q)) data)) (qa_norms q))
            _ _ _ (tells_exact (concat (a2_rows (qa_codes q))) _ "Cannot read quantized embeddings" EL)) as R.
          cbv beta in R. rewrite EQ in R. exact R. }
      reflexivity. }
  intros pos. unfold qa_fields, pq_fields, tseq, one. cbv zeta. rewrite <- !app_assoc. cbn [app].
  replace (4 - (pos + 12) mod 4) with (4 - pos mod 4).
  2:{ pose proof (pad_at pos 12 eq_refl) as X. unfold padding4 in X. symmetry. exact X. }
  reflexivity.
Qed.
Lemma tells_storage s s0 : storage_holds s s0 ->
  tells read_storage_wrap_d (framed (chunk_num (swrap_id s)) (storage_body s0)) (storage_fields s0) s0.
Proof.
  assert (forall a, nd_ok a -> tells read_storage_wrap_d (framed 2 (nd_body a)) (storage_fields (SNdArray a)) (SNdArray a)) as ND.
  { intros a H. apply (tells_peek CNdArray _ "Cannot read chunk identifier" _ _ (nd_fields a)); [discriminate|].
    apply (tells_map _ SNdArray), tells_nd, H. }
  assert (forall q, qa_ok q -> tells read_storage_wrap_d (framed 4 (qa_body q)) (storage_fields (SQuantized q)) (SQuantized q)) as QA.
  { intros q H. apply (tells_peek CQuantizedArray _ "Cannot read chunk identifier" _ _ (qa_fields q)); [discriminate|].
    apply (tells_map _ SQuantized), tells_qa, H. }
  destruct 1; cbn [swrap_id storage_body]; auto.
Qed.

(** *** Mapped storages *)
Lemma tells_map_data {B} (h : mmap -> B) (h' : N -> B) data n w1 w2 : n = lenN data -> n <= isize_max ->
  (forall bs, h (mkMmap n bs) = h' n) ->
  tells (m <- io (mmap_region n) w1 ;; io (seek_forward n) w2 ;;; dret (h m)) (fconst data) (one [Pad n]) (h' n).
Proof.
  intros -> L H.
  assert (forall rest pos b, (m <- io (mmap_region (lenN data)) w1 ;; io (seek_forward (lenN data)) w2 ;;; dret (h m)) (mkBroken rest pos b)
    = (MOk (h' (lenN data)), mkBroken (if lenN data <=? lenN rest then dropN (lenN data) rest else []) (pos + lenN data) b)) as R.
  { intros rest pos b. unfold dbind, io, mmap_region. apply N.leb_le in L. rewrite L. cbn [s_rest]. unfold seek_forward. cbn [s_rest s_pos s_broken].
    unfold dret. rewrite H. reflexivity. }
  split.
  - intros pos. unfold one, fconst. cbn [fields_len field_len]. lia.
  - intros pos tail b. unfold fconst. rewrite R, lenN_app. destruct (N.leb_spec (lenN data) (lenN data + lenN tail)); [|lia].
    rewrite dropN_app_l by reflexivity. reflexivity.
  - intros pos i b. unfold fconst, one. intros Hi. cbn [missing]. rewrite R, lenN_takeN.
    destruct (N.leb_spec (lenN data) (N.min i (lenN data))); [lia|]. reflexivity.
Qed.
Lemma tells_mmap_nd pf a : nd_ok a ->
  tells (m <- mmap_ndarray_d pf ;; dret (unmapped_storage (SMmapArray m))) (framed 2 (nd_body a))
    (fun pos => rd 4 "Cannot read chunk identifier" :: skip_last (nd_fields a pos))
    (unmapped_storage (SMmapArray (nd_mapped a))).
Proof.
  intros (W & Lr & Lc & DO). pose proof (nd_data_len a W) as DL. apply dims2 in DO.
  assert (a2_nrows a * a2_cols a * 4 < two64) as L1 by (unfold isize_max, two64 in *; lia).
  eapply (tells_extd (ensure_chunk_type_d CNdArray ;;; io read_u64 "Cannot read embedding matrix chunk length" ;;;
    rows <- io read_u64 "Cannot read number of rows of the embedding matrix" ;;
    cols <- io read_u32 "Cannot read number of columns of the embedding matrix" ;;
    ensure_data_type_d f32_type_id ;;; skip_padding_d ;;;
    size <- build (lift (mul64 pf rows cols)) ;;
    len <- build (lift (mul64 pf size 4)) ;;
    map <- io (mmap_region len) "Cannot memory map embedding matrix" ;;
    io (seek_forward len) "Cannot skip embedding matrix" ;;;
    dret (unmapped_storage (SMmapArray (mkMma map rows cols))))).
  { intros s. unfold mmap_ndarray_d, read_nd_shape_d.
    rewrite dbind_assoc.
    repeat (rewrite dbind_assoc; apply dbind_ext; intros ? ?). unfold dret at 1. unfold dbind at 1.
    repeat (rewrite dbind_assoc; apply dbind_ext; intros ? ?). reflexivity. }
  eapply tells_ext; [reflexivity| |apply (tells_framed CNdArray); [discriminate|]].
  2:{ eapply tells_ext; [intros pos; symmetry; apply nd_body_fseq| |eapply tells_bind; [apply (tells_u64 (a2_nrows a)), Lr|]].
      2:{ cbv beta. eapply tells_bind; [apply (tells_u32 (a2_cols a)), Lc|]. cbv beta.
          eapply tells_bind; [apply (tells_data_type 10); reflexivity|]. cbv beta.
          eapply tells_bind; [apply tells_pad|]. cbv beta.
          eapply tells_build; [intros s; unfold lift; rewrite mul64_ok by lia; reflexivity|]. cbv beta.
          eapply tells_build; [intros s; unfold lift; rewrite mul64_ok by lia; reflexivity|]. cbv beta.
          apply (tells_map_data (fun map => unmapped_storage (SMmapArray (mkMma map (a2_nrows a) (a2_cols a))))
            (fun n => SMmapArray (mkMma (mkMmap n []) (a2_nrows a) (a2_cols a)))); [|exact DO|reflexivity].
          rewrite f32s_bytes_lenN, DL. lia. }
      reflexivity. }
  intros pos. unfold nd_fields, tseq, one, fconst, rd. cbn [app skip_last field_len]. rewrite !le_bytes_lenN.
  replace (pos + 12 + N.of_nat 8 + N.of_nat 4 + N.of_nat 4) with (pos + 28) by lia. rewrite pad_at by reflexivity.
  replace (a2_nrows a * a2_cols a * 4) with (4 * (a2_nrows a * a2_cols a)) by lia. reflexivity.
Qed.
Lemma skip_last_app a f : skip_last (a ++ [f]) = a ++ [Pad (field_len f)].
Proof.
  induction a as [|x a IH]; [reflexivity|]. cbn [app]. rewrite <- IH. destruct a; reflexivity.
Qed.
Lemma tells_mmap_qa pf q : qa_ok q ->
  tells (m <- mmap_quantized_chunk_d pf ;; dret (unmapped_storage (SMmapQuantized m))) (framed 4 (qa_body q))
    (fun pos => rd 4 "Cannot read chunk identifier" :: skip_last (qa_fields q pos))
    (unmapped_storage (SMmapQuantized (qa_mapped q))).
Proof.
  intros H. pose proof (tells_pq q H) as TP. pose proof (tells_qnorms q H) as TN.
  pose proof H as (_ & W & WC & _ & LC & _). apply dims2 in LC.
  assert (a2_nrows (qa_codes q) * pq_ql (qa_pq q) = lenN (concat (a2_rows (qa_codes q)))) as EL.
  { rewrite (concat_lenN _ _ W), WC. reflexivity. }
  eapply (tells_extd (ensure_chunk_type_d CQuantizedArray ;;;
    io read_u64 "Cannot read quantized embedding matrix chunk length" ;;;
    r <- read_product_quantizer_d ;;
    norms <- read_quantized_norms_d (snd r) (fst (fst r)) ;;
    len <- build (lift (mul64 pf (fst (fst r)) (pq_ql (snd (fst r))))) ;;
    map <- io (mmap_region len) "Cannot memory map quantized embedding matrix" ;;
    io (seek_forward len) "Cannot skip quantized embedding matrix" ;;;
    dret (unmapped_storage (SMmapQuantized (mkMmq (snd (fst r)) map norms))))).
  { intros s. unfold mmap_quantized_chunk_d.
    do 3 (rewrite dbind_assoc; apply dbind_ext; intros ? ?). destruct a1 as [[n p] has]. cbn [fst snd].
    repeat (rewrite dbind_assoc; apply dbind_ext; intros ? ?). reflexivity. }
  eapply tells_ext; [reflexivity| |apply (tells_framed CQuantizedArray); [discriminate|]].
  2:{ eapply tells_ext; [intros pos; symmetry; apply qa_body_fseq| |eapply tells_bind; [exact TP|]].
      2:{ cbv beta. cbn [fst snd]. eapply tells_bind; [exact TN|]. cbv beta.
          eapply tells_build; [intros s; unfold lift; rewrite mul64_ok by (unfold isize_max, two64 in *; lia); reflexivity|]. cbv beta.
          apply (tells_map_data (fun map => unmapped_storage (SMmapQuantized (mkMmq (qa_pq q) map (qa_norms q))))
            (fun n => SMmapQuantized (mkMmq (qa_pq q) (mkMmap n []) (qa_norms q)))); [exact EL|lia|reflexivity]. }
      reflexivity. }
  intros pos. unfold qa_fields, pq_fields, tseq, one. cbv zeta. rewrite !app_assoc, skip_last_app, <- !app_assoc. cbn [app field_len].
  replace (4 - (pos + 12) mod 4) with (4 - pos mod 4).
  2:{ pose proof (pad_at pos 12 eq_refl) as X. unfold padding4 in X. symmetry. exact X. }
  reflexivity.
Qed.
Lemma skip_last_cons f fs : fs <> [] -> skip_last (f :: fs) = f :: skip_last fs.
Proof. destruct fs; [tauto|reflexivity]. Qed.
Lemma tells_mmap_storage pf s s0 : storage_holds s s0 ->
  tells (m <- mmap_storage_wrap_d pf ;; dret (unmapped_storage m)) (framed (chunk_num (swrap_id s)) (storage_body s0))
    (fun pos => skip_last (storage_fields s0 pos)) (unmapped_storage (storage_mapped s0)).
Proof.
  assert (forall a, nd_ok a -> tells (m <- mmap_storage_wrap_d pf ;; dret (unmapped_storage m)) (framed 2 (nd_body a))
    (fun pos => skip_last (storage_fields (SNdArray a) pos)) (unmapped_storage (SMmapArray (nd_mapped a)))) as ND.
  { intros a H. eapply tells_extd; [intros s1; unfold mmap_storage_wrap_d; apply dbind_assoc|].
    apply (tells_peek CNdArray _ "Cannot read chunk identifier" _ _ (fun pos => skip_last (nd_fields a pos))); [discriminate|].
    cbv beta iota. eapply tells_extd; [intros s1; apply dbind_assoc|]. cbv beta. apply tells_mmap_nd, H. }
  assert (forall q, qa_ok q -> tells (m <- mmap_storage_wrap_d pf ;; dret (unmapped_storage m)) (framed 4 (qa_body q))
    (fun pos => skip_last (storage_fields (SQuantized q) pos)) (unmapped_storage (SMmapQuantized (qa_mapped q)))) as QA.
  { intros q H. eapply tells_extd; [intros s1; unfold mmap_storage_wrap_d; apply dbind_assoc|].
    apply (tells_peek CQuantizedArray _ "Cannot read chunk identifier" _ _ (fun pos => skip_last (qa_fields q pos))); [discriminate|].
    cbv beta iota. eapply tells_extd; [intros s1; apply dbind_assoc|]. cbv beta. apply tells_mmap_qa, H. }
  destruct 1; cbn [swrap_id storage_body storage_mapped]; auto.
Qed.

(** *** Whole files *)
Section Cut.
  Context (T : toml_ops) (te : str -> str) {V S : Type} (rv : D V) (rs : D S).

  Definition main_d : D (option (toml_table T) * V * S) :=
    ids <- read_header_d ;;
    match ids with
    | [] => dfail (MFormat (txt "Embedding file does not contain chunks"))
    | id :: _ =>
        md <- (if chunk_eqb id CMetadata
               then t <- read_metadata_chunk_d T te ;; dret (Some t) else dret None) ;;
        v <- rv ;; s <- rs ;; dret (md, v, s)
    end.
  Definition fin_d (r : option (toml_table T) * V * S) : D (embeddings (toml_table T) V S f32) :=
    norms <- dok read_norms_d ;; dret (mkEmb (fst (fst r)) (snd r) (snd (fst r)) norms).
  Lemma main_fin s : read_embeddings_d T te rv rs s = dbind main_d fin_d s.
  Proof.
    unfold read_embeddings_d, main_d. rewrite dbind_assoc. apply dbind_ext. intros [|id ids] s1; [reflexivity|].
    repeat (rewrite dbind_assoc; apply dbind_ext; intros ? ?). reflexivity.
  Qed.

  Lemma tells_main ids md v s f1 f2 fs1 fs2 :
    ~ In CHeader ids -> lenN ids < two32 -> ids <> [] ->
    (match md with Some t => hd_error ids = Some CMetadata | None => hd_error ids <> Some CMetadata end) ->
    toml_law T -> (forall t, md = Some t -> lenN (toml_print T t) <= isize_max) ->
    tells rv f1 fs1 v -> tells rs f2 fs2 s ->
    tells main_d (fseq (fconst (header_bytes ids)) (fseq (meta_f T md) (fseq f1 f2)))
      (tseq (fconst (header_bytes ids)) (one (header_fields (lenN ids)))
        (tseq (meta_f T md) (one (match md with Some t => metadata_fields (lenN (toml_print T t)) | None => [] end))
          (tseq f1 fs1 fs2))) (md, v, s).
  Proof.
    intros H1 H2 H3 H4 TL LM TV TS. unfold main_d. eapply tells_bind; [apply tells_header; auto|]. cbv beta.
    destruct ids as [|id ids]; [tauto|]. cbn [hd_error] in H4.
    eapply tells_bind with (a := md).
    - unfold meta_f. destruct md as [t|].
      + inv H4. replace (chunk_eqb CMetadata CMetadata) with true by reflexivity.
        apply (tells_map _ Some). apply tells_metadata; auto.
      + replace (chunk_eqb id CMetadata) with false; [apply tells_ret|].
        symmetry. destruct (chunk_eqb id CMetadata) eqn:X; [|reflexivity]. apply chunk_eqb_eq in X. congruence.
    - cbv beta. eapply tells_bind; [exact TV|]. cbv beta. apply (tells_map _ (fun s => (md, v, s))). exact TS.
  Qed.

  Lemma cut_norms ns (r : option (toml_table T) * V * S) pos i b :
    (forall l, ns = Some l -> lenN l * 4 <= isize_max) -> i <= lenN (norms_f ns pos) ->
    exists s', fin_d r (mkBroken (takeN i (norms_f ns pos)) pos b)
    = (MOk (mkEmb (fst (fst r)) (snd r) (snd (fst r))
         (match missing (match ns with Some l => norms_fields (lenN l) pos | None => [] end) i with
          | Some _ => None | None => ns end)), s').
  Proof.
    intros HN Hi. unfold fin_d, dbind, dok. unfold norms_f in *. destruct ns as [l|].
    - pose proof (tells_upto _ _ _ _ pos i b (tells_norms l (HN l eq_refl)) Hi) as U.
      destruct (missing (norms_fields (lenN l) pos) i).
      + destruct U as [s' U]. rewrite U. eexists. reflexivity.
      + rewrite U. eexists. reflexivity.
    - unfold fconst in *. assert (takeN i (@nil byte) = []) as -> by (unfold takeN; apply firstn_nil). cbn [missing].
      eexists. cbn. reflexivity.
  Qed.

  Lemma cut_file f fs r ns pos i b : tells main_d f fs r ->
    (forall l, ns = Some l -> lenN l * 4 <= isize_max) -> i <= lenN (fseq f (norms_f ns) pos) ->
    match missing (fs pos) i with
    | Some e => exists s', read_embeddings_d T te rv rs (mkBroken (takeN i (fseq f (norms_f ns) pos)) pos b) = (MErr e, s')
    | None => exists s', read_embeddings_d T te rv rs (mkBroken (takeN i (fseq f (norms_f ns) pos)) pos b)
        = (MOk (mkEmb (fst (fst r)) (snd r) (snd (fst r))
            (match missing (match ns with Some l => norms_fields (lenN l) (pos + fields_len (fs pos)) | None => [] end) (i - fields_len (fs pos)) with
             | Some _ => None | None => ns end)), s')
    end.
  Proof.
    intros TM HN Hi. pose proof TM as [L F C]. rewrite L. unfold fseq in *. rewrite lenN_app in Hi.
    destruct (N.lt_ge_cases i (lenN (f pos))) as [Hl|Hl].
    - rewrite takeN_app_le by lia. specialize (C pos i b Hl). replace (i - lenN (f pos)) with 0 by lia.
      destruct (missing (fs pos) i) as [e|].
      + destruct C as [s' C]. exists s'. rewrite main_fin. unfold dbind. rewrite C. reflexivity.
      + pose proof (cut_norms ns r (pos + lenN (f pos)) 0 b HN ltac:(lia)) as [s' U].
        exists s'. rewrite main_fin. unfold dbind at 1. rewrite C. exact U.
    - rewrite missing_full by (rewrite L; exact Hl). rewrite takeN_app_ge by lia.
      pose proof (cut_norms ns r (pos + lenN (f pos)) (i - lenN (f pos)) b HN ltac:(lia)) as [s' U].
      exists s'. rewrite main_fin. unfold dbind at 1. rewrite F. exact U.
  Qed.
End Cut.


Section Files.
  Context (pf : profile) (T : toml_ops) (te : str -> str) (e : emb T) (s0 : storage_wrap).
  Hypothesis TL : toml_law T.
  Hypothesis EB : emb_built pf T e s0.

  Lemma cut_embeddings {S} (rs : D S) g (x : S) base bytes b i :
    tells rs (framed (chunk_num (swrap_id (em_storage e))) (storage_body s0)) g x ->
    run_writer (write_file T e) base = Ok bytes -> i <= lenN bytes ->
    let main := front_fields e ++ g (base + fields_len (front_fields e)) in
    let last := match em_norms e with Some l => norms_fields (lenN l) (base + fields_len main) | None => [] end in
    fields_len main + fields_len last = lenN bytes /\
    match missing main i with
    | Some err => exists s', read_embeddings_d T te (read_vocab_wrap_d pf) rs (mkBroken (takeN i bytes) base b) = (MErr err, s')
    | None => exists s', read_embeddings_d T te (read_vocab_wrap_d pf) rs (mkBroken (takeN i bytes) base b)
        = (MOk (mkEmb (em_meta e) x (em_vocab e)
            (match missing last (i - fields_len main) with Some _ => None | None => em_norms e end)), s')
    end.
  Proof.
    intros TS HW Hi. destruct EB as [HV HS HM HN].
    destruct (tells_vocab pf _ HV) as (vb & CV & IDV & TV).
    destruct (storage_wrap_codec _ _ HS) as (CS & _ & _).
    pose proof (file_emits T TL vwrap_chunk swrap_chunk _ _ (em_meta e) (em_vocab e) (em_storage e) (em_norms e)
      _ _ _ _ IDV CV CS HM HN) as HE. rewrite emb_eta in HE.
    pose proof (emits_run _ _ base HE) as HR. unfold write_file in HW. rewrite HR in HW. inv HW. clear HR HE.
    pose proof (chunks_ok T vwrap_chunk swrap_chunk _ _ (em_meta e) (em_vocab e) (em_storage e) (em_norms e) _ _ _ _ CV CS HM HN) as [K1 K2].
    unfold file_f, main_f, vs_f in *. rewrite emb_eta in *.
    set (ids := emb_chunks T vwrap_chunk swrap_chunk e) in *.
    assert (lenN ids = lenN (expected_chunks e)) as EI.
    { rewrite <- expected_chunks_ok, lenN_map. reflexivity. }
    assert (ids <> [] /\ match em_meta e with Some t => hd_error ids = Some CMetadata | None => hd_error ids <> Some CMetadata end) as [K3 K4].
    { unfold ids, emb_chunks. destruct (em_meta e); cbn [app hd_error]; (split; [discriminate|]); [reflexivity|].
      cbn [ck_id vwrap_chunk]. congruence. }
    pose proof (tells_main T te (read_vocab_wrap_d pf) rs ids (em_meta e) (em_vocab e) x _ _ _ _ K1 K2 K3 K4 TL HM TV TS) as TM.
    cbv zeta.
    set (fs := tseq _ _ _) in TM.
    assert (fs base = front_fields e ++ g (base + fields_len (front_fields e))) as EF.
    { unfold fs, tseq, one, front_fields. rewrite EI. rewrite !fields_len_app, <- !app_assoc.
      pose proof (tl_len _ _ _ _ (tells_header ids K1 K2) base) as L1. unfold one in L1. rewrite EI in L1.
      pose proof (tl_len _ _ _ _ TV) as L3. unfold one in L3.
      assert (forall pos, fields_len (match em_meta e with Some t => metadata_fields (lenN (toml_print T t)) | None => [] end)
        = lenN (meta_f T (em_meta e) pos)) as L2.
      { intros pos. unfold meta_f. destruct (em_meta e) as [t|] eqn:Em; [|reflexivity].
        exact (tl_len _ _ _ _ (tells_metadata T te t TL (HM t eq_refl)) pos). }
      rewrite <- L1. unfold fconst at 1. rewrite <- L3. unfold fconst. rewrite <- L2.
      do 4 f_equal. lia. }
    pose proof (cut_file T te (read_vocab_wrap_d pf) rs _ fs _ (em_norms e) base i b TM HN Hi) as CF.
    rewrite EF in CF. split; [|exact CF].
    rewrite <- EF. pose proof (tl_len _ _ _ _ TM base) as L1. rewrite L1.
    match goal with |- _ = lenN (fseq ?f ?g base) => change (fseq f g base) with (f base ++ g (base + lenN (f base))) end.
    rewrite lenN_app. f_equal.
    unfold norms_f. destruct (em_norms e) as [l|] eqn:En; [|reflexivity].
    exact (tl_len _ _ _ _ (tells_norms l (HN l eq_refl)) _).
  Qed.

  (** What is said about a file that was written and then cut. *)
  Theorem cut_read base bytes b i : run_writer (write_file T e) base = Ok bytes -> i <= lenN bytes ->
    fields_len (main_fields e s0 base) + fields_len (last_fields e s0 base) = lenN bytes /\
    match missing (main_fields e s0 base) i with
    | Some err => exists s', read_file_d pf T te (mkBroken (takeN i bytes) base b) = (MErr err, s')
    | None => exists s', read_file_d pf T te (mkBroken (takeN i bytes) base b)
        = (MOk (loaded e s0 (match missing (last_fields e s0 base) (i - fields_len (main_fields e s0 base)) with
                             | Some _ => None | None => em_norms e end)), s')
    end.
  Proof.
    intros HW Hi. destruct EB as [_ HS _ _].
    exact (cut_embeddings _ _ _ base bytes b i (tells_storage _ _ HS) HW Hi).
  Qed.

  Lemma unmap_file {V S S'} (rv : D V) (rs : D S) (u : S -> S') st :
    read_embeddings_d T te rv (s <- rs ;; dret (u s)) st
    = (x <- read_embeddings_d T te rv rs ;; dret (mkEmb (em_meta x) (u (em_storage x)) (em_vocab x) (em_norms x))) st.
  Proof.
    unfold read_embeddings_d. rewrite dbind_assoc. apply dbind_ext. intros [|id ids] s1; [reflexivity|].
    do 2 (rewrite dbind_assoc; apply dbind_ext; intros ? ?). rewrite !dbind_assoc. apply dbind_ext. intros ? ?.
    unfold dret at 1. unfold dbind at 1.
    rewrite dbind_assoc. apply dbind_ext. intros ? ?. reflexivity.
  Qed.
  Theorem cut_mmap base bytes b i : run_writer (write_file T e) base = Ok bytes -> i <= lenN bytes ->
    fields_len (mapped_fields e s0 base) = fields_len (main_fields e s0 base) /\
    match missing (mapped_fields e s0 base) i with
    | Some err => exists s', mmap_file_d pf T te (mkBroken (takeN i bytes) base b) = (MErr err, s')
    | None => exists x s', mmap_file_d pf T te (mkBroken (takeN i bytes) base b) = (MOk x, s') /\
        unmapped x = unmapped (loaded e (storage_mapped s0)
          (match missing (last_fields e s0 base) (i - fields_len (main_fields e s0 base)) with
           | Some _ => None | None => em_norms e end))
    end.
  Proof.
    intros HW Hi. pose proof EB as [_ HS _ _].
    pose proof (cut_embeddings _ _ _ base bytes b i (tells_mmap_storage pf _ _ HS) HW Hi) as [L1 C].
    assert (fields_len (mapped_fields e s0 base) = fields_len (main_fields e s0 base)) as L2.
    { unfold mapped_fields, main_fields. rewrite !fields_len_app. f_equal.
      generalize (storage_fields s0 (base + fields_len (front_fields e))) as l.
      induction l as [|f l IH]; [reflexivity|]. destruct l as [|f' l]; [reflexivity|].
      rewrite skip_last_cons by discriminate. cbn [fields_len] in *. rewrite IH. reflexivity. }
    split; [exact L2|]. fold (mapped_fields e s0 base) in C. rewrite L2 in C.
    fold (last_fields e s0 base) in C.
    destruct (missing (mapped_fields e s0 base) i) as [err|].
    - destruct C as [s' C]. exists s'. rewrite unmap_file in C. unfold mmap_file_d. unfold dbind, dret in C.
      destruct (read_embeddings_d _ _ _ _ _) as [[]]; inv C. reflexivity.
    - destruct C as [s' C]. rewrite unmap_file in C. unfold mmap_file_d. unfold dbind, dret in C.
      destruct (read_embeddings_d _ _ _ _ _) as [[x| |] s1]; try discriminate C.
      pose proof (f_equal snd C) as C2. apply (f_equal fst) in C. cbn [fst snd] in C, C2. subst s1.
      exists x, s'. split; [reflexivity|].
      apply (f_equal (fun r => match r with MOk y => y | _ => unmapped x end)) in C. exact C.
  Qed.
End Files.
