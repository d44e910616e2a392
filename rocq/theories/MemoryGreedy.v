(** * Short files that ask for much memory. *)
From Verif Require Import Base BaseFacts Utf8 Stream StreamFacts F32 ChunkIO ChunkFacts Subword Vocab VocabFacts
  Storage FileSpec StorageFacts Embeddings ReadFacts TextIO TextSpec TextFacts FastText FastTextThms FastTextExact Width WidthThms Memory MemoryThms.
Local Open Scope N_scope.

Lemma dec_fuel_size fuel : forall n acc k, n < 10 ^ (1 + k) -> lenN (dec_fuel fuel n acc) <= 1 + k + lenN acc.
Proof.
  induction fuel as [|fuel IH]; intros n acc k H; cbn [dec_fuel]; [lia|]. destruct (N.eqb_spec (n / 10) 0) as [Z|Z]; [rewrite lenN_cons; lia|].
  destruct (N.eq_dec k 0) as [->|K]; [exfalso; apply Z, N.div_small; exact H|].
  replace k with (1 + (k - 1)) in H by lia. pose proof (IH (n / 10) (digit (n mod 10) :: acc) (k - 1)) as B. rewrite lenN_cons in B.
  assert (n / 10 < 10 ^ (1 + (k - 1))) as D; [|specialize (B D); lia]. apply N.div_lt_upper_bound; [discriminate|]. rewrite <- N.pow_succ_r'. replace (N.succ (1 + (k - 1))) with (1 + (1 + (k - 1))) by lia. exact H.
Qed.
Lemma dec_print_size n : n <= isize_max -> lenN (dec_print n) <= 19.
Proof. intros H. unfold dec_print. rewrite (dec_fuel_size _ n [] 18); [rewrite lenN_nil; lia|]. unfold isize_max in H. change (10 ^ (1 + 18)) with 10000000000000000000. lia. Qed.

Lemma refuse l n c s : l < n * c -> w_reserve (limited l) n c s = (Panic PCapacity, s).
Proof. intros H. unfold w_reserve, limited. cbn [mw_limit]. apply N.leb_gt in H. rewrite H. reflexivity. Qed.
Lemma refuse_zeros l dims c s : l < fold_left N.mul dims 1 * c -> w_zeros (limited l) dims c s = (Panic PCapacity, s).
Proof. intros H. unfold w_zeros, limited. cbn [mw_limit]. apply N.leb_gt in H. rewrite H, Bool.andb_false_r. reflexivity. Qed.
Lemma bind_fst_Panic {A B} (m : reader A) (k : A -> reader B) s p : fst (m s) = Panic p -> fst (bind m k s) = Panic p.
Proof. unfold bind. destruct (m s) as [[| |p'] s']; cbn [fst]; intros H; congruence. Qed.
Lemma bind_panic {A B} (m : reader A) (k : A -> reader B) s p s' : m s = (Panic p, s') -> bind m k s = (Panic p, s').
Proof. unfold bind. intros ->. reflexivity. Qed.
Lemma bind_error {A B} (m : reader A) (k : A -> reader B) s e s' : m s = (Err e, s') -> bind m k s = (Err e, s').
Proof. unfold bind. intros ->. reflexivity. Qed.
Lemma repeat_error {A} n (m : reader A) s e s' : n <> 0 -> m s = (Err e, s') -> repeat_m n m s = (Err e, s').
Proof. intros H E. replace n with (1 + (n - 1)) by lia. rewrite repeat_succ. apply bind_error. exact E. Qed.

(** ** finalfusion: the number of words *)
Definition greedy_file (n : N) : list byte := magic ++ le_bytes 4 0 ++ le_bytes 4 1 ++ le_bytes 4 1 ++ le_bytes 4 1 ++ le_bytes 8 0 ++ le_bytes 8 n.
Lemma greedy_file_size n : lenN (greedy_file n) = 36.
Proof. unfold greedy_file. rewrite !lenN_app, !le_bytes_lenN. reflexivity. Qed.
Lemma small32 n : n < 10 -> n < two32. Proof. unfold two32. lia. Qed.
Lemma small64 n : n < 10 -> n < two64. Proof. unfold two64. lia. Qed.
Lemma greedy_header l r : 4 <= l -> w_header (limited l) (mkStream (magic ++ le_bytes 4 0 ++ le_bytes 4 1 ++ le_bytes 4 1 ++ r) 0) = (Ok [CSimpleVocab], mkStream r 16).
Proof.
  intros L. unfold w_header. rewrite (bind_step _ _ _ _ _ (read_exact_app magic _ 0 4 false eq_refl)). cbn [str_eqb negb]. change (str_eqb magic magic) with true. cbn [negb].
  rewrite (bind_step _ _ _ _ _ (eat_u32 0 _ _ (small32 0 eq_refl))). change (0 =? model_version) with true. cbn [negb].
  rewrite (bind_step _ _ _ _ _ (eat_u32 1 _ _ (small32 1 eq_refl))). rewrite (bind_step _ _ _ _ _ (limited_reserve l 1 4 _ L)).
  change 1 with (1 + 0) at 1. rewrite repeat_succ. rewrite (bind_step _ _ _ CSimpleVocab (mkStream r 16)); [reflexivity|].
  rewrite (bind_step _ _ _ _ _ (eat_u32 1 r _ (small32 1 eq_refl))). reflexivity.
Qed.
Lemma greedy_short l r : l < 4 -> fst (w_header (limited l) (mkStream (magic ++ le_bytes 4 0 ++ le_bytes 4 1 ++ r) 0)) = Panic PCapacity.
Proof.
  intros L. unfold w_header. rewrite (bind_step _ _ _ _ _ (read_exact_app magic _ 0 4 false eq_refl)). change (str_eqb magic magic) with true. cbn [negb].
  rewrite (bind_step _ _ _ _ _ (eat_u32 0 _ _ (small32 0 eq_refl))). change (0 =? model_version) with true. cbn [negb].
  rewrite (bind_step _ _ _ _ _ (eat_u32 1 _ _ (small32 1 eq_refl))). rewrite (bind_panic _ _ _ _ _ (refuse l 1 4 _ L)). reflexivity.
Qed.
Lemma greedy_vocab l b pf n p : n < two64 -> n <> 0 ->
  let r := w_vocab (limited l) b pf (mkStream (le_bytes 4 1 ++ le_bytes 8 0 ++ le_bytes 8 n) p) in
  (l < n * 24 -> fst r = Panic PCapacity) /\ (n * 24 <= l -> fst r = Err ERead).
Proof.
  intros L NZ r. unfold r, w_vocab. 
  rewrite (bind_step _ _ _ CSimpleVocab (mkStream (le_bytes 4 1 ++ le_bytes 8 0 ++ le_bytes 8 n) p))
    by (unfold peek, peek_chunk_id; rewrite (bind_step _ _ _ _ _ (eat_u32 1 _ _ (small32 1 eq_refl))); reflexivity).
  assert (forall m : reader simple_vocab, fst ((v <- m ;; ret (VSimple v)) (mkStream (le_bytes 4 1 ++ le_bytes 8 0 ++ le_bytes 8 n) p)) =
    match fst (m (mkStream (le_bytes 4 1 ++ le_bytes 8 0 ++ le_bytes 8 n) p)) with Ok v => Ok (VSimple v) | Err e => Err e | Panic q => Panic q end) as F
    by (intros m; unfold bind; destruct (m _) as [[| |] ?]; reflexivity).
  rewrite F. clear F r. unfold w_simple.
  rewrite (bind_step (ensure_chunk_type _) _ _ tt (mkStream (le_bytes 8 0 ++ le_bytes 8 n) (p + 4)))
    by (unfold ensure_chunk_type; rewrite (bind_step _ _ _ _ _ (eat_u32 1 _ _ (small32 1 eq_refl))); reflexivity).
  rewrite (bind_step _ _ _ _ _ (eat_u64 0 _ _ (small64 0 eq_refl))). rewrite <- (app_nil_r (le_bytes 8 n)).
  rewrite (bind_step _ _ _ _ _ (eat_u64 n [] _ L)). rewrite (bind_step _ _ _ _ _ (try_ok (limited l) n _ L)). unfold w_items. split; intros B.
  - rewrite (bind_panic _ _ _ PCapacity _ (bind_panic _ _ _ _ _ (refuse l n 24 _ B))). reflexivity.
  - assert (w_items (limited l) n (mkStream [] (p + 4 + 8 + 8)) = (Err ERead, mkStream [] (p + 4 + 8 + 8))) as E.
    { unfold w_items. change (mw_string (limited l)) with 24. rewrite (bind_step _ _ _ _ _ (limited_reserve l n 24 _ B)). apply repeat_error; [exact NZ|].
      unfold w_string_item, read_u32. apply bind_error, bind_error. rewrite read_exact_short by reflexivity. rewrite lenN_nil, N.add_0_r. reflexivity. }
    unfold w_items in E. rewrite (bind_error _ _ _ _ _ E). reflexivity.
Qed.
Lemma greedy_any l b T pf n {S} (rs : reader S) : n < two64 -> n <> 0 ->
  let r := fst (w_file (limited l) b T (w_vocab (limited l) b pf) rs (mkStream (greedy_file n) 0)) in
  (l < n * 24 -> r = Panic PCapacity) /\ (n * 24 <= l -> r = Err ERead).
Proof.
  intros L NZ r. unfold r, w_file, greedy_file. clear r. destruct (N.lt_ge_cases l 4) as [S4|S4].
  - split; [|lia]. intros _. apply bind_fst_Panic, greedy_short, S4.
  - rewrite (bind_step _ _ _ _ _ (greedy_header l _ S4)). change (chunk_eqb CSimpleVocab CMetadata) with false. cbv iota.
    rewrite (bind_step (ret None) _ _ None _ eq_refl). destruct (greedy_vocab l b pf n 16 L NZ) as [G1 G2]. split; intros B; [apply bind_fst_Panic, G1, B|apply bind_fst_Err, G2, B].
Qed.

Lemma greedy_count l c : 0 < c -> let n := l / c + 1 in n <> 0 /\ l < n * c /\ n * c <= l + c.
Proof. intros C n. unfold n. pose proof (N.div_mod l c ltac:(lia)) as D. pose proof (N.mod_lt l c ltac:(lia)) as M. nia. Qed.

(** For any limit there is a file of 36 bytes that asks for more and is
    rejected if it gets it. *)
Lemma greedy_read l T pf : l + 24 <= isize_max -> exists data, lenN data = 36 /\
  run_reader (w_read (limited l) false T pf) data = Panic PCapacity /\ run_reader (w_mmap (limited l) false T pf) data = Panic PCapacity /\
  run_reader (read_embeddings T (read_vocab_wrap pf) read_storage_wrap) data = Err ERead /\
  run_reader (mmap_embeddings T (read_vocab_wrap pf) (mmap_storage_wrap pf)) data = Err ERead.
Proof.
  intros L. destruct (greedy_count l 24 ltac:(lia)) as (NZ & G & H). cbv zeta in *. set (n := l / 24 + 1) in *.
  assert (n < two64) as NL by (unfold two64, isize_max in *; lia).
  exists (greedy_file n). split; [apply greedy_file_size|]. unfold run_reader.
  split; [apply greedy_any; auto|]. split; [apply greedy_any; auto|].
  split; [rewrite <- (width_64 false)|rewrite <- (width_64_mmap false)]; apply (greedy_any isize_max false T pf n); auto; lia.
Qed.

(** ** Text and word2vec: the number of components *)
Definition one_row (d : N) : list byte := [x31; x20] ++ dec_print d ++ [x0a].
Lemma one_row_size d : d <= isize_max -> lenN (one_row d) <= 22.
Proof. intros H. apply dec_print_size in H. unfold one_row. rewrite !lenN_app, !lenN_cons, !lenN_nil. lia. Qed.
Lemma not_digit (c : byte) n : ~ 48 <= bN c <= 57 -> ~ In c (dec_print n).
Proof. intros H I. apply H. exact (dec_print_range n c I). Qed.
Lemma number_read c n r p : n < two64 -> ~ 48 <= bN c <= 57 -> read_number c (mkStream (dec_print n ++ c :: r) p) = (Ok n, mkStream r (p + lenN (dec_print n) + 1)).
Proof. intros L D. destruct (read_number_field c (dec_print n) r p (not_digit c n D)) as (H & _). apply H; [apply dec_print_numeral|exact L]. Qed.
Lemma one_row_read {A} d (k : N -> N -> reader A) : d < two64 -> exists p, (n <- read_number x20 ;; d <- read_number x0a ;; k n d) (mkStream (one_row d) 0) = k 1 d (mkStream [] p).
Proof.
  intros L. unfold one_row. change ([x31; x20] ++ dec_print d ++ [x0a]) with (dec_print 1 ++ x20 :: dec_print d ++ [x0a]).
  rewrite (bind_step _ _ _ _ _ (number_read x20 1 _ 0 (small64 1 eq_refl) ltac:(vm_compute; intros [A0 A1]; apply A0; reflexivity))).
  rewrite (bind_step _ _ _ _ _ (number_read x0a d [] _ L ltac:(vm_compute; intros [A0 A1]; apply A0; reflexivity))). eauto.
Qed.
Lemma greedy_text_dims l P pf {Md} lossy : l + 24 <= isize_max -> exists data, lenN data <= 22 /\
  run_reader (l_text_dims_raw (Md := Md) l P pf lossy) data = Panic PCapacity /\ run_reader (read_text_dims_raw (Md := Md) P pf lossy) data = Err EFormat.
Proof.
  intros L. destruct (greedy_count l 4 ltac:(lia)) as (NZ & G & H). cbv zeta in *. set (d := l / 4 + 1) in *.
  assert (d < two64) as NL by (unfold two64, isize_max in *; lia). exists (one_row d). split; [apply one_row_size; lia|]. unfold run_reader.
  assert (mul64 pf 1 d = Ok d) as M by (unfold mul64; rewrite N.mul_1_l; cbv zeta; apply N.ltb_lt in NL; rewrite NL; reflexivity). split.
  - unfold l_text_dims_raw. match goal with |- fst ((n <- _ ;; d <- _ ;; @?k n d) _) = _ => destruct (one_row_read d k NL) as (p & E) end. rewrite E. clear E.
    destruct (N.lt_ge_cases l 24) as [S|S]; [rewrite (bind_panic _ _ _ _ _ (refuse l 1 24 _ ltac:(lia))); reflexivity|].
    rewrite (bind_step _ _ _ _ _ (limited_reserve l 1 24 _ ltac:(lia))), M. rewrite (bind_step (lift (Ok d)) _ _ d _ eq_refl), (bind_panic _ _ _ _ _ (refuse l d 4 _ ltac:(lia))). reflexivity.
  - rewrite <- (all_text_dims_raw P pf lossy). unfold l_text_dims_raw. match goal with |- fst ((n <- _ ;; d <- _ ;; @?k n d) _) = _ => destruct (one_row_read d k NL) as (p & E) end. rewrite E. clear E.
    rewrite (bind_step _ _ _ _ _ (limited_reserve isize_max 1 24 _ ltac:(unfold isize_max; lia))), M. rewrite (bind_step (lift (Ok d)) _ _ d _ eq_refl), (bind_step _ _ _ _ _ (limited_reserve isize_max d 4 _ ltac:(lia))).
    rewrite (bind_step (read_lines P lossy) _ _ ([], []) (mkStream [] p)); [reflexivity|]. cbn. rewrite N.add_0_r. reflexivity.
Qed.
Lemma greedy_word2vec l pf {Md} lossy : l + 24 <= isize_max -> exists data, lenN data <= 22 /\
  run_reader (l_word2vec_raw (Md := Md) l pf lossy) data = Panic PCapacity /\ run_reader (read_word2vec_raw (Md := Md) pf lossy) data = Err ERead.
Proof.
  intros L. destruct (greedy_count l 4 ltac:(lia)) as (NZ & G & H). cbv zeta in *. set (d := l / 4 + 1) in *.
  assert (d < two64) as NL by (unfold two64, isize_max in *; lia). exists (one_row d). split; [apply one_row_size; lia|]. unfold run_reader. split.
  - unfold l_word2vec_raw. match goal with |- fst ((n <- _ ;; d <- _ ;; @?k n d) _) = _ => destruct (one_row_read d k NL) as (p & E) end. rewrite E. clear E.
    rewrite (bind_panic _ _ _ _ _ (refuse_zeros l [1; d] 4 _ ltac:(cbn [fold_left]; rewrite !N.mul_1_l; lia))). reflexivity.
  - rewrite <- (all_word2vec_raw pf lossy). unfold l_word2vec_raw. match goal with |- fst ((n <- _ ;; d <- _ ;; @?k n d) _) = _ => destruct (one_row_read d k NL) as (p & E) end. rewrite E. clear E.
    assert (dims_ok [1; d] 4) as D. { unfold dims_ok. cbn [fold_left]. change (nonzero 1) with 1. rewrite !N.mul_1_l. unfold nonzero. destruct (d =? 0); lia. }
    rewrite (bind_step _ _ _ _ _ (limited_zeros isize_max [1; d] 4 _ D (proj2 D))), (bind_step _ _ _ _ _ (limited_reserve isize_max 1 24 _ ltac:(unfold isize_max; lia))).
    rewrite (bind_error (repeat_m 1 _) _ _ ERead (mkStream [] p)); [reflexivity|]. apply repeat_error; [discriminate|]. unfold read_w2v_entry.
    rewrite (bind_step (read_string x20 lossy) _ _ [] (mkStream [] p)).
    + unfold read_f32s. apply bind_error, bind_error. rewrite read_exact_short by (rewrite lenN_nil; lia). rewrite lenN_nil, N.add_0_r. reflexivity.
    + unfold read_string. rewrite (bind_step _ _ _ [] (mkStream [] p)); [destruct lossy; reflexivity|]. cbn. rewrite N.add_0_r. reflexivity.
Qed.

(** ** floret: the number of components *)
Definition one_bucket (d : N) : list byte :=
  dec_print 1 ++ x20 :: dec_print d ++ x20 :: dec_print 1 ++ x20 :: dec_print 1 ++ x20 :: dec_print 1 ++ x20 :: dec_print 1 ++ x20 :: [x3c; x20; x3e; x0a].
Lemma one_bucket_size d : d <= isize_max -> lenN (one_bucket d) <= 34.
Proof. intros H. apply dec_print_size in H. unfold one_bucket. change (dec_print 1) with [x31]. cbn [app]. rewrite !lenN_cons, lenN_app, !lenN_cons, lenN_nil. lia. Qed.
Lemma one_bucket_run L P pf {Md} d : d < two64 -> d <> 0 ->
  let r := fst (l_floret_text (Md := Md) L P pf (mkStream (one_bucket d) 0)) in
  (L < d * 4 -> r = Panic PCapacity) /\ (d * 4 <= L -> r = Err EMatrixShape).
Proof.
  intros NL NZ r. unfold r, one_bucket, l_floret_text. clear r. assert (~ 48 <= bN x20 <= 57) as SP by (vm_compute; intros [A0 A1]; apply A0; reflexivity).
  rewrite (bind_step _ _ _ _ _ (number_read x20 1 _ 0 (small64 1 eq_refl) SP)), (bind_step _ _ _ _ _ (number_read x20 d _ _ NL SP)).
  rewrite (bind_step _ _ _ _ _ (number_read x20 1 _ _ (small64 1 eq_refl) SP)), (bind_step _ _ _ _ _ (number_read x20 1 _ _ (small64 1 eq_refl) SP)).
  rewrite (bind_step _ _ _ _ _ (number_read x20 1 _ _ (small64 1 eq_refl) SP)), (bind_step _ _ _ _ _ (number_read x20 1 _ _ (small64 1 eq_refl) SP)).
  match goal with |- context [mkStream [x3c; x20; x3e; x0a] ?q] => generalize q as p; intros p end.
  rewrite (bind_step (read_string x20 false) _ (mkStream [x3c; x20; x3e; x0a] p) [x3c] (mkStream [x3e; x0a] (p + 2)) eq_refl), (bind_step (read_string x0a false) _ (mkStream [x3e; x0a] (p + 2)) [x3e] (mkStream [] (p + 2 + 2)) eq_refl).
  change (1 =? 0) with false. replace (d =? 0) with false by (symmetry; apply N.eqb_neq; exact NZ). change (1 mod two32) with 1. change (1 <? 1) with false. cbn [negb andb]. change (1 <=? 4) with true. change (1 <=? 1) with true. cbn [negb andb].
  assert (mul64 pf 1 d = Ok d) as M by (unfold mul64; rewrite N.mul_1_l; cbv zeta; apply N.ltb_lt in NL; rewrite NL; reflexivity). rewrite M, (bind_step (lift (Ok d)) _ (mkStream [] (p + 2 + 2)) d _ eq_refl). split; intros B.
  - rewrite (bind_panic _ _ _ _ _ (refuse L d 4 _ B)). reflexivity.
  - rewrite (bind_step _ _ _ _ _ (limited_reserve L d 4 _ B)). rewrite (bind_step (read_floret_lines P d) _ _ [] (mkStream [] (p + 2 + 2))) by (cbn; rewrite N.add_0_r; reflexivity).
    unfold from_shape_vec. replace (lenN (@nil f32) =? 1 * d) with false by (symmetry; apply N.eqb_neq; rewrite lenN_nil; lia). reflexivity.
Qed.
Lemma greedy_floret l P pf {Md} : l + 24 <= isize_max -> exists data, lenN data <= 34 /\
  run_reader (l_floret_text (Md := Md) l P pf) data = Panic PCapacity /\ run_reader (read_floret_text (Md := Md) P pf) data = Err EMatrixShape.
Proof.
  intros L. destruct (greedy_count l 4 ltac:(lia)) as (NZ & G & H). cbv zeta in *. set (d := l / 4 + 1) in *.
  assert (d < two64) as NL by (unfold two64, isize_max in *; lia). exists (one_bucket d). split; [apply one_bucket_size; lia|]. unfold run_reader.
  split; [apply one_bucket_run; auto|]. rewrite <- (all_floret P pf). apply (one_bucket_run isize_max P pf d); auto. lia.
Qed.

(** ** fastText: the number of components *)
Definition ft_head : list byte := le_bytes 4 ft_magic ++ le_bytes 4 0 ++
  le_bytes 4 1 ++ le_bytes 4 1 ++ le_bytes 4 1 ++ le_bytes 4 1 ++ le_bytes 4 1 ++ le_bytes 4 1 ++ le_bytes 4 1 ++ le_bytes 4 1 ++ le_bytes 4 1 ++ le_bytes 4 1 ++ le_bytes 4 1 ++ le_bytes 4 1 ++ le_bytes 8 0 ++
  le_bytes 4 0 ++ le_bytes 4 0 ++ le_bytes 4 0 ++ le_bytes 8 0 ++ le_bytes 8 (two64 - 1) ++ le_bytes 1 0.
Definition one_vector (d : N) : list byte := ft_head ++ le_bytes 8 1 ++ le_bytes 8 d.
Lemma one_vector_size d : lenN (one_vector d) = 109.
Proof. unfold one_vector, ft_head. rewrite !lenN_app, !le_bytes_lenN. reflexivity. Qed.
Lemma one_vector_run L pf T ct lossy d : d < two64 -> d <> 0 ->
  let r := fst (l_fasttext L pf T ct lossy (mkStream (one_vector d) 0)) in
  (L < d * 4 -> r = Panic PCapacity) /\ (d * 4 <= L -> d * 4 <= isize_max -> r = Err ERead).
Proof.
  intros NL NZ r. unfold r, one_vector, ft_head, l_fasttext. clear r. rewrite <- !app_assoc.
  assert (0 < two32) as Z0 by reflexivity. assert (1 < two32) as Z1 by reflexivity. assert (0 < two64) as Z2 by reflexivity. assert (two64 - 1 < two64) as Z3 by reflexivity. assert (0 < 256) as Z4 by reflexivity.
  assert (ft_magic < two32) as Z5 by reflexivity. assert (1 < two64) as Z6 by reflexivity.
  eat. change (negb (ft_magic =? ft_magic)) with false. cbv iota. eat. change (ft_version <? 0) with false. cbv iota.
  match goal with |- context [bind read_config _ ?s] => let x := fresh "c" in evar (x : ft_config); let y := fresh "s1" in evar (y : stream); assert (read_config s = (Ok x, y)) as CE end.
  { unfold read_config. eat. eat. eat. eat. eat. eat. rewrite (bind_step _ _ _ _ _ (read_loss_exact 1 _ _ Z1)), (bind_step _ _ _ _ _ (read_model_exact 1 _ _ Z1)). eat. eat. eat. eat. eat. unfold ret, c, s1. reflexivity. }
  rewrite (bind_step _ _ _ _ _ CE). clear CE. subst c s1.
  match goal with |- context [bind (l_ft_vocab _ _ ?c _) _ (mkStream _ ?p)] => 
    assert (exists v, l_ft_vocab L pf c lossy (mkStream (le_bytes 4 0 ++ le_bytes 4 0 ++ le_bytes 4 0 ++ le_bytes 8 0 ++ le_bytes 8 (two64 - 1) ++ le_bytes 1 0 ++ le_bytes 8 1 ++ le_bytes 8 d) p) =
      (Ok v, mkStream (le_bytes 1 0 ++ le_bytes 8 1 ++ le_bytes 8 d) (p + 4 + 4 + 4 + 8 + 8))) as (v & E) end.
  { unfold l_ft_vocab. eat. eat. eat. change (0 <? 0) with false. cbv iota. eat. eat. change (two64 - 1 <=? isize_max) with false. cbv iota.
    rewrite (bind_step _ _ _ _ _ (limited_reserve L 0 24 _ (N.le_0_l _))). rewrite (bind_step (repeat_m 0 _) _ _ [] _ eq_refl).
    destruct pf; eexists; unfold bind, lift; reflexivity. }
  rewrite (bind_step _ _ _ _ _ E). clear E. eat. change (0 =? 1) with false. cbv iota.
  match goal with |- context [bind (l_ft_matrix L) _ (mkStream _ ?p)] => generalize p as q; intros q end.
  assert (forall x, fst (l_ft_matrix L (mkStream (le_bytes 8 1 ++ le_bytes 8 d) q)) = x ->
    (L < d * 4 -> x = Panic PCapacity) /\ (d * 4 <= L -> d * 4 <= isize_max -> x = Err ERead)) as F.
  { intros x <-. unfold l_ft_matrix. eat. rewrite <- (app_nil_r (le_bytes 8 d)). eat. split; intros B.
    - rewrite (bind_panic _ _ _ _ _ (refuse_zeros L [1; d] 4 _ ltac:(cbn [fold_left]; rewrite !N.mul_1_l; exact B))). reflexivity.
    - intros B'. assert (dims_ok [1; d] 4) as D. { unfold dims_ok. cbn [fold_left]. change (nonzero 1) with 1. rewrite !N.mul_1_l. unfold nonzero. destruct (d =? 0); unfold isize_max in *; lia. }
      rewrite (bind_step _ _ _ _ _ (limited_zeros L [1; d] 4 _ D ltac:(cbn [fold_left]; rewrite !N.mul_1_l; exact B))). apply bind_fst_Err. unfold read_f32s. apply bind_fst_Err.
      rewrite read_exact_short by (rewrite lenN_nil; lia). reflexivity. }
  specialize (F _ eq_refl) as [F1 F2]. split; intros; [apply bind_fst_Panic|apply bind_fst_Err]; auto.
Qed.
Lemma greedy_fasttext l pf T ct lossy : l + 24 <= isize_max -> exists data, lenN data = 109 /\
  run_reader (l_fasttext l pf T ct lossy) data = Panic PCapacity /\ run_reader (read_fasttext pf T ct lossy) data = Err ERead.
Proof.
  intros L. destruct (greedy_count l 4 ltac:(lia)) as (NZ & G & H). cbv zeta in *. set (d := l / 4 + 1) in *.
  assert (d < two64) as NL by (unfold two64, isize_max in *; lia). exists (one_vector d). split; [apply one_vector_size|]. unfold run_reader.
  split; [apply one_vector_run; auto|]. rewrite <- (all_fasttext pf T ct lossy). apply (one_vector_run isize_max pf T ct lossy d); auto; lia.
Qed.
