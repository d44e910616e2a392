(** * Proofs of the theorems about files (stated in P_File.v). *)
From Verif Require Import Base BaseFacts Utf8 Stream StreamFacts F32 ChunkIO ChunkFacts Subword
  Vocab VocabFacts Storage StorageFacts Embeddings FileSpec FileFacts ReadFacts.
Local Open Scope N_scope.

(** ** Round trip *)
Lemma file_round_trip pf T e s0 base : toml_law T -> emb_built pf T e s0 ->
  exists bytes, run_writer (write_file T e) base = Ok bytes /\
  forall tail, (em_norms e = None -> not_norms tail) ->
  exists s', read_file pf T (mkStream (bytes ++ tail) base) = (Ok (loaded e s0 (em_norms e)), s').
Proof.
  intros TL EB. destruct (file_facts pf T e s0 TL EB) as (vb & HE & _ & HR & _ & _).
  exists (file_layout T e s0 vb base). split; [apply emits_run, HE|]. intros tail NT.
  destruct (file_run pf T e s0 vb EB HR base tail NT) as (s' & E & _). eauto.
Qed.

Lemma loaded_self {T} (e : emb T) : loaded e (em_storage e) (em_norms e) = e.
Proof. destruct e; reflexivity. Qed.

Lemma not_norms_nil : not_norms [].
Proof. intros H. discriminate H. Qed.

Lemma file_reread pf T s e s1 base : toml_law T ->
  (forall t, em_meta e = Some t -> lenN (toml_print T t) <= isize_max) ->
  read_file pf T s = (Ok e, s1) ->
  exists bytes, run_writer (write_file T e) base = Ok bytes /\
  exists s', read_file pf T (mkStream bytes base) = (Ok e, s').
Proof.
  intros TL HM H. pose proof (read_file_built _ _ _ _ _ H HM) as EB.
  destruct (file_round_trip pf T e (em_storage e) base TL EB) as (bytes & HW & HR).
  exists bytes. split; [auto|]. destruct (HR [] (fun _ => not_norms_nil)) as (s' & E).
  rewrite app_nil_r, loaded_self in E. eauto.
Qed.

(** ** Lengths *)
Lemma file_length pf T e s0 base bytes : toml_law T -> emb_built pf T e s0 ->
  run_writer (write_file T e) base = Ok bytes -> lenN bytes = write_file_len T e base.
Proof.
  intros TL EB H. destruct (file_facts pf T e s0 TL EB) as (vb & HE & HL & _).
  rewrite (emits_run _ _ base HE) in H. inv H. apply HL.
Qed.

Lemma header_bytes_len ids : lenN (header_bytes ids) = 12 + 4 * lenN ids.
Proof.
  unfold header_bytes. rewrite !lenN_app, !le_bytes_lenN.
  assert (lenN (flat_map (fun c => le_bytes 4 (chunk_num c)) ids) = 4 * lenN ids) as ->; [|change (lenN magic) with 4; lia].
  induction ids as [|c l IH]; [reflexivity|]. cbn [flat_map]. rewrite lenN_app, le_bytes_lenN, lenN_cons, IH. lia.
Qed.

Lemma expected_chunks_ok T (e : emb T) : map chunk_num (emb_chunks T vwrap_chunk swrap_chunk e) = expected_chunks e.
Proof.
  unfold emb_chunks, expected_chunks. cbn [ck_id vwrap_chunk swrap_chunk].
  destruct (em_meta e), (em_norms e), (em_vocab e), (em_storage e); reflexivity.
Qed.

Lemma file_chunks pf T e s0 base bytes tail : toml_law T -> emb_built pf T e s0 ->
  run_writer (write_file T e) base = Ok bytes -> lenN bytes < two64 ->
  takeN 8 bytes = [x46; x69; x46; x75; x00; x00; x00; x00] /\
  le_value (takeN 4 (dropN 8 bytes)) = lenN (expected_chunks e) /\
  (forall i id, nthN (expected_chunks e) i = Some id -> le_value (takeN 4 (dropN (12 + 4 * i) bytes)) = id) /\
  skim (length (expected_chunks e)) (dropN (12 + 4 * lenN (expected_chunks e)) (bytes ++ tail))
  = Some (expected_chunks e, tail).
Proof.
  intros TL EB H L64. pose proof EB as [_ HS _ _]. destruct (file_facts pf T e s0 TL EB) as (vb & HE & _).
  rewrite (emits_run _ _ base HE) in H. inv H.
  destruct (file_skim T e s0 vb base tail L64 HS) as (body & E & SK). rewrite E.
  rewrite <- (expected_chunks_ok T e). set (ids := emb_chunks T vwrap_chunk swrap_chunk e) in *.
  rewrite !map_length, lenN_map.
  assert (lenN ids < two32) as Lids.
  { unfold ids, emb_chunks. destruct (em_meta e), (em_norms e); reflexivity. }
  split; [|split; [|split]].
  - reflexivity.
  - unfold header_bytes. rewrite <- !app_assoc.
    replace (magic ++ le_bytes 4 0 ++ le_bytes 4 (lenN ids) ++ flat_map (fun c => le_bytes 4 (chunk_num c)) ids ++ body)
      with ((magic ++ le_bytes 4 0) ++ le_bytes 4 (lenN ids) ++ flat_map (fun c => le_bytes 4 (chunk_num c)) ids ++ body)
      by (rewrite <- app_assoc; reflexivity).
    rewrite dropN_app_l by reflexivity. rewrite takeN_app_l by reflexivity. apply le_u32, Lids.
  - intros i id Hi. rewrite nthN_map in Hi. destruct (nthN ids i) as [c|] eqn:Ec; [|discriminate]. inv Hi.
    apply nthN_split in Ec as (l1 & l2 & EI & <-). unfold header_bytes. rewrite EI, flat_map_app. cbn [flat_map].
    set (fm := flat_map (fun c => le_bytes 4 (chunk_num c))).
    replace ((magic ++ le_bytes 4 0 ++ le_bytes 4 (lenN (l1 ++ c :: l2)) ++ fm l1 ++ le_bytes 4 (chunk_num c) ++ fm l2) ++ body)
      with ((magic ++ le_bytes 4 0 ++ le_bytes 4 (lenN (l1 ++ c :: l2)) ++ fm l1) ++ le_bytes 4 (chunk_num c) ++ fm l2 ++ body)
      by (rewrite <- !app_assoc; reflexivity).
    rewrite dropN_app_l.
    + rewrite takeN_app_l by reflexivity. apply le_u32, chunk_num_lt.
    + rewrite !lenN_app, !le_bytes_lenN. change (lenN magic) with 4.
      assert (lenN (fm l1) = 4 * lenN l1) as ->; [|lia]. unfold fm. clear.
      induction l1 as [|x l IH]; [reflexivity|]. cbn [flat_map]. rewrite lenN_app, le_bytes_lenN, lenN_cons, IH. lia.
  - rewrite <- app_assoc, dropN_app_l by (symmetry; apply header_bytes_len). exact SK.
Qed.


(** ** Alignment *)
Lemma flat_f32 l : f32s_bytes l = flat_map f32_bytes l.
Proof. reflexivity. Qed.

Lemma zeros_pad n : zeros n = repeat x00 (N.to_nat n).
Proof. reflexivity. Qed.

Lemma file_parts T e s0 vb pos : exists p1 p2 p3 p4, file_layout T e s0 vb pos
    = header_bytes (emb_chunks T vwrap_chunk swrap_chunk e) ++ meta_f T (em_meta e) p1
      ++ framed (chunk_num (vocab_wrap_id (em_vocab e))) (fconst vb) p2
      ++ framed (chunk_num (swrap_id (em_storage e))) (storage_body s0) p3
      ++ norms_f (em_norms e) p4 /\
   p3 = pos + lenN (header_bytes (emb_chunks T vwrap_chunk swrap_chunk e) ++ meta_f T (em_meta e) p1
      ++ framed (chunk_num (vocab_wrap_id (em_vocab e))) (fconst vb) p2) /\
   p4 = p3 + lenN (framed (chunk_num (swrap_id (em_storage e))) (storage_body s0) p3).
Proof.
  unfold file_layout, main_layout, main_f, vs_f, norms_layout, fseq. rewrite emb_eta.
  cbn [ck_id vwrap_chunk swrap_chunk].
  change (fconst (header_bytes (emb_chunks T vwrap_chunk swrap_chunk e)) pos) with (header_bytes (emb_chunks T vwrap_chunk swrap_chunk e)).
  set (h := header_bytes (emb_chunks T vwrap_chunk swrap_chunk e)).
  set (p1 := pos + lenN h). set (m := meta_f T (em_meta e) p1). set (p2 := p1 + lenN m).
  set (v := framed (chunk_num (vocab_wrap_id (em_vocab e))) (fconst vb) p2). set (p3 := p2 + lenN v).
  set (st := framed (chunk_num (swrap_id (em_storage e))) (storage_body s0) p3).
  exists p1, p2, p3, (p3 + lenN st). fold m v st.
  rewrite <- !app_assoc. split; [|split; [|reflexivity]].
  - do 4 f_equal. unfold p3, p2, p1. rewrite !lenN_app. f_equal. lia.
  - unfold p3, p2, p1. rewrite !lenN_app. lia.
Qed.

Lemma pad_ok pos : (1 <= N.to_nat (padding4 pos) <= 4)%nat.
Proof. pose proof (padding4_range pos). lia. Qed.

Lemma aligned_intro base pre pos fs post :
  base + lenN pre = pos -> aligned_floats base (pre ++ zeros (padding4 pos) ++ f32s_bytes fs ++ post) fs.
Proof.
  intros E. exists pre, (N.to_nat (padding4 pos)), post.
  split; [reflexivity|split; [apply pad_ok|]]. rewrite N2Nat.id, E. apply padding4_aligned.
Qed.

Lemma storage_floats_split q : exists rest,
  qa_data q = f32s_bytes (storage_floats (SQuantized q)) ++ rest.
Proof.
  eexists. unfold qa_data, storage_floats. rewrite !f32s_bytes_app, <- !app_assoc. f_equal.
  - destruct (pq_proj (qa_pq q)); reflexivity.
  - f_equal. f_equal. destruct (qa_norms q); reflexivity.
Qed.

Lemma file_aligned pf T e s0 base bytes : toml_law T -> emb_built pf T e s0 ->
  run_writer (write_file T e) base = Ok bytes ->
  aligned_floats base bytes (storage_floats s0) /\
  (forall ns, em_norms e = Some ns -> aligned_floats base bytes ns).
Proof.
  intros TL EB H. pose proof EB as [_ HS _ _]. destruct (file_facts pf T e s0 TL EB) as (vb & HE & _).
  rewrite (emits_run _ _ base HE) in H. inv H.
  destruct (file_parts T e s0 vb base) as (p1 & p2 & p3 & p4 & E & E3 & E4).
  rewrite E. clear E. set (h := header_bytes _) in *. set (m := meta_f _ _ _) in *.
  set (v := framed (chunk_num (vocab_wrap_id _)) _ _) in *. split.
  - set (n := norms_f _ _). unfold framed.
    set (sid := le_bytes 4 (chunk_num (swrap_id (em_storage e)))).
    set (sl := le_bytes 8 (lenN (storage_body s0 (p3 + 12)))).
    assert (exists fixed post, storage_body s0 (p3 + 12)
       = fixed ++ zeros (padding4 (p3 + 12 + lenN fixed)) ++ f32s_bytes (storage_floats s0) ++ post) as (fixed & post & EB0).
    { inversion HS; subst; cbn [storage_body storage_floats].
      1,3: exists (le_bytes 8 (a2_nrows a) ++ le_bytes 4 (a2_cols a) ++ le_bytes 4 10), [];
        unfold nd_body; rewrite app_nil_r, <- !app_assoc, !lenN_app, !le_bytes_lenN; reflexivity.
      all: destruct (storage_floats_split q) as (rest & ED); exists (qa_fixed q), rest; unfold qa_body;
        rewrite qa_fixed_len, ED; cbn [storage_floats]; reflexivity. }
    rewrite EB0.
    replace (h ++ m ++ v ++ (sid ++ sl ++ fixed ++ zeros (padding4 (p3 + 12 + lenN fixed)) ++ f32s_bytes (storage_floats s0) ++ post) ++ n)
      with ((h ++ m ++ v ++ sid ++ sl ++ fixed) ++ zeros (padding4 (p3 + 12 + lenN fixed)) ++ f32s_bytes (storage_floats s0) ++ (post ++ n))
      by (rewrite <- !app_assoc; reflexivity).
    apply aligned_intro. rewrite E3. unfold sid, sl. rewrite !lenN_app, !le_bytes_lenN. lia.
  - intros ns En. rewrite En. unfold norms_f. set (st := framed (chunk_num (swrap_id _)) _ _) in *.
    unfold framed at 1. set (nl := le_bytes 8 (lenN _)). unfold norms_body.
    replace (h ++ m ++ v ++ st ++ le_bytes 4 6 ++ nl ++ le_bytes 8 (lenN ns) ++ le_bytes 4 10 ++ zeros (padding4 (p4 + 12 + 12)) ++ f32s_bytes ns)
      with ((h ++ m ++ v ++ st ++ le_bytes 4 6 ++ nl ++ le_bytes 8 (lenN ns) ++ le_bytes 4 10) ++ zeros (padding4 (p4 + 12 + 12)) ++ f32s_bytes ns ++ [])
      by (rewrite <- !app_assoc, app_nil_r; reflexivity).
    apply aligned_intro. rewrite E4, E3. unfold nl. rewrite !lenN_app, !le_bytes_lenN. lia.
Qed.

(** ** Header *)
Lemma header_layout_eq ids : header_layout ids = header_bytes ids.
Proof. reflexivity. Qed.

Lemma header_valid ids bs pos : (exists s', read_header (mkStream bs pos) = (Ok ids, s')) <->
  (exists tail, bs = header_layout ids ++ tail) /\ ~ In CHeader ids /\ lenN ids < two32.
Proof.
  split.
  - intros [s' H]. apply read_header_inv in H as (E & NI & L & _). cbn [s_rest] in E. eauto.
  - intros ((tail & ->) & NI & L). rewrite header_layout_eq.
    destruct (header_codec ids NI L) as (_ & R & _). eexists. apply (R pos tail).
Qed.

(** ** Single chunks *)
Lemma codec_round_trip {A} id w (m : reader A) body len a base :
  chunk_codec id w m body len a ->
  exists bytes, run_writer w base = Ok bytes /\ lenN bytes = len base /\ reads_back m base bytes a.
Proof.
  intros [_ E R L]. exists (framed (chunk_num id) body base).
  split; [apply emits_run, E|split; [apply L|]]. intros tail. apply R.
Qed.

Lemma default_boundaries_new {I} (ops : indexer_ops I) pf ws mn mx ix bow eow v :
  sub_new_with_boundaries ops pf ws mn mx ix bow eow = Ok v ->
  sub_new ops pf ws mn mx ix = Ok (default_boundaries v).
Proof.
  intros H. apply sub_new_wb_Ok in H as (ND & -> & b & B & L).
  apply (sub_new_wb_intro ops pf ws mn mx ix default_bow default_eow b ND B L).
Qed.

Lemma bucket_round_trip pf ws mn mx exp ix bow eow v base :
  words_ok ws -> mn < two32 -> mx < two32 -> hash_indexer_new exp = Ok ix ->
  sub_new_with_boundaries hash_ops pf ws mn mx ix bow eow = Ok v ->
  exists bytes, run_writer (ck_write bucket_chunk v) base = Ok bytes /\
  lenN bytes = ck_len bucket_chunk v base /\
  reads_back (read_bucketed hash_bucket_ops pf CBucketSubwordVocab) base bytes (default_boundaries v).
Proof.
  intros W L1 L2 HX HV. pose proof (hash_new_buckets _ _ HX) as [HN HL].
  apply default_boundaries_new in HV.
  destruct (bucket_codec hash_bucket_ops pf CBucketSubwordVocab ws mn mx exp ix (default_boundaries v)) as [C _]; auto;
    [discriminate|unfold two32; lia|].
  apply (codec_round_trip _ _ _ _ _ _ base C).
Qed.

Lemma fasttext_round_trip pf ws mn mx n ix bow eow v base :
  words_ok ws -> mn < two32 -> mx < two32 -> ft_indexer_new n = Ok ix ->
  sub_new_with_boundaries ft_ops pf ws mn mx ix bow eow = Ok v ->
  exists bytes, run_writer (ck_write ft_chunk v) base = Ok bytes /\
  lenN bytes = ck_len ft_chunk v base /\
  reads_back (read_bucketed ft_bucket_ops pf CFastTextSubwordVocab) base bytes (default_boundaries v).
Proof.
  intros W L1 L2 HX HV. pose proof (ft_new_buckets _ _ HX) as [HN HL].
  apply default_boundaries_new in HV.
  destruct (bucket_codec ft_bucket_ops pf CFastTextSubwordVocab ws mn mx n ix (default_boundaries v)) as [C _]; auto;
    [discriminate|unfold i32_max, two32 in *; lia|].
  apply (codec_round_trip _ _ _ _ _ _ base C).
Qed.

Lemma explicit_round_trip pf ws mn mx ix bow eow v base :
  words_ok ws -> mn < two32 -> mx < two32 -> explicit_built ix ->
  Forall str_ok (ei_ngrams ix) -> lenN (ei_ngrams ix) * 32 <= isize_max ->
  sub_new_with_boundaries explicit_ops pf ws mn mx ix bow eow = Ok v ->
  exists bytes, run_writer (ck_write explicit_chunk v) base = Ok bytes /\
  lenN bytes = ck_len explicit_chunk v base /\
  reads_back (read_explicit pf) base bytes (default_boundaries v).
Proof.
  intros W L1 L2 HB HG LG HV. apply default_boundaries_new in HV.
  destruct (explicit_codec pf ws mn mx ix _ W L1 L2 HB HG LG HV) as [C _].
  apply (codec_round_trip _ _ _ _ _ _ base C).
Qed.

Lemma floret_round_trip pf ws mn mx nb nh seed bow eow ix v base :
  mn < two32 -> mx < two32 -> nb < two64 -> seed < two32 -> str_ok bow -> str_ok eow ->
  floret_indexer_new nb nh seed = Ok ix ->
  sub_new_with_boundaries floret_ops pf ws mn mx ix bow eow = Ok v ->
  exists bytes, run_writer (ck_write floret_chunk v) base = Ok bytes /\
  lenN bytes = ck_len floret_chunk v base /\
  reads_back (read_floret pf) base bytes (mkSub bow eow ix [] [] mn mx).
Proof.
  intros L1 L2 L3 L4 B1 B2 HX HV.
  assert (sub_new_with_boundaries floret_ops pf [] mn mx ix bow eow = Ok (mkSub bow eow ix [] [] mn mx)) as HV0.
  { pose proof HV as H. apply sub_new_wb_Ok in H as (_ & _ & b & B & L).
    apply (sub_new_wb_intro floret_ops pf [] mn mx ix bow eow b); [constructor|auto|rewrite lenN_nil; lia]. }
  destruct (floret_codec pf mn mx nb nh seed bow eow ix _ L1 L2 L3 L4 B1 B2 HX HV0) as [C _].
  apply sub_new_wb_Ok in HV as (_ & -> & _).
  apply (codec_round_trip _ _ _ _ _ _ base C).
Qed.

Lemma simple_round_trip ws v base : words_ok ws -> simple_new ws = Ok v ->
  exists bytes, run_writer (ck_write simple_chunk v) base = Ok bytes /\
  lenN bytes = ck_len simple_chunk v base /\ reads_back read_simple base bytes v.
Proof.
  intros W H. destruct (simple_codec ws v W H) as [C _]. apply (codec_round_trip _ _ _ _ _ _ base C).
Qed.

Lemma ndarray_round_trip a base : nd_ok a ->
  exists bytes, run_writer (ck_write nd_chunk a) base = Ok bytes /\
  lenN bytes = ck_len nd_chunk a base /\ reads_back read_ndarray base bytes a.
Proof. intros H. destruct (nd_codec a H) as [C _]. apply (codec_round_trip _ _ _ _ _ _ base C). Qed.

Lemma quantized_round_trip q base : qa_ok q ->
  exists bytes, run_writer (ck_write qa_chunk q) base = Ok bytes /\
  lenN bytes = ck_len qa_chunk q base /\ reads_back read_quantized base bytes q.
Proof. intros H. destruct (qa_codec q H) as [C _]. apply (codec_round_trip _ _ _ _ _ _ base C). Qed.

(** ** Metadata alone *)
Lemma metadata_agrees T {V S} (rv : reader V) (rs : reader S) s e s' :
  read_embeddings T rv rs s = (Ok e, s') -> exists s'', read_metadata T s = (Ok (em_meta e), s'').
Proof.
  intros H. unfold read_embeddings in H. minv H as ids X0. destruct ids as [|id ids]; [unfold fail in H; discriminate|].
  minv H as md X1. minv H as v X2. minv H as st X3. minv H as ns X4. apply ret_inv in H as [<- <-].
  cbn [em_meta]. unfold read_metadata, bind at 1. rewrite X0.
  destruct (chunk_eqb id CMetadata); eauto.
Qed.

Lemma metadata_alone pf T e s0 base bytes : toml_law T -> emb_built pf T e s0 ->
  run_writer (write_file T e) base = Ok bytes ->
  exists pre post, bytes = pre ++ post /\
  lenN pre = 12 + 4 * lenN (expected_chunks e) + match em_meta e with Some t => 12 + lenN (toml_print T t) | None => 0 end /\
  reads_back (read_metadata T) base pre (em_meta e).
Proof.
  intros TL EB H. pose proof EB as [HV HS HM _]. destruct (file_facts pf T e s0 TL EB) as (vb & HE & _).
  destruct (vocab_wrap_codec pf _ HV) as (vb' & CV & SV & IDV). destruct (storage_wrap_codec _ _ HS) as (CS & SS & MS).
  rewrite (emits_run _ _ base HE) in H. inv H.
  destruct (file_parts T e s0 vb base) as (p1 & p2 & p3 & p4 & E & _).
  rewrite E. clear E.
  set (rest := framed (chunk_num (vocab_wrap_id _)) _ _ ++ _).
  exists (header_bytes (emb_chunks T vwrap_chunk swrap_chunk e) ++ meta_f T (em_meta e) p1), rest.
  split; [rewrite <- app_assoc; reflexivity|]. split.
  - rewrite lenN_app, header_bytes_len, <- expected_chunks_ok, lenN_map. f_equal.
    unfold meta_f. destruct (em_meta e); [rewrite framed_len; reflexivity|reflexivity].
  - intros tail. assert (~ In CHeader (emb_chunks T vwrap_chunk swrap_chunk e) /\ lenN (emb_chunks T vwrap_chunk swrap_chunk e) < two32) as [NI L].
    { split.
      - unfold emb_chunks. cbn [ck_id vwrap_chunk swrap_chunk]. intros HI.
        destruct (em_meta e), (em_norms e), (em_vocab e), (em_storage e); cbn in HI;
          decompose [or] HI; try discriminate; auto.
      - unfold emb_chunks. destruct (em_meta e), (em_norms e); reflexivity. }
    destruct (header_codec _ NI L) as (_ & R & _). unfold read_metadata, bind at 1.
    rewrite <- app_assoc. pose proof (R base (meta_f T (em_meta e) p1 ++ tail)) as R'. unfold fconst in R'. rewrite R'.
    unfold emb_chunks. cbn [ck_id vwrap_chunk swrap_chunk]. destruct (em_meta e) as [t|] eqn:EM.
    + cbn [app]. change (chunk_eqb CMetadata CMetadata) with true. cbv iota.
      unfold meta_f. destruct (metadata_codec T TL t (HM t eq_refl)) as (_ & MR & _).
      unfold bind at 1. replace (framed 5 (fconst (toml_print T t)) p1) with (framed 5 (fconst (toml_print T t)) (base + lenN (header_bytes (CMetadata :: vocab_wrap_id (em_vocab e) :: swrap_id (em_storage e) :: match em_norms e with Some _ => [CNdNorms] | None => [] end)))) by reflexivity.
      rewrite MR. unfold ret. rewrite lenN_app, N.add_assoc. reflexivity.
    + cbn [app meta_f]. unfold fconst. cbn [app]. rewrite app_nil_r.
      replace (chunk_eqb (vocab_wrap_id (em_vocab e)) CMetadata) with false; [reflexivity|].
      destruct (em_vocab e); reflexivity.
Qed.

(** ** Truncation *)
Lemma prefix_cases {A} (a b p q : list A) : a ++ b = p ++ q -> q <> [] ->
  (lenN p < lenN a /\ exists q', a = p ++ q' /\ q' <> []) \/
  (lenN a <= lenN p /\ exists p', p = a ++ p' /\ b = p' ++ q).
Proof.
  intros E Hq. destruct (N.lt_ge_cases (lenN p) (lenN a)) as [L|L].
  - left. split; [auto|]. assert (a = p ++ dropN (lenN p) a) as X.
    { transitivity (takeN (lenN p) (a ++ b) ++ dropN (lenN p) a).
      - rewrite takeN_app_le by lia. symmetry. apply takeN_dropN.
      - f_equal. rewrite E. apply takeN_app. }
    exists (dropN (lenN p) a). split; [exact X|]. intros E0.
    assert (lenN (dropN (lenN p) a) = 0) by (rewrite E0; reflexivity). rewrite lenN_dropN in H. lia.
  - right. split; [auto|]. assert (takeN (lenN a) p = a) as X.
    { transitivity (takeN (lenN a) (p ++ q)); [rewrite takeN_app_le by lia; reflexivity|].
      rewrite <- E. apply takeN_app. }
    exists (dropN (lenN a) p).
    split; [transitivity (takeN (lenN a) p ++ dropN (lenN a) p); [symmetry; apply takeN_dropN|rewrite X; reflexivity]|].
    transitivity (dropN (lenN a) (a ++ b)); [symmetry; apply dropN_app|].
    rewrite E, dropN_app_le by lia. reflexivity.
Qed.

Lemma file_truncation pf T e s0 base bytes : toml_law T -> emb_built pf T e s0 ->
  storage_nonempty s0 -> em_norms e <> Some [] ->
  run_writer (write_file T e) base = Ok bytes ->
  exists main norms, bytes = main ++ norms /\
  (forall ns, em_norms e = Some ns -> exists pad, takeN 4 norms = le_bytes 4 6 /\ lenN norms = 24 + pad + 4 * lenN ns /\ 1 <= pad <= 4) /\
  (em_norms e = None -> norms = []) /\
  forall p q, bytes = p ++ q -> q <> [] ->
    (lenN p < lenN main -> exists err s', read_file pf T (mkStream p base) = (Err err, s')) /\
    (lenN main <= lenN p -> exists s', read_file pf T (mkStream p base) = (Ok (loaded e s0 None), s')).
Proof.
  intros TL EB NE NN H. pose proof EB as [_ _ _ HN]. destruct (file_facts pf T e s0 TL EB) as (vb & HE & _ & HR & HS & _).
  rewrite (emits_run _ _ base HE) in H. inv H. specialize (HS NE).
  exists (main_layout T e s0 vb base), (norms_layout e (base + lenN (main_layout T e s0 vb base))).
  split; [reflexivity|]. split; [|split].
  - intros ns En. unfold norms_layout, norms_f. rewrite En.
    exists (padding4 (base + lenN (main_layout T e s0 vb base) + 12 + 12)). split; [|split; [|apply padding4_range]].
    + unfold framed. apply takeN_app_l. reflexivity.
    + rewrite framed_len. unfold norms_body. rewrite !lenN_app, !le_bytes_lenN, zeros_lenN, f32s_bytes_lenN. lia.
  - intros En. unfold norms_layout, norms_f. rewrite En. reflexivity.
  - intros p q E Hq. unfold file_layout, fseq in E.
    destruct (prefix_cases _ _ _ _ E Hq) as [(L & q' & E' & Hq')|(L & p' & -> & E')].
    + split; [|lia]. intros _. apply (HS base p q' false E' Hq').
    + split; [rewrite lenN_app; lia|]. intros _. rewrite HR. unfold norms_layout, norms_f in E'.
      destruct (em_norms e) as [ns|] eqn:En.
      * destruct (norms_codec ns (HN ns eq_refl)) as (_ & _ & NS).
        destruct (NS ltac:(congruence) _ _ _ false E' Hq) as (err & s' & X).
        exists s'. unfold bind, ok_opt. rewrite X. reflexivity.
      * unfold fconst in E'. symmetry in E'. apply app_eq_nil in E' as [_ ->]. congruence.
Qed.

(** ** A writer that fails *)
Lemma file_write_fails pf T e s0 base bytes cap : toml_law T -> emb_built pf T e s0 ->
  run_writer (write_file T e) base = Ok bytes ->
  write_file T e (mkSink base [] (Some cap))
  = (if lenN bytes <=? cap then Ok tt else Err EWrite, mkSink base (takeN cap bytes) (Some cap)).
Proof.
  intros TL EB H. destruct (file_facts pf T e s0 TL EB) as (vb & HE & _).
  rewrite (emits_run _ _ base HE) in H. inv H. rewrite HE by (unfold sink_ok; cbn [k_cap k_out]; rewrite lenN_nil; lia).
  unfold k_pos. cbn [k_base k_out]. rewrite lenN_nil, N.add_0_r.
  unfold write_bytes. cbn [k_cap k_out]. rewrite lenN_nil, N.add_0_l, N.sub_0_r.
  set (b := file_layout T e s0 vb base). unfold push. cbn [k_base k_out k_cap app].
  destruct (N.leb_spec (lenN b) cap); [|reflexivity]. f_equal. f_equal.
  rewrite <- (app_nil_r b) at 2. rewrite takeN_app_ge by lia. unfold takeN. rewrite firstn_nil, app_nil_r. reflexivity.
Qed.

(** ** Memory mapping *)
Lemma mmap_equals_read pf pf' T gemm s e s' : read_file pf T s = (Ok e, s') ->
  exists e', mmap_embeddings T (read_vocab_wrap pf) (mmap_storage_wrap pf') s = (Ok e', s') /\
  em_meta e' = em_meta e /\ em_vocab e' = em_vocab e /\ em_norms e' = em_norms e /\
  st_shape (swrap_ops gemm) (em_storage e') = st_shape (swrap_ops gemm) (em_storage e) /\
  (forall i, st_embedding (swrap_ops gemm) (em_storage e') i = st_embedding (swrap_ops gemm) (em_storage e) i) /\
  (forall is, st_embeddings (swrap_ops gemm) (em_storage e') is = st_embeddings (swrap_ops gemm) (em_storage e) is) /\
  (forall is, swrap_clone_from_mapping (em_storage e') is = swrap_clone_from_mapping (em_storage e) is) /\
  (forall base, run_writer (write_file T e') base = run_writer (write_file T e) base).
Proof.
  intros H. pose proof (read_mmap_file _ _ _ _ _ H pf') as HM. eexists. split; [exact HM|].
  unfold loaded. cbn [em_meta em_vocab em_norms em_storage].
  apply read_embeddings_inv in H as (ids & s1 & s2 & s3 & s4 & _ & _ & _ & HS & _).
  apply read_storage_wrap_inv in HS as [HS _].
  destruct (storage_mapped_ops gemm _ HS) as (O1 & O2 & O3 & O4 & O5).
  do 6 (split; [auto|]). split; [auto|]. intros base. unfold run_writer, write_file, write_embeddings.
  cbn [em_meta em_vocab em_norms em_storage].
  set (k := mkSink base [] None).
  assert (forall k, write_storage_wrap (storage_mapped (em_storage e)) k = write_storage_wrap (em_storage e) k) as EW.
  { intros k0. inversion HS as [a OK Ea Eb|q OK Ea Eb| |]; cbn [storage_mapped write_storage_wrap].
    - unfold write_mmap_ndarray, bind, lift. rewrite mma_view_mapped by apply OK. reflexivity.
    - unfold write_mmap_quantized, bind, lift. rewrite mmq_to_quantized_mapped by apply OK. reflexivity. }
  replace (emb_chunks T vwrap_chunk swrap_chunk (mkEmb (em_meta e) (storage_mapped (em_storage e)) (em_vocab e) (em_norms e)))
    with (emb_chunks T vwrap_chunk swrap_chunk e) by (unfold emb_chunks; destruct (em_storage e); reflexivity).
  match goal with |- match ?x with _ => _ end = match ?y with _ => _ end => assert (x = y) as -> end; [|reflexivity].
  apply bind_eta. intros _ k1. apply bind_eta. intros _ k2. apply bind_eta. intros _ k3.
  apply bind_ext; [apply EW|reflexivity].
Qed.

Lemma seek_inv n s u s' : seek_forward n s = (Ok u, s') ->
  s_rest s' = dropN n (s_rest s) /\ s_pos s' = s_pos s + n.
Proof.
  unfold seek_forward. intros H. inv H. cbn [s_rest s_pos]. split; [|reflexivity].
  destruct (N.leb_spec n (lenN (s_rest s))); [reflexivity|]. rewrite dropN_all by lia. reflexivity.
Qed.

Lemma mmap_region_inv n s m s' : mmap_region n s = (Ok m, s') ->
  s' = s /\ n <= isize_max /\ m = mkMmap n (takeN n (s_rest s)).
Proof. unfold mmap_region. destruct (N.leb_spec n isize_max); intros H0; inv H0; auto. Qed.

Lemma dropN_le_app {A} (a b : list A) n : n = lenN a -> dropN n (a ++ b) = b.
Proof. apply dropN_app_l. Qed.

Lemma nd_prefix_pos s p s' : nd_prefix s = (Ok p, s') ->
  s_rest s' = dropN (s_pos s' - s_pos s) (s_rest s) /\ s_pos s' mod 4 = 0 /\ s_pos s + 28 <= s_pos s'.
Proof.
  unfold nd_prefix. intros H. minv H as u X0. minv H as l X1. minv H as r X2. minv H as c X3. minv H as u1 X4.
  minv H as q X5. minv H as u2 X6. apply ret_inv in H as [_ <-].
  apply ensure_chunk_type_inv in X0 as (_ & E0 & P0). apply read_u64_inv in X1 as (E1 & _ & P1).
  apply read_u64_inv in X2 as (E2 & _ & P2). apply read_u32_inv in X3 as (E3 & _ & P3).
  apply ensure_data_type_inv in X4 as (E4 & P4). unfold position in X5. inv X5.
  apply seek_inv in X6 as (E6 & P6).
  pose proof (padding4_aligned (s_pos s5)) as AL. pose proof (padding4_range (s_pos s5)) as RG.
  rewrite P6. split; [|split; [exact AL|lia]].
  rewrite E6, E0, E1, E2, E3, E4, !app_assoc.
  rewrite dropN_app_ge; [f_equal|]; rewrite !lenN_app, !le_bytes_lenN; lia.
Qed.

Lemma mul64_inv pf a b c : mul64 pf a b = Ok c -> c = a * b \/ (pf = Release /\ two64 <= a * b).
Proof.
  unfold mul64. destruct (N.ltb_spec (a * b) two64); intros H0; [inv H0; auto|].
  destruct pf; inv H0; auto.
Qed.

Lemma row_end i rows c : i < rows -> i * c + c <= rows * c.
Proof. nia. Qed.

Lemma mmap_window pf s m s' : mmap_ndarray pf s = (Ok m, s') ->
  pf = Debug \/ ma_rows m * ma_cols m * 4 < two64 ->
  exists start, start mod 4 = 0 /\ s_pos s <= start /\
  mm_bytes (ma_map m) = takeN (mm_len (ma_map m)) (dropN (start - s_pos s) (s_rest s)) /\
  (forall i, i < ma_rows m -> i * (ma_cols m * 4) + ma_cols m * 4 <= mm_len (ma_map m)) /\
  (start + mm_len (ma_map m) <= s_pos s + lenN (s_rest s) ->
   forall i, i < ma_rows m -> exists row, mma_row m i = Ok row /\ lenN row = ma_cols m).
Proof.
  rewrite mmap_ndarray_split. intros H HO. minv H as p X0. destruct p as [rows cols]. cbn [fst snd] in *.
  minv H as size X1. apply lift_inv in X1 as [X1 <-]. minv H as len X2. apply lift_inv in X2 as [X2 <-].
  minv H as map X3. apply mmap_region_inv in X3 as (-> & L & ->). minv H as u X4. apply ret_inv in H as [<- <-].
  cbn [ma_rows ma_cols ma_map mm_len mm_bytes] in *.
  assert (len = rows * (cols * 4)) as ->.
  { apply mul64_inv in X1 as [->|[-> X1]]; [|destruct HO; [discriminate|lia]].
    apply mul64_inv in X2 as [->|[-> X2]]; [|destruct HO; [discriminate|lia]]. lia. }
  apply nd_prefix_pos in X0 as (E & AL & LE).
  exists (s_pos s0). split; [exact AL|split; [lia|]]. rewrite <- E. split; [reflexivity|]. split.
  - intros i Hi. apply row_end, Hi.
  - intros LF i Hi. unfold mma_row. cbn [ma_rows ma_cols ma_map]. destruct (N.ltb_spec i rows); [|lia].
    unfold mm_read. cbn [mm_bytes].
    assert (rows * (cols * 4) <= lenN (s_rest s0)) as LR by (rewrite E, lenN_dropN; lia).
    assert (lenN (takeN (rows * (cols * 4)) (s_rest s0)) = rows * (cols * 4)) as LT by (rewrite lenN_takeN; lia).
    pose proof (row_end i rows (cols * 4) Hi) as RE.
    destruct (N.leb_spec (i * (cols * 4) + cols * 4) (lenN (takeN (rows * (cols * 4)) (s_rest s0)))); [|lia].
    eexists. split; [reflexivity|]. rewrite f32s_of_bytes_lenN, lenN_takeN, lenN_dropN, LT.
    rewrite N.min_l by lia. apply N.div_mul. lia.
Qed.

Lemma mmap_quantized_window pf s m s' : mmap_quantized_chunk pf s = (Ok m, s') ->
  (forall i, i < mmq_nrows m -> i * pq_ql (mq_pq m) + pq_ql (mq_pq m) <= mm_len (mq_map m)) /\
  (lenN (mm_bytes (mq_map m)) = mm_len (mq_map m) ->
   forall i, i < mmq_nrows m -> exists codes, mmq_codes_row m i = Ok codes /\ lenN codes = pq_ql (mq_pq m)).
Proof.
  intros H. assert (forall i, i < mmq_nrows m -> i * pq_ql (mq_pq m) + pq_ql (mq_pq m) <= mm_len (mq_map m)) as A.
  { intros i Hi. unfold mmq_nrows in Hi. set (ql := pq_ql (mq_pq m)) in *. set (len := mm_len (mq_map m)) in *.
    destruct (N.eq_dec ql 0) as [E|NE]; [rewrite E; lia|].
    pose proof (N.mul_div_le len ql NE). nia. }
  split; [exact A|]. intros LF i Hi. unfold mmq_codes_row. destruct (N.ltb_spec i (mmq_nrows m)); [|lia].
  specialize (A i Hi). unfold mm_read. rewrite LF.
  destruct (N.leb_spec (i * pq_ql (mq_pq m) + pq_ql (mq_pq m)) (mm_len (mq_map m))); [|lia].
  eexists. split; [reflexivity|]. rewrite lenN_takeN, lenN_dropN, LF. lia.
Qed.

(** ** Wrappers *)
Lemma peek_typed {A} c (k : reader A) s :
  match read_u32 s with
  | (Ok n, _) =>
      match chunk_of_num n with
      | Ok d => peek peek_chunk_id s = (Ok d, s) /\
                (d <> c -> exists err s', (ensure_chunk_type c ;;; k) s = (Err err, s'))
      | _ => exists err s1 s2, peek peek_chunk_id s = (Err err, s1) /\ (ensure_chunk_type c ;;; k) s = (Err err, s2)
      end
  | _ => exists err s1 s2, peek peek_chunk_id s = (Err err, s1) /\ (ensure_chunk_type c ;;; k) s = (Err err, s2)
  end.
Proof.
  unfold peek, peek_chunk_id, ensure_chunk_type. unfold bind, lift, ret, fail.
  destruct (read_u32 s) as [[n|err|p] s1] eqn:E; [|eauto|].
  - destruct (chunk_of_num n) as [d|err|p] eqn:ED.
    + split; [reflexivity|]. intros ND. destruct (chunk_eqb d c) eqn:EE; [apply chunk_eqb_eq in EE; contradiction|]. eauto.
    + eauto.
    + unfold chunk_of_num in ED. repeat match type of ED with match ?x with _ => _ end = _ => destruct x; try discriminate end.
  - exfalso. eapply read_u32_not_panic, E.
Qed.

Lemma typed_intro {V W} c (k : reader V) (f : chunk_id -> reader W) (inj : V -> W) :
  (forall s, f c s = (v <- (ensure_chunk_type c ;;; k) ;; ret (inj v)) s) ->
  (forall d, d <> c -> forall s w s', f d s = (Ok w, s') -> forall v, w <> inj v) ->
  typed (id <- peek peek_chunk_id ;; f id) (ensure_chunk_type c ;;; k) inj.
Proof.
  intros Hc Hd s. pose proof (peek_typed c k s) as P. set (rd := ensure_chunk_type c ;;; k) in *. unfold bind at 1 2.
  destruct (read_u32 s) as [[n|?|?] s0]; [destruct (chunk_of_num n) as [d|?|?]|..].
  - destruct P as [P1 P2]. rewrite P1. destruct (chunk_eqb d c) eqn:E.
    + apply chunk_eqb_eq in E. subst d. rewrite Hc. split.
      * intros v s' H. unfold bind at 1. rewrite H. reflexivity.
      * intros w s' H. minv H as v X. apply ret_inv in H as [<- <-]. eauto.
    + assert (d <> c) as ND by (intros ->; rewrite chunk_eqb_refl in E; discriminate).
      specialize (P2 ND). destruct P2 as (err & s'' & P2). split.
      * intros v s' H. rewrite P2 in H. discriminate.
      * intros w s' H. right. split; [eapply Hd; eauto|eauto].
  - destruct P as (err & s1 & s2 & P1 & P2). rewrite P1. split; [intros v s' H; rewrite P2 in H; discriminate|discriminate].
  - destruct P as (err & s1 & s2 & P1 & P2). rewrite P1. split; [intros v s' H; rewrite P2 in H; discriminate|discriminate].
  - destruct P as (err & s1 & s2 & P1 & P2). rewrite P1. split; [intros v s' H; rewrite P2 in H; discriminate|discriminate].
  - destruct P as (err & s1 & s2 & P1 & P2). rewrite P1. split; [intros v s' H; rewrite P2 in H; discriminate|discriminate].
Qed.

Ltac other_kind := let d := fresh in let ND := fresh in let H := fresh in
  intros d ND ? ? ? H; destruct d; try (exfalso; apply ND; reflexivity); try (unfold fail in H; discriminate);
  (let x := fresh in let X := fresh in minv H as x X; apply ret_inv in H as [<- _]; intros; discriminate).

Lemma vkind_typed pf V VO rd ck inj : vkind pf V VO rd ck inj -> typed (read_vocab_wrap pf) rd inj.
Proof.
  destruct 1; unfold read_vocab_wrap.
  - unfold read_simple. apply typed_intro; [reflexivity|other_kind].
  - unfold read_bucketed. apply typed_intro; [reflexivity|other_kind].
  - unfold read_bucketed. apply typed_intro; [reflexivity|other_kind].
  - unfold read_explicit. apply typed_intro; [reflexivity|other_kind].
  - unfold read_floret. apply typed_intro; [reflexivity|other_kind].
Qed.

Lemma typed_bind {X V W} (m : reader X) (f : X -> reader W) (g : X -> reader V) (inj : V -> W) :
  (forall x, typed (f x) (g x) inj) -> typed (x <- m ;; f x) (x <- m ;; g x) inj.
Proof.
  intros H s. split.
  - intros v s' E. minv E as x X0. unfold bind. rewrite X0. apply H, E.
  - intros w s' E. minv E as x X0. unfold bind. rewrite X0. apply H, E.
Qed.
Lemma typed_fail {V W} e1 e2 (inj : V -> W) : typed (fail e1) (fail e2) inj.
Proof. split; unfold fail; intros ? ? H; discriminate. Qed.
Lemma typed_map {X V W} (m : reader X) (f : X -> W) (g : X -> V) (inj : V -> W) :
  (forall x, f x = inj (g x)) -> typed (x <- m ;; ret (f x)) (x <- m ;; ret (g x)) inj.
Proof.
  intros H. apply typed_bind. intros x s. unfold ret. split; intros ? ? E; inv E.
  - rewrite H. reflexivity.
  - left. exists (g x). auto.
Qed.
Lemma typed_not {X V W} (m : reader X) (f : X -> W) e (inj : V -> W) :
  (forall x v, f x <> inj v) -> typed (x <- m ;; ret (f x)) (fail e) inj.
Proof.
  intros H s. split; [unfold fail; discriminate|]. intros w s' E. minv E as x X0. apply ret_inv in E as [<- <-].
  right. split; [apply H|unfold fail; eauto].
Qed.

Lemma skind_typed pf gemm rw S SO rs ck inj : skind pf gemm rw S SO rs ck inj -> typed rw rs inj.
Proof.
  destruct 1; unfold read_storage_wrap, mmap_storage_wrap.
  - unfold read_ndarray. apply typed_intro; [reflexivity|other_kind].
  - unfold read_quantized. apply typed_intro; [reflexivity|other_kind].
  - unfold read_storage_view_wrap. apply typed_bind. intros []; try apply typed_fail.
    + apply typed_map. reflexivity.
    + apply typed_not. intros x [] E; discriminate.
  - unfold mmap_ndarray. apply typed_intro; [reflexivity|other_kind].
  - unfold mmap_quantized_chunk. apply typed_intro; [reflexivity|other_kind].
  - unfold mmap_storage_view_wrap. apply typed_bind. intros []; try apply typed_fail.
    + apply typed_map. reflexivity.
    + apply typed_not. intros x [] E; discriminate.
Qed.

Lemma vkind_ops pf V VO rd ck inj : vkind pf V VO rd ck inj -> forall v,
  (forall pf' w, v_idx wrap_ops pf' (inj v) w = v_idx VO pf' v w) /\
  v_words_len wrap_ops (inj v) = v_words_len VO v /\
  (forall pf', v_vocab_len wrap_ops pf' (inj v) = v_vocab_len VO pf' v) /\
  v_words wrap_ops (inj v) = v_words VO v /\
  ck_id vwrap_chunk (inj v) = ck_id ck v /\
  (forall pos, ck_len vwrap_chunk (inj v) pos = ck_len ck v pos) /\
  ck_write vwrap_chunk (inj v) = ck_write ck v.
Proof. destruct 1; intros v; repeat split. Qed.

Lemma skind_ops pf gemm rw S SO rs ck inj : skind pf gemm rw S SO rs ck inj -> forall s,
  (forall i, st_embedding (swrap_ops gemm) (inj s) i = st_embedding SO s i) /\
  (forall is, st_embeddings (swrap_ops gemm) (inj s) is = st_embeddings SO s is) /\
  st_shape (swrap_ops gemm) (inj s) = st_shape SO s /\
  ck_id swrap_chunk (inj s) = ck_id ck s /\
  (forall pos, ck_len swrap_chunk (inj s) pos = ck_len ck s pos) /\
  ck_write swrap_chunk (inj s) = ck_write ck s.
Proof. destruct 1; try destruct s; repeat split; destruct s; reflexivity. Qed.

(** Whole files through wrappers and with concrete types. *)
Lemma wrapped_file pf gemm T V VO rv cv fv rw S SO rs cs fs :
  vkind pf V VO rv cv fv -> skind pf gemm rw S SO rs cs fs ->
  typed (read_embeddings T (read_vocab_wrap pf) rw) (read_embeddings T rv rs) (emb_wrap fv fs) /\
  forall e : embeddings (toml_table T) V S f32,
    (forall k, write_file T (emb_wrap fv fs e) k = write_embeddings T cv cs e k) /\
    (forall pos, write_file_len T (emb_wrap fv fs e) pos = write_embeddings_len T cv cs e pos).
Proof.
  intros HV HS. split.
  - pose proof (vkind_typed _ _ _ _ _ _ HV) as TV. pose proof (skind_typed _ _ _ _ _ _ _ _ HS) as TS.
    unfold read_embeddings. apply typed_bind. intros [|id ids]; [apply typed_fail|].
    apply typed_bind. intros md s. split.
    + intros e s' H. minv H as v X1. minv H as st X2. minv H as ns X3. apply ret_inv in H as [<- <-].
      destruct (TV s) as [TV1 _]. destruct (TS s0) as [TS1 _]. unfold bind at 1. rewrite (TV1 _ _ X1).
      unfold bind at 1. rewrite (TS1 _ _ X2). unfold bind at 1. rewrite X3. reflexivity.
    + intros e s' H. minv H as v X1. minv H as st X2. minv H as ns X3. apply ret_inv in H as [<- <-].
      destruct (TV s) as [_ TV2]. destruct (TS s0) as [_ TS2].
      destruct (TV2 _ _ X1) as [(v' & -> & R)|(NV & err & s'' & R)].
      * destruct (TS2 _ _ X2) as [(st' & -> & R')|(NV & err & s'' & R')].
        -- left. exists (mkEmb md st' v' ns). split; [reflexivity|]. unfold bind at 1. rewrite R.
           unfold bind at 1. rewrite R'. unfold bind at 1. rewrite X3. reflexivity.
        -- right. split; [intros [m' st' v'' ns'] E; inv E; eapply NV; reflexivity|].
           exists err, s''. unfold bind at 1. rewrite R. unfold bind at 1. rewrite R'. reflexivity.
      * right. split; [intros [m' st' v' ns'] E; inv E; eapply NV; reflexivity|].
        exists err, s''. unfold bind at 1. rewrite R. reflexivity.
  - intros e. destruct (vkind_ops _ _ _ _ _ _ HV (em_vocab e)) as (_ & _ & _ & _ & I1 & L1 & W1).
    destruct (skind_ops _ _ _ _ _ _ _ _ HS (em_storage e)) as (_ & _ & _ & I2 & L2 & W2).
    assert (emb_chunks T vwrap_chunk swrap_chunk (emb_wrap fv fs e) = emb_chunks T cv cs e) as EC.
    { unfold emb_chunks, emb_wrap. cbn [em_meta em_norms em_vocab em_storage]. rewrite I1, I2. reflexivity. }
    split; intros.
    + unfold write_file, write_embeddings. rewrite EC. unfold emb_wrap. cbn [em_meta em_norms em_vocab em_storage].
      rewrite W1, W2. reflexivity.
    + unfold write_file_len, write_embeddings_len. rewrite EC. unfold emb_wrap. cbn [em_meta em_norms em_vocab em_storage].
      cbv zeta. rewrite L1, L2. reflexivity.
Qed.

(** ** Stream position *)
Lemma file_position pf T e s0 base : toml_law T -> emb_built pf T e s0 -> em_norms e <> None ->
  exists bytes, run_writer (write_file T e) base = Ok bytes /\
  reads_back (read_file pf T) base bytes (loaded e s0 (em_norms e)).
Proof.
  intros TL EB NN. destruct (file_facts pf T e s0 TL EB) as (vb & HE & _ & HR & _ & _).
  exists (file_layout T e s0 vb base). split; [apply emits_run, HE|]. intros tail.
  destruct (file_run pf T e s0 vb EB HR base tail) as (s' & E & P); [congruence|].
  rewrite E, (P NN). reflexivity.
Qed.
