(** * Whole files. *)
From Verif Require Import Base BaseFacts Utf8 Stream StreamFacts F32 ChunkIO ChunkFacts Subword
  Vocab VocabFacts Storage StorageFacts Embeddings FileSpec.
Local Open Scope N_scope.

Section File.
  Context (T : toml_ops) (TL : toml_law T) {V S V' S' : Type}.
  Context (VC : chunk_ops V) (SC : chunk_ops S) (rv : reader V') (rs : reader S').
  Variables (md : option (toml_table T)) (v : V) (s : S) (ns : option (list f32)) (v' : V') (s' : S').
  Variables (bv bs : bytesf).
  Hypothesis IDV : ck_id VC v <> CMetadata.
  Let e := mkEmb md s v ns : embeddings (toml_table T) V S f32.
  Hypothesis CV : chunk_codec (ck_id VC v) (ck_write VC v) rv bv (ck_len VC v) v'.
  Hypothesis CS : chunk_codec (ck_id SC s) (ck_write SC s) rs bs (ck_len SC s) s'.
  Hypothesis MD : forall t, md = Some t -> lenN (toml_print T t) <= isize_max.
  Hypothesis NS : forall n, ns = Some n -> lenN n * 4 <= isize_max.

  Definition meta_f : bytesf :=
    match md with Some t => framed 5 (fconst (toml_print T t)) | None => fconst [] end.
  Definition norms_f : bytesf :=
    match ns with Some n => framed 6 (norms_body n) | None => fconst [] end.
  Definition head_f : bytesf := fseq (fconst (header_bytes (emb_chunks T VC SC e))) meta_f.
  Definition vs_f : bytesf :=
    fseq (framed (chunk_num (ck_id VC v)) bv) (framed (chunk_num (ck_id SC s)) bs).
  (** Everything but the norms. *)
  Definition main_f : bytesf :=
    fseq (fconst (header_bytes (emb_chunks T VC SC e))) (fseq meta_f vs_f).
  Definition file_f : bytesf := fseq main_f norms_f.

  Lemma fseq_assoc f g h pos : fseq (fseq f g) h pos = fseq f (fseq g h) pos.
  Proof. unfold fseq. rewrite lenN_app, N.add_assoc, app_assoc. reflexivity. Qed.
  Lemma fseq_ext f g f' g' pos : (forall p, f p = f' p) -> (forall p, g p = g' p) -> fseq f g pos = fseq f' g' pos.
  Proof. intros H1 H2. unfold fseq. rewrite H1, H2. reflexivity. Qed.

  Lemma chunks_ok : ~ In CHeader (emb_chunks T VC SC e) /\ lenN (emb_chunks T VC SC e) < two32.
  Proof.
    unfold emb_chunks, e. cbn [em_meta em_norms em_vocab em_storage]. split.
    - pose proof (cc_id _ _ _ _ _ _ CV). pose proof (cc_id _ _ _ _ _ _ CS).
      rewrite !in_app_iff. cbn [In]. destruct md, ns; cbn [In]; intuition congruence.
    - destruct md, ns; reflexivity.
  Qed.

  Lemma meta_codec :
    emits (match md with Some t => write_metadata T t | None => ret tt end) meta_f /\
    forall id rest, emb_chunks T VC SC e = id :: rest ->
    reads (if chunk_eqb id CMetadata then t <- read_metadata_chunk T ;; ret (Some t) else ret None) meta_f md /\
    short (if chunk_eqb id CMetadata then t <- read_metadata_chunk T ;; ret (Some t) else ret None) meta_f.
  Proof.
    unfold meta_f, emb_chunks, e. cbn [em_meta em_norms em_vocab em_storage].
    destruct md as [t|] eqn:E.
    - destruct (metadata_codec T TL t (MD t eq_refl)) as (ME & MR & MS). split; [exact ME|].
      intros id rest X. cbn [app] in X. inv X.
      replace (chunk_eqb CMetadata CMetadata) with true by reflexivity. split.
      + apply (reads_map _ Some). exact MR.
      + apply (short_map _ Some). exact MS.
    - split; [apply emits_ret|]. intros id rest X. cbn [app] in X. inv X.
      replace (chunk_eqb (ck_id VC v) CMetadata) with false; [split; [apply reads_ret|apply short_ret]|].
      symmetry. destruct (chunk_eqb (ck_id VC v) CMetadata) eqn:X; [|reflexivity].
      apply chunk_eqb_eq in X. tauto.
  Qed.

  Lemma norms_f_emits : emits (match ns with Some n => write_norms n | None => ret tt end) norms_f.
  Proof.
    unfold norms_f. destruct ns as [n|] eqn:E; [|apply emits_ret]. apply norms_codec. apply NS. reflexivity.
  Qed.

  Lemma file_emits : emits (write_embeddings T VC SC e) file_f.
  Proof.
    unfold write_embeddings. destruct chunks_ok as [C1 C2]. destruct (header_codec _ C1 C2) as (HE & _).
    destruct meta_codec as [ME _].
    eapply emits_ext; [|eapply emits_seq; [exact HE|eapply emits_seq; [exact ME|
      eapply emits_seq; [apply CV|eapply emits_seq; [apply CS|apply norms_f_emits]]]]].
    intros pos. unfold file_f, main_f, vs_f. rewrite fseq_assoc. apply fseq_ext; [reflexivity|].
    intros p. rewrite fseq_assoc. apply fseq_ext; [reflexivity|]. intros p'. rewrite fseq_assoc. reflexivity.
  Qed.

  Lemma flen f g pos n m : lenN (f pos) = n -> lenN (g (pos + n)) = m -> lenN (fseq f g pos) = n + m.
  Proof. intros H1 H2. unfold fseq. rewrite lenN_app, H1, H2. reflexivity. Qed.

  Lemma file_len pos : lenN (file_f pos) = write_embeddings_len T VC SC e pos.
  Proof.
    unfold write_embeddings_len.
    assert (forall ids, lenN (flat_map (fun c => le_bytes 4 (chunk_num c)) ids) = lenN ids * 4) as HF.
    { induction ids as [|c ids IH]; [reflexivity|]. cbn [flat_map]. rewrite lenN_app, le_bytes_lenN, lenN_cons, IH. lia. }
    assert (lenN (header_bytes (emb_chunks T VC SC e)) = header_chunk_len (emb_chunks T VC SC e) pos) as HL.
    { unfold header_bytes, header_chunk_len. rewrite !lenN_app, !le_bytes_lenN, HF.
      change (lenN magic) with 4. lia. }
    assert (forall p, lenN (meta_f p) = match md with Some t => metadata_chunk_len T t p | None => 0 end) as ML.
    { intros p. unfold meta_f. destruct md; [|reflexivity]. rewrite framed_len. reflexivity. }
    assert (forall p, lenN (norms_f p) = match ns with Some n => norms_chunk_len n p | None => 0 end) as NL.
    { intros p. unfold norms_f. destruct ns; [|reflexivity]. rewrite <- norms_framed. apply norms_bytes_len. }
    pose proof (cc_len _ _ _ _ _ _ CV) as VL. pose proof (cc_len _ _ _ _ _ _ CS) as SL.
    unfold file_f, main_f, vs_f. cbn [em_meta em_vocab em_storage em_norms e].
    replace (header_chunk_len (emb_chunks T VC SC e) (pos + 0)) with (header_chunk_len (emb_chunks T VC SC e) pos)
      by reflexivity.
    erewrite flen; [|eapply flen; [unfold fconst; exact HL|eapply flen; [apply ML|eapply flen; [apply VL|apply SL]]]|apply NL].
    rewrite !N.add_0_l, !N.add_assoc. cbv zeta. subst e. cbn [em_meta em_vocab em_storage em_norms].
    reflexivity.
  Qed.

  Let after (n : option (list f32)) := mkEmb md s' v' n : embeddings (toml_table T) V' S' f32.

  Lemma chunks_cons : exists id rest, emb_chunks T VC SC e = id :: rest.
  Proof. unfold emb_chunks, e. cbn [em_meta]. destruct md; cbn [app]; eauto. Qed.

  Lemma main_run pos tail :
    read_embeddings T rv rs (mkStream (main_f pos ++ tail) pos)
    = (n <- ok_opt read_norms ;; ret (after n)) (mkStream tail (pos + lenN (main_f pos))).
  Proof.
    destruct chunks_ok as [C1 C2]. destruct (header_codec _ C1 C2) as (_ & HR & _).
    destruct chunks_cons as (id & rest & EC). destruct meta_codec as [_ MC].
    destruct (MC id rest EC) as [MR _]. pose proof (cc_reads _ _ _ _ _ _ CV) as VR.
    pose proof (cc_reads _ _ _ _ _ _ CS) as SR.
    unfold read_embeddings, main_f, vs_f. unfold fseq at 1. rewrite <- app_assoc. unfold bind at 1.
    rewrite HR, EC. unfold fseq at 1. rewrite <- app_assoc. unfold bind at 1. rewrite MR.
    unfold fseq at 1. rewrite <- app_assoc. unfold bind at 1. rewrite VR.
    unfold bind at 1. rewrite SR. unfold fconst, fseq. do 2 f_equal. rewrite !lenN_app. rewrite !N.add_assoc. reflexivity.
  Qed.

  Lemma short_nil {A} (m : reader A) : short m (fconst []).
  Proof. intros pos p q brk E Hq. symmetry in E. apply app_eq_nil in E as [_ E]. tauto. Qed.

  Hypothesis SV : short rv (framed (chunk_num (ck_id VC v)) bv).

  Lemma main_short : short rs (framed (chunk_num (ck_id SC s)) bs) ->
    short (read_embeddings T rv rs) main_f.
  Proof.
    intros SS. destruct chunks_ok as [C1 C2]. destruct (header_codec _ C1 C2) as (_ & HR & HS).
    destruct chunks_cons as (id & rest & EC). destruct meta_codec as [_ MC].
    destruct (MC id rest EC) as [MR MS]. pose proof (cc_reads _ _ _ _ _ _ CV) as VR.
    pose proof (cc_reads _ _ _ _ _ _ CS) as SR.
    unfold read_embeddings, main_f, vs_f. eapply short_bind; [exact HR|exact HS|]. rewrite EC.
    eapply short_bind; [exact MR|exact MS|]. cbv beta.
    eapply short_bind; [exact VR|exact SV|]. cbv beta.
    eapply short_ext; [|eapply short_bind; [exact SR|exact SS|apply short_nil]]. layout.
  Qed.

  (** Everything before the storage. *)
  Definition pre_f : bytesf :=
    fseq (fconst (header_bytes (emb_chunks T VC SC e))) (fseq meta_f (framed (chunk_num (ck_id VC v)) bv)).
  Lemma main_pre pos : main_f pos = fseq pre_f (framed (chunk_num (ck_id SC s)) bs) pos.
  Proof. unfold main_f, pre_f, vs_f. rewrite fseq_assoc. apply fseq_ext; [reflexivity|]. intros p. symmetry. apply fseq_assoc. Qed.
  Lemma pre_run pos tail :
    read_embeddings T rv rs (mkStream (pre_f pos ++ tail) pos)
    = (s <- rs ;; n <- ok_opt read_norms ;; ret (mkEmb md s v' n)) (mkStream tail (pos + lenN (pre_f pos))).
  Proof.
    destruct chunks_ok as [C1 C2]. destruct (header_codec _ C1 C2) as (_ & HR & _).
    destruct chunks_cons as (id & rest & EC). destruct meta_codec as [_ MC].
    destruct (MC id rest EC) as [MR _]. pose proof (cc_reads _ _ _ _ _ _ CV) as VR.
    unfold read_embeddings, pre_f. unfold fseq at 1. rewrite <- app_assoc. unfold bind at 1.
    rewrite HR, EC. unfold fseq at 1. rewrite <- app_assoc. unfold bind at 1. rewrite MR.
    unfold bind at 1. rewrite VR. unfold fconst, fseq. do 2 f_equal. rewrite !lenN_app. rewrite !N.add_assoc. reflexivity.
  Qed.
  Lemma pre_short : short (read_embeddings T rv rs) pre_f.
  Proof.
    destruct chunks_ok as [C1 C2]. destruct (header_codec _ C1 C2) as (_ & HR & HS).
    destruct chunks_cons as (id & rest & EC). destruct meta_codec as [_ MC].
    destruct (MC id rest EC) as [MR MS]. pose proof (cc_reads _ _ _ _ _ _ CV) as VR.
    unfold read_embeddings, pre_f. eapply short_bind; [exact HR|exact HS|]. rewrite EC.
    eapply short_bind; [exact MR|exact MS|]. cbv beta.
    eapply short_ext; [|eapply short_bind; [exact VR|exact SV|apply short_nil]]. layout.
  Qed.
End File.

(** ** Values that the crate's constructors can build *)

Lemma vocab_wrap_codec pf v : vocab_built pf v -> exists body,
  chunk_codec (vocab_wrap_id v) (write_vocab_wrap v) (read_vocab_wrap pf) (fconst body)
    (vocab_wrap_chunk_len v) v /\
  short (read_vocab_wrap pf) (framed (chunk_num (vocab_wrap_id v)) (fconst body)) /\
  vocab_wrap_id v <> CMetadata.
Proof.
  destruct 1 as [ws v W E|ws mn mx ex ix v W L1 L2 H E|ws mn mx n ix v W L1 L2 H E
    |ws mn mx ix v W L1 L2 HB HG LG E|mn mx nb nh seed bow eow ix v L1 L2 L3 L4 B1 B2 H E].
  - destruct (simple_codec ws v W E) as [C S]. eexists. split; [|split; [|discriminate]].
    + apply (codec_wrap VSimple _ _ _ _ _ _ _ C). unfold read_vocab_wrap. apply reads_peek; [discriminate|].
      apply (reads_map _ VSimple). apply C.
    + unfold read_vocab_wrap. apply (short_peek CSimpleVocab); [discriminate|]. apply (short_map _ VSimple). exact S.
  - pose proof (hash_new_buckets _ _ H) as [HN HL].
    destruct (bucket_codec hash_bucket_ops pf CBucketSubwordVocab ws mn mx ex ix v) as [C S]; auto;
      [discriminate|unfold two32; lia|].
    eexists. split; [|split; [|discriminate]].
    + apply (codec_wrap VBucket _ _ _ _ _ _ _ C). unfold read_vocab_wrap. apply reads_peek; [discriminate|].
      apply (reads_map _ VBucket). apply C.
    + unfold read_vocab_wrap. apply (short_peek CBucketSubwordVocab); [discriminate|]. apply (short_map _ VBucket). exact S.
  - pose proof (ft_new_buckets _ _ H) as [HN HL].
    destruct (bucket_codec ft_bucket_ops pf CFastTextSubwordVocab ws mn mx n ix v) as [C S]; auto;
      [discriminate|unfold i32_max, two32 in *; lia|].
    eexists. split; [|split; [|discriminate]].
    + apply (codec_wrap VFastText _ _ _ _ _ _ _ C). unfold read_vocab_wrap. apply reads_peek; [discriminate|].
      apply (reads_map _ VFastText). apply C.
    + unfold read_vocab_wrap. apply (short_peek CFastTextSubwordVocab); [discriminate|]. apply (short_map _ VFastText). exact S.
  - destruct (explicit_codec pf ws mn mx ix v W L1 L2 HB HG LG E) as [C S].
    eexists. split; [|split; [|discriminate]].
    + apply (codec_wrap VExplicit _ _ _ _ _ _ _ C). unfold read_vocab_wrap. apply reads_peek; [discriminate|].
      apply (reads_map _ VExplicit). apply C.
    + unfold read_vocab_wrap. apply (short_peek CExplicitSubwordVocab); [discriminate|]. apply (short_map _ VExplicit). exact S.
  - destruct (floret_codec pf mn mx nb nh seed bow eow ix v L1 L2 L3 L4 B1 B2 H E) as [C S].
    eexists. split; [|split; [|discriminate]].
    + apply (codec_wrap VFloret _ _ _ _ _ _ _ C). unfold read_vocab_wrap. apply reads_peek; [discriminate|].
      apply (reads_map _ VFloret). apply C.
    + unfold read_vocab_wrap. apply (short_peek CFloretSubwordVocab); [discriminate|]. apply (short_map _ VFloret). exact S.
Qed.

(** The storage that mapping the chunk yields. *)
Definition storage_mapped (s : storage_wrap) : storage_wrap :=
  match s with
  | SNdArray a => SMmapArray (nd_mapped a)
  | SQuantized q => SMmapQuantized (qa_mapped q)
  | s => s
  end.

Definition storage_body (s : storage_wrap) : bytesf :=
  match s with
  | SNdArray a => nd_body a
  | SQuantized q => qa_body q
  | _ => fconst []
  end.

Lemma unflatten_length {A} n c (l : list A) : length (unflatten n c l) = n.
Proof. revert l; induction n; intros l; cbn [unflatten length]; auto. Qed.
Lemma unflattenN_lenN {A} n c (l : list A) : lenN (unflattenN n c l) = n.
Proof. unfold unflattenN, lenN. rewrite unflatten_length. lia. Qed.

Lemma mma_view_shape m a : mma_view m = Ok a -> a2_nrows a = ma_rows m /\ a2_cols a = ma_cols m.
Proof.
  unfold mma_view. intros H. rinv H. inv H1. unfold a2_nrows. cbn [a2_rows a2_cols].
  rewrite unflattenN_lenN. auto.
Qed.
Lemma mmq_view_shape m q : mmq_to_quantized m = Ok q ->
  a2_nrows (qa_codes q) = mmq_nrows m /\ qa_pq q = mq_pq m /\ qa_norms q = mq_norms m /\
  a2_cols (qa_codes q) = pq_ql (mq_pq m).
Proof.
  unfold mmq_to_quantized. intros H. rinv H. inv H1. unfold mmq_codes in H0. rinv H0. inv H1.
  unfold a2_nrows. cbn [qa_codes qa_pq qa_norms a2_rows a2_cols]. rewrite unflattenN_lenN. auto.
Qed.

Lemma storage_wrap_codec s s0 : storage_holds s s0 ->
  chunk_codec (swrap_id s) (write_storage_wrap s) read_storage_wrap (storage_body s0)
    (swrap_chunk_len s) s0 /\
  (storage_nonempty s0 -> short read_storage_wrap (framed (chunk_num (swrap_id s)) (storage_body s0))) /\
  (forall pf, reads (mmap_storage_wrap pf) (framed (chunk_num (swrap_id s)) (storage_body s0)) (storage_mapped s0)).
Proof.
  assert (forall a, nd_ok a ->
    chunk_codec CNdArray (write_ndarray a) read_storage_wrap (nd_body a) (nd_chunk_len a) (SNdArray a) /\
    (a2_nrows a * a2_cols a <> 0 -> short read_storage_wrap (framed 2 (nd_body a))) /\
    (forall pf, reads (mmap_storage_wrap pf) (framed 2 (nd_body a)) (SMmapArray (nd_mapped a)))) as ND.
  { intros a H. destruct (nd_codec a H) as [C S]. split; [|split].
    - apply (codec_wrap SNdArray _ _ _ _ _ _ _ C). unfold read_storage_wrap. apply reads_peek; [discriminate|].
      apply (reads_map _ SNdArray). apply C.
    - intros NE. unfold read_storage_wrap. apply (short_peek CNdArray); [discriminate|].
      apply (short_map _ SNdArray). auto.
    - intros pf. unfold mmap_storage_wrap. apply (reads_peek CNdArray); [discriminate|].
      apply (reads_map _ SMmapArray). apply nd_mmap_reads; auto. }
  assert (forall q, qa_ok q ->
    chunk_codec CQuantizedArray (write_quantized q) read_storage_wrap (qa_body q) (qa_chunk_len q) (SQuantized q) /\
    (True -> short read_storage_wrap (framed 4 (qa_body q))) /\
    (forall pf, reads (mmap_storage_wrap pf) (framed 4 (qa_body q)) (SMmapQuantized (qa_mapped q)))) as QA.
  { intros q H. destruct (qa_codec q H) as [C S]. split; [|split].
    - apply (codec_wrap SQuantized _ _ _ _ _ _ _ C). unfold read_storage_wrap. apply reads_peek; [discriminate|].
      apply (reads_map _ SQuantized). apply C.
    - intros NE. unfold read_storage_wrap. apply (short_peek CQuantizedArray); [discriminate|].
      apply (short_map _ SQuantized). auto.
    - intros pf. unfold mmap_storage_wrap. apply (reads_peek CQuantizedArray); [discriminate|].
      apply (reads_map _ SMmapQuantized). apply qa_mmap_reads; auto. }
  destruct 1 as [a H|q H|m a E H|m q E H].
  - destruct (ND a H) as (C & S & M). auto.
  - destruct (QA q H) as (C & S & M). auto.
  - destruct (ND a H) as (C & S & M). split; [|auto]. destruct C as [C1 C2 C3 C4]. split.
    + exact C1.
    + cbn [write_storage_wrap]. unfold write_mmap_ndarray. eapply emits_lift_ok; [exact E|exact C2].
    + exact C3.
    + intros pos. cbn [swrap_id storage_body]. rewrite C4. cbn [swrap_chunk_len].
      destruct (mma_view_shape m a E) as [<- <-]. reflexivity.
  - destruct (QA q H) as (C & S & M). split; [|auto]. destruct C as [C1 C2 C3 C4]. split.
    + exact C1.
    + cbn [write_storage_wrap]. unfold write_mmap_quantized. eapply emits_lift_ok; [exact E|exact C2].
    + exact C3.
    + intros pos. cbn [swrap_id storage_body]. rewrite C4. cbn [swrap_chunk_len].
      destruct (mmq_view_shape m q E) as (E1 & E2 & E3 & E4). unfold qa_chunk_len, qa_chunk_len_.
      rewrite E1, E2, E3. unfold a2_nrows. cbn [a2_rows]. rewrite lenN_repeat, N2Nat.id. reflexivity.
Qed.

(** The layout of the file. *)
Definition main_layout (T : toml_ops) (e : emb T) (s0 : storage_wrap) (vb : list byte) : bytesf :=
  main_f T vwrap_chunk swrap_chunk (em_meta e) (em_vocab e) (em_storage e) (em_norms e)
    (fconst vb) (storage_body s0).
Definition norms_layout {T} (e : emb T) : bytesf := norms_f (em_norms e).
Definition file_layout (T : toml_ops) (e : emb T) (s0 : storage_wrap) (vb : list byte) : bytesf :=
  fseq (main_layout T e s0 vb) (norms_layout e).

Lemma emb_eta {Md V S F} (e : embeddings Md V S F) : mkEmb (em_meta e) (em_storage e) (em_vocab e) (em_norms e) = e.
Proof. destruct e; reflexivity. Qed.

Lemma file_facts pf T e s0 : toml_law T -> emb_built pf T e s0 ->
  exists vb,
    emits (write_file T e) (file_layout T e s0 vb) /\
    (forall pos, lenN (file_layout T e s0 vb pos) = write_file_len T e pos) /\
    (forall pos tail, read_file pf T (mkStream (main_layout T e s0 vb pos ++ tail) pos)
      = (n <- ok_opt read_norms ;; ret (loaded e s0 n))
          (mkStream tail (pos + lenN (main_layout T e s0 vb pos)))) /\
    (storage_nonempty s0 -> short (read_file pf T) (main_layout T e s0 vb)) /\
    (forall pf' pos tail, mmap_embeddings T (read_vocab_wrap pf) (mmap_storage_wrap pf')
         (mkStream (main_layout T e s0 vb pos ++ tail) pos)
      = (n <- ok_opt read_norms ;; ret (loaded e (storage_mapped s0) n))
          (mkStream tail (pos + lenN (main_layout T e s0 vb pos)))).
Proof.
  intros TL [HV HS HM HN]. destruct (vocab_wrap_codec pf _ HV) as (vb & CV & SV & IDV).
  destruct (storage_wrap_codec _ _ HS) as (CS & SS & MS). exists vb.
  split; [|split; [|split; [|split]]].
  - pose proof (file_emits T TL vwrap_chunk swrap_chunk _ _ (em_meta e) (em_vocab e) (em_storage e) (em_norms e)
      _ _ _ _ IDV CV CS HM HN) as X. rewrite emb_eta in X. exact X.
  - intros pos. pose proof (file_len T vwrap_chunk swrap_chunk _ _ (em_meta e) (em_vocab e) (em_storage e) (em_norms e)
      _ _ _ _ CV CS HM HN pos) as X. rewrite emb_eta in X. exact X.
  - intros pos tail. apply (main_run T TL vwrap_chunk swrap_chunk _ _ (em_meta e) (em_vocab e) (em_storage e) (em_norms e)
      _ _ _ _ IDV CV CS HM HN).
  - intros NE. apply (main_short T TL vwrap_chunk swrap_chunk _ _ (em_meta e) (em_vocab e) (em_storage e) (em_norms e)
      _ _ _ _ IDV CV CS HM HN SV (SS NE)).
  - intros pf' pos tail. 
    assert (chunk_codec (ck_id swrap_chunk (em_storage e)) (ck_write swrap_chunk (em_storage e))
      (mmap_storage_wrap pf') (storage_body s0) (ck_len swrap_chunk (em_storage e)) (storage_mapped s0)) as CM.
    { destruct CS as [C1 C2 C3 C4]. split; auto. }
    apply (main_run T TL vwrap_chunk swrap_chunk _ _ (em_meta e) (em_vocab e) (em_storage e) (em_norms e)
      _ _ _ _ IDV CV CM HM HN).
Qed.

(** The same, with the storage apart. *)
Lemma file_split pf T e s0 : toml_law T -> emb_built pf T e s0 ->
  exists pre : bytesf,
    emits (write_file T e) (fseq pre (fseq (framed (chunk_num (swrap_id (em_storage e))) (storage_body s0)) (norms_layout e))) /\
    (forall pos tail, read_file pf T (mkStream (pre pos ++ tail) pos)
      = (s <- read_storage_wrap ;; n <- ok_opt read_norms ;; ret (mkEmb (em_meta e) s (em_vocab e) n))
          (mkStream tail (pos + lenN (pre pos)))) /\
    short (read_file pf T) pre.
Proof.
  intros TL [HV HS HM HN]. destruct (vocab_wrap_codec pf _ HV) as (vb & CV & SV & IDV).
  destruct (storage_wrap_codec _ _ HS) as (CS & _ & _).
  exists (pre_f T vwrap_chunk swrap_chunk (em_meta e) (em_vocab e) (em_storage e) (em_norms e) (fconst vb)).
  split; [|split].
  - pose proof (file_emits T TL vwrap_chunk swrap_chunk _ _ (em_meta e) (em_vocab e) (em_storage e) (em_norms e)
      _ _ _ _ IDV CV CS HM HN) as X. rewrite emb_eta in X. eapply emits_ext; [|exact X].
    intros pos. unfold file_f. rewrite <- fseq_assoc. apply fseq_ext; [|reflexivity]. intros p. apply main_pre.
  - apply (pre_run T TL vwrap_chunk swrap_chunk _ _ (em_meta e) (em_vocab e) (em_storage e) (em_norms e)
      _ _ _ _ IDV CV CS HM HN).
  - apply (pre_short T TL vwrap_chunk swrap_chunk _ _ (em_meta e) (em_vocab e) (em_storage e) (em_norms e)
      _ _ _ _ IDV CV CS HM HN SV).
Qed.

(** Reading norms from what does not start with a norms chunk fails. *)
Lemma le_value_inj4 a b : length a = length b -> le_value a = le_value b -> a = b.
Proof.
  intros L E. rewrite <- (le_bytes_value a), <- (le_bytes_value b), L, E. reflexivity.
Qed.

Lemma chunk_type_other c bs pos :
  takeN 4 bs <> le_bytes 4 (chunk_num c) ->
  exists err s', ensure_chunk_type c (mkStream bs pos) = (Err err, s').
Proof.
  intros H. unfold ensure_chunk_type, bind at 1.
  destruct (N.lt_ge_cases (lenN bs) 4) as [L|L].
  - rewrite read_u32_short by auto. eauto.
  - unfold read_u32, bind at 1, read_exact. cbn [s_rest s_pos].
    destruct (N.leb_spec 4 (lenN bs)); [|lia]. unfold ret, bind, lift.
    destruct (chunk_of_num (le_value (takeN 4 bs))) as [d|err|p] eqn:E.
    + destruct (chunk_eqb d c) eqn:X; [|unfold fail; eauto]. exfalso. apply H.
      apply chunk_eqb_eq in X. subst d.
      assert (le_value (takeN 4 bs) = chunk_num c) as EV.
      { unfold chunk_of_num in E.
        repeat match type of E with
        | match ?x with _ => _ end = _ => destruct x; try discriminate
        end; inversion E; reflexivity. }
      apply le_value_inj4.
      * rewrite le_bytes_length. unfold takeN. rewrite firstn_length. unfold lenN in L. lia.
      * rewrite EV. symmetry. apply le_u32, chunk_num_lt.
    + eauto.
    + exfalso. unfold chunk_of_num in E.
      repeat match type of E with
      | match ?x with _ => _ end = _ => destruct x; try discriminate
      end.
Qed.

Lemma not_norms_err tail pos : not_norms tail ->
  exists err s', read_norms (mkStream tail pos) = (Err err, s').
Proof.
  intros H. destruct (chunk_type_other CNdNorms tail pos H) as (err & s' & E).
  exists err, s'. unfold read_norms, bind at 1. rewrite E. reflexivity.
Qed.

Lemma file_run pf T e s0 vb : emb_built pf T e s0 ->
  (forall pos tail, read_file pf T (mkStream (main_layout T e s0 vb pos ++ tail) pos)
      = (n <- ok_opt read_norms ;; ret (loaded e s0 n))
          (mkStream tail (pos + lenN (main_layout T e s0 vb pos)))) ->
  forall pos tail, (em_norms e = None -> not_norms tail) ->
  exists s', read_file pf T (mkStream (file_layout T e s0 vb pos ++ tail) pos)
  = (Ok (loaded e s0 (em_norms e)), s') /\
  (em_norms e <> None -> s' = mkStream tail (pos + lenN (file_layout T e s0 vb pos))).
Proof.
  intros [_ _ _ HN] MR pos tail NT. unfold file_layout, norms_layout, norms_f, fseq in *.
  destruct (em_norms e) as [ns|].
  - rewrite <- app_assoc, MR. destruct (norms_codec ns (HN ns eq_refl)) as (_ & NR & _).
    eexists. unfold bind, ok_opt. rewrite NR. split; [reflexivity|]. intros _.
    rewrite lenN_app, N.add_assoc. reflexivity.
  - unfold fconst. rewrite app_nil_r, MR. destruct (not_norms_err tail (pos + lenN (main_layout T e s0 vb pos)) (NT eq_refl)) as (err & s' & E).
    exists s'. unfold bind, ok_opt. rewrite E. split; [reflexivity|congruence].
Qed.

(** ** Skipping chunks by their length fields *)

Lemma skim_framed n id body pos tail :
  id < two32 -> lenN (framed id body pos) < two64 ->
  skim (Datatypes.S n) (framed id body pos ++ tail)
  = match skim n tail with Some (ids, rest) => Some (id :: ids, rest) | None => None end.
Proof.
  intros Hid L. rewrite framed_len in L. cbn [skim].
  assert (takeN 4 (framed id body pos ++ tail) = le_bytes 4 id) as E1.
  { unfold framed. rewrite <- !app_assoc. apply takeN_app_l. reflexivity. }
  assert (dropN 4 (framed id body pos ++ tail)
    = le_bytes 8 (lenN (body (pos + 12))) ++ body (pos + 12) ++ tail) as E2.
  { unfold framed. rewrite <- !app_assoc. apply dropN_app_l. reflexivity. }
  assert (le_value (takeN 8 (dropN 4 (framed id body pos ++ tail))) = lenN (body (pos + 12))) as E3.
  { rewrite E2, takeN_app_l by reflexivity. apply le_u64. lia. }
  rewrite E3, E1, le_u32 by auto. rewrite lenN_app, framed_len.
  destruct (N.ltb_spec (12 + lenN (body (pos + 12)) + lenN tail) (12 + lenN (body (pos + 12)))); [lia|].
  rewrite dropN_app_l by (rewrite framed_len; reflexivity). reflexivity.
Qed.

Lemma skim_nil tail : skim 0 tail = Some ([], tail).
Proof. reflexivity. Qed.

Lemma file_skim T e s0 vb pos tail :
  lenN (file_layout T e s0 vb pos) < two64 -> storage_holds (em_storage e) s0 ->
  exists body, file_layout T e s0 vb pos
     = header_bytes (emb_chunks T vwrap_chunk swrap_chunk e) ++ body /\
  skim (length (emb_chunks T vwrap_chunk swrap_chunk e)) (body ++ tail)
  = Some (map chunk_num (emb_chunks T vwrap_chunk swrap_chunk e), tail).
Proof.
  intros L HS.
  assert (exists p1 p2 p3 p4, file_layout T e s0 vb pos
    = header_bytes (emb_chunks T vwrap_chunk swrap_chunk e) ++ meta_f T (em_meta e) p1
      ++ framed (chunk_num (vocab_wrap_id (em_vocab e))) (fconst vb) p2
      ++ framed (chunk_num (swrap_id (em_storage e))) (storage_body s0) p3
      ++ norms_f (em_norms e) p4) as (p1 & p2 & p3 & p4 & E).
  { unfold file_layout, main_layout, main_f, vs_f, norms_layout, fseq. rewrite emb_eta.
    cbn [ck_id vwrap_chunk swrap_chunk].
    do 4 eexists. unfold fconst at 1. rewrite <- !app_assoc. reflexivity. }
  rewrite E in *. clear E. eexists. split; [reflexivity|]. rewrite !lenN_app in L.
  unfold emb_chunks. cbn [ck_id vwrap_chunk swrap_chunk].
  rewrite <- !app_assoc. unfold meta_f, norms_f in *.
  destruct (em_meta e) as [t|], (em_norms e) as [ns|]; cbn [app length] in *;
  try change (fconst (@nil byte) p4 ++ tail) with tail;
  try match goal with |- context [fconst (@nil byte) p1 ++ ?x] => change (fconst (@nil byte) p1 ++ x) with x end;
  repeat (rewrite skim_framed; [|first [apply chunk_num_lt|reflexivity]|lia]); cbn [app]; reflexivity.
Qed.
