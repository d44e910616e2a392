(** * Embeddings of other formats can be stored in the finalfusion format. *)
From Verif Require Import Base BaseFacts Utf8 Stream StreamFacts F32 ChunkIO Subword Vocab Storage Embeddings TextIO FastText
  FileSpec VocabSpec EmbSpec TextSpec FastTextSpec TextExactSpec FastTextExactSpec
  Utf8Facts VocabFacts LookupFacts TextFacts LossyFacts TextThms TextAccept BinaryThms FloretThms TextExact FastTextFacts FastTextExact.
From Verif Require FileThms.
Local Open Scope N_scope.

(** Strings and a matrix for which the format has room: lengths are stored
    in 32 bits, and everything fits in memory. *)
Definition room_for (strings : list str) (a : array2 f32) : Prop :=
  Forall (fun w => lenN w < two32) strings /\ lenN strings * 24 <= isize_max /\
  a2_cols a < two32 /\ dims_ok [a2_nrows a; a2_cols a] 4.

(** Written in the finalfusion format and read again, with their own type or
    with the type for all vocabularies and storages, the embeddings are the
    same. *)
Definition survives (pf : profile) {T V} (rv : reader V) (cv : chunk_ops V) (fv : V -> vocab_wrap)
           (e : embeddings (toml_table T) V (array2 f32) f32) : Prop :=
  forall base, exists bytes, run_writer (write_embeddings T cv nd_chunk e) base = Ok bytes /\
  (exists s, read_embeddings T rv read_ndarray (mkStream bytes base) = (Ok e, s)) /\
  (exists s, read_file pf T (mkStream bytes base) = (Ok (emb_wrap fv SNdArray e), s)).
Definition word2vec_reader {Md} (pf : profile) (raw lossy : bool) : reader (embeddings Md simple_vocab (array2 f32) f32) :=
  if raw then read_word2vec_raw pf lossy else read_word2vec pf lossy.

Section Convert.
  Context (P : ftext_ops) (pf : profile) (T : toml_ops).
  Notation semb := (embeddings (toml_table T) simple_vocab (array2 f32) f32).

  Lemma built_survives V VO rv cv fv (e : embeddings (toml_table T) V (array2 f32) f32) : toml_law T -> vkind pf V VO rv cv fv ->
    (forall v v', fv v = fv v' -> v = v') ->
    emb_built pf T (emb_wrap fv SNdArray e) (SNdArray (em_storage e)) -> survives pf rv cv fv e.
  Proof.
    intros TL K inj B base. destruct (FileThms.file_round_trip pf T _ _ base TL B) as (bytes & W & RD).
    destruct (FileThms.wrapped_file pf (fun _ l => l) T _ _ _ _ _ _ _ _ _ _ _ K (sk_nd pf (fun _ l => l))) as [TY EQ].
    exists bytes. split; [|split].
    - destruct (EQ e) as [EW _]. unfold run_writer in *. rewrite EW in W. exact W.
    - destruct (RD []) as (s' & R); [intros _; vm_compute; discriminate|]. rewrite app_nil_r in R.
      destruct (TY (mkStream bytes base)) as [_ TY2]. destruct (TY2 _ _ R) as [(e' & E & R')|[N0 _]].
      + exists s'. rewrite R'. do 2 f_equal. destruct e as [m s v n], e' as [m' t v' n']. unfold emb_wrap, loaded in E. cbn in E. injection E as E1 E2 E3 E4. subst.
        first [rewrite (inj _ _ E3)|rewrite <- (inj _ _ E3)|idtac]; reflexivity.
      + exfalso. apply (N0 e). destruct e. reflexivity.
    - destruct (RD []) as (s' & R); [intros _; vm_compute; discriminate|]. rewrite app_nil_r in R. exists s'. rewrite R. destruct e. reflexivity.
  Qed.

  (** ** Simple vocabularies *)
  Definition simple_shape (e : semb) : Prop :=
    exists ws, simple_new ws = Ok (em_vocab e) /\ Forall (fun w => utf8_valid w = true) ws /\ a2_wf (em_storage e) /\ em_meta e = None /\
    lenN (a2_rows (em_storage e)) = lenN ws /\ (forall ns, em_norms e = Some ns -> lenN ns = lenN ws).
  Lemma simple_words ws v : simple_new ws = Ok v -> v_words simple_ops v = ws.
  Proof. intros H. apply simple_new_Ok in H as [_ ->]. reflexivity. Qed.
  Lemma simple_survives (e : semb) : toml_law T -> simple_shape e -> room_for (v_words simple_ops (em_vocab e)) (em_storage e) ->
    survives pf read_simple simple_chunk VSimple e.
  Proof.
    intros TL (ws & SN & U & WF & M & L & NL) (R1 & R2 & R3 & R4). rewrite (simple_words _ _ SN) in *.
    eapply (built_survives _ simple_ops); [exact TL|constructor|congruence|]. split; cbn [emb_wrap em_vocab em_storage em_meta em_norms].
    - apply (vb_simple pf ws); [|exact SN]. split; [|exact R2]. rewrite Forall_forall in *. intros w H. split; auto.
    - constructor. split; [exact WF|]. split; [|split; [exact R3|exact R4]]. unfold a2_nrows. rewrite L. unfold isize_max in R2. unfold two64. lia.
    - rewrite M. discriminate.
    - intros ns H. rewrite (NL ns H). unfold isize_max in *. lia.
  Qed.
  Lemma normalized_shape (e e' : semb) : simple_shape e -> normalize_all f32_ops pf e = Ok e' -> simple_shape e' /\ em_vocab e' = em_vocab e /\
    a2_cols (em_storage e') = a2_cols (em_storage e) /\ lenN (a2_rows (em_storage e')) = lenN (a2_rows (em_storage e)).
  Proof.
    intros (ws & SN & U & WF & M & L & NL) H. unfold normalize_all, l2_normalize_array in H. cbv beta iota zeta in H. unfold emb_new, emb_new_with_maybe_norms in H.
    repeat (apply rbind_Ok_inv in H as (? & _ & H)). injection H as <-. unfold simple_shape. cbn [em_vocab em_storage em_norms em_meta a2_cols a2_rows].
    unfold vec. rewrite !lenN_map. split; [|auto]. exists ws. split; [exact SN|]. split; [exact U|]. split; [|split; [reflexivity|split; [exact L|]]].
    - unfold a2_wf in *. cbn [a2_cols a2_rows]. rewrite map_map. apply Forall_map. eapply Forall_impl; [|exact WF]. intros r <-. unfold l2_normalize. cbv zeta.
      destruct (fis_zero _ _); cbn [fst]; [reflexivity|apply lenN_map].
    - intros ns H. injection H as <-. unfold vec. rewrite !lenN_map. exact L.
  Qed.

  Lemma text_shape_of raw lossy data (e : semb) :
    run_reader (text_reader P pf raw lossy) data = Ok e \/ run_reader (text_dims_reader P pf raw lossy) data = Ok e -> simple_shape e.
  Proof.
    intros H. pose proof (text_readers_words_valid P pf raw lossy data e H) as U.
    assert (forall items d, text_contents e items d -> simple_shape e) as K.
    { intros items d (SN & EW & _ & L & F & C & _ & NN & M). exists (map fst items). rewrite EW in U. rewrite lenN_map. unfold a2_wf. rewrite C, NN. repeat split; auto. discriminate. }
    assert (forall e0 : semb, (forall w, w = em_vocab e -> True) -> em_vocab e = em_vocab e0 -> forall items d, text_contents e0 items d -> simple_shape e0) as K'.
    { intros e0 _ EV items d (SN & EW & _ & L & F & C & _ & NN & M). exists (map fst items). rewrite EV, EW in U. rewrite lenN_map. unfold a2_wf. rewrite C, NN. repeat split; auto. discriminate. }
    assert (forall (m : reader semb) s, fst (bind m (fun e => lift (normalize_all f32_ops pf e)) s) = Ok e ->
      exists e0, fst (m s) = Ok e0 /\ normalize_all f32_ops pf e0 = Ok e) as NB.
    { intros m s E. unfold bind, lift in E. destruct (m s) as [[e0|er|pa] s1]; cbn [fst] in *; try discriminate. exists e0. auto. }
    unfold run_reader, text_reader, text_dims_reader in H. destruct raw; destruct H as [H|H].
    - apply text_accepted in H as (items & _ & TC & _). eauto.
    - apply text_dims_accepted in H as (n & d & rest & items & _ & _ & _ & _ & _ & TC & _). eauto.
    - apply NB in H as (e0 & H & NZ). apply text_accepted in H as (items & _ & TC & _). eapply normalized_shape; [|exact NZ].
      eapply K'; eauto. eapply normalize_all_words; eauto.
    - apply NB in H as (e0 & H & NZ). apply text_dims_accepted in H as (n & d & rest & items & _ & _ & _ & _ & _ & TC & _). eapply normalized_shape; [|exact NZ].
      eapply K'; eauto. eapply normalize_all_words; eauto.
  Qed.
  Lemma text_convert raw lossy data (e : embeddings (toml_table T) simple_vocab (array2 f32) f32) : toml_law T ->
    run_reader (text_reader P pf raw lossy) data = Ok e \/ run_reader (text_dims_reader P pf raw lossy) data = Ok e ->
    room_for (v_words simple_ops (em_vocab e)) (em_storage e) ->
    survives pf read_simple simple_chunk VSimple e.
  Proof. intros TL H. apply simple_survives; [exact TL|]. eapply text_shape_of; eauto. Qed.

  Lemma word2vec_shape_of lossy data (e : semb) : run_reader (read_word2vec_raw pf lossy) data = Ok e ->
    simple_shape e /\ lenN (v_words simple_ops (em_vocab e)) * 24 <= isize_max /\ dims_ok [a2_nrows (em_storage e); a2_cols (em_storage e)] 4.
  Proof.
    intros H. assert (Forall (fun w => utf8_valid w = true) (v_words simple_ops (em_vocab e))) as U.
    { unfold run_reader in H. destruct (read_word2vec_raw pf lossy (mkStream data 0)) as [x s] eqn:E. cbn [fst] in H. subst x. eapply word2vec_words_valid; exact E. }
    apply binary_exact_outcome in H. inversion H as [| | | |n d rest l tail e' SH F EN ND (SN & ES & NN & M) EQ]. subst e'.
    rewrite (simple_words _ _ SN) in *. rewrite ES. unfold a2_nrows. cbn [a2_rows a2_cols]. unfold binary_fits in F.
    assert (lenN l = n /\ Forall (fun it => lenN (snd it) = d) l) as [LN FL].
    { clear - EN. induction EN as [|n data s w v r l rest TO TR L E [IH1 IH2]]; [split; [reflexivity|constructor]|]. rewrite lenN_cons, IH1. split; [lia|]. constructor; auto. }
    rewrite !lenN_map, LN. split; [|destruct F; auto].
    exists (map fst l). rewrite ES, NN. unfold a2_wf. cbn [a2_rows a2_cols]. rewrite !lenN_map. repeat split; auto; [|discriminate]. apply Forall_map. exact FL.
  Qed.
  Lemma word2vec_convert raw lossy data (e : embeddings (toml_table T) simple_vocab (array2 f32) f32) : toml_law T -> run_reader (word2vec_reader pf raw lossy) data = Ok e ->
    Forall (fun w => lenN w < two32) (v_words simple_ops (em_vocab e)) -> a2_cols (em_storage e) < two32 ->
    survives pf read_simple simple_chunk VSimple e.
  Proof.
    intros TL H L1 L2. destruct raw.
    - apply word2vec_shape_of in H as (S & W & D). apply simple_survives; auto. split; auto.
    - unfold run_reader, word2vec_reader, read_word2vec in H. unfold bind, lift in H. destruct (read_word2vec_raw pf lossy (mkStream data 0)) as [[e0|er|pa] s1] eqn:E; try discriminate.
      cbn [fst] in H. destruct (word2vec_shape_of lossy data e0) as (S & W & D); [unfold run_reader; rewrite E; reflexivity|].
      destruct (normalized_shape e0 e S H) as (S' & EV & EC & EL). apply simple_survives; auto. unfold room_for, a2_nrows in *. rewrite EC, EL, EV in *. auto.
  Qed.

  (** ** floret *)
  Lemma text_valid d lossy data s rest : text_of d lossy data s rest -> utf8_valid s = true.
  Proof. intros (f & _ & D). destruct lossy; cbn in D; [subst s; apply from_utf8_lossy_valid|]. destruct D as [-> D]. exact D. Qed.
  Lemma floret_convert data (e : embeddings (toml_table T) (subword_vocab floret_indexer) (array2 f32) f32) : toml_law T ->
    run_reader (read_floret_text P pf) data = Ok e ->
    room_for [sv_bow (em_vocab e); sv_eow (em_vocab e)] (em_storage e) ->
    survives pf (read_floret pf) floret_chunk VFloret e.
  Proof.
    intros TL H (R1 & _ & R3 & R4). apply floret_exact_outcome in H.
    inversion H as [| | | | |nb dims mn mx nh seed bow eow rest rows e' HD PO NR FR L RES]. subst e'.
    destruct HD as (r & r' & NS & TB & TE).
    assert (nb < two64) as LNB by (inversion NS as [|? ? ? ? ? (f & _ & _ & LN)]; subst; exact LN). destruct RES as (E1 & E2 & E3 & E4 & E5 & E6 & E7 & E8 & E9 & E10).
    eapply (built_survives _ (sub_ops floret_ops)); [exact TL|constructor|congruence|]. split; cbn [emb_wrap em_vocab em_storage em_meta em_norms].
    - apply (vb_floret pf (mn mod two32) (mx mod two32) nb (nh mod two32) (seed mod two32) bow eow (sv_ix (em_vocab e))).
      + apply N.mod_lt. discriminate.
      + apply N.mod_lt. discriminate.
      + exact LNB.
      + apply N.mod_lt. discriminate.
      + split; [apply (text_valid _ _ _ _ _ TB)|]. rewrite <- E5. inversion R1; auto.
      + split; [apply (text_valid _ _ _ _ _ TE)|]. rewrite <- E6. inversion R1 as [|? ? ? R1']. inversion R1'; auto.
      + rewrite E7. unfold floret_indexer_new. pose proof PO as (_ & _ & _ & HL & HU). destruct PO as [NB _]. rewrite (proj2 (N.ltb_lt _ _)), (proj2 (N.leb_le _ _) HU), (proj2 (N.eqb_neq _ _) NB) by lia. reflexivity.
      + destruct e as [em es [bw ew ix ics wds mn' mx'] en]. cbn in *. subst. unfold sub_new_with_boundaries. cbv zeta. cbn [ix_bound floret_ops]. unfold floret_bound. cbn [fl_buckets].
        change (lenN (@nil str)) with 0. change (0 =? hm_len (create_indices [])) with true. cbn [rassert rbind]. rewrite N.add_0_l, (proj2 (N.ltb_lt _ _) LNB). reflexivity.
    - constructor. rewrite E8 in *. split; [|split; [|split; [exact R3|exact R4]]].
      + destruct FR as (ls & _ & F2). unfold a2_wf. cbn [a2_rows a2_cols]. clear - F2. induction F2 as [|l v ls rows (f & ps & _ & _ & _ & L) F2 IH]; constructor; auto.
      + unfold a2_nrows. cbn [a2_rows]. rewrite L. exact LNB.
    - rewrite E10. discriminate.
    - rewrite E9. discriminate.
  Qed.

  (** ** fastText *)
  Lemma fields_small fs data ns rest : fields_of fs data ns rest -> Forall2 (fun (f : num_field) n => n < 256 ^ N.of_nat (fst f)) fs ns.
  Proof. induction 1; constructor; auto. Qed.
  Lemma fasttext_convert config_table lossy data (e : embeddings (toml_table T) (subword_vocab ft_indexer) (array2 f32) f32) : toml_law T ->
    run_reader (read_fasttext pf T config_table lossy) data = Ok e ->
    Forall (fun w => lenN w < two32) (sv_words (em_vocab e)) -> a2_cols (em_storage e) < two32 ->
    (forall t, em_meta e = Some t -> lenN (toml_print T t) <= isize_max) ->
    survives pf (read_bucketed ft_bucket_ops pf CFastTextSubwordVocab) ft_chunk VFastText e.
  Proof.
    intros TL H R1 R2 R3. apply ft_exact in H.
    inversion H as [| | | | | | | |c size rest ws r q r' m n rows tail o HD WD BK ND QF SF DO LR FR MO]. subst o.
    inversion MO as [| | | | |subs e' RO LA (SN & SUB & (rws & ns & AV & FN & EN) & EC & EM & _)]. subst e'.
    assert (sv_words (em_vocab e) = ws) as WS by (apply sub_new_Ok in SN as (_ & -> & _); reflexivity).
    assert (lenN ws = size /\ Forall (fun w => utf8_valid w = true) ws) as [LS UV].
    { clear - WD. induction WD as [|n data w r ns r' ws rest TO _ _ [IH1 IH2]]; [split; [reflexivity|constructor]|]. rewrite lenN_cons, IH1. split; [lia|]. constructor; auto. eapply text_valid; eauto. }
    assert (size < two32 /\ fc_min_n c < two32 /\ fc_max_n c < two32) as (S1 & S2 & S3).
    { destruct HD as (magic & version & nw & nl & tk & pr & HD). apply fields_small in HD. unfold ft_head_fields, config_numbers in HD. cbn [app] in HD.
      repeat match goal with K : Forall2 _ (_ :: _) (_ :: _) |- _ => inversion K; clear K; subst end. cbn [fst] in *. change (256 ^ N.of_nat 4) with two32 in *. auto. }
    assert (lenN (a2_rows (em_storage e)) = m) as LM.
    { destruct FN as (LN & _). destruct AV as (LV & _). cbn [a2_rows] in LV. congruence. }
    cbn [a2_cols] in EC.
    eapply (built_survives _ (sub_ops ft_ops)); [exact TL|constructor|congruence|]. split; cbn [emb_wrap em_vocab em_storage em_meta em_norms].
    - apply (vb_fasttext pf ws (fc_min_n c) (fc_max_n c) (fc_bucket c) (mkFtIx (fc_bucket c))).
      + split; [|unfold two32, isize_max in *; lia]. rewrite WS in R1. rewrite Forall_forall in *. intros w I. split; auto.
      + exact S2.
      + exact S3.
      + unfold ft_indexer_new. rewrite (proj2 (N.leb_le _ _)) by (unfold i32_max; lia). cbn [rassert rbind]. rewrite N.mod_small; [reflexivity|]. unfold two32. lia.
      + exact SN.
    - constructor. subst n. split; [|split; [|split; [exact R2|]]].
      + unfold a2_wf. eapply first_normalized_wf; [|exact FN].
        eapply (averaged_wf f32_ops _ _ (mkA2 (a2_cols (em_storage e)) rows)); [|exact AV]. exact FR.
      + unfold a2_nrows. rewrite LM. apply fields_small in SF. inversion SF as [|? ? ? ? LT]; subst. exact LT.
      + unfold a2_nrows. rewrite LM. exact DO.
    - exact R3.
    - intros ns' E. rewrite EN in E. injection E as <-. destruct FN as (_ & LN & _). unfold two32, isize_max in *. lia.
  Qed.
End Convert.
