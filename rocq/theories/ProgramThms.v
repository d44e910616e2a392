(** * All embeddings that a program can obtain (stated in P_Convert.v).

    Embeddings are built from parts, read in one of the formats, changed,
    converted, quantized, written to files, read and mapped again, in any
    order.  The only way to obtain inconsistent embeddings is a finalfusion
    file that the crate did not write ([shape_refuted], C52). *)
From Verif Require Import Base BaseFacts Utf8 Utf8Facts Stream StreamFacts F32 ChunkIO Subword Vocab Storage Embeddings TextIO FastText
  FileSpec VocabSpec EmbSpec TextSpec FastTextSpec TextExactSpec FastTextExactSpec LookupExactSpec
  VocabFacts LookupFacts StorageFacts FileFacts ReadFacts FileThms MatrixFacts EmbFacts BatchFacts EmbExact QuantFacts ExplicitFacts ExplicitExact IndexerFacts
  TextFacts LossyFacts TextThms TextAccept BinaryThms FloretThms TextExact FastTextFacts FastTextExact ConvertThms.
Local Open Scope N_scope.

(** Words and boundaries are Rust strings. *)
Definition strings_utf8 (v : vocab_wrap) : Prop :=
  bounds_utf8 v /\ Forall (fun w => utf8_valid w = true) (v_words wrap_ops v).

(** The view of a storage that has one ([StorageView]). *)
Definition view_of (s : storage_wrap) : res (array2 f32) :=
  match s with
  | SNdArray a => Ok a
  | SMmapArray m => mma_view m
  | _ => Err EConversion
  end.

Section Programs.
  Context (P : ftext_ops) (pf : profile) (T : toml_ops) (gemm : array2 f32 -> list (list f32) -> list (list f32)).

  (** What a program can do to obtain embeddings. *)
  Inductive obtained : emb T -> Prop :=
  (* Embeddings::new with parts that were built by their constructors *)
  | ob_new md v s cols rows ns e :
      vocab_made pf v -> strings_utf8 v -> holds_matrix gemm s cols rows ->
      emb_new wrap_ops (swrap_ops gemm) pf md v s ns = Ok e -> obtained e
  (* the readers of other formats, on any data *)
  | ob_text raw lossy data e :
      run_reader (text_reader P pf raw lossy) data = Ok e -> obtained (emb_wrap VSimple SNdArray e)
  | ob_text_dims raw lossy data e :
      run_reader (text_dims_reader P pf raw lossy) data = Ok e -> obtained (emb_wrap VSimple SNdArray e)
  | ob_word2vec raw lossy data e :
      run_reader (word2vec_reader pf raw lossy) data = Ok e -> obtained (emb_wrap VSimple SNdArray e)
  | ob_floret data e :
      run_reader (read_floret_text P pf) data = Ok e -> obtained (emb_wrap VFloret SNdArray e)
  | ob_fasttext table lossy data e :
      run_reader (read_fasttext pf T table lossy) data = Ok e -> fi_buckets (sv_ix (em_vocab e)) <> 0 ->
      obtained (emb_wrap VFastText SNdArray e)
  (* set_metadata; into_parts and new, with parts of different embeddings *)
  | ob_metadata e md : obtained e -> obtained (fst (emb_set_metadata e md))
  | ob_parts e1 e2 md ns e : obtained e1 -> obtained e2 ->
      emb_new wrap_ops (swrap_ops gemm) pf md (em_vocab e1) (em_storage e2) ns = Ok e -> obtained e
  (* try_to_explicit, which is to_explicit of the wrapped vocabulary *)
  | ob_explicit order order' e e' : any_order order -> any_order order' -> obtained e ->
      emb_try_to_explicit (swrap_ops gemm) pf swrap_clone_from_mapping order order' e = Ok e' ->
      obtained (emb_wrap VExplicit (fun s => s) e')
  (* quantize_using, with any training *)
  | ob_quantize tr ns bits it at_ normalize e e' : trainer_fits tr -> obtained e ->
      emb_quantize_using f32_ops view_of tr ns bits it at_ normalize e = Ok e' ->
      gemm_exact f32_ops gemm (em_storage e') ->
      obtained (emb_wrap (fun v => v) SQuantized e')
  (* write_embeddings and read_embeddings or mmap_embeddings, somewhere in a
     file, if the format has room for the embeddings *)
  | ob_read e s0 base bytes tail e' s' : obtained e -> emb_built pf T e s0 ->
      run_writer (write_file T e) base = Ok bytes -> (em_norms e = None -> not_norms tail) ->
      read_file pf T (mkStream (bytes ++ tail) base) = (Ok e', s') -> obtained e'
  | ob_mmap e s0 base bytes tail pf' e' s' : obtained e -> emb_built pf T e s0 ->
      run_writer (write_file T e) base = Ok bytes -> (em_norms e = None -> not_norms tail) ->
      mmap_embeddings T (read_vocab_wrap pf) (mmap_storage_wrap pf') (mkStream (bytes ++ tail) base) = (Ok e', s') -> obtained e'.

  (** One row for every index of the vocabulary, one norm for every word. *)
  Definition sound (e : emb T) : Prop := exists cols rows,
    holds_matrix gemm (em_storage e) cols rows /\ emb_made (swrap_ops gemm) pf e cols rows /\
    (forall ns, em_norms e = Some ns -> lenN ns = v_words_len wrap_ops (em_vocab e)) /\ strings_utf8 (em_vocab e).
End Programs.

Section Facts.
  Context (P : ftext_ops) (pf : profile) (T : toml_ops) (gemm : array2 f32 -> list (list f32) -> list (list f32)).
  Let semb := embeddings (toml_table T) simple_vocab (array2 f32) f32.

  Lemma new_inv {Md V S F} (VO : vocab_ops V) (SO : storage_ops F S) md v s norms (e : embeddings Md V S F) :
    emb_new_with_maybe_norms VO SO pf md v s norms = Ok e ->
    e = mkEmb md s v norms /\ v_vocab_len VO pf v = Ok (fst (st_shape SO s)).
  Proof.
    unfold emb_new_with_maybe_norms. intros H. apply rbind_Ok_inv in H as (n & E & H). apply rbind_Ok_inv in H as (u & A & H). inv H.
    split; [reflexivity|]. rewrite E. f_equal. unfold rassert in A. destruct (N.eqb_spec n (fst (st_shape SO s))); [auto|discriminate].
  Qed.
  Lemma new_intro {Md V S F} (VO : vocab_ops V) (SO : storage_ops F S) md v s norms :
    v_vocab_len VO pf v = Ok (fst (st_shape SO s)) ->
    emb_new_with_maybe_norms VO SO pf md v s norms = Ok (mkEmb (F := F) (Md := Md) md s v norms).
  Proof. unfold emb_new_with_maybe_norms. intros ->. cbn [rbind]. rewrite N.eqb_refl. reflexivity. Qed.

  Lemma sound_intro md v s norms cols rows : vocab_made pf v -> strings_utf8 v -> holds_matrix gemm s cols rows ->
    v_vocab_len wrap_ops pf v = Ok (lenN rows) -> (forall ns, norms = Some ns -> lenN ns = v_words_len wrap_ops v) ->
    sound pf T gemm (mkEmb md s v norms).
  Proof.
    intros VM SU HM VL LN. exists cols, rows. cbn [em_vocab em_storage em_norms em_meta]. pose proof (storage_matrix _ _ _ _ HM) as SM.
    split; [exact HM|]. split; [|auto]. split; [exact VM|]. split; [exact SM|]. cbn [em_vocab em_storage em_norms em_meta].
    apply new_intro. rewrite (sm_shape _ _ _ _ SM). exact VL.
  Qed.

  Lemma st_matrix_fun {F S} (SO : storage_ops F S) s cols rows cols' rows' :
    st_matrix SO s cols rows -> st_matrix SO s cols' rows' -> cols = cols' /\ rows = rows'.
  Proof.
    intros M M'. pose proof (sm_shape _ _ _ _ M) as E. rewrite (sm_shape _ _ _ _ M') in E. inv E. split; [auto|].
    apply nthN_ext. intros i. destruct (nthN rows i) as [r|] eqn:R.
    - destruct (nthN_lt rows' i) as (r' & R'); [apply nthN_Some_lt in R; congruence|].
      rewrite R'. apply (sm_row _ _ _ _ M) in R. apply (sm_row _ _ _ _ M') in R'. congruence.
    - symmetry. apply nthN_None. apply nthN_None in R. congruence.
  Qed.

  (** ** Readers of other formats *)
  Lemma simple_sound (e : semb) : simple_shape T e -> sound pf T gemm (emb_wrap VSimple SNdArray e).
  Proof.
    intros (ws & SN & U & WF & M & L & NL). unfold emb_wrap.
    pose proof SN as SN'. apply simple_new_Ok in SN' as [ND Ev].
    apply (sound_intro _ _ _ _ (a2_cols (em_storage e)) (a2_rows (em_storage e))).
    - econstructor. exact SN.
    - split; [intros mn mx bow eow H; discriminate|]. cbn [v_words wrap_ops]. rewrite Ev. exact U.
    - constructor. exact WF.
    - rewrite L, Ev. cbn. f_equal. symmetry. apply ci_len_NoDup. exact ND.
    - intros ns H. rewrite (NL ns H), Ev. cbn. apply ci_len_NoDup. exact ND.
  Qed.

  Lemma sub_vocab_len_of {I} (ops : indexer_ops I) ws mn mx ix bow eow v b :
    sub_new_with_boundaries ops pf ws mn mx ix bow eow = Ok v -> ix_bound ops pf ix = Ok b ->
    sub_vocab_len ops pf v = Ok (lenN ws + b) /\ sub_words_len v = lenN ws /\ sv_words v = ws.
  Proof.
    intros SN B. destruct (sub_vocab_len_exact _ _ _ _ _ _ _ _ _ SN) as (b2 & Bb & Vl). rewrite B in Bb. inv Bb.
    split; [exact Vl|]. apply sub_new_Ok in SN as (ND & -> & _). split; [|reflexivity]. symmetry. apply ci_len_NoDup. exact ND.
  Qed.

  Lemma floret_sound data (e : embeddings (toml_table T) (subword_vocab floret_indexer) (array2 f32) f32) :
    run_reader (read_floret_text P pf) data = Ok e -> sound pf T gemm (emb_wrap VFloret SNdArray e).
  Proof.
    intros H. apply floret_exact_outcome in H.
    inversion H as [| | | | |nb dims mn mx nh seed bow eow rest rows e' HD PO NR FR L RES]. subst e'.
    destruct HD as (r & r' & NS & TB & TE).
    assert (nb < two64) as LNB by (inversion NS as [|? ? ? ? ? (f & _ & _ & LN)]; subst; exact LN).
    destruct RES as (E1 & E2 & E3 & E4 & E5 & E6 & E7 & E8 & E9 & E10).
    assert (sub_new_with_boundaries floret_ops pf [] (mn mod two32) (mx mod two32) (sv_ix (em_vocab e)) bow eow = Ok (em_vocab e)) as SN.
    { destruct e as [em es [bw ew ix ics wds mn' mx'] en]. cbn in *. subst. unfold sub_new_with_boundaries. cbv zeta. cbn [ix_bound floret_ops]. unfold floret_bound. cbn [fl_buckets].
      change (lenN (@nil str)) with 0. change (0 =? hm_len (create_indices [])) with true. cbn [rassert rbind]. rewrite N.add_0_l, (proj2 (N.ltb_lt _ _) LNB). reflexivity. }
    assert (ix_made _ floret_ops (sv_ix (em_vocab e))) as IM.
    { apply (im_floret nb (nh mod two32) (seed mod two32)). rewrite E7. unfold floret_indexer_new. pose proof PO as (_ & _ & _ & HL & HU). destruct PO as [NB _]. rewrite (proj2 (N.ltb_lt _ _)), (proj2 (N.leb_le _ _) HU), (proj2 (N.eqb_neq _ _) NB) by lia. reflexivity. }
    assert (ix_bound floret_ops pf (sv_ix (em_vocab e)) = Ok nb) as B by (rewrite E7; reflexivity).
    destruct (sub_vocab_len_of _ _ _ _ _ _ _ _ _ SN B) as (VL & WL & WS).
    unfold emb_wrap. rewrite E8. apply (sound_intro _ _ _ _ dims rows).
    - econstructor; eauto.
    - split; [|cbn [v_words wrap_ops sub_ops]; rewrite WS; constructor]. intros a b c d Q. apply sub_new_Ok in SN as (_ & EV & _). rewrite EV in Q.
      cbn [vocab_range sv_min sv_max sv_bow sv_eow] in Q. inv Q. split; [eapply text_valid; exact TB|eapply text_valid; exact TE].
    - apply (hm_nd gemm (mkA2 dims rows)). destruct FR as (ls & _ & F2). unfold a2_wf. cbn [a2_rows a2_cols].
      clear - F2. induction F2 as [|l v ls rows (f & ps & _ & _ & _ & L) F2 IH]; constructor; auto.
    - cbn [v_vocab_len wrap_ops sub_ops]. rewrite VL, L. reflexivity.
    - rewrite E9. discriminate.
  Qed.

  Lemma fasttext_sound table lossy data (e : embeddings (toml_table T) (subword_vocab ft_indexer) (array2 f32) f32) :
    run_reader (read_fasttext pf T table lossy) data = Ok e -> fi_buckets (sv_ix (em_vocab e)) <> 0 ->
    sound pf T gemm (emb_wrap VFastText SNdArray e).
  Proof.
    intros H NB. apply ft_exact in H.
    inversion H as [| | | | | | | |c size rest ws r q r' m n rows tail o HD WD BK ND QF SF DO LR FR MO]. subst o.
    inversion MO as [| | | | |subs e' RO LA (SN & SUB & (rws & ns & AV & FN & EN) & EC & EM & _)]. subst e'.
    assert (Forall (fun w => utf8_valid w = true) ws) as UV.
    { clear - WD. induction WD as [|n data w r ns r' ws rest TO _ _ IH]; constructor; auto. eapply text_valid; eauto. }
    pose proof SN as SN'. apply sub_new_Ok in SN' as (_ & EV & _). rewrite EV in NB. cbn [sv_ix fi_buckets] in NB.
    assert (ft_indexer_new (fc_bucket c) = Ok (mkFtIx (fc_bucket c))) as IX.
    { unfold ft_indexer_new. rewrite (proj2 (N.leb_le _ _)) by (unfold i32_max; lia). cbn [rassert rbind]. rewrite N.mod_small; [reflexivity|]. unfold two32. lia. }
    destruct (sub_vocab_len_of ft_ops _ _ _ _ _ _ _ (fc_bucket c) SN eq_refl) as (VL & WL & WS).
    assert (lenN (a2_rows (em_storage e)) = lenN ws + fc_bucket c) as LM.
    { destruct FN as (LN & _). destruct AV as (LV & _). cbn [a2_rows] in LV, LA. congruence. }
    unfold emb_wrap. apply (sound_intro _ _ _ _ (a2_cols (em_storage e)) (a2_rows (em_storage e))).
    - apply (vm_fasttext pf ws (fc_min_n c) (fc_max_n c) (mkFtIx (fc_bucket c)) default_bow default_eow); [|exact SN].
      apply (im_fasttext (fc_bucket c)); [exact NB|exact IX].
    - split; [|cbn [v_words wrap_ops sub_ops]; rewrite WS; exact UV]. intros a b x y Q. rewrite EV in Q.
      cbn [vocab_range sv_min sv_max sv_bow sv_eow] in Q. inv Q. split; reflexivity.
    - constructor. unfold a2_wf. cbn [a2_cols] in EC. subst n. eapply first_normalized_wf; [|exact FN].
      eapply (averaged_wf f32_ops _ _ (mkA2 (a2_cols (em_storage e)) rows)); [|exact AV]. exact FR.
    - cbn [v_vocab_len wrap_ops sub_ops]. rewrite VL, LM. reflexivity.
    - intros ns' E. rewrite EN in E. injection E as <-. cbn [v_words_len wrap_ops sub_ops]. rewrite WL. destruct FN as (_ & LN & _). exact LN.
  Qed.

  (** ** Conversions *)
  Lemma sound_made (e : emb T) cols rows : holds_matrix gemm (em_storage e) cols rows -> sound pf T gemm e -> emb_made (swrap_ops gemm) pf e cols rows.
  Proof.
    intros HM (c & r & HM' & EM & _). apply storage_matrix in HM, HM'.
    destruct (st_matrix_fun _ _ _ _ _ _ HM HM') as [-> ->]. exact EM.
  Qed.

  Lemma select_selects {A B} (l : list A) (rows : list B) is rs : rmap (index l) is = Ok rs -> lenN rows = lenN l ->
    exists rs', selects rows is rs'.
  Proof.
    intros E L. apply rmap_Ok_inv in E. induction E as [|i r is rs E _ (rs' & IH)]; [exists []; constructor|].
    destruct (nthN_lt rows i) as [x X]; [|exists (x :: rs'); constructor; auto].
    unfold index in E. destruct (nthN l i) eqn:N1; [|discriminate]. apply nthN_Some_lt in N1. lia.
  Qed.

  Lemma clone_matrix s cols rows is s' : holds_matrix gemm s cols rows -> swrap_clone_from_mapping s is = Ok s' ->
    exists rows', holds_matrix gemm s' cols rows'.
  Proof.
    intros HM E.
    assert (exists rs, selects rows is rs) as [rs S].
    { assert (forall q x, qa_clone_from_mapping q is = Ok x -> exists rs, selects (quantized_rows f32_ops q) is rs) as QC.
      { intros q x EQ. unfold qa_clone_from_mapping in EQ. apply rbind_Ok_inv in EQ as (y & EQ & _). unfold a2_select in EQ.
        apply rbind_Ok_inv in EQ as (rs & EQ & _). eapply (select_selects (a2_rows (qa_codes q))); [exact EQ|].
        unfold quantized_rows, lenN. rewrite map_length, seq_length. reflexivity. }
      destruct HM as [a W|q U G|m a V|m q V NZ U G]; cbn [swrap_clone_from_mapping] in E; apply rbind_Ok_inv in E as (x & E & _).
      - unfold nd_clone_from_mapping in E. cbn [st_embeddings nd_ops] in E. apply rbind_Ok_inv in E as (rs & E & _).
        eapply select_selects; [exact E|reflexivity].
      - eapply QC. exact E.
      - unfold mma_clone_from_mapping in E. destruct (mma_ops_view m a V) as (_ & H2 & _). rewrite H2 in E.
        cbn [st_embeddings nd_ops] in E. apply rbind_Ok_inv in E as (rs & E & _). eapply select_selects; [exact E|reflexivity].
      - destruct (mmq_ops_view gemm m q V NZ) as (_ & _ & _ & H4 & _). rewrite H4 in E. eapply QC. exact E. }
    destruct (storage_clones _ _ _ _ HM is rs S) as (s2 & E2 & H2). rewrite E in E2. inv E2. eauto.
  Qed.

  Lemma made_words_len v : vocab_made pf v -> v_words_len wrap_ops v = lenN (v_words wrap_ops v).
  Proof.
    intros VM. destruct VM as [ws v SN|ws mn mx ix bow eow v _ SN|ws mn mx ix bow eow v _ SN|ws mn mx ix bow eow v _ SN|ws mn mx ix bow eow v _ SN];
      [apply simple_new_Ok in SN as (ND & ->)|apply sub_new_Ok in SN as (ND & -> & _) ..];
      symmetry; apply ci_len_NoDup; exact ND.
  Qed.

  Lemma impl_sound {I} (B : bucket_ops I) order order' v s norms (e' : embeddings (toml_table T) (subword_vocab explicit_indexer) storage_wrap f32) cols rows :
    holds_matrix gemm s cols rows -> Forall (fun w => utf8_valid w = true) (sv_words v) ->
    (forall ns, norms = Some ns -> lenN ns = lenN (sv_words v)) ->
    to_explicit_impl B (swrap_ops gemm) pf swrap_clone_from_mapping order order' v s norms = Ok e' ->
    sound pf T gemm (emb_wrap VExplicit (fun s => s) e').
  Proof.
    intros HM WU NL H. unfold to_explicit_impl in H. apply rbind_Ok_inv in H as ([ev o2n] & TE & H). apply rbind_Ok_inv in H as (n & _ & H).
    apply rbind_Ok_inv in H as (m & _ & H). apply rbind_Ok_inv in H as (s' & C & H). apply new_inv in H as [-> VL].
    destruct (clone_matrix _ _ _ _ _ HM C) as (rows' & HM').
    unfold sub_to_explicit in TE. apply rbind_Ok_inv in TE as (hm & _ & TE). apply rbind_Ok_inv in TE as ([ix mp] & NW & TE).
    apply rbind_Ok_inv in TE as (ev' & SN & TE). inv TE.
    assert (vocab_made pf (VExplicit ev)) as VM.
    { eapply vm_explicit; [|exact SN]. constructor. right. eauto. }
    pose proof SN as SN'. apply sub_new_Ok in SN' as (ND & EV & _).
    unfold emb_wrap. cbn [em_meta em_vocab em_storage em_norms]. apply (sound_intro _ _ _ _ cols rows'); auto.
    - split; [intros a b c d Q; rewrite EV in Q; inv Q; split; reflexivity|]. rewrite EV. exact WU.
    - cbn [v_vocab_len wrap_ops]. rewrite (sm_shape _ _ _ _ (storage_matrix _ _ _ _ HM')) in VL. exact VL.
    - intros ns E. rewrite (made_words_len _ VM), EV. apply NL. exact E.
  Qed.

  Lemma explicit_sound order order' (e : emb T) e' : sound pf T gemm e ->
    emb_try_to_explicit (swrap_ops gemm) pf swrap_clone_from_mapping order order' e = Ok e' ->
    sound pf T gemm (emb_wrap VExplicit (fun s => s) e').
  Proof.
    intros (cols & rows & HM & (VM & _) & NL & BU & WU) H.
    pose proof (made_words_len _ VM) as WL. unfold emb_try_to_explicit in H.
    destruct (em_vocab e) as [v|v|v|v|v]; try discriminate; eapply impl_sound; try exact H; try exact WU; try exact HM;
      intros ns E; rewrite (NL ns E); exact WL.
  Qed.

  Lemma quantize_sound tr n_sub bits it at_ normalize (e : emb T) e' : trainer_fits tr -> sound pf T gemm e ->
    emb_quantize_using f32_ops view_of tr n_sub bits it at_ normalize e = Ok e' ->
    gemm_exact f32_ops gemm (em_storage e') -> sound pf T gemm (emb_wrap (fun v => v) SQuantized e').
  Proof.
    intros TF (cols & rows & HM & EM & NL & SU) H G. pose proof (emb_made_len _ _ _ _ _ EM) as VL. destruct EM as (VM & _).
    unfold emb_quantize_using in H. apply rbind_Ok_inv in H as (a & V & H). apply rbind_Ok_inv in H as (q & Q & H). inv H.
    cbn [em_storage] in G. destruct (quantize_shape _ _ _ _ _ _ _ _ _ TF Q) as (U & L & R & _).
    assert (rows = a2_rows a) as ->.
    { destruct HM as [a' W|q' U' G'|m a' W|m q' W NZ U' G']; cbn [view_of] in V; try discriminate; congruence. }
    unfold emb_wrap. cbn [em_meta em_vocab em_storage em_norms].
    apply (sound_intro _ _ _ _ (pq_rl (qa_pq q)) (quantized_rows f32_ops q)); auto.
    - constructor; auto.
    - rewrite VL. f_equal. unfold quantized_rows. unfold lenN at 2. rewrite map_length, seq_length. symmetry. exact L.
  Qed.

  (** ** Files *)
  Lemma holds_storage s s0 cols rows : holds_matrix gemm s cols rows -> storage_holds s s0 -> holds_matrix gemm s0 cols rows.
  Proof.
    intros HM SH. destruct HM as [a' W|q' U' G'|m a' W|m q' W NZ U' G']; inversion SH; subst; try (constructor; assumption).
    - assert (a = a') as -> by congruence. constructor. match goal with K : nd_ok _ |- _ => apply K end.
    - assert (q = q') as -> by congruence. constructor; auto.
  Qed.
  Lemma mapped_storage s cols rows : holds_matrix gemm s cols rows -> storage_holds s s -> holds_matrix gemm (storage_mapped s) cols rows.
  Proof.
    intros HM SH. destruct HM as [a' W|q' U' G'|m a' W|m q' W NZ U' G']; inversion SH as [a OK|q OK| |]; subst; cbn [storage_mapped].
    - constructor. apply mma_view_mapped. exact W.
    - constructor; auto; [apply mmq_to_quantized_mapped; exact OK|]. cbn [qa_mapped mq_pq].
      destruct OK as ((PN & _) & _). unfold pq_new in PN. apply rbind_Ok_inv in PN as (u & PN & _). unfold rassert in PN.
      intros Z. rewrite Z in PN. discriminate.
  Qed.

  Lemma loaded_sound (e : emb T) s0 : sound pf T gemm e -> (forall cols rows, holds_matrix gemm (em_storage e) cols rows -> holds_matrix gemm s0 cols rows) ->
    sound pf T gemm (loaded e s0 (em_norms e)).
  Proof.
    intros (cols & rows & HM & EM & NL & SU) ST. pose proof (emb_made_len _ _ _ _ _ EM) as VL. destruct EM as (VM & _).
    apply (sound_intro _ _ _ _ cols rows); auto.
  Qed.

  Lemma new_sound md v s cols rows ns (e : emb T) : vocab_made pf v -> strings_utf8 v -> holds_matrix gemm s cols rows ->
    emb_new wrap_ops (swrap_ops gemm) pf md v s ns = Ok e -> sound pf T gemm e.
  Proof.
    intros VM SU HM H. unfold emb_new in H. apply rbind_Ok_inv in H as (u & A & H). apply new_inv in H as [-> VL].
    apply (sound_intro _ _ _ _ cols rows); auto.
    - rewrite VL, (sm_shape _ _ _ _ (storage_matrix _ _ _ _ HM)). reflexivity.
    - intros ns' E. injection E as <-. unfold rassert in A. destruct (N.eqb_spec (v_words_len wrap_ops v) (lenN ns)); [auto|discriminate].
  Qed.

  (** ** Everything *)
  Theorem obtained_sound e : toml_law T -> obtained P pf T gemm e -> sound pf T gemm e.
  Proof.
    intros TL OB. induction OB as [md v s cols rows ns e VM SU HM H|raw lossy data e H|raw lossy data e H|raw lossy data e H|data e H|table lossy data e H NB
      |e md _ IH|e1 e2 md ns e _ IH1 _ IH2 H|order order' e e' O O' _ IH H|tr ns bits it at_ normalize e e' TF _ IH H G
      |e s0 base bytes tail e' s' _ IH EB W NT R|e s0 base bytes tail pf' e' s' _ IH EB W NT R].
    - eapply new_sound; eauto.
    - apply simple_sound. eapply text_shape_of; eauto.
    - apply simple_sound. eapply text_shape_of; eauto.
    - apply simple_sound. destruct raw; cbn [word2vec_reader] in H; [apply word2vec_shape_of in H; apply H|].
      unfold run_reader, read_word2vec, bind, lift in H. destruct (read_word2vec_raw pf lossy (mkStream data 0)) as [[e0|er|pa] s1] eqn:E; try discriminate.
      cbn [fst] in H. destruct (word2vec_shape_of pf T lossy data e0) as (S & _); [unfold run_reader; rewrite E; reflexivity|].
      apply (normalized_shape pf T e0 e S H).
    - eapply floret_sound; eauto.
    - eapply fasttext_sound; eauto.
    - destruct e as [m s v ns]. destruct IH as (cols & rows & HM & EM & NL & SU). pose proof (emb_made_len _ _ _ _ _ EM) as VL. destruct EM as (VM & _).
      apply (sound_intro _ _ _ _ cols rows); auto.
    - destruct IH1 as (c1 & r1 & _ & (VM & _) & _ & SU). destruct IH2 as (c2 & r2 & HM & _). eapply new_sound; eauto.
    - eapply explicit_sound; eauto.
    - eapply quantize_sound; eauto.
    - destruct (file_round_trip pf T e s0 base TL EB) as (bytes' & W' & RT). rewrite W in W'. inv W'.
      destruct (RT tail NT) as (s2 & E). rewrite R in E. inv E. apply loaded_sound; [exact IH|].
      intros. eapply holds_storage; [eassumption|]. apply EB.
    - destruct (file_round_trip pf T e s0 base TL EB) as (bytes' & W' & RT). rewrite W in W'. inv W'.
      destruct (RT tail NT) as (s2 & E). pose proof (read_mmap_file _ _ _ _ _ E pf') as MM. rewrite R in MM. inv MM.
      cbn [loaded em_storage em_norms]. change (loaded (loaded e s0 (em_norms e)) (storage_mapped s0) (em_norms e)) with (loaded e (storage_mapped s0) (em_norms e)).
      apply loaded_sound; [exact IH|]. intros. assert (storage_holds (em_storage e) s0) as SH by apply EB.
      apply mapped_storage; [eapply holds_storage; eauto|]. destruct SH; constructor; auto.
  Qed.

  (** Every word has its row and norm; a lookup of another string returns or
      the n-gram lengths of the vocabulary are no range; the iterators return
      all words. *)
  Theorem obtained_works e : toml_law T -> obtained P pf T gemm e ->
    exists cols rows, st_matrix (swrap_ops gemm) (em_storage e) cols rows /\ v_vocab_len wrap_ops pf (em_vocab e) = Ok (lenN rows) /\
    (forall i w, nthN (v_words wrap_ops (em_vocab e)) i = Some w -> exists r n,
       nthN rows i = Some r /\ norm_of f32_ops e i n /\
       emb_embedding f32_ops wrap_ops (swrap_ops gemm) pf e w = Ok (Some r) /\
       emb_with_norm f32_ops wrap_ops (swrap_ops gemm) pf e w = Ok (Some (r, n))) /\
    (forall w, utf8_valid w = true ->
       (unusable_lookup (em_vocab e) w -> emb_embedding f32_ops wrap_ops (swrap_ops gemm) pf e w = Panic PAssert) /\
       (~ unusable_lookup (em_vocab e) w -> exists r, emb_embedding f32_ops wrap_ops (swrap_ops gemm) pf e w = Ok r)) /\
    (exists l, emb_iter wrap_ops (swrap_ops gemm) e = Ok l /\ map fst l = v_words wrap_ops (em_vocab e)) /\
    (exists l, emb_iter_with_norms f32_ops wrap_ops (swrap_ops gemm) e = Ok l /\ map fst l = v_words wrap_ops (em_vocab e)).
  Proof.
    intros TL OB. destruct (obtained_sound e TL OB) as (cols & rows & HM & EM & NL & BU & WU). exists cols, rows.
    split; [apply EM|]. split; [eapply emb_made_len; eauto|].
    split; [intros i w H; eapply with_norm_known; eauto|]. split; [intros w V; eapply lookup_total_iff; eauto|].
    split.
    - destruct (iter_exact f32_ops (swrap_ops gemm) pf e cols rows EM) as (l & E & M & _). eauto.
    - destruct (iter_with_norms_exact f32_ops (swrap_ops gemm) pf e cols rows EM NL) as (l & E & M & _). eauto.
  Qed.
End Facts.
