(** * Reading files in other formats that are followed by other data (C130). *)
From Verif Require Import Base BaseFacts Utf8 Utf8Facts Stream StreamFacts F32 ChunkIO ChunkFacts Subword Vocab VocabFacts Storage StorageFacts
  Embeddings TextIO FastText FileSpec VocabSpec EmbSpec TextSpec TextFacts TextThms TextAccept FastTextSpec FastTextFacts FastTextThms BinaryThms FloretThms SurviveThms TruncOther.
Local Open Scope N_scope.

(** ** Lines after written lines *)
Section Lines.
  Context (P : ftext_ops) (law : ftext_law P).
  Lemma items_appended lossy l z items : Forall text_word (map fst l) -> nan_free l ->
    (text_items P lossy (text_file P l ++ z) items <-> exists its, items = l ++ its /\ text_items P lossy z its).
  Proof.
    revert items. induction l as [|[w v] l IH]; intros items W NN.
    { cbn [text_file flat_map app]. split; [intros H; exists items; auto|intros (its & -> & H); exact H]. }
    cbn [map fst] in W. apply Forall_cons_iff in W as [W1 W], NN as [NN1 NN]. cbn [text_file flat_map fst snd]. fold (text_file P l).
    rewrite text_line_of_eq, <- !app_assoc. cbn [app]. pose proof (line_of_newline P law (w, v) W1) as NL. pose proof (line_of_item P law lossy (w, v) W1 NN1) as LI.
    split.
    - intros (ls & LS & F2). destruct (lines_exist (text_file P l ++ z)) as (ls' & LS').
      assert (ls = line_of P (w, v) :: ls') as -> by (eapply lines_unique; [exact LS|constructor; assumption]).
      inversion F2 as [|? it' ? its' H1 H2]; subst.
      assert (it' = (w, v)) as -> by (apply text_line_item in H1, LI; congruence).
      destruct (proj1 (IH its' W NN)) as (its & -> & T); [exists ls'; auto|]. exists its. split; [reflexivity|exact T].
    - intros (its & -> & T). destruct (proj2 (IH (l ++ its) W NN)) as (ls & LS & F2); [eauto|].
      exists (line_of P (w, v) :: ls). split; [constructor; assumption|constructor; assumption].
  Qed.
  Lemma items_nonempty lossy z its : z <> [] -> text_items P lossy z its -> its <> [].
  Proof. intros NE (ls & LS & F2) ->. inversion F2; subst. inversion LS; subst. congruence. Qed.
  Lemma text_file_app a b : text_file P (a ++ b) = text_file P a ++ text_file P b.
  Proof. unfold text_file. apply flat_map_app. Qed.
End Lines.

Section Made.
  Context (P : ftext_ops) (law : ftext_law P) {Md S : Type} (SO : storage_ops f32 S) (pf : profile).
  Variables (e : embeddings Md vocab_wrap S f32) (cols : N) (rows : list (list f32)).
  Hypothesis made : emb_made SO pf e cols rows.
  Hypothesis norms : norms_fit e.
  Notation result := (embeddings Md simple_vocab (array2 f32) f32).

  (** Text: the lines that follow are read as further words. *)
  Lemma text_appended un lossy base : Forall text_word (v_words wrap_ops (em_vocab e)) ->
    exists l out, output_items un e rows l /\ run_writer (write_text P wrap_ops SO un e) base = Ok out /\
    (nan_free l -> forall z (e' : result), run_reader (read_text_raw P pf lossy) (out ++ z) = Ok e' ->
      exists its, text_items P lossy z its /\ text_contents e' (l ++ its) (a2_cols (em_storage e'))).
  Proof.
    intros text_words. destruct (emits_text P SO pf e cols rows made norms un) as (l & O & E). exists l. eexists. split; [exact O|].
    split; [apply (emits_run _ _ base E)|]. unfold fconst. intros NN z e' R.
    assert (Forall text_word (map fst l)) as TW by (rewrite (proj1 O); exact text_words).
    destruct (text_accepted P pf lossy _ e' R) as (items & T & TC & _).
    apply (items_appended P law) in T as (its & -> & T); [eauto|assumption..].
  Qed.

  (** Text with dimensions: nothing can follow. *)
  Lemma dims_appended un lossy base : Forall text_word (v_words wrap_ops (em_vocab e)) ->
    dims_fit (v_words_len wrap_ops (em_vocab e)) cols -> cols < two64 ->
    exists l out, output_items un e rows l /\ run_writer (write_text_dims P wrap_ops SO un e) base = Ok out /\
    (nan_free l -> forall z, z <> [] -> run_reader (read_text_dims_raw (Md := Md) P pf lossy) (out ++ z) = Err EFormat).
  Proof.
    intros text_words F Lc. destruct (emits_text_dims P SO pf e cols rows made norms un) as (l & O & E). exists l. eexists. split; [exact O|].
    split; [apply (emits_run _ _ base E)|]. unfold fconst. destruct (output_words SO pf e cols rows made un l O) as [ND L]. rewrite <- L in *.
    assert (lenN l < two64) as B1 by (destruct F as [F _]; unfold isize_max, two64 in *; lia).
    assert (Forall text_word (map fst l)) as TW by (rewrite (proj1 O); exact text_words). intros NN z NZ. rewrite <- app_assoc.
    destruct (text_dims_outcomes P pf (Md := Md) lossy _ _ _ _ (header_dims (lenN l) cols (text_file P l ++ z) B1 Lc) F) as [NOI OK].
    destruct (read_lines_cases P lossy (mkStream (text_file P l ++ z) 0) eq_refl) as [(items & T)|(NI & _)]; [|exact (NOI NI)].
    cbn [s_rest] in T. destruct (OK items T) as (K1 & _). apply K1.
    apply (items_appended P law) in T as (its & -> & T); [|assumption..]. apply (items_nonempty P) in T; [|exact NZ].
    destruct its; [congruence|]. rewrite lenN_app, lenN_cons. lia.
  Qed.

  (** word2vec: what follows is not looked at. *)
  Lemma w2v_appended un lossy base : Forall binary_word (v_words wrap_ops (em_vocab e)) ->
    binary_fits (v_words_len wrap_ops (em_vocab e)) cols -> cols < two64 ->
    exists l out, output_items un e rows l /\ run_writer (write_word2vec wrap_ops SO un e) base = Ok out /\
    exists e' : result, raw_result e' cols l /\ forall z, run_reader (read_word2vec_raw pf lossy) (out ++ z) = Ok e'.
  Proof.
    intros binary_words F Lc. destruct (emits_binary SO pf e cols rows made norms un) as (l & O & E). exists l. eexists. split; [exact O|].
    split; [apply (emits_run _ _ base E)|]. unfold fconst. destruct (output_words SO pf e cols rows made un l O) as [ND L]. rewrite <- L in *.
    pose proof (output_width SO pf e cols rows made un l O) as OW.
    assert (lenN l < two64) as B1 by (destruct F as [_ F]; unfold isize_max, two64 in *; lia).
    assert (Forall binary_word (map fst l)) as BW by (rewrite (proj1 O); exact binary_words).
    assert (binary_items lossy cols ([] ++ flat_map binary_entry l) l (match l with [] => [] | _ => [x0a] end)) as B by (eapply binary_entries; eauto).
    cbn [app] in B. apply binary_items_prefix in B as (x & EX & BI).
    assert (forall z, exists (r : result), run_reader (read_word2vec_raw pf lossy) ((dims_bytes (lenN l) cols ++ flat_map binary_entry l) ++ z) = Ok r /\ raw_result r cols l) as RB.
    { intros z. rewrite EX, <- !app_assoc.
      destruct (read_binary_items (Md := Md) pf lossy _ _ _ _ _ _ (header_dims (lenN l) cols _ B1 Lc) (BI (match l with [] => [] | _ => [x0a] end ++ z)) eq_refl ND F) as (r & p & R & RR).
      exists r. unfold run_reader. rewrite R. split; [reflexivity|exact RR]. }
    destruct (RB []) as (r & R & RR). exists r. split; [exact RR|]. intros z. destruct (RB z) as (r2 & R2 & RR2). rewrite R2. f_equal.
    destruct RR as (V1 & S1 & N1 & M1), RR2 as (V2 & S2 & N2 & M2).
    assert (em_vocab r = em_vocab r2) as EV by congruence. assert (em_storage r = em_storage r2) as ES by congruence.
    assert (em_norms r = em_norms r2) as EN by congruence. assert (em_meta r = em_meta r2) as EM by congruence.
    clear - EV ES EN EM. destruct r, r2. cbn in *. congruence.
  Qed.
  (** The reader stops before the newline of the last vector, so that another
      file cannot be read where it stopped. *)
  Lemma newline_number s z : s_rest s = x0a :: z -> s_broken s = false -> fst (read_number x20 s) = Err EFormat.
  Proof.
    intros R B. unfold read_number, read_string, read_until, bind. rewrite R, B. cbn [split_until andb]. change (byte_eqb x0a x20) with false. cbv iota.
    destruct (split_until x20 z) as [x y]. cbv iota beta. destruct (utf8_valid _); [|reflexivity]. destruct x as [|b x]; reflexivity.
  Qed.
  Lemma w2v_position un lossy base : Forall binary_word (v_words wrap_ops (em_vocab e)) ->
    binary_fits (v_words_len wrap_ops (em_vocab e)) cols -> cols < two64 ->
    exists l out, output_items un e rows l /\ run_writer (write_word2vec wrap_ops SO un e) base = Ok out /\
    forall z, exists (e' : result) s', read_word2vec_raw pf lossy (mkStream (out ++ z) 0) = (Ok e', s') /\ raw_result e' cols l /\
      (v_words wrap_ops (em_vocab e) = [] -> s_rest s' = z) /\
      (v_words wrap_ops (em_vocab e) <> [] -> s_rest s' = x0a :: z /\
        forall lossy', fst (read_word2vec_raw (Md := Md) pf lossy' s') = Err EFormat).
  Proof.
    intros binary_words F Lc. destruct (emits_binary SO pf e cols rows made norms un) as (l & O & E). exists l. eexists. split; [exact O|].
    split; [apply (emits_run _ _ base E)|]. unfold fconst. destruct (output_words SO pf e cols rows made un l O) as [ND L]. rewrite <- L in *.
    pose proof (output_width SO pf e cols rows made un l O) as OW.
    assert (lenN l < two64) as B1 by (destruct F as [_ F]; unfold isize_max, two64 in *; lia).
    assert (Forall binary_word (map fst l)) as BW by (rewrite (proj1 O); exact binary_words).
    assert (binary_items lossy cols ([] ++ flat_map binary_entry l) l (match l with [] => [] | _ => [x0a] end)) as B by (eapply binary_entries; eauto).
    cbn [app] in B. apply binary_items_prefix in B as (x & EX & BI). intros z. rewrite EX, <- !app_assoc.
    destruct (read_binary_items (Md := Md) pf lossy _ _ _ _ _ _ (header_dims (lenN l) cols _ B1 Lc) (BI (match l with [] => [] | _ => [x0a] end ++ z)) eq_refl ND F) as (r & p & R & RR).
    exists r. eexists. split; [exact R|]. split; [exact RR|]. rewrite <- (proj1 O). destruct l as [|i l].
    - split; [reflexivity|intros K; contradiction K; reflexivity].
    - split; [discriminate|]. intros _. split; [reflexivity|]. intros lossy'. unfold read_word2vec_raw, bind at 1.
      pose proof (newline_number (mkStream ([x0a] ++ z) p) z eq_refl eq_refl) as K. destruct (read_number x20 _) as [q s2]. cbn [fst] in K. subst q. reflexivity.
  Qed.
End Made.

(** Two text files one after the other. *)
Section Two.
  Context (P : ftext_ops) (law : ftext_law P) {Md Md1 Md2 S1 S2 : Type} (SO1 : storage_ops f32 S1) (SO2 : storage_ops f32 S2) (pf : profile).
  Variables (e1 : embeddings Md1 vocab_wrap S1 f32) (e2 : embeddings Md2 vocab_wrap S2 f32) (cols : N) (rows1 rows2 : list (list f32)).
  Notation words1 := (v_words wrap_ops (em_vocab e1)).
  Notation words2 := (v_words wrap_ops (em_vocab e2)).
  Notation result := (embeddings Md simple_vocab (array2 f32) f32).

  Lemma text_concatenated un lossy base1 base2 : emb_made SO1 pf e1 cols rows1 -> norms_fit e1 -> Forall text_word words1 ->
    emb_made SO2 pf e2 cols rows2 -> norms_fit e2 -> Forall text_word words2 ->
    exists l1 l2 out1 out2, output_items un e1 rows1 l1 /\ output_items un e2 rows2 l2 /\
    run_writer (write_text P wrap_ops SO1 un e1) base1 = Ok out1 /\ run_writer (write_text P wrap_ops SO2 un e2) base2 = Ok out2 /\
    (nan_free l1 -> nan_free l2 -> words1 ++ words2 <> [] ->
      (NoDup (words1 ++ words2) -> exists e' : result, run_reader (read_text_raw P pf lossy) (out1 ++ out2) = Ok e' /\ raw_result e' cols (l1 ++ l2)) /\
      (~ NoDup (words1 ++ words2) -> run_reader (read_text_raw (Md := Md) P pf lossy) (out1 ++ out2) = Panic PDuplicateWords)).
  Proof.
    intros Mk1 Nf1 W1 Mk2 Nf2 W2. destruct (emits_text P SO1 pf e1 cols rows1 Mk1 Nf1 un) as (l1 & O1 & E1).
    destruct (emits_text P SO2 pf e2 cols rows2 Mk2 Nf2 un) as (l2 & O2 & E2). exists l1, l2. eexists. eexists. split; [exact O1|]. split; [exact O2|].
    split; [apply (emits_run _ _ base1 E1)|]. split; [apply (emits_run _ _ base2 E2)|]. unfold fconst. intros NN1 NN2 NE.
    pose proof (output_width SO1 pf e1 cols rows1 Mk1 un l1 O1) as OW1. pose proof (output_width SO2 pf e2 cols rows2 Mk2 un l2 O2) as OW2.
    assert (map fst (l1 ++ l2) = words1 ++ words2) as EW by (rewrite map_app, (proj1 O1), (proj1 O2); reflexivity). rewrite <- EW in *.
    assert (Forall (fun it => lenN (snd it) = cols) (l1 ++ l2)) as OW by (apply Forall_app; auto).
    assert (text_items P lossy (text_file P l1 ++ text_file P l2) (l1 ++ l2)) as T.
    { apply (items_appended P law); [rewrite (proj1 O1); exact W1|exact NN1|]. exists l2. split; [reflexivity|].
      rewrite <- (app_nil_r (text_file P l2)). apply (items_appended P law); [rewrite (proj1 O2); exact W2|exact NN2|]. exists []. rewrite app_nil_r. split; [reflexivity|].
      exists []. split; constructor. }
    set (l := l1 ++ l2) in *. clearbody l. assert (l <> []) as NL by (intros ->; apply NE; reflexivity).
    assert (lenN l <> 0) as LZ by (intros K; apply NL, lenN_0, K).
    assert (lenN (flat_map snd l) = cols * lenN l) as FL.
    { clear - OW. induction OW as [|it l H F IH]; [cbn [flat_map]; unfold lenN; cbn [length N.of_nat]; lia|]. cbn [flat_map]. rewrite lenN_app, lenN_cons, IH, H. lia. }
    assert (lenN (flat_map snd l) mod lenN l = 0) as MZ by (rewrite FL; apply N.mod_mul; exact LZ).
    assert (lenN (flat_map snd l) / lenN l = cols) as DV by (rewrite FL; apply N.div_mul; exact LZ).
    destruct (text_outcomes P pf (Md := Md) lossy (text_file P l1 ++ text_file P l2)) as [_ K]. destruct (K l T) as (_ & _ & K3 & K4).
    split; [|intros ND; apply K3; assumption]. intros ND. destruct (K4 NL MZ ND) as (e' & R & TC). rewrite DV in TC. exists e'. split; [exact R|].
    pose proof (proj2 (contents_lines e' l cols TC) OW) as ER. destruct TC as (C1 & _ & _ & _ & _ & C2 & _ & C3 & C4). split; [exact C1|]. split; [|auto].
    clear - C2 ER. destruct (em_storage e') as [c r]. cbn [a2_cols a2_rows] in *. subst. reflexivity.
  Qed.
End Two.

(** ** floret: nothing can follow *)
Section FloretMore.
  Context (P : ftext_ops) (law : ftext_law P) (pf : profile) {Md : Type}.
  Variable e : embeddings Md (subword_vocab floret_indexer) (array2 f32) f32.
  Variables (ws : list str) (mn mx nb nh seed : N) (ix : floret_indexer) (bow eow : str).
  Hypothesis new_ix : floret_indexer_new nb nh seed = Ok ix.
  Hypothesis new_vocab : sub_new_with_boundaries floret_ops pf ws mn mx ix bow eow = Ok (em_vocab e).
  Hypothesis new_emb : emb_new_with_maybe_norms (sub_ops floret_ops) (nd_ops f32) pf (em_meta e) (em_vocab e) (em_storage e) (em_norms e) = Ok e.
  Hypothesis fits : Forall (fun n => n < two32) [mn; mx; seed].
  Hypothesis bow_ok : ~ In x20 bow /\ utf8_valid bow = true.
  Hypothesis eow_ok : ~ In x0a eow /\ utf8_valid eow = true.
  Hypothesis cols_pos : a2_cols (em_storage e) <> 0.
  Hypothesis capacity : nb * a2_cols (em_storage e) * 4 <= isize_max.
  Notation buckets := (dropN (lenN ws) (a2_rows (em_storage e))).
  Hypothesis no_nan : Forall (Forall (fun x => f32_is_nan x = false)) buckets.

  Lemma floret_appended base : exists out, run_writer (write_floret_text P pf e) base = Ok out /\
    forall z (e' : embeddings Md (subword_vocab floret_indexer) (array2 f32) f32), z <> [] -> run_reader (read_floret_text P pf) (out ++ z) <> Ok e'.
  Proof.
    eexists. split; [apply (emits_run _ _ base (emits_floret P pf e ws mn mx nb nh seed ix bow eow new_ix new_vocab new_emb))|]. unfold fconst.
    destruct (floret_ix nb nh seed ix new_ix) as (_ & NB & NH). destruct (floret_vocab_len pf e ws mn mx nb nh seed ix bow eow new_ix new_vocab new_emb) as (_ & _ & ER).
    destruct (floret_vocab pf e ws mn mx nb nh seed ix bow eow new_ix new_vocab) as (_ & _ & LT).
    unfold enumerate. rewrite numbered_bytes. change (subword_rows e ws) with buckets in *. set (l := numbered 0 buckets).
    intros z e' NZ R. rewrite <- app_assoc in R.
    set (out := floret_head_bytes e mn mx nb nh seed bow eow ++ text_file P l ++ z) in *.
    assert (floret_head out nb (a2_cols (em_storage e)) mn mx nh seed bow eow (text_file P l ++ z)) as H.
    { repeat match goal with H : Forall (fun n : N => n < two32) (_ :: _) |- _ => apply Forall_cons_iff in H as [? H] end.
      assert (nb < two64 /\ a2_cols (em_storage e) < two64) as [LB LC] by (split; [lia|]; unfold isize_max, two64 in *; nia).
      assert (forall n, n < two32 -> n < two64) as T by (unfold two32, two64; lia). assert (nh < two32) as LH by (unfold two32; lia).
      exists (dec_print nb), (dec_print (a2_cols (em_storage e))), (dec_print mn), (dec_print mx), (dec_print nh), (dec_print seed).
      repeat (split; [apply dec_print_numeral|]). split; [repeat constructor; auto|]. split; [apply bow_ok|]. split; [apply bow_ok|]. split; [apply eow_ok|]. split; [apply eow_ok|].
      unfold out, floret_head_bytes. repeat (rewrite <- app_assoc; cbn [app]). reflexivity. }
    destruct (floret_accepted P pf (Md := Md) _ _ _ _ _ _ _ _ _ _ _ H R) as (rows' & _ & FR & LR & _).
    assert (map snd l = buckets) as SL.
    { unfold l, numbered. rewrite map_map. generalize 0. clear. induction buckets as [|r rs IH]; intros n; [reflexivity|]. cbn [enumerate_from map]. f_equal. apply IH. }
    assert (lenN l = nb) as LL.
    { rewrite <- (lenN_map snd l), SL, lenN_dropN. unfold a2_nrows in ER. lia. }
    assert (exists items, text_items P false (text_file P l ++ z) items /\ map snd items = rows') as (items & TI & SI).
    { destruct FR as (ls & LS & F2). clear - LS F2. assert (exists items, Forall2 (line_item P false) ls items /\ map snd items = rows') as (items & X & Y).
      { clear LS. induction F2 as [|l0 v ls rows (f & ps & V & HF & FP & L) F2 (items & X1 & X2)]; [exists []; repeat constructor|].
        exists ((f, v) :: items). split; [|cbn [map snd]; f_equal; exact X2]. constructor; [|exact X1].
        exists l0, ps. split; [split; auto|]. split; assumption. }
      exists items. split; [exists ls; auto|exact Y]. }
    assert (nan_free l) as NN.
    { unfold nan_free. apply (proj1 (Forall_map snd (Forall (fun x => f32_is_nan x = false)) l)). rewrite SL. exact no_nan. }
    apply (items_appended P law) in TI as (its & -> & T); [|exact (numbered_words 0 buckets)|exact NN].
    apply (items_nonempty P) in T; [|exact NZ]. destruct its; [congruence|].
    apply (f_equal lenN) in SI. rewrite lenN_map, lenN_app, lenN_cons in SI. lia.
  Qed.
End FloretMore.

(** ** fastText: what follows is not looked at *)
Section FastTextMore.
  Context (pf : profile) (T : toml_ops) (config_table : ft_config -> option (toml_table T)).
  Lemma ft_appended lossy data e : run_reader (read_fasttext pf T config_table lossy) data = Ok e ->
    forall z, run_reader (read_fasttext pf T config_table lossy) (data ++ z) = Ok e.
  Proof.
    intros H z. destruct (ft_accepted pf T config_table lossy data e H) as (f & c & ws & rest & -> & O & Sp & C & W & MO & NQ & _).
    assert (forall r, run_reader (read_fasttext pf T config_table lossy) (ft_bytes f ++ r) =
      let* v := (let* ix := ft_indexer_new (fc_bucket c) in sub_new ft_ops pf ws (fc_min_n c) (fc_max_n c) ix) in ft_finish pf T config_table c v (ff_matrix f)) as K.
    { intros r. unfold run_reader. destruct (ft_start pf T config_table lossy f c ws r O Sp C W) as (p & ->). assert (ff_quant f < 256) as LQ by apply O.
      unfold bind at 1, lift at 1. destruct (let* ix := ft_indexer_new (fc_bucket c) in sub_new ft_ops pf ws (fc_min_n c) (fc_max_n c) ix) as [v|er|pn]; [|reflexivity..].
      unfold ft_after. eat. destruct (N.eqb_spec (ff_quant f) 1) as [Q|Q]; [contradiction|].
      destruct (ft_matrix_read (ff_matrix f) r (p + 1) MO) as (p2 & E2). rewrite (bind_step _ _ _ _ _ E2). reflexivity. }
    rewrite <- app_assoc, K. rewrite K in H. exact H.
  Qed.
  (** The bytes after the file are left for the next reader. *)
  Lemma ft_position lossy data e s : read_fasttext pf T config_table lossy (mkStream data 0) = (Ok e, s) ->
    forall z, exists p, read_fasttext pf T config_table lossy (mkStream (data ++ z) 0) = (Ok e, mkStream (s_rest s ++ z) p).
  Proof.
    intros H z. assert (run_reader (read_fasttext pf T config_table lossy) data = Ok e) as HR by (unfold run_reader; rewrite H; reflexivity).
    destruct (ft_accepted pf T config_table lossy data e HR) as (f & c & ws & rest & -> & O & Sp & C & W & MO & NQ & _).
    set (b := let* ix := ft_indexer_new (fc_bucket c) in sub_new ft_ops pf ws (fc_min_n c) (fc_max_n c) ix).
    assert (forall r, match b with
      | Ok v => exists p, read_fasttext pf T config_table lossy (mkStream (ft_bytes f ++ r) 0) = (ft_finish pf T config_table c v (ff_matrix f), mkStream r p)
      | _ => fst (read_fasttext pf T config_table lossy (mkStream (ft_bytes f ++ r) 0)) <> Ok e end) as K.
    { intros r. destruct (ft_start pf T config_table lossy f c ws r O Sp C W) as (p & ->). assert (ff_quant f < 256) as LQ by apply O.
      fold b. unfold bind at 1, lift at 1. destruct b as [v|er|pn]; [|discriminate..].
      unfold ft_after. eat. destruct (N.eqb_spec (ff_quant f) 1) as [Q|Q]; [contradiction|].
      destruct (ft_matrix_read (ff_matrix f) r (p + 1) MO) as (p2 & E2). rewrite (bind_step _ _ _ _ _ E2). exists p2. reflexivity. }
    pose proof (K rest) as K1. pose proof (K (rest ++ z)) as K2. rewrite <- app_assoc.
    destruct b as [v|er|pn]; [|rewrite H in K1; contradiction K1; reflexivity..].
    destruct K1 as (p1 & K1), K2 as (p2 & K2). rewrite H in K1. injection K1 as K1 ->. rewrite K2, <- K1. exists p2. reflexivity.
  Qed.
End FastTextMore.
