(** * The text formats hold the same embeddings, and writing what was read gives the same bytes (C105). *)
From Verif Require Import Base BaseFacts Utf8 Utf8Facts Stream StreamFacts F32 F32Facts ChunkIO Subword Vocab Storage Embeddings TextIO FileSpec VocabSpec
  ChunkFacts VocabFacts StorageFacts ReadFacts LookupFacts EmbSpec MatrixFacts EmbFacts BatchFacts TextSpec TextFacts TextThms BinaryThms FloretThms TextExact.
Local Open Scope N_scope.

Notation as_wrap e := (emb_wrap VSimple (fun s => s) e).

Lemma output_items_fun {Md S} un (e : embeddings Md vocab_wrap S f32) rows l l' : output_items un e rows l -> output_items un e rows l' -> l = l'.
Proof.
  intros [W H] [W' H']. apply nthN_ext. intros i.
  assert (forall (a b : list (str * list f32)), map fst a = map fst b -> (nthN a i = None -> nthN b i = None)) as NO.
  { intros a b E N0. apply nthN_None in N0. apply nthN_None. pose proof (f_equal lenN E) as L. rewrite !lenN_map in L. lia. }
  destruct (nthN l i) as [[w v]|] eqn:A; [|symmetry; apply (NO l l'); congruence].
  destruct (nthN l' i) as [[w' v']|] eqn:B; [|apply (NO l' l) in B; congruence].
  assert (w = w') as ->.
  { pose proof (f_equal (fun x => nthN x i) (eq_trans W (eq_sym W'))) as E. cbn in E. rewrite !nthN_map, A, B in E. cbn in E. congruence. }
  destruct (H _ _ _ A) as (r & n & R & NN & ->). destruct (H' _ _ _ B) as (r' & n' & R' & NN' & ->).
  assert (r = r') as -> by congruence. assert (n = n') as ->; [|reflexivity].
  unfold norm_of in NN, NN'. destruct (em_norms e); congruence.
Qed.

Lemma raw_made {Md} pf (e : embeddings Md simple_vocab (array2 f32) f32) cols l : raw_result e cols l -> Forall (fun it => lenN (snd it) = cols) l ->
  emb_made (nd_ops f32) pf (as_wrap e) cols (map snd l) /\ norms_fit (as_wrap e) /\ v_words wrap_ops (em_vocab (as_wrap e)) = map fst l /\
  v_words_len wrap_ops (em_vocab (as_wrap e)) = lenN l.
Proof.
  intros (EV & ES & EN & EM) W. pose proof EV as EV'. unfold simple_new in EV'. apply rbind_Ok_inv in EV' as ([] & AS & EV'). injection EV' as EV'. apply rassert_Ok in AS. apply N.eqb_eq in AS.
  split; [|split; [|split]].
  - split; [|split].
    + cbn [em_vocab emb_wrap]. eapply vm_simple, EV.
    + cbn [em_storage emb_wrap]. rewrite ES. apply (nd_matrix (mkA2 cols (map snd l))). unfold a2_wf. cbn [a2_rows a2_cols]. apply Forall_map. exact W.
    + unfold emb_new_with_maybe_norms, emb_wrap. cbn [em_vocab em_storage em_meta em_norms]. cbn [v_vocab_len wrap_ops simple_ops rbind].
      rewrite <- EV', ES. cbn [sm_indices]. cbn [st_shape nd_ops fst]. unfold a2_nrows. cbn [a2_rows]. rewrite <- AS, !lenN_map, N.eqb_refl. reflexivity.
  - intros ns K. cbn [emb_wrap em_norms] in K. congruence.
  - cbn [em_vocab emb_wrap v_words wrap_ops]. rewrite <- EV'. reflexivity.
  - cbn [em_vocab emb_wrap v_words_len wrap_ops simple_ops]. rewrite <- EV'. cbn [sm_indices]. rewrite <- AS, lenN_map. reflexivity.
Qed.

(** What is written of the embeddings that were read is what they were read
    from: without norms, the vectors are multiplied by one. *)
Lemma raw_output {Md} un (e : embeddings Md simple_vocab (array2 f32) f32) cols l : raw_result e cols l -> nan_free l ->
  v_words wrap_ops (em_vocab (as_wrap e)) = map fst l -> output_items un (as_wrap e) (map snd l) l.
Proof.
  intros (EV & ES & EN & EM) NN W. split; [symmetry; exact W|]. intros i w v K. exists v, f32_one. rewrite nthN_map, K. split; [reflexivity|]. split.
  - unfold norm_of. cbn [emb_wrap em_norms]. rewrite EN. reflexivity.
  - destruct un; [|reflexivity]. apply nthN_In in K. unfold nan_free in NN. rewrite Forall_forall in NN. specialize (NN _ K). cbn [snd] in NN.
    clear - NN. induction NN as [|x v H NN IH]; [reflexivity|]. cbn [map]. f_equal; [symmetry; apply f32_mul_one; exact H|exact IH].
Qed.

Lemma raw_result_fun {Md} (e e' : embeddings Md simple_vocab (array2 f32) f32) cols l : raw_result e cols l -> raw_result e' cols l -> e = e'.
Proof.
  destruct e as [m s v n], e' as [m' s' v' n']. intros (A & B & C & D) (A' & B' & C' & D'). cbn [em_vocab em_storage em_norms em_meta] in *. congruence.
Qed.

(** C105 *)
Section Formats.
  Context (P : ftext_ops) (law : ftext_law P) {Md S : Type} (SO : storage_ops f32 S) (pf : profile).
  Variables (e : embeddings Md vocab_wrap S f32) (cols : N) (rows : list (list f32)).
  Hypothesis made : emb_made SO pf e cols rows.
  Hypothesis norms : norms_fit e.
  Hypothesis text_words : Forall text_word (v_words wrap_ops (em_vocab e)).
  Hypothesis binary_words : Forall binary_word (v_words wrap_ops (em_vocab e)).

  Lemma formats_agree un base : v_words wrap_ops (em_vocab e) <> [] ->
    dims_fit (v_words_len wrap_ops (em_vocab e)) cols -> binary_fits (v_words_len wrap_ops (em_vocab e)) cols -> cols < two64 ->
    exists l text dims w2v, output_items un e rows l /\
    run_writer (write_text P wrap_ops SO un e) base = Ok text /\
    run_writer (write_text_dims P wrap_ops SO un e) base = Ok dims /\
    run_writer (write_word2vec wrap_ops SO un e) base = Ok w2v /\
    (nan_free l -> exists raw norm : embeddings Md simple_vocab (array2 f32) f32,
     raw_result raw cols l /\ normalized_result f32_ops norm cols l /\
     (forall lossy,
      run_reader (read_text_raw P pf lossy) text = Ok raw /\ run_reader (read_text P pf lossy) text = Ok norm /\
      run_reader (read_text_dims_raw P pf lossy) dims = Ok raw /\ run_reader (read_text_dims P pf lossy) dims = Ok norm /\
      run_reader (read_word2vec_raw pf lossy) w2v = Ok raw /\ run_reader (read_word2vec pf lossy) w2v = Ok norm) /\
     (forall un' base',
      run_writer (write_text P wrap_ops (nd_ops f32) un' (as_wrap raw)) base' = Ok text /\
      run_writer (write_text_dims P wrap_ops (nd_ops f32) un' (as_wrap raw)) base' = Ok dims /\
      run_writer (write_word2vec wrap_ops (nd_ops f32) un' (as_wrap raw)) base' = Ok w2v)).
  Proof.
    intros W DF BF LC.
    destruct (text_round_trip P law SO pf e cols rows made norms text_words un false base W) as (l & text & O & WT & _).
    destruct (text_dims_round_trip P law SO pf e cols rows made norms text_words un false base W DF) as (l1 & dims & O1 & WD & _).
    destruct (binary_round_trip SO pf e cols rows made norms binary_words un false base BF LC) as (l2 & w2v & O2 & WB & _).
    pose proof (output_items_fun _ _ _ _ _ O1 O) as ->. pose proof (output_items_fun _ _ _ _ _ O2 O) as ->.
    exists l, text, dims, w2v. split; [exact O|]. split; [exact WT|]. split; [exact WD|]. split; [exact WB|]. intros NN.
    assert (forall lossy, (exists r : embeddings Md simple_vocab (array2 f32) f32, run_reader (read_text_raw P pf lossy) text = Ok r /\ raw_result r cols l) /\
      (exists r : embeddings Md simple_vocab (array2 f32) f32, run_reader (read_text_dims_raw P pf lossy) dims = Ok r /\ raw_result r cols l) /\
      (exists r : embeddings Md simple_vocab (array2 f32) f32, run_reader (read_word2vec_raw pf lossy) w2v = Ok r /\ raw_result r cols l)) as RD.
    { intros lossy. split; [|split].
      - destruct (text_round_trip P law SO pf e cols rows made norms text_words un lossy base W) as (l' & f & O' & W' & R').
        pose proof (output_items_fun _ _ _ _ _ O' O) as ->. assert (f = text) as -> by congruence. apply (R' NN).
      - destruct (text_dims_round_trip P law SO pf e cols rows made norms text_words un lossy base W DF) as (l' & f & O' & W' & R').
        pose proof (output_items_fun _ _ _ _ _ O' O) as ->. assert (f = dims) as -> by congruence. apply (R' NN).
      - destruct (binary_round_trip SO pf e cols rows made norms binary_words un lossy base BF LC) as (l' & f & O' & W' & R' & _).
        pose proof (output_items_fun _ _ _ _ _ O' O) as ->. assert (f = w2v) as -> by congruence. exact R'. }
    destruct (RD false) as ((raw & _ & RR) & _). destruct (raw_then_normalized pf cols raw l RR) as (norm & EN & RN).
    exists raw, norm. split; [exact RR|]. split; [exact RN|]. split.
    - intros lossy. destruct (RD lossy) as ((r1 & E1 & R1) & (r2 & E2 & R2) & (r3 & E3 & R3)).
      pose proof (raw_result_fun _ _ _ _ R1 RR) as ->. pose proof (raw_result_fun _ _ _ _ R2 RR) as ->. pose proof (raw_result_fun _ _ _ _ R3 RR) as ->.
      assert (forall (r : reader (embeddings Md simple_vocab (array2 f32) f32)) (f : list byte), run_reader r f = Ok raw ->
        run_reader (x <- r ;; lift (normalize_all f32_ops pf x)) f = Ok norm) as K.
      { intros r f. unfold run_reader, bind. destruct (r (mkStream f 0)) as [x s]. cbn [fst]. intros ->. unfold lift. cbn [fst]. exact EN. }
      split; [exact E1|]. split; [apply K; exact E1|]. split; [exact E2|]. split; [apply K; exact E2|]. split; [exact E3|]. apply K; exact E3.
    - intros un' base'. pose proof (output_width SO pf e cols rows made un l O) as OW.
      destruct (raw_made pf raw cols l RR OW) as (M' & N' & W' & WL'). pose proof (raw_output un' raw cols l RR NN W') as O'.
      destruct (output_words SO pf e cols rows made un l O) as [_ LL].
      destruct (emits_text P SO pf e cols rows made norms un) as (l3 & O3 & E3). pose proof (output_items_fun _ _ _ _ _ O3 O) as ->.
      destruct (emits_text_dims P SO pf e cols rows made norms un) as (l3 & O4 & E4). pose proof (output_items_fun _ _ _ _ _ O4 O) as ->.
      destruct (emits_binary SO pf e cols rows made norms un) as (l3 & O5 & E5). pose proof (output_items_fun _ _ _ _ _ O5 O) as ->.
      destruct (emits_text P (nd_ops f32) pf (as_wrap raw) cols (map snd l) M' N' un') as (l3 & O6 & E6). pose proof (output_items_fun _ _ _ _ _ O6 O') as ->.
      destruct (emits_text_dims P (nd_ops f32) pf (as_wrap raw) cols (map snd l) M' N' un') as (l3 & O7 & E7). pose proof (output_items_fun _ _ _ _ _ O7 O') as ->.
      destruct (emits_binary (nd_ops f32) pf (as_wrap raw) cols (map snd l) M' N' un') as (l3 & O8 & E8). pose proof (output_items_fun _ _ _ _ _ O8 O') as ->.
      pose proof (emits_run _ _ base E3) as F3. pose proof (emits_run _ _ base E4) as F4. pose proof (emits_run _ _ base E5) as F5.
      pose proof (emits_run _ _ base' E6) as F6. pose proof (emits_run _ _ base' E7) as F7. pose proof (emits_run _ _ base' E8) as F8.
      rewrite WL' in F7, F8. rewrite <- LL in F4, F5. unfold fconst in *. split; [|split].
      + rewrite F6. congruence.
      + rewrite F7. congruence.
      + rewrite F8. congruence.
  Qed.
End Formats.

(** Floret files as well; the words are not written, and there are none in what is read. *)
Section FloretFormat.
  Context (P : ftext_ops) (law : ftext_law P) (pf : profile) {Md : Type}.
  Variable e : embeddings Md (subword_vocab floret_indexer) (array2 f32) f32.
  Variables (ws : list str) (mn mx nb nh seed : N) (ix : floret_indexer) (bow eow : str).
  Hypothesis new_ix : floret_indexer_new nb nh seed = Ok ix.
  Hypothesis new_vocab : sub_new_with_boundaries floret_ops pf ws mn mx ix bow eow = Ok (em_vocab e).
  Hypothesis new_emb : emb_new_with_maybe_norms (sub_ops floret_ops) (nd_ops f32) pf (em_meta e) (em_vocab e) (em_storage e) (em_norms e) = Ok e.
  Hypothesis storage_wf : a2_wf (em_storage e).
  Hypothesis fits : Forall (fun n => n < two32) [mn; mx; seed].
  Hypothesis range : mn <= mx.
  Hypothesis bow_ok : ~ In x20 bow /\ utf8_valid bow = true.
  Hypothesis eow_ok : ~ In x0a eow /\ utf8_valid eow = true.
  Hypothesis cols_pos : a2_cols (em_storage e) <> 0.
  Hypothesis capacity : nb * a2_cols (em_storage e) * 4 <= isize_max.
  Hypothesis no_nan : Forall (Forall (fun x => f32_is_nan x = false)) (dropN (lenN ws) (a2_rows (em_storage e))).

  Lemma floret_rewrite base : exists out (e' : embeddings Md (subword_vocab floret_indexer) (array2 f32) f32),
    run_writer (write_floret_text P pf e) base = Ok out /\ run_reader (read_floret_text P pf) out = Ok e' /\
    forall base', run_writer (write_floret_text P pf e') base' = Ok out.
  Proof.
    destruct (floret_round_trip P law pf e ws mn mx nb nh seed ix bow eow new_ix new_vocab new_emb storage_wf fits range bow_ok eow_ok cols_pos capacity no_nan base)
      as (out & WO & e' & R & FR). exists out, e'. split; [exact WO|]. split; [exact R|]. intros base'.
    destruct (floret_ix nb nh seed ix new_ix) as (EI & NB & NH).
    destruct (floret_vocab pf e ws mn mx nb nh seed ix bow eow new_ix new_vocab) as (EV & ND & LT).
    destruct (floret_vocab_len pf e ws mn mx nb nh seed ix bow eow new_ix new_vocab new_emb) as (_ & _ & ER).
    destruct e' as [m' s' v' n']. destruct FR as (F1 & F2 & F3 & F4 & F5 & F6 & F7 & F8 & F9 & F10). cbn [em_vocab em_storage em_norms em_meta] in *.
    destruct v' as [bow' eow' ix' in' ws' mn' mx']. cbn [sv_words sv_indices sv_min sv_max sv_bow sv_eow sv_ix] in *. subst.
    pose proof (emits_floret P pf e ws mn mx nb nh seed _ bow eow new_ix new_vocab new_emb) as E1. apply (emits_run _ _ base) in E1. rewrite WO in E1. injection E1 as ->.
    match goal with |- run_writer (write_floret_text P pf ?e') _ = _ =>
      pose proof (emits_floret P pf e' [] mn mx nb nh seed (mkFloretIx nb seed nh) bow eow new_ix) as E2 end.
    cbn [em_vocab em_storage em_norms em_meta] in E2. lapply E2; [clear E2; intros E2; lapply E2; [clear E2; intros E2|]|].
    - apply (emits_run _ _ base') in E2. rewrite E2. unfold fconst, subword_rows. cbn [em_storage a2_rows]. change (lenN (@nil str)) with 0. rewrite dropN_0. reflexivity.
    - unfold emb_new_with_maybe_norms. cbn [v_vocab_len sub_ops]. unfold sub_vocab_len, sub_words_len. cbn [sv_indices sv_ix ix_bound floret_ops]. unfold floret_bound. cbn [rbind fl_buckets].
      change (hm_len (create_indices [])) with 0. unfold add64. destruct (N.ltb_spec (0 + nb) two64); [|lia]. cbn [rbind st_shape nd_ops fst]. unfold a2_nrows. cbn [a2_rows].
      rewrite lenN_dropN. unfold a2_nrows in ER. rewrite ER. replace (lenN ws + nb - lenN ws) with (0 + nb) by lia. rewrite N.eqb_refl. reflexivity.
    - unfold sub_new_with_boundaries. change (hm_len (create_indices [])) with 0. change (lenN (@nil str)) with 0. rewrite N.eqb_refl.
      cbn [rassert rbind ix_bound floret_ops]. unfold floret_bound. cbn [rbind fl_buckets].
      destruct (N.ltb_spec (0 + nb) two64); [reflexivity|lia].
  Qed.
End FloretFormat.
