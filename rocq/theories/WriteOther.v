(** * Which text is shown when a device is full: other formats. *)
From Coq Require Import Strings.String.
From Verif Require Import Base BaseFacts Utf8 Stream StreamFacts F32 ChunkIO Subword Vocab VocabFacts Storage Embeddings TextIO FastText EmbSpec
  FileSpec FastTextSpec FastTextFacts FastTextThms Messages MessageSpec WriteMessages WriteSpec WriteTexts.
Local Open Scope N_scope.

Lemma says_lift_ok {A} (r : res A) a w d f : r = Ok a -> says (w a) (d a) f -> says (Stream.bind (lift r) w) (wbind (wlift r) d) f.
Proof. intros -> S. exact S. Qed.

Section Text.
  Context (P : ftext_ops) {Md V S : Type} (VO : vocab_ops V) (SO : storage_ops f32 S) (u : bool) (e : embeddings Md V S f32).

  Definition text_total : N :=
    match emb_iter_with_norms f32_ops VO SO e with
    | Ok items => fold_right N.add 0 (map (fun it => lenN (text_line_of P (fst it) (output_vector u (snd it)))) items)
    | _ => 0
    end.
  Lemma says_text : says (write_text P VO SO u e) (tell_text P VO SO u e)
    (fun _ => match emb_iter_with_norms f32_ops VO SO e with Ok _ => [wd text_total "Cannot write word embedding"] | _ => [] end).
  Proof.
    unfold write_text, tell_text.
    apply (says_lift _ _ _ (fun items _ => [wd text_total "Cannot write word embedding"])). intros items E.
    unfold text_total. rewrite E. apply says_loop. intros [w en] _. apply says_bytes.
  Qed.

  Lemma text_full base bytes : run_writer (write_text P VO SO u e) base = Ok bytes ->
    tells_room (tell_text P VO SO u e) base bytes [wd (lenN bytes) "Cannot write word embedding"].
  Proof.
    intros R. pose proof (says_run _ _ _ _ _ says_text R) as H. cbv beta in H.
    destruct (emb_iter_with_norms f32_ops VO SO e) eqn:E; [| |].
    - assert (text_total = lenN bytes) as <-; [|exact H]. destruct H as [L _]. cbn [fields_len field_len wd] in L. lia.
    - unfold run_writer, write_text, Stream.bind, lift in R. rewrite E in R. discriminate.
    - unfold run_writer, write_text, Stream.bind, lift in R. rewrite E in R. discriminate.
  Qed.
  Lemma text_dims_full base bytes : run_writer (write_text_dims P VO SO u e) base = Ok bytes ->
    let first := lenN (dec_print (v_words_len VO (em_vocab e))) + 1 + lenN (dec_print (emb_dims SO e)) + 1 in
    tells_room (tell_text_dims P VO SO u e) base bytes (wtext_dims first (lenN bytes - first)).
  Proof.
    intros R first. pose proof (says_run _ _ _ _ _ (says_seq _ _ _ _ _ _ (says_bytes _ "Cannot write word embedding matrix shape") says_text) R) as H. cbv beta in H.
    assert (lenN (dims_line VO SO e) = first) as F.
    { unfold dims_line, first. rewrite !lenN_app. change (lenN [x20]) with 1. change (lenN [x0a]) with 1. lia. }
    rewrite F in H. destruct (emb_iter_with_norms f32_ops VO SO e) eqn:E.
    - assert (lenN bytes - first = text_total) as ->; [|exact H]. destruct H as [L _]. cbn [app fields_len field_len wd] in L. lia.
    - unfold run_writer, write_text_dims, write_text, Stream.bind, lift, write_bytes in R. cbn [k_cap] in R. rewrite E in R. discriminate.
    - unfold run_writer, write_text_dims, write_text, Stream.bind, lift, write_bytes in R. cbn [k_cap] in R. rewrite E in R. discriminate.
  Qed.

  Lemma items_words items cols rows : st_matrix SO (em_storage e) cols rows -> emb_iter_with_norms f32_ops VO SO e = Ok items ->
    map fst items = v_words VO (em_vocab e) /\ Forall (fun it => lenN (fst (snd it)) = cols) items.
  Proof.
    intros Mx E. apply rmap_Ok_inv in E. rewrite <- (enumerate_snd (v_words VO (em_vocab e))).
    induction E as [|[i w] it l its H E [IH1 IH2]]; [split; [reflexivity|constructor]|]. apply rbind_Ok_inv in H as (v & Hv & H).
    apply rbind_Ok_inv in H as (n & Hn & H). injection H as <-. cbn [map fst snd]. split; [f_equal; exact IH1|]. constructor; [|exact IH2]. cbn [fst snd].
    destruct (N.lt_ge_cases i (lenN rows)) as [Li|Li]; [|rewrite (sm_out _ _ _ _ Mx _ Li) in Hv; discriminate].
    apply nthN_lt in Li as [r Er]. rewrite (sm_row _ _ _ _ Mx _ _ Er) in Hv. injection Hv as <-.
    pose proof (sm_cols _ _ _ _ Mx) as C. rewrite Forall_forall in C. apply C. eapply nthN_In. exact Er.
  Qed.
  Lemma word2vec_full base bytes cols rows : st_matrix SO (em_storage e) cols rows -> run_writer (write_word2vec VO SO u e) base = Ok bytes ->
    let first := lenN (dec_print (v_words_len VO (em_vocab e))) + 1 + lenN (dec_print cols) + 1 in
    tells_room (tell_word2vec VO SO u e) base bytes (wword2vec first cols (v_words VO (em_vocab e))).
  Proof.
    intros Mx R first. assert (exists items, emb_iter_with_norms f32_ops VO SO e = Ok items) as [items E].
    { unfold run_writer, write_word2vec, Stream.bind, lift, write_bytes in R. cbn [k_cap] in R.
      destruct (emb_iter_with_norms f32_ops VO SO e); [eauto|discriminate|discriminate]. }
    destruct (items_words _ _ _ Mx E) as [IW IL]. revert R.
    apply (says_run _ _ (fun _ => wword2vec first cols (v_words VO (em_vocab e)))).
    eapply says_eq; [|unfold write_word2vec, tell_word2vec; apply says_seq; [apply says_bytes|eapply says_lift_ok; [exact E|]]].
    2:{ apply (says_for_each _ _ _ (fun it => [wd (lenN (fst it) + 1) "Cannot write token"; wd (4 * cols) "Cannot write embedding component";
          wd 1 "Cannot write embedding separator"])). intros [w en] HI. cbn [fst].
        eapply says_eq; [|apply says_seq; [apply says_bytes|apply says_seq; [apply says_floats|apply says_bytes]]].
        intros p. cbv beta. rewrite lenN_app. change (lenN [x20]) with 1. change (lenN [x0a]) with 1.
        rewrite Forall_forall in IL. specialize (IL _ HI). cbn [fst snd] in IL.
        assert (lenN (output_vector u en) = cols) as ->.
        { unfold output_vector, into_unnormalized, vscale. destruct u; [rewrite lenN_map|]; exact IL. }
        reflexivity. }
    intros p. cbv beta. unfold wword2vec. rewrite <- IW.
    assert (lenN (dims_line VO SO e) = first) as ->.
    { unfold dims_line, first, emb_dims. rewrite (sm_shape _ _ _ _ Mx). cbn [snd]. rewrite !lenN_app. change (lenN [x20]) with 1. change (lenN [x0a]) with 1. lia. }
    cbn [app]. f_equal. clear. induction items as [|it l IH]; [reflexivity|]. cbn [flat_map map app]. rewrite IH. reflexivity.
  Qed.
End Text.

Section Floret.
  Context (P : ftext_ops) (pf : profile) {Md : Type} (e : embeddings Md (subword_vocab floret_indexer) (array2 f32) f32).
  Lemma floret_full base bytes n : run_writer (write_floret_text P pf e) base = Ok bytes ->
    sub_vocab_len floret_ops pf (em_vocab e) = Ok n ->
    let first := lenN (floret_header e (n - sub_words_len (em_vocab e))) in
    tells_room (tell_floret_text P pf e) base bytes (wfloret_text first (lenN bytes - first)).
  Proof.
    intros R E first. assert (exists m, tells_room (tell_floret_text P pf e) base bytes (wfloret_text first m)) as [m H].
    { exists (fold_right N.add 0 (map (fun '(i, v) => lenN (dec_print i ++ [x20] ++ join [x20] (map (ft_print P) v) ++ [x0a]))
        (enumerate (dropN (sub_words_len (em_vocab e)) (a2_rows (em_storage e)))))).
      revert R. match goal with |- _ -> tells_room _ _ _ ?t => apply (says_run _ _ (fun _ => t)) end. unfold write_floret_text, tell_floret_text.
      eapply says_lift_ok; [exact E|]. cbv zeta.
      eapply says_eq; [|apply says_seq; [apply says_bytes|]].
      2:{ intros b o k' H. unfold Stream.bind, lift in H. unfold rassert in *.
          destruct (sub_words_len (em_vocab e) <=? a2_nrows (em_storage e)); [|discriminate].
          refine (says_loop _ _ _ (fun '(i, v) => lenN (dec_print i ++ [x20] ++ join [x20] (map (ft_print P) v) ++ [x0a])) (MWrite (txt "Cannot write embedding")) _ b o k' H).
          intros [i v] _. apply says_bytes. }
      intros p. cbv beta. cbn [app]. reflexivity. }
    assert (lenN bytes - first = m) as ->; [|exact H]. destruct H as [L _]. unfold wfloret_text in L. cbn [fields_len field_len wd] in L. lia.
  Qed.
End Floret.

Section FastText.
  Context (pf : profile) (T : toml_ops) {S : Type} (SO : storage_ops f32 S).
  Variables (e : embeddings (toml_table T) (subword_vocab ft_indexer) S f32) (cols : N) (rows : list (list f32)).
  Hypothesis made : ft_emb_made SO pf e cols rows.
  Notation v := (em_vocab e).

  Lemma says_ft_vocab : lenN (sv_words v) < two32 -> says (write_ft_vocab v) (tell_ft_vocab v) (fun _ =>
    [wd 4 "Cannot write vocabulary size"; wd 4 "Cannot write number of words"; wd 4 "Cannot write number of labels";
     wd 8 "Cannot write number of tokens"; wd 8 "Cannot write pruned vocabulary size"]
    ++ flat_map wentry (sv_words v)).
  Proof.
    intros L. destruct (ft_rows_count pf SO e cols rows made) as [LR SW]. unfold write_ft_vocab, tell_ft_vocab. rewrite SW, (proj2 (N.ltb_lt _ _) L).
    eapply says_lift_ok; [reflexivity|].
    eapply says_eq; [|do 3 (apply says_seq; [apply says_32|]); do 2 (apply says_seq; [apply says_64|])].
    2:{ apply (says_for_each _ _ _ wentry). intros w _.
        eapply says_eq; [|apply says_seq; [apply says_bytes|apply says_seq; [apply says_8|apply says_seq; [apply says_64|]]]].
        2:{ instantiate (1 := fun _ => [rd 1 "Cannot read entry type"]). intros b o k' H.
            refine (says_one (le_bytes 1 0) _ (MRead (txt "Cannot read entry type")) _ _ b o k' _).
            - intros k k2 E. unfold wio_read, write_u8. rewrite E. reflexivity.
            - intros k x k2 E. unfold wio_read, write_u8. rewrite E. reflexivity.
            - unfold write_entry_type, as_read, write_u8 in H. destruct (write_bytes (le_bytes 1 0) _) as [[[]|x|x] k2]; cbn [to_read] in H; congruence. }
        reflexivity. }
    intros p. cbv beta. reflexivity.
  Qed.
  Lemma item_len w en x : In (w, en) (ft_items f32_ops e rows) -> ft_word_vector f32_ops pf SO v (em_storage e) w en = Ok x -> lenN x = cols.
  Proof.
    intros HI E. pose proof (ft_word_rows_exact f32_ops pf SO e cols rows made) as X. apply rmap_Ok_inv in X.
    pose proof (ft_written_wf f32_ops pf SO e cols rows made) as C. unfold ft_written_rows in C. apply Forall_app in C as [C _]. rewrite Forall_forall in C.
    apply C. clear C. induction X as [|it r its rs E1 X IH]; [destruct HI|]. destruct HI as [->|HI]; [|right; auto].
    cbn [fst snd] in E1. left. congruence.
  Qed.
  Lemma says_ft_matrix : says (write_ft_matrix pf T SO e) (tell_ft_matrix pf SO e) (fun _ =>
     [wd 8 "Cannot write number of embedding matrix rows"; wd 8 "Cannot write number of embedding matrix columns";
      wd (4 * (lenN (sv_words v) * cols)) "Cannot write embedding"; wd (4 * (fi_buckets (sv_ix v) * cols)) "Cannot write subword embedding"]).
  Proof.
    destruct (ft_rows_count pf SO e cols rows made) as [LR SW]. pose proof made as (M & V & U & Mx & _).
    unfold write_ft_matrix, tell_ft_matrix. cbv zeta.
    eapply says_eq; [|apply says_seq; [apply says_64|apply says_seq; [apply says_64|
      apply says_lift_ok with (a := ft_items f32_ops e rows); [apply (ft_items_exact f32_ops pf SO e cols rows made)|apply says_seq]]]].
    2:{ apply (says_loop _ _ _ (fun _ => 4 * cols) (MWrite (txt "Cannot write embedding"))).
        intros [w en] HI. destruct (ft_item_row f32_ops pf SO e cols rows made w en HI) as (i & _ & _ & _ & _ & E).
        eapply says_lift_ok; [exact E|]. apply (item_len _ _ _ HI) in E. rewrite <- E. apply says_floats. }
    2:{ eapply says_lift_ok; [apply (ft_vocab_len pf _ M)|]. rewrite SW.
        replace (lenN (sv_words v) + fi_buckets (sv_ix v) - lenN (sv_words v)) with (fi_buckets (sv_ix v)) by lia.
        apply (says_loop _ _ _ (fun _ => 4 * cols) (MWrite (txt "Cannot write subword embedding"))).
        intros i HI. apply rangeN_In in HI. destruct (nthN_lt rows (lenN (sv_words v) + i)) as [r E]; [lia|].
        eapply says_lift_ok; [apply (sm_row _ _ _ _ Mx _ _ E)|].
        pose proof (sm_cols _ _ _ _ Mx) as C. rewrite Forall_forall in C. rewrite <- (C r) by (eapply nthN_In; exact E). apply says_floats. }
    intros p. cbv beta. rewrite !sum_const, rangeN_lenN.
    assert (lenN (ft_items f32_ops e rows) = lenN (sv_words v)) as ->.
    { unfold ft_items. rewrite lenN_map, <- (lenN_map snd), enumerate_snd. reflexivity. }
    cbn [app]. unfold wd. rewrite <- !N.mul_assoc, !(N.mul_comm cols). reflexivity.
  Qed.
  Lemma fasttext_full base bytes : run_writer (write_fasttext pf T SO e) base = Ok bytes ->
    tells_room (tell_fasttext pf SO e) base bytes (wfasttext cols (fi_buckets (sv_ix v)) (sv_words v)).
  Proof.
    intros R. pose proof made as (M & V & U & Mx & _). destruct (ft_bucket_small pf _ M) as (_ & B & _).
    destruct (ft_rows_count pf SO e cols rows made) as [LR SW].
    assert (cols < two32 /\ lenN (sv_words v) < two32) as [LC LW].
    { destruct (N.lt_ge_cases cols two32) as [X|X]; [split; [exact X|]; destruct (N.lt_ge_cases (lenN (sv_words v)) two32) as [Y|Y]; [exact Y|]|];
        rewrite (ft_write_overflow pf T SO e cols rows made) in R by tauto; discriminate. }
    revert R. match goal with |- _ -> tells_room _ _ _ ?t => apply (says_run _ _ (fun _ => t)) end. unfold write_fasttext, tell_fasttext. cbv zeta. rewrite (sm_shape _ _ _ _ Mx). cbn [snd].
    assert (fi_buckets (sv_ix v) <? two32 = true) as -> by (apply N.ltb_lt; unfold i32_max, two32 in *; lia).
    eapply says_lift_ok; [reflexivity|]. rewrite (proj2 (N.ltb_lt _ _) LC). eapply says_lift_ok; [reflexivity|].
    eapply says_eq; [|do 2 (apply says_seq; [apply says_32|]); apply says_seq; [|apply says_seq; [apply says_ft_vocab; exact LW|apply says_seq; [apply says_8|apply says_ft_matrix]]]].
    2:{ unfold write_config, tell_config. do 12 (apply says_seq; [apply says_32|]). apply says_64. }
    intros p. cbv beta. unfold wfasttext. rewrite <- !app_assoc. reflexivity.
  Qed.
End FastText.
