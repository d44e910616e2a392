(** * Facts about the rows of fastText models. *)
From Verif Require Import Base BaseFacts Utf8 F32 Stream ChunkIO Subword SubwordFacts IndexerFacts Vocab VocabFacts Storage Embeddings
  TextIO FastText VocabSpec EmbSpec TextSpec FileSpec FastTextSpec LookupFacts EmbFacts MatrixFacts BatchFacts.
From Coq Require Import Sorting.Permutation.
Local Open Scope N_scope.

(** What the vocabulary returns for a word. *)
Definition ft_subs (pf : profile) (v : subword_vocab ft_indexer) (w : str) : list N :=
  match sub_subword_indices ft_ops pf v w with Ok (Some is) => is | _ => [] end.

Lemma ft_made_vocab pf v : ft_made pf v -> vocab_made pf (VFastText v).
Proof. intros (ws & mn & mx & n & ix & bow & eow & NZ & E & B). econstructor; eauto. econstructor; eauto. Qed.

Section Vocabulary.
  Context (pf : profile) (v : subword_vocab ft_indexer).
  Hypothesis made : ft_made pf v.

  Lemma ft_bucket_small : fi_buckets (sv_ix v) <> 0 /\ fi_buckets (sv_ix v) <= i32_max /\
    lenN (sv_words v) + fi_buckets (sv_ix v) < two64 /\ NoDup (sv_words v).
  Proof.
    destruct made as (ws & mn & mx & n & ix & bow & eow & NZ & E & B).
    apply sub_new_Ok in B as (ND & -> & b & Eb & L). cbn [sv_ix sv_words].
    cbn [ix_bound ft_ops] in Eb. unfold ft_bound in Eb. inv Eb.
    unfold ft_indexer_new in E. apply rbind_Ok_inv in E as (u & EQ & E). inv E. destruct u. apply rassert_Ok in EQ. apply N.leb_le in EQ.
    cbn [fi_buckets] in *. rewrite N.mod_small in * by (unfold i32_max, two32 in *; lia). auto.
  Qed.

  Lemma ft_vocab_len : sub_vocab_len ft_ops pf v = Ok (lenN (sv_words v) + fi_buckets (sv_ix v)).
  Proof.
    destruct made as (ws & mn & mx & n & ix & bow & eow & NZ & E0 & B). assert (ix_made _ ft_ops ix) as M by (econstructor; eauto).
    destruct (sub_vocab_len_exact _ _ _ _ _ _ _ _ _ B) as (b & Eb & E).
    cbn [ix_bound ft_ops] in Eb. unfold ft_bound in Eb. inv Eb.
    apply sub_new_Ok in B as (_ & -> & _). cbn [sv_ix sv_words]. exact E.
  Qed.

  Hypothesis usable : vocab_usable (VFastText v).

  (** The subword rows of a string, and what the vocabulary returns. *)
  Lemma subs_index w : utf8_valid w = true -> subwords_of v w (ft_subs pf v w) /\
    Forall (fun i => lenN (sv_words v) <= i < lenN (sv_words v) + fi_buckets (sv_ix v)) (ft_subs pf v w) /\
    sub_subword_indices ft_ops pf v w = Ok (match ft_subs pf v w with [] => None | _ => Some (ft_subs pf v w) end).
  Proof.
    intros V. destruct made as (ws & mn & mx & n & ix & bow & eow & NZ & E0 & B).
    assert (ix_made _ ft_ops ix) as M by (econstructor; eauto).
    assert (v = mkSub bow eow ix (create_indices ws) ws mn mx) as Ev by (apply sub_new_Ok in B as (_ & -> & _); reflexivity).
    destruct (usable (sv_min v) (sv_max v) (sv_bow v) (sv_eow v) eq_refl) as (R & Vb & Ve).
    rewrite Ev in R, Vb, Ve. cbn [sv_min sv_max sv_bow sv_eow] in R, Vb, Ve.
    destruct (sub_indices_exact _ _ _ _ _ _ _ _ _ M B Vb Ve w R V) as (qs & iss & Q & A & F & E & _).
    assert (ft_subs pf v w = map (fun i => lenN ws + i) (concat iss)) as EQ.
    { unfold ft_subs. rewrite E. destruct (concat iss); reflexivity. }
    rewrite EQ. rewrite E. rewrite Ev. cbn [sv_words sv_ix]. split; [|split].
    - exists qs, iss. cbn [sv_bow sv_eow sv_min sv_max sv_ix sv_words]. auto.
    - apply Forall_map. eapply Forall_impl; [|exact F]. cbn beta. intros i (b & Eb & L).
      cbn [ix_bound ft_ops] in Eb. unfold ft_bound in Eb. inv Eb. lia.
    - destruct (concat iss); reflexivity.
  Qed.

  Lemma ft_subs_are : vocab_utf8 v -> subwords_are v (ft_subs pf v).
  Proof. unfold vocab_utf8. rewrite Forall_forall. intros V w H. apply subs_index. auto. Qed.
End Vocabulary.

Section Rows.
  Context {F : Type} (o : fops F).

  (** *** Folds of rows *)
  Section Fold.
    Context (f : F -> F -> F).
    Lemma fold_zip_len (subs : list (list F)) : forall own, Forall (fun r => lenN r = lenN own) subs ->
      lenN (fold_left (zip_with f) subs own) = lenN own.
    Proof.
      induction subs as [|r subs IH]; intros own H; [reflexivity|]. inv H. cbn [fold_left].
      assert (lenN (zip_with f own r) = lenN own) as L.
      { unfold lenN in *. rewrite zip_with_length. lia. }
      rewrite IH; [exact L|]. rewrite L. auto.
    Qed.
    Lemma fold_zip_nth (subs : list (list F)) j : forall own, Forall (fun r => lenN r = lenN own) subs -> (j < length own)%nat ->
      nth j (fold_left (zip_with f) subs own) (fzero o)
      = fold_left (fun a r => f a (nth j r (fzero o))) subs (nth j own (fzero o)).
    Proof.
      induction subs as [|r subs IH]; intros own H Lj; [reflexivity|]. inv H. cbn [fold_left].
      assert (length r = length own) as Lr by (unfold lenN in *; lia).
      rewrite IH.
      - f_equal. apply zip_with_nth; lia.
      - eapply Forall_impl; [|eassumption]. cbn beta. intros x Hx. rewrite Hx. unfold lenN. rewrite zip_with_length. lia.
      - rewrite zip_with_length. lia.
    Qed.
    Lemma fold_zip_eq (subs : list (list F)) own : Forall (fun r => lenN r = lenN own) subs ->
      fold_left (zip_with f) subs own
      = map (fun j => fold_left (fun a r => f a (at_ o j r)) subs (at_ o j own)) (seq 0 (length own)).
    Proof.
      intros H. rewrite (map_nth_seq (fold_left (zip_with f) subs own) (fzero o)).
      assert (length (fold_left (zip_with f) subs own) = length own) as ->
        by (pose proof (fold_zip_len subs own H) as L; unfold lenN in L; lia).
      apply map_ext_in. intros j Hj. apply in_seq in Hj. unfold at_. apply fold_zip_nth; [auto|lia].
    Qed.
  End Fold.

  Lemma mean_row_eq own subs : Forall (fun r => lenN r = lenN own) subs -> subs <> [] ->
    vdivs o (fold_left (vadd o) subs own) (fof_N o (lenN subs + 1)) = mean_row o own subs.
  Proof.
    intros H NE. unfold mean_row. destruct subs as [|r subs]; [congruence|]. unfold vdivs, vadd.
    rewrite fold_zip_eq by auto. rewrite map_map. reflexivity.
  Qed.
  Lemma unmean_row_eq d n subs : Forall (fun r => lenN r = lenN d) subs -> subs <> [] ->
    fold_left (vsub o) subs (vscale o (vscale o d n) (fof_N o (lenN subs + 1))) = unmean_row o d n subs.
  Proof.
    intros H NE. unfold unmean_row. destruct subs as [|r subs]; [congruence|]. unfold vsub, vscale.
    rewrite fold_zip_eq by (rewrite !lenN_map; auto). rewrite !map_length. apply map_ext_in. intros j Hj. apply in_seq in Hj.
    f_equal. unfold at_. rewrite map_map.
    rewrite (nth_indep _ (fzero o) ((fun x => fmul o (fmul o x n) (fof_N o (lenN (r :: subs) + 1))) (fzero o)))
      by (rewrite map_length; lia).
    exact (map_nth (fun x => fmul o (fmul o x n) (fof_N o (lenN (r :: subs) + 1))) d (fzero o) j).
  Qed.
  Lemma mean_row_len own subs : lenN (mean_row o own subs) = lenN own.
  Proof. unfold mean_row. destruct subs; [reflexivity|]. rewrite lenN_map. unfold lenN. rewrite seq_length. reflexivity. Qed.
  Lemma unmean_row_len d n subs : lenN (unmean_row o d n subs) = lenN d.
  Proof.
    unfold unmean_row. destruct subs; [apply lenN_map|]. rewrite lenN_map. unfold lenN. rewrite seq_length. reflexivity.
  Qed.

  Lemma rfold_selected (g : list F -> list F -> list F) rows is subs acc : selects rows is subs ->
    rfold (fun acc j => let* x := index rows j in Ok (g acc x)) is acc = Ok (fold_left g subs acc).
  Proof.
    intros S. revert acc. induction S as [|i r is rs E S IH]; intros acc; [reflexivity|].
    cbn [rfold fold_left]. unfold index at 1. rewrite E. cbn [rbind]. apply IH.
  Qed.

  (** *** Means of the word rows *)
  Section Means.
    Context (pf : profile) (v : subword_vocab ft_indexer).
    Hypothesis made : ft_made pf v.
    Hypothesis usable : vocab_usable (VFastText v).
    Hypothesis valid : vocab_utf8 v.

    (** One step; the row is as in [a0], the subword rows too. *)
    Lemma step_exact (a a0 : array2 F) i w own : nthN (sv_words v) i = Some w ->
      lenN (sv_words v) + fi_buckets (sv_ix v) <= lenN (a2_rows a) ->
      a2_wf a0 ->
      (forall j, lenN (sv_words v) <= j -> nthN (a2_rows a) j = nthN (a2_rows a0) j) ->
      nthN (a2_rows a) i = Some own -> nthN (a2_rows a0) i = Some own ->
      exists subs, selects (a2_rows a0) (ft_subs pf v w) subs /\
      add_subwords_step o pf v a (i, w) = Ok (mkA2 (a2_cols a) (set_nth (N.to_nat i) (mean_row o own subs) (a2_rows a))).
    Proof.
      intros Ew L W Same Ei Ei0.
      assert (utf8_valid w = true) as Vw by (unfold vocab_utf8 in valid; rewrite Forall_forall in valid; apply valid; eapply nthN_In; eauto).
      destruct (subs_index pf v made usable w Vw) as (_ & B & E).
      set (is := ft_subs pf v w) in *. clearbody is.
      destruct (selects_total (a2_rows a) is) as [subs Sub].
      { eapply Forall_impl; [|exact B]. cbn beta. intros; lia. }
      assert (selects (a2_rows a0) is subs) as Sub0.
      { clear -Sub B Same. unfold selects in *. induction Sub; constructor; inv B; auto. rewrite <- Same; auto. lia. }
      exists subs. split; [auto|]. unfold add_subwords_step. rewrite E. cbn [rbind].
      assert (Forall (fun r => lenN r = lenN own) subs) as Eq.
      { assert (Forall (fun r => lenN r = a2_cols a0) subs) as Fs by (eapply selects_Forall; eauto).
        assert (lenN own = a2_cols a0) as -> by (unfold a2_wf in W; rewrite Forall_forall in W; apply W; eapply nthN_In; eauto).
        exact Fs. }
      destruct is as [|i0 is].
      - inv Sub. cbn [mean_row]. f_equal. destruct a as [c r]. cbn [a2_cols a2_rows] in *. f_equal.
        apply nthN_ext. intros n. rewrite nthN_set_nth. destruct (N.eqb_spec n i) as [->|]; [rewrite Ei|]; reflexivity.
      - unfold a2_row at 1. unfold index at 1. rewrite Ei. cbn [rbind]. unfold a2_row.
        rewrite (rfold_selected (vadd o) _ _ _ _ Sub). cbn [rbind].
        assert (lenN (i0 :: is) = lenN subs) as -> by (apply selects_length in Sub; unfold lenN; lia).
        rewrite mean_row_eq; [|auto|inv Sub; discriminate].
        rewrite set_row_Ok by (eapply nthN_Some_lt; eauto). cbn [rbind]. reflexivity.
    Qed.

    Lemma steps_exact a0 : a2_wf a0 -> lenN (sv_words v) + fi_buckets (sv_ix v) <= lenN (a2_rows a0) ->
      forall l a, NoDup (map fst l) -> Forall (fun iw => nthN (sv_words v) (fst iw) = Some (snd iw)) l ->
      a2_cols a = a2_cols a0 -> lenN (a2_rows a) = lenN (a2_rows a0) ->
      (forall j, ~ In j (map fst l) -> lenN (sv_words v) <= j -> nthN (a2_rows a) j = nthN (a2_rows a0) j) ->
      (forall j, In j (map fst l) -> nthN (a2_rows a) j = nthN (a2_rows a0) j) ->
      exists rows, rfold (add_subwords_step o pf v) l a = Ok (mkA2 (a2_cols a0) rows) /\
      lenN rows = lenN (a2_rows a0) /\
      (forall j, ~ In j (map fst l) -> nthN rows j = nthN (a2_rows a) j) /\
      (forall i w, In (i, w) l -> exists own subs, nthN (a2_rows a0) i = Some own /\
         selects (a2_rows a0) (ft_subs pf v w) subs /\ nthN rows i = Some (mean_row o own subs)).
    Proof.
      intros W L. induction l as [|[i w] l IH]; intros a ND FA C La Sub Un.
      - exists (a2_rows a). cbn [rfold map In]. repeat split; auto; [|tauto]. destruct a as [ac ar]. cbn [a2_cols a2_rows] in *. subst. reflexivity.
      - cbn [map fst] in ND, Sub, Un. inv ND. inv FA. cbn [fst snd] in *.
        assert (i < lenN (sv_words v)) as Li by (eapply nthN_Some_lt; eauto).
        destruct (nthN_lt (a2_rows a0) i) as [own E0]; [lia|].
        assert (nthN (a2_rows a) i = Some own) as Ei by (rewrite Un; [auto|left; reflexivity]).
        assert (forall j, lenN (sv_words v) <= j -> ~ In j (map fst l)) as NI.
        { intros j Lj In_. apply in_map_iff in In_ as ([j' w'] & <- & HIn).
          match goal with H : Forall _ l |- _ => rewrite Forall_forall in H; apply H in HIn end. cbn [fst snd] in *.
          apply nthN_Some_lt in HIn. lia. }
        destruct (step_exact a a0 i w own) as (subs & Sel & E); auto; try lia.
        { intros j Lj. apply Sub; [|auto]. intros [<-|In_]; [lia|]. eapply NI; eauto. }
        cbn [rfold]. rewrite E. cbn [rbind].
        destruct (IH (mkA2 (a2_cols a) (set_nth (N.to_nat i) (mean_row o own subs) (a2_rows a)))) as (rows & ER & LR & Out & Ins); auto.
        { cbn [a2_rows]. unfold lenN in *. rewrite set_nth_length. auto. }
        { intros j NIj Lj. cbn [a2_rows]. rewrite nthN_set_nth. destruct (N.eqb_spec j i) as [->|NE]; [lia|].
          apply Sub; [|auto]. intros [<-|In_]; [lia|]. eapply NI; eauto. }
        { intros j In_. cbn [a2_rows]. rewrite nthN_set_nth. destruct (N.eqb_spec j i) as [->|NE]; [contradiction|].
          apply Un. right; auto. }
        exists rows. split; [exact ER|]. split; [exact LR|]. split.
        + intros j NIj. cbn [map fst In] in NIj. rewrite Out by tauto. cbn [a2_rows]. rewrite nthN_set_nth.
          destruct (N.eqb_spec j i) as [->|NE]; [exfalso; apply NIj; left; reflexivity|reflexivity].
        + intros i' w' [EQ|HIn]; [|eauto]. inv EQ. exists own, subs. repeat split; auto.
          rewrite Out by auto. cbn [a2_rows]. rewrite nthN_set_nth, N.eqb_refl, Ei. reflexivity.
    Qed.

    (** Any order of the words. *)
    Lemma averaging_exact a l : a2_wf a -> lenN (sv_words v) + fi_buckets (sv_ix v) <= lenN (a2_rows a) ->
      Permutation l (enumerate (sv_words v)) ->
      exists rows, rfold (add_subwords_step o pf v) l a = Ok (mkA2 (a2_cols a) rows) /\ averaged o v (ft_subs pf v) (a2_rows a) rows.
    Proof.
      intros W L P.
      assert (forall iw, In iw l <-> nthN (sv_words v) (fst iw) = Some (snd iw)) as HIn.
      { intros [i w]. cbn [fst snd]. rewrite <- enumerate_In. split; apply Permutation_in; [auto|symmetry; auto]. }
      destruct (steps_exact a W L l a) as (rows & E & LR & Out & Ins); auto.
      { eapply Permutation_NoDup; [symmetry; apply Permutation_map; exact P|]. apply enumerate_from_fst_NoDup. }
      { apply Forall_forall. intros iw H. apply HIn; auto. }
      exists rows. split; [exact E|]. split; [exact LR|]. split.
      - intros i Li. apply Out. intros H. apply in_map_iff in H as ([j w] & <- & H). apply HIn in H. cbn [fst snd] in *.
        apply nthN_Some_lt in H. lia.
      - intros i w Ew. apply Ins. apply HIn. exact Ew.
    Qed.
    Lemma add_subwords_exact a : a2_wf a -> lenN (sv_words v) + fi_buckets (sv_ix v) <= lenN (a2_rows a) ->
      exists rows, add_subword_embeddings o pf v a = Ok (mkA2 (a2_cols a) rows) /\ averaged o v (ft_subs pf v) (a2_rows a) rows.
    Proof. intros W L. apply averaging_exact; auto. Qed.
  End Means.

  Lemma word_rows_fun v subs f (rows r1 r2 : list (list F)) : word_rows v subs rows r1 f -> word_rows v subs rows r2 f -> r1 = r2.
  Proof.
    intros (L1 & S1 & W1) (L2 & S2 & W2). apply nthN_ext. intros i.
    destruct (N.lt_ge_cases i (lenN (sv_words v))) as [Li|Li]; [|rewrite S1, S2 by auto; reflexivity].
    destruct (nthN_lt _ _ Li) as [w Ew].
    destruct (W1 i w Ew) as (own & rs & E & Sel & ->). destruct (W2 i w Ew) as (own' & rs' & E' & Sel' & ->).
    rewrite E in E'. inv E'.
    assert (rs = rs') as <- by (apply selects_rmap in Sel, Sel'; congruence). reflexivity.
  Qed.

  (** The order in which the words are visited does not matter. *)
  Lemma averaging_order pf v a l : ft_made pf v -> vocab_usable (VFastText v) -> vocab_utf8 v -> a2_wf a ->
    lenN (sv_words v) + fi_buckets (sv_ix v) <= lenN (a2_rows a) ->
    Permutation l (enumerate (sv_words v)) ->
    rfold (add_subwords_step o pf v) l a = add_subword_embeddings o pf v a.
  Proof.
    intros M U V W L P. destruct (averaging_exact pf v M U V a l W L P) as (r1 & -> & A1).
    destruct (add_subwords_exact pf v M U V a W L) as (r2 & -> & A2). f_equal. f_equal. eapply word_rows_fun; eauto.
  Qed.

  Lemma averaged_wf v subs (a : array2 F) rows : a2_wf a -> averaged o v subs (a2_rows a) rows -> a2_wf (mkA2 (a2_cols a) rows).
  Proof.
    unfold a2_wf. cbn [a2_cols a2_rows]. intros W (L & S & E). apply Forall_forall. intros r H. apply In_nthN in H as [i H].
    rewrite Forall_forall in W.
    destruct (N.lt_ge_cases i (lenN (sv_words v))) as [Li|Li].
    - destruct (nthN_lt _ _ Li) as [w Ew]. destruct (E i w Ew) as (own & rs & Eo & _ & E'). rewrite E' in H. inv H.
      rewrite mean_row_len. apply W. eapply nthN_In; eauto.
    - rewrite S in H by auto. apply W. eapply nthN_In; eauto.
  Qed.

  (** *** Normalisation of the first rows *)
  Lemma normalize_words_exact k (a : array2 F) : k <= lenN (a2_rows a) -> exists rows ns,
    normalize_words o k a = Ok (mkA2 (a2_cols a) rows, ns) /\ first_normalized o k (a2_rows a) rows ns.
  Proof.
    intros L. unfold normalize_words, a2_nrows.
    rewrite (proj2 (N.leb_le _ _) L). cbn [rassert rbind l2_normalize_array]. unfold vec.
    do 2 eexists. split; [reflexivity|].
    assert (lenN (takeN k (a2_rows a)) = k) as LT by (rewrite lenN_takeN; lia).
    assert (forall i, nthN (a2_rows a) i = nthN (takeN k (a2_rows a) ++ dropN k (a2_rows a)) i) as EQ
      by (intros; rewrite takeN_dropN; reflexivity).
    repeat split.
    - rewrite lenN_app, !lenN_map, <- lenN_app, takeN_dropN. reflexivity.
    - rewrite !lenN_map. auto.
    - intros i Li. rewrite EQ. rewrite !nthN_app2 by (rewrite ?lenN_map; lia). rewrite !lenN_map. reflexivity.
    - intros i r Li E. rewrite EQ, nthN_app1 in E by lia.
      exists (fst (l2_normalize o r)), (snd (l2_normalize o r)). split; [|split].
      + rewrite nthN_app1 by (rewrite !lenN_map; lia). rewrite !nthN_map, E. reflexivity.
      + rewrite !nthN_map, E. reflexivity.
      + apply l2_normalize_scaled.
  Qed.
  Lemma first_normalized_fun k rows r1 r2 n1 n2 :
    first_normalized o k rows r1 n1 -> first_normalized o k rows r2 n2 -> k <= lenN rows -> r1 = r2 /\ n1 = n2.
  Proof.
    intros (L1 & K1 & S1 & W1) (L2 & K2 & S2 & W2) L.
    assert (forall i, i < k -> nthN r1 i = nthN r2 i /\ nthN n1 i = nthN n2 i) as H.
    { intros i Li. destruct (nthN_lt rows i) as [r E]; [lia|].
      destruct (W1 i r Li E) as (d & n & -> & -> & En & Z & NZ). destruct (W2 i r Li E) as (d' & n' & -> & -> & En' & Z' & NZ').
      assert (n = n') as <- by congruence. split; [|reflexivity]. f_equal. destruct (fis_zero o n) eqn:EZ; [rewrite Z, Z'|rewrite NZ, NZ']; auto. }
    split; apply nthN_ext; intros i; destruct (N.lt_ge_cases i k) as [Li|Li].
    - apply H; auto.
    - rewrite S1, S2 by auto. reflexivity.
    - apply H; auto.
    - rewrite !(proj2 (nthN_None _ _)) by lia. reflexivity.
  Qed.
  Lemma first_normalized_wf k cols rows rows' ns : Forall (fun r => lenN r = cols) rows -> first_normalized o k rows rows' ns ->
    Forall (fun r => lenN r = cols) rows'.
  Proof.
    intros W (L & K & S & E). rewrite Forall_forall in *. intros r H. apply In_nthN in H as [i H].
    destruct (N.lt_ge_cases i k) as [Li|Li].
    - destruct (nthN_lt rows i) as [u Eu]; [rewrite <- L; eapply nthN_Some_lt; eauto|].
      destruct (E i u Li Eu) as (d & n & Ed & _ & _ & Z & NZ). rewrite Ed in H. inv H.
      assert (lenN u = cols) as Lu by (apply W; eapply nthN_In; eauto).
      destruct (fis_zero o n) eqn:EZ; [rewrite Z by auto; auto|rewrite NZ by auto; rewrite lenN_map; auto].
    - rewrite S in H by auto. apply W. eapply nthN_In; eauto.
  Qed.

  (** *** The vectors that are written *)
  Section Written.
    Context (pf : profile) (v : subword_vocab ft_indexer).
    Hypothesis made : ft_made pf v.
    Hypothesis usable : vocab_usable (VFastText v).
    Context {S : Type} (SO : storage_ops F S) (s : S) (cols : N) (rows : list (list F)).
    Hypothesis matrix : st_matrix SO s cols rows.
    Hypothesis size : lenN rows = lenN (sv_words v) + fi_buckets (sv_ix v).

    Lemma word_vector_exact w d n : utf8_valid w = true -> lenN d = cols -> exists subs, selects rows (ft_subs pf v w) subs /\ ft_word_vector o pf SO v s w (d, n) = Ok (unmean_row o d n subs).
    Proof.
      intros V L. destruct (subs_index pf v made usable w V) as (_ & B & E).
      set (is := ft_subs pf v w) in *. clearbody is.
      destruct (selects_total rows is) as [subs Sel].
      { rewrite size. eapply Forall_impl; [|exact B]. cbn beta. intros; lia. }
      exists subs. split; [auto|]. unfold ft_word_vector. rewrite E. cbn [rbind fst snd].
      destruct is as [|i is]; [inv Sel; reflexivity|].
      assert (forall acc, rfold (fun acc j => let* y := st_embedding SO s j in Ok (vsub o acc y)) (i :: is) acc
              = rfold (fun acc j => let* x := index rows j in Ok (vsub o acc x)) (i :: is) acc) as ->.
      { clear -Sel matrix. intros acc. revert acc Sel. generalize (i :: is). intros l acc Sel. revert acc. unfold selects in Sel.
        induction Sel as [|j r l rs E Sel IH]; intros acc; [reflexivity|]. cbn [rfold].
        rewrite (sm_row _ _ _ _ matrix _ _ E). unfold index at 1. rewrite E. cbn [rbind]. apply IH. }
      rewrite (rfold_selected (vsub o) _ _ _ _ Sel).
      assert (lenN (i :: is) = lenN subs) as -> by (apply selects_length in Sel; unfold lenN; lia).
      f_equal. apply unmean_row_eq; [|inv Sel; discriminate].
      pose proof (sm_cols _ _ _ _ matrix) as C. rewrite L. eapply selects_Forall; eauto.
    Qed.
  End Written.
End Rows.

(** ** The rows that are written *)
Lemma nthN_dropN {A} (l : list A) k i : nthN (dropN k l) i = nthN l (k + i).
Proof.
  destruct (N.le_gt_cases k (lenN l)) as [L|L].
  - rewrite <- (takeN_dropN k l) at 2. rewrite nthN_app2 by (rewrite lenN_takeN; lia). f_equal. rewrite lenN_takeN. lia.
  - rewrite !(proj2 (nthN_None _ _)); [reflexivity|lia|rewrite lenN_dropN; lia].
Qed.
Lemma Forall2_map_r {A B} (f : A -> B) (R : A -> B -> Prop) l : (forall a, In a l -> R a (f a)) -> Forall2 R l (map f l).
Proof. induction l as [|a l IH]; intros H; constructor; [apply H; left; reflexivity|]. apply IH. intros; apply H; right; auto. Qed.
Lemma Forall2_map_lr {A B C} (f : A -> B) (g : A -> C) (R : B -> C -> Prop) l : (forall a, In a l -> R (f a) (g a)) -> Forall2 R (map f l) (map g l).
Proof. induction l as [|a l IH]; intros H; constructor; [apply H; left; reflexivity|]. apply IH. intros; apply H; right; auto. Qed.
Lemma selects_nth {A} (d : A) rows is rs : selects rows is rs -> rs = map (fun i => nth (N.to_nat i) rows d) is.
Proof.
  induction 1 as [|i r is rs E S IH]; [reflexivity|]. cbn [map]. f_equal; [|exact IH].
  rewrite nthN_spec in E. symmetry. apply nth_error_nth. exact E.
Qed.
Lemma nthN_enumerate {A} (l : list A) i : nthN (enumerate l) i = option_map (fun a => (i, a)) (nthN l i).
Proof.
  destruct (nthN l i) as [a|] eqn:E.
  - pose proof (proj2 (enumerate_In l i a) E) as H. unfold enumerate in *.
    assert (forall l k i, nthN (enumerate_from k l) i = option_map (fun a : A => (k + i, a)) (nthN l i)) as G.
    { clear. induction l as [|a l IH]; intros k i; [destruct i; reflexivity|]. cbn [enumerate_from]. destruct i as [|p].
      - rewrite !nthN_spec. cbn [N.to_nat nth_error option_map]. rewrite N.add_0_r. reflexivity.
      - replace (N.pos p) with (N.succ (N.pred (N.pos p))) by lia. rewrite !nthN_spec. rewrite !N2Nat.inj_succ. cbn [nth_error]. rewrite <- !nthN_spec.
        rewrite IH. destruct (nthN l (N.pred (N.pos p))); [|reflexivity]. cbn [option_map]. f_equal. f_equal. lia. }
    rewrite G, E. cbn [option_map]. f_equal.
  - apply nthN_None in E. cbn [option_map]. apply nthN_None. unfold lenN in *.
    assert (forall (l0 : list A) k, length (enumerate_from k l0) = length l0) as G by (clear; induction l0 as [|a l0 IH]; intros k; cbn [enumerate_from length]; [reflexivity|rewrite IH; reflexivity]).
    unfold enumerate. rewrite G. exact E.
Qed.
Lemma rows_from {A} (d : A) (rows : list A) k b : lenN rows = k + b ->
  map (fun i => nth (N.to_nat (k + i)) rows d) (rangeN b) = dropN k rows.
Proof.
  intros L. apply nthN_ext. intros i. rewrite nthN_map.
  destruct (N.lt_ge_cases i b) as [Li|Li].
  - rewrite rangeN_nth by auto. cbn [option_map]. rewrite nthN_dropN. symmetry.
    destruct (nthN_lt rows (k + i)) as [r E]; [lia|]. rewrite E. rewrite nthN_spec in E. rewrite (nth_error_nth _ _ _ E). reflexivity.
  - rewrite !(proj2 (nthN_None _ _)); [reflexivity|rewrite lenN_dropN; lia|rewrite rangeN_lenN; lia].
Qed.

Section WrittenRows.
  Context {F Md S : Type} (o : fops F) (pf : profile) (SO : storage_ops F S).
  Variables (e : embeddings Md (subword_vocab ft_indexer) S F) (cols : N) (rows : list (list F)).
  Hypothesis made : ft_emb_made SO pf e cols rows.
  Notation v := (em_vocab e).

  Lemma ft_rows_count : lenN rows = lenN (sv_words v) + fi_buckets (sv_ix v) /\ sub_words_len v = lenN (sv_words v).
  Proof.
    destruct made as (M & _ & _ & Mx & NE & _). unfold emb_new_with_maybe_norms in NE. cbn [v_vocab_len sub_ops] in NE.
    rewrite (ft_vocab_len pf _ M) in NE. cbn [rbind] in NE. apply rbind_Ok_inv in NE as (u & H & _). apply rassert_Ok, N.eqb_eq in H.
    rewrite (sm_shape _ _ _ _ Mx) in H. cbn [fst] in H. split; [auto|].
    destruct M as (ws & mn & mx & n & ix & bow & eow & _ & _ & B). apply sub_new_Ok in B as (ND & -> & _).
    unfold sub_words_len. cbn [sv_indices sv_words]. symmetry. apply ci_len_NoDup. exact ND.
  Qed.

  Definition ft_items : list (str * (list F * F)) :=
    map (fun iw => (snd iw, (nth (N.to_nat (fst iw)) rows [], ft_norm o e (fst iw)))) (enumerate (sv_words v)).
  Lemma ft_items_exact : emb_iter_with_norms o (sub_ops ft_ops) SO e = Ok ft_items.
  Proof.
    destruct made as (M & _ & _ & Mx & _ & NF). destruct ft_rows_count as [LR _]. unfold emb_iter_with_norms, ft_items. cbn [v_words sub_ops].
    apply rmap_Ok. apply Forall2_map_r. intros [i w] H. apply enumerate_In in H. apply nthN_Some_lt in H. cbn [fst snd].
    destruct (nthN_lt rows i) as [r E]; [lia|]. rewrite (sm_row _ _ _ _ Mx _ _ E). cbn [rbind].
    rewrite nthN_spec in E. rewrite (nth_error_nth _ _ _ E).
    unfold norm_at, ft_norm. destruct (em_norms e) as [ns|] eqn:EN; [|reflexivity].
    destruct (nthN_lt ns i) as [n En]; [rewrite NF by auto; auto|]. unfold index. rewrite En. rewrite nthN_spec in En. rewrite (nth_error_nth _ _ _ En). reflexivity.
  Qed.

  Definition ft_word_rows : list (list F) :=
    map (fun iw => unmean_row o (nth (N.to_nat (fst iw)) rows []) (ft_norm o e (fst iw))
                     (map (fun j => nth (N.to_nat j) rows []) (ft_subs pf v (snd iw)))) (enumerate (sv_words v)).
  Definition ft_written_rows : list (list F) := ft_word_rows ++ dropN (lenN (sv_words v)) rows.

  Lemma ft_item_row w en : In (w, en) ft_items -> exists i, nthN (sv_words v) i = Some w /\
    en = (nth (N.to_nat i) rows [], ft_norm o e i) /\ nthN rows i = Some (nth (N.to_nat i) rows []) /\
    (exists subs, selects rows (ft_subs pf v w) subs) /\
    ft_word_vector o pf SO v (em_storage e) w en = Ok (unmean_row o (nth (N.to_nat i) rows []) (ft_norm o e i)
                     (map (fun j => nth (N.to_nat j) rows []) (ft_subs pf v w))).
  Proof.
    intros H. destruct made as (M & V & U & Mx & _ & NF). destruct ft_rows_count as [LR _].
    unfold ft_items in H. apply in_map_iff in H as ([i w'] & E & H). cbn [fst snd] in E. inv E. apply enumerate_In in H.
    destruct (nthN_lt rows i) as [r E]; [apply nthN_Some_lt in H; lia|]. exists i. split; [auto|]. split; [reflexivity|].
    assert (nth (N.to_nat i) rows [] = r) as -> by (rewrite nthN_spec in E; apply nth_error_nth; auto). split; [auto|].
    assert (utf8_valid w = true) as Vw by (unfold vocab_utf8 in V; rewrite Forall_forall in V; apply V; eapply nthN_In; eauto).
    assert (lenN r = cols) as Lr by (pose proof (sm_cols _ _ _ _ Mx) as C; rewrite Forall_forall in C; apply C; eapply nthN_In; eauto).
    destruct (word_vector_exact o pf v M U SO (em_storage e) cols rows Mx LR w r (ft_norm o e i) Vw Lr) as (subs & Sel & E2).
    rewrite (selects_nth [] _ _ _ Sel) in E2. split; [eauto|exact E2].
  Qed.
  Lemma ft_word_rows_exact : rmap (fun it => ft_word_vector o pf SO v (em_storage e) (fst it) (snd it)) ft_items = Ok ft_word_rows.
  Proof.
    apply rmap_Ok. unfold ft_word_rows, ft_items. apply Forall2_map_lr. intros [i w] H. cbn [fst snd].
    destruct (ft_item_row w (nth (N.to_nat i) rows [], ft_norm o e i)) as (i' & E' & EN & _ & _ & E).
    - unfold ft_items. apply in_map_iff. exists (i, w). split; [reflexivity|exact H].
    - apply enumerate_In in H. assert (i' = i) as ->; [|exact E]. destruct (ft_bucket_small pf v) as (_ & _ & _ & ND); [apply made|].
      eapply NoDup_nthN; eauto.
  Qed.

  Lemma ft_written_unaveraged : unaveraged o v (ft_subs pf v) (ft_norm o e) rows ft_written_rows.
  Proof.
    destruct ft_rows_count as [LR _].
    assert (lenN ft_word_rows = lenN (sv_words v)) as LW by (unfold ft_word_rows; rewrite lenN_map, <- (lenN_map snd), enumerate_snd; reflexivity).
    split; [|split].
    - unfold ft_written_rows. rewrite lenN_app, LW, lenN_dropN. lia.
    - intros i Li. unfold ft_written_rows. rewrite nthN_app2 by lia. rewrite nthN_dropN, LW. f_equal. lia.
    - intros i w E. pose proof (nthN_Some_lt _ _ _ E) as Li.
      destruct (ft_item_row w (nth (N.to_nat i) rows [], ft_norm o e i)) as (i' & E' & EN & Er & (subs & Sel) & _).
      { unfold ft_items. apply in_map_iff. exists (i, w). split; [reflexivity|apply enumerate_In; exact E]. }
      assert (i' = i) as -> by (destruct (ft_bucket_small pf v) as (_ & _ & _ & ND); [apply made|]; eapply NoDup_nthN; eauto).
      exists (nth (N.to_nat i) rows []), subs. split; [auto|]. split; [auto|].
      unfold ft_written_rows. rewrite nthN_app1 by lia. unfold ft_word_rows. rewrite nthN_map, nthN_enumerate, E. cbn [option_map fst snd].
      rewrite (selects_nth [] _ _ _ Sel). reflexivity.
  Qed.
  Lemma ft_written_wf : Forall (fun r => lenN r = cols) ft_written_rows.
  Proof.
    destruct made as (_ & _ & _ & Mx & _). pose proof (sm_cols _ _ _ _ Mx) as C. destruct ft_rows_count as [LR _].
    unfold ft_written_rows. apply Forall_app. split.
    - apply Forall_forall. intros r H. unfold ft_word_rows in H. apply in_map_iff in H as ([i w] & <- & H). cbn [fst snd].
      apply enumerate_In, nthN_Some_lt in H. rewrite unmean_row_len. destruct (nthN_lt rows i) as [r E]; [lia|].
      rewrite nthN_spec in E. rewrite (nth_error_nth _ _ _ E). rewrite Forall_forall in C. apply C. eapply nth_error_In; eauto.
    - rewrite <- (takeN_dropN (lenN (sv_words v)) rows), Forall_app in C. tauto.
  Qed.
End WrittenRows.
