(** * Exactly when queries panic. *)
From Coq Require Import Lia ZifyBool ZifyNat ZifyN.
From Verif Require Import Base BaseFacts Utf8 F32 Subword Vocab Storage Embeddings Similarity FileSpec VocabSpec EmbSpec SimSpec
  VocabFacts LookupFacts MatrixFacts EmbFacts BatchFacts SimFacts LookupExactSpec LookupExact EmbExact.
Local Open Scope N_scope.

Lemma number_dec {F} (o : fops F) x : number o x \/ ~ number o x.
Proof. unfold number. destruct (fcmp o x x); [left; discriminate|right; tauto]. Qed.

Lemma rbind_panic_iff {A B} (x : res A) (k : A -> res B) p :
  rbind x k = Panic p <-> x = Panic p \/ exists y, x = Ok y /\ k y = Panic p.
Proof.
  destruct x; cbn [rbind]; split; try (intros [H|(y & H & K)]); try (intros H); try discriminate; try (inv H; auto; fail).
  right. eauto.
Qed.

Section Fold.
  Context {F : Type} (o : fops F).

  Lemma heap_max_some (h : list (wsr F)) : h <> [] -> exists m, heap_max h = Some m.
  Proof.
    intros H. unfold heap_max. destruct h as [|x h]; [congruence|].
    destruct (nthN_lt (x :: h) (lenN (x :: h) - 1)) as [m E]; [rewrite lenN_cons; lia|]. eauto.
  Qed.

  Lemma heap_insert_nonempty x (h : list (wsr F)) : heap_insert o x h <> [].
  Proof. destruct h as [|y h]; cbn [heap_insert]; [discriminate|]. destruct (wsr_lt o x y); discriminate. Qed.

  Lemma sim_fold_outcome limit xs : forall h, limit <> 0 ->
    (Exists (fun x => ~ num o x) xs -> rfold (sim_add o limit) xs h = Panic PNaN) /\
    (Forall (num o) xs -> exists h', rfold (sim_add o limit) xs h = Ok h').
  Proof.
    induction xs as [|x xs IH]; intros h L.
    - split; [intros H; inv H|intros _; cbn; eauto].
    - cbn [rfold]. unfold sim_add at 1 3. destruct (fcmp o (wr_sim x) (wr_sim x)) eqn:E.
      + assert (num o x) as NX by (unfold num, number; congruence).
        assert (exists h', (if lenN h <? limit then Ok (heap_insert o x h)
          else match heap_max h with
               | None => Panic PAssert
               | Some m => if wsr_lt o x m then Ok (heap_replace_max o x h) else Ok h
               end) = Ok h') as [h' ->].
        { destruct (N.ltb_spec (lenN h) limit); [eauto|].
          destruct (heap_max_some h) as [m ->]; [intros ->; change (lenN []) with 0 in *; lia|]. destruct (wsr_lt o x m); eauto. }
        cbn [rbind]. destruct (IH h' L) as [I1 I2]. split.
        * intros H. apply I1. inv H; [contradiction|auto].
        * intros H. apply I2. inv H. auto.
      + cbn [rbind]. split; [auto|]. intros H. inv H. exfalso. apply H2. exact E.
  Qed.

  Lemma sim_fold_zero x xs :
    rfold (sim_add o 0) (x :: xs) [] = Panic (match fcmp o (wr_sim x) (wr_sim x) with None => PNaN | Some _ => PAssert end).
  Proof.
    cbn [rfold]. unfold sim_add at 1. destruct (fcmp o (wr_sim x) (wr_sim x)); [|reflexivity].
    replace (lenN (@nil (wsr F)) <? 0) with false by reflexivity. reflexivity.
  Qed.

  (** The head of the candidates. *)
  Lemma cand_list_head words : forall rows skip q, lenN words <= lenN rows ->
    (cand_list o words rows skip q = [] /\ forall w, In w words -> In w skip) \/
    exists i r x l, cand_list o words rows skip q = x :: l /\ first_candidate words skip i /\
    nthN rows i = Some r /\ wr_sim x = row_sim o q r.
  Proof.
    induction words as [|w words IH]; intros rows skip q L; [left; split; [reflexivity|intros ? []]|].
    destruct rows as [|r rows]; [unfold lenN in L; cbn in L; lia|].
    unfold cand_list in *. cbn [zip_with filter wr_word]. destruct (str_mem w skip) eqn:M; cbn [negb].
    - apply str_mem_In in M. destruct (IH rows skip q) as [[E A]|(i & r' & x & l & E & [(w' & W & NI) FC] & R & X)].
      + rewrite !lenN_cons in L. lia.
      + left. split; [exact E|]. intros w' [<-|H]; auto.
      + right. exists (i + 1), r', x, l. split; [exact E|]. split; [|split; [|exact X]].
        * split; [exists w'; split; [|auto]; rewrite nthN_spec in *; replace (N.to_nat (i + 1)) with (S (N.to_nat i)) by lia; exact W|].
          intros j w2 J W2. rewrite nthN_spec in W2. destruct (N.to_nat j) as [|n] eqn:JN; cbn in W2; [inv W2; auto|].
          apply (FC (N.of_nat n) w2); [lia|]. rewrite nthN_spec, Nat2N.id. exact W2.
        * rewrite nthN_spec in *. replace (N.to_nat (i + 1)) with (S (N.to_nat i)) by lia. exact R.
    - right. exists 0, r, (mkWsr (row_sim o q r) w), (filter (fun x => negb (str_mem (wr_word x) skip)) (zip_with (fun w r => mkWsr (row_sim o q r) w) words rows)).
      split; [reflexivity|]. split; [|split; reflexivity]. split; [|intros; lia].
      exists w. split; [reflexivity|]. intros H. apply str_mem_In in H. congruence.
  Qed.

  Lemma first_candidate_unique words skip i j : first_candidate words skip i -> first_candidate words skip j -> i = j.
  Proof.
    intros [(w & W & NI) A] [(w' & W' & NI') A']. destruct (N.lt_trichotomy i j) as [L|[E|L]]; [|auto|].
    - destruct NI. eapply A'; eauto.
    - destruct NI'. eapply A; eauto.
  Qed.
End Fold.

Section Query.
  Context {F : Type} (o : fops F) (OR : ordered o) (ON : one_neutral o).
  Context {Md S : Type} (SO : storage_ops F S) (view : S -> res (array2 F)) (pf : profile).
  Variables (e : embeddings Md vocab_wrap S F) (a : array2 F).
  Hypothesis made : emb_made SO pf e (a2_cols a) (a2_rows a).
  Hypothesis viewed : view (em_storage e) = Ok a.
  Notation words := (v_words wrap_ops (em_vocab e)).

  Lemma row_sim_number q r : number o (row_sim o q r) <-> number o (vdot o r q).
  Proof. unfold row_sim. destruct (ON (vdot o r q)) as [A B]. split; [auto|]. intros H. rewrite A; auto. Qed.

  Lemma words_rows : lenN words <= lenN (a2_rows a).
  Proof.
    pose proof (words_fit SO pf e _ _ made) as W.
    destruct (words_bijection pf (em_vocab e) [] 0 (proj1 made)) as (_ & WL & _). lia.
  Qed.

  Lemma cand_nan skip q :
    (exists x, candidate o words (a2_rows a) skip q x /\ ~ number o (wr_sim x)) <->
    Exists (fun x => ~ num o x) (cand_list o words (a2_rows a) skip q).
  Proof.
    rewrite Exists_exists. split.
    - intros (x & (i & r & H1 & H2 & H3 & H4) & NX). exists (mkWsr (row_sim o q r) (wr_word x)). split.
      + apply cand_list_In. exists i, r. auto.
      + unfold num. cbn [wr_sim]. rewrite row_sim_number, <- H4. exact NX.
    - intros (x & H & NX). apply cand_list_In in H as (i & r & H1 & H2 & H3 & H4).
      exists (mkWsr (vdot o r q) (wr_word x)). split; [exists i, r; auto|]. cbn [wr_sim].
      unfold num in NX. rewrite H4, row_sim_number in NX. exact NX.
  Qed.

  Lemma similarity_panic_iff q skip limit batch p :
    similarity_ o wrap_ops view e q skip limit batch = Panic p <->
    query_panic o (v_words wrap_ops (em_vocab e)) (a2_cols a) (a2_rows a) skip q limit batch p.
  Proof.
    rewrite (similarity_eq o SO view pf e a made viewed).
    assert (forall P : Prop, lenN words = 0 -> (words <> [] -> P)) as W0P.
    { intros P H H'. destruct H'. destruct words; [reflexivity|rewrite lenN_cons in H; lia]. }
    destruct (N.ltb_spec isize_max (limit * 24)) as [C|C].
    { split; [intros H; inv H; constructor; auto|]. intros H. inv H; auto; lia. }
    destruct (N.eqb_spec (match batch with Some b => b | None => lenN words end) 0) as [B|B].
    { assert (match batch with Some b => b = 0 | None => words = [] end) as B'.
      { destruct batch; [auto|]. destruct words; [reflexivity|rewrite lenN_cons in B; lia]. }
      split; [intros H; inv H; apply qp_batch; auto|]. intros H.
      assert (p = PAssert) as ->; [|reflexivity]. inv H; auto; try lia.
      - destruct batch; [congruence|]. destruct H4 as (i & r & W & _). rewrite B' in W. rewrite nthN_spec in W.
        destruct (N.to_nat i); discriminate.
      - destruct batch; [congruence|]. destruct H3 as [(w & W & _) _]. rewrite B' in W. rewrite nthN_spec in W.
        destruct (N.to_nat i); discriminate. }
    assert (batch <> Some 0) as B0 by (destruct batch; congruence).
    assert (~ match batch with Some b => b = 0 | None => words = [] end) as BN.
    { destruct batch; [auto|]. intros E. apply B. rewrite E. reflexivity. }
    destruct (N.eqb_spec (lenN words) 0) as [W0|W0].
    { assert (words = []) as WE by (destruct words; [reflexivity|rewrite lenN_cons in W0; lia]).
      split; [discriminate|]. intros H. exfalso. inv H; auto; try lia.
      - destruct H4 as (i & r & W & _). rewrite WE, nthN_spec in W. destruct (N.to_nat i); discriminate.
      - destruct H3 as [(w & W & _) _]. rewrite WE, nthN_spec in W. destruct (N.to_nat i); discriminate.
      - destruct H3 as [(w & W & _) _]. rewrite WE, nthN_spec in W. destruct (N.to_nat i); discriminate. }
    assert (words <> []) as WNE by (intros E; apply W0; rewrite E; reflexivity).
    destruct (N.eqb_spec (lenN q) (a2_cols a)) as [Q|Q].
    2:{ split; [intros H; inv H; apply qp_width; auto|]. intros H. inv H; auto; try lia; try contradiction. }
    destruct (N.eq_dec limit 0) as [->|L].
    - destruct (cand_list_head o words (a2_rows a) skip q words_rows) as [[E A]|(i & r & x & l & E & FC & R & X)].
      + rewrite E. cbn [rfold]. split; [discriminate|]. intros H. exfalso. inv H; auto; try lia; try contradiction.
        * destruct H3 as [(w & W & NI) _]. apply NI, A. eapply nthN_In; eauto.
        * destruct H3 as [(w & W & NI) _]. apply NI, A. eapply nthN_In; eauto.
      + rewrite E, sim_fold_zero.
        pose proof (row_sim_number q r) as RS. rewrite <- X in RS. split.
        * intros H. destruct (fcmp o (wr_sim x) (wr_sim x)) eqn:EC; inv H.
          -- eapply qp_zero; eauto. apply RS. unfold number. congruence.
          -- eapply qp_zero_nan; eauto. rewrite <- RS. unfold number. tauto.
        * intros H. inv H; try lia; try contradiction.
          -- rewrite (first_candidate_unique _ _ _ _ H3 FC) in H4. rewrite R in H4. inv H4. apply RS in H5.
             unfold number in H5. destruct (fcmp o (wr_sim x) (wr_sim x)); [reflexivity|congruence].
          -- rewrite (first_candidate_unique _ _ _ _ H3 FC) in H4. rewrite R in H4. inv H4. rewrite <- RS in H5.
             unfold number in H5. destruct (fcmp o (wr_sim x) (wr_sim x)); [|reflexivity]. destruct H5. discriminate.
    - destruct (sim_fold_outcome o limit (cand_list o words (a2_rows a) skip q) [] L) as [F1 F2].
      destruct (Forall_Exists_dec (num o) (fun x => match fcmp o (wr_sim x) (wr_sim x) as c
        return fcmp o (wr_sim x) (wr_sim x) = c -> {num o x} + {~ num o x} with
          | Some c => fun E => left (fun N => eq_ind (Some c) (fun y => match y with Some _ => True | None => False end) Logic.I None (eq_trans (eq_sym E) N))
          | None => fun E => right (fun N => N E) end eq_refl) (cand_list o words (a2_rows a) skip q)) as [A|A].
      + destruct (F2 A) as [h' E]. rewrite E. split; [discriminate|]. intros H. exfalso. inv H; auto; try lia; try contradiction.
        assert (Exists (fun x => ~ num o x) (cand_list o words (a2_rows a) skip q)) as X by (apply cand_nan; eauto).
        apply Exists_exists in X as (y & Y & NY). rewrite Forall_forall in A. apply NY, A, Y.
      + rewrite (F1 A). apply cand_nan in A as (x & CX & NX). split.
        * intros H. inv H. eapply qp_nan; eauto.
        * intros H. inv H; auto; try lia; try contradiction.
  Qed.

  (** *** The public queries *)
  Hypothesis bounds : bounds_utf8 (em_vocab e).

  Lemma sim_lookup w : utf8_valid w = true ->
    (unusable_lookup (em_vocab e) w /\ emb_embedding o wrap_ops SO pf e w = Panic PAssert) \/
    (~ unusable_lookup (em_vocab e) w /\
     exists r, emb_embedding o wrap_ops SO pf e w = Ok r /\ forall v, r = Some v -> lenN v = a2_cols a).
  Proof.
    intros V. destruct (emb_outcome o SO pf e _ _ made bounds w V) as [(U & _ & E & _)|[(NU & i & r & _ & _ & _ & L & E)|(NU & US)]].
    - left. auto.
    - right. split; [exact NU|]. exists (Some r). split; [exact E|]. intros v H. inv H. auto.
    - right. split; [exact NU|]. eapply lookup_width; eauto.
  Qed.

  Lemma word_similarity_panic_iff w limit batch p : utf8_valid w = true ->
    word_similarity o wrap_ops SO view pf e w limit batch = Panic p <->
    (p = PAssert /\ unusable_lookup (em_vocab e) w) \/
    exists v, emb_embedding o wrap_ops SO pf e w = Ok (Some v) /\
    query_panic o (v_words wrap_ops (em_vocab e)) (a2_cols a) (a2_rows a) [w] v limit batch p.
  Proof.
    intros V. unfold word_similarity. destruct (sim_lookup w V) as [[U E]|[NU (r & E & L)]]; rewrite E; cbn [rbind].
    - split; [intros H; inv H; auto|]. intros [[-> _]|(v & H & _)]; [reflexivity|discriminate].
    - destruct r as [v|].
      + rewrite rbind_panic_iff, similarity_panic_iff. split.
        * intros [H|(x & _ & H)]; [right; eauto|discriminate].
        * intros [[_ H]|(v' & H & Q)]; [contradiction|]. inv H. auto.
      + split; [discriminate|]. intros [[_ H]|(v' & H & Q)]; [contradiction|discriminate].
  Qed.

  Lemma embedding_similarity_masked_panic_iff q limit skip batch :
    exists v n, scaled_by_length o q v n /\ lenN v = lenN q /\ forall p,
      embedding_similarity_masked o wrap_ops view e q limit skip batch = Panic p <->
      query_panic o (v_words wrap_ops (em_vocab e)) (a2_cols a) (a2_rows a) skip v limit batch p.
  Proof.
    exists (fst (l2_normalize o q)), (snd (l2_normalize o q)). split; [apply l2_normalize_scaled|].
    split; [apply l2_normalize_len|]. intros p. unfold embedding_similarity_masked.
    rewrite rbind_panic_iff, similarity_panic_iff. split; [|auto]. intros [H|(x & _ & H)]; [auto|discriminate].
  Qed.

  Lemma analogy_panic_iff wa wb wc ra rb rc limit batch :
    utf8_valid wa = true -> utf8_valid wb = true -> utf8_valid wc = true ->
    (unusable_lookup (em_vocab e) wa \/ unusable_lookup (em_vocab e) wb \/ unusable_lookup (em_vocab e) wc ->
     analogy_masked o wrap_ops SO view pf e (wa, wb, wc) (ra, rb, rc) limit batch = Panic PAssert) /\
    (~ unusable_lookup (em_vocab e) wa -> ~ unusable_lookup (em_vocab e) wb -> ~ unusable_lookup (em_vocab e) wc ->
     exists va vb vc, emb_embedding o wrap_ops SO pf e wa = Ok va /\ emb_embedding o wrap_ops SO pf e wb = Ok vb /\
     emb_embedding o wrap_ops SO pf e wc = Ok vc /\
     ((va = None \/ vb = None \/ vc = None) ->
      exists r, analogy_masked o wrap_ops SO view pf e (wa, wb, wc) (ra, rb, rc) limit batch = Ok r) /\
     forall xa xb xc, va = Some xa -> vb = Some xb -> vc = Some xc ->
     exists v n skip, scaled_by_length o (analogy_vector o (a2_cols a) xa xb xc) v n /\ lenN v = a2_cols a /\
     (forall w, In w skip <-> (ra = true /\ w = wa) \/ (rb = true /\ w = wb) \/ (rc = true /\ w = wc)) /\
     forall p, analogy_masked o wrap_ops SO view pf e (wa, wb, wc) (ra, rb, rc) limit batch = Panic p <->
     query_panic o (v_words wrap_ops (em_vocab e)) (a2_cols a) (a2_rows a) skip v limit batch p).
  Proof.
    intros Va Vb Vc. unfold analogy_masked, lookup_words3.
    destruct (sim_lookup wa Va) as [[Ua Ea]|[Ua (va & Ea & La)]]; rewrite Ea; cbn [rbind]; [split; [auto|tauto]|].
    destruct (sim_lookup wb Vb) as [[Ub Eb]|[Ub (vb & Eb & Lb)]]; rewrite Eb; cbn [rbind]; [split; [auto|tauto]|].
    destruct (sim_lookup wc Vc) as [[Uc Ec]|[Uc (vc & Ec & Lc)]]; rewrite Ec; cbn [rbind]; [split; [auto|tauto]|].
    split; [tauto|]. intros _ _ _. exists va, vb, vc. split; [auto|]. split; [auto|]. split; [auto|]. split.
    - intros H. destruct va, vb, vc; cbn [rbind]; eauto. destruct H as [H|[H|H]]; discriminate.
    - intros xa xb xc -> -> ->. specialize (La xa eq_refl). specialize (Lb xb eq_refl). specialize (Lc xc eq_refl).
      cbn [rbind]. rewrite (analogy_vector_eq o a xa xb xc La Lb Lc). set (u := analogy_vector o (a2_cols a) xa xb xc).
      exists (fst (l2_normalize o u)), (snd (l2_normalize o u)), (map fst (filter snd [(wa, ra); (wb, rb); (wc, rc)])).
      split; [apply l2_normalize_scaled|].
      split; [rewrite l2_normalize_len; unfold u, analogy_vector, lenN; rewrite map_length, seq_length; lia|].
      split; [intros w; destruct ra, rb, rc; cbn; intuition congruence|].
      intros p. rewrite rbind_panic_iff, similarity_panic_iff. split; [|auto]. intros [H|(x & _ & H)]; [auto|discriminate].
  Qed.
End Query.
