(** * Order and number of the words (stated in P_Sim.v).

    Vectors, norms and the results of queries depend on which words there are
    and on their rows, not on the order of the words; adding words changes
    nothing but the lookups of the added words. *)
From Verif Require Import Base BaseFacts Utf8 Utf8Facts F32 Subword Vocab Storage Embeddings Similarity FileSpec VocabSpec EmbSpec SimSpec
  VocabFacts SubwordFacts IndexerFacts LookupFacts StorageFacts MatrixFacts EmbFacts BatchFacts SimFacts.
From Verif Require FastTextFacts.
From Coq Require Import Lia ZifyBool ZifyNat ZifyN Sorting.Permutation.
Local Open Scope N_scope.

(** The same n-grams with the same indices. *)
Definition same_ngrams {I} (a b : subword_vocab I) : Prop :=
  sv_min a = sv_min b /\ sv_max a = sv_max b /\ sv_bow a = sv_bow b /\ sv_eow a = sv_eow b /\ sv_ix a = sv_ix b.
Definition same_subwords (v v' : vocab_wrap) : Prop :=
  match v, v' with
  | VSimple _, VSimple _ => True
  | VBucket a, VBucket b => same_ngrams a b
  | VFastText a, VFastText b => same_ngrams a b
  | VExplicit a, VExplicit b => same_ngrams a b
  | VFloret a, VFloret b => same_ngrams a b
  | _, _ => False
  end.

(** Every word of [e] is a word of [e'] with the same row and norm, somewhere;
    the rows after the words are the same. *)
Record extends {Md Md' S S' F} (e : embeddings Md vocab_wrap S F) (e' : embeddings Md' vocab_wrap S' F) (rows rows' : list (list F)) : Prop := {
  ex_vocab : same_subwords (em_vocab e) (em_vocab e');
  ex_words : forall i w, nthN (v_words wrap_ops (em_vocab e)) i = Some w ->
    exists j, nthN (v_words wrap_ops (em_vocab e')) j = Some w /\ nthN rows' j = nthN rows i /\
    match em_norms e, em_norms e' with
    | None, None => True
    | Some ns, Some ns' => nthN ns' j = nthN ns i
    | _, _ => False
    end;
  ex_rest : forall i, nthN rows' (lenN (v_words wrap_ops (em_vocab e')) + i) = nthN rows (lenN (v_words wrap_ops (em_vocab e)) + i)
}.

(** The same words. *)
Definition reordered {Md Md' S S' F} (e : embeddings Md vocab_wrap S F) (e' : embeddings Md' vocab_wrap S' F) (rows rows' : list (list F)) : Prop :=
  extends e e' rows rows' /\ lenN (v_words wrap_ops (em_vocab e')) = lenN (v_words wrap_ops (em_vocab e)).

(** ** Indices *)
Section Shift.
  Context {I : Type} (ops : indexer_ops I) (pf : profile).

  Lemma drain_bound ix b : ix_total ops ix b -> forall fuel it l, ni_ix it = ix -> ngi_drain ops fuel it = Ok l ->
    Forall (fun i => i < b) (flat_map snd l).
  Proof.
    intros [_ T]. induction fuel as [|fuel IH]; intros it l E H; [discriminate|]. cbn [ngi_drain] in H.
    apply rbind_Ok_inv in H as ([x it'] & N & H).
    assert (ni_ix it' = ix /\ forall s is, x = Some (s, is) -> Forall (fun i => i < b) is) as [E' X].
    { unfold ngi_next in N. destruct (ni_string it) as [s|].
      - apply rbind_Ok_inv in N as (is & A & N). inv N. split; [reflexivity|]. intros s0 is0 Q. inv Q.
        destruct (T (swcl_new s0)) as (l0 & B & F). congruence.
      - apply rbind_Ok_inv in N as ([[g|] g'] & A & N).
        + apply rbind_Ok_inv in N as (is & A' & N). inv N. split; [reflexivity|]. intros s0 is0 Q. inv Q.
          destruct (T g) as (l0 & B & F). congruence.
        + inv N. split; [reflexivity|]. discriminate. }
    destruct x as [[s is]|]; [|inv H; constructor]. apply rbind_Ok_inv in H as (l' & D & H). inv H.
    cbn [flat_map snd]. apply Forall_app. split; [eapply X; reflexivity|eapply IH; eauto].
  Qed.

  (** A string that is a word of neither vocabulary. *)
  Lemma unknown_shift ws ws' mn mx ix bow eow v v' w : ix_made I ops ix ->
    sub_new_with_boundaries ops pf ws mn mx ix bow eow = Ok v -> sub_new_with_boundaries ops pf ws' mn mx ix bow eow = Ok v' ->
    ~ In w ws -> ~ In w ws' ->
    (exists l b, ix_bound ops pf ix = Ok b /\ Forall (fun i => i < b) l /\
       v_idx (sub_ops ops) pf v w = Ok (idx_res (lenN ws) l) /\ v_idx (sub_ops ops) pf v' w = Ok (idx_res (lenN ws') l)) \/
    (v_idx (sub_ops ops) pf v w = v_idx (sub_ops ops) pf v' w /\ forall r, v_idx (sub_ops ops) pf v w <> Ok r).
  Proof.
    intros M B B' NI NI'. apply sub_new_Ok in B as (ND & -> & b & Bb & L). apply sub_new_Ok in B' as (ND' & -> & b' & Bb' & L').
    rewrite Bb in Bb'. inv Bb'.
    cbn [v_idx sub_ops]. unfold sub_idx. cbn [sv_indices]. apply ci_get_None in NI, NI'. rewrite NI, NI'.
    unfold sub_subword_indices, bracket, sub_words_len. cbn [sv_bow sv_eow sv_min sv_max sv_ix sv_indices].
    destruct (str_subword_indices ops (bow ++ w ++ eow) mn mx ix) as [l|er|p] eqn:E; [|right; split; [reflexivity|discriminate]..].
    left. exists l, b'. split; [exact Bb|].
    assert (Forall (fun i => i < b') l) as F.
    { unfold str_subword_indices in E. apply rbind_Ok_inv in E as (l0 & E & E2). inv E2. unfold subword_indices_with_ngrams in E.
      apply rbind_Ok_inv in E as (it & N & E). destruct (ix_made_total _ _ _ M) as [b2 T]. pose proof (proj1 T pf) as B2. rewrite Bb in B2. inv B2.
      eapply drain_bound; [exact T| |exact E]. unfold ngi_new in N. apply rbind_Ok_inv in N as (g & _ & N). inv N. reflexivity. }
    split; [exact F|]. cbn [rbind].
    replace (hm_len (create_indices ws)) with (lenN ws) by (apply ci_len_NoDup; auto).
    replace (hm_len (create_indices ws')) with (lenN ws') by (apply ci_len_NoDup; auto).
    rewrite !(rmap_add64 pf _ b') by auto. cbn [rbind]. destruct l; split; reflexivity.
  Qed.
End Shift.

Section Lookups.
  Context (pf : profile).

  (** Neither is a word. *)
  Lemma wrap_shift v v' w : vocab_made pf v -> vocab_made pf v' -> same_subwords v v' ->
    ~ In w (v_words wrap_ops v) -> ~ In w (v_words wrap_ops v') ->
    (exists l b, v_vocab_len wrap_ops pf v = Ok (lenN (v_words wrap_ops v) + b) /\ Forall (fun i => i < b) l /\
       v_idx wrap_ops pf v w = Ok (idx_res (lenN (v_words wrap_ops v)) l) /\ v_idx wrap_ops pf v' w = Ok (idx_res (lenN (v_words wrap_ops v')) l)) \/
    (v_idx wrap_ops pf v w = v_idx wrap_ops pf v' w /\ forall r, v_idx wrap_ops pf v w <> Ok r).
  Proof.
    assert (forall I (ops : indexer_ops I) ws mn mx ix bow eow a ws' mn' mx' ix' bow' eow' a', ix_made I ops ix ->
      sub_new_with_boundaries ops pf ws mn mx ix bow eow = Ok a -> sub_new_with_boundaries ops pf ws' mn' mx' ix' bow' eow' = Ok a' ->
      same_ngrams a a' -> ~ In w (sv_words a) -> ~ In w (sv_words a') ->
      (exists l b, sub_vocab_len ops pf a = Ok (lenN (sv_words a) + b) /\ Forall (fun i => i < b) l /\
        sub_idx ops pf a w = Ok (idx_res (lenN (sv_words a)) l) /\ sub_idx ops pf a' w = Ok (idx_res (lenN (sv_words a')) l)) \/
      (sub_idx ops pf a w = sub_idx ops pf a' w /\ forall r, sub_idx ops pf a w <> Ok r)) as K.
    { intros I ops ws mn mx ix bow eow a ws' mn' mx' ix' bow' eow' a' M B B' (E1 & E2 & E3 & E4 & E5) NI NI'.
      pose proof B as K. apply sub_new_Ok in K as (_ & Ea & _). pose proof B' as K. apply sub_new_Ok in K as (_ & Ea' & _).
      rewrite Ea, Ea' in E1, E2, E3, E4, E5. cbn [sv_min sv_max sv_bow sv_eow sv_ix] in *. subst mn' mx' bow' eow' ix'.
      destruct (sub_vocab_len_exact _ _ _ _ _ _ _ _ _ B) as (b & Bb & VL).
      assert (sv_words a = ws) as -> by (rewrite Ea; reflexivity). assert (sv_words a' = ws') as -> by (rewrite Ea'; reflexivity).
      replace (sv_words a) with ws in NI by (rewrite Ea; reflexivity). replace (sv_words a') with ws' in NI' by (rewrite Ea'; reflexivity).
      destruct (unknown_shift ops pf ws ws' mn mx ix bow eow a a' w M B B' NI NI') as [(l & b2 & Bb2 & FL & X)|X]; [|right; exact X].
      rewrite Bb in Bb2. inv Bb2. left. exists l, b2. split; [exact VL|]. split; [exact FL|exact X]. }
    intros V V' SS NI NI'. destruct V; destruct V'; cbn [same_subwords] in SS; try contradiction; cbn [v_words wrap_ops v_vocab_len v_idx] in *;
      try (eapply (K _ _ _ _ _ _ _ _ _ _ _ _ _ _ _ _ H H0 H2); assumption).
    match goal with H : simple_new ws = Ok v, H' : simple_new ws0 = Ok v0 |- _ => rename H into B; rename H' into B' end.
    apply simple_new_Ok in B as [ND ->]. apply simple_new_Ok in B' as [ND' ->]. cbn [v_words simple_ops sm_words] in *.
    left. exists [], 0. split; [cbn [v_vocab_len simple_ops sm_indices]; f_equal; rewrite N.add_0_r; symmetry; apply ci_len_NoDup, ND|].
    split; [constructor|]. apply ci_get_None in NI, NI'. cbn [v_idx simple_ops sm_indices]. rewrite NI, NI'. split; reflexivity.
  Qed.
End Lookups.

Lemma selects_shift {A} (rows rows' : list A) n n' b l : (forall i, nthN rows' (n' + i) = nthN rows (n + i)) -> lenN rows = n + b ->
  Forall (fun i => i < b) l -> exists rs, selects rows (map (fun i => n + i) l) rs /\ selects rows' (map (fun i => n' + i) l) rs.
Proof.
  intros E L. induction 1 as [|i l B _ (rs & S1 & S2)]; [exists []; split; constructor|].
  destruct (nthN_lt rows (n + i)) as [r R]; [lia|]. exists (r :: rs). split; constructor; auto. rewrite E. exact R.
Qed.

Section Extends.
  Context {Md Md' S S' F : Type} (o : fops F) (SO : storage_ops F S) (SO' : storage_ops F S') (pf : profile).
  Variables (e : embeddings Md vocab_wrap S F) (e' : embeddings Md' vocab_wrap S' F) (cols : N) (rows rows' : list (list F)).
  Hypothesis made : emb_made SO pf e cols rows.
  Hypothesis made' : emb_made SO' pf e' cols rows'.
  Hypothesis ext : extends e e' rows rows'.

  Lemma extends_incl : incl (v_words wrap_ops (em_vocab e)) (v_words wrap_ops (em_vocab e')).
  Proof. intros w H. apply In_nthN in H as (i & H). apply ext in H as (j & H & _). eapply nthN_In; eauto. Qed.

  (** Words that are known to both, and strings that are known to neither,
      have the same vector and norm. *)
  Lemma extends_lookup w : In w (v_words wrap_ops (em_vocab e)) \/ ~ In w (v_words wrap_ops (em_vocab e')) ->
    emb_embedding o wrap_ops SO' pf e' w = emb_embedding o wrap_ops SO pf e w /\
    emb_with_norm o wrap_ops SO' pf e' w = emb_with_norm o wrap_ops SO pf e w /\
    forall target, emb_embedding_into o wrap_ops SO' pf e' w target = emb_embedding_into o wrap_ops SO pf e w target.
  Proof.
    pose proof (proj1 (proj2 made)) as MS. pose proof (proj1 (proj2 made')) as MS'.
    unfold emb_embedding, emb_with_norm, emb_embedding_into. rewrite (emb_dims_cols SO pf e cols rows made), (emb_dims_cols SO' pf e' cols rows' made').
    intros [H|H].
    - apply In_nthN in H as (i & H). pose proof (ex_words _ _ _ _ ext i w H) as (j & H' & R & NN).
      destruct (words_bijection pf (em_vocab e) w i (proj1 made)) as (B & WL & _). destruct (words_bijection pf (em_vocab e') w j (proj1 made')) as (B' & _ & _).
      rewrite (proj2 B H), (proj2 B' H'). cbn [rbind].
      destruct (nthN_lt rows i) as [r Hr]; [apply nthN_Some_lt in H; pose proof (words_fit SO pf e _ _ made); lia|]. rewrite Hr in R.
      rewrite (sm_row _ _ _ _ MS i r Hr), (sm_row _ _ _ _ MS' j r R). cbn [rbind].
      assert (norm_at o e' j = norm_at o e i) as ->; [|auto].
      unfold norm_at, index. destruct (em_norms e) as [ns|], (em_norms e') as [ns'|]; try contradiction; [|reflexivity]. rewrite NN. reflexivity.
    - assert (~ In w (v_words wrap_ops (em_vocab e))) as H0 by (intros K; apply H, extends_incl, K).
      destruct (wrap_shift pf (em_vocab e) (em_vocab e') w (proj1 made) (proj1 made') (ex_vocab _ _ _ _ ext) H0 H) as [(l & b & VL & FL & E & E')|[E E']].
      + rewrite (emb_made_len SO pf e _ _ made) in VL.
        destruct (selects_shift rows rows' _ _ b l (ex_rest _ _ _ _ ext) ltac:(congruence) FL) as (rs & S1 & S2).
        rewrite E, E'. cbn [rbind]. unfold idx_res. destruct l; [auto|].
        rewrite (sm_rows _ _ _ _ MS _ _ S1), (sm_rows _ _ _ _ MS' _ _ S2). auto.
      + rewrite E. destruct (v_idx wrap_ops pf (em_vocab e') w) as [r| |]; [exfalso; eapply E'; exact E|auto|auto].
  Qed.

  Hypothesis same : lenN (v_words wrap_ops (em_vocab e')) = lenN (v_words wrap_ops (em_vocab e)).

  Lemma reordered_known w : In w (v_words wrap_ops (em_vocab e)) <-> In w (v_words wrap_ops (em_vocab e')).
  Proof.
    split; [apply extends_incl|]. revert w. apply NoDup_length_incl; [|unfold lenN in same; lia|apply extends_incl].
    apply (words_bijection pf (em_vocab e) [] 0 (proj1 made)).
  Qed.

  Lemma reordered_lookups w :
    emb_embedding o wrap_ops SO' pf e' w = emb_embedding o wrap_ops SO pf e w /\
    emb_with_norm o wrap_ops SO' pf e' w = emb_with_norm o wrap_ops SO pf e w /\
    (forall target, emb_embedding_into o wrap_ops SO' pf e' w target = emb_embedding_into o wrap_ops SO pf e w target).
  Proof.
    apply extends_lookup. rewrite <- reordered_known. destruct (in_dec str_eq_dec w (v_words wrap_ops (em_vocab e))); auto.
  Qed.

  Lemma reordered_batches order ws :
    emb_batch o wrap_ops SO' pf order e' ws = emb_batch o wrap_ops SO pf order e ws /\
    forall out, emb_batch_into o wrap_ops SO' pf order e' ws out = emb_batch_into o wrap_ops SO pf order e ws out.
  Proof.
    assert (forall out, emb_batch_into o wrap_ops SO' pf order e' ws out = emb_batch_into o wrap_ops SO pf order e ws out) as B.
    { intros out. unfold emb_batch_into. rewrite (emb_dims_cols SO pf e cols rows made), (emb_dims_cols SO' pf e' cols rows' made').
      destruct (rassert _ _); [cbn [rbind]|reflexivity..]. destruct (rassert _ _); [cbn [rbind]|reflexivity..].
      generalize (order (word_indices ws)) (a2_rows out, repeat false (length ws)). induction l as [|[w is] l IH]; intros st; [reflexivity|].
      cbn [rfold]. assert (batch_step o wrap_ops SO' pf e' st (w, is) = batch_step o wrap_ops SO pf e st (w, is)) as ->.
      { unfold batch_step. destruct st as [out0 found]. destruct (index is 0); [cbn [rbind]|reflexivity..].
        destruct (index out0 _); [cbn [rbind]|reflexivity..]. destruct (reordered_lookups w) as (_ & _ & T). rewrite T. reflexivity. }
      destruct (batch_step _ _ _ _ _ _ _); [cbn [rbind]; apply IH|reflexivity..]. }
    split; [|exact B]. unfold emb_batch. rewrite B, (emb_dims_cols SO pf e cols rows made), (emb_dims_cols SO' pf e' cols rows' made'). reflexivity.
  Qed.
End Extends.

Section Queries.
  Context {F : Type} (o : fops F) (OR : ordered o) (ON : one_neutral o) (eqd : forall x y : F, sumbool (x = y) (x <> y)).
  Context {Md Md' S S' : Type} (SO : storage_ops F S) (SO' : storage_ops F S') (view : S -> res (array2 F)) (view' : S' -> res (array2 F)) (pf : profile).
  Variables (e : embeddings Md vocab_wrap S F) (e' : embeddings Md' vocab_wrap S' F) (a a' : array2 F).
  Hypothesis made : emb_made SO pf e (a2_cols a) (a2_rows a).
  Hypothesis made' : emb_made SO' pf e' (a2_cols a') (a2_rows a').
  Hypothesis viewed : view (em_storage e) = Ok a.
  Hypothesis viewed' : view' (em_storage e') = Ok a'.
  Hypothesis width : a2_cols a' = a2_cols a.
  Hypothesis re : reordered e e' (a2_rows a) (a2_rows a').

  Let ext : extends e e' (a2_rows a) (a2_rows a'). Proof. apply re. Qed.
  Let made2 : emb_made SO' pf e' (a2_cols a) (a2_rows a'). Proof. rewrite <- width. exact made'. Qed.

  Lemma reordered_candidates skip q x :
    candidate o (v_words wrap_ops (em_vocab e)) (a2_rows a) skip q x <-> candidate o (v_words wrap_ops (em_vocab e')) (a2_rows a') skip q x.
  Proof.
    split.
    - intros (i & r & W & R & SK & E). apply (ex_words _ _ _ _ ext) in W as (j & W & R' & _). exists j, r. rewrite R'. auto.
    - intros (j & r & W & R & SK & E). assert (In (wr_word x) (v_words wrap_ops (em_vocab e))) as I.
      { apply (reordered_known SO pf e e' (a2_cols a) (a2_rows a) (a2_rows a') made ext (proj2 re)). eapply nthN_In; eauto. }
      apply In_nthN in I as (i & I). pose proof (ex_words _ _ _ _ ext _ _ I) as (j' & W' & R' & _).
      assert (j' = j) as -> by (eapply NoDup_nthN; eauto; apply (words_bijection pf (em_vocab e') [] 0 (proj1 made'))).
      exists i, r. rewrite <- R'. auto.
  Qed.

  Lemma reordered_query_ok skip q limit batch :
    query_ok o (v_words wrap_ops (em_vocab e)) (a2_cols a) (a2_rows a) skip q limit batch <->
    query_ok o (v_words wrap_ops (em_vocab e')) (a2_cols a') (a2_rows a') skip q limit batch.
  Proof.
    assert (v_words wrap_ops (em_vocab e) = [] <-> v_words wrap_ops (em_vocab e') = []) as W.
    { pose proof (proj2 re) as L. destruct (v_words wrap_ops (em_vocab e)), (v_words wrap_ops (em_vocab e')); try tauto; try (split; discriminate); rewrite ?lenN_cons in L; unfold lenN in L; cbn [length] in L; lia. }
    rewrite width. split; intros [Q1 Q2 Q3 Q4 Q5]; (constructor; [exact Q1|destruct batch; [exact Q2|tauto]|tauto| |]);
      [intros x Hx; apply Q4|intros L x Hx; apply (Q5 L x)|intros x Hx; apply Q4|intros L x Hx; apply (Q5 L x)]; apply reordered_candidates; exact Hx.
  Qed.

  Lemma reordered_similarity q skip limit batch rs :
    similarity_ o wrap_ops view' e' q skip limit batch = Ok rs <-> similarity_ o wrap_ops view e q skip limit batch = Ok rs.
  Proof.
    assert (forall r r', similarity_ o wrap_ops view e q skip limit batch = Ok r -> similarity_ o wrap_ops view' e' q skip limit batch = Ok r' -> r = r') as U.
    { intros r r' H H'. pose proof (proj1 (similarity_ok_iff o OR ON SO view pf e a made viewed q skip limit batch) (ex_intro _ r H)) as [_ _ _ NU _].
      pose proof (cand_list_num o ON _ _ _ _ NU) as NL. pose proof (cand_list_exact o ON _ _ _ _ NL) as CE.
      apply (similarity_exact o OR ON SO view pf e a made viewed) in H. apply (similarity_exact o OR ON SO' view' pf e' a' made' viewed') in H'.
      eapply (top_k_unique o OR eqd); [|exact CE|exact NU|exact H|].
      - apply (NoDup_map_inv wr_word). apply cand_list_words. apply (words_bijection pf (em_vocab e) [] 0 (proj1 made)).
      - destruct H' as [T1 T2 T3 T4]. constructor; auto.
        + intros x Hx. apply reordered_candidates, T1, Hx.
        + intros cs ND E. apply T3; [exact ND|]. intros x. rewrite E. apply reordered_candidates.
        + intros x Hx. apply T4, reordered_candidates, Hx. }
    pose proof (similarity_ok_iff o OR ON SO view pf e a made viewed q skip limit batch) as K.
    pose proof (similarity_ok_iff o OR ON SO' view' pf e' a' made' viewed' q skip limit batch) as K'.
    rewrite <- reordered_query_ok, <- K in K'. split; intros H.
    - destruct (proj1 K' (ex_intro _ rs H)) as (r & R). rewrite (U r rs R H) in R. exact R.
    - destruct (proj2 K' (ex_intro _ rs H)) as (r & R). rewrite <- (U rs r H R) in R. exact R.
  Qed.

  (** Every query has the same results. *)
  Lemma reordered_queries :
    (forall w limit batch r, word_similarity o wrap_ops SO' view' pf e' w limit batch = Ok r <-> word_similarity o wrap_ops SO view pf e w limit batch = Ok r) /\
    (forall q limit skip batch r, embedding_similarity_masked o wrap_ops view' e' q limit skip batch = Ok r <-> embedding_similarity_masked o wrap_ops view e q limit skip batch = Ok r) /\
    (forall q remove limit batch r, analogy_masked o wrap_ops SO' view' pf e' q remove limit batch = Ok r <-> analogy_masked o wrap_ops SO view pf e q remove limit batch = Ok r).
  Proof.
    assert (forall X (f : list (wsr F) -> res X) q skip limit batch (r : X),
      (let* rs := similarity_ o wrap_ops view' e' q skip limit batch in f rs) = Ok r <-> (let* rs := similarity_ o wrap_ops view e q skip limit batch in f rs) = Ok r) as B.
    { intros X f q skip limit batch r. split; intros H; apply rbind_Ok_inv in H as (rs & H & H2);
        [rewrite (proj1 (reordered_similarity _ _ _ _ _) H)|rewrite (proj2 (reordered_similarity _ _ _ _ _) H)]; exact H2. }
    assert (forall w, emb_embedding o wrap_ops SO' pf e' w = emb_embedding o wrap_ops SO pf e w) as L
      by (intros w; apply (reordered_lookups o SO SO' pf e e' (a2_cols a) (a2_rows a) (a2_rows a') made made2 ext (proj2 re))).
    split; [|split].
    - intros w limit batch r. unfold word_similarity. rewrite L. destruct (emb_embedding o wrap_ops SO pf e w) as [[v|]| |]; cbn [rbind]; try reflexivity. apply B.
    - intros. apply B.
    - intros [[w1 w2] w3] [[r1 r2] r3] limit batch r. unfold analogy_masked, lookup_words3. rewrite !L.
      destruct (emb_embedding o wrap_ops SO pf e w1) as [[v1|]| |], (emb_embedding o wrap_ops SO pf e w2) as [[v2|]| |],
        (emb_embedding o wrap_ops SO pf e w3) as [[v3|]| |]; cbn [rbind]; try reflexivity. apply B.
  Qed.
End Queries.

(** ** Any order can be built *)
Lemma permuted_vocab pf v ws' : vocab_made pf v -> Permutation (v_words wrap_ops v) ws' ->
  exists v', vocab_made pf v' /\ v_words wrap_ops v' = ws' /\ same_subwords v v' /\ v_vocab_len wrap_ops pf v' = v_vocab_len wrap_ops pf v.
Proof.
  assert (forall I (ops : indexer_ops I) ws mn mx ix bow eow a, ix_made I ops ix -> sub_new_with_boundaries ops pf ws mn mx ix bow eow = Ok a ->
    Permutation (sv_words a) ws' -> exists a', sub_new_with_boundaries ops pf ws' mn mx ix bow eow = Ok a' /\
    sv_words a' = ws' /\ same_ngrams a a' /\ v_vocab_len (sub_ops ops) pf a' = v_vocab_len (sub_ops ops) pf a) as K.
  { intros I ops ws mn mx ix bow eow a M B P. pose proof B as B0. apply sub_new_Ok in B0 as (ND & E & b & Bb & L).
    assert (Permutation ws ws') as P' by (rewrite E in P; exact P). assert (lenN ws' = lenN ws) as LW by (unfold lenN; rewrite (Permutation_length P'); reflexivity).
    destruct (proj1 (sub_new_iff ops pf ws' mn mx ix bow eow b Bb ltac:(lia))) as [_ X]. destruct X as [a' B']; [eapply Permutation_NoDup; eauto|].
    exists a'. split; [exact B'|]. pose proof B' as B1. apply sub_new_Ok in B1 as (ND' & E' & _).
    split; [rewrite E'; reflexivity|]. split; [rewrite E, E'; repeat split|].
    destruct (sub_vocab_len_exact ops pf _ _ _ _ _ _ _ B) as (b1 & X1 & ->). destruct (sub_vocab_len_exact ops pf _ _ _ _ _ _ _ B') as (b2 & X2 & ->). f_equal. assert (b1 = b2) by congruence. lia. }
  intros M P. destruct M; cbn [v_words wrap_ops v_vocab_len] in *.
  - apply simple_new_Ok in H as [ND ->]. cbn [v_words simple_ops sm_words] in P. exists (VSimple (mkSimple (create_indices ws') ws')).
    assert (NoDup ws') as ND' by (eapply Permutation_NoDup; eauto).
    split; [apply (vm_simple pf ws'), simple_new_NoDup, ND'|]. split; [reflexivity|]. split; [exact I|].
    cbn [v_vocab_len simple_ops sm_indices]. f_equal. apply ci_len_NoDup in ND, ND'. rewrite <- ND, <- ND'. unfold lenN. rewrite (Permutation_length P). reflexivity.
  - destruct (K _ _ _ _ _ _ _ _ _ H H0 P) as (a' & B' & X). exists (VBucket a'). split; [econstructor; eauto|exact X].
  - destruct (K _ _ _ _ _ _ _ _ _ H H0 P) as (a' & B' & X). exists (VFastText a'). split; [econstructor; eauto|exact X].
  - destruct (K _ _ _ _ _ _ _ _ _ H H0 P) as (a' & B' & X). exists (VExplicit a'). split; [econstructor; eauto|exact X].
  - destruct (K _ _ _ _ _ _ _ _ _ H H0 P) as (a' & B' & X). exists (VFloret a'). split; [econstructor; eauto|exact X].
Qed.

(** For every order of the words there are embeddings with that order. *)
Lemma reordered_exists {Md S F} (d : F) (SO : storage_ops F S) pf (e : embeddings Md vocab_wrap S F) cols rows ws' :
  emb_made SO pf e cols rows -> (forall ns, em_norms e = Some ns -> lenN (v_words wrap_ops (em_vocab e)) <= lenN ns) ->
  Permutation (v_words wrap_ops (em_vocab e)) ws' ->
  exists (e' : embeddings Md vocab_wrap (array2 F) F) rows', v_words wrap_ops (em_vocab e') = ws' /\
  emb_made (nd_ops F) pf e' cols rows' /\ reordered e e' rows rows'.
Proof.
  intros M LN P. destruct (permuted_vocab pf (em_vocab e) ws' (proj1 M) P) as (v' & V' & W' & SS & VL).
  pose proof (emb_made_len SO pf e _ _ M) as LR. pose proof (words_fit SO pf e _ _ M) as WF.
  destruct (words_bijection pf (em_vocab e) [] 0 (proj1 M)) as (_ & WL & ND). rewrite WL in WF.
  set (words := v_words wrap_ops (em_vocab e)) in *.
  assert (lenN ws' = lenN words) as LW by (unfold lenN; rewrite (Permutation_length P); reflexivity).
  pose (at_ := fun A (dflt : A) (l : list A) (w : str) => match hm_get (create_indices words) w with Some i => match nthN l i with Some x => x | None => dflt end | None => dflt end).
  assert (forall A (dflt : A) l i w, nthN words i = Some w -> i < lenN l -> Some (at_ A dflt l w) = nthN l i) as AT.
  { intros A dflt l i w W L. unfold at_. apply (ci_get_iff words w i ND) in W. rewrite W. destruct (nthN_lt l i L) as [x ->]. reflexivity. }
  set (rows' := map (at_ _ [] rows) ws' ++ dropN (lenN words) rows).
  set (norms' := option_map (fun ns => map (at_ _ d ns) ws') (em_norms e)).
  assert (lenN (map (at_ _ [] rows) ws') = lenN words) as LM by (rewrite lenN_map; exact LW).
  exists (mkEmb (em_meta e) (mkA2 cols rows') v' norms'), rows'. cbn [em_vocab]. split; [exact W'|]. split.
  - split; [exact V'|]. cbn [em_storage em_meta em_vocab em_norms]. split.
    + apply (nd_matrix (mkA2 cols rows')). unfold a2_wf. cbn [a2_rows a2_cols]. pose proof (sm_cols _ _ _ _ (proj1 (proj2 M))) as C. unfold rows'. apply Forall_app. split.
      * apply Forall_forall. intros r R. apply in_map_iff in R as (w & <- & I). apply (Permutation_in w (Permutation_sym P)) in I. apply In_nthN in I as (i & I).
        pose proof (AT _ [] rows i w I ltac:(apply nthN_Some_lt in I; lia)) as E. symmetry in E. apply nthN_In in E. rewrite Forall_forall in C. apply C, E.
      * apply Forall_forall. intros r R. rewrite Forall_forall in C. apply C. rewrite <- (takeN_dropN (lenN words) rows). apply in_app_iff. auto.
    + unfold emb_new_with_maybe_norms. rewrite VL, LR. cbn [rbind st_shape nd_ops a2_nrows a2_rows fst]. unfold rows', a2_nrows. cbn [a2_rows]. rewrite lenN_app, LM, lenN_dropN.
      replace (lenN rows =? lenN words + (lenN rows - lenN words)) with true by lia. reflexivity.
  - split; [|cbn [em_vocab]; rewrite W'; exact LW]. constructor; cbn [em_vocab em_norms]; [exact SS| |].
    + intros i w W. assert (In w ws') as I by (apply (Permutation_in w P); eapply nthN_In; exact W). apply In_nthN in I as (j & J). exists j.
      rewrite W'. split; [exact J|]. pose proof (nthN_Some_lt _ _ _ J) as Lj. pose proof (nthN_Some_lt _ _ _ W) as Li. fold words in Li. split.
      * unfold rows'. rewrite nthN_app1 by lia. rewrite nthN_map, J. cbn [option_map]. apply AT; [exact W|lia].
      * unfold norms'. destruct (em_norms e) as [ns|]; cbn [option_map]; [|exact I]. rewrite nthN_map, J. cbn [option_map]. apply AT; [exact W|]. specialize (LN ns eq_refl). lia.
    + intros i. rewrite W', LW. unfold rows'. fold words. rewrite nthN_app2 by lia. rewrite LM, FastTextFacts.nthN_dropN. f_equal. lia.
Qed.
