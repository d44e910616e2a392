(** * Queries with any dot product: the result for the computed similarities (C114). *)
From Coq Require Import Sorting.Permutation Sorting.Sorted.
From Verif Require Import Base BaseFacts Utf8 F32 F32Facts Subword Vocab VocabFacts Storage Embeddings Similarity FileSpec VocabSpec EmbSpec SimSpec LookupFacts EmbFacts BatchFacts SimFacts MatrixFacts AnyDot AnyDotSpec.
Local Open Scope N_scope.

(** ** The modelled dot product *)
Section Modelled.
  Context {Md S F : Type} (o : fops F) (SO : storage_ops F S) (view : S -> res (array2 F)) (pf : profile).
  Variable e : embeddings Md vocab_wrap S F.

  Lemma modelled_queries :
    (forall w limit batch, word_similarity_by o wrap_ops SO view pf (nd_dot o true true) (nd_gemv o true true) e w limit batch
       = word_similarity o wrap_ops SO view pf e w limit batch) /\
    (forall q limit skip batch, embedding_similarity_masked_by o wrap_ops view (nd_dot o true true) (nd_gemv o true true) e q limit skip batch
       = embedding_similarity_masked o wrap_ops view e q limit skip batch) /\
    (forall q remove limit batch, analogy_masked_by o wrap_ops SO view pf (nd_dot o true true) (nd_gemv o true true) e q remove limit batch
       = analogy_masked o wrap_ops SO view pf e q remove limit batch).
  Proof. repeat split. Qed.
End Modelled.

(** ** All similarities *)
Section Sims.
  Context {F : Type} (o : fops F) (gemv : list (list F) -> list F -> list F).
  Hypothesis one : one_per_row gemv.

  Definition all_sims (n : nat) (b : N) (rows : list (list F)) (q : list F) : list F :=
    concat (map (fun c => gemv c q) (chunks_of_fuel n (N.to_nat b) rows)).

  Lemma all_sims_length b q : b <> 0 -> forall n rows, (length rows <= n)%nat -> length (all_sims n b rows q) = length rows.
  Proof.
    intros Hb. unfold all_sims. induction n as [|n IH]; intros rows L.
    - destruct rows; [reflexivity|cbn in L; lia].
    - destruct rows as [|r rows]; [reflexivity|]. cbn [chunks_of_fuel]. set (rs := r :: rows) in *. cbn [map concat]. rewrite app_length, one.
      rewrite IH by (rewrite skipn_length; unfold rs in *; cbn [length] in *; lia). rewrite firstn_length, skipn_length. lia.
  Qed.
  Lemma all_sims_nth b q : b <> 0 -> forall n rows i, (length rows <= n)%nat -> i < lenN rows ->
    nthN (all_sims n b rows q) i = nthN (gemv (takeN b (dropN (i / b * b) rows)) q) (i mod b).
  Proof.
    intros Hb. unfold all_sims. induction n as [|n IH]; intros rows i L Hi.
    - destruct rows; [unfold lenN in Hi; cbn in Hi; lia|cbn in L; lia].
    - destruct rows as [|r rows]; [unfold lenN in Hi; cbn in Hi; lia|]. cbn [chunks_of_fuel]. set (rs := r :: rows) in *. cbn [map concat].
      assert (lenN (gemv (firstn (N.to_nat b) rs) q) = N.min b (lenN rs)) as LG by (unfold lenN; rewrite one, firstn_length; lia).
      destruct (N.lt_ge_cases i b) as [K|K].
      + rewrite nthN_app1 by lia. rewrite N.div_small, N.mod_small by exact K. rewrite N.mul_0_l, dropN_0. reflexivity.
      + rewrite nthN_app2 by lia. rewrite LG. replace (N.min b (lenN rs)) with b by lia.
        rewrite IH.
        * assert (exists j, i = j + 1 * b) as (j & ->) by (exists (i - b); lia). replace (j + 1 * b - b) with j by lia. rewrite N.div_add, N.mod_add by exact Hb.
          change (skipn (N.to_nat b) rs) with (dropN b rs). rewrite dropN_dropN. f_equal. f_equal. f_equal. f_equal. lia.
        * rewrite skipn_length. unfold rs in *. cbn [length] in *. lia.
        * unfold lenN in *. rewrite skipn_length. lia.
  Qed.

  Lemma sim_batches_by words skip limit b cols q : b <> 0 -> lenN q = cols -> forall n rows k h,
    (length rows <= n)%nat ->
    rfold (sim_batch_by o gemv words skip limit b cols q) (enumerate_from k (chunks_of_fuel n (N.to_nat b) rows)) h
    = rfold (sim_step o words skip limit) (enumerate_from (k * b) (all_sims n b rows q)) h.
  Proof.
    intros Hb Hq. unfold all_sims. induction n as [|n IH]; intros rows k h L.
    - destruct rows; [|cbn in L; lia]. reflexivity.
    - destruct rows as [|r rows]; [reflexivity|]. cbn [chunks_of_fuel]. set (rs := r :: rows) in *. cbn [enumerate_from rfold map concat].
      unfold sim_batch_by at 1. unfold mat_vec_by. rewrite Hq, N.eqb_refl. cbn [rbind].
      unfold enumerate. rewrite enumerate_from_shift. replace (k * b + 0) with (k * b) by lia.
      rewrite enumerate_from_app, rfold_app.
      match goal with |- rbind ?X _ = rbind ?Y _ => change X with Y; destruct Y as [h'| |]; cbn [rbind]; try reflexivity end.
      rewrite IH.
      + destruct (le_lt_dec (length rs) (N.to_nat b)) as [Le|Gt].
        * rewrite skipn_all2 by exact Le. destruct n; reflexivity.
        * f_equal. f_equal. unfold lenN. rewrite one, firstn_length_le by lia. lia.
      + rewrite skipn_length. assert (N.to_nat b <> 0)%nat by lia. unfold rs in *. cbn [length] in *. lia.
  Qed.
  Lemma sim_batches_by_wrong words skip limit b cols q rows h : b <> 0 -> lenN q <> cols -> rows <> [] ->
    rfold (sim_batch_by o gemv words skip limit b cols q) (enumerate (chunks_of (N.to_nat b) rows)) h = Panic PAssert.
  Proof.
    intros Hb Hq Hr. destruct rows as [|r rows]; [congruence|]. unfold chunks_of, enumerate. cbn [length chunks_of_fuel enumerate_from rfold].
    unfold sim_batch_by at 1, mat_vec_by. destruct (N.eqb_spec cols (lenN q)); [congruence|]. reflexivity.
  Qed.
End Sims.

Section Cands.
  Context {F : Type} (o : fops F).
  Definition cand_sims (words : list str) (sims : list F) (skip : list str) : list (wsr F) :=
    filter (fun x => negb (str_mem (wr_word x) skip)) (zip_with (fun w s => mkWsr s w) words sims).

  Lemma sim_steps_by skip limit : forall sims ws pre h, length ws = length sims ->
    rfold (sim_step o (pre ++ ws) skip limit) (enumerate_from (lenN pre) sims) h
    = rfold (sim_add o limit) (cand_sims ws sims skip) h.
  Proof.
    induction sims as [|r rows IH]; intros [|w ws] pre h L; try discriminate; [reflexivity|].
    cbn [enumerate_from rfold]. unfold sim_step at 1. unfold index. rewrite nthN_app2 by lia. rewrite N.sub_diag.
    change (nthN (w :: ws) 0) with (Some w). cbn [rbind].
    specialize (IH ws (pre ++ [w])). rewrite <- app_assoc in IH. cbn [app] in IH. rewrite lenN_app in IH.
    change (lenN [w]) with 1 in IH.
    unfold cand_sims. cbn [zip_with filter wr_word]. destruct (str_mem w skip); cbn [negb].
    - apply IH. cbn in L. lia.
    - cbn [rfold]. unfold sim_add at 1. cbn [wr_sim].
      match goal with |- rbind ?X _ = rbind ?X _ => destruct X as [h'| |]; cbn [rbind]; try reflexivity end.
      apply IH. cbn in L. lia.
  Qed.
  Lemma cand_sims_In words sims skip x : In x (cand_sims words sims skip) <->
    exists i, nthN words i = Some (wr_word x) /\ ~ In (wr_word x) skip /\ nthN sims i = Some (wr_sim x).
  Proof.
    unfold cand_sims. rewrite filter_In. destruct (str_mem (wr_word x) skip) eqn:EM.
    - apply str_mem_In in EM. split; [intros [_ H]; discriminate|]. intros (i & _ & H & _). contradiction.
    - assert (~ In (wr_word x) skip) as NI by (intros H; apply str_mem_In in H; congruence). split.
      + intros [H _]. apply In_nthN in H as [i H]. exists i. rewrite zip_with_nthN in H.
        destruct (nthN words i) as [w|]; [|discriminate]. destruct (nthN sims i) as [r|]; [|discriminate].
        inv H. auto.
      + intros (i & H1 & _ & H3). split; [|reflexivity]. apply (nthN_In _ i). rewrite zip_with_nthN, H1, H3.
        destruct x as [s w]. cbn in *. congruence.
  Qed.
  Lemma cand_sims_words words : forall sims skip, NoDup words -> NoDup (map wr_word (cand_sims words sims skip)).
  Proof.
    intros rows skip. revert rows. induction words as [|w words IH]; intros [|r rows] ND; try constructor.
    inv ND. unfold cand_sims in *. cbn [zip_with filter wr_word]. destruct (str_mem w skip); cbn [negb]; [auto|].
    cbn [map wr_word]. constructor; [|auto]. intros H. apply in_map_iff in H as (x & E & H). apply filter_In in H as [H _].
    apply In_nthN in H as [i H]. rewrite zip_with_nthN in H. destruct (nthN words i) as [w'|] eqn:E1; [|discriminate].
    destruct (nthN rows i); [|discriminate]. inv H. cbn [wr_word] in *. apply nthN_In in E1. contradiction.
  Qed.
End Cands.

Section Query.
  Context {Md S F : Type} (o : fops F) (OR : ordered o) (SO : storage_ops F S) (view : S -> res (array2 F)) (pf : profile).
  Variables (e : embeddings Md vocab_wrap S F) (a : array2 F) (gemv : list (list F) -> list F -> list F).
  Hypothesis made : emb_made SO pf e (a2_cols a) (a2_rows a).
  Hypothesis viewed : view (em_storage e) = Ok a.
  Hypothesis one : one_per_row gemv.
  Notation words := (v_words wrap_ops (em_vocab e)).
  Notation rows := (takeN (lenN words) (a2_rows a)).

  Lemma rows_length : length words = length rows.
  Proof.
    destruct (words_bijection pf (em_vocab e) [] 0 (proj1 made)) as (_ & WL & _). pose proof (words_fit SO pf e _ _ made) as WF.
    rewrite WL in WF. unfold takeN. rewrite firstn_length. unfold lenN in *. lia.
  Qed.
  Lemma similarity_by_eq q skip limit batch :
    similarity_by o wrap_ops view gemv e q skip limit batch =
    (if isize_max <? limit * 24 then Panic PCapacity
     else if batch_of words batch =? 0 then Panic PAssert
     else if lenN words =? 0 then Ok []
     else if lenN q =? a2_cols a then rfold (sim_add o limit) (cand_sims words (all_sims gemv (length rows) (batch_of words batch) rows q) skip) []
     else Panic PAssert).
  Proof.
    destruct (words_bijection pf (em_vocab e) [] 0 (proj1 made)) as (_ & WL & ND).
    pose proof (words_fit SO pf e _ _ made) as WF. pose proof rows_length as LW. unfold similarity_by. rewrite WL in *.
    destruct (N.ltb_spec isize_max (limit * 24)) as [L|L].
    { destruct (N.leb_spec (limit * 24) isize_max); [lia|]. reflexivity. }
    destruct (N.leb_spec (limit * 24) isize_max); [|lia]. cbn [rassert rbind]. rewrite viewed. cbn [rbind].
    unfold a2_nrows. destruct (N.leb_spec (lenN words) (lenN (a2_rows a))); [|lia]. cbn [rassert rbind].
    unfold axis_chunks. fold (batch_of words batch). set (b := batch_of words batch).
    destruct (N.eqb_spec b 0) as [Hb|Hb]; [reflexivity|]. cbn [rbind].
    set (rs := rows) in *.
    destruct (N.eqb_spec (lenN words) 0) as [W0|W0].
    - unfold rs. rewrite W0. reflexivity.
    - destruct (N.eqb_spec (lenN q) (a2_cols a)) as [Hq|Hq].
      + unfold chunks_of, enumerate. rewrite sim_batches_by by auto. change (0 * b) with (lenN (@nil str)).
        change words with ([] ++ words) at 1. rewrite sim_steps_by; [reflexivity|]. rewrite all_sims_length; auto.
      + apply sim_batches_by_wrong; auto. intros E. apply W0. unfold lenN. rewrite LW, E. reflexivity.
  Qed.
  Lemma cand_sims_exact q skip b : b <> 0 -> forall x,
    In x (cand_sims words (all_sims gemv (length rows) b rows q) skip) <-> candidate_by gemv words (a2_rows a) skip q b x.
  Proof.
    intros Hb x. rewrite cand_sims_In. unfold candidate_by, batch_entry. pose proof rows_length as LW.
    assert (forall i w, nthN words i = Some w -> i < lenN rows) as LT by (intros i w H; apply nthN_Some_lt in H; unfold lenN in *; lia).
    split; intros (i & H1 & H2 & H3); exists i; (split; [exact H1|split; [exact H2|]]).
    - rewrite all_sims_nth in H3; eauto.
    - rewrite all_sims_nth; eauto.
  Qed.

  Lemma best_top_by q skip b limit h : b <> 0 -> NoDup words ->
    best o limit (cand_sims words (all_sims gemv (length rows) b rows q) skip) h -> top_k o (candidate_by gemv words (a2_rows a) skip q b) limit h.
  Proof.
    intros Hb ND (S0 & L & rest & P & B). pose proof (cand_sims_exact q skip b Hb) as CE.
    constructor.
    - intros x Hx. apply CE. apply (Permutation_in x (Permutation_sym P)). apply in_app_iff. auto.
    - exact S0.
    - intros cs NDc Ec. rewrite L. f_equal. unfold lenN. f_equal. apply Permutation_length. apply NoDup_Permutation; auto.
      + apply (NoDup_map_inv wr_word). apply cand_sims_words. exact ND.
      + intros x. rewrite CE, Ec. reflexivity.
    - intros x Hx NI r Hr. apply CE in Hx. apply (Permutation_in x P) in Hx. apply in_app_iff in Hx as [Hx|Hx]; [contradiction|auto].
  Qed.

  Lemma similarity_by_exact q skip limit batch rs : similarity_by o wrap_ops view gemv e q skip limit batch = Ok rs ->
    top_k o (candidate_by gemv (v_words wrap_ops (em_vocab e)) (a2_rows a) skip q (batch_of (v_words wrap_ops (em_vocab e)) batch)) limit rs.
  Proof.
    pose proof (words_ND SO pf e a made) as ND. rewrite similarity_by_eq. intros H.
    destruct (isize_max <? limit * 24); [discriminate|]. destruct (N.eqb_spec (batch_of words batch) 0) as [|Hb]; [discriminate|].
    destruct (N.eqb_spec (lenN words) 0) as [W0|W0].
    - inv H. assert (forall x, ~ candidate_by gemv words (a2_rows a) skip q (batch_of words batch) x) as NC.
      { intros x (i & H & _). apply nthN_Some_lt in H. lia. }
      constructor; [intros x []|constructor| |intros x Hx; exfalso; eapply NC; eauto].
      intros [|c cs] _ E; [unfold lenN; cbn; lia|]. exfalso. apply (NC c), E. left. reflexivity.
    - destruct (lenN q =? a2_cols a); [|discriminate].
      destruct (sim_fold_Ok o limit _ _ _ H) as [NU L0]. destruct (N.eq_dec limit 0) as [->|L].
      + specialize (L0 eq_refl eq_refl). rewrite L0 in H. inv H. apply best_top_by; [exact Hb|exact ND|].
        rewrite L0. split; [constructor|]. split; [reflexivity|]. exists []. split; [reflexivity|]. intros ? ? [].
      + destruct (sim_fold_best o OR limit (cand_sims words (all_sims gemv (length rows) (batch_of words batch) rows q) skip) [] []) as (h & E & B).
        * lia.
        * exact NU.
        * apply cand_sims_words. exact ND.
        * split; [constructor|]. split; [unfold lenN; cbn; lia|]. exists []. split; [reflexivity|]. intros ? ? [].
        * rewrite H in E. inv E. apply best_top_by; [exact Hb|exact ND|exact B].
  Qed.

  Lemma similarity_by_ok_iff q skip limit batch :
    (exists rs, similarity_by o wrap_ops view gemv e q skip limit batch = Ok rs) <->
    query_ok_by o gemv (v_words wrap_ops (em_vocab e)) (a2_cols a) (a2_rows a) skip q limit batch.
  Proof.
    pose proof (words_ND SO pf e a made) as ND. rewrite similarity_by_eq. split.
    - intros (rs & H). destruct (N.ltb_spec isize_max (limit * 24)) as [L|L]; [discriminate|].
      destruct (N.eqb_spec (batch_of words batch) 0) as [B|B]; [discriminate|].
      destruct (N.eqb_spec (lenN words) 0) as [W0|W0].
      + assert (words = []) as E by (destruct words; [reflexivity|rewrite lenN_cons in W0; lia]).
        constructor; auto; [intros x (i & K & _)|intros _ x (i & K & _)]; apply nthN_Some_lt in K; lia.
      + destruct (N.eqb_spec (lenN q) (a2_cols a)) as [Q|Q]; [|discriminate].
        destruct (sim_fold_Ok o limit _ _ _ H) as [NU L0]. pose proof (cand_sims_exact q skip _ B) as CE.
        constructor; auto.
        * intros x Hx. apply CE in Hx. rewrite Forall_forall in NU. apply NU. exact Hx.
        * intros LZ x Hx. apply CE in Hx. rewrite L0 in Hx by auto. destruct Hx.
    - intros [Q1 Q2 Q3 Q4 Q5]. destruct (N.ltb_spec isize_max (limit * 24)) as [L|L]; [lia|].
      destruct (N.eqb_spec (batch_of words batch) 0) as [B|B]; [contradiction|].
      destruct (N.eqb_spec (lenN words) 0) as [W0|W0]; [eauto|].
      destruct Q3 as [Q3|Q3]; [rewrite Q3 in W0; exfalso; apply W0; reflexivity|]. rewrite Q3, N.eqb_refl.
      pose proof (cand_sims_exact q skip _ B) as CE. set (cs := cand_sims _ _ _) in *.
      assert (Forall (num o) cs) as NU by (apply Forall_forall; intros x Hx; apply Q4, CE, Hx). destruct (N.eq_dec limit 0) as [->|LL].
      + destruct cs as [|x l]; [cbn; eauto|].
        exfalso. apply (Q5 eq_refl x). apply CE. left. reflexivity.
      + destruct (sim_fold_best o OR limit cs [] []) as (h & E & B').
        * lia.
        * exact NU.
        * apply cand_sims_words. exact ND.
        * split; [constructor|]. split; [unfold lenN; cbn; lia|]. exists []. split; [reflexivity|]. intros ? ? [].
        * eauto.
  Qed.

  (** Batches do not matter if every row is computed on its own. *)
  Lemma all_sims_map f b q : (forall rs, gemv rs q = map f rs) -> b <> 0 -> forall n rs, (length rs <= n)%nat -> all_sims gemv n b rs q = map f rs.
  Proof.
    intros G Hb. unfold all_sims. induction n as [|n IH]; intros rs L.
    - destruct rs; [reflexivity|cbn in L; lia].
    - destruct rs as [|r rs]; [reflexivity|]. cbn [chunks_of_fuel]. set (l := r :: rs) in *. cbn [map concat]. rewrite G.
      rewrite IH by (rewrite skipn_length; unfold l in *; cbn [length] in *; lia). rewrite <- map_app, firstn_skipn. reflexivity.
  Qed.
  Lemma batch_by_irrelevant f q skip limit b b' : (forall rs, gemv rs q = map f rs) -> b <> 0 -> b' <> 0 ->
    similarity_by o wrap_ops view gemv e q skip limit (Some b) = similarity_by o wrap_ops view gemv e q skip limit (Some b').
  Proof.
    intros G H H'. rewrite !similarity_by_eq. cbn [batch_of]. destruct (N.eqb_spec b 0); [contradiction|]. destruct (N.eqb_spec b' 0); [contradiction|].
    rewrite !(all_sims_map f) by auto. reflexivity.
  Qed.
End Query.

(** ** The normalised vector *)
Section Scaled.
  Context {F : Type} (o : fops F) (dot : list F -> list F -> F).
  Lemma l2_normalize_by_scaled v : scaled_by o dot v (fst (l2_normalize_by o dot v)) (snd (l2_normalize_by o dot v)).
  Proof.
    unfold l2_normalize_by, scaled_by. destruct (fis_zero o (fsqrt o (dot v v))) eqn:E; cbn [fst snd]; (split; [reflexivity|]); split; intros H; first [reflexivity|congruence].
  Qed.
  Lemma l2_normalize_by_len v : lenN (fst (l2_normalize_by o dot v)) = lenN v.
  Proof. unfold l2_normalize_by. destruct (fis_zero o _); cbn [fst]; [reflexivity|]. unfold vdivs, lenN. rewrite map_length. reflexivity. Qed.
End Scaled.

(** ** The public queries *)
Section Public.
  Context {Md S F : Type} (o : fops F) (OR : ordered o) (SO : storage_ops F S) (view : S -> res (array2 F)) (pf : profile).
  Variables (e : embeddings Md vocab_wrap S F) (a : array2 F) (dot : list F -> list F -> F) (gemv : list (list F) -> list F -> list F).
  Hypothesis made : emb_made SO pf e (a2_cols a) (a2_rows a).
  Hypothesis viewed : view (em_storage e) = Ok a.
  Hypothesis one : one_per_row gemv.

  Lemma masked_by_exact q limit skip batch :
    exists v n, scaled_by o dot q v n /\ lenN v = lenN q /\
      ((exists r, embedding_similarity_masked_by o wrap_ops view dot gemv e q limit skip batch = Ok r) <->
       query_ok_by o gemv (v_words wrap_ops (em_vocab e)) (a2_cols a) (a2_rows a) skip v limit batch) /\
      forall r, embedding_similarity_masked_by o wrap_ops view dot gemv e q limit skip batch = Ok r ->
      exists rs, r = Some rs /\
        top_k o (candidate_by gemv (v_words wrap_ops (em_vocab e)) (a2_rows a) skip v (batch_of (v_words wrap_ops (em_vocab e)) batch)) limit rs.
  Proof.
    exists (fst (l2_normalize_by o dot q)), (snd (l2_normalize_by o dot q)). split; [apply l2_normalize_by_scaled|].
    split; [apply l2_normalize_by_len|]. unfold embedding_similarity_masked_by. rewrite <- (similarity_by_ok_iff o OR SO view pf e a gemv made viewed one). split.
    - split; [intros (r & H); apply rbind_Ok_inv in H as (rs & H & _); eauto|]. intros (rs & ->). cbn [rbind]. eauto.
    - intros r H. apply rbind_Ok_inv in H as (rs & H & K). inv K. exists rs. split; [reflexivity|].
      eapply similarity_by_exact; eauto.
  Qed.

  (** Looking up a known word computes nothing, and looking up any other
      string fails or succeeds as in the model. *)
  Lemma known_by w i r : nthN (v_words wrap_ops (em_vocab e)) i = Some w -> nthN (a2_rows a) i = Some r ->
    emb_embedding_by o wrap_ops SO pf dot e w = Ok (Some r).
  Proof.
    intros HW HR. destruct (known_word o SO pf e _ _ made w i HW) as (r' & HR' & E). assert (r' = r) as -> by congruence.
    unfold emb_embedding_by, emb_embedding in *. destruct (v_idx wrap_ops pf (em_vocab e) w) as [[[j|is]|]| |] eqn:EI; cbn [rbind] in *; try discriminate; try exact E.
    exfalso. destruct (words_bijection pf (em_vocab e) w i (proj1 made)) as (WB & _). apply WB in HW. congruence.
  Qed.
  Lemma lookup_by_same w :
    match emb_embedding o wrap_ops SO pf e w, emb_embedding_by o wrap_ops SO pf dot e w with
    | Ok (Some v), Ok (Some v') => lenN v = lenN v'
    | Ok None, Ok None => True
    | Err k, Err k' => k = k'
    | Panic p, Panic p' => p = p'
    | _, _ => False
    end.
  Proof.
    unfold emb_embedding_by, emb_embedding. destruct (v_idx wrap_ops pf (em_vocab e) w) as [[[j|is]|]| |]; cbn [rbind]; auto.
    - destruct (st_embedding SO (em_storage e) j); cbn [rbind]; auto.
    - destruct (st_embeddings SO (em_storage e) is); cbn [rbind]; auto. rewrite l2_normalize_len, l2_normalize_by_len. reflexivity.
  Qed.

  Lemma word_by_exact w i r limit batch : nthN (v_words wrap_ops (em_vocab e)) i = Some w -> nthN (a2_rows a) i = Some r ->
    ((exists x, word_similarity_by o wrap_ops SO view pf dot gemv e w limit batch = Ok x) <->
     query_ok_by o gemv (v_words wrap_ops (em_vocab e)) (a2_cols a) (a2_rows a) [w] r limit batch) /\
    forall x, word_similarity_by o wrap_ops SO view pf dot gemv e w limit batch = Ok x ->
    exists rs, x = Some rs /\
      top_k o (candidate_by gemv (v_words wrap_ops (em_vocab e)) (a2_rows a) [w] r (batch_of (v_words wrap_ops (em_vocab e)) batch)) limit rs.
  Proof.
    intros HW HR. unfold word_similarity_by. rewrite (known_by w i r HW HR). cbn [rbind]. rewrite <- (similarity_by_ok_iff o OR SO view pf e a gemv made viewed one). split.
    - split; [intros (x & H); apply rbind_Ok_inv in H as (rs & H & _); eauto|]. intros (rs & ->). cbn [rbind]. eauto.
    - intros x H. apply rbind_Ok_inv in H as (rs & H & K). inv K. exists rs. split; [reflexivity|].
      eapply similarity_by_exact; eauto.
  Qed.

  Lemma analogy_by_exact wa wb wc ra rb rc limit batch : vocab_usable (em_vocab e) ->
    utf8_valid wa = true -> utf8_valid wb = true -> utf8_valid wc = true ->
    exists va vb vc, emb_embedding_by o wrap_ops SO pf dot e wa = Ok va /\ emb_embedding_by o wrap_ops SO pf dot e wb = Ok vb /\
    emb_embedding_by o wrap_ops SO pf dot e wc = Ok vc /\
    ((va = None \/ vb = None \/ vc = None) ->
     analogy_masked_by o wrap_ops SO view pf dot gemv e (wa, wb, wc) (ra, rb, rc) limit batch
     = Ok (inr (match va with Some _ => true | None => false end, match vb with Some _ => true | None => false end,
                match vc with Some _ => true | None => false end))) /\
    forall xa xb xc, va = Some xa -> vb = Some xb -> vc = Some xc ->
    exists v n skip, scaled_by o dot (analogy_vector o (a2_cols a) xa xb xc) v n /\ lenN v = a2_cols a /\
      (forall w, In w skip <-> (ra = true /\ w = wa) \/ (rb = true /\ w = wb) \/ (rc = true /\ w = wc)) /\
      ((exists r, analogy_masked_by o wrap_ops SO view pf dot gemv e (wa, wb, wc) (ra, rb, rc) limit batch = Ok r) <->
       query_ok_by o gemv (v_words wrap_ops (em_vocab e)) (a2_cols a) (a2_rows a) skip v limit batch) /\
      forall r, analogy_masked_by o wrap_ops SO view pf dot gemv e (wa, wb, wc) (ra, rb, rc) limit batch = Ok r ->
      exists rs, r = inl rs /\
        top_k o (candidate_by gemv (v_words wrap_ops (em_vocab e)) (a2_rows a) skip v (batch_of (v_words wrap_ops (em_vocab e)) batch)) limit rs.
  Proof.
    intros US. assert (forall w, utf8_valid w = true -> exists v, emb_embedding_by o wrap_ops SO pf dot e w = Ok v /\ forall x, v = Some x -> lenN x = a2_cols a) as LW.
    { intros w Vw. destruct (lookup_width o SO pf e a made US w Vw) as (v & E & L). pose proof (lookup_by_same w) as K. rewrite E in K.
      destruct v as [v|]; destruct (emb_embedding_by o wrap_ops SO pf dot e w) as [[v'|]| |]; try contradiction.
      - exists (Some v'). split; [reflexivity|]. intros x X. inv X. rewrite <- K. apply L. reflexivity.
      - exists None. split; [reflexivity|]. discriminate. }
    intros Va Vb Vc. destruct (LW wa Va) as (va & Ea & La). destruct (LW wb Vb) as (vb & Eb & Lb).
    destruct (LW wc Vc) as (vc & Ec & Lc). exists va, vb, vc. split; [auto|]. split; [auto|]. split; [auto|].
    unfold analogy_masked_by, lookup_words3_by. rewrite Ea, Eb, Ec. cbn [rbind]. split.
    - intros H. destruct va, vb, vc; try reflexivity. destruct H as [H|[H|H]]; discriminate.
    - intros xa xb xc -> -> ->. specialize (La xa eq_refl). specialize (Lb xb eq_refl). specialize (Lc xc eq_refl).
      cbn [rbind]. rewrite (analogy_vector_eq o a xa xb xc La Lb Lc). set (u := analogy_vector o (a2_cols a) xa xb xc).
      exists (fst (l2_normalize_by o dot u)), (snd (l2_normalize_by o dot u)), (map fst (filter snd [(wa, ra); (wb, rb); (wc, rc)])).
      split; [apply l2_normalize_by_scaled|].
      split; [rewrite l2_normalize_by_len; unfold u, analogy_vector, lenN; rewrite map_length, seq_length; lia|].
      split; [intros w; destruct ra, rb, rc; cbn; intuition congruence|].
      rewrite <- (similarity_by_ok_iff o OR SO view pf e a gemv made viewed one). split.
      + split; [intros (r & H); apply rbind_Ok_inv in H as (rs & H & _); eauto|]. intros (rs & ->). cbn [rbind]. eauto.
      + intros r H. apply rbind_Ok_inv in H as (rs & H & K). inv K. exists rs. split; [reflexivity|].
        eapply similarity_by_exact; eauto.
  Qed.
End Public.

(** ** Layouts *)
Section Layouts.
  Context {F : Type} (o : fops F).
  Lemma nd_one_per_row s s' : one_per_row (nd_gemv o s s').
  Proof. intros rows q. unfold nd_gemv. apply map_length. Qed.
  Lemma short_dot (Z : fadd o (fzero o) (fzero o) = fzero o) a b : lenN a < 8 -> vdot o a b = dot_tail o a b (fzero o).
  Proof.
    intros L. unfold vdot. unfold lenN in L.
    destruct a as [|x0 [|x1 [|x2 [|x3 [|x4 [|x5 [|x6 [|x7 a]]]]]]]]; try (cbn [length] in L; lia);
      cbn [dot_blocks]; rewrite !Z; try reflexivity.
  Qed.
End Layouts.

(** Fewer than eight columns: the layout does not matter. *)
Section Short.
  Context {Md S F : Type} (o : fops F) (SO : storage_ops F S) (view : S -> res (array2 F)) (pf : profile).
  Variables (e : embeddings Md vocab_wrap S F) (a : array2 F) (s s' : bool).
  Hypothesis zero : fadd o (fzero o) (fzero o) = fzero o.
  Hypothesis made : emb_made SO pf e (a2_cols a) (a2_rows a).
  Hypothesis viewed : view (em_storage e) = Ok a.
  Hypothesis short : a2_cols a < 8.
  Notation words := (v_words wrap_ops (em_vocab e)).

  Lemma nd_dot_short x y : lenN x < 8 -> nd_dot o s s' x y = vdot o x y.
  Proof. intros L. unfold nd_dot. destruct (s && s'); [reflexivity|]. symmetry. apply short_dot; auto. Qed.
  Lemma similarity_short q skip limit batch :
    similarity_by o wrap_ops view (nd_gemv o s s') e q skip limit batch = similarity_ o wrap_ops view e q skip limit batch.
  Proof.
    change (similarity_ o wrap_ops view e q skip limit batch) with (similarity_by o wrap_ops view (nd_gemv o true true) e q skip limit batch).
    rewrite !(similarity_by_eq o SO view pf e a _ made viewed (nd_one_per_row o _ _)).
    destruct (isize_max <? limit * 24); [reflexivity|]. destruct (N.eqb_spec (batch_of words batch) 0) as [|Hb]; [reflexivity|].
    destruct (lenN words =? 0); [reflexivity|]. destruct (lenN q =? a2_cols a); [|reflexivity].
    rewrite !(all_sims_map _ (fun r => fmul o (nd_dot o s s' r q) (fone o))) by auto.
    rewrite !(all_sims_map _ (fun r => fmul o (nd_dot o true true r q) (fone o))) by auto.
    f_equal. f_equal. apply map_ext_in. intros r HR. f_equal. rewrite nd_dot_short; [reflexivity|].
    pose proof (sm_cols _ _ _ _ (proj1 (proj2 made))) as FC. rewrite Forall_forall in FC. rewrite FC; [exact short|].
    rewrite <- (takeN_dropN (lenN words) (a2_rows a)). apply in_app_iff. auto.
  Qed.
  Lemma normalize_short v : lenN v < 8 -> l2_normalize_by o (nd_dot o s s') v = l2_normalize o v.
  Proof. intros L. unfold l2_normalize_by, l2_normalize. rewrite nd_dot_short by exact L. reflexivity. Qed.
  Lemma lookup_short w : emb_embedding_by o wrap_ops SO pf (nd_dot o s s') e w = emb_embedding o wrap_ops SO pf e w.
  Proof.
    unfold emb_embedding_by, emb_embedding. destruct (v_idx wrap_ops pf (em_vocab e) w) as [[[j|is]|]| |]; cbn [rbind]; try reflexivity.
    destruct (Forall_Exists_dec (fun i => i < lenN (a2_rows a)) (fun i => match N.ltb_spec0 i (lenN (a2_rows a)) with ReflectT _ p => left p | ReflectF _ n => right n end) is) as [FI|EX].
    - destruct (selects_total _ _ FI) as (rs & SE). rewrite (sm_rows _ _ _ _ (proj1 (proj2 made)) _ _ SE). cbn [rbind a2_cols a2_rows].
      rewrite normalize_short; [reflexivity|]. rewrite sum_rows_components.
      + unfold component_sums, lenN. rewrite map_length, seq_length. rewrite N2Nat.id. exact short.
      + eapply selects_Forall; [exact SE|]. apply (sm_cols _ _ _ _ (proj1 (proj2 made))).
    - rewrite (sm_rows_out _ _ _ _ (proj1 (proj2 made))); [reflexivity|]. eapply Exists_impl; [|exact EX]. cbn beta. intros i H. lia.
  Qed.
  Lemma short_layouts :
    (forall w limit batch, word_similarity_by o wrap_ops SO view pf (nd_dot o s s') (nd_gemv o s s') e w limit batch
       = word_similarity o wrap_ops SO view pf e w limit batch) /\
    (forall q limit skip batch, lenN q = a2_cols a -> embedding_similarity_masked_by o wrap_ops view (nd_dot o s s') (nd_gemv o s s') e q limit skip batch
       = embedding_similarity_masked o wrap_ops view e q limit skip batch) /\
    (forall wa wb wc remove limit batch, vocab_usable (em_vocab e) -> utf8_valid wa = true -> utf8_valid wb = true -> utf8_valid wc = true ->
       analogy_masked_by o wrap_ops SO view pf (nd_dot o s s') (nd_gemv o s s') e (wa, wb, wc) remove limit batch
       = analogy_masked o wrap_ops SO view pf e (wa, wb, wc) remove limit batch).
  Proof.
    split; [|split].
    - intros w limit batch. unfold word_similarity_by, word_similarity. rewrite lookup_short. destruct (emb_embedding o wrap_ops SO pf e w) as [[v|]| |]; cbn [rbind]; try reflexivity.
      rewrite similarity_short. reflexivity.
    - intros q limit skip batch LQ. unfold embedding_similarity_masked_by, embedding_similarity_masked. rewrite normalize_short by (rewrite LQ; exact short). rewrite similarity_short. reflexivity.
    - intros wa wb wc [[ra rb] rc] limit batch US Va Vb Vc. unfold analogy_masked_by, analogy_masked, lookup_words3_by, lookup_words3. rewrite !lookup_short.
      destruct (lookup_width o SO pf e a made US wa Va) as (va & -> & La). destruct (lookup_width o SO pf e a made US wb Vb) as (vb & -> & Lb).
      destruct (lookup_width o SO pf e a made US wc Vc) as (vc & -> & Lc). cbn [rbind]. destruct va as [va|], vb as [vb|], vc as [vc|]; try reflexivity. cbn [rbind].
      rewrite normalize_short; [rewrite similarity_short; reflexivity|]. rewrite (analogy_vector_eq o a); auto. unfold analogy_vector, lenN. rewrite map_length, seq_length, N2Nat.id. exact short.
  Qed.
End Short.
