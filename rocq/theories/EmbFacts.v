(** * Embedding lookups. *)
From Verif Require Import Base BaseFacts Utf8 F32 ChunkIO Subword Vocab Storage Embeddings FileSpec VocabSpec EmbSpec
  VocabFacts LookupFacts MatrixFacts.
From Coq Require Import Lia Permutation.
Local Open Scope N_scope.

(** ** Vectors *)
Lemma zip_with_length {A B C} (f : A -> B -> C) a b : length (zip_with f a b) = Nat.min (length a) (length b).
Proof. revert b. induction a as [|x a IH]; intros [|y b]; cbn [zip_with length]; auto. rewrite IH. reflexivity. Qed.

Lemma zip_with_nth {A B C} (f : A -> B -> C) a b i da db dc :
  (i < length a)%nat -> (i < length b)%nat -> nth i (zip_with f a b) dc = f (nth i a da) (nth i b db).
Proof.
  revert b i. induction a as [|x a IH]; intros [|y b] [|i]; cbn [zip_with nth length]; intros; try lia; auto.
  apply IH; lia.
Qed.

Section Vectors.
  Context {F : Type} (o : fops F).

  Lemma vadd_len a b : lenN a = lenN b -> lenN (vadd o a b) = lenN a.
  Proof. unfold vadd, lenN. rewrite zip_with_length. lia. Qed.

  Lemma fold_vadd_len cols rs v : Forall (fun r => lenN r = cols) rs -> lenN v = cols ->
    lenN (fold_left (vadd o) rs v) = cols.
  Proof.
    intros H. revert v. induction H as [|r rs Hr H IH]; intros v Hv; [auto|]. cbn [fold_left]. apply IH.
    rewrite vadd_len; lia.
  Qed.

  Lemma fold_vadd_nth rs : forall cols v j, Forall (fun r => lenN r = cols) rs -> lenN v = cols -> (j < N.to_nat cols)%nat ->
    nth j (fold_left (vadd o) rs v) (fzero o)
    = fold_left (fun a r => fadd o a (nth j r (fzero o))) rs (nth j v (fzero o)).
  Proof.
    induction rs as [|r rs IH]; intros cols v j H Hv Hj; [reflexivity|]. inv H. cbn [fold_left].
    rewrite (IH (lenN v)); auto.
    - f_equal. unfold vadd. unfold lenN in *. apply zip_with_nth; lia.
    - rewrite vadd_len; lia.
  Qed.

  Lemma map_nth_seq {A} (l : list A) d : l = map (fun j => nth j l d) (seq 0 (length l)).
  Proof.
    induction l as [|a l IH]; [reflexivity|]. cbn [length seq map nth]. f_equal.
    rewrite <- seq_shift, map_map. exact IH.
  Qed.

  Lemma sum_rows_components cols rs : Forall (fun r => lenN r = cols) rs ->
    sum_rows o cols rs = component_sums o cols rs.
  Proof.
    intros H. unfold sum_rows, component_sums.
    assert (lenN (vzeros o cols) = cols) as LZ by (unfold vzeros; rewrite lenN_repeat; lia).
    pose proof (fold_vadd_len cols rs _ H LZ) as L.
    rewrite (map_nth_seq (fold_left (vadd o) rs (vzeros o cols)) (fzero o)).
    replace (length (fold_left (vadd o) rs (vzeros o cols))) with (N.to_nat cols) by (unfold lenN in L; lia).
    apply map_ext_in. intros j Hj. apply in_seq in Hj.
    rewrite (fold_vadd_nth rs cols) by (auto; lia). unfold component_sum. f_equal.
    unfold vzeros. apply nth_repeat.
  Qed.

  Lemma sum_rows_target cols rs (target : list F) : lenN target = cols ->
    fold_left (vadd o) rs (map (fun _ => fzero o) target) = sum_rows o cols rs.
  Proof.
    intros H. unfold sum_rows. f_equal. unfold vzeros. replace (N.to_nat cols) with (length target) by (unfold lenN in H; lia).
    clear. induction target; cbn [map repeat length]; congruence.
  Qed.

  Lemma component_sums_len cols rs : lenN (component_sums o cols rs) = cols.
  Proof. unfold component_sums, lenN. rewrite map_length, seq_length. lia. Qed.

  Lemma l2_normalize_scaled u : scaled_by_length o u (fst (l2_normalize o u)) (snd (l2_normalize o u)).
  Proof.
    unfold scaled_by_length, l2_normalize. destruct (fis_zero o (fsqrt o (vdot o u u))) eqn:E; cbn [fst snd];
      rewrite E; repeat split; auto; discriminate.
  Qed.

  Lemma l2_normalize_len u : lenN (fst (l2_normalize o u)) = lenN u.
  Proof. unfold l2_normalize. destruct (fis_zero o _); cbn [fst]; [reflexivity|]. apply lenN_map. Qed.
End Vectors.

(** ** Lookups *)
Section Lookup.
  Context {Md S F : Type} (o : fops F) (SO : storage_ops F S) (pf : profile).
  Notation emb := (embeddings Md vocab_wrap S F).
  Variables (e : emb) (cols : N) (rows : list (list F)).
  Hypothesis made : emb_made SO pf e cols rows.

  Let MV : vocab_made pf (em_vocab e). Proof. apply made. Qed.
  Let MS : st_matrix SO (em_storage e) cols rows. Proof. apply made. Qed.

  Lemma emb_made_len : v_vocab_len wrap_ops pf (em_vocab e) = Ok (lenN rows).
  Proof.
    destruct made as (_ & _ & H). unfold emb_new_with_maybe_norms in H.
    apply rbind_Ok_inv in H as (n & E & H). apply rbind_Ok_inv in H as (u & A & _).
    apply rassert_Ok in A. rewrite (sm_shape _ _ _ _ MS) in A. cbn [fst] in A. apply N.eqb_eq in A. congruence.
  Qed.

  Lemma emb_dims_cols : emb_dims SO e = cols.
  Proof. unfold emb_dims. rewrite (sm_shape _ _ _ _ MS). reflexivity. Qed.

  Lemma words_fit : v_words_len wrap_ops (em_vocab e) <= lenN rows.
  Proof.
    pose proof emb_made_len as VL. destruct made as (M & _).
    assert (forall I (ops : indexer_ops I) ws mn mx ix bow eow sv, ix_made I ops ix ->
      sub_new_with_boundaries ops pf ws mn mx ix bow eow = Ok sv ->
      v_vocab_len (sub_ops ops) pf sv = Ok (lenN rows) -> v_words_len (sub_ops ops) sv <= lenN rows) as S'.
    { intros I ops ws mn mx ix bow eow sv Mi B V.
      destruct (sub_vocab_len_exact ops pf ws mn mx ix bow eow sv B) as (b & _ & E).
      rewrite E in V. assert (lenN rows = lenN ws + b) as LR by congruence. apply sub_new_Ok in B as (ND & -> & _).
      cbn [v_words_len sub_ops]. unfold sub_words_len. cbn [sv_indices]. apply ci_len_NoDup in ND. lia. }
    destruct M; cbn [v_vocab_len v_words_len wrap_ops] in *; try (eapply S'; eassumption).
    cbn [v_vocab_len simple_ops] in VL. inv VL. cbn [v_words_len simple_ops]. lia.
  Qed.

  Lemma known_word w i : nthN (v_words wrap_ops (em_vocab e)) i = Some w ->
    exists r, nthN rows i = Some r /\ emb_embedding o wrap_ops SO pf e w = Ok (Some r).
  Proof.
    intros H. destruct (words_bijection pf (em_vocab e) w i MV) as (B & L & _).
    apply nthN_Some_lt in H as Hi. apply B in H. pose proof words_fit as W.
    destruct (nthN_lt rows i) as [r R]; [lia|]. exists r. split; [auto|].
    unfold emb_embedding. rewrite H. cbn [rbind]. rewrite (sm_row _ _ _ _ MS i r R). reflexivity.
  Qed.

  (** A string that is looked up through its subwords. *)
  Lemma unknown_word w is : v_idx wrap_ops pf (em_vocab e) w = Ok (Some (Subwords is)) ->
    Forall (fun i => i < lenN rows) is ->
    exists rs v n, selects rows is rs /\ scaled_by_length o (component_sums o cols rs) v n /\
    emb_embedding o wrap_ops SO pf e w = Ok (Some v) /\
    emb_with_norm o wrap_ops SO pf e w = Ok (Some (v, n)).
  Proof.
    intros H B. apply selects_total in B as [rs S0].
    exists rs, (fst (l2_normalize o (component_sums o cols rs))), (snd (l2_normalize o (component_sums o cols rs))).
    split; [auto|]. split; [apply l2_normalize_scaled|].
    unfold emb_embedding, emb_with_norm. rewrite H. cbn [rbind]. rewrite (sm_rows _ _ _ _ MS is rs S0). cbn [rbind a2_cols a2_rows].
    rewrite sum_rows_components by (eapply selects_Forall; [exact S0|apply (sm_cols _ _ _ _ MS)]).
    destruct (l2_normalize o (component_sums o cols rs)); auto.
  Qed.

  Hypothesis usable : vocab_usable (em_vocab e).

  Lemma lookup_cases w : utf8_valid w = true ->
    (exists i r, v_idx wrap_ops pf (em_vocab e) w = Ok (Some (Word i)) /\ i < v_words_len wrap_ops (em_vocab e) /\
       nthN rows i = Some r /\ lenN r = cols /\ emb_embedding o wrap_ops SO pf e w = Ok (Some r)) \/
    (exists is rs v n, v_idx wrap_ops pf (em_vocab e) w = Ok (Some (Subwords is)) /\ is <> [] /\
       selects rows is rs /\ scaled_by_length o (component_sums o cols rs) v n /\ lenN v = cols /\
       emb_embedding o wrap_ops SO pf e w = Ok (Some v) /\ emb_with_norm o wrap_ops SO pf e w = Ok (Some (v, n))) \/
    (v_idx wrap_ops pf (em_vocab e) w = Ok None /\ emb_embedding o wrap_ops SO pf e w = Ok None /\
     emb_with_norm o wrap_ops SO pf e w = Ok None).
  Proof.
    intros V. destruct (lookup_in_bounds pf (em_vocab e) w MV usable V) as (r & n & E & VL & LE & B).
    rewrite emb_made_len in VL. inv VL. destruct r as [[i|is]|].
    - left. destruct (nthN_lt rows i) as [r R]; [lia|]. exists i, r. split; [auto|]. split; [auto|]. split; [auto|].
      split; [pose proof (sm_cols _ _ _ _ MS) as C; rewrite Forall_forall in C; apply C; eapply nthN_In; eauto|].
      unfold emb_embedding. rewrite E. cbn [rbind]. rewrite (sm_row _ _ _ _ MS i r R). reflexivity.
    - right. left. destruct B as [NE B]. destruct (unknown_word w is E) as (rs & v & n & S0 & SC & E1 & E2).
      { eapply Forall_impl; [|exact B]. cbn beta. intros; lia. }
      exists is, rs, v, n. repeat (split; [auto; fail|]). split; [|split; auto].
      destruct SC as (Hn & S1 & S2). destruct (fis_zero o n) eqn:Z.
      + rewrite S1 by auto. apply component_sums_len.
      + rewrite S2, lenN_map by auto. apply component_sums_len.
    - right. right. unfold emb_embedding, emb_with_norm. rewrite E. auto.
  Qed.

  (** [embedding_into] against [embedding]. *)
  Lemma into_wrong w target : lenN target <> cols -> emb_embedding_into o wrap_ops SO pf e w target = Panic PAssert.
  Proof.
    intros H. unfold emb_embedding_into. rewrite emb_dims_cols. apply N.eqb_neq in H. rewrite H. reflexivity.
  Qed.

  Lemma into_agrees w target : lenN target = cols -> utf8_valid w = true ->
    emb_embedding_into o wrap_ops SO pf e w target
    = let* r := emb_embedding o wrap_ops SO pf e w in
      Ok (match r with Some v => (v, true) | None => (target, false) end).
  Proof.
    intros L V. unfold emb_embedding_into. rewrite emb_dims_cols, L, N.eqb_refl. cbn [rassert rbind].
    destruct (lookup_cases w V) as [(i & r & E & _ & R & LR & E1)|[(is & rs & v & n & E & _ & S0 & _ & _ & E1 & _)|(E & E1 & _)]];
      rewrite E, E1; cbn [rbind]; [| |reflexivity].
    - rewrite (sm_row _ _ _ _ MS i r R). cbn [rbind]. rewrite LR, N.eqb_refl. reflexivity.
    - unfold emb_embedding in E1. rewrite E in E1. cbn [rbind] in E1.
      rewrite (sm_rows _ _ _ _ MS is rs S0) in E1 |- *. cbn [rbind a2_cols a2_rows] in E1 |- *.
      rewrite N.eqb_refl. cbn [rassert rbind]. rewrite (sum_rows_target o cols) by auto. inv E1. reflexivity.
  Qed.
End Lookup.
