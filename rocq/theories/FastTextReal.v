(** * fastText models over exact real arithmetic (C45). *)
From Coq Require Import Reals Lra.
From Verif Require Import Base BaseFacts Utf8 F32 Subword Vocab Storage Embeddings FastText VocabSpec EmbSpec FastTextSpec
  StorageFacts MatrixFacts EmbFacts RealOps FastTextFacts.
Local Open Scope N_scope.

Lemma fold_sub_add (f : list R -> R) subs : forall a, 
  fold_left (fun s r => (s + f r)%R) subs (fold_left (fun s r => (s - f r)%R) subs a) = a.
Proof.
  intros a. rewrite fold_left_sum.
  assert (fold_left (fun s r => (s - f r)%R) subs a = (a - fold_right Rplus 0 (map f subs))%R) as ->.
  { revert a. induction subs as [|r subs IH]; intros a; cbn; [lra|]. rewrite IH. lra. }
  lra.
Qed.

Lemma IZR_succ n : IZR (Z.of_N (n + 1)) <> 0%R.
Proof. apply IZR_neq. lia. Qed.

(** Taking the mean of what is written yields the vector times its norm. *)
Lemma mean_unmean d n subs : mean_row R_ops (unmean_row R_ops d n subs) subs = map (fun x => (x * n)%R) d.
Proof.
  destruct subs as [|s subs]; [reflexivity|]. unfold mean_row, unmean_row.
  rewrite map_length, seq_length. apply (nth_ext _ _ 0%R 0%R); rewrite !map_length, seq_length; [reflexivity|].
  intros j Hj.
  assert (nth j (map (fun x => (x * n)%R) d) 0%R = (nth j d 0%R * n)%R) as ->.
  { rewrite (nth_indep _ 0%R (0 * n)%R) by (rewrite map_length; auto). exact (map_nth (fun x => (x * n)%R) d 0%R j). }
  assert (forall g : nat -> R, nth j (map g (seq 0 (length d))) 0%R = g j) as NTH.
  { intros g. rewrite (nth_indep _ 0%R (g 0%nat)) by (rewrite map_length, seq_length; auto). rewrite map_nth, seq_nth by auto. reflexivity. }
  rewrite NTH. unfold at_ at 2. cbn [fzero R_ops]. rewrite NTH. cbn [fadd fsub fmul fdiv fof_N R_ops].
  rewrite (fold_sub_add (at_ R_ops j)). unfold at_. cbn [fzero R_ops]. field. apply IZR_succ.
Qed.

Lemma selects_above {A} (rows rows' : list A) k is rs rs' : (forall i, k <= i -> nthN rows' i = nthN rows i) -> Forall (fun i => k <= i) is ->
  selects rows is rs -> selects rows' is rs' -> rs' = rs.
Proof.
  intros H B. unfold selects. revert rs rs'. induction B as [|i is Hi B IH]; intros rs rs' S S'; inv S; inv S'; [reflexivity|].
  f_equal; [rewrite H in *; congruence|]. eauto.
Qed.

Lemma inner_scale x c : inner (map (fun a => (a * c)%R) x) (map (fun a => (a * c)%R) x) = (c * c * inner x x)%R.
Proof.
  unfold inner. induction x as [|a x IH]; cbn; [lra|]. rewrite IH. lra.
Qed.

(** C45: writing and reading leaves subword rows alone, and the vectors of
    words times their norms; normalised vectors and their norms are the same. *)
Lemma exact_round_trip v subs norms rows rows1 rows2 rows3 ns : subwords_are v subs ->
  unaveraged R_ops v subs norms rows rows1 -> averaged R_ops v subs rows1 rows2 ->
  first_normalized R_ops (lenN (sv_words v)) rows2 rows3 ns ->
  lenN rows3 = lenN rows /\ lenN ns = lenN (sv_words v) /\
  (forall i, lenN (sv_words v) <= i -> nthN rows3 i = nthN rows i) /\
  (forall i, i < lenN (sv_words v) -> exists own d n, nthN rows i = Some own /\ nthN rows3 i = Some d /\ nthN ns i = Some n /\
     map (fun x => (x * n)%R) d = map (fun x => (x * norms i)%R) own /\ (0 <= n)%R /\ (n <> 0%R -> inner d d = 1%R) /\
     (inner own own = 1%R -> (0 < norms i)%R -> d = own /\ n = norms i)).
Proof.
  intros SA (L1 & S1 & W1) (L2 & S2 & W2) (L3 & LN & S3 & W3).
  split; [congruence|]. split; [auto|]. split; [intros i Li; rewrite S3, S2, S1 by auto; reflexivity|].
  intros i Li. destruct (nthN_lt _ _ Li) as [w Ew].
  destruct (W1 i w Ew) as (own & rs & E1 & Sel1 & E1'). destruct (W2 i w Ew) as (own2 & rs2 & E2 & Sel2 & E2').
  assert (rs2 = rs) as ->.
  { eapply selects_above; [exact S1| |exact Sel1|exact Sel2].
    destruct (SA w (nthN_In _ _ _ Ew)) as (qs & iss & _ & _ & ->). apply Forall_map, Forall_forall. intros; lia. }
  rewrite E1' in E2. inv E2. rewrite mean_unmean in E2'.
  destruct (W3 i _ Li E2') as (d & n & Ed & En & SC). exists own, d, n. split; [auto|]. split; [auto|]. split; [auto|].
  pose proof SC as SC0. apply scaled_R in SC as (Z & _ & U & P & EQ). split; [congruence|]. split; [auto|]. split; [auto|].
  intros UN PN. destruct SC0 as (Hn & _ & NZ). rewrite vdot_R, inner_scale, UN in Hn. cbn [fsqrt R_ops] in Hn.
  assert (n = norms i) as EN.
  { rewrite Hn, Rmult_1_r. apply sqrt_square. lra. }
  split; [|exact EN]. rewrite NZ.
  - rewrite map_map. rewrite <- (map_id own) at 2. apply map_ext. intros x. cbn [fdiv R_ops]. rewrite EN. field. lra.
  - cbn [fis_zero R_ops]. destruct (Req_EM_T n 0); [lra|reflexivity].
Qed.

(** The same for the functions of the model: the vectors that
    [write_embeddings] writes, followed by the subword rows, are read as the
    same vectors. *)
Lemma exact_functions {Md S} (SO : storage_ops R S) pf (e : embeddings Md (subword_vocab ft_indexer) S R) cols rows :
  ft_emb_made SO pf e cols rows ->
  let v := em_vocab e in
  exists items written a rows' ns,
  emb_iter_with_norms R_ops (sub_ops ft_ops) SO e = Ok items /\
  rmap (fun it => ft_word_vector R_ops pf SO v (em_storage e) (fst it) (snd it)) items = Ok written /\
  add_subword_embeddings R_ops pf v (mkA2 cols (written ++ dropN (lenN (sv_words v)) rows)) = Ok a /\
  normalize_words R_ops (sub_words_len v) a = Ok (mkA2 cols rows', ns) /\
  lenN rows' = lenN rows /\ lenN ns = lenN (sv_words v) /\
  (forall i, lenN (sv_words v) <= i -> nthN rows' i = nthN rows i) /\
  (forall i, i < lenN (sv_words v) -> exists own d n, nthN rows i = Some own /\ nthN rows' i = Some d /\ nthN ns i = Some n /\
     map (fun x => (x * n)%R) d = map (fun x => (x * ft_norm R_ops e i)%R) own /\ (0 <= n)%R /\ (n <> 0%R -> inner d d = 1%R) /\
     (inner own own = 1%R -> (0 < ft_norm R_ops e i)%R -> d = own /\ n = ft_norm R_ops e i)).
Proof.
  intros Mk v. pose proof Mk as (M & V & U & Mx & _). destruct (ft_rows_count pf SO e cols rows Mk) as [LR SW].
  pose proof (ft_written_unaveraged R_ops pf SO e cols rows Mk) as UA. pose proof (ft_written_wf R_ops pf SO e cols rows Mk) as WF.
  set (a0 := mkA2 cols (ft_written_rows R_ops pf e rows)).
  destruct (add_subwords_exact R_ops pf v M U V a0 WF) as (rows2 & E2 & A2).
  { cbn [a0 a2_rows]. rewrite (proj1 UA). unfold v. lia. }
  destruct (normalize_words_exact R_ops (sub_words_len v) (mkA2 cols rows2)) as (rows3 & ns & E3 & FN).
  { cbn [a2_rows]. rewrite (proj1 A2). cbn [a0 a2_rows]. rewrite (proj1 UA). unfold v. lia. }
  exists (ft_items R_ops e rows), (ft_word_rows R_ops pf e rows), (mkA2 cols rows2), rows3, ns.
  split; [apply (ft_items_exact R_ops pf SO e cols rows Mk)|]. split; [apply (ft_word_rows_exact R_ops pf SO e cols rows Mk)|].
  split; [exact E2|]. split; [exact E3|]. unfold v in *. rewrite SW in FN.
  eapply exact_round_trip; [apply ft_subs_are; auto|exact UA|exact A2|exact FN].
Qed.
