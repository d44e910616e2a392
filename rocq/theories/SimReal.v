(** * Similarity measures over exact real arithmetic (C40). *)
From Coq Require Import Reals Lra.
From Verif Require Import Base BaseFacts F32 Similarity SimSpec RealOps.
Local Open Scope R_scope.

Lemma R_ordered : ordered R_ops.
Proof.
  constructor; cbn [fcmp R_ops]; unfold R_cmp.
  - intros x y _ _. destruct (Rlt_dec x y), (Rlt_dec y x); try lra; eexists; split; reflexivity.
  - intros x y z. destruct (Rlt_dec x y), (Rlt_dec y z), (Rlt_dec x z); try lra; try reflexivity;
      destruct (Rlt_dec y x), (Rlt_dec z y); discriminate.
  - intros x y z. destruct (Rlt_dec x y); [discriminate|]. destruct (Rlt_dec y x); [discriminate|]. intros _.
    assert (x = y) as -> by lra. reflexivity.
Qed.
Lemma R_one_neutral : one_neutral R_ops.
Proof. intros x. cbn [fmul fone R_ops]. split; [intros _; apply Rmult_1_r|]. intros _. discriminate. Qed.

(** The Euclidean distance of two vectors. *)
Definition distance (u v : list R) : R :=
  sqrt (fold_right Rplus 0 (zip_with (fun a b => (a - b) * (a - b)) u v)).

Lemma square_sum u : forall v, length u = length v ->
  fold_right Rplus 0 (zip_with (fun a b => (a - b) * (a - b)) u v) = inner u u - 2 * inner u v + inner v v.
Proof.
  induction u as [|a u IH]; intros [|b v] L; try discriminate; unfold inner in *; cbn; [lra|].
  rewrite IH by (cbn in L; lia). unfold inner. lra.
Qed.
Lemma square_sum_plus u : forall v, length u = length v -> 0 <= inner u u + 2 * inner u v + inner v v.
Proof.
  induction u as [|a u IH]; intros [|b v] L; try discriminate; unfold inner in *; cbn; [lra|].
  specialize (IH v ltac:(cbn in L; lia)). pose proof (Rle_0_sqr (a + b)) as H. unfold Rsqr in H. lra.
Qed.
Lemma square_sum_pos u : forall v, 0 <= fold_right Rplus 0 (zip_with (fun a b => (a - b) * (a - b)) u v).
Proof.
  induction u as [|a u IH]; intros [|b v]; cbn; try lra. specialize (IH v). pose proof (Rle_0_sqr (a - b)) as H. unfold Rsqr in H. lra.
Qed.

Lemma unit_inner u v : length u = length v -> inner u u = 1 -> inner v v = 1 -> -1 <= inner u v <= 1.
Proof.
  intros L U V. pose proof (square_sum_plus u v L). pose proof (square_sum_pos u v) as P. rewrite (square_sum u v L) in P. lra.
Qed.

(** The converted results are the true distance and angle. *)
Lemma measures_exact u v w : length u = length v -> inner u u = 1 -> inner v v = 1 ->
  euclidean_distance R_ops (mkWsr (inner u v) w) = distance u v /\
  euclidean_similarity R_ops (mkWsr (inner u v) w) = 1 - distance u v / 2 /\
  exists angle, 0 <= angle <= PI /\ cos angle = inner u v /\
  angular_similarity R_ops acos PI (mkWsr (inner u v) w) = 1 - angle / PI.
Proof.
  intros L U V. pose proof (unit_inner u v L U V) as B.
  assert (euclidean_distance R_ops (mkWsr (inner u v) w) = distance u v) as D.
  { unfold euclidean_distance, cosine_similarity, ftwo, distance. cbn [wr_sim fsqrt fsub fmul fof_N R_ops Z.of_N].
    f_equal. rewrite (square_sum u v L). lra. }
  split; [exact D|]. split.
  - unfold euclidean_similarity. rewrite D. unfold ftwo. cbn [fsub fone fdiv fof_N R_ops Z.of_N]. reflexivity.
  - exists (acos (inner u v)). split; [apply acos_bound|]. split; [apply cos_acos; exact B|]. reflexivity.
Qed.

Lemma measures_range (x : wsr R) : -1 <= wr_sim x <= 1 ->
  0 <= euclidean_distance R_ops x <= 2 /\ 0 <= euclidean_similarity R_ops x <= 1 /\
  0 <= angular_similarity R_ops acos PI x <= 1.
Proof.
  intros B. assert (0 <= euclidean_distance R_ops x <= 2) as D.
  { unfold euclidean_distance, cosine_similarity, ftwo. cbn [fsqrt fsub fmul fof_N R_ops Z.of_N]. split; [apply sqrt_pos|].
    replace 2 with (sqrt 4) at 3; [apply sqrt_le_1; lra|].
    replace 4 with (2 * 2) by lra. rewrite sqrt_square; lra. }
  split; [exact D|]. split.
  - unfold euclidean_similarity, ftwo. cbn [fsub fone fdiv fof_N R_ops Z.of_N]. lra.
  - unfold angular_similarity. cbn [fsub fone fdiv R_ops]. pose proof (acos_bound (wr_sim x)) as A. pose proof PI_RGT_0 as P.
    assert (0 <= acos (wr_sim x) / PI <= 1) as Q; [|lra]. split.
    + apply Rmult_le_pos; [lra|]. left. apply Rinv_0_lt_compat. exact P.
    + apply (Rmult_le_reg_r PI); [exact P|]. unfold Rdiv. rewrite Rmult_assoc, Rinv_l by lra. lra.
Qed.

Lemma acos_decreasing x y : -1 <= x <= 1 -> -1 <= y <= 1 -> (x < y <-> acos y < acos x).
Proof.
  intros Bx By. pose proof (acos_bound x). pose proof (acos_bound y). split; intros H1.
  - rewrite <- (cos_acos x Bx), <- (cos_acos y By) in H1. apply cos_decreasing_0 in H1; try lra.
  - rewrite <- (cos_acos x Bx), <- (cos_acos y By). apply cos_decreasing_1; lra.
Qed.

(** All measures order results as the cosine does. *)
Lemma measures_order (x y : wsr R) : -1 <= wr_sim x <= 1 -> -1 <= wr_sim y <= 1 ->
  (cosine_similarity x < cosine_similarity y <-> angular_similarity R_ops acos PI x < angular_similarity R_ops acos PI y) /\
  (cosine_similarity x < cosine_similarity y <-> euclidean_distance R_ops y < euclidean_distance R_ops x) /\
  (cosine_similarity x < cosine_similarity y <-> euclidean_similarity R_ops x < euclidean_similarity R_ops y).
Proof.
  intros Bx By. assert (cosine_similarity x < cosine_similarity y <-> euclidean_distance R_ops y < euclidean_distance R_ops x) as D.
  { unfold euclidean_distance, cosine_similarity, ftwo. cbn [fsqrt fsub fmul fof_N R_ops Z.of_N]. split; intros H.
    - apply sqrt_lt_1; lra.
    - apply sqrt_lt_0 in H; lra. }
  split; [|split; [exact D|]].
  - unfold cosine_similarity, angular_similarity. cbn [fsub fone fdiv R_ops]. rewrite (acos_decreasing _ _ Bx By).
    pose proof (Rinv_0_lt_compat PI PI_RGT_0) as P. unfold Rdiv. split; intros H.
    + apply (Rmult_lt_compat_r _ _ _ P) in H. lra.
    + apply (Rmult_lt_reg_r (/ PI)); [exact P|lra].
  - rewrite D. unfold euclidean_similarity, ftwo. cbn [fsub fone fdiv fof_N R_ops Z.of_N]. lra.
Qed.
