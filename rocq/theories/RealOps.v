(** * The algorithms over exact real arithmetic.

    The same definitions as for [f32], with the operations of [R].  Uses the
    axioms of the standard library's real numbers. *)
From Coq Require Import Reals Lra.
From Verif Require Import Base BaseFacts F32 EmbSpec.
Local Open Scope R_scope.

Definition R_cmp (x y : R) : option comparison :=
  Some (if Rlt_dec x y then Lt else if Rlt_dec y x then Gt else Eq).
Definition R_ops : fops R :=
  mkFops R 0 1 Rplus Rminus Rmult Rdiv sqrt (fun x => if Req_EM_T x 0 then true else false) R_cmp
         (fun n => IZR (Z.of_N n)).

(** The inner product. *)
Definition inner (x y : list R) : R := fold_right Rplus 0 (zip_with Rmult x y).

Lemma dot_tail_R x : forall y a, dot_tail R_ops x y a = a + inner x y.
Proof.
  induction x as [|u x IH]; intros [|v y] a; cbn [dot_tail]; try (unfold inner; cbn; lra).
  rewrite IH. unfold inner. cbn. lra.
Qed.

Definition p8_sum (p : p8 (F := R)) : R :=
  let '(p0,p1,p2,p3,p4,p5,p6,p7) := p in p0 + p1 + p2 + p3 + p4 + p5 + p6 + p7.

Lemma dot_blocks_R n : forall x y p, (length x <= n)%nat ->
  let '(p', (x', y')) := dot_blocks R_ops x y p in p8_sum p' + inner x' y' = p8_sum p + inner x y.
Proof.
  induction n as [|n IH]; intros x y p L.
  - destruct x; [|cbn in L; lia]. cbn [dot_blocks]. reflexivity.
  - destruct x as [|x0 [|x1 [|x2 [|x3 [|x4 [|x5 [|x6 [|x7 x]]]]]]]]; try reflexivity.
    destruct y as [|y0 [|y1 [|y2 [|y3 [|y4 [|y5 [|y6 [|y7 y]]]]]]]]; try reflexivity.
    destruct p as [[[[[[[p0 p1] p2] p3] p4] p5] p6] p7]. cbn [dot_blocks].
    match goal with |- context [dot_blocks R_ops x y ?p] =>
      specialize (IH x y p); destruct (dot_blocks R_ops x y p) as [p' [x' y']] end.
    rewrite IH by (cbn [length] in L; lia). unfold inner. cbn. lra.
Qed.

(** ndarray's blocked dot product is the inner product. *)
Lemma vdot_R x y : vdot R_ops x y = inner x y.
Proof.
  unfold vdot. pose proof (dot_blocks_R (length x) x y (0,0,0,0,0,0,0,0) (le_n _)) as H.
  cbn [fzero R_ops]. destruct (dot_blocks R_ops x y _) as [[[[[[[[p0 p1] p2] p3] p4] p5] p6] p7] [x' y']].
  rewrite dot_tail_R. unfold p8_sum in H. cbn [fadd R_ops]. lra.
Qed.

Lemma inner_nonneg x : 0 <= inner x x.
Proof.
  induction x as [|a x IH]; unfold inner in *; cbn; [lra|]. pose proof (Rle_0_sqr a). unfold Rsqr in *. lra.
Qed.

Lemma inner_zero x : inner x x = 0 <-> Forall (fun a => a = 0) x.
Proof.
  split.
  - induction x as [|a x IH]; intros H; [constructor|].
    pose proof (inner_nonneg x) as P. pose proof (Rle_0_sqr a) as Q. unfold Rsqr in Q.
    unfold inner in *. cbn in H. constructor; [|apply IH; lra].
    apply Rsqr_0_uniq. unfold Rsqr. lra.
  - induction 1 as [|a x -> F IH]; unfold inner in *; cbn; [lra|]. rewrite IH. lra.
Qed.

Lemma inner_div x y c d : c <> 0 -> d <> 0 -> inner (map (fun a => a / c) x) (map (fun a => a / d) y) = inner x y / (c * d).
Proof.
  intros Hc Hd. revert y. induction x as [|a x IH]; intros [|b y]; unfold inner in *; cbn; try (field; auto).
  rewrite IH. field. auto.
Qed.

(** A vector divided by its length has length one; only the zero vector is
    left alone. *)
Lemma scaled_R u v n : scaled_by_length R_ops u v n ->
  (n = 0 <-> Forall (fun a => a = 0) u) /\ (n = 0 -> v = u) /\ (n <> 0 -> inner v v = 1) /\
  0 <= n /\ u = map (fun a => a * n) v.
Proof.
  intros (Hn & Z & NZ). rewrite vdot_R in Hn. cbn [fsqrt R_ops] in Hn. pose proof (inner_nonneg u) as P.
  assert (n = 0 <-> inner u u = 0) as E.
  { rewrite Hn. split; [apply sqrt_eq_0; auto|]. intros E0. rewrite E0. apply sqrt_0. }
  cbn [fis_zero R_ops fdiv] in Z, NZ. split; [rewrite E; apply inner_zero|].
  destruct (Req_EM_T n 0) as [N0|N0].
  - rewrite Z by auto. repeat split; auto; try tauto; [subst; apply sqrt_pos|].
    assert (Forall (fun a => a = 0) u) as U by (apply inner_zero, E; auto). rewrite N0. clear -U. induction U as [|a u -> U IH]; [reflexivity|]. cbn [map].
    rewrite <- IH. f_equal. lra.
  - rewrite NZ by auto. split; [tauto|]. split; [|split].
    + intros _. rewrite inner_div by auto. replace (n * n) with (inner u u); [field; tauto|].
      rewrite Hn. symmetry. apply sqrt_sqrt. auto.
    + subst. apply sqrt_pos.
    + rewrite map_map. rewrite <- (map_id u) at 1. apply map_ext. intros a. field. auto.
Qed.

(** Sums of components. *)
Lemma fold_left_sum {A} (f : A -> R) l a : fold_left (fun s r => s + f r) l a = a + fold_right Rplus 0 (map f l).
Proof. revert a. induction l as [|x l IH]; intros a; cbn; [lra|]. rewrite IH. lra. Qed.

Lemma component_sum_R rs j : component_sum R_ops rs j = fold_right Rplus 0 (map (fun r => nth j r 0) rs).
Proof. unfold component_sum. cbn [fadd fzero R_ops]. rewrite fold_left_sum. lra. Qed.

(** Subsumed lookups only depend on the set of rows, not on their order. *)
Lemma sum_perm (l l' : list R) : Permutation.Permutation l l' -> fold_right Rplus 0 l = fold_right Rplus 0 l'.
Proof. induction 1; cbn; lra. Qed.
