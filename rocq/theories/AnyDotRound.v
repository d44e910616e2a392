(** * Sums of products in [f32], in any order, and the ranking of queries (C114). *)
From Coq Require Import Reals Lra Floats.SpecFloat Sorting.Permutation.
From Verif Require Import Base BaseFacts Utf8 F32 Subword Vocab Storage Embeddings Similarity VocabSpec EmbFacts FileSpec TextSpec EmbSpec SimSpec F32Facts F32RoundSpec F32Round F32Ops F32RoundThms SimRound EmbRound SimFacts VocabFacts MatrixFacts RankSpec DotRound AnyDot AnyDotSpec AnyDotFacts.
Local Open Scope R_scope.

(** ** Sums of the products of pairs *)
Definition psum (l : list (f32 * f32)) : R := fold_right Rplus 0 (map (fun p => f32_R (fst p) * f32_R (snd p)) l).
Definition pabs (l : list (f32 * f32)) : R := fold_right Rplus 0 (map (fun p => Rabs (f32_R (fst p) * f32_R (snd p))) l).
Lemma sum_app l l' : fold_right Rplus 0 (l ++ l') = fold_right Rplus 0 l + fold_right Rplus 0 l'.
Proof. induction l as [|x l IH]; cbn [app fold_right]; [lra|]. rewrite IH. lra. Qed.
Lemma sum_perm l l' : Permutation l l' -> fold_right Rplus 0 l = fold_right Rplus 0 l'.
Proof. induction 1; cbn [fold_right]; lra. Qed.
Lemma psum_app l l' : psum (l ++ l') = psum l + psum l'. Proof. unfold psum. rewrite map_app. apply sum_app. Qed.
Lemma pabs_app l l' : pabs (l ++ l') = pabs l + pabs l'. Proof. unfold pabs. rewrite map_app. apply sum_app. Qed.
Lemma psum_perm l l' : Permutation l l' -> psum l = psum l'. Proof. intros P. apply sum_perm, Permutation_map, P. Qed.
Lemma pabs_perm l l' : Permutation l l' -> pabs l = pabs l'. Proof. intros P. apply sum_perm, Permutation_map, P. Qed.
Lemma psum_combine a : forall b, psum (combine a b) = rdot a b.
Proof.
  induction a as [|x a IH]; intros [|y b]; try reflexivity. rewrite rdot_cons, <- IH. reflexivity.
Qed.
Lemma psum_squares v : psum (combine v v) = fold_right Rplus 0 (map (fun x => f32_R x * f32_R x) v).
Proof. induction v as [|x v IH]; [reflexivity|]. cbn [combine map fold_right]. rewrite <- IH. reflexivity. Qed.

Lemma one_value x A : f32_value x = Some A -> f32_mul x f32_one = x.
Proof.
  intros V. apply (proj1 (f32_one_neutral x)). unfold number. cbn [fcmp f32_ops]. destruct (value_compare _ _ _ _ V V) as (c & -> & _). discriminate.
Qed.
Lemma one_value_inv x A : f32_value (f32_mul x f32_one) = Some A -> f32_value x = Some A.
Proof.
  intros V. assert (number f32_ops x) as NX.
  { apply (proj2 (f32_one_neutral x)). unfold number. cbn [fcmp f32_ops fmul fone]. destruct (value_compare _ _ _ _ V V) as (c & -> & _). discriminate. }
  pose proof (proj1 (f32_one_neutral x) NX) as E. cbn [fmul fone f32_ops] in E. rewrite E in V. exact V.
Qed.

(** ** The error, if there is no overflow *)
Lemma near_fused d c T M x a b z : near d c T M x -> f32_finite a -> f32_finite b -> fused a b x z ->
  near (S d) (c + 1) (f32_R a * f32_R b + T) (Rabs (f32_R a * f32_R b) + M) z.
Proof.
  intros [T0 HX] FA FB [_ FU]. set (m := f32_R a * f32_R b) in *. pose proof (Rabs_triang m T) as TT. split; [lra|].
  rewrite plus_INR. cbn [INR pow]. intros B.
  pose proof u_bounds as U. pose proof eta_pos as E. destruct (up_pow d d (le_n _)) as [P1 _]. set (P := (1 + u) ^ d) in *.
  pose proof (eta_c c) as C. pose proof (Rabs_pos T) as N. pose proof (Rabs_pos m) as N'.
  set (k := INR c * eta) in *. replace ((INR c + 1) * eta) with (k + eta) in * by (unfold k; ring).
  assert (P <= (1 + u) * P) as PP by nra. set (M' := Rabs m) in *.
  assert (P * (M' + M + (k + eta)) <= (1 + u) * P * (M' + M + (k + eta))) as B' by (apply Rmult_le_compat_r; lra).
  destruct HX as (A & VA & EA); [nra|]. pose proof (FU _ _ A (finite_R _ FA) (finite_R _ FB) VA) as R. fold m in R.
  assert (Rabs (m + A - (m + T)) <= (P - 1) * M + P * k) as EAB by (replace (m + A - (m + T)) with (A - T) by ring; exact EA).
  assert (Rabs (m + A) <= P * (M' + M + k)) as AB.
  { replace (m + A) with ((A - T) + (m + T)) by ring. eapply Rle_trans; [apply Rabs_triang|]. assert (M' <= P * M') by nra. lra. }
  destruct (bounded_value _ _ R) as (v & V & H); [nra|]. exists v. split; [exact V|].
  replace (v - (m + T)) with (- (m + A - v) + (m + A - (m + T))) by ring. eapply Rle_trans; [apply Rabs_triang|]. rewrite Rabs_Ropp.
  assert (u * Rabs (m + A) <= u * (P * (M' + M + k))) by (apply Rmult_le_compat_l; lra).
  assert (eta <= (1 + u) * P * eta) by nra. assert (0 <= (P - 1) * M') by nra.
  replace (((1 + u) * P - 1) * (M' + M) + (1 + u) * P * (k + eta)) with
    ((P - 1) * M' + ((P - 1) * M + P * k) + u * (P * (M' + M + k)) + (1 + u) * P * eta) by ring. lra.
Qed.
Lemma near_one d c T M x : near d c T M x -> near d c T M (f32_mul x f32_one).
Proof. intros [T0 H]. split; [exact T0|]. intros B. destruct (H B) as (A & V & E). exists A. rewrite (one_value _ _ V). auto. Qed.

Lemma order_near d c l x : sum_order d c l x -> Forall (fun p => f32_finite (fst p) /\ f32_finite (snd p)) l -> near d c (psum l) (pabs l) x.
Proof.
  intros H. induction H as [|a b|d d' c c' l l' x y HX IHX HY IHY|d c l a b x z H IH FU|d c l x H IH|d c l l' x H IH P]; intros F.
  - apply near_zero.
  - apply Forall_inv in F. destruct F as [FA FB]. cbn [fst snd] in *. eapply near_eq; [reflexivity| | |apply near_mul; assumption]; unfold psum, pabs; cbn [map fold_right fst snd]; lra.
  - apply Forall_app in F as [F F']. rewrite psum_app, pabs_app. apply near_add; auto.
  - pose proof (Forall_inv F) as [FA FB]. apply Forall_inv_tail in F. cbn [fst snd] in *. apply (near_fused d c (psum l) (pabs l) x a b z); auto.
  - apply near_one. auto.
  - rewrite <- (psum_perm _ _ P), <- (pabs_perm _ _ P). apply IH. eapply Permutation_Forall; [apply Permutation_sym, P|exact F].
Qed.

(** ** Sums of squares: the error, if the result is finite *)
Lemma approx_fused d c T x a z : approx d c T x -> fused a a x z -> approx (S d) (c + 1) (f32_R a * f32_R a + T) z.
Proof.
  intros [T0 HX] [FI FU]. pose proof (Rle_0_sqr (f32_R a)) as SQ. unfold Rsqr in SQ. split; [lra|]. intros A V.
  destruct FI as (FA & _ & (x' & VX)); [exists A; exact V|]. pose proof (FU _ _ _ (finite_R _ FA) (finite_R _ FA) VX) as R.
  destruct (HX _ VX) as (A0 & A1 & A2). set (m := f32_R a * f32_R a) in *.
  pose proof (Rle_trans _ _ _ (rounds_error _ _ _ R V) (rounding_error_sum _)) as E. rewrite (Rabs_right (m + x')) in E by lra. apply abs_bounds in E.
  split; [eapply rounds_nonneg; [exact R|lra|exact V]|]. pose proof u_bounds as U. pose proof eta_pos as H0.
  rewrite plus_INR. cbn [INR pow]. set (P := (1 + u) ^ d) in *. set (Q := (1 - u) ^ d) in *.
  assert (1 <= P) as P1 by (apply pow_R1_Rle; lra).
  assert (0 <= Q <= 1) as Q1. { split; [apply pow_le; lra|]. pose proof (pow_incr (1 - u) 1 d ltac:(lra)) as W. rewrite pow1 in W. exact W. }
  pose proof (pos_INR c) as C0. set (k := INR c) in *. clearbody P Q k m. set (t := eta) in *. set (v := u) in *. clearbody t v. clear - A1 A2 E U H0 P1 Q1 C0 T0 SQ A0.
  assert (0 <= k * t) by nra. split.
  - assert (Q * (m + T) - k * t <= m + x') as L by nra.
    assert ((1 - v) * (Q * (m + T) - k * t) <= (1 - v) * (m + x')) as L' by (apply Rmult_le_compat_l; lra).
    assert (0 <= v * (k * t)) by nra. replace ((1 - v) * Q * (m + T) - (k + 1) * t) with ((1 - v) * (Q * (m + T) - k * t) - v * (k * t) - t) by ring. lra.
  - assert (m + x' <= P * (m + T + k * t)) as L by nra.
    assert ((1 + v) * (m + x') <= (1 + v) * (P * (m + T + k * t))) as L' by (apply Rmult_le_compat_l; lra).
    assert (1 <= (1 + v) * P) as PP by nra. assert (1 * t <= (1 + v) * P * t) as PT by (apply Rmult_le_compat_r; lra).
    replace ((1 + v) * P * (m + T + (k + 1) * t)) with ((1 + v) * (P * (m + T + k * t)) + (1 + v) * P * t) by ring. lra.
Qed.
Lemma order_approx d c l x : sum_order d c l x -> Forall (fun p => snd p = fst p) l -> approx d c (psum l) x.
Proof.
  intros H. induction H as [|a b|d d' c c' l l' x y HX IHX HY IHY|d c l a b x z H IH FU|d c l x H IH|d c l l' x H IH P]; intros F.
  - apply approx_zero.
  - apply Forall_inv in F. cbn [fst snd] in F. subst b. eapply approx_eq; [reflexivity| |apply approx_square]. unfold psum. cbn [map fold_right fst snd]. lra.
  - apply Forall_app in F as [F F']. rewrite psum_app. apply approx_add; auto.
  - pose proof (Forall_inv F) as E. apply Forall_inv_tail in F. cbn [fst snd] in E. subst b. apply (approx_fused d c (psum l) x a z); auto.
  - specialize (IH F). destruct IH as [T0 IH]. split; [exact T0|]. intros A V. apply IH, one_value_inv, V.
  - rewrite <- (psum_perm _ _ P). apply IH. eapply Permutation_Forall; [apply Permutation_sym, P|exact F].
Qed.

Lemma combine_finite a : forall b, Forall f32_finite a -> Forall f32_finite b -> Forall (fun p => f32_finite (fst p) /\ f32_finite (snd p)) (combine a b).
Proof. induction a as [|x a IH]; intros [|y b] FA FB; cbn [combine]; constructor; inversion FA; inversion FB; subst; auto. Qed.
Lemma combine_diag (v : list f32) : Forall (fun p => snd p = fst p) (combine v v).
Proof. induction v; cbn [combine]; constructor; auto. Qed.

Lemma depth_bounds d : (13 <= d)%nat -> (N.of_nat d <= 1048576)%N -> 13 * u <= depth_error d <= 1 / 16.
Proof.
  intros L H. unfold depth_error. pose proof u_bounds as U. apply le_INR in L. change (INR 13) with (1+1+1+1+1+1+1+1+1+1+1+1+1) in L.
  assert (INR d <= 1048576) as B by (rewrite INR_IZR_INZ; apply IZR_le; lia). split; [nra|]. rewrite u_value. lra.
Qed.
Lemma depth_le d d' : (d <= d')%nat -> INR d * u <= depth_error d'.
Proof. intros L. unfold depth_error. apply Rmult_le_compat_r; [pose proof u_bounds; lra|apply le_INR, L]. Qed.

(** Any sum of products. *)
Lemma sums_dot d a b x : (13 <= d)%nat -> (N.of_nat d <= 1048576)%N -> sums d a b x -> Forall f32_finite a -> Forall f32_finite b ->
  length_R (map f32_R a) * length_R (map f32_R b) <= powerRZ 2 100 -> exists D, f32_value x = Some D /\
  Rabs (D - dot_R (map f32_R a) (map f32_R b)) <= 9 / 8 * depth_error d * (length_R (map f32_R a) * length_R (map f32_R b)) + powerRZ 2 (-124).
Proof.
  intros L H (d' & c & DL & CL & SO) FA FB. pose proof (order_near _ _ _ _ SO (combine_finite _ _ FA FB)) as NR.
  rewrite psum_combine in NR. apply (dot_of d' c a b x (depth_error d) NR (depth_bounds d L H) (depth_le _ _ DL) CL).
Qed.
Lemma unit_by_near d v w : (13 <= d)%nat -> (N.of_nat d <= 1048576)%N -> (lenN v <= 4194304)%N -> unit_by d v w -> unit_near (depth_error d) v w.
Proof.
  intros L H LV (F & s & n & nv & (d' & c & DL & CL & SO) & -> & EW & V & B). pose proof (order_approx _ _ _ _ SO (combine_diag v)) as AP. rewrite psum_squares in AP.
  pose proof (norm_value_of d' c v s nv (depth_error d) AP (depth_bounds d L H) (depth_le _ _ DL) CL V B) as NB.
  destruct (scaled_of v w _ nv (depth_error d) F LV EW V B (depth_bounds d L H) NB) as (H1 & H2 & H3 & H4).
  exists nv. pose proof (p2_pos (-40)). split; [lra|]. auto.
Qed.
Lemma sums_cosine d v w v' w' x : (13 <= d)%nat -> (N.of_nat d <= 1048576)%N -> unit_by d v w -> unit_by d v' w' -> lenN v = lenN v' -> (lenN v <= 4194304)%N ->
  sums d w w' x -> exists s, f32_value x = Some s /\ Rabs (s - cosine_R (map f32_R v) (map f32_R v')) <= 4 * depth_error d.
Proof.
  intros L H U U' LE LV SX. pose proof (unit_by_near d v w L H LV U) as N1. assert (unit_near (depth_error d) v' w') as N2 by (apply unit_by_near; auto; rewrite <- LE; exact LV).
  apply (cosine_of v w v' w' _ _ N1 N2 LE LV (depth_bounds d L H)). destruct N1 as (_ & _ & _ & F & _), N2 as (_ & _ & _ & F' & _).
  apply sums_dot; assumption.
Qed.

(** ** The sums of ndarray *)
Definition so (d c : nat) (l : list (f32 * f32)) (x : f32) : Prop := exists d', (d' <= d)%nat /\ sum_order d' c l x.
Lemma so_le d d' c l x : (d <= d')%nat -> so d c l x -> so d' c l x.
Proof. intros L (k & K & H). exists k. split; [lia|exact H]. Qed.
Lemma so_plus d d' c c' l l' x y : so d c l x -> so d' c' l' y -> so (S (Nat.max d d')) (c + c' + 1) (l ++ l') (f32_add x y).
Proof. intros (k & K & H) (k' & K' & H'). eexists. split; [|apply so_add; eassumption]. lia. Qed.
Lemma so_step d c l p x y : (1 <= d)%nat -> so d c l p -> so (S d) (c + 2) (l ++ [(x, y)]) (f32_add p (f32_mul x y)).
Proof.
  intros D H. replace (c + 2)%nat with (c + 1 + 1)%nat by lia. apply (so_le (S (Nat.max d 1))); [lia|]. apply so_plus; [exact H|]. exists 1%nat. split; [lia|apply so_mul].
Qed.
Lemma so_tail a : forall b d c l acc, length a = length b -> (1 <= d)%nat -> so d c l acc ->
  so (d + length a) (c + 2 * length a) (l ++ combine a b) (dot_tail f32_ops a b acc).
Proof.
  induction a as [|x a IH]; intros [|y b] d c l acc L D H; try discriminate L.
  - cbn [dot_tail length combine]. rewrite app_nil_r, Nat.mul_0_r, !Nat.add_0_r. exact H.
  - cbn [dot_tail length combine]. replace (d + S (length a))%nat with (S d + length a)%nat by lia. replace (c + 2 * S (length a))%nat with (c + 2 + 2 * length a)%nat by lia.
    replace (l ++ (x, y) :: combine a b) with ((l ++ [(x, y)]) ++ combine a b) by (rewrite <- app_assoc; reflexivity). apply IH; [cbn in L; lia|lia|]. apply so_step; assumption.
Qed.
Lemma so_eq d c c' l l' x : c = c' -> Permutation l l' -> so d c l x -> so d c' l' x.
Proof. intros -> P (k & K & H). exists k. split; [exact K|]. eapply so_perm; eauto. Qed.

Lemma perm_take {A} (l r : list A) z t s : Permutation (r ++ t) s -> Permutation ((l ++ r) ++ z :: t) ((l ++ [z]) ++ s).
Proof.
  intros P. rewrite <- P, <- !app_assoc. apply Permutation_app_head. cbn [app]. symmetry. apply Permutation_middle.
Qed.
Definition so8 (d c : nat) (l : list (f32 * f32)) (p : p8 (F := f32)) : Prop :=
  let '(p0,p1,p2,p3,p4,p5,p6,p7) := p in
  exists l0 l1 l2 l3 l4 l5 l6 l7, so d c l0 p0 /\ so d c l1 p1 /\ so d c l2 p2 /\ so d c l3 p3 /\
  so d c l4 p4 /\ so d c l5 p5 /\ so d c l6 p6 /\ so d c l7 p7 /\ Permutation l (l0 ++ l1 ++ l2 ++ l3 ++ l4 ++ l5 ++ l6 ++ l7).
Lemma so_blocks n : forall a b d c l p, (length a <= n)%nat -> length a = length b -> (1 <= d)%nat -> so8 d c l p ->
  exists k p' x y, dot_blocks f32_ops a b p = (p', (x, y)) /\ length a = (8 * k + length x)%nat /\ (length x < 8)%nat /\ length x = length y /\
  exists l', so8 (d + k) (c + 2 * k) l' p' /\ Permutation (l' ++ combine x y) (l ++ combine a b).
Proof.
  induction n as [|n IH]; intros a b d c l p L LE D H.
  - destruct a; [|cbn in L; lia]. destruct b; [|discriminate LE]. exists 0%nat, p, [], []. cbn [dot_blocks]. split; [reflexivity|]. split; [reflexivity|]. split; [cbn; lia|]. split; [reflexivity|].
    exists l. rewrite Nat.mul_0_r, !Nat.add_0_r. split; [exact H|reflexivity].
  - assert ((length a < 8)%nat -> dot_blocks f32_ops a b p = (p, (a, b))) as SM.
    { intros K. destruct a as [|x0 [|x1 [|x2 [|x3 [|x4 [|x5 [|x6 [|x7 a]]]]]]]]; try reflexivity. cbn [length] in K. lia. }
    destruct (Nat.lt_ge_cases (length a) 8) as [K|K].
    { exists 0%nat, p, a, b. split; [apply SM; exact K|]. split; [reflexivity|]. split; [exact K|]. split; [exact LE|].
      exists l. rewrite Nat.mul_0_r, !Nat.add_0_r. split; [exact H|reflexivity]. }
    clear SM. destruct a as [|x0 [|x1 [|x2 [|x3 [|x4 [|x5 [|x6 [|x7 a]]]]]]]]; try (cbn [length] in K; lia).
    destruct b as [|y0 [|y1 [|y2 [|y3 [|y4 [|y5 [|y6 [|y7 b]]]]]]]]; try (cbn [length] in LE; lia).
    destruct p as [[[[[[[p0 p1] p2] p3] p4] p5] p6] p7].
    destruct H as (l0 & l1 & l2 & l3 & l4 & l5 & l6 & l7 & H0 & H1 & H2 & H3 & H4 & H5 & H6 & H7 & P).
    cbn [dot_blocks fadd fmul f32_ops].
    destruct (IH a b (S d) (c + 2)%nat (l ++ [(x0, y0); (x1, y1); (x2, y2); (x3, y3); (x4, y4); (x5, y5); (x6, y6); (x7, y7)])
      (f32_add p0 (f32_mul x0 y0), f32_add p1 (f32_mul x1 y1), f32_add p2 (f32_mul x2 y2), f32_add p3 (f32_mul x3 y3),
       f32_add p4 (f32_mul x4 y4), f32_add p5 (f32_mul x5 y5), f32_add p6 (f32_mul x6 y6), f32_add p7 (f32_mul x7 y7)))
      as (k & p' & x & y & E & LX & LW & LY & l' & H' & P').
    { cbn [length] in L. lia. } { cbn [length] in LE. lia. } { lia. }
    { do 8 eexists. do 8 (split; [apply so_step; eassumption|]). rewrite P. do 7 apply perm_take. reflexivity. }
    exists (S k), p', x, y. split; [exact E|]. split; [cbn [length]; lia|]. split; [exact LW|]. split; [exact LY|]. exists l'. split.
    + replace (d + S k)%nat with (S d + k)%nat by lia. replace (c + 2 * S k)%nat with (c + 2 + 2 * k)%nat by lia. exact H'.
    + rewrite P', <- app_assoc. reflexivity.
Qed.
Lemma sums_le d d' a b x : (d <= d')%nat -> sums d a b x -> sums d' a b x.
Proof. intros L (k & c & K & C & H). exists k, c. split; [lia|]. auto. Qed.
Lemma vdot_sums d a b : length a = length b -> (lenN a <= 4194304)%N -> (length a + 8 * 13 < 8 * (d + 1))%nat -> sums d a b (vdot f32_ops a b).
Proof.
  intros L LA DB. unfold vdot. cbn [fzero f32_ops].
  assert (so 1 0 [] f32_zero) as Z by (exists 0%nat; split; [lia|apply so_zero]).
  destruct (so_blocks (length a) a b 1 0 [] (f32_zero,f32_zero,f32_zero,f32_zero,f32_zero,f32_zero,f32_zero,f32_zero)) as (k & p' & x & y & E & LX & LW & LY & l' & H' & P); auto.
  { do 8 exists []. repeat (split; [exact Z|]). reflexivity. }
  unfold vec in *. rewrite E. destruct p' as [[[[[[[p0 p1] p2] p3] p4] p5] p6] p7].
  destruct H' as (l0 & l1 & l2 & l3 & l4 & l5 & l6 & l7 & H0 & H1 & H2 & H3 & H4 & H5 & H6 & H7 & P').
  cbn [fadd f32_ops].
  pose proof (so_plus _ _ _ _ _ _ _ _ H0 H4) as A0. pose proof (so_plus _ _ _ _ _ _ _ _ H1 H5) as A1.
  pose proof (so_plus _ _ _ _ _ _ _ _ H2 H6) as A2. pose proof (so_plus _ _ _ _ _ _ _ _ H3 H7) as A3.
  pose proof (so_plus _ _ _ _ _ _ _ _ Z A0) as S0. pose proof (so_plus _ _ _ _ _ _ _ _ S0 A1) as S1.
  pose proof (so_plus _ _ _ _ _ _ _ _ S1 A2) as S2. pose proof (so_plus _ _ _ _ _ _ _ _ S2 A3) as S3.
  eapply so_tail in S3; [|exact LY|lia]. destruct S3 as (d' & DL & S3). exists d'. eexists. split; [lia|]. split; [|eapply so_perm; [exact S3|]].
  - unfold lenN in LA. lia.
  - cbn [app] in *. rewrite <- P, P'. apply Permutation_app_tail. rewrite <- !app_assoc. apply Permutation_app_head.
    transitivity (l1 ++ l5 ++ l4 ++ l2 ++ l6 ++ l3 ++ l7); [rewrite (app_assoc l1 l5), (app_assoc l1 l5); apply Permutation_app_swap_app|].
    apply Permutation_app_head.
    transitivity (l2 ++ l5 ++ l4 ++ l6 ++ l3 ++ l7); [rewrite (app_assoc l5 l4 (l2 ++ _)), (app_assoc l5 l4 (l6 ++ _)); apply Permutation_app_swap_app|].
    apply Permutation_app_head.
    transitivity (l3 ++ (l5 ++ l4 ++ l6) ++ l7); [rewrite <- !app_assoc; transitivity ((l5 ++ l4 ++ l6) ++ l3 ++ l7); [rewrite <- !app_assoc; reflexivity|rewrite Permutation_app_swap_app, <- !app_assoc; reflexivity]|].
    apply Permutation_app_head. rewrite <- !app_assoc. rewrite (app_assoc l5 l4), (app_assoc l4 l5). apply Permutation_app_tail, Permutation_app_comm.
Qed.
Lemma tail_sums d a b : length a = length b -> (lenN a <= 4194304)%N -> (length a < d)%nat -> sums d a b (dot_tail f32_ops a b f32_zero).
Proof.
  intros L LA DB. assert (so 1 0 [] f32_zero) as Z by (exists 0%nat; split; [lia|apply so_zero]).
  pose proof (so_tail a b 1 0 [] f32_zero L (le_n _) Z) as (d' & DL & H). exists d'. eexists. split; [lia|]. split; [|exact H]. unfold lenN in LA. lia.
Qed.
Lemma nd_dot_depth s s' d cols : (cols <= 4194304)%N -> (if s && s' then N.to_nat cols + 8 * 13 < 8 * (d + 1) else N.to_nat cols < d)%nat ->
  dot_depth d cols (nd_dot f32_ops s s').
Proof.
  intros C D a b LA LB. unfold nd_dot. assert (length a = N.to_nat cols /\ length b = N.to_nat cols) as [EA EB] by (unfold lenN in *; lia).
  destruct (s && s'); [apply vdot_sums|apply tail_sums]; try lia; rewrite LA; exact C.
Qed.
Lemma nd_gemv_depth s s' d cols : (cols <= 4194304)%N -> (if s && s' then N.to_nat cols + 8 * 13 < 8 * (d + 1) else N.to_nat cols < d)%nat ->
  gemv_depth d cols (nd_gemv f32_ops s s').
Proof.
  intros C D rows q F Q. unfold nd_gemv. induction F as [|r rows R F IH]; cbn [map]; constructor; [|exact IH].
  destruct (nd_dot_depth s s' d cols C D r q R Q) as (d' & c & DL & CL & H). exists d', c. split; [exact DL|]. split; [exact CL|]. apply so_one, H.
Qed.
Lemma unit_of_by d v w : (lenN v <= 4194304)%N -> (length v + 8 * 13 < 8 * (d + 1))%nat -> unit_of v w -> unit_by d v w.
Proof.
  intros L D (F & n & nv & (EN & _ & EW) & V & B). split; [exact F|]. exists (vdot f32_ops v v), n, nv. split; [apply vdot_sums; auto|].
  change (fsqrt f32_ops) with f32_sqrt in EN. split; [exact EN|]. split; [|split; [exact V|exact B]].
  apply EW. destruct (fis_zero f32_ops n) eqn:Z; [|reflexivity]. apply is_zero_value in Z. rewrite Z in V. injection V as <-. pose proof (p2_pos (-40)). lra.
Qed.
Lemma scaled_unit_by d dot v w n nv cols : dot_depth d cols dot -> lenN v = cols -> Forall f32_finite v -> scaled_by f32_ops dot v w n ->
  f32_value n = Some nv -> powerRZ 2 (-40) <= nv -> unit_by d v w.
Proof.
  intros D L F (EN & _ & EW) V B. split; [exact F|]. exists (dot v v), n, nv. split; [apply (D v v L L)|]. split; [exact EN|]. split; [|split; [exact V|exact B]].
  apply EW. destruct (fis_zero f32_ops n) eqn:Z; [|reflexivity]. apply is_zero_value in Z. rewrite Z in V. injection V as <-. pose proof (p2_pos (-40)). lra.
Qed.
Lemma unit_by_len d v w : unit_by d v w -> lenN w = lenN v.
Proof. intros (_ & s & n & nv & _ & _ & -> & _). unfold lenN. rewrite map_length. reflexivity. Qed.

(** ** Ranking *)
Lemma Forall2_nthN {A B} (P : A -> B -> Prop) l l' : Forall2 P l l' -> forall i x y, nthN l i = Some x -> nthN l' i = Some y -> P x y.
Proof.
  intros H i x y HX HY. unfold nthN in *. destruct (i <? lenN l)%N; [|discriminate]. destruct (i <? lenN l')%N; [|discriminate].
  revert HX HY. generalize (N.to_nat i) as k. clear i. induction H as [|a b l l' Hab H IH]; intros [|k]; cbn [nth_error]; intros HX HY; try discriminate.
  - injection HX as <-. injection HY as <-. exact Hab.
  - eapply IH; eauto.
Qed.
Lemma nthN_batch {A} (l : list A) b i : (b <> 0)%N -> nthN (takeN b (dropN (i / b * b) l)) (i mod b) = nthN l i.
Proof.
  intros Hb. pose proof (N.mod_lt i b Hb) as M. pose proof (N.div_mod i b Hb) as DM.
  unfold nthN, takeN, dropN, lenN. set (k := N.to_nat (i / b * b)). assert (N.to_nat i = k + N.to_nat (i mod b))%nat as EI by (unfold k; nia).
  rewrite firstn_length, skipn_length. destruct (N.ltb_spec i (N.of_nat (length l))) as [K|K].
  - destruct (N.ltb_spec (i mod b) (N.of_nat (Nat.min (N.to_nat b) (length l - k)))) as [J|J]; [|lia].
    rewrite EI. rewrite <- (firstn_skipn k l) at 2. rewrite nth_error_app2 by (rewrite firstn_length; lia). rewrite firstn_length.
    replace (k + N.to_nat (i mod b) - Nat.min k (length l))%nat with (N.to_nat (i mod b)) by lia.
    rewrite <- (firstn_skipn (N.to_nat b) (skipn k l)) at 2. rewrite nth_error_app1 by (rewrite firstn_length, skipn_length; lia). reflexivity.
  - destruct (N.ltb_spec (i mod b) (N.of_nat (Nat.min (N.to_nat b) (length l - k)))) as [J|J]; [lia|reflexivity].
Qed.

Lemma in_takeN {A} n (l : list A) x : In x (takeN n l) -> In x l.
Proof. intros H. rewrite <- (takeN_dropN n l). apply in_app_iff. auto. Qed.
Lemma in_dropN {A} n (l : list A) x : In x (dropN n l) -> In x l.
Proof. intros H. rewrite <- (takeN_dropN n l). apply in_app_iff. auto. Qed.

Section Ranking.
  Context {Md S : Type} (SO : storage_ops f32 S) (view : S -> res (array2 f32)) (pf : profile).
  Variables (e : embeddings Md vocab_wrap S f32) (a : array2 f32) (vs : list (list f32)) (d : nat).
  Variables (dot : list f32 -> list f32 -> f32) (gemv : list (list f32) -> list f32 -> list f32).
  Hypothesis made : emb_made SO pf e (a2_cols a) (a2_rows a).
  Hypothesis viewed : view (em_storage e) = Ok a.
  Hypothesis small : (a2_cols a <= 4194304)%N.
  Hypothesis depth_low : (13 <= d)%nat.
  Hypothesis depth_high : (N.of_nat d <= 1048576)%N.
  Hypothesis dots : dot_depth d (a2_cols a) dot.
  Hypothesis gemvs : gemv_depth d (a2_cols a) gemv.
  Hypothesis one : one_per_row gemv.
  Hypothesis units : word_rows_by d (v_words wrap_ops (em_vocab e)) vs (a2_rows a).
  Notation words := (v_words wrap_ops (em_vocab e)).
  Notation rows := (takeN (lenN words) (a2_rows a)).

  Lemma row_len i r : nthN (a2_rows a) i = Some r -> lenN r = a2_cols a.
  Proof. intros HR. pose proof (sm_cols _ _ _ _ (proj1 (proj2 made))) as F. rewrite Forall_forall in F. apply F. eapply nthN_In; eauto. Qed.
  Lemma rows_nth i w : nthN words i = Some w -> nthN rows i = nthN (a2_rows a) i.
  Proof.
    intros HW. apply nthN_Some_lt in HW. rewrite <- (takeN_dropN (lenN words) (a2_rows a)) at 2. rewrite nthN_app1; [reflexivity|].
    pose proof (rows_length SO pf e a made) as LR. unfold lenN in *. rewrite <- LR. exact HW.
  Qed.

  (** The entry of a word. *)
  Lemma entry_sums q b i w r s : (b <> 0)%N -> lenN q = a2_cols a -> nthN words i = Some w -> nthN (a2_rows a) i = Some r ->
    batch_entry gemv b rows q i s -> sums d r q s.
  Proof.
    intros Hb LQ HW HR E. unfold batch_entry in E.
    assert (Forall (fun r => lenN r = a2_cols a) (takeN b (dropN (i / b * b) rows))) as FR.
    { apply Forall_forall. intros x HX. pose proof (sm_cols _ _ _ _ (proj1 (proj2 made))) as F. rewrite Forall_forall in F. apply F.
      apply (in_takeN b), (in_dropN (i / b * b)), (in_takeN (lenN words)) in HX. exact HX. }
    apply (Forall2_nthN (fun r s => sums d r q s) _ _ (gemvs _ q FR LQ) (i mod b) r s); [|exact E].
    rewrite nthN_batch by exact Hb. rewrite (rows_nth i w HW). exact HR.
  Qed.
  Lemma candidate_value_by q w skip b x : (b <> 0)%N -> unit_by d q w -> lenN q = a2_cols a -> candidate_by gemv words (a2_rows a) skip w b x ->
    exists i v s, nthN words i = Some (wr_word x) /\ nthN vs i = Some v /\ f32_value (wr_sim x) = Some s /\
    Rabs (s - cosine_R (map f32_R v) (map f32_R q)) <= 4 * depth_error d.
  Proof.
    intros Hb U L (i & HW & _ & E). destruct (units i _ HW) as (v & r & HV & HR & UV). pose proof (row_len i r HR) as LR.
    pose proof (unit_by_len _ _ _ UV) as LV. pose proof (unit_by_len _ _ _ U) as LW.
    assert (sums d r w (wr_sim x)) as SX by (eapply entry_sums; eauto; congruence).
    destruct (sums_cosine d v r q w (wr_sim x) depth_low depth_high UV U) as (s & V & B); [congruence|rewrite <- LV, LR; exact small|exact SX|].
    exists i, v, s. auto.
  Qed.
  Lemma entry_exists q b i w : (b <> 0)%N -> nthN words i = Some w -> exists s, batch_entry gemv b rows q i s.
  Proof.
    intros Hb HW. unfold batch_entry. destruct (units i w HW) as (v & r & _ & HR & _). rewrite <- (rows_nth i w HW) in HR.
    rewrite <- (nthN_batch rows b i Hb) in HR. apply nthN_Some_lt in HR. apply nthN_lt. unfold lenN in *. rewrite one. exact HR.
  Qed.

  Lemma ranked_returns_by q w skip limit batch : unit_by d q w ->
    (exists rs, similarity_by f32_ops wrap_ops view gemv e w skip limit batch = Ok rs) <->
    (limit * 24 <= isize_max)%N /\ match batch with Some b => b <> 0%N | None => v_words wrap_ops (em_vocab e) <> [] end /\
    (v_words wrap_ops (em_vocab e) = [] \/ lenN q = a2_cols a) /\
    (limit = 0%N -> forall w, In w (v_words wrap_ops (em_vocab e)) -> In w skip).
  Proof.
    intros U. rewrite (similarity_by_ok_iff f32_ops f32_ordered SO view pf e a gemv made viewed one). pose proof (unit_by_len _ _ _ U) as LE.
    assert (match batch with Some b => b <> 0%N | None => words <> [] end <-> batch_of words batch <> 0%N) as BO.
    { destruct batch as [b|]; [reflexivity|]. cbn [batch_of]. unfold lenN. destruct words; cbn [length]; split; intros H K; try congruence; try lia. }
    split.
    - intros [Q1 Q2 Q3 Q4 Q5]. split; [exact Q1|]. split; [apply BO, Q2|]. split; [rewrite <- LE; exact Q3|].
      intros LZ y Y. destruct (in_dec (list_eq_dec Byte.byte_eq_dec) y skip) as [|NS]; [assumption|]. exfalso.
      apply In_nthN in Y as (i & Y). destruct (entry_exists w _ i y Q2 Y) as (s & K). apply (Q5 LZ (mkWsr s y)). exists i. auto.
    - intros (Q1 & Q2 & Q3 & Q4). apply BO in Q2. rewrite <- LE in Q3. constructor; auto.
      + intros x C. destruct Q3 as [Q3|Q3]; [destruct C as (i & C & _); rewrite Q3 in C; destruct (nil_nthN _ _ C)|].
        destruct (candidate_value_by q w skip _ x Q2 U) as (i & v & s & _ & _ & V & _); [congruence|exact C|].
        unfold number. cbn [fcmp f32_ops]. destruct (value_compare _ _ _ _ V V) as (c & -> & _). discriminate.
      + intros LZ x (i & HW & NS & _). apply NS, (Q4 LZ). eapply nthN_In; eauto.
  Qed.

  Lemma top_ranked_by q w skip b limit rs : (b <> 0)%N -> unit_by d q w -> (words = [] \/ lenN q = a2_cols a) ->
    top_k f32_ops (candidate_by gemv words (a2_rows a) skip w b) limit rs ->
    ranked words vs q skip (4 * depth_error d) rs.
  Proof.
    intros Hb U W T. destruct W as [W|W].
    { assert (rs = []) as ->. { destruct rs as [|x rs]; [reflexivity|]. destruct (tk_cand _ _ _ _ T x (or_introl eq_refl)) as (i & H & _). rewrite W in H. destruct (nil_nthN _ _ H). }
      constructor; [intros x []|]. intros i j x y v v' H. rewrite W in H. destruct (nil_nthN _ _ H). }
    assert (forall i x v y, nthN words i = Some x -> nthN vs i = Some v -> candidate_by gemv words (a2_rows a) skip w b y -> wr_word y = x ->
      exists s, f32_value (wr_sim y) = Some s /\ Rabs (s - cosine_R (map f32_R v) (map f32_R q)) <= 4 * depth_error d) as K.
    { intros i x v y HW HV C E. destruct (candidate_value_by q w skip b y Hb U W C) as (i' & v' & s & HW' & HV' & V & B).
      assert (i' = i) as ->. { pose proof (words_ND SO pf e a made) as ND. rewrite E in HW'. eapply NoDup_nthN; eauto. }
      assert (v' = v) as -> by congruence. eauto. }
    constructor.
    - intros x HX. apply (candidate_value_by q w skip b x Hb U W). apply T, HX.
    - intros i j x y v v' HI HV HJ HV' H.
      assert (exists rx ry, candidate_by gemv words (a2_rows a) skip w b rx /\ wr_word rx = x /\ candidate_by gemv words (a2_rows a) skip w b ry /\ wr_word ry = y /\ better f32_ops rx ry) as (rx & ry & CX & EX & CY & EY & B).
      { destruct H as [(l1 & l2 & l3 & E)|(HX & HY & NS)].
        - apply map_eq_app in E as (k1 & k & -> & E1 & E). apply map_eq_cons in E as (rx & k2 & -> & EX & E). apply map_eq_app in E as (k3 & k4 & -> & E3 & E).
          apply map_eq_cons in E as (ry & k5 & -> & EY & E). exists rx, ry. split; [apply T, in_app_iff; right; left; reflexivity|]. split; [exact EX|].
          split; [apply T, in_app_iff; right; right; apply in_app_iff; right; left; reflexivity|]. split; [exact EY|].
          eapply before_sorted; [apply (tk_sorted _ _ _ _ T)|reflexivity].
        - apply in_map_iff in HX as (rx & EX & HX). destruct (entry_exists w b j y Hb HJ) as (s & ES). exists rx, (mkWsr s y).
          assert (candidate_by gemv words (a2_rows a) skip w b (mkWsr s y)) as C by (exists j; auto).
          split; [apply T, HX|]. split; [exact EX|]. split; [exact C|]. split; [reflexivity|]. apply (tk_omitted _ _ _ _ T); [exact C| |exact HX].
          intros HN. apply HY. apply in_map_iff. eexists. split; [|exact HN]. reflexivity. }
      destruct (K i x v rx HI HV CX EX) as (s & VS & BS). destruct (K j y v' ry HJ HV' CY EY) as (t & VT & BT).
      pose proof (better_value rx ry s t B VS VT). apply abs_bounds in BS, BT. lra.
  Qed.

  Lemma similarity_ranked_by q w skip limit batch rs : unit_by d q w -> similarity_by f32_ops wrap_ops view gemv e w skip limit batch = Ok rs ->
    ranked (v_words wrap_ops (em_vocab e)) vs q skip (4 * depth_error d) rs.
  Proof.
    intros U H. pose proof (proj1 (ranked_returns_by q w skip limit batch U) (ex_intro _ rs H)) as (_ & _ & W & _).
    destruct (proj1 (similarity_by_ok_iff f32_ops f32_ordered SO view pf e a gemv made viewed one w skip limit batch) (ex_intro _ rs H)) as [_ Hb _ _ _].
    eapply top_ranked_by; eauto. eapply similarity_by_exact; eauto using f32_ordered.
  Qed.

  Lemma word_ranked_by w i v limit batch : nthN (v_words wrap_ops (em_vocab e)) i = Some w -> nthN vs i = Some v ->
    ((exists r, word_similarity_by f32_ops wrap_ops SO view pf dot gemv e w limit batch = Ok r) <->
     (limit * 24 <= isize_max)%N /\ batch <> Some 0%N /\ (limit = 0%N -> v_words wrap_ops (em_vocab e) = [w])) /\
    forall r, word_similarity_by f32_ops wrap_ops SO view pf dot gemv e w limit batch = Ok r -> exists rs, r = Some rs /\
    ranked (v_words wrap_ops (em_vocab e)) vs v [w] (4 * depth_error d) rs.
  Proof.
    intros HW HV. destruct (units i w HW) as (v' & r & HV' & HR & U). assert (v' = v) as -> by congruence.
    assert (lenN v = a2_cols a) as LV by (rewrite <- (unit_by_len _ _ _ U); eapply row_len; eauto).
    assert (words <> []) as NE by (intros K; rewrite K in HW; destruct (nil_nthN _ _ HW)).
    unfold word_similarity_by. rewrite (known_by f32_ops SO pf e a dot made w i r HW HR). cbn [rbind]. pose proof (ranked_returns_by v r [w] limit batch U) as RR. split.
    - split.
      + intros (x & H). apply rbind_Ok_inv in H as (rs & H & _). apply (ex_intro (fun _ => _) rs) in H. apply RR in H as (H1 & H2 & _ & H4).
        split; [exact H1|]. split; [intros ->; auto|]. intros LZ. specialize (H4 LZ). pose proof (words_ND SO pf e a made) as ND.
        destruct words as [|x1 [|x2 ws]]; [contradiction| |].
        * destruct (H4 x1 (or_introl eq_refl)) as [->|[]]. reflexivity.
        * exfalso. destruct (H4 x1 (or_introl eq_refl)) as [<-|[]]. destruct (H4 x2 (or_intror (or_introl eq_refl))) as [<-|[]]. inversion ND as [|? ? K]. apply K. left. reflexivity.
      + intros (H1 & H2 & H3). destruct RR as [_ RR]. destruct RR as (rs & ->); [|cbn [rbind]; eauto].
        split; [exact H1|]. split; [destruct batch; [intros ->; auto|exact NE]|]. split; [right; exact LV|]. intros LZ. rewrite (H3 LZ). auto.
    - intros x H. apply rbind_Ok_inv in H as (rs & H & K). injection K as <-. exists rs. split; [reflexivity|]. eapply similarity_ranked_by; eauto.
  Qed.

  Lemma masked_ranked_by q nv limit skip batch : Forall f32_finite q -> lenN q = a2_cols a -> f32_value (f32_sqrt (dot q q)) = Some nv -> powerRZ 2 (-40) <= nv ->
    ((exists r, embedding_similarity_masked_by f32_ops wrap_ops view dot gemv e q limit skip batch = Ok r) <->
     (limit * 24 <= isize_max)%N /\ match batch with Some b => b <> 0%N | None => v_words wrap_ops (em_vocab e) <> [] end /\
     (limit = 0%N -> forall w, In w (v_words wrap_ops (em_vocab e)) -> In w skip)) /\
    forall r, embedding_similarity_masked_by f32_ops wrap_ops view dot gemv e q limit skip batch = Ok r -> exists rs, r = Some rs /\
    ranked (v_words wrap_ops (em_vocab e)) vs q skip (4 * depth_error d) rs.
  Proof.
    intros F L V B. assert (unit_by d q (fst (l2_normalize_by f32_ops dot q))) as U.
    { eapply scaled_unit_by; [exact dots|exact L|exact F|apply l2_normalize_by_scaled| |exact B]. destruct (l2_normalize_by_scaled f32_ops dot q) as (-> & _). exact V. }
    unfold embedding_similarity_masked_by. pose proof (ranked_returns_by q _ skip limit batch U) as RR. split.
    - split.
      + intros (r & H). apply rbind_Ok_inv in H as (rs & H & _). apply (ex_intro (fun _ => _) rs) in H. apply RR in H. intuition.
      + intros H. destruct RR as [_ RR]. destruct RR as (rs & ->); [intuition|]. cbn [rbind]. eauto.
    - intros r H. apply rbind_Ok_inv in H as (rs & H & K). injection K as <-. exists rs. split; [reflexivity|]. eapply similarity_ranked_by; eauto.
  Qed.

  Lemma analogy_ranked_by ia ib ic wa wb wc xa xb xc ra rb rc nv limit batch :
    nthN (v_words wrap_ops (em_vocab e)) ia = Some wa -> nthN (a2_rows a) ia = Some xa ->
    nthN (v_words wrap_ops (em_vocab e)) ib = Some wb -> nthN (a2_rows a) ib = Some xb ->
    nthN (v_words wrap_ops (em_vocab e)) ic = Some wc -> nthN (a2_rows a) ic = Some xc ->
    Forall f32_finite (analogy_vector f32_ops (a2_cols a) xa xb xc) ->
    f32_value (f32_sqrt (dot (analogy_vector f32_ops (a2_cols a) xa xb xc) (analogy_vector f32_ops (a2_cols a) xa xb xc))) = Some nv ->
    powerRZ 2 (-40) <= nv ->
    exists skip, (forall w, In w skip <-> (ra = true /\ w = wa) \/ (rb = true /\ w = wb) \/ (rc = true /\ w = wc)) /\
    ((exists r, analogy_masked_by f32_ops wrap_ops SO view pf dot gemv e (wa, wb, wc) (ra, rb, rc) limit batch = Ok r) <->
     (limit * 24 <= isize_max)%N /\ batch <> Some 0%N /\ (limit = 0%N -> forall w, In w (v_words wrap_ops (em_vocab e)) -> In w skip)) /\
    forall r, analogy_masked_by f32_ops wrap_ops SO view pf dot gemv e (wa, wb, wc) (ra, rb, rc) limit batch = Ok r -> exists rs, r = inl rs /\
    ranked (v_words wrap_ops (em_vocab e)) vs (analogy_vector f32_ops (a2_cols a) xa xb xc) skip (4 * depth_error d) rs.
  Proof.
    intros HA RA HB RB HC RC FQ V B. pose proof (row_len ia xa RA) as LA. pose proof (row_len ib xb RB) as LB. pose proof (row_len ic xc RC) as LC.
    assert (words <> []) as NE by (intros K; rewrite K in HA; destruct (nil_nthN _ _ HA)).
    set (q := analogy_vector f32_ops (a2_cols a) xa xb xc) in *.
    assert (lenN q = a2_cols a) as LQ by (unfold q, analogy_vector, lenN; rewrite map_length, seq_length; lia).
    assert (unit_by d q (fst (l2_normalize_by f32_ops dot q))) as U.
    { eapply scaled_unit_by; [exact dots|exact LQ|exact FQ|apply l2_normalize_by_scaled| |exact B]. destruct (l2_normalize_by_scaled f32_ops dot q) as (-> & _). exact V. }
    exists (map fst (filter snd [(wa, ra); (wb, rb); (wc, rc)])).
    split; [intros w; destruct ra, rb, rc; cbn; intuition congruence|].
    unfold analogy_masked_by, lookup_words3_by. rewrite (known_by f32_ops SO pf e a dot made wa ia xa HA RA), (known_by f32_ops SO pf e a dot made wb ib xb HB RB), (known_by f32_ops SO pf e a dot made wc ic xc HC RC).
    cbn [rbind]. rewrite (analogy_vector_eq f32_ops a xa xb xc LA LB LC). fold q.
    set (skip := map fst _). pose proof (ranked_returns_by q _ skip limit batch U) as RR. split.
    - split.
      + intros (x & H). apply rbind_Ok_inv in H as (rs & H & _). apply (ex_intro (fun _ => _) rs) in H. apply RR in H as (H1 & H2 & _ & H4).
        split; [exact H1|]. split; [intros ->; auto|exact H4].
      + intros (H1 & H2 & H3). destruct RR as [_ RR]. destruct RR as (rs & ->); [|cbn [rbind]; eauto].
        split; [exact H1|]. split; [destruct batch; [intros ->; auto|exact NE]|]. split; [right; exact LQ|]. exact H3.
    - intros x H. apply rbind_Ok_inv in H as (rs & H & K). injection K as <-. exists rs. split; [reflexivity|]. eapply similarity_ranked_by; eauto.
  Qed.
End Ranking.
