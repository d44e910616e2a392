(** * Dot products in [f32], and the ranking of similarity queries. *)
From Coq Require Import Reals Lra Floats.SpecFloat.
From Verif Require Import Base BaseFacts Utf8 F32 Subword Vocab Storage Embeddings Similarity VocabSpec EmbFacts FileSpec TextSpec EmbSpec SimSpec F32Facts F32RoundSpec F32Round F32Ops F32RoundThms SimRound EmbRound SimFacts VocabFacts MatrixFacts RankSpec.
Local Open Scope R_scope.

(** ** Sums of products *)

(** If it is not too large, [x] is finite and a sum of [c] terms computed with
    at most [d] roundings each; [T] is the exact sum and [M] the sum of the
    absolute values. *)
Definition near (d c : nat) (T M : R) (x : f32) : Prop :=
  Rabs T <= M /\
  ((1 + u) ^ d * (M + INR c * eta) <= p2 120 ->
   exists A, f32_value x = Some A /\ Rabs (A - T) <= ((1 + u) ^ d - 1) * M + (1 + u) ^ d * (INR c * eta)).

Lemma bounded_value r x : rounds_to r x -> Rabs r <= p2 120 -> exists v, f32_value x = Some v /\ Rabs (r - v) <= u * Rabs r + eta.
Proof.
  intros R B. pose proof R as (_ & _ & [[TL _]|[_ (v & V & _)]]).
  - exfalso. unfold too_large in TL. pose proof (p2_pos 103) as P. assert (p2 120 = p2 17 * p2 103) as E by (rewrite <- p2_add; reflexivity).
    assert (p2 17 = 131072) as E' by (rewrite p2_pow by lia; reflexivity). rewrite E' in E. lra.
  - exists v. split; [exact V|]. eapply Rle_trans; [eapply rounds_error; eauto|apply rounding_error_sum].
Qed.
Lemma up_pow d d' : (d <= d')%nat -> 1 <= (1 + u) ^ d <= (1 + u) ^ d'.
Proof. intros L. pose proof u_bounds as U. split; [apply pow_R1_Rle; lra|apply Rle_pow; [lra|exact L]]. Qed.
Lemma eta_c c : 0 <= INR c * eta.
Proof. pose proof (pos_INR c). pose proof eta_pos. nra. Qed.

Lemma near_zero : near 0 0 0 0 f32_zero.
Proof. split; [rewrite Rabs_R0; lra|]. intros _. exists 0. split; [apply zero_value|]. cbn [pow INR]. rewrite Rminus_0_r, Rabs_R0. lra. Qed.
Lemma near_weaken d d' c T M x : (d <= d')%nat -> near d c T M x -> near d' c T M x.
Proof.
  intros L [T0 H]. split; [exact T0|]. intros B. pose proof (up_pow d d' L) as U. pose proof (eta_c c) as C. pose proof (Rabs_pos T).
  destruct H as (A & V & E); [nra|]. exists A. split; [exact V|]. nra.
Qed.
Lemma near_eq d c c' T T' M M' x : c = c' -> T = T' -> M = M' -> near d c T M x -> near d c' T' M' x.
Proof. intros -> -> ->. auto. Qed.
Lemma near_mul x y : f32_finite x -> f32_finite y -> near 1 1 (f32_R x * f32_R y) (Rabs (f32_R x * f32_R y)) (f32_mul x y).
Proof.
  intros FX FY. split; [lra|]. intros B. destruct (mul_rounds x y _ _ (finite_R _ FX) (finite_R _ FY)) as [R _].
  pose proof u_bounds as U. pose proof eta_pos as E. pose proof (Rabs_pos (f32_R x * f32_R y)) as P. cbn [pow INR] in *.
  destruct (bounded_value _ _ R) as (v & V & H); [nra|]. exists v. split; [exact V|]. rewrite Rabs_minus_sym. nra.
Qed.
Lemma near_add d d' c c' T T' M M' x y : near d c T M x -> near d' c' T' M' y ->
  near (S (Nat.max d d')) (c + c' + 1) (T + T') (M + M') (f32_add x y).
Proof.
  intros HX HY. apply (near_weaken _ (Nat.max d d')) in HX; [|lia]. apply (near_weaken _ (Nat.max d d')) in HY; [|lia].
  set (D := Nat.max d d') in *. destruct HX as [T0 HX], HY as [T0' HY].
  pose proof (Rabs_triang T T') as TT. split; [lra|]. rewrite !plus_INR. cbn [INR pow]. intros B.
  pose proof u_bounds as U. pose proof eta_pos as E. destruct (up_pow D D (le_n _)) as [P1 _]. set (P := (1 + u) ^ D) in *.
  pose proof (eta_c c) as C. pose proof (eta_c c') as C'. pose proof (Rabs_pos T) as N. pose proof (Rabs_pos T') as N'.
  assert (INR (c + c' + 1) = INR c + INR c' + 1) as EC by (rewrite !plus_INR; cbn [INR]; ring).
  set (k := INR c * eta) in *. set (k' := INR c' * eta) in *.
  replace ((INR c + INR c' + 1) * eta) with (k + k' + eta) in * by (unfold k, k'; ring).
  assert (P <= (1 + u) * P) as PP by nra.
  assert (P * (M + M' + (k + k' + eta)) <= (1 + u) * P * (M + M' + (k + k' + eta))) as B' by (apply Rmult_le_compat_r; lra).
  destruct HX as (a & VA & EA); [nra|]. destruct HY as (b & VB & EB); [nra|].
  destruct (add_rounds x y a b VA VB) as [R _].
  assert (Rabs (a + b - (T + T')) <= (P - 1) * (M + M') + P * (k + k')) as EAB.
  { replace (a + b - (T + T')) with ((a - T) + (b - T')) by ring. eapply Rle_trans; [apply Rabs_triang|]. lra. }
  assert (Rabs (a + b) <= P * (M + M' + (k + k'))) as AB.
  { replace (a + b) with ((a + b - (T + T')) + (T + T')) by ring. eapply Rle_trans; [apply Rabs_triang|]. lra. }
  destruct (bounded_value _ _ R) as (v & V & H); [nra|]. exists v. split; [exact V|].
  replace (v - (T + T')) with (- (a + b - v) + (a + b - (T + T'))) by ring. eapply Rle_trans; [apply Rabs_triang|]. rewrite Rabs_Ropp.
  assert (u * Rabs (a + b) <= u * (P * (M + M' + (k + k')))) by (apply Rmult_le_compat_l; lra).
  assert (eta <= (1 + u) * P * eta) by nra.
  replace ((((1 + u) * P - 1) * (M + M')) + (1 + u) * P * (k + k' + eta)) with
    ((P - 1) * (M + M') + P * (k + k') + u * (P * (M + M' + (k + k'))) + (1 + u) * P * eta) by ring. lra.
Qed.

(** The exact sums. *)
Notation rdot a b := (dot_R (map f32_R a) (map f32_R b)).
Notation adot a b := (fold_right Rplus 0 (map (fun p => Rabs (f32_R (fst p) * f32_R (snd p))) (combine a b))).
Lemma rdot_cons x a y b : rdot (x :: a) (y :: b) = f32_R x * f32_R y + rdot a b.
Proof. reflexivity. Qed.

Lemma near_step d c T M p x y : (1 <= d)%nat -> f32_finite x -> f32_finite y -> near d c T M p ->
  near (S d) (c + 2) (T + f32_R x * f32_R y) (M + Rabs (f32_R x * f32_R y)) (f32_add p (f32_mul x y)).
Proof.
  intros D FX FY H. replace (S d) with (S (Nat.max d 1)) by lia. replace (c + 2)%nat with (c + 1 + 1)%nat by lia.
  apply near_add; [exact H|apply near_mul; assumption].
Qed.
Lemma near_tail a : forall b d c T M acc, length a = length b -> Forall f32_finite a -> Forall f32_finite b -> (1 <= d)%nat -> near d c T M acc ->
  near (d + length a) (c + 2 * length a) (T + rdot a b) (M + adot a b) (dot_tail f32_ops a b acc).
Proof.
  induction a as [|x a IH]; intros b d c T M acc L FA FB D H; (destruct b as [|y b]; [|]); try discriminate L.
  - cbn [dot_tail length map fold_right combine]. unfold dot_R. cbn [combine map fold_right]. rewrite !Rplus_0_r, !Nat.add_0_r. exact H.
  - cbn [dot_tail length]. rewrite rdot_cons. cbn [combine map fold_right fst snd]. inversion FA; subst. inversion FB; subst.
    replace (d + S (length a))%nat with (S d + length a)%nat by lia. replace (c + 2 * S (length a))%nat with (c + 2 + 2 * length a)%nat by lia.
    rewrite <- !Rplus_assoc. apply IH; auto; try lia. apply near_step; assumption.
Qed.

Definition near8 (d c : nat) (T M : R) (p : p8 (F := f32)) : Prop :=
  let '(p0,p1,p2,p3,p4,p5,p6,p7) := p in
  exists t0 t1 t2 t3 t4 t5 t6 t7 m0 m1 m2 m3 m4 m5 m6 m7, near d c t0 m0 p0 /\ near d c t1 m1 p1 /\ near d c t2 m2 p2 /\ near d c t3 m3 p3 /\
  near d c t4 m4 p4 /\ near d c t5 m5 p5 /\ near d c t6 m6 p6 /\ near d c t7 m7 p7 /\ T = t0 + t1 + t2 + t3 + t4 + t5 + t6 + t7 /\
  M = m0 + m1 + m2 + m3 + m4 + m5 + m6 + m7.
Lemma near_blocks n : forall a b d c T M p, (length a <= n)%nat -> length a = length b -> Forall f32_finite a -> Forall f32_finite b -> (1 <= d)%nat -> near8 d c T M p ->
  exists k p' x y, dot_blocks f32_ops a b p = (p', (x, y)) /\ length a = (8 * k + length x)%nat /\ (length x < 8)%nat /\
  length x = length y /\ Forall f32_finite x /\ Forall f32_finite y /\
  exists T' M', near8 (d + k) (c + 2 * k) T' M' p' /\ T' + rdot x y = T + rdot a b /\ M' + adot x y = M + adot a b.
Proof.
  induction n as [|n IH]; intros a b d c T M p L LE FA FB D H.
  - destruct a; [|cbn in L; lia]. destruct b; [|discriminate LE]. exists 0%nat, p, [], []. cbn [dot_blocks]. split; [reflexivity|]. split; [reflexivity|]. split; [cbn; lia|].
    split; [reflexivity|]. split; [constructor|]. split; [constructor|]. exists T, M. rewrite Nat.add_0_r. replace (c + 2 * 0)%nat with c by lia. auto.
  - assert ((length a < 8)%nat -> dot_blocks f32_ops a b p = (p, (a, b))) as SM.
    { intros K. destruct a as [|x0 [|x1 [|x2 [|x3 [|x4 [|x5 [|x6 [|x7 a]]]]]]]]; try reflexivity. cbn [length] in K. lia. }
    destruct (Nat.lt_ge_cases (length a) 8) as [K|K].
    { exists 0%nat, p, a, b. split; [apply SM; exact K|]. split; [reflexivity|]. split; [exact K|]. split; [exact LE|]. split; [exact FA|]. split; [exact FB|].
      exists T, M. rewrite Nat.add_0_r. replace (c + 2 * 0)%nat with c by lia. auto. }
    clear SM. destruct a as [|x0 [|x1 [|x2 [|x3 [|x4 [|x5 [|x6 [|x7 a]]]]]]]]; try (cbn [length] in K; lia).
    destruct b as [|y0 [|y1 [|y2 [|y3 [|y4 [|y5 [|y6 [|y7 b]]]]]]]]; try discriminate LE.
    repeat match goal with X : Forall _ (_ :: _) |- _ => let Y := fresh "FF" in apply Forall_cons_iff in X as [Y X] end.
    destruct p as [[[[[[[p0 p1] p2] p3] p4] p5] p6] p7].
    destruct H as (t0 & t1 & t2 & t3 & t4 & t5 & t6 & t7 & m0 & m1 & m2 & m3 & m4 & m5 & m6 & m7 & H0 & H1 & H2 & H3 & H4 & H5 & H6 & H7 & -> & ->).
    cbn [dot_blocks fadd fmul f32_ops].
    destruct (IH a b (S d) (c + 2)%nat
      ((t0 + f32_R x0 * f32_R y0) + (t1 + f32_R x1 * f32_R y1) + (t2 + f32_R x2 * f32_R y2) + (t3 + f32_R x3 * f32_R y3) + (t4 + f32_R x4 * f32_R y4) + (t5 + f32_R x5 * f32_R y5) + (t6 + f32_R x6 * f32_R y6) + (t7 + f32_R x7 * f32_R y7))
      ((m0 + Rabs (f32_R x0 * f32_R y0)) + (m1 + Rabs (f32_R x1 * f32_R y1)) + (m2 + Rabs (f32_R x2 * f32_R y2)) + (m3 + Rabs (f32_R x3 * f32_R y3)) + (m4 + Rabs (f32_R x4 * f32_R y4)) + (m5 + Rabs (f32_R x5 * f32_R y5)) + (m6 + Rabs (f32_R x6 * f32_R y6)) + (m7 + Rabs (f32_R x7 * f32_R y7)))
      (f32_add p0 (f32_mul x0 y0), f32_add p1 (f32_mul x1 y1), f32_add p2 (f32_mul x2 y2), f32_add p3 (f32_mul x3 y3),
       f32_add p4 (f32_mul x4 y4), f32_add p5 (f32_mul x5 y5), f32_add p6 (f32_mul x6 y6), f32_add p7 (f32_mul x7 y7)))
      as (k & p' & x & y & E & LX & LW & LY & FX & FY & T' & M' & H' & TE & ME).
    { cbn [length] in L. lia. } { cbn [length] in LE. lia. } { assumption. } { assumption. } { lia. }
    { do 16 eexists. repeat (split; [apply near_step; eassumption|]). split; reflexivity. }
    exists (S k), p', x, y. split; [exact E|]. split; [cbn [length]; lia|]. split; [exact LW|]. split; [exact LY|]. split; [exact FX|]. split; [exact FY|]. exists T', M'. split; [|split].
    + replace (d + S k)%nat with (S d + k)%nat by lia. replace (c + 2 * S k)%nat with (c + 2 + 2 * k)%nat by lia. exact H'.
    + rewrite TE, !rdot_cons. lra.
    + rewrite ME. cbn [combine map fold_right fst snd]. lra.
Qed.
Lemma near_dot a b : length a = length b -> Forall f32_finite a -> Forall f32_finite b ->
  exists d, (8 * d <= length a + 8 * 13)%nat /\ near d (2 * length a + 8) (rdot a b) (adot a b) (vdot f32_ops a b).
Proof.
  intros L FA FB. unfold vdot. cbn [fzero f32_ops].
  assert (near 1 0 0 0 f32_zero) as Z by (apply (near_weaken 0 1); [lia|apply near_zero]).
  destruct (near_blocks (length a) a b 1 0 0 0 (f32_zero,f32_zero,f32_zero,f32_zero,f32_zero,f32_zero,f32_zero,f32_zero)) as (k & p' & x & y & E & LX & LW & LY & FX & FY & T' & M' & H' & TE & ME); auto.
  { do 16 exists 0. repeat (split; [exact Z|]). split; lra. }
  unfold vec in *. rewrite E. destruct p' as [[[[[[[p0 p1] p2] p3] p4] p5] p6] p7].
  destruct H' as (t0 & t1 & t2 & t3 & t4 & t5 & t6 & t7 & m0 & m1 & m2 & m3 & m4 & m5 & m6 & m7 & H0 & H1 & H2 & H3 & H4 & H5 & H6 & H7 & -> & ->).
  cbn [fadd f32_ops].
  pose proof (near_add _ _ _ _ _ _ _ _ _ _ H0 H4) as A0. pose proof (near_add _ _ _ _ _ _ _ _ _ _ H1 H5) as A1.
  pose proof (near_add _ _ _ _ _ _ _ _ _ _ H2 H6) as A2. pose proof (near_add _ _ _ _ _ _ _ _ _ _ H3 H7) as A3.
  pose proof (near_add _ _ _ _ _ _ _ _ _ _ Z A0) as S0. pose proof (near_add _ _ _ _ _ _ _ _ _ _ S0 A1) as S1.
  pose proof (near_add _ _ _ _ _ _ _ _ _ _ S1 A2) as S2. pose proof (near_add _ _ _ _ _ _ _ _ _ _ S2 A3) as S3.
  eapply near_tail in S3; [|exact LY|exact FX|exact FY|lia].
  eexists. split; [|eapply near_eq; [| | |exact S3]; [lia|lra|lra]]. lia.
Qed.

(** ** Cauchy and Schwarz *)
Lemma cauchy x y A B : 0 <= A -> 0 <= B -> Rabs (x * y) + sqrt A * sqrt B <= sqrt (x * x + A) * sqrt (y * y + B).
Proof.
  intros HA HB. rewrite <- (sqrt_mult (x * x + A)) by nra. apply sqrt_ge_of.
  - pose proof (Rabs_pos (x * y)). pose proof (sqrt_pos A). pose proof (sqrt_pos B). nra.
  - rewrite Rabs_mult. pose proof (sqrt_sqrt A HA) as EA. pose proof (sqrt_sqrt B HB) as EB. set (p := sqrt A) in *. set (q := sqrt B) in *. rewrite <- EA, <- EB.
    assert (x * x = Rabs x * Rabs x) as -> by (rewrite <- Rabs_mult, Rabs_right by nra; reflexivity).
    assert (y * y = Rabs y * Rabs y) as -> by (rewrite <- Rabs_mult, Rabs_right by nra; reflexivity).
    set (s := Rabs x). set (t := Rabs y). pose proof (Rle_0_sqr (s * q - t * p)) as SQ. unfold Rsqr in SQ. nra.
Qed.
Notation len v := (length_R (map f32_R v)).
Lemma len_cons x v : len (x :: v) = sqrt (f32_R x * f32_R x + squares v).
Proof. unfold length_R. rewrite map_map. reflexivity. Qed.
Lemma len_squares v : len v = sqrt (squares v).
Proof. unfold length_R. rewrite map_map. reflexivity. Qed.
Lemma adot_len a : forall b, adot a b <= len a * len b.
Proof.
  induction a as [|x a IH]; intros b.
  - cbn [combine map fold_right]. apply Rmult_le_pos; apply sqrt_pos.
  - destruct b as [|y b]; [cbn [combine map fold_right]; apply Rmult_le_pos; apply sqrt_pos|].
    rewrite !len_cons. cbn [combine map fold_right fst snd]. specialize (IH b). rewrite !len_squares in IH.
    eapply Rle_trans; [|apply cauchy; apply squares_nonneg]. lra.
Qed.
Lemma rdot_adot a : forall b, Rabs (rdot a b) <= adot a b.
Proof.
  induction a as [|x a IH]; intros b.
  - cbn. rewrite Rabs_R0. lra.
  - destruct b as [|y b]; [cbn; rewrite Rabs_R0; lra|]. rewrite rdot_cons. cbn [combine map fold_right fst snd].
    eapply Rle_trans; [apply Rabs_triang|]. specialize (IH b). lra.
Qed.

(** ** The dot product *)
Lemma dot_of d c a b x de : near d c (rdot a b) (adot a b) x -> 13 * u <= de <= 1 / 16 -> INR d * u <= de -> (N.of_nat c <= 16777216)%N ->
  length_R (map f32_R a) * length_R (map f32_R b) <= powerRZ 2 100 -> exists D, f32_value x = Some D /\
  Rabs (D - dot_R (map f32_R a) (map f32_R b)) <= 9 / 8 * de * (length_R (map f32_R a) * length_R (map f32_R b)) + powerRZ 2 (-124).
Proof.
  intros (_ & H) LB DU CB B.
  pose proof (adot_len a b) as M1. assert (0 <= adot a b) as M0. { pose proof (rdot_adot a b). pose proof (Rabs_pos (rdot a b)). lra. }
  pose proof (bernoulli_high d) as BH. destruct (up_pow d d (le_n _)) as [P1 _].
  set (P := (1 + u) ^ d) in *. assert (P <= 16 / 15) as PB by nra. assert (P - 1 <= 16 / 15 * de) as PD by nra.
  assert (0 <= INR c * eta <= p2 (-126)) as C.
  { split; [apply eta_c|]. assert (INR c <= p2 24) as NB.
    { rewrite p2_pow by lia. rewrite INR_IZR_INZ. apply IZR_le. change (2 ^ 24)%Z with 16777216%Z. lia. }
    replace (p2 (-126)) with (p2 24 * eta) by (rewrite <- p2_add; reflexivity). apply Rmult_le_compat_r; [pose proof eta_pos; lra|exact NB]. }
  set (k := INR c * eta) in *. set (m := adot a b) in *. set (LL := len a * len b) in *.
  assert (p2 (-124) = 4 * p2 (-126)) as E4 by (replace (-124)%Z with (2 + -126)%Z by reflexivity; rewrite p2_add; f_equal; rewrite p2_pow by lia; reflexivity).
  destruct H as (A & V & E).
  { assert (p2 (-126) <= 1) by (replace 1 with (p2 0) by reflexivity; apply p2_le; lia).
    assert (1 <= p2 100) by (apply p2_ge_1; lia). assert (p2 120 = p2 20 * p2 100) as -> by (rewrite <- p2_add; reflexivity).
    assert (p2 20 = 1048576) as -> by (rewrite p2_pow by lia; reflexivity). nra. }
  exists A. split; [exact V|]. eapply Rle_trans; [exact E|]. rewrite E4.
  assert ((P - 1) * m <= 16 / 15 * de * LL) by (apply Rmult_le_compat; lra). assert (P * k <= 16 / 15 * p2 (-126)) by (apply Rmult_le_compat; lra).
  assert (0 <= de * LL) by nra. nra.
Qed.
Lemma dot_f32 a b : lenN a = lenN b -> (lenN a <= 4194304)%N -> Forall f32_finite a -> Forall f32_finite b ->
  length_R (map f32_R a) * length_R (map f32_R b) <= powerRZ 2 100 -> exists D, f32_value (vdot f32_ops a b) = Some D /\
  Rabs (D - dot_R (map f32_R a) (map f32_R b)) <= 9 / 8 * length_error (lenN a) * (length_R (map f32_R a) * length_R (map f32_R b)) + powerRZ 2 (-124).
Proof.
  intros LE L FA FB. destruct (near_dot a b) as (d & DL & H); [unfold lenN in LE; lia|exact FA|exact FB|].
  apply (dot_of d _ _ _ _ _ H (length_error_bounds _ L) (dot_depth_error a d DL)). unfold lenN in L. lia.
Qed.

(** ** Vectors divided by their lengths *)
Lemma unit_facts v w : unit_of v w -> (lenN v <= 4194304)%N -> exists nv, 0 < nv /\
  Rabs (nv - len v) <= length_error (lenN v) * len v /\ Forall f32_finite w /\ Rabs (len w - 1) <= length_error (lenN v) /\
  Forall2 (fun x y => Rabs (nv * f32_R y - f32_R x) <= u * Rabs (f32_R x) + eta * nv) v w.
Proof.
  intros (F & n & nv & SC & V & B) L. exists nv. pose proof (p2_pos (-40)). split; [lra|].
  destruct (scaled_f32 v w n nv F L SC V B) as (H1 & H2 & H3 & H4). auto.
Qed.
Notation asum v := (fold_right Rplus 0 (map (fun x => Rabs (f32_R x)) v)).
Lemma asum_len v : asum v <= INR (length v) * len v.
Proof.
  assert (forall x, In x v -> Rabs (f32_R x) <= len v) as H.
  { intros x HI. pose proof (square_in v x HI) as SI. pose proof (squares_nonneg v) as S0. pose proof (sqrt_pos (squares v)) as SP. rewrite len_squares.
    apply Rsqr_incr_0; [|apply Rabs_pos|exact SP]. unfold Rsqr. rewrite <- Rabs_mult, Rabs_right by nra. rewrite sqrt_sqrt by exact S0. exact SI. }
  set (s := len v) in *. clearbody s. revert H. induction v as [|x v IH]; intros H; cbn [map fold_right length]; [rewrite Rmult_0_l; lra|].
  rewrite S_INR. pose proof (H x (or_introl eq_refl)). specialize (IH (fun y Y => H y (or_intror Y))). lra.
Qed.
Lemma quotient_near x y nv : 0 < nv -> Rabs (nv * f32_R y - f32_R x) <= u * Rabs (f32_R x) + eta * nv ->
  Rabs (f32_R y - f32_R x / nv) <= u / nv * Rabs (f32_R x) + eta.
Proof.
  intros P H. replace (f32_R y - f32_R x / nv) with ((nv * f32_R y - f32_R x) / nv) by (field; lra).
  unfold Rdiv at 1. rewrite Rabs_mult, (Rabs_right (/ nv)) by (pose proof (Rinv_0_lt_compat nv P); lra).
  apply Rmult_le_reg_r with nv; [exact P|]. rewrite Rmult_assoc, Rinv_l by lra.
  replace ((u / nv * Rabs (f32_R x) + eta) * nv) with (u * Rabs (f32_R x) + eta * nv) by (field; lra). lra.
Qed.
Lemma unit_sums nv nv' : 0 < nv -> 0 < nv' -> forall v w v' w', length v = length v' ->
  Forall2 (fun x y => Rabs (nv * f32_R y - f32_R x) <= u * Rabs (f32_R x) + eta * nv) v w ->
  Forall2 (fun x y => Rabs (nv' * f32_R y - f32_R x) <= u * Rabs (f32_R x) + eta * nv') v' w' ->
  Rabs (rdot w w' - rdot v v' / (nv * nv')) <= u / nv * adot v w' + eta * asum w' + u / (nv * nv') * adot v v' + eta / nv * asum v.
Proof.
  intros P P' v w v' w' L H. revert v' w' L. induction H as [|x y v w HX H IH]; intros v' w' L H'.
  - destruct H'; [|discriminate L]. unfold dot_R. cbn [map combine fold_right]. rewrite !Rmult_0_r. unfold Rdiv. rewrite Rmult_0_l, Rminus_0_r, Rabs_R0. lra.
  - destruct H' as [|x' y' v' w' HX' H']; [discriminate L|]. injection L as L. specialize (IH v' w' L H'). rewrite !rdot_cons. cbn [map combine fold_right fst snd].
    apply (quotient_near x y nv P) in HX. apply (quotient_near x' y' nv' P') in HX'.
    replace (f32_R y * f32_R y' + rdot w w' - (f32_R x * f32_R x' + rdot v v') / (nv * nv')) with
      ((f32_R y - f32_R x / nv) * f32_R y' + f32_R x / nv * (f32_R y' - f32_R x' / nv') + (rdot w w' - rdot v v' / (nv * nv'))) by (field; lra).
    eapply Rle_trans; [apply Rabs_triang|]. eapply Rle_trans; [apply Rplus_le_compat_r, Rabs_triang|].
    assert (Rabs ((f32_R y - f32_R x / nv) * f32_R y') <= u / nv * Rabs (f32_R x * f32_R y') + eta * Rabs (f32_R y')) as E1.
    { rewrite !Rabs_mult. pose proof (Rabs_pos (f32_R y')). pose proof (Rmult_le_compat_r _ _ _ H0 HX). lra. }
    assert (Rabs (f32_R x / nv * (f32_R y' - f32_R x' / nv')) <= u / (nv * nv') * Rabs (f32_R x * f32_R x') + eta / nv * Rabs (f32_R x)) as E2.
    { unfold Rdiv at 1. rewrite !Rabs_mult, (Rabs_right (/ nv)) by (pose proof (Rinv_0_lt_compat nv P); lra). pose proof (Rabs_pos (f32_R x)) as X0.
      pose proof (Rinv_0_lt_compat nv P) as IP. assert (0 <= Rabs (f32_R x) * / nv) as Z by nra. pose proof (Rmult_le_compat_l _ _ _ Z HX') as Q.
      eapply Rle_trans; [exact Q|]. right. field. lra. }
    lra.
Qed.

Lemma Forall2_same {A B} (P : A -> B -> Prop) l l' : Forall2 P l l' -> length l = length l'.
Proof. induction 1; cbn [length]; lia. Qed.
Lemma ratio_bounds nv l de : 0 < nv -> 0 <= l -> 0 <= de <= 1 / 16 -> Rabs (nv - l) <= de * l -> 0 < l /\ (1 - de) * (l / nv) <= 1 /\ 1 <= (1 + de) * (l / nv).
Proof.
  intros P L D H. apply abs_bounds in H. assert (0 < l) by nra. split; [assumption|].
  split; (apply Rmult_le_reg_r with nv; [exact P|]); unfold Rdiv; rewrite Rmult_assoc, (Rmult_assoc l), Rinv_l by lra; lra.
Qed.

(** The computed dot product of vectors that are nearly unit vectors is the
    cosine, up to an error. *)
Definition unit_near (de : R) (v w : list f32) : Prop := exists nv, 0 < nv /\
  Rabs (nv - len v) <= de * len v /\ Forall f32_finite w /\ Rabs (len w - 1) <= de /\
  Forall2 (fun x y => Rabs (nv * f32_R y - f32_R x) <= u * Rabs (f32_R x) + eta * nv) v w.
Lemma cosine_of v w v' w' de x : unit_near de v w -> unit_near de v' w' -> lenN v = lenN v' -> (lenN v <= 4194304)%N -> 13 * u <= de <= 1 / 16 ->
  (length_R (map f32_R w) * length_R (map f32_R w') <= powerRZ 2 100 -> exists D, f32_value x = Some D /\
   Rabs (D - dot_R (map f32_R w) (map f32_R w')) <= 9 / 8 * de * (length_R (map f32_R w) * length_R (map f32_R w')) + powerRZ 2 (-124)) ->
  exists s, f32_value x = Some s /\
  Rabs (s - cosine_R (map f32_R v) (map f32_R v')) <= 4 * de.
Proof.
  intros (nv & P & NB & FW & LW & H) (nv' & P' & NB' & FW' & LW' & H') LE L DB DOT. pose proof u_bounds as UB. pose proof eta_pos as EP.
  pose proof (Forall2_same _ _ _ H) as L1. pose proof (Forall2_same _ _ _ H') as L2.
  assert (length v = length v') as LN by (unfold lenN in LE; lia).
  assert (INR (length v) <= p2 22) as NL. { rewrite p2_pow by lia. rewrite INR_IZR_INZ. apply IZR_le. unfold lenN in L. change (2 ^ 22)%Z with 4194304%Z. lia. }
  assert (0 <= len v) as V0 by apply sqrt_pos. assert (0 <= len v') as V0' by apply sqrt_pos.
  assert (0 <= len w) as W0 by apply sqrt_pos. assert (0 <= len w') as W0' by apply sqrt_pos.
  destruct DOT as (s & VS & ES).
  { apply abs_bounds in LW, LW'. assert (len w <= 2) by lra. assert (len w' <= 2) by lra. assert (p2 2 <= p2 100) by (apply p2_le; lia).
    assert (p2 2 = 4) by (rewrite p2_pow by lia; reflexivity). nra. }
  exists s. split; [exact VS|].
  pose proof (unit_sums nv nv' P P' v w v' w' LN H H') as US.
  pose proof (adot_len v w') as A1. pose proof (adot_len v v') as A2. pose proof (asum_len v) as A3. pose proof (asum_len w') as A4.
  pose proof (rdot_adot v v') as A5. unfold cosine_R.
  set (T := rdot w w') in *. set (Q := rdot v v') in *. set (m1 := adot v w') in *. set (m2 := adot v v') in *. set (s1 := asum v) in *. set (s2 := asum w') in *.
  destruct (ratio_bounds nv (len v) de P V0 ltac:(lra) NB) as (VP & R1 & R2).
  destruct (ratio_bounds nv' (len v') de P' V0' ltac:(lra) NB') as (VP' & R1' & R2').
  rewrite <- L2, <- LN in A4. set (N := INR (length v)) in *. assert (0 <= N) as N0 by apply pos_INR.
  set (lv := len v) in *. set (lv' := len v') in *. set (lw := len w) in *. set (lw' := len w') in *.
  clearbody T Q m1 m2 s1 s2 N lv lv' lw lw'. clear H H' FW FW' VS.
  assert (eta * N <= / 1048576 * u) as TINY.
  { assert (/ 1048576 = p2 (-20)) as -> by (change (-20)%Z with (- Z.of_nat 20)%Z; rewrite powerRZ_neg', <- pow_powerRZ; f_equal; cbn; lra).
    replace (p2 (-20) * u) with (eta * p2 106) by (rewrite <- !p2_add; reflexivity). apply Rmult_le_compat_l; [lra|].
    eapply Rle_trans; [exact NL|apply p2_le; lia]. }
  assert (p2 (-124) <= / 1048576 * u) as TINY2.
  { assert (/ 1048576 = p2 (-20)) as -> by (change (-20)%Z with (- Z.of_nat 20)%Z; rewrite powerRZ_neg', <- pow_powerRZ; f_equal; cbn; lra).
    rewrite <- p2_add. apply p2_le. lia. }
  set (al := lv / nv) in *. set (be := lv' / nv') in *.
  assert (lv = al * nv) as EV by (unfold al; field; lra). assert (lv' = be * nv') as EV' by (unfold be; field; lra).
  assert (0 < al) as AP by (apply Rdiv_lt_0_compat; assumption). assert (0 < be) as BP by (apply Rdiv_lt_0_compat; assumption).
  clearbody al be. subst lv lv'. apply abs_bounds in LW, LW'.
  assert (al <= 16 / 15) as AB by nra. assert (be <= 16 / 15) as BB by nra. assert (lw' <= 17 / 16) as WB by lra.
  assert (Rabs (T - Q / (nv * nv')) <= 3 * u) as E1.
  { eapply Rle_trans; [exact US|].
    assert (u / nv * m1 <= u * (al * lw')) as T1. { replace (u * (al * lw')) with (u / nv * (al * nv * lw')) by (field; lra). apply Rmult_le_compat_l; [apply Rlt_le, Rdiv_lt_0_compat; lra|exact A1]. }
    assert (u / (nv * nv') * m2 <= u * (al * be)) as T2.
    { replace (u * (al * be)) with (u / (nv * nv') * (al * nv * (be * nv'))) by (field; lra). apply Rmult_le_compat_l; [apply Rlt_le, Rdiv_lt_0_compat; nra|exact A2]. }
    assert (eta * s2 <= eta * N * lw') as T3 by nra.
    assert (eta / nv * s1 <= eta * N * al) as T4.
    { replace (eta * N * al) with (eta / nv * (N * (al * nv))) by (field; lra). apply Rmult_le_compat_l; [apply Rlt_le, Rdiv_lt_0_compat; lra|exact A3]. }
    assert (al * lw' <= 17 / 15) by nra. assert (al * be <= 256 / 225) by nra. assert (0 <= eta * N) by nra. nra. }
  assert (Rabs (Q / (nv * nv') - Q / (al * nv * (be * nv'))) <= 23 / 10 * de) as E2.
  { assert (Q / (nv * nv') - Q / (al * nv * (be * nv')) = Q / (al * nv * (be * nv')) * (al * be - 1)) as -> by (field; repeat split; lra).
    rewrite Rabs_mult. assert (Rabs (Q / (al * nv * (be * nv'))) <= 1) as C1.
    { assert (0 < al * nv * (be * nv')) as G by (apply Rmult_lt_0_compat; apply Rmult_lt_0_compat; assumption).
      unfold Rdiv. rewrite Rabs_mult, (Rabs_right (/ _)) by (pose proof (Rinv_0_lt_compat _ G); lra).
      apply Rmult_le_reg_r with (al * nv * (be * nv')); [exact G|]. rewrite Rmult_assoc, Rinv_l by lra. lra. }
    assert (Rabs (al * be - 1) <= 23 / 10 * de) as C2.
    { assert ((1 - de) * (1 - de) * (al * be) <= 1) as X1. { replace ((1 - de) * (1 - de) * (al * be)) with ((1 - de) * al * ((1 - de) * be)) by ring. rewrite <- (Rmult_1_l 1). apply Rmult_le_compat; nra. }
      assert (1 <= (1 + de) * (1 + de) * (al * be)) as X2. { replace ((1 + de) * (1 + de) * (al * be)) with ((1 + de) * al * ((1 + de) * be)) by ring. rewrite <- (Rmult_1_l 1) at 1. apply Rmult_le_compat; nra. }
      assert (0 < al * be <= 256 / 225) as X3 by (split; nra). set (ab := al * be) in *. apply Rabs_le. split; nra. }
    rewrite <- (Rmult_1_l (23 / 10 * de)). apply Rmult_le_compat; auto; apply Rabs_pos. }
  replace (s - Q / (al * nv * (be * nv'))) with ((s - T) + (T - Q / (nv * nv')) + (Q / (nv * nv') - Q / (al * nv * (be * nv')))) by ring.
  eapply Rle_trans; [apply Rabs_triang|]. eapply Rle_trans; [apply Rplus_le_compat_r, Rabs_triang|].
  assert (lw * lw' <= 289 / 256) as WW by nra. assert (de * (lw * lw') <= de * (289 / 256)) by (apply Rmult_le_compat_l; lra). lra.
Qed.
Lemma unit_cosine v w v' w' : unit_of v w -> unit_of v' w' -> lenN v = lenN v' -> (lenN v <= 4194304)%N ->
  exists s, f32_value (vdot f32_ops w w') = Some s /\
  Rabs (s - cosine_R (map f32_R v) (map f32_R v')) <= 4 * length_error (lenN v).
Proof.
  intros U U' LE L. pose proof (unit_facts v w U L) as H. pose proof L as L'. rewrite LE in L'. pose proof (unit_facts v' w' U' L') as H'. rewrite <- LE in H'.
  apply (cosine_of v w v' w' _ _ H H' LE L (length_error_bounds _ L)). destruct H as (nv & _ & _ & FW & _ & F). destruct H' as (nv' & _ & _ & FW' & _ & F').
  apply Forall2_same in F, F'. assert (lenN w = lenN v) as LW1 by (unfold lenN; f_equal; auto). rewrite <- LW1.
  apply dot_f32; [unfold lenN in *; lia|rewrite LW1; exact L|exact FW|exact FW'].
Qed.

(** ** Ranking *)
Lemma scaled_len o v w n : scaled_by_length (F := f32) o v w n -> lenN w = lenN v.
Proof. intros (_ & Z & NZ). destruct (fis_zero o n) eqn:E; [rewrite Z by reflexivity; reflexivity|]. rewrite NZ by reflexivity. unfold lenN. rewrite map_length. reflexivity. Qed.
Lemma unit_len v w : unit_of v w -> lenN w = lenN v.
Proof. intros (_ & n & nv & SC & _). eapply scaled_len, SC. Qed.
Lemma better_value (x y : wsr f32) s t : better f32_ops x y -> f32_value (wr_sim x) = Some s -> f32_value (wr_sim y) = Some t -> t <= s.
Proof.
  intros B VX VY. destruct (value_compare _ _ _ _ VX VY) as (c & E & O). change (fcmp f32_ops) with f32_cmp in *. unfold better in B. cbn [fcmp f32_ops] in B.
  destruct B as [B|[B _]]; rewrite E in B; injection B as ->; cbn [R_order] in O; lra.
Qed.
Lemma before_sorted {A} (P : A -> A -> Prop) l l1 x l2 y l3 : Sorting.Sorted.StronglySorted P l -> l = l1 ++ x :: l2 ++ y :: l3 -> P x y.
Proof.
  intros H. revert l1. induction H as [|z l S IH F]; intros [|z' l1] E; cbn [app] in E; try discriminate.
  - injection E as <- ->. rewrite Forall_forall in F. apply F. apply in_app_iff. right. left. reflexivity.
  - injection E as <- ->. eapply IH. reflexivity.
Qed.

Lemma nil_nthN {A} i (x : A) : nthN [] i = Some x -> False.
Proof. intros H. apply nthN_Some_lt in H. unfold lenN in H. cbn in H. lia. Qed.

Section Ranking.
  Context {Md S : Type} (SO : storage_ops f32 S) (view : S -> res (array2 f32)) (pf : profile).
  Variables (e : embeddings Md vocab_wrap S f32) (a : array2 f32) (vs : list (list f32)).
  Hypothesis made : emb_made SO pf e (a2_cols a) (a2_rows a).
  Hypothesis viewed : view (em_storage e) = Ok a.
  Hypothesis small : (a2_cols a <= 4194304)%N.
  Hypothesis units : word_rows (v_words wrap_ops (em_vocab e)) vs (a2_rows a).
  Notation words := (v_words wrap_ops (em_vocab e)).

  Lemma candidate_value q w skip x : unit_of q w -> lenN q = a2_cols a -> candidate f32_ops words (a2_rows a) skip w x ->
    exists i v s, nthN words i = Some (wr_word x) /\ nthN vs i = Some v /\ f32_value (wr_sim x) = Some s /\
    Rabs (s - cosine_R (map f32_R v) (map f32_R q)) <= 4 * length_error (a2_cols a).
  Proof.
    intros U L (i & r & HW & HR & _ & E). destruct (units i _ HW) as (v & r' & HV & HR' & UV). assert (r' = r) as -> by congruence.
    assert (lenN r = a2_cols a) as LR. { pose proof (sm_cols _ _ _ _ (proj1 (proj2 made))) as F. rewrite Forall_forall in F. apply F. eapply nthN_In; eauto. }
    pose proof (unit_len _ _ UV) as LV. destruct (unit_cosine v r q w UV U) as (s & V & B); [congruence|rewrite <- LV, LR; exact small|].
    exists i, v, s. rewrite E. rewrite <- LV, LR in B. auto.
  Qed.

  Lemma ranked_returns q w skip limit batch : unit_of q w ->
    (exists rs, similarity_ f32_ops wrap_ops view e w skip limit batch = Ok rs) <->
    (limit * 24 <= isize_max)%N /\ match batch with Some b => b <> 0%N | None => v_words wrap_ops (em_vocab e) <> [] end /\
    (v_words wrap_ops (em_vocab e) = [] \/ lenN q = a2_cols a) /\
    (limit = 0%N -> forall w, In w (v_words wrap_ops (em_vocab e)) -> In w skip).
  Proof.
    intros U. rewrite (similarity_ok_iff f32_ops f32_ordered f32_one_neutral SO view pf e a made viewed). pose proof (unit_len _ _ U) as LE.
    assert (forall i w, nthN words i = Some w -> exists r, nthN (a2_rows a) i = Some r) as RS by (intros i y Y; destruct (units i y Y) as (v & r & _ & R & _); eauto).
    split.
    - intros [Q1 Q2 Q3 Q4 Q5]. split; [exact Q1|]. split; [exact Q2|]. split; [rewrite <- LE; exact Q3|].
      intros LZ y Y. destruct (in_dec (list_eq_dec Byte.byte_eq_dec) y skip) as [|NS]; [assumption|]. exfalso.
      apply In_nthN in Y as (i & Y). destruct (RS i y Y) as (r & R). apply (Q5 LZ (mkWsr (vdot f32_ops r w) y)). exists i, r. auto.
    - intros (Q1 & Q2 & Q3 & Q4). rewrite <- LE in Q3. constructor; auto.
      + intros x C. destruct Q3 as [Q3|Q3]; [destruct C as (i & r & C & _); rewrite Q3 in C; destruct (nil_nthN _ _ C)|].
        destruct (candidate_value q w skip x U) as (i & v & s & _ & _ & V & _); [congruence|exact C|].
        unfold number. cbn [fcmp f32_ops]. destruct (value_compare _ _ _ _ V V) as (c & -> & _). discriminate.
      + intros LZ x (i & r & HW & _ & NS & _). apply NS, (Q4 LZ). eapply nthN_In; eauto.
  Qed.

  Lemma top_ranked q w skip limit rs : unit_of q w -> (words = [] \/ lenN q = a2_cols a) -> top_k f32_ops (candidate f32_ops words (a2_rows a) skip w) limit rs ->
    ranked words vs q skip (4 * length_error (a2_cols a)) rs.
  Proof.
    intros U W T. destruct W as [W|W].
    { assert (rs = []) as ->. { destruct rs as [|x rs]; [reflexivity|]. destruct (tk_cand _ _ _ _ T x (or_introl eq_refl)) as (i & r & H & _). rewrite W in H. destruct (nil_nthN _ _ H). }
      constructor; [intros x []|]. intros i j x y v v' H. rewrite W in H. destruct (nil_nthN _ _ H). }
    assert (forall i x v y, nthN words i = Some x -> nthN vs i = Some v -> candidate f32_ops words (a2_rows a) skip w y -> wr_word y = x ->
      exists s, f32_value (wr_sim y) = Some s /\ Rabs (s - cosine_R (map f32_R v) (map f32_R q)) <= 4 * length_error (a2_cols a)) as K.
    { intros i x v y HW HV C E. destruct (candidate_value q w skip y U W C) as (i' & v' & s & HW' & HV' & V & B).
      assert (i' = i) as ->. { pose proof (words_ND SO pf e a made) as ND. rewrite E in HW'. eapply NoDup_nthN; eauto. }
      assert (v' = v) as -> by congruence. eauto. }
    constructor.
    - intros x HX. apply (candidate_value q w skip x U W). apply T, HX.
    - intros i j x y v v' HI HV HJ HV' H.
      assert (exists rx ry, candidate f32_ops words (a2_rows a) skip w rx /\ wr_word rx = x /\ candidate f32_ops words (a2_rows a) skip w ry /\ wr_word ry = y /\ better f32_ops rx ry) as (rx & ry & CX & EX & CY & EY & B).
      { destruct H as [(l1 & l2 & l3 & E)|(HX & HY & NS)].
        - apply map_eq_app in E as (k1 & k & -> & E1 & E). apply map_eq_cons in E as (rx & k2 & -> & EX & E). apply map_eq_app in E as (k3 & k4 & -> & E3 & E).
          apply map_eq_cons in E as (ry & k5 & -> & EY & E). exists rx, ry. split; [apply T, in_app_iff; right; left; reflexivity|]. split; [exact EX|].
          split; [apply T, in_app_iff; right; right; apply in_app_iff; right; left; reflexivity|]. split; [exact EY|].
          eapply before_sorted; [apply (tk_sorted _ _ _ _ T)|reflexivity].
        - apply in_map_iff in HX as (rx & EX & HX). destruct (units j y HJ) as (vy & r & _ & R & _). exists rx, (mkWsr (vdot f32_ops r w) y).
          assert (candidate f32_ops words (a2_rows a) skip w (mkWsr (vdot f32_ops r w) y)) as C by (exists j, r; auto).
          split; [apply T, HX|]. split; [exact EX|]. split; [exact C|]. split; [reflexivity|]. apply (tk_omitted _ _ _ _ T); [exact C| |exact HX].
          intros HN. apply HY. apply in_map_iff. eexists. split; [|exact HN]. reflexivity. }
      destruct (K i x v rx HI HV CX EX) as (s & VS & BS). destruct (K j y v' ry HJ HV' CY EY) as (t & VT & BT).
      pose proof (better_value rx ry s t B VS VT). apply abs_bounds in BS, BT. lra.
  Qed.

  Lemma similarity_ranked q w skip limit batch rs : unit_of q w -> similarity_ f32_ops wrap_ops view e w skip limit batch = Ok rs ->
    ranked (v_words wrap_ops (em_vocab e)) vs q skip (4 * length_error (a2_cols a)) rs.
  Proof.
    intros U H. pose proof (proj1 (ranked_returns q w skip limit batch U) (ex_intro _ rs H)) as (_ & _ & W & _).
    eapply top_ranked; eauto. eapply similarity_exact; eauto using f32_ordered, f32_one_neutral.
  Qed.

  (** *** The public queries *)
  Lemma word_ranked w i v limit batch : nthN (v_words wrap_ops (em_vocab e)) i = Some w -> nthN vs i = Some v ->
    ((exists r, word_similarity f32_ops wrap_ops SO view pf e w limit batch = Ok r) <->
     (limit * 24 <= isize_max)%N /\ batch <> Some 0%N /\ (limit = 0%N -> v_words wrap_ops (em_vocab e) = [w])) /\
    forall r, word_similarity f32_ops wrap_ops SO view pf e w limit batch = Ok r -> exists rs, r = Some rs /\
    ranked (v_words wrap_ops (em_vocab e)) vs v [w] (4 * length_error (a2_cols a)) rs.
  Proof.
    intros HW HV. destruct (known_word f32_ops SO pf e _ _ made w i HW) as (r & HR & E). destruct (units i w HW) as (v' & r' & HV' & HR' & U).
    assert (v' = v) as -> by congruence. assert (r' = r) as -> by congruence.
    assert (lenN v = a2_cols a) as LV. { rewrite <- (unit_len _ _ U). pose proof (sm_cols _ _ _ _ (proj1 (proj2 made))) as F. rewrite Forall_forall in F. apply F. eapply nthN_In; eauto. }
    assert (words <> []) as NE by (intros K; rewrite K in HW; destruct (nil_nthN _ _ HW)).
    unfold word_similarity. rewrite E. cbn [rbind]. pose proof (ranked_returns v r [w] limit batch U) as RR. split.
    - split.
      + intros (x & H). apply rbind_Ok_inv in H as (rs & H & _). apply (ex_intro (fun _ => _) rs) in H. apply RR in H as (H1 & H2 & _ & H4).
        split; [exact H1|]. split; [intros ->; auto|]. intros LZ. specialize (H4 LZ). pose proof (words_ND SO pf e a made) as ND.
        destruct words as [|x1 [|x2 ws]]; [contradiction| |].
        * destruct (H4 x1 (or_introl eq_refl)) as [->|[]]. reflexivity.
        * exfalso. destruct (H4 x1 (or_introl eq_refl)) as [<-|[]]. destruct (H4 x2 (or_intror (or_introl eq_refl))) as [<-|[]]. inversion ND as [|? ? K]. apply K. left. reflexivity.
      + intros (H1 & H2 & H3). destruct RR as [_ RR]. destruct RR as (rs & ->); [|cbn [rbind]; eauto].
        split; [exact H1|]. split; [destruct batch; [intros ->; auto|exact NE]|]. split; [right; exact LV|]. intros LZ. rewrite (H3 LZ). auto.
    - intros x H. apply rbind_Ok_inv in H as (rs & H & K). injection K as <-. exists rs. split; [reflexivity|]. eapply similarity_ranked; eauto.
  Qed.

  Lemma masked_ranked q nv limit skip batch : Forall f32_finite q -> f32_value (f32_sqrt (vdot f32_ops q q)) = Some nv -> powerRZ 2 (-40) <= nv ->
    ((exists r, embedding_similarity_masked f32_ops wrap_ops view e q limit skip batch = Ok r) <->
     (limit * 24 <= isize_max)%N /\ match batch with Some b => b <> 0%N | None => v_words wrap_ops (em_vocab e) <> [] end /\
     (v_words wrap_ops (em_vocab e) = [] \/ lenN q = a2_cols a) /\
     (limit = 0%N -> forall w, In w (v_words wrap_ops (em_vocab e)) -> In w skip)) /\
    forall r, embedding_similarity_masked f32_ops wrap_ops view e q limit skip batch = Ok r -> exists rs, r = Some rs /\
    ranked (v_words wrap_ops (em_vocab e)) vs q skip (4 * length_error (a2_cols a)) rs.
  Proof.
    intros F V B. assert (unit_of q (fst (l2_normalize f32_ops q))) as U.
    { split; [exact F|]. exists (snd (l2_normalize f32_ops q)), nv. split; [apply l2_normalize_scaled|].
      destruct (l2_normalize_scaled f32_ops q) as (-> & _). auto. }
    unfold embedding_similarity_masked. rewrite <- (ranked_returns q _ skip limit batch U). split.
    - split; [intros (r & H); apply rbind_Ok_inv in H as (rs & H & _); eauto|]. intros (rs & ->). cbn [rbind]. eauto.
    - intros r H. apply rbind_Ok_inv in H as (rs & H & K). injection K as <-. exists rs. split; [reflexivity|]. eapply similarity_ranked; eauto.
  Qed.

  Lemma row_bound i w r : nthN words i = Some w -> nthN (a2_rows a) i = Some r -> lenN r = a2_cols a /\ Forall (fun x => f32_finite x /\ Rabs (f32_R x) <= 17 / 16) r.
  Proof.
    intros HW HR. destruct (units i w HW) as (v & r' & _ & HR' & U). assert (r' = r) as -> by congruence.
    assert (lenN r = a2_cols a) as LR. { pose proof (sm_cols _ _ _ _ (proj1 (proj2 made))) as F. rewrite Forall_forall in F. apply F. eapply nthN_In; eauto. }
    split; [exact LR|]. pose proof (unit_len _ _ U) as LU. assert (lenN v <= 4194304)%N as LV by (rewrite <- LU, LR; exact small).
    destruct (unit_facts v r U LV) as (nv & _ & _ & F & L & _). apply Forall_forall. intros x HX. rewrite Forall_forall in F. split; [auto|].
    pose proof (square_in r x HX) as SI. pose proof (squares_nonneg r) as S0. pose proof (sqrt_pos (squares r)) as SP. rewrite len_squares in L.
    pose proof (length_error_bounds _ LV). apply abs_bounds in L. apply Rle_trans with (sqrt (squares r)); [|lra].
    apply Rsqr_incr_0; [|apply Rabs_pos|exact SP]. unfold Rsqr. rewrite <- Rabs_mult, Rabs_right by nra. rewrite sqrt_sqrt by exact S0. exact SI.
  Qed.
  Lemma bounded_sum r x c : rounds_to r x -> Rabs r <= c -> c <= 4 -> f32_finite x /\ Rabs (f32_R x - r) <= u * c + eta.
  Proof.
    intros R B C. destruct (small_value _ _ R ltac:(lra)) as (v & V & E). split; [exists v; exact V|]. unfold f32_R. rewrite V, Rabs_minus_sym.
    eapply Rle_trans; [exact E|]. eapply Rle_trans; [apply rounding_error_sum|]. pose proof u_bounds. nra.
  Qed.
  Lemma analogy_value x y z : f32_finite x -> Rabs (f32_R x) <= 17 / 16 -> f32_finite y -> Rabs (f32_R y) <= 17 / 16 -> f32_finite z -> Rabs (f32_R z) <= 17 / 16 ->
    f32_finite (f32_add (f32_sub y x) z) /\ Rabs (f32_R (f32_add (f32_sub y x) z) - (f32_R y - f32_R x + f32_R z)) <= 6 * u.
  Proof.
    intros FX BX FY BY FZ BZ. pose proof u_bounds as UB. assert (eta <= u / 16) as EU.
    { assert (p2 (-28) = u / 16) as <-. { replace (-28)%Z with (-24 + -4)%Z by reflexivity. rewrite p2_add. unfold Rdiv. f_equal. change (-4)%Z with (- Z.of_nat 4)%Z. rewrite powerRZ_neg', <- pow_powerRZ. f_equal. cbn; lra. } apply p2_le. lia. }
    destruct (sub_rounds y x _ _ (finite_R _ FY) (finite_R _ FX)) as [R1 _].
    destruct (bounded_sum _ _ (17 / 8) R1) as [F1 E1]; [|lra|].
    { unfold Rminus. eapply Rle_trans; [apply Rabs_triang|]. rewrite Rabs_Ropp. lra. }
    destruct (add_rounds (f32_sub y x) z _ _ (finite_R _ F1) (finite_R _ FZ)) as [R2 _].
    destruct (bounded_sum _ _ (7 / 2) R2) as [F2 E2]; [|lra|].
    { apply Rabs_le. apply abs_bounds in BX, BY, BZ, E1. lra. }
    split; [exact F2|]. apply Rabs_le. apply abs_bounds in E1, E2. lra.
  Qed.
  Lemma analogy_ranked ia ib ic wa wb wc xa xb xc ra rb rc nv limit batch :
    nthN (v_words wrap_ops (em_vocab e)) ia = Some wa -> nthN (a2_rows a) ia = Some xa ->
    nthN (v_words wrap_ops (em_vocab e)) ib = Some wb -> nthN (a2_rows a) ib = Some xb ->
    nthN (v_words wrap_ops (em_vocab e)) ic = Some wc -> nthN (a2_rows a) ic = Some xc ->
    f32_value (f32_sqrt (vdot f32_ops (analogy_vector f32_ops (a2_cols a) xa xb xc) (analogy_vector f32_ops (a2_cols a) xa xb xc))) = Some nv ->
    powerRZ 2 (-40) <= nv ->
    (forall j, (j < N.to_nat (a2_cols a))%nat ->
     Rabs (f32_R (nth j (analogy_vector f32_ops (a2_cols a) xa xb xc) f32_zero) -
           (f32_R (nth j xb f32_zero) - f32_R (nth j xa f32_zero) + f32_R (nth j xc f32_zero))) <= 6 * powerRZ 2 (-24)) /\
    exists skip, (forall w, In w skip <-> (ra = true /\ w = wa) \/ (rb = true /\ w = wb) \/ (rc = true /\ w = wc)) /\
    ((exists r, analogy_masked f32_ops wrap_ops SO view pf e (wa, wb, wc) (ra, rb, rc) limit batch = Ok r) <->
     (limit * 24 <= isize_max)%N /\ batch <> Some 0%N /\ (limit = 0%N -> forall w, In w (v_words wrap_ops (em_vocab e)) -> In w skip)) /\
    forall r, analogy_masked f32_ops wrap_ops SO view pf e (wa, wb, wc) (ra, rb, rc) limit batch = Ok r -> exists rs, r = inl rs /\
    ranked (v_words wrap_ops (em_vocab e)) vs (analogy_vector f32_ops (a2_cols a) xa xb xc) skip (4 * length_error (a2_cols a)) rs.
  Proof.
    intros HA RA HB RB HC RC V B.
    destruct (row_bound ia wa xa HA RA) as [LA FA]. destruct (row_bound ib wb xb HB RB) as [LB FB]. destruct (row_bound ic wc xc HC RC) as [LC FC].
    assert (words <> []) as NE by (intros K; rewrite K in HA; destruct (nil_nthN _ _ HA)).
    assert (forall x j, lenN x = a2_cols a -> Forall (fun x => f32_finite x /\ Rabs (f32_R x) <= 17 / 16) x -> (j < N.to_nat (a2_cols a))%nat ->
      f32_finite (nth j x f32_zero) /\ Rabs (f32_R (nth j x f32_zero)) <= 17 / 16) as NTH.
    { intros x j L F J. rewrite Forall_forall in F. apply F, nth_In. unfold lenN in L. lia. }
    set (q := analogy_vector f32_ops (a2_cols a) xa xb xc) in *.
    assert (forall j, (j < N.to_nat (a2_cols a))%nat -> nth j q f32_zero = f32_add (f32_sub (nth j xb f32_zero) (nth j xa f32_zero)) (nth j xc f32_zero)) as EQ.
    { intros j J. unfold q, analogy_vector. rewrite (nth_indep _ _ (fadd f32_ops (fsub f32_ops (nth 0 xb (fzero f32_ops)) (nth 0 xa (fzero f32_ops))) (nth 0 xc (fzero f32_ops)))) by (rewrite map_length, seq_length; exact J).
      rewrite (map_nth (fun j => fadd f32_ops (fsub f32_ops (nth j xb (fzero f32_ops)) (nth j xa (fzero f32_ops))) (nth j xc (fzero f32_ops)))), seq_nth by exact J. reflexivity. }
    assert (lenN q = a2_cols a) as LQ by (unfold q, analogy_vector, lenN; rewrite map_length, seq_length; lia).
    assert (forall j, (j < N.to_nat (a2_cols a))%nat -> f32_finite (nth j q f32_zero) /\
      Rabs (f32_R (nth j q f32_zero) - (f32_R (nth j xb f32_zero) - f32_R (nth j xa f32_zero) + f32_R (nth j xc f32_zero))) <= 6 * u) as QV.
    { intros j J. rewrite (EQ j J). destruct (NTH xa j LA FA J). destruct (NTH xb j LB FB J). destruct (NTH xc j LC FC J). apply analogy_value; assumption. }
    split; [intros j J; apply QV, J|].
    assert (Forall f32_finite q) as FQ. { apply Forall_forall. intros x HX. apply (In_nth _ _ f32_zero) in HX as (j & J & <-). apply QV. unfold lenN in LQ. lia. }
    assert (unit_of q (fst (l2_normalize f32_ops q))) as U.
    { split; [exact FQ|]. exists (snd (l2_normalize f32_ops q)), nv. split; [apply l2_normalize_scaled|].
      destruct (l2_normalize_scaled f32_ops q) as (-> & _). auto. }
    destruct (known_word f32_ops SO pf e _ _ made wa ia HA) as (r1 & R1 & E1). destruct (known_word f32_ops SO pf e _ _ made wb ib HB) as (r2 & R2 & E2). destruct (known_word f32_ops SO pf e _ _ made wc ic HC) as (r3 & R3 & E3).
    assert (r1 = xa) as -> by congruence. assert (r2 = xb) as -> by congruence. assert (r3 = xc) as -> by congruence.
    exists (map fst (filter snd [(wa, ra); (wb, rb); (wc, rc)])).
    split; [intros w; destruct ra, rb, rc; cbn; intuition congruence|].
    unfold analogy_masked, lookup_words3. rewrite E1, E2, E3. cbn [rbind]. rewrite (analogy_vector_eq f32_ops a xa xb xc LA LB LC). fold q.
    set (skip := map fst _). pose proof (ranked_returns q _ skip limit batch U) as RR. split.
    - split.
      + intros (x & H). apply rbind_Ok_inv in H as (rs & H & _). apply (ex_intro (fun _ => _) rs) in H. apply RR in H as (H1 & H2 & _ & H4).
        split; [exact H1|]. split; [intros ->; auto|exact H4].
      + intros (H1 & H2 & H3). destruct RR as [_ RR]. destruct RR as (rs & ->); [|cbn [rbind]; eauto].
        split; [exact H1|]. split; [destruct batch; [intros ->; auto|exact NE]|]. split; [right; exact LQ|]. exact H3.
    - intros x H. apply rbind_Ok_inv in H as (rs & H & K). injection K as <-. exists rs. split; [reflexivity|]. eapply similarity_ranked; eauto.
  Qed.
End Ranking.

(** ** Embeddings read from text or word2vec files *)
Lemma normalized_ranked {Md} pf (e : embeddings Md simple_vocab (array2 f32) f32) cols l : normalized_result f32_ops e cols l ->
  (forall i w v, nthN l i = Some (w, v) -> lenN v = cols) ->
  emb_made (nd_ops f32) pf (emb_wrap VSimple (fun s => s) e) cols (a2_rows (em_storage e)) /\
  v_words wrap_ops (em_vocab (emb_wrap VSimple (fun s => s) e)) = map fst l /\
  ((forall i w v, nthN l i = Some (w, v) -> Forall f32_finite v /\ exists ns n nv, em_norms e = Some ns /\ nthN ns i = Some n /\ f32_value n = Some nv /\ powerRZ 2 (-40) <= nv) ->
   word_rows (map fst l) (map snd l) (a2_rows (em_storage e))).
Proof.
  intros (EV & EM & EC & LR & ns & EN & LNS & H) LV.
  assert (forall i r, nthN (a2_rows (em_storage e)) i = Some r -> lenN r = cols) as LC.
  { intros i r R. assert (i < lenN l)%N as HI by (rewrite <- LR; eapply nthN_Some_lt; eauto). destruct (nthN_lt _ _ HI) as ([w v] & HL).
    destruct (H i w v HL) as (r' & n & R' & _ & SC). assert (r' = r) as -> by congruence. rewrite (scaled_len _ _ _ _ SC). eapply LV; eauto. }
  assert (a2_wf (em_storage e)) as WF. { apply Forall_forall. intros r R. apply In_nthN in R as (i & R). rewrite EC. eapply LC; eauto. }
  pose proof EV as EV'. unfold simple_new in EV'. apply rbind_Ok_inv in EV' as ([] & AS & EV'). injection EV' as EV'. apply rassert_Ok in AS. apply N.eqb_eq in AS.
  split; [|split].
  - split; [|split].
    + cbn [em_vocab emb_wrap]. eapply vm_simple, EV.
    + cbn [em_storage emb_wrap]. rewrite <- EC. apply nd_matrix. exact WF.
    + unfold emb_new_with_maybe_norms, emb_wrap. cbn [em_vocab em_storage em_meta em_norms]. cbn [v_vocab_len wrap_ops simple_ops rbind].
      rewrite <- EV'. cbn [sm_indices]. cbn [st_shape nd_ops fst]. unfold a2_nrows. rewrite LR, <- AS. unfold lenN at 1 2. rewrite map_length.
      unfold lenN. rewrite N.eqb_refl. reflexivity.
  - cbn [em_vocab emb_wrap v_words wrap_ops]. rewrite <- EV'. reflexivity.
  - intros F i w HW. assert (i < lenN l)%N as HI. { apply nthN_Some_lt in HW. unfold lenN in *. rewrite map_length in HW. exact HW. }
    destruct (nthN_lt _ _ HI) as ([w' v] & HL). destruct (H i w' v HL) as (r & n & R & HN & SC). destruct (F i w' v HL) as (FV & ns' & n' & nv & EN' & HN' & V & B).
    assert (ns' = ns) as -> by congruence. assert (n' = n) as -> by congruence.
    exists v, r. split; [|split; [exact R|]].
    + rewrite nthN_map, HL. reflexivity.
    + split; [exact FV|]. exists n, nv. auto.
Qed.
