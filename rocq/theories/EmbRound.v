(** * Normalisation in [f32]: how far the length is from one. *)
From Coq Require Import Reals Lra Floats.SpecFloat.
From Verif Require Import Base BaseFacts Utf8 F32 Subword Vocab Storage Embeddings VocabSpec EmbFacts FileSpec TextSpec EmbSpec SimSpec F32Facts F32RoundSpec F32Round F32Ops F32RoundThms SimRound.
Local Open Scope R_scope.

Notation u := (powerRZ 2 (-24)).
Notation eta := (powerRZ 2 (-150)).
Lemma u_bounds : 0 < u < 1 / 1000000.
Proof. rewrite u_value. split; lra. Qed.
Lemma eta_pos : 0 < eta. Proof. apply p2_pos. Qed.
Lemma rounding_error_sum r : rounding_error r <= u * Rabs r + eta.
Proof.
  unfold rounding_error. pose proof eta_pos. pose proof u_bounds. pose proof (Rabs_pos r). apply Rmax_lub; nra.
Qed.

(** ** Finite results have finite operands *)
Lemma add_finite_inv x y c : f32_value (f32_add x y) = Some c -> exists a b, f32_value x = Some a /\ f32_value y = Some b /\ Rabs (a + b - c) <= u * Rabs (a + b) + eta.
Proof.
  intros V. pose proof (nan_value _ _ V) as NN.
  destruct (class_cases x) as [[N _]|[(s & _ & IX)|[a VX]]].
  { destruct (nan_operand x y (or_introl N)) as (K & _). congruence. }
  all: destruct (class_cases y) as [[N _]|[(s' & _ & IY)|[b VY]]].
  1,4: destruct (nan_operand x y (or_intror N)) as (K & _); congruence.
  - exfalso. destruct (inf_both s s' x y IX IY) as (K & _). destruct (Bool.eqb s s'); [|congruence]. rewrite K in V.
    apply inf_sf in IX. unfold f32_value in V. rewrite IX in V. discriminate.
  - exfalso. destruct (inf_finite s x y b IX VY) as (K & _). rewrite K in V. apply inf_sf in IX. unfold f32_value in V. rewrite IX in V. discriminate.
  - exfalso. destruct (inf_finite s' y x a IY VX) as (_ & K & _). rewrite K in V. apply inf_sf in IY. unfold f32_value in V. rewrite IY in V. discriminate.
  - exists a, b. split; [exact VX|]. split; [exact VY|]. destruct (add_rounds x y a b VX VY) as [R _].
    eapply Rle_trans; [eapply rounds_error; [exact R|exact V]|apply rounding_error_sum].
Qed.
Lemma mul_finite_inv x y c : f32_value (f32_mul x y) = Some c -> exists a b, f32_value x = Some a /\ f32_value y = Some b /\ Rabs (a * b - c) <= u * Rabs (a * b) + eta.
Proof.
  intros V. pose proof (nan_value _ _ V) as NN.
  destruct (class_cases x) as [[N _]|[(s & _ & IX)|[a VX]]].
  { destruct (nan_operand x y (or_introl N)) as (_ & _ & K & _). congruence. }
  all: destruct (class_cases y) as [[N _]|[(s' & _ & IY)|[b VY]]].
  1,4: destruct (nan_operand x y (or_intror N)) as (_ & _ & K & _); congruence.
  - exfalso. destruct (inf_both s s' x y IX IY) as (_ & _ & K & _). apply inf_sf in K. unfold f32_value in V. rewrite K in V. discriminate.
  - exfalso. destruct (inf_finite s x y b IX VY) as (_ & _ & _ & _ & K1 & K2 & _). destruct (Req_dec b 0) as [Z|Z].
    + destruct (K2 Z). congruence.
    + destruct (K1 Z) as [K _]. apply inf_sf in K. unfold f32_value in V. rewrite K in V. discriminate.
  - exfalso. destruct (inf_finite s' y x a IY VX) as (_ & _ & _ & _ & K1 & K2 & _). destruct (Req_dec a 0) as [Z|Z].
    + destruct (K2 Z). congruence.
    + destruct (K1 Z) as [_ K]. apply inf_sf in K. unfold f32_value in V. rewrite K in V. discriminate.
  - exists a, b. split; [exact VX|]. split; [exact VY|]. destruct (mul_rounds x y a b VX VY) as [R _].
    eapply Rle_trans; [eapply rounds_error; [exact R|exact V]|apply rounding_error_sum].
Qed.
(** The sign of a rounded number. *)
Lemma rounds_nonneg r x v : rounds_to r x -> 0 <= r -> f32_value x = Some v -> 0 <= v.
Proof.
  intros R L V. destruct (rounds_mono 0 r f32_zero x L (rounds_self _ _ zero_value) R) as (c & E & G).
  destruct (value_compare f32_zero x 0 v zero_value V) as (c' & E' & O). destruct c'; cbn [R_order] in O; try lra. congruence.
Qed.

(** ** Sums of squares *)

(** The number [x], if it is finite, is a sum of [c] terms computed with at
    most [d] roundings each, and [T] is the exact sum. *)
Definition approx (d : nat) (c : nat) (T : R) (x : f32) : Prop :=
  0 <= T /\ forall A, f32_value x = Some A ->
  0 <= A /\ (1 - u) ^ d * T - INR c * eta <= A <= (1 + u) ^ d * (T + INR c * eta).

Lemma approx_zero : approx 0 0 0 f32_zero.
Proof. split; [lra|]. intros A V. rewrite zero_value in V. inv V. cbn [pow INR]. repeat split; lra. Qed.
Lemma approx_weaken d d' c T x : (d <= d')%nat -> approx d c T x -> approx d' c T x.
Proof.
  intros L [T0 H]. split; [exact T0|]. intros A V. destruct (H A V) as (A0 & B1 & B2). split; [exact A0|]. pose proof u_bounds as U.
  assert (0 <= INR c * eta) as C0 by (pose proof (pos_INR c); pose proof eta_pos; nra).
  assert ((1 + u) ^ d <= (1 + u) ^ d') as P1 by (apply Rle_pow; [lra|exact L]).
  assert ((1 - u) ^ d' <= (1 - u) ^ d) as P2.
  { replace d' with (d + (d' - d))%nat by lia. rewrite pow_add. assert (0 < (1 - u) ^ d) by (apply pow_lt; lra).
    assert ((1 - u) ^ (d' - d) <= 1); [|nra].
    pose proof (pow_incr (1 - u) 1 (d' - d) ltac:(lra)) as Q. rewrite pow1 in Q. exact Q. }
  split; nra.
Qed.
Lemma approx_eq d c c' T T' x : c = c' -> T = T' -> approx d c T x -> approx d c' T' x.
Proof. intros -> ->. auto. Qed.
Lemma approx_square x : approx 1 1 (f32_R x * f32_R x) (f32_mul x x).
Proof.
  split; [apply Rle_0_sqr|]. intros A V. destruct (mul_finite_inv x x A V) as (a & b & VX & VY & E). assert (b = a) as -> by congruence.
  unfold f32_R. rewrite VX. destruct (mul_rounds x x a a VX VX) as [R _]. pose proof (Rle_0_sqr a) as SQ. unfold Rsqr in SQ.
  rewrite (Rabs_right (a * a)) in E by lra. apply abs_bounds in E. pose proof u_bounds. pose proof eta_pos.
  split; [eapply rounds_nonneg; eauto|]. cbn [INR pow]. split; nra.
Qed.
Lemma approx_add d d' c c' T T' x y : approx d c T x -> approx d' c' T' y -> approx (S (Nat.max d d')) (c + c' + 1) (T + T') (f32_add x y).
Proof.
  intros HX HY. apply (approx_weaken _ (Nat.max d d')) in HX; [|lia]. apply (approx_weaken _ (Nat.max d d')) in HY; [|lia].
  set (D := Nat.max d d') in *. destruct HX as [T0 HX], HY as [T0' HY]. split; [lra|]. intros A V.
  destruct (add_finite_inv x y A V) as (a & b & VX & VY & E). destruct (HX a VX) as (A0 & A1 & A2). destruct (HY b VY) as (B0 & B1 & B2).
  rewrite (Rabs_right (a + b)) in E by lra. apply abs_bounds in E. destruct (add_rounds x y a b VX VY) as [R _].
  split; [eapply rounds_nonneg; [exact R|lra|exact V]|].
  pose proof u_bounds as U. pose proof eta_pos as H0.
  rewrite !plus_INR. cbn [INR pow]. set (P := (1 + u) ^ D) in *. set (Q := (1 - u) ^ D) in *.
  assert (1 <= P) as P1 by (apply pow_R1_Rle; lra). pose proof (pos_INR c) as C0. pose proof (pos_INR c') as C0'.
  set (k := INR c) in *. set (k' := INR c') in *. clearbody P Q k k'. set (t := eta) in *. set (v := u) in *. clearbody t v. clear - A1 A2 B1 B2 E U H0 P1 C0 C0' T0 T0' A0 B0.
  assert (0 <= k * t) by nra. assert (0 <= k' * t) by nra.
  split.
  - assert (Q * (T + T') - (k + k') * t <= a + b) as L by lra.
    assert ((1 - v) * (Q * (T + T') - (k + k') * t) <= (1 - v) * (a + b)) as L' by (apply Rmult_le_compat_l; lra).
    assert (0 <= v * ((k + k') * t)) by nra. replace ((1 - v) * Q * (T + T') - (k + k' + 1) * t) with ((1 - v) * (Q * (T + T') - (k + k') * t) - v * ((k + k') * t) - t) by ring. lra.
  - assert (a + b <= P * (T + T' + (k + k') * t)) as L by lra.
    assert ((1 + v) * (a + b) <= (1 + v) * (P * (T + T' + (k + k') * t))) as L' by (apply Rmult_le_compat_l; lra).
    assert (1 <= (1 + v) * P) as PP by nra. assert (1 * t <= (1 + v) * P * t) as PT by (apply Rmult_le_compat_r; lra).
    replace ((1 + v) * P * (T + T' + (k + k' + 1) * t)) with ((1 + v) * (P * (T + T' + (k + k') * t)) + (1 + v) * P * t) by ring. lra.
Qed.

Notation squares v := (fold_right Rplus 0 (map (fun x => f32_R x * f32_R x) v)).
Lemma squares_nonneg v : 0 <= squares v.
Proof. induction v as [|x v IH]; cbn [map fold_right]; [lra|]. pose proof (Rle_0_sqr (f32_R x)) as Q. unfold Rsqr in Q. lra. Qed.

Lemma approx_step d c T p x : (1 <= d)%nat -> approx d c T p -> approx (S d) (c + 2) (T + f32_R x * f32_R x) (f32_add p (f32_mul x x)).
Proof.
  intros D H. replace (S d) with (S (Nat.max d 1)) by lia. replace (c + 2)%nat with (c + 1 + 1)%nat by lia. apply approx_add; [exact H|apply approx_square].
Qed.
Lemma approx_tail v : forall d c T acc, (1 <= d)%nat -> approx d c T acc ->
  approx (d + length v) (c + 2 * length v) (T + squares v) (dot_tail f32_ops v v acc).
Proof.
  induction v as [|x v IH]; intros d c T acc D H; cbn [dot_tail length map fold_right].
  - rewrite Rplus_0_r, !Nat.add_0_r. exact H.
  - replace (d + S (length v))%nat with (S d + length v)%nat by lia. replace (c + 2 * S (length v))%nat with (c + 2 + 2 * length v)%nat by lia.
    rewrite <- Rplus_assoc. apply IH; [lia|]. apply approx_step; assumption.
Qed.

Definition approx8 (d c : nat) (T : R) (p : p8 (F := f32)) : Prop :=
  let '(p0,p1,p2,p3,p4,p5,p6,p7) := p in
  exists t0 t1 t2 t3 t4 t5 t6 t7, approx d c t0 p0 /\ approx d c t1 p1 /\ approx d c t2 p2 /\ approx d c t3 p3 /\
  approx d c t4 p4 /\ approx d c t5 p5 /\ approx d c t6 p6 /\ approx d c t7 p7 /\ T = t0 + t1 + t2 + t3 + t4 + t5 + t6 + t7.
Lemma approx_blocks n : forall v d c T p, (length v <= n)%nat -> (1 <= d)%nat -> approx8 d c T p ->
  exists b p' w, dot_blocks f32_ops v v p = (p', (w, w)) /\ length v = (8 * b + length w)%nat /\ (length w < 8)%nat /\
  exists T', approx8 (d + b) (c + 2 * b) T' p' /\ T' + squares w = T + squares v.
Proof.
  induction n as [|n IH]; intros v d c T p L D H.
  - destruct v; [|cbn in L; lia]. exists 0%nat, p, []. cbn [dot_blocks]. split; [reflexivity|]. split; [reflexivity|]. split; [cbn; lia|].
    exists T. rewrite Nat.add_0_r. split; [|reflexivity]. replace (c + 2 * 0)%nat with c by lia. exact H.
  - assert ((length v < 8)%nat -> dot_blocks f32_ops v v p = (p, (v, v))) as SM.
    { intros K. destruct v as [|x0 [|x1 [|x2 [|x3 [|x4 [|x5 [|x6 [|x7 v]]]]]]]]; try reflexivity. cbn [length] in K. lia. }
    destruct (Nat.lt_ge_cases (length v) 8) as [K|K].
    { exists 0%nat, p, v. split; [apply SM; exact K|]. split; [reflexivity|]. split; [exact K|].
      exists T. rewrite Nat.add_0_r. split; [|reflexivity]. replace (c + 2 * 0)%nat with c by lia. exact H. }
    clear SM. destruct v as [|x0 [|x1 [|x2 [|x3 [|x4 [|x5 [|x6 [|x7 v]]]]]]]]; try (cbn [length] in K; lia).
    destruct p as [[[[[[[p0 p1] p2] p3] p4] p5] p6] p7]. destruct H as (t0 & t1 & t2 & t3 & t4 & t5 & t6 & t7 & H0 & H1 & H2 & H3 & H4 & H5 & H6 & H7 & ->).
    cbn [dot_blocks fadd fmul f32_ops].
    destruct (IH v (S d) (c + 2)%nat (t0 + t1 + t2 + t3 + t4 + t5 + t6 + t7 + (f32_R x0 * f32_R x0 + f32_R x1 * f32_R x1 + f32_R x2 * f32_R x2 + f32_R x3 * f32_R x3 + f32_R x4 * f32_R x4 + f32_R x5 * f32_R x5 + f32_R x6 * f32_R x6 + f32_R x7 * f32_R x7))
      (f32_add p0 (f32_mul x0 x0), f32_add p1 (f32_mul x1 x1), f32_add p2 (f32_mul x2 x2), f32_add p3 (f32_mul x3 x3),
       f32_add p4 (f32_mul x4 x4), f32_add p5 (f32_mul x5 x5), f32_add p6 (f32_mul x6 x6), f32_add p7 (f32_mul x7 x7))) as (b & p' & w & E & LE & LW & T' & H' & TE).
    { cbn [length] in L. lia. } { lia. }
    { do 8 eexists. repeat (split; [apply approx_step; eassumption|]). lra. }
    exists (S b), p', w. split; [exact E|]. split; [cbn [length]; lia|]. split; [exact LW|]. exists T'. split.
    + replace (d + S b)%nat with (S d + b)%nat by lia. replace (c + 2 * S b)%nat with (c + 2 + 2 * b)%nat by lia. exact H'.
    + rewrite TE. cbn [map fold_right]. lra.
Qed.
Lemma approx_dot v : exists d, (8 * d <= length v + 8 * 13)%nat /\ approx d (2 * length v + 8) (squares v) (vdot f32_ops v v).
Proof.
  unfold vdot. cbn [fzero f32_ops].
  assert (approx 1 0 0 f32_zero) as Z by (apply (approx_weaken 0 1); [lia|apply approx_zero]).
  destruct (approx_blocks (length v) v 1 0 0 (f32_zero,f32_zero,f32_zero,f32_zero,f32_zero,f32_zero,f32_zero,f32_zero)) as (b & p' & w & E & LE & LW & T' & H' & TE); [lia|lia| |].
  { exists 0, 0, 0, 0, 0, 0, 0, 0. repeat (split; [exact Z|]). lra. }
  unfold vec in *. rewrite E. destruct p' as [[[[[[[p0 p1] p2] p3] p4] p5] p6] p7].
  destruct H' as (t0 & t1 & t2 & t3 & t4 & t5 & t6 & t7 & H0 & H1 & H2 & H3 & H4 & H5 & H6 & H7 & ->).
  cbn [fadd f32_ops].
  pose proof (approx_add _ _ _ _ _ _ _ _ H0 H4) as A0. pose proof (approx_add _ _ _ _ _ _ _ _ H1 H5) as A1.
  pose proof (approx_add _ _ _ _ _ _ _ _ H2 H6) as A2. pose proof (approx_add _ _ _ _ _ _ _ _ H3 H7) as A3.
  pose proof (approx_add _ _ _ _ _ _ _ _ Z A0) as S0. pose proof (approx_add _ _ _ _ _ _ _ _ S0 A1) as S1.
  pose proof (approx_add _ _ _ _ _ _ _ _ S1 A2) as S2. pose proof (approx_add _ _ _ _ _ _ _ _ S2 A3) as S3.
  eapply approx_tail in S3; [|lia]. instantiate (1 := w) in S3.
  eexists. split; [|eapply approx_eq; [| |exact S3]; [lia|lra]]. lia.
Qed.

(** ** From the sum of squares to the length *)
Lemma bernoulli_low d : 1 - INR d * u <= (1 - u) ^ d.
Proof.
  pose proof u_bounds. induction d as [|d IH]; [cbn; lra|]. rewrite S_INR. cbn [pow].
  assert (0 <= (1 - u) ^ d <= 1) as B. { split; [apply pow_le; lra|]. pose proof (pow_incr (1 - u) 1 d ltac:(lra)) as Q. rewrite pow1 in Q. exact Q. }
  nra.
Qed.
Lemma bernoulli_high d : (1 + u) ^ d * (1 - INR d * u) <= 1.
Proof.
  pose proof u_bounds. apply Rle_trans with ((1 + u) ^ d * (1 - u) ^ d).
  - apply Rmult_le_compat_l; [apply pow_le; lra|apply bernoulli_low].
  - rewrite <- Rpow_mult_distr. assert (0 <= (1 + u) * (1 - u) <= 1) as B by nra. pose proof (pow_incr _ 1 d B) as Q. rewrite pow1 in Q. exact Q.
Qed.
Lemma length_error_bounds n : (n <= 4194304)%N -> 13 * u <= length_error n <= 1 / 16.
Proof.
  intros L. unfold length_error. assert (0 <= IZR (Z.of_N n) <= 4194304) as B by (split; apply IZR_le; lia). rewrite u_value. split; lra.
Qed.
Lemma sum_bounds d c v x D de : approx d c (squares v) x -> 13 * u <= de <= 1 / 16 -> INR d * u <= de -> (N.of_nat c <= 16777216)%N -> f32_value x = Some D ->
  exists t, 0 <= t <= p2 (-126) /\ 0 <= D /\ (1 - de) * squares v - t <= D /\ (1 - de) * D <= squares v + t.
Proof.
  intros A LB DU CB V. destruct A as [S0 A]. destruct (A D V) as (D0 & B1 & B2). clear A.
  set (S1 := squares v) in *.
  pose proof (bernoulli_low d) as BL. pose proof (bernoulli_high d) as BH. pose proof eta_pos as EP. pose proof u_bounds as U.
  set (t := INR c * eta) in *. assert (0 <= t) as T0 by (unfold t; pose proof (pos_INR c); nra).
  exists t. split; [split; [exact T0|]|].
  { unfold t. assert (INR c <= p2 24) as NB.
    { rewrite p2_pow by lia. rewrite INR_IZR_INZ. apply IZR_le. change (2 ^ 24)%Z with 16777216%Z. lia. }
    replace (p2 (-126)) with (p2 24 * eta) by (rewrite <- p2_add; reflexivity). apply Rmult_le_compat_r; lra. }
  split; [exact D0|]. set (P := (1 + u) ^ d) in *. set (Q := (1 - u) ^ d) in *. set (k := INR d * u) in *. clearbody P Q k t S1.
  split; nra.
Qed.
Lemma dot_depth_error (v : list f32) d : (8 * d <= length v + 8 * 13)%nat -> INR d * u <= length_error (lenN v).
Proof.
  intros DL. assert (IZR (Z.of_N (lenN v)) = INR (length v)) as EN by (unfold lenN; rewrite nat_N_Z, <- INR_IZR_INZ; reflexivity).
  unfold length_error. rewrite EN. apply Rmult_le_compat_r; [pose proof u_bounds; lra|].
  apply le_INR in DL. rewrite plus_INR, !mult_INR in DL. change (INR 8) with (1+1+1+1+1+1+1+1) in DL. change (INR 13) with (1+1+1+1+1+1+1+1+1+1+1+1+1) in DL. lra.
Qed.
Lemma sqrt_le_of x y : 0 <= y -> x <= y * y -> sqrt x <= y.
Proof. intros Y L. rewrite <- (sqrt_square y Y). apply sqrt_le_1_alt, L. Qed.
Lemma sqrt_ge_of x y : 0 <= y -> y * y <= x -> y <= sqrt x.
Proof. intros Y L. rewrite <- (sqrt_square y Y) at 1. apply sqrt_le_1_alt, L. Qed.

Lemma norm_arith S1 D nv de t : 0 <= S1 -> 0 <= D -> 13 * u <= de <= 1 / 16 -> 0 <= t <= p2 (-126) ->
  (1 - de) * S1 - t <= D -> (1 - de) * D <= S1 + t -> Rabs (sqrt D - nv) <= u * sqrt D -> p2 (-40) <= nv ->
  Rabs (nv - sqrt S1) <= (5 / 8 * de + u) * sqrt S1.
Proof.
  intros S0 D0 DE T L H N B. pose proof u_bounds as U. assert (0 <= sqrt D) as G0 by apply sqrt_pos. pose proof (sqrt_sqrt D D0) as GG.
  set (g := sqrt D) in *. apply abs_bounds in N.
  assert (p2 (-41) <= g) as GB. { pose proof (p2_succ (-41)) as E. replace (-41 + 1)%Z with (-40)%Z in E by reflexivity. nra. }
  assert (p2 (-82) <= D) as DB. { replace (-82)%Z with (-41 + -41)%Z by reflexivity. rewrite p2_add, <- GG. pose proof (p2_pos (-41)). nra. }
  assert (t <= p2 (-44) * D) as TD. { replace (-126)%Z with (-44 + -82)%Z in T by reflexivity. rewrite p2_add in T. pose proof (p2_pos (-44)). nra. }
  assert (p2 (-44) = / 1048576 * u) as TAU. { replace (-44)%Z with (-20 + -24)%Z by reflexivity. rewrite p2_add. f_equal. change (-20)%Z with (- Z.of_nat 20)%Z. rewrite powerRZ_neg', <- pow_powerRZ. f_equal. cbn; lra. }
  rewrite TAU in TD. set (tau := / 1048576 * u) in *. assert (0 < tau <= u / 1000000) as TB by (unfold tau; lra). clearbody tau.
  assert (D <= 2 * S1) as DS by nra.
  assert ((1 - de - 2 * tau) * S1 <= D) as L1 by nra. assert ((1 - de) * D <= (1 + 2 * tau) * S1) as H1 by nra.
  assert (0 <= nv) as NV by (pose proof (p2_pos (-40)); lra).
  pose proof (sqrt_sqrt S1 S0) as SS. pose proof (sqrt_pos S1) as SP. set (s := sqrt S1) in *.
  assert (nv * nv <= (1 + u) * (1 + u) * D) as N1 by (rewrite <- GG; replace ((1 + u) * (1 + u) * (g * g)) with ((g + u * g) * (g + u * g)) by ring; apply Rmult_le_compat; lra).
  assert ((1 - u) * (1 - u) * D <= nv * nv) as N2 by (rewrite <- GG; replace ((1 - u) * (1 - u) * (g * g)) with ((g - u * g) * (g - u * g)) by ring; apply Rmult_le_compat; nra).
  set (rho := 5 / 8 * de + u).
  assert ((1 + u) * (1 + u) * (1 + 2 * tau) <= (1 + rho) * (1 + rho) * (1 - de)) as P1 by (unfold rho; nra).
  assert ((1 - rho) * (1 - rho) <= (1 - u) * (1 - u) * (1 - de - 2 * tau)) as P2 by (unfold rho; nra).
  assert (0 < rho < 1 / 8) as RB by (unfold rho; lra).
  assert (nv * nv <= ((1 + rho) * s) * ((1 + rho) * s)) as Q1.
  { replace ((1 + rho) * s * ((1 + rho) * s)) with ((1 + rho) * (1 + rho) * S1) by (rewrite <- SS; ring).
    apply Rmult_le_reg_r with (1 - de); [lra|]. apply Rle_trans with ((1 + u) * (1 + u) * ((1 - de) * D)); [nra|].
    apply Rle_trans with ((1 + u) * (1 + u) * ((1 + 2 * tau) * S1)); nra. }
  assert (((1 - rho) * s) * ((1 - rho) * s) <= nv * nv) as Q2.
  { replace ((1 - rho) * s * ((1 - rho) * s)) with ((1 - rho) * (1 - rho) * S1) by (rewrite <- SS; ring).
    apply Rle_trans with ((1 - u) * (1 - u) * ((1 - de - 2 * tau) * S1)); [nra|]. apply Rle_trans with ((1 - u) * (1 - u) * D); nra. }
  apply Rsqr_incr_0 in Q1; [|exact NV|nra]. apply Rsqr_incr_0 in Q2; [|nra|exact NV].
  apply Rabs_le. split; lra.
Qed.
Lemma unit_arith W Q de t : 0 <= W -> 0 <= Q -> 13 * u <= de <= 1 / 16 -> 0 <= t <= u * u ->
  (1 - (5 / 8 * de + u)) * sqrt Q <= 1 <= (1 + (5 / 8 * de + u)) * sqrt Q ->
  (1 - u) * (1 - u) * Q - t <= W <= (1 + u) * (1 + u) * Q + t -> Rabs (sqrt W - 1) <= de.
Proof.
  intros W0 Q0 DE T Y B. pose proof u_bounds as U. pose proof (sqrt_sqrt Q Q0) as QQ. pose proof (sqrt_pos Q) as QP. set (y := sqrt Q) in *.
  set (rho := 5 / 8 * de + u) in *. assert (0 < rho < 1 / 8) as RB by (unfold rho; lra).
  assert (1 + 3 * u <= (1 + de) * (1 - rho)) as P1 by (unfold rho; nra).
  assert ((1 - de) * (1 + rho) <= 1 - 3 * u) as P2 by (unfold rho; nra).
  assert (t <= u) as TU by nra.
  assert (y <= 2) as Y2 by nra.
  apply Rabs_le. split.
  - enough (1 - de <= sqrt W) by lra. apply sqrt_ge_of; [lra|].
    assert ((1 - de) <= (1 - 3 * u) * y) as A by nra.
    assert (1 / 2 <= y) as Y3 by nra.
    assert ((1 - de) * (1 - de) <= ((1 - 3 * u) * y) * ((1 - 3 * u) * y)) as A2 by (apply Rmult_le_compat; lra).
    assert (0 <= y * y * (3 * u - u * u)) by nra. nra.
  - enough (sqrt W <= 1 + de) by lra. apply sqrt_le_of; [lra|].
    assert ((1 + 3 * u) * y <= 1 + de) as A by nra.
    assert (1 / 2 <= y) as Y3 by nra.
    assert (((1 + 3 * u) * y) * ((1 + 3 * u) * y) <= (1 + de) * (1 + de)) as A2 by (apply Rmult_le_compat; nra). nra.
Qed.

(** ** Dividing by the length *)
Lemma is_zero_value x : f32_is_zero x = true <-> f32_value x = Some 0.
Proof.
  unfold f32_is_zero. split.
  - intros H. unfold f32_value. destruct (f32_to_sf x) as [s|s| |s m e]; try reflexivity; try discriminate. + destruct s; discriminate. + destruct s; discriminate.
  - intros H. destruct (value_cases x 0 H) as [(s & -> & _)|(s & m & e & _ & _ & C & K)]; [reflexivity|]. symmetry in K. apply signed_zero in K. contradiction.
Qed.
Lemma finite_R x : f32_finite x -> f32_value x = Some (f32_R x).
Proof. intros [v V]. unfold f32_R. rewrite V. reflexivity. Qed.

(** The length that is computed. *)
Lemma norm_value_of d c v x nv de : approx d c (squares v) x -> 13 * u <= de <= 1 / 16 -> INR d * u <= de -> (N.of_nat c <= 16777216)%N ->
  f32_value (f32_sqrt x) = Some nv -> p2 (-40) <= nv -> Rabs (nv - sqrt (squares v)) <= (5 / 8 * de + u) * sqrt (squares v).
Proof.
  intros A LB DU CB V B. destruct (sqrt_special x) as (K1 & K2 & K3 & K4). pose proof (nan_value _ _ V) as NN.
  destruct (class_cases x) as [[N _]|[([|] & _ & I)|[D VD]]].
  - rewrite (K1 N) in NN. discriminate.
  - rewrite (K2 I) in NN. discriminate.
  - rewrite (K3 I) in V. apply inf_sf in I. unfold f32_value in V. rewrite I in V. discriminate.
  - destruct (sum_bounds d c v x D de A LB DU CB VD) as (t & T & D0 & B1 & B2). destruct (sqrt_rounds x D VD D0) as [R _].
    pose proof (rounds_error _ _ _ R V) as E. pose proof u_bounds as U. pose proof eta_pos as EP. pose proof (sqrt_pos D) as SP.
    assert (p2 (-126) <= sqrt D) as SB.
    { pose proof (Rle_trans _ _ _ E (rounding_error_sum _)) as E2. rewrite (Rabs_right (sqrt D)) in E2 by lra. apply abs_bounds in E2.
      assert (eta <= p2 (-126)) by (apply p2_le; lia). assert (p2 (-40) = p2 86 * p2 (-126)) as P by (rewrite <- p2_add; reflexivity).
      assert (p2 2 <= p2 86) as P4 by (apply p2_le; lia). assert (p2 2 = 4) as P5 by (rewrite p2_pow by lia; reflexivity). pose proof (p2_pos (-126)). nra. }
    apply (norm_arith _ D nv _ t (squares_nonneg v) D0 LB T B1 B2); [|exact B].
    eapply Rle_trans; [exact E|]. apply rounding_normal; [exact SB|lra].
Qed.
Lemma norm_value v nv : (lenN v <= 4194304)%N -> f32_value (f32_sqrt (vdot f32_ops v v)) = Some nv -> p2 (-40) <= nv ->
  Rabs (nv - sqrt (squares v)) <= (5 / 8 * length_error (lenN v) + u) * sqrt (squares v).
Proof.
  intros L. destruct (approx_dot v) as (d & DL & A). apply (norm_value_of d _ _ _ _ _ A (length_error_bounds _ L) (dot_depth_error v d DL)).
  unfold lenN in L. lia.
Qed.
Lemma quotient_value x n nv : f32_finite x -> f32_value n = Some nv -> 0 < nv -> Rabs (f32_R x / nv) <= 2 ->
  f32_finite (f32_div x n) /\ Rabs (f32_R x / nv - f32_R (f32_div x n)) <= u * Rabs (f32_R x / nv) + eta.
Proof.
  intros FX VN P B. pose proof (finite_R x FX) as VX. destruct (div_rounds x n _ _ VX VN ltac:(lra)) as [R _].
  destruct (small_value _ _ R ltac:(lra)) as (b & VB & E). split; [exists b; exact VB|].
  replace (f32_R (f32_div x n)) with b by (unfold f32_R; rewrite VB; reflexivity). eapply Rle_trans; [exact E|apply rounding_error_sum].
Qed.
Lemma square_bounds q b : Rabs q <= 2 -> Rabs (q - b) <= u * Rabs q + eta ->
  (1 - u) * (1 - u) * (q * q) - 5 * eta <= b * b <= (1 + u) * (1 + u) * (q * q) + 5 * eta.
Proof.
  intros B E. pose proof u_bounds as U. pose proof eta_pos as EP. assert (eta <= u) as EU by (apply p2_le; lia).
  assert (q * q = Rabs q * Rabs q) as -> by (rewrite <- Rabs_mult, Rabs_right by nra; reflexivity).
  assert (b * b = Rabs b * Rabs b) as -> by (rewrite <- Rabs_mult, Rabs_right by nra; reflexivity).
  assert (Rabs b <= (1 + u) * Rabs q + eta) as H1. { pose proof (Rabs_triang q (b - q)) as T. replace (q + (b - q)) with b in T by ring. rewrite (Rabs_minus_sym b q) in T. lra. }
  assert ((1 - u) * Rabs q - eta <= Rabs b) as H2. { pose proof (Rabs_triang b (q - b)) as T. replace (b + (q - b)) with q in T by ring. lra. }
  pose proof (Rabs_pos q) as Q0. pose proof (Rabs_pos b) as B0. set (a := Rabs q) in *. set (c := Rabs b) in *. clearbody a c. split.
  - destruct (Rle_dec 0 ((1 - u) * a - eta)) as [P|P].
    + assert (((1 - u) * a - eta) * ((1 - u) * a - eta) <= c * c) by (apply Rmult_le_compat; lra). assert ((1 - u) * a * eta <= 2 * eta) by (apply Rmult_le_compat_r; nra). nra.
    + assert (((1 - u) * a) * ((1 - u) * a) <= eta * eta) by (apply Rmult_le_compat; nra). nra.
  - assert (c * c <= ((1 + u) * a + eta) * ((1 + u) * a + eta)) by (apply Rmult_le_compat; lra).
    assert ((1 + u) * a * eta <= 9 / 4 * eta) by (apply Rmult_le_compat_r; nra). nra.
Qed.
Lemma square_in v x : In x v -> f32_R x * f32_R x <= squares v.
Proof.
  induction v as [|y v IH]; [contradiction|]. cbn [map fold_right]. intros [->|H].
  - pose proof (squares_nonneg v). nra.
  - specialize (IH H). nra.
Qed.
Lemma quotients_bounds nv n v : f32_value n = Some nv -> 0 < nv -> Forall f32_finite v -> (forall x, In x v -> Rabs (f32_R x / nv) <= 2) ->
  let w := map (fun x => f32_div x n) v in
  Forall f32_finite w /\
  (1 - u) * (1 - u) * (squares v / (nv * nv)) - INR (length v) * (5 * eta) <= squares w <= (1 + u) * (1 + u) * (squares v / (nv * nv)) + INR (length v) * (5 * eta).
Proof.
  intros VN P F B. cbn zeta. induction F as [|x v FX F IH].
  - split; [constructor|]. cbn. unfold Rdiv. rewrite Rmult_0_l. lra.
  - destruct (IH (fun y H => B y (or_intror H))) as [IF IB]. clear IH. specialize (B x (or_introl eq_refl)).
    destruct (quotient_value x n nv FX VN P B) as [Q1 Q2]. split; [constructor; assumption|]. cbn [map fold_right length]. rewrite S_INR.
    pose proof (square_bounds _ _ B Q2) as SB.
    replace ((f32_R x * f32_R x + squares v) / (nv * nv)) with (f32_R x / nv * (f32_R x / nv) + squares v / (nv * nv)) by (field; lra).
    lra.
Qed.
(** Dividing by the computed length gives a vector of finite numbers whose
    length is one up to the error of the length. *)
Lemma scaled_of v w n nv de : Forall f32_finite v -> (lenN v <= 4194304)%N -> w = map (fun x => f32_div x n) v ->
  f32_value n = Some nv -> powerRZ 2 (-40) <= nv -> 13 * u <= de <= 1 / 16 ->
  Rabs (nv - sqrt (squares v)) <= (5 / 8 * de + u) * sqrt (squares v) ->
  Rabs (nv - length_R (map f32_R v)) <= de * length_R (map f32_R v) /\
  Forall f32_finite w /\
  Rabs (length_R (map f32_R w) - 1) <= de /\
  Forall2 (fun x y => Rabs (nv * f32_R y - f32_R x) <= powerRZ 2 (-24) * Rabs (f32_R x) + powerRZ 2 (-150) * nv) v w.
Proof.
  intros F L EW VN B LB NB. pose proof u_bounds as U. pose proof eta_pos as EP. assert (0 < nv) as P by (pose proof (p2_pos (-40)); lra).
  unfold length_R. rewrite !map_map. pose proof (squares_nonneg v) as S0. pose proof (sqrt_pos (squares v)) as SP.
  pose proof (sqrt_sqrt _ S0) as SS. pose proof NB as NB'. apply abs_bounds in NB'. set (s := sqrt (squares v)) in *.
  assert (s <= 2 * nv) as SN by nra.
  assert (forall x, In x v -> Rabs (f32_R x / nv) <= 2) as QB.
  { intros x HI. pose proof (square_in v x HI) as SI. assert (Rabs (f32_R x) <= s) as AB.
    { apply Rsqr_incr_0; [|apply Rabs_pos|exact SP]. unfold Rsqr. rewrite <- Rabs_mult, Rabs_right by nra. rewrite SS. exact SI. }
    unfold Rdiv. rewrite Rabs_mult, (Rabs_right (/ nv)) by (pose proof (Rinv_0_lt_compat nv P); lra).
    apply Rmult_le_reg_r with nv; [exact P|]. rewrite Rmult_assoc, Rinv_l by lra. lra. }
  destruct (quotients_bounds nv n v VN P F QB) as [FW SB]. rewrite <- EW in FW, SB.
  split; [|split; [exact FW|split]].
  - eapply Rle_trans; [exact NB|]. apply Rmult_le_compat_r; [exact SP|lra].
  - apply (unit_arith (squares w) (squares v / (nv * nv)) de (INR (length v) * (5 * eta))).
    + apply squares_nonneg.
    + apply Rmult_le_pos; [exact S0|]. apply Rlt_le, Rinv_0_lt_compat. nra.
    + exact LB.
    + split; [pose proof (pos_INR (length v)); nra|]. assert (INR (length v) <= p2 22) as NL.
      { rewrite p2_pow by lia. rewrite INR_IZR_INZ. apply IZR_le. unfold lenN in L. change (2 ^ 22)%Z with 4194304%Z. lia. }
      assert (u * u = p2 102 * eta) as -> by (rewrite <- !p2_add; reflexivity). assert (p2 102 = p2 22 * p2 80) as -> by (rewrite <- p2_add; reflexivity).
      assert (p2 3 <= p2 80) as P8 by (apply p2_le; lia). assert (p2 3 = 8) as P3 by (rewrite p2_pow by lia; reflexivity). pose proof (p2_pos 22).
      rewrite <- Rmult_assoc. apply Rmult_le_compat_r; [lra|]. nra.
    + assert (sqrt (squares v / (nv * nv)) = s / nv) as ->.
      { rewrite sqrt_div_alt by nra. rewrite sqrt_square by lra. reflexivity. }
      split; (apply Rmult_le_reg_r with nv; [exact P|]); unfold Rdiv; rewrite Rmult_assoc, (Rmult_assoc s), Rinv_l by lra; nra.
    + exact SB.
  - rewrite EW. clear - F QB VN P EP U. induction F as [|x v FX F IH]; [constructor|]. cbn [map]. constructor; [|apply IH; intros y H; apply QB; right; exact H].
    destruct (quotient_value x n nv FX VN P (QB x (or_introl eq_refl))) as [_ Q].
    replace (nv * f32_R (f32_div x n) - f32_R x) with (- (nv * (f32_R x / nv - f32_R (f32_div x n)))) by (field; lra).
    rewrite Rabs_Ropp, Rabs_mult, (Rabs_right nv) by lra.
    assert (Rabs (f32_R x) = nv * Rabs (f32_R x / nv)) as ->. { unfold Rdiv. rewrite Rabs_mult, (Rabs_right (/ nv)) by (pose proof (Rinv_0_lt_compat nv P); lra). field. lra. }
    nra.
Qed.
Lemma scaled_f32 v w n nv : Forall f32_finite v -> (lenN v <= 4194304)%N -> scaled_by_length f32_ops v w n ->
  f32_value n = Some nv -> powerRZ 2 (-40) <= nv ->
  Rabs (nv - length_R (map f32_R v)) <= length_error (lenN v) * length_R (map f32_R v) /\
  Forall f32_finite w /\
  Rabs (length_R (map f32_R w) - 1) <= length_error (lenN v) /\
  Forall2 (fun x y => Rabs (nv * f32_R y - f32_R x) <= powerRZ 2 (-24) * Rabs (f32_R x) + powerRZ 2 (-150) * nv) v w.
Proof.
  intros F L (EN & _ & EW) VN B. change (fsqrt f32_ops) with f32_sqrt in EN. pose proof VN as VN'. rewrite EN in VN'. pose proof (norm_value v nv L VN' B) as NB.
  assert (fis_zero f32_ops n = false) as NZ. { destruct (fis_zero f32_ops n) eqn:Z; [|reflexivity]. apply is_zero_value in Z. rewrite Z in VN. injection VN as <-. pose proof (p2_pos (-40)). lra. }
  apply (scaled_of v w n nv (length_error (lenN v)) F L (EW NZ) VN B (length_error_bounds _ L) NB).
Qed.

(** ** Embeddings *)
Lemma unknown_f32 {Md S} (SO : storage_ops f32 S) pf (e : embeddings Md vocab_wrap S f32) cols rows w is :
  emb_made SO pf e cols rows -> (cols <= 4194304)%N -> v_idx wrap_ops pf (em_vocab e) w = Ok (Some (Subwords is)) ->
  Forall (fun i => (i < lenN rows)%N) is ->
  exists rs v n, selects rows is rs /\
  emb_embedding f32_ops wrap_ops SO pf e w = Ok (Some v) /\
  emb_with_norm f32_ops wrap_ops SO pf e w = Ok (Some (v, n)) /\
  forall nv, Forall f32_finite (component_sums f32_ops cols rs) -> f32_value n = Some nv -> powerRZ 2 (-40) <= nv ->
  Forall f32_finite v /\ Rabs (length_R (map f32_R v) - 1) <= length_error cols.
Proof.
  intros M L E B. destruct (unknown_word f32_ops SO pf e cols rows M w is E B) as (rs & v & n & S0 & SC & E1 & E2).
  exists rs, v, n. split; [exact S0|]. split; [exact E1|]. split; [exact E2|]. intros nv F V G.
  assert (lenN (component_sums f32_ops cols rs) = cols) as LC by (unfold component_sums, lenN; rewrite map_length, seq_length; lia).
  rewrite <- LC in L |- *. destruct (scaled_f32 _ _ _ _ F L SC V G) as (_ & FV & U & _). split; assumption.
Qed.
(** Reading text or word2vec files: the rows are unit vectors up to the
    error, and multiplied by the norm they are the numbers in the file. *)
Lemma normalized_f32 {Md} (e : embeddings Md simple_vocab (array2 f32) f32) cols l : normalized_result f32_ops e cols l -> (cols <= 4194304)%N ->
  forall i w v, nthN l i = Some (w, v) -> lenN v = cols -> Forall f32_finite v -> exists r n,
  nthN (a2_rows (em_storage e)) i = Some r /\ (exists ns, em_norms e = Some ns /\ nthN ns i = Some n) /\
  forall nv, f32_value n = Some nv -> powerRZ 2 (-40) <= nv ->
  Forall f32_finite r /\ Rabs (length_R (map f32_R r) - 1) <= length_error cols /\
  Forall2 (fun x y => Rabs (nv * f32_R y - f32_R x) <= powerRZ 2 (-24) * Rabs (f32_R x) + powerRZ 2 (-150) * nv) v r.
Proof.
  intros (_ & _ & _ & _ & ns & EN & _ & H) L i w v HN LV F. destruct (H i w v HN) as (r & n & H1 & H2 & SC).
  exists r, n. split; [exact H1|]. split; [exists ns; auto|]. intros nv V G. rewrite <- LV in L |- *.
  destruct (scaled_f32 _ _ _ _ F L SC V G) as (_ & FV & U & C). auto.
Qed.
