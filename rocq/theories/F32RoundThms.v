(** * Rounding: every real number is rounded to one number, in order and with
    a small error; special values. *)
From Coq Require Import Reals Lra Floats.SpecFloat.
From Verif Require Import Base BaseFacts F32 SimSpec F32Facts F32RoundSpec F32Round F32Ops.
Local Open Scope R_scope.

(** ** Existence *)
Lemma last_place_exists x : 0 < x -> forall k : nat, x < p2 (-125 + Z.of_nat k) -> exists E, last_place E x.
Proof.
  intros X. induction k as [|k IH]; intros H.
  - exists (-149)%Z. split; [lia|]. split; [exact H|auto].
  - destruct (Rlt_dec x (p2 (-125 + Z.of_nat k))) as [L|L]; [auto|].
    exists (-149 + Z.of_nat (S k))%Z. split; [lia|]. split.
    + replace (-149 + Z.of_nat (S k) + 24)%Z with (-125 + Z.of_nat (S k))%Z by lia. exact H.
    + right. replace (-149 + Z.of_nat (S k) + 23)%Z with (-125 + Z.of_nat k)%Z by lia. lra.
Qed.
Lemma located_exists x e : 0 < x -> exists m l, (0 <= m)%Z /\ located m e l x.
Proof.
  intros X. pose proof (p2_pos e) as P. set (t := x / p2 e). assert (x = t * p2 e) as XT by (unfold t; field; lra).
  assert (0 < t) as T by (apply Rdiv_lt_0_compat; assumption).
  destruct (archimed t) as [A1 A2]. set (m := (up t - 1)%Z).
  assert (IZR m <= t < IZR m + 1) as MB by (unfold m; rewrite minus_IZR; lra).
  exists m. assert (0 <= m)%Z as M0. { unfold m. assert (0 < up t)%Z; [|lia]. apply lt_IZR. lra. }
  destruct (total_order_T t (IZR m + /2)) as [[L|L]|L].
  - destruct (Rle_lt_or_eq_dec _ _ (proj1 MB)) as [K|K].
    + exists (loc_Inexact Lt). split; [exact M0|]. cbn [located]. rewrite XT. split; apply Rmult_lt_compat_r; assumption.
    + exists loc_Exact. split; [exact M0|]. cbn [located]. rewrite XT, K. reflexivity.
  - exists (loc_Inexact Eq). split; [exact M0|]. cbn [located]. rewrite XT, L. reflexivity.
  - exists (loc_Inexact Gt). split; [exact M0|]. cbn [located]. rewrite XT. split; apply Rmult_lt_compat_r; lra.
Qed.
Lemma p2_unbounded x : exists k : nat, x < p2 (-125 + Z.of_nat k).
Proof.
  destruct (archimed x) as [A _]. exists (Z.to_nat (125 + Z.max 0 (up x))).
  rewrite Z2Nat.id by lia. replace (-125 + (125 + Z.max 0 (up x)))%Z with (Z.max 0 (up x)) by lia.
  rewrite p2_pow by lia. apply Rlt_le_trans with (IZR (Z.max 0 (up x))).
  - apply Rlt_le_trans with (IZR (up x)); [lra|]. apply IZR_le. lia.
  - apply IZR_le. set (n := Z.max 0 (up x)). assert (0 <= n)%Z as N0 by lia. clearbody n. clear A x.
    pose proof (Z.pow_gt_lin_r 2 n ltac:(lia) N0). lia.
Qed.
Lemma rounded_exists s x : 0 < x -> exists sf, rounded s x sf.
Proof.
  intros X. destruct (p2_unbounded x) as [k K]. destruct (last_place_exists x X k K) as (E & L1 & L2 & L3).
  destruct (located_exists x E X) as (m & l & M0 & L).
  eexists. eapply round_aux; [exact M0|exact L| |exact X]. destruct L3 as [->|L3]; [left; lia|auto].
Qed.
Lemma rounds_exists r : exists x, rounds_to r x.
Proof.
  destruct (total_order_T r 0) as [[L|L]|L].
  - destruct (rounded_exists true (- r) ltac:(lra)) as [sf H]. exists (sf_to_f32 sf). apply rounded_f32 in H as [_ H]; [|lra].
    cbn [signed] in H. rewrite Ropp_involutive in H. exact H.
  - exists f32_zero. subst. apply (rounds_zero f32_zero false). vm_compute. reflexivity.
  - destruct (rounded_exists false r ltac:(lra)) as [sf H]. exists (sf_to_f32 sf). apply rounded_f32 in H as [_ H]; [|lra]. exact H.
Qed.

(** ** Uniqueness *)
Lemma canonical_R m e : canonical m e -> IZR (Zpos m) < p2 24 /\ (e = (-149)%Z \/ p2 23 <= IZR (Zpos m)) /\ (-149 <= e <= 104)%Z.
Proof.
  intros [C1 C2]. pose proof (digits_real m) as [D1 D2]. split.
  - pose proof (p2_le (Z.pos (digits2_pos m)) 24 ltac:(lia)). lra.
  - split; [|lia]. destruct (Z.eq_dec e (-149)) as [|N0]; [auto|right]. pose proof (p2_le 23 (Z.pos (digits2_pos m) - 1) ltac:(lia)). lra.
Qed.
Lemma canonical_lt m e m' e' : canonical m e -> canonical m' e' -> (e < e')%Z -> IZR (Zpos m) * p2 e < IZR (Zpos m') * p2 e'.
Proof.
  intros C C' L. apply canonical_R in C as (C1 & C2 & C3). apply canonical_R in C' as (C1' & C2' & C3').
  destruct C2' as [|C2']; [lia|]. pose proof (p2_pos e). pose proof (p2_pos e').
  apply Rlt_le_trans with (p2 (24 + e)); [rewrite p2_add; apply Rmult_lt_compat_r; lra|].
  apply Rle_trans with (p2 (23 + e')); [apply p2_le; lia|]. rewrite p2_add. apply Rmult_le_compat_r; lra.
Qed.
Lemma canonical_inj m e m' e' : canonical m e -> canonical m' e' -> IZR (Zpos m) * p2 e = IZR (Zpos m') * p2 e' -> m = m' /\ e = e'.
Proof.
  intros C C' V. destruct (Z.lt_trichotomy e e') as [L|[->|L]].
  - pose proof (canonical_lt _ _ _ _ C C' L). lra.
  - split; [|reflexivity]. apply Rmult_eq_reg_r in V; [|pose proof (p2_pos e'); lra]. apply eq_IZR in V. congruence.
  - pose proof (canonical_lt _ _ _ _ C' C L). lra.
Qed.
Lemma sf_inj x y : f32_is_nan x = false -> f32_to_sf x = f32_to_sf y -> x = y.
Proof.
  intros N E. rewrite <- (sf_to_f32_to x N). rewrite <- (sf_to_f32_to y); [congruence|]. unfold f32_is_nan in *. rewrite <- E. exact N.
Qed.
Lemma value_inj x y a : f32_value x = Some a -> f32_value y = Some a -> f32_negative x = f32_negative y -> x = y.
Proof.
  intros HX HY S. apply sf_inj; [eapply nan_value; eauto|].
  destruct (value_cases x a HX) as [(s & E & N & ->)|(s & m & e & E & N & C & ->)];
  destruct (value_cases y _ HY) as [(s' & E' & N' & V)|(s' & m' & e' & E' & N' & C' & V)]; rewrite E, E'.
  - congruence.
  - symmetry in V. apply signed_zero in V. contradiction.
  - apply signed_zero in V. contradiction.
  - assert (s = s') as <- by congruence. assert (IZR (Z.pos m) * p2 e = IZR (Z.pos m') * p2 e') as V' by (destruct s; cbn [signed] in V; lra).
    apply canonical_inj in V' as [-> ->]; auto.
Qed.

Lemma nearest_tie E M x k e : last_place E x -> nearest_at E M x -> (-16777216 < k < 16777216)%Z -> (-149 <= e)%Z ->
  Rabs (x - IZR M * p2 E) = Rabs (x - IZR k * p2 e) -> IZR k * p2 e <> IZR M * p2 E ->
  (E <= e)%Z /\ Z.abs (k * 2 ^ (e - E) - M) = 1%Z.
Proof.
  intros LP NR K HE T NV.
  destruct (Z_le_gt_dec E e) as [L|L].
  - split; [exact L|]. rewrite (p2_shift k e E L) in T, NV. set (j := (k * 2 ^ (e - E))%Z) in *. pose proof (p2_pos E) as PE.
    assert (j <> M) as JM by (intros ->; apply NV; reflexivity).
    destruct NR as [N1 _]. pose proof (Rabs_triang (x - IZR M * p2 E) (- (x - IZR j * p2 E))) as TR. rewrite Rabs_Ropp, <- T in TR.
    replace (x - IZR M * p2 E + - (x - IZR j * p2 E)) with (IZR (j - M) * p2 E) in TR by (rewrite minus_IZR; lra).
    rewrite Rabs_mult, <- abs_IZR, (Rabs_right (p2 E)) in TR by lra.
    assert (IZR (Z.abs (j - M)) <= 1) as B by nra. apply le_IZR in B. lia.
  - exfalso. destruct (nearest_all E M x (2 ^ 23) E LP NR ltac:(lia) ltac:(destruct LP; lia)) as [B _].
    destruct LP as (LP1 & LP2 & LP3). destruct LP3 as [|LP3]; [lia|].
    assert (p2 (E + 23) = IZR (2 ^ 23) * p2 E) as E23 by (rewrite p2_add, (p2_pow 23) by lia; apply Rmult_comm). rewrite <- E23 in B.
    assert (IZR k * p2 e < p2 (E + 23)) as W.
    { assert (IZR k < p2 24) as KB. { rewrite p2_pow by lia. apply IZR_lt. change (2 ^ 24)%Z with 16777216%Z. lia. }
      pose proof (p2_le (e + 24) (E + 23) ltac:(lia)) as PL. rewrite p2_add in PL. pose proof (p2_pos e). nra. }
    rewrite (Rabs_right (x - p2 (E + 23))) in B by lra. rewrite (Rabs_right (x - IZR k * p2 e)) in T by lra. lra.
Qed.

Lemma rounded_unique s x sf y : 0 < x -> rounded s x sf -> rounds_to (signed s x) y -> y = sf_to_f32 sf.
Proof.
  intros X H RY. pose proof (rounded_f32 s x sf X H) as [SF RX]. pose proof (rounded_overflow s x sf H) as OV.
  assert (f32_negative y = s) as NY.
  { destruct RY as (R1 & R2 & _). destruct s; cbn [signed] in *; [apply R2; lra|apply R1; lra]. }
  pose proof (rounded_sign s x sf X H) as NX.
  destruct RX as (_ & _ & RX). destruct RY as (_ & _ & RY).
  destruct RX as [[TL IX]|[TL (v & VX & BX)]].
  - destruct RY as [[_ IY]|[TL' _]]; [|contradiction]. destruct IX as [s1 IX], IY as [s2 IY].
    assert (f32_is_nan y = false) as NN by (unfold f32_is_nan; rewrite IY; reflexivity).
    apply sf_inj; [exact NN|]. rewrite IX, IY. f_equal.
    rewrite negative_sign, IY in NY by exact NN. rewrite negative_sign, IX in NX by (unfold f32_is_nan; rewrite IX; reflexivity). cbn in NX, NY. congruence.
  - destruct RY as [[TL' _]|[_ (w & VY & BY)]]; [contradiction|].
    destruct (Req_dec w v) as [->|NV]; [eapply value_inj; eauto; congruence|]. exfalso.
    pose proof (BX y w VY) as [B1 B2]. pose proof (BY _ v VX) as [B3 B4].
    assert (Rabs (signed s x - v) = Rabs (signed s x - w)) as T by lra.
    destruct (B4 (eq_sym T)) as [|EY]; [congruence|].
    destruct H as (E & M & LP & NR & MB & H).
    assert (v = signed s (IZR M * p2 E)) as VE.
    { destruct H as [[-> EQ]|(m & e & V & EV & C & [[Le EQ]|[_ EQ]])]; unfold f32_value in VX; rewrite SF, EQ in VX; try discriminate; injection VX as <-.
      - destruct s; cbn [signed]; lra.
      - rewrite <- V. destruct s; cbn [signed]; lra. }
    assert (Z.even M = true) as EM.
    { destruct (value_multiple y w VY) as (k & e & -> & KB & EB).
      destruct (nearest_all E M x (if s then - k else k) e LP NR ltac:(destruct s; lia) ltac:(lia)) as [_ A2].
      destruct A2 as [Q|Q]; [| |exact Q].
      - rewrite VE in T. replace (signed s x - signed s (IZR M * p2 E)) with (signed s (x - IZR M * p2 E)) in T by (destruct s; cbn [signed]; lra).
        replace (signed s x - IZR k * p2 e) with (signed s (x - IZR (if s then - k else k) * p2 e)) in T by (destruct s; cbn [signed]; rewrite ?opp_IZR; lra).
        rewrite !signed_abs in T. exact T.
      - exfalso. apply NV. rewrite VE, <- Q. destruct s; cbn [signed]; rewrite ?opp_IZR; lra. }
    (* [y] is an odd multiple of the unit in the last place *)
    destruct (value_cases y w VY) as [(s' & EY' & NY' & ->)|(s' & m & e & EY' & NY' & C & ->)].
    + pose proof (nearest_tie E M x 0 E LP NR ltac:(lia) ltac:(destruct LP; lia)) as Q. rewrite Rmult_0_l, !Rminus_0_r in Q.
      rewrite VE in T, NV. rewrite Rminus_0_r in T.
      replace (signed s x - signed s (IZR M * p2 E)) with (signed s (x - IZR M * p2 E)) in T by (destruct s; cbn [signed]; lra).
      rewrite !signed_abs in T. destruct Q as [_ Q]; [exact T| |].
      { intros Z. apply NV. rewrite <- Z. destruct s; cbn [signed]; lra. }
      rewrite Z.mul_0_l in Q. assert (M = 1%Z) as -> by lia. discriminate.
    + assert (s' = s) as -> by congruence. pose proof (canonical_R m e C) as (C1 & _ & C3).
      rewrite (p2_pow 24) in C1 by lia. apply lt_IZR in C1. change (2 ^ 24)%Z with 16777216%Z in C1.
      destruct (nearest_tie E M x (Z.pos m) e LP NR ltac:(lia) ltac:(lia)) as [LE Q].
      * rewrite VE in T. replace (signed s x - signed s (IZR M * p2 E)) with (signed s (x - IZR M * p2 E)) in T by (destruct s; cbn [signed]; lra).
        replace (signed s x - signed s (IZR (Z.pos m) * p2 e)) with (signed s (x - IZR (Z.pos m) * p2 e)) in T by (destruct s; cbn [signed]; lra).
        rewrite !signed_abs in T. exact T.
      * intros Z. apply NV. rewrite VE, Z. reflexivity.
      * assert (Z.even (Z.pos m * 2 ^ (e - E)) = false) as OD.
        { assert (Z.pos m * 2 ^ (e - E) = M + 1 \/ Z.pos m * 2 ^ (e - E) = M - 1)%Z as [->| ->] by lia;
            rewrite ?Z.even_add, ?Z.even_sub, EM; reflexivity. }
        rewrite Z.even_mul in OD. apply orb_false_iff in OD as [OD _].
        rewrite (bits_parity y _ _ _ EY') in EY. congruence.
Qed.
Lemma rounds_unique r x y : r <> 0 -> rounds_to r x -> rounds_to r y -> x = y.
Proof.
  intros R0 RX RY. destruct (total_order_T r 0) as [[L|L]|L]; [| contradiction |].
  - destruct (rounded_exists true (- r) ltac:(lra)) as [sf H].
    replace r with (signed true (- r)) in RX, RY by (cbn [signed]; lra).
    rewrite (rounded_unique true (- r) sf x ltac:(lra) H RX), (rounded_unique true (- r) sf y ltac:(lra) H RY). reflexivity.
  - destruct (rounded_exists false r ltac:(lra)) as [sf H].
    rewrite (rounded_unique false r sf x ltac:(lra) H RX), (rounded_unique false r sf y ltac:(lra) H RY). reflexivity.
Qed.

(** ** Error *)
Lemma rounded_error s x sf : 0 < x -> rounded s x sf -> forall v, f32_value (sf_to_f32 sf) = Some v -> Rabs (signed s x - v) <= rounding_error x.
Proof.
  intros X H v V. pose proof (rounded_f32 s x sf X H) as [SF _]. destruct H as (E & M & (LP1 & LP2 & LP3) & [N1 _] & MB & H).
  assert (v = signed s (IZR M * p2 E)) as VE.
  { destruct H as [[-> EQ]|(m & e & V' & EV & C & [[Le EQ]|[_ EQ]])]; unfold f32_value in V; rewrite SF, EQ in V; inv V.
    - destruct s; cbn [signed]; lra.
    - rewrite <- V'. destruct s; cbn [signed]; lra. }
  rewrite VE. replace (signed s x - signed s (IZR M * p2 E)) with (signed s (x - IZR M * p2 E)) by (destruct s; cbn [signed]; lra).
  rewrite signed_abs. unfold rounding_error. rewrite (Rabs_right x) by lra.
  assert (p2 E / 2 = p2 (E - 1)) as HE. { replace E with (E - 1 + 1)%Z at 1 by lia. rewrite p2_succ. lra. }
  destruct LP3 as [->|LP3].
  - apply Rle_trans with (p2 (-150)); [|apply Rmax_r]. change (-150)%Z with (-149 - 1)%Z. rewrite <- HE. exact N1.
  - apply Rle_trans with (p2 (-24) * x); [|apply Rmax_l]. apply Rle_trans with (p2 (-24) * p2 (E + 23)).
    + rewrite <- p2_add. replace (-24 + (E + 23))%Z with (E - 1)%Z by lia. rewrite <- HE. exact N1.
    + apply Rmult_le_compat_l; [left; apply p2_pos|exact LP3].
Qed.
Lemma rounds_error r x v : rounds_to r x -> f32_value x = Some v -> Rabs (r - v) <= rounding_error r.
Proof.
  intros RX V. destruct (total_order_T r 0) as [[L|L]|L].
  - destruct (rounded_exists true (- r) ltac:(lra)) as [sf H].
    replace r with (signed true (- r)) in RX by (cbn [signed]; lra).
    pose proof (rounded_unique true (- r) sf x ltac:(lra) H RX) as ->. pose proof (rounded_error true (- r) sf ltac:(lra) H v V) as B.
    cbn [signed] in B. rewrite Ropp_involutive in B. unfold rounding_error in *. rewrite Rabs_Ropp in B. exact B.
  - subst r. destruct RX as (_ & _ & [[TL _]|[_ (v' & V' & B)]]); [apply too_large_0 in TL; contradiction|].
    assert (v' = v) as -> by congruence. assert (f32_value f32_zero = Some 0) as Z by (unfold f32_value; vm_compute (f32_to_sf f32_zero); reflexivity).
    destruct (B _ _ Z) as [B' _]. rewrite Rminus_0_r, Rabs_R0 in B'. apply Rle_trans with 0; [exact B'|].
    unfold rounding_error. apply Rle_trans with (p2 (-150)); [left; apply p2_pos|apply Rmax_r].
  - destruct (rounded_exists false r ltac:(lra)) as [sf H].
    pose proof (rounded_unique false r sf x ltac:(lra) H RX) as ->. exact (rounded_error false r sf ltac:(lra) H v V).
Qed.

(** ** Order *)
Lemma value_compare x y a b : f32_value x = Some a -> f32_value y = Some b -> exists c, f32_cmp x y = Some c /\ R_order a b c.
Proof.
  intros HX HY. unfold f32_cmp.
  destruct (value_cases x a HX) as [(s & -> & _ & ->)|(s & m & e & -> & _ & C & ->)];
  destruct (value_cases y b HY) as [(s' & -> & _ & ->)|(s' & m' & e' & -> & _ & C' & ->)]; cbn [SFcompare].
  - eexists. split; reflexivity.
  - eexists. split; [reflexivity|]. pose proof (value_pos m' e'). destruct s'; cbn [R_order signed]; lra.
  - eexists. split; [reflexivity|]. pose proof (value_pos m e). destruct s; cbn [R_order signed]; lra.
  - eexists. split; [reflexivity|]. pose proof (value_pos m e) as P. pose proof (value_pos m' e') as P'.
    assert (R_order (IZR (Z.pos m) * p2 e) (IZR (Z.pos m') * p2 e') (match (e ?= e')%Z with Lt => Lt | Gt => Gt | Eq => Pos.compare_cont Eq m m' end)) as O.
    { destruct (Z.compare_spec e e') as [->|L|L].
      - change (Pos.compare_cont Eq m m') with (m ?= m')%positive. pose proof (p2_pos e') as PE.
        destruct (Pos.compare_spec m m') as [->|K|K]; cbn [R_order]; [reflexivity| |]; apply Rmult_lt_compat_r; try exact PE; apply IZR_lt; lia.
      - cbn [R_order]. apply canonical_lt; assumption.
      - cbn [R_order]. apply canonical_lt; assumption. }
    destruct s, s'; cbn [signed].
    + destruct (e ?= e')%Z; cbn [R_order CompOpp] in *; try lra. destruct (Pos.compare_cont Eq m m'); cbn [R_order CompOpp] in *; lra.
    + cbn [R_order]. lra.
    + cbn [R_order]. lra.
    + exact O.
Qed.
Lemma rounds_0 x : rounds_to 0 x -> f32_value x = Some 0.
Proof.
  intros (_ & _ & [[TL _]|[_ (v & V & B)]]); [apply too_large_0 in TL; contradiction|].
  assert (f32_value f32_zero = Some 0) as Z by (unfold f32_value; vm_compute (f32_to_sf f32_zero); reflexivity).
  destruct (B _ _ Z) as [B' _]. rewrite (Rminus_0_r 0), Rabs_R0 in B'. rewrite V. f_equal.
  apply abs_bounds in B'. lra.
Qed.
Lemma rounds_mono a b x y : a <= b -> rounds_to a x -> rounds_to b y -> exists c, f32_cmp x y = Some c /\ c <> Gt.
Proof.
  intros AB RX RY. destruct (Rle_lt_or_eq_dec _ _ AB) as [L|<-].
  2:{ destruct (Req_dec a 0) as [->|A0].
      { destruct (value_compare x y 0 0) as (c & -> & O); [apply rounds_0; assumption|apply rounds_0; assumption|].
        exists c. split; [reflexivity|]. intros ->. cbn in O. lra. }
      assert (x = y) as <- by (eapply rounds_unique; eauto).
      exists Eq. split; [|discriminate]. destruct RX as (_ & _ & [[_ [s I]]|[_ (v & V & _)]]).
      - unfold f32_cmp. rewrite I. destruct s; reflexivity.
      - destruct (value_compare x x v v V V) as (c & -> & O). destruct c; cbn in O; [reflexivity|lra|lra]. }
  assert (forall z r, rounds_to r z -> f32_infinite z -> too_large r /\ (r < 0 -> f32_to_sf z = S754_infinity true) /\ (0 < r -> f32_to_sf z = S754_infinity false)) as INF.
  { intros z r (R1 & R2 & R3) [s I]. destruct R3 as [[TL _]|[_ (v & V & _)]]; [|unfold f32_value in V; rewrite I in V; discriminate].
    assert (f32_negative z = s) as N by (rewrite negative_sign, I by (unfold f32_is_nan; rewrite I; reflexivity); reflexivity).
    split; [exact TL|]. split; intros K; rewrite I; f_equal; rewrite <- N; auto. }
  pose proof (p2_pos 103) as P3.
  destruct RX as (X1 & X2 & RX). destruct RY as (Y1 & Y2 & RY). 
  destruct RX as [[TX IX]|[TX (v & VX & BX)]], RY as [[TY IY]|[TY (w & VY & BY)]].
  - destruct (INF x a) as (_ & I1 & I2); [split; [|split]; auto|exact IX|]. destruct (INF y b) as (_ & I3 & I4); [split; [|split]; auto|exact IY|].
    unfold f32_cmp. destruct (total_order_T a 0) as [[La|La]|La]; [|subst a; apply too_large_0 in TX; contradiction|].
    + rewrite (I1 La). destruct IY as [s' ->]. destruct s'; eexists; split; try reflexivity; discriminate.
    + rewrite (I2 La), (I4 ltac:(lra)). eexists; split; [reflexivity|discriminate].
  - destruct (INF x a) as (_ & I1 & I2); [split; [|split]; auto|exact IX|].
    destruct (total_order_T a 0) as [[La|La]|La]; [|subst a; apply too_large_0 in TX; contradiction|].
    + unfold f32_cmp. rewrite (I1 La). unfold f32_value in VY. destruct (f32_to_sf y); try discriminate; eexists; split; try reflexivity; discriminate.
    + exfalso. unfold too_large in *. rewrite Rabs_right in * by lra. lra.
  - destruct (INF y b) as (_ & I1 & I2); [split; [|split]; auto|exact IY|].
    destruct (Rlt_dec b 0) as [Lb|Lb].
    + exfalso. unfold too_large in *. rewrite Rabs_left in * by lra. lra.
    + assert (b <> 0) as B0. { intros ->. apply too_large_0 in TY. exact TY. }
      unfold f32_cmp. rewrite (I2 ltac:(lra)). unfold f32_value in VX. destruct (f32_to_sf x); try discriminate; eexists; split; try reflexivity; discriminate.
  - destruct (value_compare x y v w VX VY) as (c & -> & O). exists c. split; [reflexivity|]. intros ->. cbn [R_order] in O.
    destruct (BX y w VY) as [B1 _]. destruct (BY x v VX) as [B2 _].
    unfold Rabs in B1, B2. destruct (Rcase_abs (a - v)), (Rcase_abs (a - w)), (Rcase_abs (b - w)), (Rcase_abs (b - v)); lra.
Qed.

(** ** Special values *)
Lemma class_cases x : f32_is_nan x = true /\ f32_to_sf x = S754_nan \/ (exists s, f32_to_sf x = S754_infinity s /\ f32_inf s x) \/ f32_finite x.
Proof.
  destruct (f32_to_sf x) as [s|s| |s m e] eqn:E.
  - right. right. unfold f32_finite, f32_value. rewrite E. eauto.
  - right. left. exists s. split; [reflexivity|]. split; [exists s; exact E|]. rewrite negative_sign, E by (unfold f32_is_nan; rewrite E; reflexivity). reflexivity.
  - left. unfold f32_is_nan. rewrite E. auto.
  - right. right. unfold f32_finite, f32_value. rewrite E. eauto.
Qed.
Lemma inf_sf s x : f32_inf s x <-> f32_to_sf x = S754_infinity s.
Proof.
  split.
  - intros [[s' E] N]. rewrite negative_sign, E in N by (unfold f32_is_nan; rewrite E; reflexivity). cbn in N. congruence.
  - intros E. split; [exists s; exact E|]. rewrite negative_sign, E by (unfold f32_is_nan; rewrite E; reflexivity). reflexivity.
Qed.
Lemma nan_sf x : f32_is_nan x = true <-> f32_to_sf x = S754_nan.
Proof. unfold f32_is_nan. destruct (f32_to_sf x); split; intros H; try discriminate; reflexivity. Qed.
Lemma inf_made s : f32_inf s (sf_to_f32 (S754_infinity s)).
Proof. apply inf_sf, inf_back. Qed.
Lemma nan_made : f32_is_nan (sf_to_f32 S754_nan) = true.
Proof. apply nan_sf, nan_back. Qed.
Lemma inf_same s x : f32_inf s x -> sf_to_f32 (S754_infinity s) = x.
Proof. intros H. apply inf_sf in H. rewrite <- H. apply sf_to_f32_to. unfold f32_is_nan. rewrite H. reflexivity. Qed.

(** A NaN operand gives NaN. *)
Lemma nan_operand x y : f32_is_nan x = true \/ f32_is_nan y = true ->
  f32_is_nan (f32_add x y) = true /\ f32_is_nan (f32_sub x y) = true /\ f32_is_nan (f32_mul x y) = true /\ f32_is_nan (f32_div x y) = true /\
  f32_cmp x y = None.
Proof.
  rewrite !nan_sf. unfold f32_add, f32_sub, f32_mul, f32_div, f32_op2, f32_cmp. intros [->| ->].
  - repeat split; apply nan_back.
  - destruct (f32_to_sf x); repeat split; apply nan_back.
Qed.
Lemma inf_both s s' x y : f32_inf s x -> f32_inf s' y ->
  (if Bool.eqb s s' then f32_add x y = x else f32_is_nan (f32_add x y) = true) /\
  (if Bool.eqb s s' then f32_is_nan (f32_sub x y) = true else f32_sub x y = x) /\
  f32_inf (xorb s s') (f32_mul x y) /\ f32_is_nan (f32_div x y) = true.
Proof.
  intros HX HY. pose proof (inf_same _ _ HX) as BX. apply inf_sf in HX. apply inf_sf in HY.
  unfold f32_add, f32_sub, f32_mul, f32_div, f32_op2. rewrite HX, HY. cbn [SFadd SFsub SFmul SFdiv].
  split; [destruct s, s'; cbn [Bool.eqb]; try exact BX; apply nan_made|].
  split; [destruct s, s'; cbn [Bool.eqb negb]; try exact BX; apply nan_made|].
  split; [apply inf_made|apply nan_made].
Qed.
Lemma inf_finite s x y b : f32_inf s x -> f32_value y = Some b ->
  f32_add x y = x /\ f32_add y x = x /\ f32_sub x y = x /\ f32_inf (negb s) (f32_sub y x) /\
  (b <> 0 -> f32_inf (xorb s (f32_negative y)) (f32_mul x y) /\ f32_inf (xorb s (f32_negative y)) (f32_mul y x)) /\
  (b = 0 -> f32_is_nan (f32_mul x y) = true /\ f32_is_nan (f32_mul y x) = true) /\
  f32_inf (xorb s (f32_negative y)) (f32_div x y) /\
  (f32_value (f32_div y x) = Some 0 /\ f32_negative (f32_div y x) = xorb (f32_negative y) s).
Proof.
  intros HX HY. pose proof (inf_same _ _ HX) as BX. apply inf_sf in HX.
  unfold f32_add, f32_sub, f32_mul, f32_div, f32_op2. rewrite HX.
  assert (forall t, f32_value (sf_to_f32 (S754_zero t)) = Some 0) as VZ by (intros t; unfold f32_value; rewrite zero_back; reflexivity).
  destruct (value_cases y b HY) as [(s' & EY & SY & ->)|(s' & m & e & EY & SY & C & ->)]; rewrite EY, SY; cbn [SFadd SFsub SFmul SFdiv].
  - split; [exact BX|]. split; [exact BX|]. split; [exact BX|]. split; [apply inf_made|]. split; [intros K; lra|].
    split; [intros _; split; apply nan_made|]. split; [apply inf_made|]. split; [apply VZ|apply negative_zero].
  - split; [exact BX|]. split; [exact BX|]. split; [exact BX|]. split; [apply inf_made|].
    split; [intros _; split; [apply inf_made|]; rewrite xorb_comm; apply inf_made|].
    split; [intros K; apply signed_zero in K; contradiction|]. split; [apply inf_made|]. split; [apply VZ|apply negative_zero].
Qed.
Lemma div_by_zero x y a : f32_value x = Some a -> f32_value y = Some 0 ->
  (a <> 0 -> f32_inf (xorb (f32_negative x) (f32_negative y)) (f32_div x y)) /\ (a = 0 -> f32_is_nan (f32_div x y) = true).
Proof.
  intros HX HY. unfold f32_div, f32_op2.
  destruct (value_cases y 0 HY) as [(s' & -> & -> & _)|(s' & m & e & EY & SY & C & K)]; [|symmetry in K; apply signed_zero in K; contradiction].
  destruct (value_cases x a HX) as [(s & -> & -> & ->)|(s & m & e & -> & -> & C & ->)]; cbn [SFdiv].
  - split; [intros K; lra|]. intros _. apply nan_made.
  - split; [intros _; apply inf_made|]. intros K; apply signed_zero in K; contradiction.
Qed.
Lemma sqrt_special x :
  (f32_is_nan x = true -> f32_is_nan (f32_sqrt x) = true) /\ (f32_inf true x -> f32_is_nan (f32_sqrt x) = true) /\
  (f32_inf false x -> f32_sqrt x = x) /\ (forall a, f32_value x = Some a -> a < 0 -> f32_is_nan (f32_sqrt x) = true).
Proof.
  unfold f32_sqrt, f32_op1. split; [|split; [|split]].
  - intros H. apply nan_sf in H. rewrite H. apply nan_made.
  - intros H. apply inf_sf in H. rewrite H. apply nan_made.
  - intros H. pose proof (inf_same _ _ H) as B. apply inf_sf in H. rewrite H. exact B.
  - intros a H L. destruct (value_cases x a H) as [(s & -> & _ & ->)|(s & m & e & -> & _ & C & ->)]; [lra|].
    pose proof (value_pos m e). destruct s; cbn [signed SFsqrt] in *; [apply nan_made|lra].
Qed.
Lemma cmp_inf x y s : f32_inf s x ->
  (f32_finite y -> f32_cmp x y = Some (if s then Lt else Gt) /\ f32_cmp y x = Some (if s then Gt else Lt)) /\
  (forall s', f32_inf s' y -> f32_cmp x y = Some (match s, s' with true, false => Lt | false, true => Gt | _, _ => Eq end)).
Proof.
  intros H. apply inf_sf in H. unfold f32_cmp. rewrite H. split.
  - intros [b HY]. unfold f32_value in HY. destruct (f32_to_sf y) as [|s'| |]; try discriminate; destruct s; split; reflexivity.
  - intros s' HY. apply inf_sf in HY. rewrite HY. destruct s, s'; reflexivity.
Qed.

(** ** Integers *)
Lemma of_N_rounds n : rounds_to (IZR (Z.of_N n)) (f32_of_N n).
Proof.
  destruct n as [|p]; cbn [f32_of_N Z.of_N].
  - apply (rounds_zero f32_zero false). vm_compute. reflexivity.
  - pose proof (normalize_rounds (Z.pos p) 0 false) as [R _]. cbn [powerRZ] in R. rewrite Rmult_1_r in R. exact R.
Qed.

(** Every number is NaN, infinite or finite, and only one of them. *)
Lemma classes x : (f32_is_nan x = true \/ f32_infinite x \/ f32_finite x) /\
  ~ (f32_is_nan x = true /\ f32_infinite x) /\ ~ (f32_is_nan x = true /\ f32_finite x) /\ ~ (f32_infinite x /\ f32_finite x).
Proof.
  split; [destruct (class_cases x) as [[H _]|[(s & H & _)|H]]; [left; exact H|right; left; exists s; exact H|right; right; exact H]|].
  split; [|split].
  - intros [H [s E]]. apply nan_sf in H. congruence.
  - intros [H [v E]]. apply nan_sf in H. unfold f32_value in E. rewrite H in E. discriminate.
  - intros [[s H] [v E]]. unfold f32_value in E. rewrite H in E. discriminate.
Qed.
