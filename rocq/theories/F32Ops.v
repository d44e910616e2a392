(** * Every operation on [f32] returns the correctly rounded result. *)
From Coq Require Import Reals Lra Floats.SpecFloat.
From Verif Require Import Base BaseFacts F32 SimSpec F32Facts F32RoundSpec F32Round.
Local Open Scope R_scope.

Lemma IZR_pos_lt p : 0 < IZR (Zpos p).
Proof. apply (IZR_lt 0). lia. Qed.
Lemma value_pos m e : 0 < IZR (Zpos m) * p2 e.
Proof. pose proof (IZR_pos_lt m). pose proof (p2_pos e). nra. Qed.

Lemma too_large_0 : ~ too_large 0.
Proof. unfold too_large. rewrite Rabs_R0. pose proof (p2_pos 103). lra. Qed.
Lemma rounds_zero x s : f32_to_sf x = S754_zero s -> rounds_to 0 x.
Proof.
  intros H. split; [lra|]. split; [lra|]. right. split; [apply too_large_0|]. exists 0. unfold f32_value at 1. rewrite H. split; [reflexivity|].
  intros y w _. replace (0 - 0) with 0 by lra. rewrite Rabs_R0. split; [apply Rabs_pos|]. intros _. right. eapply bits_zero. exact H.
Qed.

(** A number rounds to itself. *)
Lemma value_small x a : f32_value x = Some a -> ~ too_large a.
Proof.
  unfold f32_value, too_large. destruct (f32_to_sf x) as [s|s| |s m e] eqn:E; try discriminate; intros H; inv H.
  - rewrite Rabs_R0. pose proof (p2_pos 103). lra.
  - apply f32_canonical in E as [C1 C2]. pose proof (digits_bounds m) as [_ B].
    assert (2 ^ Z.pos (digits2_pos m) <= 2 ^ 24)%Z by (apply Z.pow_le_mono_r; lia). change (2 ^ 24)%Z with 16777216%Z in *.
    assert (IZR (Z.pos m) <= 16777215) by (apply IZR_le; lia). pose proof (p2_le e 104 C2). pose proof (value_pos m e).
    pose proof (p2_pos 103) as P3. assert (p2 104 = 2 * p2 103) as E4 by (rewrite <- p2_succ; reflexivity).
    assert (Rabs ((if s then -1 else 1) * IZR (Z.pos m) * p2 e) = IZR (Z.pos m) * p2 e) as ->.
    { destruct s; [rewrite Rabs_left; lra|rewrite Rabs_right; lra]. }
    pose proof (IZR_pos_lt m). pose proof (p2_pos e). nra.
Qed.
Lemma value_sign x a : f32_value x = Some a -> (0 < a -> f32_negative x = false) /\ (a < 0 -> f32_negative x = true).
Proof.
  intros H. assert (f32_is_nan x = false) as NN. { unfold f32_is_nan. unfold f32_value in H. destruct (f32_to_sf x); try reflexivity. discriminate. }
  rewrite (negative_sign x NN). unfold f32_value in H. destruct (f32_to_sf x) as [s|s| |s m e] eqn:E; try discriminate; inv H; cbn [sf_sign].
  - split; lra.
  - pose proof (value_pos m e). destruct s; split; intros K; try reflexivity; lra.
Qed.
Lemma rounds_self x a : f32_value x = Some a -> rounds_to a x.
Proof.
  intros H. pose proof (value_sign x a H) as [S1 S2]. split; [exact S1|]. split; [exact S2|]. right. split; [eapply value_small; eauto|]. exists a. split; [exact H|].
  intros y w _. replace (a - a) with 0 by lra. rewrite Rabs_R0. split; [apply Rabs_pos|].
  intros EQ. left. symmetry in EQ. destruct (Req_dec (a - w) 0) as [Z|Z]; [lra|]. apply Rabs_no_R0 in Z. contradiction.
Qed.

(** ** Multiplication *)
Lemma mul_finite sx mx ex sy my ey : canonical mx ex -> canonical my ey ->
  rounded (xorb sx sy) (IZR (Zpos mx) * p2 ex * (IZR (Zpos my) * p2 ey)) (SFmul prec emax (S754_finite sx mx ex) (S754_finite sy my ey)).
Proof.
  intros [C1 C2] [C3 C4]. cbn [SFmul].
  assert (IZR (Zpos mx) * p2 ex * (IZR (Zpos my) * p2 ey) = IZR (Zpos (mx * my)) * p2 (ex + ey)) as EQ.
  { rewrite Pos2Z.inj_mul, mult_IZR, p2_add. lra. }
  rewrite EQ. apply round_aux; [lia|reflexivity| |apply value_pos].
  destruct (Z_le_gt_dec (ex + ey) (-149)) as [L|L]; [auto|right].
  rewrite Z.add_comm, p2_add. apply Rmult_le_compat_r; [pose proof (p2_pos (ex + ey)); lra|].
  pose proof (digits_bounds mx) as [B1 _]. pose proof (digits_bounds my) as [B2 _].
  rewrite p2_pow by lia. apply IZR_le. rewrite Pos2Z.inj_mul.
  destruct (Z_le_gt_dec 24 (Z.pos (digits2_pos mx))) as [L1|L1].
  - assert (2 ^ 23 <= 2 ^ (Z.pos (digits2_pos mx) - 1))%Z by (apply Z.pow_le_mono_r; lia). nia.
  - assert (24 <= Z.pos (digits2_pos my))%Z as L2 by lia.
    assert (2 ^ 23 <= 2 ^ (Z.pos (digits2_pos my) - 1))%Z by (apply Z.pow_le_mono_r; lia). nia.
Qed.

Lemma value_cases x a : f32_value x = Some a ->
  (exists s, f32_to_sf x = S754_zero s /\ f32_negative x = s /\ a = 0) \/
  (exists s m e, f32_to_sf x = S754_finite s m e /\ f32_negative x = s /\ canonical m e /\ a = signed s (IZR (Zpos m) * p2 e)).
Proof.
  intros H. assert (f32_is_nan x = false) as NN. { unfold f32_is_nan. unfold f32_value in H. destruct (f32_to_sf x); try reflexivity. discriminate. }
  pose proof (negative_sign x NN) as SG. unfold f32_value in H. destruct (f32_to_sf x) as [s|s| |s m e] eqn:E; try discriminate; inv H.
  - left. eauto.
  - right. exists s, m, e. split; [reflexivity|]. split; [exact SG|]. split; [eapply f32_canonical; exact E|]. destruct s; cbn [signed]; lra.
Qed.
Lemma zero_back s : f32_to_sf (sf_to_f32 (S754_zero s)) = S754_zero s.
Proof. destruct s; vm_compute; reflexivity. Qed.
Lemma inf_back s : f32_to_sf (sf_to_f32 (S754_infinity s)) = S754_infinity s.
Proof. destruct s; vm_compute; reflexivity. Qed.
Lemma nan_back : f32_to_sf (sf_to_f32 S754_nan) = S754_nan.
Proof. vm_compute. reflexivity. Qed.
Lemma negative_zero s : f32_negative (sf_to_f32 (S754_zero s)) = s.
Proof. destruct s; vm_compute; reflexivity. Qed.
Lemma rounded_sign s x sf : 0 < x -> rounded s x sf -> f32_negative (sf_to_f32 sf) = s.
Proof.
  intros X H. destruct (rounded_f32 s x sf X H) as [_ (R1 & R2 & _)]. destruct s; cbn [signed] in *; [apply R2; lra|apply R1; lra].
Qed.

Lemma mul_rounds x y a b : f32_value x = Some a -> f32_value y = Some b ->
  rounds_to (a * b) (f32_mul x y) /\ f32_negative (f32_mul x y) = xorb (f32_negative x) (f32_negative y).
Proof.
  intros HX HY. unfold f32_mul, f32_op2.
  destruct (value_cases x a HX) as [(s & -> & -> & ->)|(s & m & e & -> & -> & C & ->)];
  destruct (value_cases y b HY) as [(s' & -> & -> & ->)|(s' & m' & e' & -> & -> & C' & ->)]; cbn [SFmul].
  1-3: rewrite ?Rmult_0_l, ?Rmult_0_r; split; [eapply rounds_zero, zero_back|apply negative_zero].
  pose proof (mul_finite s m e s' m' e' C C') as R. pose proof (value_pos m e). pose proof (value_pos m' e').
  assert (0 < IZR (Z.pos m) * p2 e * (IZR (Z.pos m') * p2 e')) as P by nra.
  split; [|eapply rounded_sign; [exact P|exact R]].
  destruct (rounded_f32 _ _ _ P R) as [_ RT]. cbn [SFmul] in RT.
  replace (signed s (IZR (Z.pos m) * p2 e) * signed s' (IZR (Z.pos m') * p2 e')) with (signed (xorb s s') (IZR (Z.pos m) * p2 e * (IZR (Z.pos m') * p2 e'))); [exact RT|].
  destruct s, s'; cbn [signed xorb]; lra.
Qed.

(** ** Addition *)
Lemma align mx ex ez : (ez <= ex)%Z -> IZR (Zpos (fst (shl_align mx ex ez))) * p2 ez = IZR (Zpos mx) * p2 ex.
Proof.
  intros L. unfold shl_align. destruct (ez - ex)%Z as [|d|d] eqn:D; [|lia|]; cbn [fst].
  - do 2 f_equal. lia.
  - rewrite shift_pos_correct. change (Z.pow_pos 2 d) with (2 ^ Z.pos d)%Z. rewrite (p2_shift (Zpos mx) ex ez L). f_equal. f_equal. rewrite Z.mul_comm. do 2 f_equal. lia.
Qed.
Lemma round_finite s m e : rounded s (IZR (Zpos m) * p2 e) (binary_round prec emax s m e).
Proof.
  unfold binary_round. set (F := fexp prec emax (Z.pos (digits2_pos m) + e)).
  assert (F = Z.max (Z.pos (digits2_pos m) + e - 24) (-149)) as HF by reflexivity.
  assert (exists mz ez, shl_align m e F = (mz, ez) /\ (ez <= F)%Z /\ IZR (Zpos mz) * p2 ez = IZR (Zpos m) * p2 e) as (mz & ez & -> & LE & V).
  { destruct (Z_le_gt_dec F e) as [L|L].
    - exists (fst (shl_align m e F)), F. split; [|split; [lia|apply align; exact L]].
      unfold shl_align. destruct (F - e)%Z eqn:D; [|lia|reflexivity]. f_equal. lia.
    - exists m, e. split; [|split; [lia|reflexivity]]. unfold shl_align. destruct (F - e)%Z eqn:D; [lia|reflexivity|lia]. }
  apply round_aux; [lia|symmetry; exact V| |apply value_pos].
  destruct (Z_le_gt_dec ez (-149)) as [L|L]; [auto|right].
  apply Rle_trans with (p2 (Z.pos (digits2_pos m) - 1 + e)); [apply p2_le; lia|].
  pose proof (digits_real m) as [D1 _]. rewrite p2_add. apply Rmult_le_compat_r; [pose proof (p2_pos e); lra|exact D1].
Qed.
Lemma normalize_rounds z e sz :
  rounds_to (IZR z * p2 e) (sf_to_f32 (binary_normalize prec emax z e sz)) /\ (z = 0%Z -> f32_negative (sf_to_f32 (binary_normalize prec emax z e sz)) = sz).
Proof.
  destruct z as [|m|m]; cbn [binary_normalize].
  - rewrite Rmult_0_l. split; [eapply rounds_zero, zero_back|]. intros _. apply negative_zero.
  - split; [|discriminate]. apply (rounded_f32 false _ _ (value_pos m e) (round_finite false m e)).
  - split; [|discriminate]. change (Z.neg m) with (- Z.pos m)%Z. rewrite opp_IZR, Ropp_mult_distr_l_reverse.
    apply (rounded_f32 true _ _ (value_pos m e) (round_finite true m e)).
Qed.
Lemma cond_opp s m e ez : (ez <= e)%Z -> IZR (cond_Zopp s (Z.pos (fst (shl_align m e ez)))) * p2 ez = signed s (IZR (Zpos m) * p2 e).
Proof.
  intros L. rewrite <- (align m e ez L). destruct s; cbn [cond_Zopp signed]; [|reflexivity]. change (Z.neg (fst (shl_align m e ez))) with (- Z.pos (fst (shl_align m e ez)))%Z. rewrite opp_IZR. lra.
Qed.
Lemma signed_zero s m e : signed s (IZR (Zpos m) * p2 e) <> 0.
Proof. pose proof (value_pos m e). destruct s; cbn [signed]; lra. Qed.

Lemma nan_value x a : f32_value x = Some a -> f32_is_nan x = false.
Proof. unfold f32_is_nan, f32_value. destruct (f32_to_sf x); try reflexivity. discriminate. Qed.
Lemma back_value x a s m e : f32_value x = Some a -> f32_to_sf x = S754_finite s m e -> sf_to_f32 (S754_finite s m e) = x.
Proof. intros H <-. apply sf_to_f32_to. eapply nan_value; eauto. Qed.

Lemma add_rounds x y a b : f32_value x = Some a -> f32_value y = Some b ->
  rounds_to (a + b) (f32_add x y) /\ (a + b = 0 -> f32_negative (f32_add x y) = f32_negative x && f32_negative y).
Proof.
  intros HX HY. unfold f32_add, f32_op2.
  destruct (value_cases x a HX) as [(s & EX & SX & ->)|(s & m & e & EX & SX & C & ->)];
  destruct (value_cases y b HY) as [(s' & EY & SY & ->)|(s' & m' & e' & EY & SY & C' & ->)]; rewrite EX, EY, SX, SY; cbn [SFadd].
  - rewrite Rplus_0_l. destruct s, s'; cbn [Bool.eqb andb]; split; try (eapply rounds_zero, zero_back); intros _; apply negative_zero.
  - rewrite Rplus_0_l, (back_value y _ s' m' e' HY EY). split; [apply rounds_self; exact HY|]. intros K. apply signed_zero in K. contradiction.
  - rewrite Rplus_0_r, (back_value x _ s m e HX EX). split; [apply rounds_self; exact HX|]. intros K. apply signed_zero in K. contradiction.
  - set (ez := Z.min e e'). set (z := (cond_Zopp s (Z.pos (fst (shl_align m e ez))) + cond_Zopp s' (Z.pos (fst (shl_align m' e' ez))))%Z).
    assert (IZR z * p2 ez = signed s (IZR (Z.pos m) * p2 e) + signed s' (IZR (Z.pos m') * p2 e')) as V.
    { unfold z. rewrite plus_IZR, Rmult_plus_distr_r, !cond_opp by (unfold ez; lia). reflexivity. }
    destruct (normalize_rounds z ez false) as [N1 N2].  rewrite V in N1. split; [exact N1|]. intros K.
    rewrite N2.
    + pose proof (value_pos m e). pose proof (value_pos m' e'). destruct s, s'; cbn [signed] in K; try reflexivity; lra.
    + rewrite K in V. apply eq_IZR. pose proof (p2_pos ez). nra.
Qed.

Lemma sub_rounds x y a b : f32_value x = Some a -> f32_value y = Some b ->
  rounds_to (a - b) (f32_sub x y) /\ (a - b = 0 -> f32_negative (f32_sub x y) = f32_negative x && negb (f32_negative y)).
Proof.
  intros HX HY. unfold f32_sub, f32_op2.
  destruct (value_cases x a HX) as [(s & EX & SX & ->)|(s & m & e & EX & SX & C & ->)];
  destruct (value_cases y b HY) as [(s' & EY & SY & ->)|(s' & m' & e' & EY & SY & C' & ->)]; rewrite EX, EY, SX, SY; cbn [SFsub].
  - rewrite Rminus_0_r. destruct s, s'; cbn [Bool.eqb andb negb]; split; try (eapply rounds_zero, zero_back); intros _; apply negative_zero.
  - assert (f32_value (sf_to_f32 (S754_finite (negb s') m' e')) = Some (0 - signed s' (IZR (Z.pos m') * p2 e'))) as V.
    { unfold f32_value. rewrite f32_to_sf_of by exact C'. f_equal. destruct s'; cbn [negb signed]; lra. }
    split; [apply rounds_self; exact V|]. intros K. assert (signed s' (IZR (Z.pos m') * p2 e') = 0) as K' by lra. apply signed_zero in K'. contradiction.
  - rewrite Rminus_0_r, (back_value x _ s m e HX EX). split; [apply rounds_self; exact HX|]. intros K. apply signed_zero in K. contradiction.
  - set (ez := Z.min e e'). set (z := (cond_Zopp s (Z.pos (fst (shl_align m e ez))) - cond_Zopp s' (Z.pos (fst (shl_align m' e' ez))))%Z).
    assert (IZR z * p2 ez = signed s (IZR (Z.pos m) * p2 e) - signed s' (IZR (Z.pos m') * p2 e')) as V.
    { unfold z. rewrite minus_IZR, Rmult_minus_distr_r, !cond_opp by (unfold ez; lia). reflexivity. }
    destruct (normalize_rounds z ez false) as [N1 N2].  rewrite V in N1. split; [exact N1|]. intros K.
    rewrite N2.
    + pose proof (value_pos m e). pose proof (value_pos m' e'). destruct s, s'; cbn [signed] in K; try reflexivity; lra.
    + rewrite K in V. apply eq_IZR. pose proof (p2_pos ez). nra.
Qed.

(** ** Division *)
Lemma new_location_spec q r m2 e x : (0 < m2)%Z -> (0 <= r < m2)%Z -> x = (IZR q + IZR r / IZR m2) * p2 e -> located q e (new_location m2 r) x.
Proof.
  intros M R ->. pose proof (p2_pos e) as P. assert (0 < IZR m2) as MR by (apply (IZR_lt 0); exact M).
  assert (r = 0%Z -> IZR r / IZR m2 = 0) as F0 by (intros ->; unfold Rdiv; apply Rmult_0_l).
  assert ((0 < r)%Z -> 0 < IZR r / IZR m2 < 1) as F1.
  { intros K. assert (0 < IZR r) by (apply (IZR_lt 0); exact K). assert (IZR r < IZR m2) by (apply IZR_lt; lia). split.
    - apply Rdiv_lt_0_compat; assumption.
    - apply (Rmult_lt_reg_r (IZR m2)); [exact MR|]. unfold Rdiv. rewrite Rmult_assoc, Rinv_l; lra. }
  assert (forall c, (2 * r ?= m2)%Z = c -> match c with Lt => IZR r / IZR m2 < /2 | Eq => IZR r / IZR m2 = /2 | Gt => /2 < IZR r / IZR m2 end) as F2.
  { intros c <-. assert (IZR r = IZR r / IZR m2 * IZR m2) as RR by (unfold Rdiv; rewrite Rmult_assoc, Rinv_l; lra).
    set (f := IZR r / IZR m2) in *. destruct (Z.compare_spec (2 * r) m2) as [Q|Q|Q].
    - apply (f_equal IZR) in Q. rewrite mult_IZR in Q. nra.
    - apply IZR_lt in Q. rewrite mult_IZR in Q. nra.
    - apply IZR_lt in Q. rewrite mult_IZR in Q. nra. }
  set (f := IZR r / IZR m2) in *.
  unfold new_location. destruct (Z.even m2) eqn:EV; unfold new_location_even, new_location_odd.
  - destruct (Zeq_bool r 0) eqn:E0; [apply Zeq_bool_eq in E0|apply Zeq_bool_neq in E0]; cbn [located].
    + rewrite F0 by exact E0. lra.
    + specialize (F1 ltac:(lia)). specialize (F2 _ eq_refl). destruct (2 * r ?= m2)%Z; nra.
  - destruct (Zeq_bool r 0) eqn:E0; [apply Zeq_bool_eq in E0|apply Zeq_bool_neq in E0]; cbn [located].
    + rewrite F0 by exact E0. lra.
    + specialize (F1 ltac:(lia)). assert (2 * r <> m2)%Z as ND. { intros <-. rewrite Z.even_mul in EV. discriminate. }
      destruct (Z.compare_spec (2 * r + 1) m2) as [Q|Q|Q].
      * specialize (F2 Lt ltac:(apply Z.compare_lt_iff; lia)). cbn in F2. nra.
      * specialize (F2 Lt ltac:(apply Z.compare_lt_iff; lia)). cbn in F2. nra.
      * specialize (F2 Gt ltac:(apply Z.compare_gt_iff; lia)). cbn in F2. nra.
Qed.

Lemma shiftl_match m s : (0 <= s)%Z -> match s with Zpos _ => Z.shiftl m s | Z0 => m | Zneg _ => Z0 end = (m * 2 ^ s)%Z.
Proof. intros H. destruct s as [|p|p]; [lia| |lia]. apply Z.shiftl_mul_pow2. exact H. Qed.

Lemma div_finite sx mx ex sy my ey :
  rounded (xorb sx sy) (IZR (Zpos mx) * p2 ex / (IZR (Zpos my) * p2 ey)) (SFdiv prec emax (S754_finite sx mx ex) (S754_finite sy my ey)).
Proof.
  cbn [SFdiv]. unfold SFdiv_core_binary. cbn [Zdigits2].
  set (D := (Z.pos (digits2_pos mx) + ex - (Z.pos (digits2_pos my) + ey))%Z).
  set (F := fexp prec emax D). assert (F = Z.max (D - 24) (-149)) as HF by reflexivity.
  set (e' := Z.min F (ex - ey)). rewrite shiftl_match by (unfold e'; lia).
  set (m' := (Z.pos mx * 2 ^ (ex - ey - e'))%Z).
  pose proof (Z_div_mod m' (Z.pos my) ltac:(lia)) as DM. destruct (Z.div_eucl m' (Z.pos my)) as [q r]. destruct DM as [DM RB].
  pose proof (IZR_pos_lt mx) as PX. pose proof (IZR_pos_lt my) as PY. pose proof (p2_pos ex) as QX. pose proof (p2_pos ey) as QY. pose proof (p2_pos e') as QE.
  assert (0 < m')%Z as PM. { unfold m'. pose proof (Z.pow_pos_nonneg 2 (ex - ey - e') ltac:(lia) ltac:(unfold e'; lia)). lia. }
  set (x := IZR (Z.pos mx) * p2 ex / (IZR (Z.pos my) * p2 ey)).
  assert (x = (IZR q + IZR r / IZR (Z.pos my)) * p2 e') as XV.
  { assert (IZR m' * p2 e' = IZR (Z.pos mx) * p2 (ex - ey)) as V.
    { unfold m'. rewrite <- p2_shift by (unfold e'; lia). reflexivity. }
    assert (p2 ex = p2 (ex - ey) * p2 ey) as EE by (rewrite <- p2_add; f_equal; lia).
    unfold x. rewrite EE.
    replace (IZR (Z.pos mx) * (p2 (ex - ey) * p2 ey) / (IZR (Z.pos my) * p2 ey)) with (IZR (Z.pos mx) * p2 (ex - ey) / IZR (Z.pos my)) by (field; lra).
    rewrite <- V, DM, plus_IZR, mult_IZR. field. lra. }
  assert (0 < x) as XP by (apply Rdiv_lt_0_compat; apply value_pos).
  apply round_aux; [|apply new_location_spec; [lia|exact RB|exact XV]| |exact XP].
  { destruct (Z_le_gt_dec 0 q) as [L|L]; [exact L|]. nia. }
  destruct (Z_le_gt_dec e' (-149)) as [L|L]; [auto|right].
  apply Rle_trans with (p2 (D - 1)); [apply p2_le; unfold e' in *; lia|].
  pose proof (digits_real mx) as [D1 _]. pose proof (digits_real my) as [_ D2]. set (dx := Z.pos (digits2_pos mx)) in *. set (dy := Z.pos (digits2_pos my)) in *.
  apply (Rmult_le_reg_r (IZR (Z.pos my) * p2 ey)); [nra|]. unfold x, Rdiv. rewrite (Rmult_assoc _ (/ _)), Rinv_l, Rmult_1_r by nra.
  apply Rle_trans with (p2 (D - 1) * (p2 dy * p2 ey)).
  - apply Rmult_le_compat_l; [left; apply p2_pos|]. apply Rmult_le_compat_r; lra.
  - rewrite <- !p2_add. replace (D - 1 + (dy + ey))%Z with (dx - 1 + ex)%Z by (unfold D; lia). rewrite p2_add. apply Rmult_le_compat_r; lra.
Qed.

Lemma div_rounds x y a b : f32_value x = Some a -> f32_value y = Some b -> b <> 0 ->
  rounds_to (a / b) (f32_div x y) /\ f32_negative (f32_div x y) = xorb (f32_negative x) (f32_negative y).
Proof.
  intros HX HY B. unfold f32_div, f32_op2.
  destruct (value_cases y b HY) as [(s' & -> & -> & ->)|(s' & m' & e' & -> & -> & C' & ->)]; [lra|].
  destruct (value_cases x a HX) as [(s & -> & -> & ->)|(s & m & e & -> & -> & C & ->)].
  - cbn [SFdiv]. unfold Rdiv. rewrite Rmult_0_l; split; [eapply rounds_zero, zero_back|apply negative_zero].
  - pose proof (div_finite s m e s' m' e') as R. pose proof (value_pos m e). pose proof (value_pos m' e').
    assert (0 < IZR (Z.pos m) * p2 e / (IZR (Z.pos m') * p2 e')) as P by (apply Rdiv_lt_0_compat; assumption).
    split; [|eapply rounded_sign; [exact P|exact R]].
    destruct (rounded_f32 _ _ _ P R) as [_ RT].
    replace (signed s (IZR (Z.pos m) * p2 e) / signed s' (IZR (Z.pos m') * p2 e')) with (signed (xorb s s') (IZR (Z.pos m) * p2 e / (IZR (Z.pos m') * p2 e'))); [exact RT|].
    generalize dependent (IZR (Z.pos m) * p2 e). generalize dependent (IZR (Z.pos m') * p2 e'). intros. destruct s, s'; cbn [signed xorb]; field; lra.
Qed.

(** ** Square root *)
Lemma sqrt_finite m e : rounded false (sqrt (IZR (Zpos m) * p2 e)) (SFsqrt prec emax (S754_finite false m e)).
Proof.
  cbn [SFsqrt]. unfold SFsqrt_core_binary. cbn [Zdigits2].
  set (D := Z.div2 (Z.pos (digits2_pos m) + e + 1)).
  set (F := fexp prec emax D). assert (F = Z.max (D - 24) (-149)) as HF by reflexivity.
  set (e' := Z.min F (Z.div2 e)).
  assert (forall z, 2 * Z.div2 z <= z)%Z as DV by (intros z; pose proof (Zdiv2_odd_eqn z) as Q; destruct (Z.odd z); lia).
  pose proof (DV e) as DE. pose proof (DV (Z.pos (digits2_pos m) + e + 1)%Z) as DD. fold D in DD.
  assert (0 <= e - 2 * e')%Z as S0 by (unfold e'; lia).
  change (match (e - 2 * e')%Z with 0%Z => Z.pos m | Z.pos _ => Z.shiftl (Z.pos m) (e - 2 * e') | Z.neg _ => 0%Z end) with
    (match (e - 2 * e')%Z with Zpos _ => Z.shiftl (Z.pos m) (e - 2 * e') | Z0 => Z.pos m | Zneg _ => Z0 end).
  rewrite shiftl_match by exact S0.
  set (m' := (Z.pos m * 2 ^ (e - 2 * e'))%Z).
  pose proof (Z.pow_pos_nonneg 2 (e - 2 * e') ltac:(lia) S0) as PP.
  pose proof (Z.sqrtrem_spec m' ltac:(unfold m'; lia)) as SS. destruct (Z.sqrtrem m') as [q r]. destruct SS as [SM SR].
  set (x := sqrt (IZR (Z.pos m) * p2 e)). pose proof (value_pos m e) as PV. pose proof (p2_pos e') as QE.
  assert (0 < x) as XP by (apply sqrt_lt_R0; exact PV).
  assert (x * x = IZR (Z.pos m) * p2 e) as XX by (apply sqrt_sqrt; lra).
  assert (x * x = IZR m' * (p2 e' * p2 e')) as XM.
  { rewrite XX. unfold m'. rewrite <- p2_add, mult_IZR, <- p2_pow by exact S0. rewrite Rmult_assoc, <- p2_add. do 2 f_equal. lia. }
  assert (0 <= q)%Z as Q0 by lia. assert (0 <= IZR q) as QR by (apply (IZR_le 0); exact Q0).
  assert (exists t, 0 < t /\ x = t * p2 e' /\ t * t = IZR m') as (t & T0 & XT & TT).
  { exists (x / p2 e'). split; [apply Rdiv_lt_0_compat; assumption|]. split; [field; lra|].
    apply (Rmult_eq_reg_r (p2 e' * p2 e')); [|nra]. rewrite <- XM. field. lra. }
  assert (located q e' (if Zeq_bool r 0 then loc_Exact else loc_Inexact (if Zle_bool r q then Lt else Gt)) x) as LOC.
  { assert (IZR m' = IZR q * IZR q + IZR r) as MQ by (rewrite SM, plus_IZR, mult_IZR; reflexivity).
    destruct (Zeq_bool r 0) eqn:E0; [apply Zeq_bool_eq in E0|apply Zeq_bool_neq in E0].
    - cbn [located]. rewrite XT. f_equal. rewrite E0, Rplus_0_r in MQ.
      apply Rsqr_inj; [lra|exact QR|]. unfold Rsqr. congruence.
    - assert (0 < IZR r) as R0 by (apply (IZR_lt 0); lia). assert (IZR r <= 2 * IZR q) as R2 by (rewrite <- (mult_IZR 2); apply IZR_le; lia).
      assert (IZR q < t) as LT by (apply Rsqr_incrst_0; unfold Rsqr; nra).
      destruct (Z.leb_spec r q) as [L|L]; cbn [located].
      + apply IZR_le in L. assert (t < IZR q + / 2) by (apply Rsqr_incrst_0; unfold Rsqr; nra). rewrite XT. split; apply Rmult_lt_compat_r; assumption.
      + assert (IZR q + 1 <= IZR r) as L' by (rewrite <- (plus_IZR q 1); apply IZR_le; lia).
        assert (IZR q + / 2 < t) by (apply Rsqr_incrst_0; unfold Rsqr; nra).
        assert (t < IZR q + 1) by (apply Rsqr_incrst_0; unfold Rsqr; nra). rewrite XT. split; apply Rmult_lt_compat_r; assumption. }
  apply round_aux; [exact Q0|exact LOC| |exact XP].
  destruct (Z_le_gt_dec e' (-149)) as [L|L]; [auto|right].
  apply Rle_trans with (p2 (D - 1)); [apply p2_le; unfold e' in *; lia|].
  apply Rsqr_incr_0; [|left; apply p2_pos|lra]. unfold Rsqr. rewrite XX, <- p2_add.
  apply Rle_trans with (p2 (Z.pos (digits2_pos m) - 1 + e)); [apply p2_le; lia|].
  pose proof (digits_real m) as [D1 _]. rewrite p2_add. apply Rmult_le_compat_r; [pose proof (p2_pos e); lra|exact D1].
Qed.

Lemma sqrt_rounds x a : f32_value x = Some a -> 0 <= a -> rounds_to (sqrt a) (f32_sqrt x) /\ (a = 0 -> f32_sqrt x = x).
Proof.
  intros HX A. pose proof (sf_to_f32_to x (nan_value x a HX)) as BK. unfold f32_sqrt, f32_op1.
  destruct (value_cases x a HX) as [(s & E & _ & ->)|(s & m & e & E & _ & C & ->)]; rewrite E in BK |- *.
  - cbn [SFsqrt]. rewrite sqrt_0. split; [eapply rounds_zero, zero_back|]. intros _. exact BK.
  - pose proof (value_pos m e) as P. destruct s; cbn [signed] in *; [lra|]. split; [|lra].
    apply (rounded_f32 false); [apply sqrt_lt_R0; exact P|apply sqrt_finite].
Qed.
