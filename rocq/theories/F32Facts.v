(** * Facts about [f32]: order, representation, multiplication by one. *)
From Coq Require Import Floats.SpecFloat.
From Verif Require Import Base BaseFacts F32 SimSpec.
Local Open Scope Z_scope.

(** ** The order of floats is the lexicographic order of keys *)
Definition sf_key (x : spec_float) : option (Z * Z * Z) :=
  match x with
  | S754_nan => None
  | S754_infinity s => Some (if s then -2 else 2, 0, 0)
  | S754_zero _ => Some (0, 0, 0)
  | S754_finite true m e => Some (-1, - e, Z.neg m)
  | S754_finite false m e => Some (1, e, Z.pos m)
  end.
Definition key_cmp (a b : Z * Z * Z) : comparison :=
  let '(a1, a2, a3) := a in let '(b1, b2, b3) := b in
  match a1 ?= b1 with
  | Eq => match a2 ?= b2 with Eq => a3 ?= b3 | c => c end
  | c => c
  end.

Lemma sf_compare_key x y :
  SFcompare x y = match sf_key x, sf_key y with Some a, Some b => Some (key_cmp a b) | _, _ => None end.
Proof.
  destruct x as [[]|[]| |[] m e], y as [[]|[]| |[] m' e']; cbn [SFcompare sf_key key_cmp]; try reflexivity.
  change (-1 ?= -1) with Eq. cbn iota. rewrite (Z.compare_opp e e'), (Z.compare_antisym e e').
  destruct (e ?= e'); reflexivity.
Qed.

Lemma key_cmp_opp a b : key_cmp b a = CompOpp (key_cmp a b).
Proof.
  destruct a as [[a1 a2] a3], b as [[b1 b2] b3]. cbn [key_cmp].
  rewrite (Z.compare_antisym a1 b1), (Z.compare_antisym a2 b2), (Z.compare_antisym a3 b3).
  destruct (a1 ?= b1), (a2 ?= b2), (a3 ?= b3); reflexivity.
Qed.
Lemma key_cmp_eq a b : key_cmp a b = Eq -> a = b.
Proof.
  destruct a as [[a1 a2] a3], b as [[b1 b2] b3]. cbn [key_cmp].
  destruct (Z.compare_spec a1 b1); try discriminate. destruct (Z.compare_spec a2 b2); try discriminate.
  destruct (Z.compare_spec a3 b3); try discriminate. congruence.
Qed.
Lemma key_cmp_trans a b c : key_cmp a b = Lt -> key_cmp b c = Lt -> key_cmp a c = Lt.
Proof.
  destruct a as [[a1 a2] a3], b as [[b1 b2] b3], c as [[c1 c2] c3]. cbn [key_cmp].
  destruct (Z.compare_spec a1 b1), (Z.compare_spec b1 c1), (Z.compare_spec a1 c1); try discriminate; try reflexivity; try lia;
  destruct (Z.compare_spec a2 b2), (Z.compare_spec b2 c2), (Z.compare_spec a2 c2); try discriminate; try reflexivity; try lia;
  destruct (Z.compare_spec a3 b3), (Z.compare_spec b3 c3), (Z.compare_spec a3 c3); try discriminate; try reflexivity; try lia.
Qed.

Lemma f32_ordered : ordered f32_ops.
Proof.
  constructor; cbn [fcmp f32_ops]; unfold number, f32_cmp; cbn [fcmp f32_ops]; unfold f32_cmp.
  - intros x y Hx Hy. rewrite !sf_compare_key in *.
    destruct (sf_key (f32_to_sf x)) as [a|]; [|tauto]. destruct (sf_key (f32_to_sf y)) as [b|]; [|tauto].
    exists (key_cmp a b). rewrite (key_cmp_opp a b). auto.
  - intros x y z. rewrite !sf_compare_key.
    destruct (sf_key (f32_to_sf x)) as [a|]; [|discriminate]. destruct (sf_key (f32_to_sf y)) as [b|]; [|discriminate].
    destruct (sf_key (f32_to_sf z)) as [c|]; [|discriminate]. intros H1 H2. inv H1. inv H2. f_equal.
    rewrite (key_cmp_trans a b c); congruence.
  - intros x y z. rewrite !sf_compare_key.
    destruct (sf_key (f32_to_sf x)) as [a|]; [|discriminate]. destruct (sf_key (f32_to_sf y)) as [b|]; [|discriminate].
    intros H. inv H. match goal with H : key_cmp _ _ = Eq |- _ => apply key_cmp_eq in H; subst end. reflexivity.
Qed.
Lemma f32_number x : number f32_ops x <-> f32_is_nan x = false.
Proof.
  unfold number, f32_is_nan. cbn [fcmp f32_ops]. unfold f32_cmp. rewrite sf_compare_key.
  destruct (f32_to_sf x) as [[]|[]| |[] m e]; cbn [sf_key]; split; intros H; try reflexivity; try discriminate; try tauto.
Qed.

(** ** Representation *)
Lemma f32_of_bits_bits x : f32_of_bits (f32_bits x) = x.
Proof.
  destruct x as [a b c d]. unfold f32_of_bits, f32_bits. cbn [f32_bytes].
  change 4%nat with (length [a; b; c; d]). rewrite le_bytes_value. reflexivity.
Qed.
Lemma f32_bits_of_bits n : (n < two32)%N -> f32_bits (f32_of_bits n) = n.
Proof.
  intros H. unfold f32_bits, f32_of_bits. rewrite <- (le_u32 n H) at 2. f_equal.
Qed.
Lemma f32_bits_lt x : (f32_bits x < two32)%N.
Proof. unfold f32_bits. pose proof (le_value_lt (f32_bytes x)) as H. destruct x. exact H. Qed.

(** Sign, exponent and fraction. *)
Lemma bits_split n : (n < two32)%N -> exists s e m : N,
  (s <= 1 /\ e < 256 /\ m < 8388608 /\ n = s * 2147483648 + e * 8388608 + m /\
   (2147483648 <=? n) = (s =? 1) /\ (n / 8388608) mod 256 = e /\ n mod 8388608 = m)%N.
Proof.
  intros H. unfold two32 in H.
  pose proof (N.div_mod n 8388608 ltac:(discriminate)) as D. pose proof (N.mod_lt n 8388608 ltac:(discriminate)) as M.
  pose proof (N.div_mod (n / 8388608) 256 ltac:(discriminate)) as D2. pose proof (N.mod_lt (n / 8388608) 256 ltac:(discriminate)) as M2.
  exists (n / 8388608 / 256)%N, ((n / 8388608) mod 256)%N, (n mod 8388608)%N.
  set (q := (n / 8388608)%N) in *. set (m := (n mod 8388608)%N) in *. set (s := (q / 256)%N) in *. set (e := (q mod 256)%N) in *.
  clearbody m. clearbody s e. clearbody q. repeat split; try lia.
Qed.

Lemma sf_to_f32_to x : f32_is_nan x = false -> sf_to_f32 (f32_to_sf x) = x.
Proof.
  unfold f32_is_nan. intros NN. pose proof (bits_split _ (f32_bits_lt x)) as (s & e & m & Hs & He & Hm & Hn & E1 & E2 & E3).
  rewrite <- (f32_of_bits_bits x) at 2. unfold f32_to_sf in *. rewrite E1, E2, E3 in *. rewrite Hn. clear Hn E1 E2 E3.
  unfold sf_to_f32.
  assert ((if (s =? 1)%N then 2147483648 else 0) = s * 2147483648)%N as SB by (destruct (N.eqb_spec s 1); lia).
  destruct (N.eqb_spec e 0) as [->|He0].
  - destruct m as [|p]; f_equal.
    + rewrite SB. lia.
    + destruct (N.ltb_spec (N.pos p) 8388608); [|lia]. rewrite SB. lia.
  - destruct (N.eqb_spec e 255) as [->|He1].
    + destruct (N.eqb_spec m 0) as [Hz|]; [|discriminate]. f_equal. rewrite SB. lia.
    + destruct (m + 8388608)%N as [|p] eqn:Ep; [lia|]. f_equal.
      destruct (N.ltb_spec (N.pos p) 8388608); [lia|]. rewrite SB. lia.
Qed.

Lemma digits2_size p : digits2_pos p = Pos.size p.
Proof. induction p as [p IH|p IH|]; cbn; rewrite ?IH; reflexivity. Qed.
Lemma digits_bounds p : 2 ^ (Z.pos (digits2_pos p) - 1) <= Z.pos p < 2 ^ Z.pos (digits2_pos p).
Proof.
  rewrite digits2_size. split.
  - pose proof (Pos.size_le p) as H. apply Pos2Z.pos_le_pos in H.
    rewrite Pos2Z.inj_pow in H. change (Z.pos p~0) with (2 * Z.pos p) in H. 
    assert (2 ^ Z.pos (Pos.size p) = 2 * 2 ^ (Z.pos (Pos.size p) - 1)) as E.
    { rewrite <- Z.pow_succ_r by lia. f_equal. lia. }
    lia.
  - pose proof (Pos.size_gt p) as H. apply Pos2Z.pos_lt_pos in H. rewrite Pos2Z.inj_pow in H. exact H.
Qed.
Lemma digits_le p k : 0 <= k -> Z.pos p < 2 ^ k -> Z.pos (digits2_pos p) <= k.
Proof.
  intros K H. pose proof (digits_bounds p) as [B _]. destruct (Z_le_gt_dec (Z.pos (digits2_pos p)) k) as [L|L]; [exact L|].
  assert (2 ^ k <= 2 ^ (Z.pos (digits2_pos p) - 1)) by (apply Z.pow_le_mono_r; lia). lia.
Qed.
Lemma digits_ge p k : 0 <= k -> 2 ^ k <= Z.pos p -> k < Z.pos (digits2_pos p).
Proof.
  intros K H. pose proof (digits_bounds p) as [_ B]. destruct (Z_le_gt_dec (Z.pos (digits2_pos p)) k) as [L|L]; [|lia].
  assert (2 ^ Z.pos (digits2_pos p) <= 2 ^ k) by (apply Z.pow_le_mono_r; lia). lia.
Qed.

(** Finite floats are canonical: either 24 digits, or fewer and the least exponent. *)
Definition canonical (m : positive) (e : Z) : Prop :=
  Z.max (Z.pos (digits2_pos m) + e - 24) (-149) = e /\ e <= 104.
Lemma f32_canonical x s m e : f32_to_sf x = S754_finite s m e -> canonical m e.
Proof.
  pose proof (bits_split _ (f32_bits_lt x)) as (s' & e' & m' & Hs & He & Hm & Hn & E1 & E2 & E3).
  unfold f32_to_sf, canonical. rewrite E1, E2, E3. destruct (N.eqb_spec e' 0) as [->|He0].
  - destruct m' as [|p]; [discriminate|]. intros H. inv H.
    assert (Z.pos (digits2_pos m) <= 23) by (apply digits_le; lia). lia.
  - destruct (N.eqb_spec e' 255) as [->|He1]; [destruct (m' =? 0)%N; discriminate|].
    destruct (m' + 8388608)%N as [|p] eqn:Ep; [discriminate|]. intros H. inv H.
    assert (Z.pos (digits2_pos m) <= 24) by (apply digits_le; lia).
    assert (23 < Z.pos (digits2_pos m)) by (apply digits_ge; lia). lia.
Qed.

Lemma f32_to_sf_of s m e : canonical m e -> f32_to_sf (sf_to_f32 (S754_finite s m e)) = S754_finite s m e.
Proof.
  intros [C1 C2]. pose proof (digits_bounds m) as [B1 B2].
  assert (Z.pos m < 2 ^ 24) as B3.
  { eapply Z.lt_le_trans; [exact B2|]. apply Z.pow_le_mono_r; lia. }
  set (n := match s with true => 2147483648 | false => 0 end%N).
  assert (n = (if s then 1 else 0) * 2147483648)%N as Hn by (destruct s; reflexivity).
  unfold sf_to_f32. fold n. destruct (N.ltb_spec (N.pos m) 8388608) as [L|L].
  - assert (e = -149) as ->.
    { assert (Z.pos (digits2_pos m) <= 23) by (apply digits_le; lia). lia. }
    assert (n + N.pos m < two32)%N as LT by (unfold two32; destruct s; lia).
    unfold f32_to_sf. rewrite f32_bits_of_bits by exact LT.
    pose proof (bits_split _ LT) as (s' & e' & m' & Hs & He & Hm & Hd & E1 & E2 & E3). rewrite E1, E2, E3.
    assert (e' = 0 /\ m' = N.pos m /\ s' = if s then 1 else 0)%N as (-> & -> & ->) by (destruct s; lia).
    cbn [N.eqb]. destruct s; reflexivity.
  - assert (23 < Z.pos (digits2_pos m)) as D1 by (apply digits_ge; lia).
    assert (Z.pos (digits2_pos m) <= 24) as D2 by (apply digits_le; lia).
    assert (-149 <= e) as Le by lia.
    assert (n + Z.to_N (e + 150) * 8388608 + (N.pos m - 8388608) < two32)%N as LT by (unfold two32; destruct s; lia).
    unfold f32_to_sf. rewrite f32_bits_of_bits by exact LT.
    pose proof (bits_split _ LT) as (s' & e' & m' & Hs & He & Hm & Hd & E1 & E2 & E3). rewrite E1, E2, E3.
    assert (e' = Z.to_N (e + 150) /\ m' = N.pos m - 8388608 /\ s' = if s then 1 else 0)%N as (-> & -> & ->) by (destruct s; lia).
    destruct (N.eqb_spec (Z.to_N (e + 150)) 0); [lia|]. destruct (N.eqb_spec (Z.to_N (e + 150)) 255); [lia|].
    replace (N.pos m - 8388608 + 8388608)%N with (N.pos m) by lia.
    f_equal; [destruct s; reflexivity|]. rewrite Z2N.id by lia. lia.
Qed.

(** ** Multiplication by one *)
Lemma f32_mul_one x : f32_is_nan x = false -> f32_mul x f32_one = x.
Proof.
  intros NN. unfold f32_mul, f32_op2. rewrite <- (sf_to_f32_to x NN) at 2. f_equal.
  replace (f32_to_sf f32_one) with (S754_finite false 8388608 (-23)) by (vm_compute; reflexivity).
  unfold f32_is_nan in NN. destruct (f32_to_sf x) as [[]|[]| |s m e] eqn:E; try reflexivity.
  apply f32_canonical in E as [C1 C2]. cbn [SFmul]. rewrite xorb_false_r, Pos.mul_comm.
  unfold binary_round_aux, shr_fexp, fexp, SpecFloat.emin, prec, emax.
  change (8388608 * m)%positive with (m~0~0~0~0~0~0~0~0~0~0~0~0~0~0~0~0~0~0~0~0~0~0~0)%positive.
  cbn [Zdigits2 digits2_pos].
  match goal with |- context [shr _ _ ?k] => replace k with 23 by lia end.
  cbn [shr shr_record_of_loc SpecFloat.iter_pos shr_1 orb shr_m loc_of_shr_record round_nearest_even Zdigits2].
    match goal with |- context [shr _ _ ?k] => replace k with 0 by lia end.
  cbn [shr shr_m]. replace (e + -23 + 23) with e by lia.
  destruct (Z.leb_spec e (128 - 24)); [reflexivity|lia].
Qed.
