(** * The operations of [SpecFloat] round correctly. *)
From Coq Require Import Reals Lra Floats.SpecFloat.
From Verif Require Import Base BaseFacts F32 SimSpec F32Facts F32RoundSpec.
Local Open Scope R_scope.

(** ** Powers of two *)
Notation p2 := (powerRZ 2).
Lemma p2_pos e : 0 < p2 e.
Proof. apply powerRZ_lt. lra. Qed.
Lemma p2_add a b : p2 (a + b) = p2 a * p2 b.
Proof. apply powerRZ_add. lra. Qed.
Lemma p2_succ e : p2 (e + 1) = 2 * p2 e.
Proof. rewrite p2_add, powerRZ_1. lra. Qed.
Lemma p2_pow n : (0 <= n)%Z -> p2 n = IZR (2 ^ n).
Proof.
  intros H. rewrite <- (Z2Nat.id n H). generalize (Z.to_nat n) as k. clear. intros k.
  rewrite <- pow_powerRZ. rewrite <- pow_IZR. reflexivity.
Qed.
Lemma p2_ge_1 n : (0 <= n)%Z -> 1 <= p2 n.
Proof. intros H. rewrite p2_pow by exact H. apply IZR_le. pose proof (Z.pow_pos_nonneg 2 n). lia. Qed.
Lemma p2_le a b : (a <= b)%Z -> p2 a <= p2 b.
Proof.
  intros H. replace b with (a + (b - a))%Z by lia. rewrite p2_add.
  pose proof (p2_pos a). pose proof (p2_ge_1 (b - a) ltac:(lia)). nra.
Qed.
Lemma p2_lt a b : (a < b)%Z -> p2 a < p2 b.
Proof. intros H. pose proof (p2_le (a + 1) b ltac:(lia)) as L. rewrite p2_succ in L. pose proof (p2_pos a). lra. Qed.
Lemma p2_lt_inv a b : p2 a < p2 b -> (a < b)%Z.
Proof. intros H. destruct (Z_lt_le_dec a b) as [L|L]; [exact L|]. apply p2_le in L. lra. Qed.
(** A number at a larger exponent is a multiple at a smaller one. *)
Lemma p2_shift m a b : (b <= a)%Z -> IZR m * p2 a = IZR (m * 2 ^ (a - b)) * p2 b.
Proof.
  intros H. rewrite mult_IZR, <- p2_pow by lia. rewrite Rmult_assoc, <- p2_add. do 2 f_equal. lia.
Qed.

Lemma abs_bounds a b : Rabs a <= b -> - b <= a <= b.
Proof. intros H. pose proof (Rle_abs a). pose proof (Rle_abs (- a)) as K. rewrite Rabs_Ropp in K. lra. Qed.

(** ** Locations *)
Definition located (m e : Z) (l : location) (x : R) : Prop :=
  match l with
  | loc_Exact => x = IZR m * p2 e
  | loc_Inexact Lt => IZR m * p2 e < x < (IZR m + /2) * p2 e
  | loc_Inexact Eq => x = (IZR m + /2) * p2 e
  | loc_Inexact Gt => (IZR m + /2) * p2 e < x < (IZR m + 1) * p2 e
  end.
Lemma located_bounds m e l x : located m e l x -> IZR m * p2 e <= x < (IZR m + 1) * p2 e.
Proof. pose proof (p2_pos e). destruct l as [|[]]; cbn [located]; intros H1; nra. Qed.

Lemma located_shr_1 mrs e x : (0 <= shr_m mrs)%Z -> located (shr_m mrs) e (loc_of_shr_record mrs) x ->
  (0 <= shr_m (shr_1 mrs))%Z /\ located (shr_m (shr_1 mrs)) (e + 1) (loc_of_shr_record (shr_1 mrs)) x.
Proof.
  destruct mrs as [m r s]. cbn [shr_m]. intros P L. pose proof (p2_pos e) as Q.
  assert (exists m', exists b : bool, (0 <= m')%Z /\ m = (2 * m' + if b then 1 else 0)%Z /\ shr_1 (Build_shr_record m r s) = Build_shr_record m' b (r || s)) as (m' & b & P' & E & ->).
  { destruct m as [|[p|p|]|]; try lia; cbn [shr_1].
    - exists 0%Z, false. repeat split; lia.
    - exists (Zpos p), true. repeat split; lia.
    - exists (Zpos p), false. repeat split; lia.
    - exists 0%Z, true. repeat split; lia. }
  cbn [shr_m]. split; [exact P'|].
  assert (IZR m = 2 * IZR m' + if b then 1 else 0) as EM.
  { rewrite E, plus_IZR, mult_IZR. destruct b; reflexivity. }
  destruct b, r, s; cbn [orb loc_of_shr_record located] in *; rewrite p2_succ; rewrite EM in L; nra.
Qed.

Lemma iter_pos_steps {A} (f : A -> A) (P : Z -> A -> Prop) (S : forall e a, P e a -> P (e + 1)%Z (f a)) n :
  forall e a, P e a -> P (e + Zpos n)%Z (SpecFloat.iter_pos f n a).
Proof.
  induction n as [n IH|n IH|]; intros e a H; cbn [SpecFloat.iter_pos].
  - replace (e + Z.pos n~1)%Z with (e + 1 + Z.pos n + Z.pos n)%Z by lia. auto.
  - replace (e + Z.pos n~0)%Z with (e + Z.pos n + Z.pos n)%Z by lia. auto.
  - auto.
Qed.

Lemma located_shr mrs e n x : (0 <= shr_m mrs)%Z -> located (shr_m mrs) e (loc_of_shr_record mrs) x ->
  exists mrs', shr mrs e n = (mrs', e + Z.max 0 n)%Z /\ (0 <= shr_m mrs')%Z /\
  located (shr_m mrs') (e + Z.max 0 n) (loc_of_shr_record mrs') x.
Proof.
  intros P L. destruct n as [|n|n]; cbn [shr].
  - exists mrs. replace (e + Z.max 0 0)%Z with e by lia. auto.
  - exists (SpecFloat.iter_pos shr_1 n mrs). replace (Z.max 0 (Z.pos n)) with (Z.pos n) by lia. split; [reflexivity|].
    apply (iter_pos_steps shr_1 (fun e mrs => (0 <= shr_m mrs)%Z /\ located (shr_m mrs) e (loc_of_shr_record mrs) x)); [|auto].
    intros e' a [H1 H2]. apply located_shr_1; auto.
  - exists mrs. replace (e + Z.max 0 (Z.neg n))%Z with e by lia. auto.
Qed.
Lemma loc_of_record m l : shr_m (shr_record_of_loc m l) = m /\ loc_of_shr_record (shr_record_of_loc m l) = l.
Proof. destruct l as [|[]]; split; reflexivity. Qed.

(** ** Rounding at an exponent *)

(** [M * 2^E] is nearest to [x] among the multiples of [2^E]. *)
Definition nearest_at (E M : Z) (x : R) : Prop :=
  Rabs (x - IZR M * p2 E) <= p2 E / 2 /\ (Rabs (x - IZR M * p2 E) = p2 E / 2 -> Z.even M = true).

Lemma round_nearest m e l x : located m e l x -> nearest_at e (round_nearest_even m l) x.
Proof.
  pose proof (p2_pos e) as P. unfold nearest_at.
  assert (forall z, x = IZR z * p2 e -> Rabs (x - IZR z * p2 e) <= p2 e / 2 /\ (Rabs (x - IZR z * p2 e) = p2 e / 2 -> Z.even z = true)) as EX.
  { intros z ->. rewrite Rminus_diag_eq, Rabs_R0 by reflexivity. split; lra. }
  destruct l as [|[]]; cbn [located round_nearest_even]; intros H.
  - auto.
  - destruct (Z.even m) eqn:EV.
    + split; [|auto]. rewrite H. rewrite Rabs_right; lra.
    + rewrite plus_IZR. split.
      * rewrite H. rewrite Rabs_left; lra.
      * intros _. rewrite Z.even_add, EV. reflexivity.
  - rewrite Rabs_right by lra. split; lra.
  - rewrite plus_IZR. rewrite Rabs_left by lra. split; lra.
Qed.
Lemma round_bounds m l : (m <= round_nearest_even m l <= m + 1)%Z.
Proof. destruct l as [|[]]; cbn [round_nearest_even]; try lia. destruct (Z.even m); lia. Qed.

(** ** [binary_round_aux] *)

(** The exponent of the last place of [x]. *)
Definition last_place (E : Z) (x : R) : Prop :=
  (-149 <= E)%Z /\ x < p2 (E + 24) /\ (E = (-149)%Z \/ p2 (E + 23) <= x).

Definition rounded (s : bool) (x : R) (sf : spec_float) : Prop :=
  exists E M, last_place E x /\ nearest_at E M x /\ (0 <= M <= 16777216)%Z /\
  (M = 0%Z /\ sf = S754_zero s \/
   exists m e, IZR (Zpos m) * p2 e = IZR M * p2 E /\ (Z.even M = true -> Z.even (Zpos m) = true) /\
   Z.max (Z.pos (digits2_pos m) + e - 24) (-149) = e /\
   (e <= 104 /\ sf = S754_finite s m e \/ 104 < e /\ sf = S754_infinity s)%Z).

Lemma digits_real p : p2 (Zpos (digits2_pos p) - 1) <= IZR (Zpos p) /\ IZR (Zpos p) + 1 <= p2 (Zpos (digits2_pos p)).
Proof.
  pose proof (digits_bounds p) as [B1 B2]. rewrite !p2_pow by lia. split; [apply IZR_le; exact B1|].
  rewrite <- plus_IZR. apply IZR_le. lia.
Qed.

Lemma round_aux s mx ex lx x : (0 <= mx)%Z -> located mx ex lx x -> (ex <= -149)%Z \/ p2 (ex + 23) <= x ->
  0 < x -> rounded s x (binary_round_aux prec emax s mx ex lx).
Proof.
  intros P L Hex X. unfold binary_round_aux, shr_fexp.
  set (F := fexp prec emax (Zdigits2 mx + ex)).
  assert (F = Z.max (Zdigits2 mx + ex - 24) (-149)) as HF by reflexivity.
  pose proof (loc_of_record mx lx) as [R1 R2].
  pose proof (located_bounds _ _ _ _ L) as [L1 L2].
  pose proof (p2_pos ex) as Q.
  assert (ex <= F /\ last_place F x)%Z as [HexF LP].
  { unfold last_place. destruct mx as [|p|p]; [| |lia]; cbn [Zdigits2] in HF.
    - assert (ex <= -149)%Z as Hex1.
      { destruct Hex as [H|H]; [exact H|]. exfalso. pose proof (p2_lt ex (ex + 23) ltac:(lia)). lra. }
      replace F with (-149)%Z by lia. split; [exact Hex1|]. split; [lia|]. split; [|auto].
      pose proof (p2_lt ex (-149 + 24) ltac:(lia)). lra.
    - pose proof (digits_real p) as [D1 D2]. set (d := Zpos (digits2_pos p)) in *.
      assert (x < p2 (d + ex)) as U. { rewrite p2_add. nra. }
      assert (p2 (d + ex - 1) <= x) as W. { replace (d + ex - 1)%Z with (d - 1 + ex)%Z by lia. rewrite p2_add. nra. }
      assert (ex <= F)%Z as HexF.
      { destruct Hex as [H|H]; [lia|]. assert (ex + 23 < d + ex)%Z by (apply p2_lt_inv; lra). lia. }
      split; [exact HexF|]. split; [lia|]. split.
      + pose proof (p2_le (d + ex) (F + 24) ltac:(lia)). lra.
      + destruct (Z.eq_dec F (-149)) as [|N0]; [auto|]. right. replace (F + 23)%Z with (d + ex - 1)%Z by lia. exact W. }
  destruct (located_shr (shr_record_of_loc mx lx) ex (F - ex) x) as (mrs & -> & P' & L').
  { rewrite R1. exact P. } { rewrite R1, R2. exact L. }
  replace (ex + Z.max 0 (F - ex))%Z with F in * by lia.
  pose proof (round_nearest _ _ _ _ L') as NR. pose proof (round_bounds (shr_m mrs) (loc_of_shr_record mrs)) as RB.
  set (M := round_nearest_even (shr_m mrs) (loc_of_shr_record mrs)) in *.
  pose proof (located_bounds _ _ _ _ L') as [L1' L2'].
  pose proof LP as (LP1 & LP2 & LP3). pose proof (p2_pos F) as QF.
  assert (shr_m mrs < 16777216)%Z as M0.
  { apply lt_IZR. rewrite p2_add in LP2. assert (p2 24 = 16777216) as E24 by (rewrite p2_pow by lia; reflexivity). rewrite E24 in LP2.
    nra. }
  exists F, M. split; [exact LP|]. split; [exact NR|]. split; [lia|].
  assert (F = (-149)%Z \/ (8388608 <= M)%Z) as LO.
  { destruct LP3 as [|LP3]; [auto|]. right. assert (8388608 <= shr_m mrs)%Z; [|lia].
    apply Zlt_succ_le. apply lt_IZR. unfold Z.succ. rewrite plus_IZR.
    rewrite p2_add in LP3. assert (p2 23 = 8388608) as E23 by (rewrite p2_pow by lia; reflexivity). rewrite E23 in LP3. nra. }
  destruct M as [|m|m] eqn:EM; [| |lia].
  - left. split; [reflexivity|]. cbn [shr_record_of_loc]. destruct LO as [->|]; [|lia]. reflexivity.
  - right. destruct (Z.eq_dec (Z.pos m) 16777216) as [E2|N2].
    + inv E2. exists 8388608%positive, (F + 1)%Z.
      split; [rewrite p2_succ; lra|]. split; [reflexivity|]. split; [change (Z.pos (digits2_pos 8388608)) with 24%Z; lia|].
      unfold fexp, SpecFloat.emin, prec, emax. cbn [Zdigits2]. change (Z.pos (digits2_pos 16777216)) with 25%Z.
      replace (Z.max (25 + F - 24) (3 - 128 - 24) - F)%Z with 1%Z by lia.
      cbn [shr shr_record_of_loc SpecFloat.iter_pos shr_1 orb shr_m].
      destruct (Z.leb_spec (F + 1) (128 - 24)); [left|right]; split; try reflexivity; lia.
    + assert (Z.pos (digits2_pos m) <= 24)%Z as DL by (apply digits_le; lia).
      exists m, F. split; [reflexivity|]. split; [auto|]. split.
      { destruct LO as [->|LO]; [lia|]. assert (23 < Z.pos (digits2_pos m))%Z by (apply digits_ge; lia). lia. }
      unfold fexp, SpecFloat.emin, prec, emax. cbn [Zdigits2].
      set (k := (Z.max (Z.pos (digits2_pos m) + F - 24) (3 - 128 - 24) - F)%Z).
      assert (k <= 0)%Z as K by (unfold k; lia).
      assert (forall r, shr r F k = (r, F)) as SK by (intros r; destruct k; [reflexivity|lia|reflexivity]).
      rewrite SK. cbn [shr_record_of_loc shr_m].
      destruct (Z.leb_spec F (128 - 24)); [left|right]; split; try reflexivity; lia.
Qed.

(** ** From [spec_float] to bit patterns *)
Definition sf_sign (sf : spec_float) : bool :=
  match sf with S754_zero s | S754_infinity s | S754_finite s _ _ => s | S754_nan => false end.
Lemma negative_sign x : f32_is_nan x = false -> f32_negative x = sf_sign (f32_to_sf x).
Proof.
  unfold f32_is_nan, f32_negative, f32_to_sf. destruct (((f32_bits x / 8388608) mod 256 =? 0)%N).
  - destruct (f32_bits x mod 8388608)%N; reflexivity.
  - destruct (((f32_bits x / 8388608) mod 256 =? 255)%N).
    + destruct (f32_bits x mod 8388608 =? 0)%N; [reflexivity|discriminate].
    + destruct (f32_bits x mod 8388608 + 8388608)%N; [discriminate|reflexivity].
Qed.
Lemma bits_parity x s m e : f32_to_sf x = S754_finite s m e -> N.even (f32_bits x) = Z.even (Zpos m).
Proof.
  pose proof (bits_split _ (f32_bits_lt x)) as (s' & e' & m' & Hs & He & Hm & Hn & E1 & E2 & E3).
  unfold f32_to_sf. rewrite E1, E2, E3.
  assert (N.even (f32_bits x) = N.even m') as ->.
  { rewrite Hn. replace (s' * 2147483648 + e' * 8388608 + m')%N with (m' + 2 * (s' * 1073741824 + e' * 4194304))%N by lia.
    apply N.even_add_mul_2. }
  assert (forall n p, n = N.pos p -> N.even n = Z.even (Z.pos p)) as EV by (intros n p ->; destruct p; reflexivity).
  destruct (N.eqb_spec e' 0) as [->|He0].
  - destruct m' as [|p]; [discriminate|]. intros H. inv H. apply EV. reflexivity.
  - destruct (N.eqb_spec e' 255) as [->|He1]; [destruct (m' =? 0)%N; discriminate|].
    destruct (m' + 8388608)%N as [|p] eqn:Ep; [discriminate|]. intros H. inv H. rewrite <- (EV _ _ Ep).
    change 8388608%N with (2 * 4194304)%N. rewrite N.even_add_mul_2. reflexivity.
Qed.
Lemma bits_zero x s : f32_to_sf x = S754_zero s -> N.even (f32_bits x) = true.
Proof.
  pose proof (bits_split _ (f32_bits_lt x)) as (s' & e' & m' & Hs & He & Hm & Hn & E1 & E2 & E3).
  unfold f32_to_sf. rewrite E1, E2, E3.
  destruct (N.eqb_spec e' 0) as [->|He0].
  - destruct m' as [|p]; [|discriminate]. intros H. inv H. rewrite Hn.
    replace (s' * 2147483648 + 0 * 8388608 + 0)%N with (0 + 2 * (s' * 1073741824))%N by lia. rewrite N.even_add_mul_2. reflexivity.
  - destruct (N.eqb_spec e' 255) as [->|He1]; [destruct (m' =? 0)%N; discriminate|].
    destruct (m' + 8388608)%N as [|p] eqn:Ep; discriminate.
Qed.

(** Values are multiples of a power of two. *)
Lemma value_multiple y w : f32_value y = Some w -> exists k e, w = IZR k * p2 e /\ (-16777216 < k < 16777216)%Z /\ (-149 <= e <= 104)%Z.
Proof.
  unfold f32_value. destruct (f32_to_sf y) as [s|s| |s m e] eqn:E; try discriminate; intros H; inv H.
  - exists 0%Z, 0%Z. split; [lra|lia].
  - apply f32_canonical in E as [C1 C2]. pose proof (digits_bounds m) as [_ B].
    assert (2 ^ Z.pos (digits2_pos m) <= 2 ^ 24)%Z by (apply Z.pow_le_mono_r; lia). change (2 ^ 24)%Z with 16777216%Z in *.
    exists (if s then Z.neg m else Z.pos m), e. split; [|destruct s; lia].
    destruct s; [|lra]. change (Z.neg m) with (- Z.pos m)%Z. rewrite opp_IZR. lra.
Qed.

Lemma nearest_all E M x k e : last_place E x -> nearest_at E M x -> (-16777216 < k < 16777216)%Z -> (-149 <= e)%Z ->
  Rabs (x - IZR M * p2 E) <= Rabs (x - IZR k * p2 e) /\
  (Rabs (x - IZR M * p2 E) = Rabs (x - IZR k * p2 e) -> IZR k * p2 e = IZR M * p2 E \/ Z.even M = true).
Proof.
  intros (LP1 & LP2 & LP3) [N1 N2] K HE. pose proof (p2_pos E) as PE.
  assert (forall j, IZR j * p2 E = IZR M * p2 E \/ p2 E / 2 <= Rabs (x - IZR j * p2 E)) as MULT.
  { intros j. destruct (Z.eq_dec j M) as [->|N0]; [auto|right].
    assert (p2 E <= Rabs (IZR M * p2 E - IZR j * p2 E)) as D.
    { rewrite <- Rmult_minus_distr_r, Rabs_mult, (Rabs_right (p2 E)) by lra.
      rewrite <- minus_IZR, <- abs_IZR. assert (1 <= IZR (Z.abs (M - j))) by (apply IZR_le; lia). nra. }
    pose proof (Rabs_triang (x - IZR j * p2 E) (- (x - IZR M * p2 E))) as T. rewrite Rabs_Ropp in T.
    replace (x - IZR j * p2 E + - (x - IZR M * p2 E)) with (IZR M * p2 E - IZR j * p2 E) in T by lra. lra. }
  destruct (Z_le_gt_dec E e) as [L|L].
  - rewrite (p2_shift k e E L). destruct (MULT (k * 2 ^ (e - E))%Z) as [->|D]; [split; [lra|auto]|].
    split; [lra|]. intros EQ. right. apply N2. lra.
  - destruct LP3 as [|LP3]; [lia|].
    assert (IZR k * p2 e < p2 (E + 23)) as W.
    { assert (IZR k < p2 24) as KB. { rewrite p2_pow by lia. apply IZR_lt. change (2 ^ 24)%Z with 16777216%Z. lia. }
      pose proof (p2_le (e + 24) (E + 23) ltac:(lia)) as PL. rewrite p2_add in PL. pose proof (p2_pos e). nra. }
    assert (Rabs (x - IZR M * p2 E) <= x - p2 (E + 23)) as B.
    { assert (p2 (E + 23) = IZR (2 ^ 23) * p2 E) as E23 by (rewrite p2_add, (p2_pow 23) by lia; apply Rmult_comm). rewrite E23 in LP3 |- *.
      destruct (MULT (2 ^ 23)%Z) as [Q|Q].
      - rewrite Q in LP3 |- *. rewrite Rabs_right; lra.
      - rewrite Rabs_right in Q by lra. lra. }
    rewrite (Rabs_right (x - IZR k * p2 e)) by lra. split; lra.
Qed.

Lemma rounded_overflow s x sf : rounded s x sf -> (33554431 * p2 103 <= x <-> sf = S754_infinity s).
Proof.
  intros (E & M & (LP1 & LP2 & LP3) & [N1 N2] & MB & H).
  assert (2 * p2 103 = p2 104) as E104 by (rewrite <- p2_succ; reflexivity).
  assert (16777216 * p2 104 = p2 128) as E128.
  { change 128%Z with (104 + 24)%Z. rewrite p2_add, (p2_pow 24) by lia. change (IZR (2 ^ 24)) with 16777216. lra. }
  pose proof (p2_pos 103) as P103. pose proof (p2_pos E) as PE.
  destruct H as [[-> ->]|(m & e & V & EV & C & H)].
  - split; [|discriminate]. intros H. exfalso.
    apply abs_bounds in N1. 
    assert (E <= 104)%Z as LE.
    { destruct (Z_le_gt_dec E 104) as [L|L]; [exact L|]. destruct LP3 as [|LP3]; [lia|].
      pose proof (p2_le (E + 1) (E + 23) ltac:(lia)) as Q. rewrite p2_succ in Q. lra. }
    pose proof (p2_le E 104 LE). lra.
  - pose proof (digits_real m) as [D1 D2]. pose proof (p2_pos e) as Pe. pose proof N1 as N1'. apply abs_bounds in N1'.
    assert (M <> 0)%Z as M0. { intros ->. assert (0 < IZR (Z.pos m)) by (apply (IZR_lt 0); lia). nra. }
    destruct H as [[Le ->]|[Le ->]].
    + split; [|discriminate]. intros H. exfalso.
      assert (E <= 104)%Z as LE.
      { destruct (Z_le_gt_dec E 104) as [L|L]; [exact L|]. destruct LP3 as [|LP3]; [lia|].
        assert (p2 128 <= IZR M * p2 E) as MB1.
        { pose proof (p2_le 128 (E + 23) ltac:(lia)) as Q. rewrite p2_add in Q, LP3. rewrite (p2_pow 23) in Q, LP3 by lia. change (IZR (2 ^ 23)) with 8388608 in *.
          assert (8388608 <= M)%Z; [|assert (8388608 <= IZR M) by (apply IZR_le; assumption); nra].
          apply Zlt_succ_le. apply lt_IZR. unfold Z.succ. rewrite plus_IZR. nra. }
        assert (IZR (Z.pos m) * p2 e < p2 128).
        { apply Rlt_le_trans with (p2 (Z.pos (digits2_pos m) + e)); [rewrite p2_add; nra|]. apply p2_le. lia. }
        lra. }
      assert (IZR M * p2 E < p2 128) as MU.
      { rewrite <- V. apply Rlt_le_trans with (p2 (Z.pos (digits2_pos m) + e)); [rewrite p2_add; nra|]. apply p2_le. lia. }
      destruct (Z.eq_dec E 104) as [->|NE].
      * assert (M < 16777216)%Z as ML by (apply lt_IZR; nra).
        assert (IZR M <= 16777215) as MR by (apply IZR_le; lia).
        assert (x = (IZR M + /2) * p2 104) as XE by nra.
        assert (IZR M = 16777215) as MQ by nra. apply eq_IZR in MQ. subst M.
        enough (Z.even 16777215 = true) by discriminate. apply N2. rewrite Rabs_right; nra.
      * pose proof (p2_le E 103 ltac:(lia)). assert (IZR M <= 16777216) as MR by (apply IZR_le; lia). nra.
    + split; [reflexivity|]. intros _.
      assert (IZR 16777216 * p2 104 <= IZR M * p2 E) as MB1.
      { rewrite <- V. rewrite E128. assert (23 < Z.pos (digits2_pos m))%Z by lia.
        apply Rle_trans with (p2 (Z.pos (digits2_pos m) - 1 + e)); [apply p2_le; lia|]. rewrite p2_add. nra. }
      destruct (Z_le_gt_dec E 104) as [LE|LE].
      * destruct (Z.eq_dec E 104) as [->|NE].
        -- assert (16777216 <= IZR M) by nra. nra.
        -- pose proof (p2_le E 103 ltac:(lia)). assert (IZR M <= 16777216) as MR by (apply IZR_le; lia). nra.
      * destruct LP3 as [|LP3]; [lia|]. pose proof (p2_le 128 (E + 23) ltac:(lia)). lra.
Qed.

Definition signed (s : bool) (x : R) : R := if s then - x else x.
Lemma signed_abs s x : Rabs (signed s x) = Rabs x.
Proof. destruct s; [apply Rabs_Ropp|reflexivity]. Qed.
Lemma rounded_f32 s x sf : 0 < x -> rounded s x sf -> f32_to_sf (sf_to_f32 sf) = sf /\ rounds_to (signed s x) (sf_to_f32 sf).
Proof.
  intros X H. pose proof (rounded_overflow s x sf H) as OV.
  destruct H as (E & M & LP & NR & MB & H).
  assert (sf_sign sf = s) as SG by (destruct H as [[_ ->]|(m & e & _ & _ & _ & [[_ ->]|[_ ->]])]; reflexivity).
  assert (f32_to_sf (sf_to_f32 sf) = sf) as SF.
  { destruct H as [[_ ->]|(m & e & _ & _ & C & [[Le ->]|[_ ->]])].
    - destruct s; vm_compute; reflexivity.
    - apply f32_to_sf_of. split; assumption.
    - destruct s; vm_compute; reflexivity. }
  split; [exact SF|].
  assert (f32_is_nan (sf_to_f32 sf) = false) as NN.
  { unfold f32_is_nan. rewrite SF. destruct H as [[_ ->]|(m & e & _ & _ & _ & [[_ ->]|[_ ->]])]; reflexivity. }
  unfold rounds_to. rewrite (negative_sign _ NN), SF, SG.
  split; [destruct s; cbn [signed]; [lra|auto]|]. split; [destruct s; cbn [signed]; [auto|lra]|].
  unfold too_large. rewrite signed_abs, (Rabs_right x) by lra.
  assert (f32_infinite (sf_to_f32 sf) <-> sf = S754_infinity s) as INF.
  { unfold f32_infinite. rewrite SF. split; [|eauto]. intros [s' ->]. cbn in SG. subst. reflexivity. }
  rewrite INF. destruct (Rle_dec (33554431 * p2 103) x) as [OL|OL]; [left; split; [exact OL|apply OV; exact OL]|].
  right. split; [exact OL|].
  assert (sf <> S754_infinity s) as NI by tauto.
  assert (exists v, f32_value (sf_to_f32 sf) = Some v /\ v = signed s (IZR M * p2 E) /\ (Z.even M = true -> N.even (f32_bits (sf_to_f32 sf)) = true)) as (v & VV & VE & VP).
  { unfold f32_value. rewrite SF. destruct H as [[-> EQ]|(m & e & V & EV & C & [[Le EQ]|[_ EQ]])]; rewrite EQ in *.
    - exists 0. split; [reflexivity|]. split; [destruct s; cbn [signed]; lra|]. intros _. eapply bits_zero. exact SF.
    - eexists. split; [reflexivity|]. split; [rewrite <- V; destruct s; cbn [signed]; lra|]. intros P. rewrite (bits_parity _ _ _ _ SF). auto.
    - congruence. }
  exists v. split; [exact VV|]. intros y w HW. apply value_multiple in HW as (k & e & -> & KB & EB).
  pose proof (nearest_all E M x (if s then - k else k) e LP NR ltac:(destruct s; lia) ltac:(lia)) as [A1 A2].
  assert (signed s x - IZR k * p2 e = signed s (x - IZR (if s then - k else k) * p2 e)) as ->.
  { destruct s; cbn [signed]; rewrite ?opp_IZR; lra. }
  assert (signed s x - v = signed s (x - IZR M * p2 E)) as ->.
  { rewrite VE. destruct s; cbn [signed]; lra. }
  rewrite !signed_abs. split; [exact A1|]. intros EQ. destruct (A2 EQ) as [Q|Q]; [left|auto].
  rewrite VE, <- Q. destruct s; cbn [signed]; rewrite ?opp_IZR; lra.
Qed.
