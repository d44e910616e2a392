(** * Reading a decimal gives the nearest number. *)
From Coq Require Import Strings.String Strings.Byte Floats.SpecFloat.
From Verif Require Import Base BaseFacts F32 F32Facts TextIO TextSpec TextFacts F32Text F32TextFacts F32TextSpec.
Local Open Scope N_scope.

(** ** Rounding to an integer *)
Lemma rne_cases x d : d <> 0 -> exists q r, x = q * d + r /\ r < d /\
  (rne x d = q /\ (2 * r < d \/ 2 * r = d /\ N.even q = true) \/
   rne x d = q + 1 /\ (d < 2 * r \/ 2 * r = d /\ N.even (q + 1) = true)).
Proof.
  intros D. exists (x / d), (x mod d). pose proof (N.div_mod x d D). pose proof (N.mod_lt x d D).
  split; [lia|]. split; [assumption|]. unfold rne. rewrite div_eucl_pair.
  destruct (N.compare_spec (2 * (x mod d)) d) as [E|E|E].
  - destruct (N.even (x / d)) eqn:V; [left; auto|right]. split; [reflexivity|]. right. split; [exact E|].
    rewrite N.add_1_r, N.even_succ, <- N.negb_even, V. reflexivity.
  - left. auto.
  - right. auto.
Qed.
Definition dist (x u : N) : Z := Z.abs (Z.of_N x - Z.of_N u).
Lemma rne_best x d j : d <> 0 -> (dist x (rne x d * d) <= dist x (j * d))%Z /\
  (dist x (rne x d * d) = dist x (j * d) -> j = rne x d \/ N.even (rne x d) = true).
Proof.
  intros D. destruct (rne_cases x d D) as (q & r & -> & R & C). unfold dist. rewrite !N2Z.inj_mul, N2Z.inj_add, N2Z.inj_mul.
  destruct (N.lt_trichotomy j q) as [L|[L|L]].
  - assert ((Z.of_N j + 1) * Z.of_N d <= Z.of_N q * Z.of_N d)%Z by (apply Z.mul_le_mono_nonneg_r; lia).
    destruct C as [[-> C]|[-> C]]; rewrite ?N2Z.inj_add; (split; [lia|]); intros K; lia.
  - subst j. destruct C as [[-> C]|[-> C]]; rewrite ?N2Z.inj_add; (split; [lia|]); intros K; [auto|]. destruct C as [C|[C V]]; [lia|auto].
  - assert ((Z.of_N q + 1) * Z.of_N d <= Z.of_N j * Z.of_N d)%Z by (apply Z.mul_le_mono_nonneg_r; lia).
    destruct (N.eq_dec j (q + 1)) as [->|J].
    + destruct C as [[-> C]|[-> C]]; rewrite ?N2Z.inj_add; (split; [lia|]); intros K; [|auto]. destruct C as [C|[C V]]; [lia|auto].
    + assert ((Z.of_N q + 2) * Z.of_N d <= Z.of_N j * Z.of_N d)%Z by (apply Z.mul_le_mono_nonneg_r; lia).
      destruct C as [[-> C]|[-> C]]; rewrite ?N2Z.inj_add; (split; [lia|]); intros K; lia.
Qed.
Lemma rne_ge x d n : d <> 0 -> n * d <= x -> n <= rne x d.
Proof.
  intros D H. destruct (rne_cases x d D) as (q & r & E & R & C). assert (n <= q); [|destruct C as [[-> _]|[-> _]]; lia].
  destruct (N.le_gt_cases n q) as [L|L]; [exact L|]. assert ((q + 1) * d <= n * d) by (apply N.mul_le_mono_r; lia). lia.
Qed.
Lemma rne_le x d n : d <> 0 -> x < n * d -> rne x d <= n.
Proof.
  intros D H. destruct (rne_cases x d D) as (q & r & E & R & C). assert (q < n); [|destruct C as [[-> _]|[-> _]]; lia].
  destruct (N.lt_ge_cases q n) as [L|L]; [exact L|]. assert (n * d <= q * d) by (apply N.mul_le_mono_r; lia). lia.
Qed.

(** ** Units *)
Lemma units_of_fits m k : fits m k -> magnitude_units (k * 8388608 + m) = m * 2 ^ k.
Proof.
  intros [F1 F2]. unfold magnitude_units. assert ((k * 8388608 + m) / 8388608 - 1 = k) as ->.
  { rewrite N.add_comm, N.div_add by discriminate. destruct F2 as [->|F2].
    - pose proof (N.div_lt_upper_bound m 8388608 2 ltac:(discriminate) F1). lia.
    - assert (m / 8388608 = 1) as ->; [|lia]. symmetry. apply (N.div_unique _ _ _ (m - 8388608)); lia. }
  f_equal. lia.
Qed.
Lemma units_top k : magnitude_units (k * 8388608 + 16777216) = 16777216 * 2 ^ k.
Proof.
  replace (k * 8388608 + 16777216) with ((k + 1) * 8388608 + 8388608) by lia.
  rewrite units_of_fits by (unfold fits; lia). rewrite N.pow_add_r. change (2 ^ 1) with 2. lia.
Qed.
Lemma units_inj m1 m2 : magnitude_units m1 = magnitude_units m2 -> m1 = m2.
Proof.
  destruct (units_fits m1) as (a & k & F & -> & ->). destruct (units_fits m2) as (b & l & G & -> & ->). intros E.
  assert (k = l) as -> by (rewrite <- (fits_log2 a k F), <- (fits_log2 b l G), E; reflexivity).
  apply N.mul_cancel_r in E; [|apply pow2_nonzero]. subst. reflexivity.
Qed.

(** What [round_ratio] computes: [k] low bits are dropped. *)
Lemma round_ratio_parts a b : b <> 0 -> exists k m, let x := a * 2 ^ 149 in
  m = rne x (b * 2 ^ k) /\ m <= 16777216 /\ (k = 0 \/ 8388608 * 2 ^ k * b <= x) /\ x < 16777216 * 2 ^ k * b /\
  round_ratio a b = N.min (k * 8388608 + m) inf_bits /\ magnitude_units (k * 8388608 + m) = m * 2 ^ k.
Proof.
  intros B. exists (log2_ratio (a * 2 ^ 149) b - 23). eexists. cbv zeta. split; [reflexivity|]. unfold round_ratio.
  rewrite log2_ratio_spec by exact B. set (x := a * 2 ^ 149). set (k := N.log2 (x / b) - 23).
  assert (b * 2 ^ k <> 0) as D by (pose proof (pow2_nonzero k); lia).
  assert (x < 16777216 * 2 ^ k * b) as U.
  { destruct (N.eq_dec (x / b) 0) as [Z|Z].
    - apply N.div_small_iff in Z; [|exact B]. pose proof (pow2_nonzero k). nia.
    - assert (0 < x / b) as Pq by (apply N.neq_0_lt_0; assumption); pose proof (N.log2_spec (x / b) Pq) as [_ L].
      assert (2 ^ N.succ (N.log2 (x / b)) <= 2 ^ (k + 24)) as L' by (apply N.pow_le_mono_r; lia).
      rewrite N.pow_add_r in L'. change (2 ^ 24) with 16777216 in L'.
      pose proof (N.mul_succ_div_gt x b B) as G. assert (b * N.succ (x / b) <= b * (2 ^ k * 16777216)) by (apply N.mul_le_mono_l; lia). lia. }
  assert (k = 0 \/ 8388608 * 2 ^ k * b <= x) as L.
  { destruct (N.eq_dec k 0) as [Z|Z]; [auto|right]. assert (x / b <> 0) as Z'. { intros K. unfold k in Z. rewrite K in Z. cbn in Z. lia. }
    assert (0 < x / b) as Pq by (apply N.neq_0_lt_0; assumption); pose proof (N.log2_spec (x / b) Pq) as [G _]. replace (N.log2 (x / b)) with (k + 23) in G by lia.
    rewrite N.pow_add_r in G. change (2 ^ 23) with 8388608 in G. pose proof (N.mul_div_le x b B).
    assert (b * (2 ^ k * 8388608) <= b * (x / b)) by (apply N.mul_le_mono_l; exact G). lia. }
  assert (rne x (b * 2 ^ k) <= 16777216) as M by (apply rne_le; [exact D|lia]).
  split; [exact M|]. split; [exact L|]. split; [exact U|]. split; [reflexivity|].
  destruct (N.eq_dec (rne x (b * 2 ^ k)) 16777216) as [E|E].
  - rewrite E. apply units_top.
  - apply units_of_fits. split; [lia|]. destruct L as [L|L]; [auto|right]. apply rne_ge; [exact D|lia].
Qed.

Lemma even_mag k m : N.even (k * 8388608 + m) = N.even m.
Proof. rewrite N.even_add, N.even_mul. change (N.even 8388608) with true. rewrite Bool.orb_true_r. destruct (N.even m); reflexivity. Qed.

Lemma round_ratio_nearest a b mag' : b <> 0 -> round_ratio a b < inf_bits -> let x := a * 2 ^ 149 in
  (dist x (magnitude_units (round_ratio a b) * b) <= dist x (magnitude_units mag' * b))%Z /\
  (dist x (magnitude_units (round_ratio a b) * b) = dist x (magnitude_units mag' * b) ->
   mag' = round_ratio a b \/ N.even (round_ratio a b) = true).
Proof.
  intros B. destruct (round_ratio_parts a b B) as (k & m & P). cbv zeta in *. destruct P as (Em & M & L & U & -> & EU).
  set (x := a * 2 ^ 149) in *. intros Fin. rewrite N.min_l by lia. rewrite EU, even_mag.
  assert (b * 2 ^ k <> 0) as D by (pose proof (pow2_nonzero k); lia).
  replace (m * 2 ^ k * b) with (m * (b * 2 ^ k)) by lia.
  destruct (units_fits mag') as (m' & k' & F & E' & EU'). rewrite EU'.
  destruct (N.le_gt_cases k k') as [K|K].
  - replace (m' * 2 ^ k' * b) with ((m' * 2 ^ (k' - k)) * (b * 2 ^ k)).
    2: { replace k' with (k' - k + k) at 2 by lia. rewrite N.pow_add_r. lia. }
    rewrite Em. destruct (rne_best x (b * 2 ^ k) (m' * 2 ^ (k' - k)) D) as [H1 H2]. split; [exact H1|]. intros H.
    destruct (H2 H) as [J|J]; [|auto]. left. apply units_inj. rewrite <- Em, EU, EU'. rewrite <- Em in J. rewrite <- J.
    replace k' with (k' - k + k) at 1 by lia. rewrite N.pow_add_r. lia.
  - destruct L as [L|L]; [lia|]. destruct F as [F1 F2].
    assert (m' * 2 ^ k' < 8388608 * 2 ^ k) as Lt.
    { assert (2 ^ (k' + 1) <= 2 ^ k) as P by (apply N.pow_le_mono_r; lia). rewrite N.pow_add_r in P. change (2 ^ 1) with 2 in P.
      pose proof (pow2_nonzero k'). nia. }
    assert (m' * 2 ^ k' * b < 8388608 * 2 ^ k * b) as Ltb by (apply N.mul_lt_mono_pos_r; lia).
    destruct (rne_best x (b * 2 ^ k) 8388608 D) as [H1 _]. rewrite <- Em in H1. replace (8388608 * (b * 2 ^ k)) with (8388608 * 2 ^ k * b) in H1 by lia.
    unfold dist in *. split; [lia|]. intros H. lia.
Qed.

Lemma round_ratio_overflow a b : b <> 0 -> round_ratio a b = inf_bits <-> 33554431 * 2 ^ 252 * b <= a * 2 ^ 149.
Proof.
  intros B. destruct (round_ratio_parts a b B) as (k & m & P). cbv zeta in P. destruct P as (Em & M & L & U & -> & _).
  set (x := a * 2 ^ 149) in *. unfold inf_bits.
  assert (b * 2 ^ k <> 0) as D by (pose proof (pow2_nonzero k); lia).
  destruct (N.lt_trichotomy k 253) as [K|[K|K]].
  - assert (x < 33554431 * 2 ^ 252 * b) as X.
    { assert (2 ^ k <= 2 ^ 252) as P by (apply N.pow_le_mono_r; lia).
      assert (16777216 * 2 ^ k * b <= 16777216 * 2 ^ 252 * b) by (apply N.mul_le_mono_r, N.mul_le_mono_l; exact P). 
      assert (16777216 * 2 ^ 252 * b < 33554431 * 2 ^ 252 * b) by (apply N.mul_lt_mono_pos_r; [lia|apply N.mul_lt_mono_pos_r; [pose proof (pow2_nonzero 252); lia|reflexivity]]). lia. }
    split; intros H; [exfalso|]; lia.
  - subst k. change (2 ^ 253) with (2 * 2 ^ 252) in *. set (t := 2 ^ 252) in *.
    destruct (rne_cases x (b * (2 * t)) D) as (q & r & E & R & C). rewrite <- Em in C.
    assert (q < 16777216) as Q.
    { destruct (N.lt_ge_cases q 16777216) as [Y|Y]; [exact Y|]. assert (16777216 * (b * (2 * t)) <= q * (b * (2 * t))) by (apply N.mul_le_mono_r; exact Y). lia. }
    assert (0 < b * t) as BT by lia.
    split; intros H.
    + assert (m = 16777216) as Hm by lia. destruct C as [[C _]|[C1 C2]]; [lia|]. assert (q = 16777215) as -> by lia. lia.
    + assert (q = 16777215) as ->.
      { destruct (N.eq_dec q 16777215) as [Y|Y]; [exact Y|]. exfalso.
        assert (q * (b * (2 * t)) <= 16777214 * (b * (2 * t))) by (apply N.mul_le_mono_r; lia). lia. }
      destruct C as [[C1 C2]|[C1 C2]]; [exfalso|lia]. destruct C2 as [C2|[_ C2]]; [lia|discriminate].
  - assert (33554431 * 2 ^ 252 * b <= x) as X.
    { destruct L as [L|L]; [lia|]. assert (2 ^ 254 <= 2 ^ k) as P by (apply N.pow_le_mono_r; lia). change (2 ^ 254) with (4 * 2 ^ 252) in P.
      set (t := 2 ^ 252) in *. assert (8388608 * (4 * t) * b <= 8388608 * 2 ^ k * b) by (apply N.mul_le_mono_r, N.mul_le_mono_l; exact P). lia. }
    assert (8388608 <= m) as M8 by (rewrite Em; apply rne_ge; [exact D|]; destruct L; lia).
    split; intros H; [exact X|]. lia.
Qed.

(** ** Decimals *)
Definition dec_num (d : N) (e : Z) : N := d * 10 ^ Z.to_N e.
Definition dec_den (e : Z) : N := 10 ^ Z.to_N (- e).
Lemma dec_den_nonzero e : dec_den e <> 0.
Proof. apply pow10_nonzero. Qed.
Lemma round_ratio_0 b : b <> 0 -> round_ratio 0 b = 0.
Proof. intros B. rewrite (round_ratio_exact 0 b 0 0 B); [reflexivity|split; lia|lia]. Qed.
Lemma round_ratio_small a b : b <> 0 -> 2 * (a * 2 ^ 149) < b -> round_ratio a b = 0.
Proof.
  intros B H. unfold round_ratio. rewrite log2_ratio_spec by exact B. set (x := a * 2 ^ 149) in *. rewrite N.div_small by lia.
  change (N.log2 0 - 23) with 0. change (2 ^ 0) with 1. rewrite N.mul_1_r.
  destruct (rne_cases x b B) as (q & r & E & R & C). assert (q = 0) as ->.
  { destruct (N.eq_dec q 0) as [Q|Q]; [exact Q|]. assert (1 * b <= q * b) by (apply N.mul_le_mono_r; lia). lia. }
  destruct C as [[-> _]|[_ C]]; [reflexivity|lia].
Qed.
Lemma round_dec_ratio d e : round_dec d e = round_ratio (dec_num d e) (dec_den e).
Proof.
  unfold round_dec, dec_num. destruct (N.eqb_spec d 0) as [->|D].
  - rewrite N.mul_0_l, round_ratio_0 by apply dec_den_nonzero. reflexivity.
  - destruct (Z.leb_spec 39 e) as [H|H].
    + symmetry. apply round_ratio_overflow; [apply dec_den_nonzero|]. unfold dec_den. replace (Z.to_N (- e)) with 0 by lia.
      rewrite N.pow_0_r, N.mul_1_r. assert (10 ^ 39 <= 10 ^ Z.to_N e) as P by (apply N.pow_le_mono_r; lia).
      assert (33554431 * 2 ^ 252 <= 10 ^ 39 * 2 ^ 149) as Q by (apply N.leb_le; vm_compute; reflexivity).
      assert (1 * 10 ^ 39 <= d * 10 ^ Z.to_N e) as R by (apply N.mul_le_mono; lia).
      assert (1 * 10 ^ 39 * 2 ^ 149 <= d * 10 ^ Z.to_N e * 2 ^ 149) by (apply N.mul_le_mono_r; exact R). lia.
    + destruct (Z.ltb_spec (e + Z.of_N (N.log2 d)) (-46)) as [L|L].
      * symmetry. replace (Z.to_N e) with 0 by lia. rewrite N.pow_0_r, N.mul_1_r. apply round_ratio_small; [apply dec_den_nonzero|].
        pose proof (N.log2_spec d ltac:(lia)) as [_ U]. set (l := N.log2 d) in *. unfold dec_den.
        assert (10 ^ (l + 47) <= 10 ^ Z.to_N (- e)) as P by (apply N.pow_le_mono_r; lia). rewrite N.pow_add_r in P.
        assert (2 ^ l <= 10 ^ l) as Q by (apply N.pow_le_mono_l; lia).
        assert (2 ^ 151 <= 10 ^ 47) as R by (apply N.leb_le; vm_compute; reflexivity).
        assert (2 ^ l * 2 ^ 151 <= 10 ^ l * 10 ^ 47) by (apply N.mul_le_mono; assumption).
        rewrite N.pow_succ_r' in U. change (2 ^ 151) with (4 * 2 ^ 149) in *. set (t := 2 ^ 149) in *.
        assert (d * t < 2 * 2 ^ l * t) by (apply N.mul_lt_mono_pos_r; [apply N.neq_0_lt_0, pow2_nonzero|exact U]). lia.
      * unfold dec_den. destruct e as [|p|p]; try reflexivity.
        change (Z.to_N (Z.neg p)) with 0. rewrite N.pow_0_r, N.mul_1_r. reflexivity.
Qed.
Lemma decimal_units_N d e : decimal_units d e = (Z.of_N (dec_num d e * 2 ^ 149), Z.of_N (dec_den e)).
Proof.
  unfold decimal_units, dec_num, dec_den. rewrite !N2Z.inj_mul, !N2Z.inj_pow.
  replace (Z.max 0 e) with (Z.of_N (Z.to_N e)) by lia. replace (Z.max 0 (- e)) with (Z.of_N (Z.to_N (- e))) by lia.
  change (Z.of_N 10) with 10%Z. change (Z.of_N 2) with 2%Z. change (Z.of_N 149) with 149%Z. f_equal. lia.
Qed.
Lemma distance_N d e u : distance d e (Z.of_N u) = dist (dec_num d e * 2 ^ 149) (u * dec_den e).
Proof. unfold distance. rewrite decimal_units_N. unfold dist. rewrite <- N2Z.inj_mul. reflexivity. Qed.
Lemma overflows_N d e : overflows d e <-> round_dec d e = inf_bits.
Proof.
  unfold overflows. rewrite decimal_units_N, round_dec_ratio, round_ratio_overflow by apply dec_den_nonzero.
  change ((2 ^ 25 - 1) * 2 ^ 252)%Z with (Z.of_N (33554431 * 2 ^ 252)). rewrite <- N2Z.inj_mul. symmetry. apply N2Z.inj_le.
Qed.

(** ** Bits *)
Lemma round_dec_le d e : round_dec d e <= inf_bits.
Proof. rewrite round_dec_ratio. unfold round_ratio. apply N.le_min_r. Qed.
Lemma with_sign_bits neg mag : mag <= inf_bits -> f32_bits (with_sign neg mag) = (if neg then 2147483648 else 0) + mag.
Proof. intros H. unfold with_sign, inf_bits in *. apply f32_bits_of_bits. unfold two32. destruct neg; lia. Qed.
Lemma with_sign_inf neg : f32_to_sf (with_sign neg inf_bits) = S754_infinity neg.
Proof. destruct neg; vm_compute; reflexivity. Qed.
Lemma units_sf x : exists neg e m, e < 256 /\ m < 8388608 /\ f32_bits x = (if neg : bool then 2147483648 else 0) + (e * 8388608 + m) /\
  (e <> 255 -> f32_units x = Some (neg, Z.of_N (magnitude_units (e * 8388608 + m)))) /\ (e = 255 -> f32_units x = None).
Proof.
  pose proof (bits_split _ (f32_bits_lt x)) as (s & e & m & Hs & He & Hm & Hn & E1 & E2 & E3).
  exists (s =? 1), e, m. split; [exact He|]. split; [exact Hm|]. split; [destruct (N.eqb_spec s 1); lia|].
  unfold f32_units, f32_to_sf. rewrite E1, E2, E3. split.
  - intros NE. destruct (N.eqb_spec e 0) as [->|E0].
    + rewrite (units_of_fits m 0) by (unfold fits; lia). rewrite N.pow_0_r, N.mul_1_r. destruct m as [|p]; [reflexivity|].
      change (-149 + 149)%Z with 0%Z. rewrite Z.pow_0_r, Z.mul_1_r. reflexivity.
    + destruct (N.eqb_spec e 255) as [K|_]; [contradiction|]. destruct (m + 8388608) as [|p] eqn:Ep; [lia|].
      replace (e * 8388608 + m) with ((e - 1) * 8388608 + N.pos p) by lia. rewrite units_of_fits by (unfold fits; lia).
      rewrite N2Z.inj_mul, N2Z.inj_pow. do 3 f_equal. change (Z.of_N 2) with 2%Z. f_equal. lia.
  - intros ->. destruct (N.eqb_spec 255 0); [discriminate|]. rewrite N.eqb_refl. destruct (m =? 0); reflexivity.
Qed.
Lemma f32_units_mag neg mag : mag < inf_bits -> f32_units (with_sign neg mag) = Some (neg, Z.of_N (magnitude_units mag)).
Proof.
  intros H. destruct (units_sf (with_sign neg mag)) as (neg' & e & m & He & Hm & E & U & _). rewrite with_sign_bits in E by lia.
  unfold inf_bits in *. assert (neg' = neg /\ e * 8388608 + m = mag) as [-> K] by (destruct neg, neg'; split; lia || reflexivity).
  rewrite U, K; [reflexivity|lia].
Qed.
Lemma f32_units_inv x neg v : f32_units x = Some (neg, v) ->
  exists mag, mag < inf_bits /\ x = with_sign neg mag /\ v = Z.of_N (magnitude_units mag).
Proof.
  intros H. destruct (units_sf x) as (neg' & e & m & He & Hm & E & U & U'). destruct (N.eq_dec e 255) as [K|K].
  - rewrite (U' K) in H. discriminate.
  - rewrite (U K) in H. inv H. exists (e * 8388608 + m). unfold inf_bits. split; [lia|]. split; [|reflexivity].
    unfold with_sign. rewrite <- E. symmetry. apply f32_of_bits_bits.
Qed.

Lemma round_dec_nearest neg d e : nearest neg d e (with_sign neg (round_dec d e)).
Proof.
  unfold nearest. rewrite overflows_N. pose proof (round_dec_le d e) as L. destruct (N.eq_dec (round_dec d e) inf_bits) as [E|E].
  - left. rewrite E. split; [reflexivity|]. apply with_sign_inf.
  - right. split; [exact E|]. eexists. split; [apply f32_units_mag; lia|]. intros y v Hy.
    apply f32_units_inv in Hy as (mag & Hm & -> & ->). rewrite !distance_N.
    rewrite with_sign_bits by lia. assert (N.even ((if neg then 2147483648 else 0) + round_dec d e) = N.even (round_dec d e)) as ->.
    { rewrite N.even_add. destruct neg; change (N.even 2147483648) with true; change (N.even 0) with true; destruct (N.even (round_dec d e)); reflexivity. }
    assert (round_dec d e < inf_bits) as Fin by lia. rewrite !round_dec_ratio in *.
    destruct (round_ratio_nearest (dec_num d e) (dec_den e) mag (dec_den_nonzero e) Fin) as [H1 H2]. split; [exact H1|].
    intros K. destruct (H2 K) as [->|V]; auto.
Qed.

(** ** Syntax *)
Lemma eat_digits_inv s : forall acc n v n' rest, eat_digits s acc n = (v, n', rest) ->
  exists ds, s = digits_text ds ++ rest /\ Forall (fun d => d < 10) ds /\ v = acc * 10 ^ lenN ds + digits_value ds /\ n' = n + lenN ds /\
  (forall b r, rest = b :: r -> digit_value b = None).
Proof.
  induction s as [|b s IH]; intros acc n v n' rest; cbn [eat_digits].
  - intros H. inv H. exists []. rewrite lenN_nil. cbn [digits_text map app digits_value]. change (10 ^ 0) with 1. repeat split; auto; try lia. discriminate.
  - destruct (digit_value b) as [d|] eqn:D.
    + intros H. apply IH in H as (ds & -> & F & -> & -> & R). apply digit_value_spec in D as [-> D]. exists (d :: ds).
      cbn [digits_text map app digits_value]. rewrite lenN_cons, N.pow_add_r. change (10 ^ 1) with 10. repeat split; auto; lia.
    + intros H. inv H. exists []. rewrite lenN_nil. cbn [digits_text map app digits_value]. change (10 ^ 0) with 1. repeat split; auto; try lia.
      intros b' r H. inv H. exact D.
Qed.
Lemma eat_exponent_app ds : forall acc n, Forall (fun d => d < 10) ds ->
  eat_exponent (digits_text ds) acc n = (capped ds acc, n + lenN ds, []).
Proof.
  induction ds as [|d ds IH]; intros acc n F; cbn [digits_text map eat_exponent capped].
  - rewrite lenN_nil, N.add_0_r. reflexivity.
  - inv F. rewrite digit_value_digit by assumption. fold (digits_text ds). rewrite IH by assumption. rewrite lenN_cons. f_equal. f_equal. lia.
Qed.
Lemma eat_exponent_inv s : forall acc n v n', eat_exponent s acc n = (v, n', []) ->
  exists ds, s = digits_text ds /\ Forall (fun d => d < 10) ds /\ v = capped ds acc /\ n' = n + lenN ds.
Proof.
  induction s as [|b s IH]; intros acc n v n'; cbn [eat_exponent].
  - intros H. inv H. exists []. rewrite lenN_nil. repeat split; auto. lia.
  - destruct (digit_value b) as [d|] eqn:D; [|discriminate].
    intros H. apply IH in H as (ds & -> & F & -> & ->). apply digit_value_spec in D as [-> D]. exists (d :: ds).
    rewrite lenN_cons. repeat split; auto. lia.
Qed.
Lemma not_digit_sign b : digit_value b <> None -> b <> "-"%byte /\ b <> "+"%byte /\ b <> "."%byte /\ b <> "e"%byte /\ b <> "E"%byte.
Proof. intros H. repeat split; intros ->; apply H; reflexivity. Qed.
Lemma digits_head ds b r : Forall (fun d => d < 10) ds -> digits_text ds = b :: r -> digit_value b <> None.
Proof.
  intros F. destruct ds as [|d ds]; [discriminate|]. inv F. cbn [digits_text map]. intros H. inv H. rewrite digit_value_digit by assumption. discriminate.
Qed.

Lemma parse_exponent_spec s e : parse_exponent s = Some e <-> exponent_text s e.
Proof.
  unfold exponent_text. destruct s as [|c s]; cbn [parse_exponent].
  - split; [intros H; inv H; auto|]. intros [[_ ->]|(c & neg & sg & ds & _ & _ & _ & _ & K & _)]; [reflexivity|discriminate].
  - destruct (byte_eqb c "e" || byte_eqb c "E") eqn:C.
    2: { split; [discriminate|]. intros [[K _]|(c' & neg & sg & ds & Hc & _ & _ & _ & K & _)]; [discriminate|]. inv K. destruct Hc; subst; discriminate. }
    assert (c = "e"%byte \/ c = "E"%byte) as Hc by (apply Bool.orb_true_iff in C as [C|C]; apply byte_eqb_eq in C; auto).
    assert (forall neg t, sign_text neg (firstn (length s - length t) s) -> s = firstn (length s - length t) s ++ t ->
      (let '(v, n, rest) := eat_exponent t 0 0 in match rest with [] => if n =? 0 then None else Some (signed neg v) | _ => None end) = Some e ->
      exists c0 neg sg ds, (c0 = "e"%byte \/ c0 = "E"%byte) /\ sign_text neg sg /\ ds <> [] /\ Forall (fun d => d < 10) ds /\
      c :: s = c0 :: sg ++ digits_text ds /\ e = (if neg then - Z.of_N (capped ds 0) else Z.of_N (capped ds 0))%Z) as Fwd.
    { intros neg t St Es. destruct (eat_exponent t 0 0) as [[v n] rest] eqn:Et. destruct rest; [|discriminate].
      apply eat_exponent_inv in Et as (ds & Edt & F & -> & ->). destruct (N.eqb_spec (0 + lenN ds) 0) as [K|K]; [discriminate|].
      intros H. inv H. exists c, neg, (firstn (length s - length (digits_text ds)) s), ds. split; [exact Hc|]. split; [exact St|].
      split; [intros ->; apply K; reflexivity|]. split; [exact F|]. split; [rewrite <- Es; reflexivity|]. reflexivity. }
    split.
    + intros H. right. destruct s as [|b t].
      * cbn in H. discriminate.
      * destruct (byte_eqb b "-") eqn:B1.
        -- apply byte_eqb_eq in B1 as ->. refine (Fwd true t _ _ H); replace (length ("-"%byte :: t) - length t)%nat with 1%nat by (cbn [length]; lia); reflexivity.
        -- destruct (byte_eqb b "+") eqn:B2.
           ++ apply byte_eqb_eq in B2 as ->. refine (Fwd false t _ _ H); replace (length ("+"%byte :: t) - length t)%nat with 1%nat by (cbn [length]; lia); [right|]; reflexivity.
           ++ refine (Fwd false (b :: t) _ _ H); replace (length (b :: t) - length (b :: t))%nat with 0%nat by lia; [left|]; reflexivity.
    + intros [[K _]|(c' & neg & sg & ds & _ & Sg & N0 & F & K & ->)]; [discriminate|]. inv K.
      assert (forall neg, (let '(v, n, rest) := eat_exponent (digits_text ds) 0 0 in match rest with [] => if n =? 0 then None else Some (signed neg v) | _ => None end)
        = Some (if neg then - Z.of_N (capped ds 0) else Z.of_N (capped ds 0))%Z) as Bwd.
      { intros ng. rewrite eat_exponent_app by exact F. destruct (N.eqb_spec (0 + lenN ds) 0) as [K|_]; [destruct ds; [contradiction|rewrite lenN_cons in K; lia]|].
        destruct ng; reflexivity. }
      unfold sign_text in Sg. destruct neg; [subst sg; apply (Bwd true)|]. destruct Sg as [->| ->]; [|apply (Bwd false)]. cbn [app].
      destruct (digits_text ds) as [|b t] eqn:Ed; [destruct ds; [contradiction|discriminate]|].
      pose proof (digits_head ds b t F Ed) as Dh. apply not_digit_sign in Dh as (D1 & D2 & _).
      destruct (byte_eqb b "-") eqn:B1; [apply byte_eqb_eq in B1; contradiction|].
      destruct (byte_eqb b "+") eqn:B2; [apply byte_eqb_eq in B2; contradiction|]. apply (Bwd false).
Qed.

Lemma exponent_head s e b r : exponent_text s e -> s = b :: r -> digit_value b = None /\ b <> "."%byte.
Proof.
  intros [[-> _]|(c & neg & sg & ds & Hc & _ & _ & _ & -> & _)] H; [discriminate|]. inv H. destruct Hc; subst; split; (reflexivity || discriminate).
Qed.
Lemma parse_decimal_spec s d e : parse_decimal s = Some (d, e) <->
  exists body ds fs ex e0, digits_point body ds fs /\ exponent_text ex e0 /\ s = body ++ ex /\ d = digits_value (ds ++ fs) /\ e = (e0 - Z.of_N (lenN fs))%Z.
Proof.
  split.
  - unfold parse_decimal. destruct (eat_digits s 0 0) as [[v n] s1] eqn:E1.
    apply eat_digits_inv in E1 as (ds & Es & F1 & -> & -> & R). rewrite N.mul_0_l, !N.add_0_l in *.
    assert (forall fs ex, Forall (fun d => d < 10) fs -> lenN ds + lenN fs <> 0 -> parse_exponent ex <> None ->
      s = (digits_text ds ++ "."%byte :: digits_text fs) ++ ex \/ fs = [] /\ s = digits_text ds ++ ex ->
      match parse_exponent ex with Some e => Some (digits_value (ds ++ fs), (e - Z.of_N (lenN fs))%Z) | None => None end = Some (d, e) ->
      exists body ds fs ex e0, digits_point body ds fs /\ exponent_text ex e0 /\ s = body ++ ex /\ d = digits_value (ds ++ fs) /\ e = (e0 - Z.of_N (lenN fs))%Z) as Fin.
    { intros fs ex F2 N0 _ Sh. destruct (parse_exponent ex) as [e0|] eqn:Ex; [|discriminate]. intros H. inv H. apply parse_exponent_spec in Ex.
      assert (ds ++ fs <> []) as N1. { intros K. apply app_eq_nil in K as [-> ->]. apply N0; reflexivity. }
      destruct Sh as [Sh|[-> Sh]].
      - exists (digits_text ds ++ "."%byte :: digits_text fs), ds, fs, ex, e0. unfold digits_point. repeat split; auto.
      - exists (digits_text ds), ds, [], ex, e0. unfold digits_point. repeat split; auto. }
    assert (parse_exponent s1 <> None -> lenN ds <> 0 ->
      match parse_exponent s1 with Some e => Some (digits_value ds, (e - Z.of_N 0)%Z) | None => None end = Some (d, e) ->
      exists body ds fs ex e0, digits_point body ds fs /\ exponent_text ex e0 /\ s = body ++ ex /\ d = digits_value (ds ++ fs) /\ e = (e0 - Z.of_N (lenN fs))%Z) as Fin0.
    { intros P N0 H. apply (Fin [] s1); auto; [rewrite lenN_nil; lia|]. rewrite app_nil_r. exact H. }
    destruct s1 as [|b t].
    + destruct (N.eqb_spec (lenN ds) 0) as [K|K]; [discriminate|]. intros H. apply Fin0; auto. discriminate.
    + destruct (byte_eqb b ".") eqn:B.
      * apply byte_eqb_eq in B as ->. destruct (eat_digits t (digits_value ds) 0) as [[v' n'] t'] eqn:E2.
        apply eat_digits_inv in E2 as (fs & -> & F2 & -> & -> & _). rewrite N.add_0_l. rewrite <- digits_value_app.
        destruct (N.eqb_spec (lenN ds + lenN fs) 0) as [K|K]; [discriminate|]. intros H. apply (Fin fs t'); auto.
        -- destruct (parse_exponent t'); [discriminate|discriminate H].
        -- left. rewrite <- app_assoc. exact Es.
      * destruct (N.eqb_spec (lenN ds) 0) as [K|K]; [discriminate|]. intros H. apply Fin0; auto.
        intros Z. rewrite Z in H. discriminate.
  - intros (body & ds & fs & ex & e0 & (N0 & F1 & F2 & Sh) & X & -> & -> & ->). unfold parse_decimal.
    assert (lenN ds + lenN fs <> 0) as NZ. { intros K. apply N0. destruct ds; [destruct fs; [reflexivity|]|]; rewrite ?lenN_cons in K; lia. }
    pose proof (proj2 (parse_exponent_spec _ _) X) as PX.
    destruct Sh as [->|[-> ->]].
    + rewrite <- app_assoc. cbn [app]. rewrite eat_digits_app; [|exact F1|intros b r H; inv H; reflexivity].
      change (byte_eqb "." ".") with true. cbv iota. rewrite eat_digits_app; [|exact F2|intros b r H; apply (exponent_head _ _ _ _ X H)].
      destruct (N.eqb_spec (0 + lenN ds + (0 + lenN fs)) 0) as [K|_]; [lia|]. rewrite PX, digits_value_app. repeat f_equal.
    + rewrite eat_digits_app; [|exact F1|intros b r H; apply (exponent_head _ _ _ _ X H)]. rewrite app_nil_r. rewrite lenN_nil in *.
      destruct ex as [|b t].
      * destruct (N.eqb_spec (0 + lenN ds) 0) as [K|_]; [lia|]. rewrite PX. repeat f_equal.
      * destruct (exponent_head _ _ _ _ X eq_refl) as [_ ND]. destruct (byte_eqb b ".") eqn:B; [apply byte_eqb_eq in B; contradiction|].
        destruct (N.eqb_spec (0 + lenN ds) 0) as [K|_]; [lia|]. rewrite PX. repeat f_equal.
Qed.

Lemma lower_spec a b : 97 <= bN b <= 122 -> lower a = b <-> upper_of a b.
Proof.
  intros B. unfold lower, upper_of. pose proof (bN_lt a) as La.
  destruct (N.leb_spec 65 (bN a)) as [L|L]; destruct (N.leb_spec (bN a) 90) as [U|U]; cbn [andb]; split; intros H.
  - subst b. right. rewrite bN_Nb_small by lia. lia.
  - destruct H as [->|[_ H]]; [lia|]. rewrite H. apply Nb_bN.
  - auto.
  - destruct H as [->|[_ H]]; [reflexivity|lia].
  - auto.
  - destruct H as [->|[_ H]]; [reflexivity|lia].
  - auto.
  - destruct H as [->|[_ H]]; [reflexivity|lia].
Qed.
Lemma is_word_spec w s : Forall (fun b => 97 <= bN b <= 122) (list_byte_of_string w) ->
  is_word w s = true <-> Forall2 upper_of s (list_byte_of_string w).
Proof.
  unfold is_word. rewrite str_eqb_eq. generalize (list_byte_of_string w) as l. intros l Fl. revert s.
  induction Fl as [|b l B Fl IH]; intros s.
  - split; [intros H; apply map_eq_nil in H as ->; constructor|]. intros H. inv H. reflexivity.
  - destruct s as [|a s]; [split; [discriminate|intros H; inv H]|]. cbn [map]. split.
    + intros H. injection H as H1 H2. constructor; [apply lower_spec; assumption|]. apply IH. exact H2.
    + intros H. inv H. f_equal; [apply lower_spec; assumption|]. apply IH. assumption.
Qed.
Definition letters (w : string) := Forall (fun b => 97 <= bN b <= 122) (list_byte_of_string w).
Lemma inf_letters : letters "inf". Proof. repeat (constructor; [vm_compute; split; discriminate|]). constructor. Qed.
Lemma infinity_letters : letters "infinity". Proof. repeat (constructor; [vm_compute; split; discriminate|]). constructor. Qed.
Lemma nan_letters : letters "nan". Proof. repeat (constructor; [vm_compute; split; discriminate|]). constructor. Qed.

(** A word does not start as a decimal. *)
Lemma letter_head w s : letters w -> w <> EmptyString -> Forall2 upper_of s (list_byte_of_string w) ->
  exists b t, s = b :: t /\ 65 <= bN b /\ parse_decimal s = None.
Proof.
  intros L N0 F. unfold letters in L. assert (list_byte_of_string w <> []) as NE by (destruct w; [contradiction|discriminate]).
  destruct F as [|a b s l U F]; [contradiction|]. inv L. assert (65 <= bN a) as A by (destruct U as [->|U]; lia).
  exists a, s. split; [reflexivity|]. split; [exact A|]. unfold parse_decimal. cbn [eat_digits].
  assert (digit_value a = None) as ->. { unfold digit_value. destruct (N.leb_spec 48 (bN a)); [|reflexivity]. destruct (N.leb_spec (bN a) 57); [lia|reflexivity]. }
  destruct (byte_eqb a ".") eqn:B; [|reflexivity]. apply byte_eqb_eq in B as ->. exfalso. revert A. vm_compute. intros K. apply K. reflexivity.
Qed.
Lemma parse_magnitude_spec s m : parse_magnitude s = Some m <->
  (exists d e, parse_decimal s = Some (d, e) /\ m = round_dec d e) \/
  ((Forall2 upper_of s (list_byte_of_string "inf") \/ Forall2 upper_of s (list_byte_of_string "infinity")) /\ m = inf_bits) \/
  (Forall2 upper_of s (list_byte_of_string "nan") /\ m = 2143289344).
Proof.
  unfold parse_magnitude.
  pose proof (is_word_spec "inf" s inf_letters) as W1. pose proof (is_word_spec "infinity" s infinity_letters) as W2.
  pose proof (is_word_spec "nan" s nan_letters) as W3. split.
  - destruct (parse_decimal s) as [[d e]|] eqn:P.
    + intros H. inv H. left. eauto.
    + destruct (is_word "inf" s || is_word "infinity" s) eqn:I.
      * intros H. inv H. right. left. split; [|reflexivity]. apply Bool.orb_true_iff in I as [I|I]; [left; apply W1; exact I|right; apply W2; exact I].
      * destruct (is_word "nan" s) eqn:NaN; [|discriminate]. intros H. inv H. right. right. split; [apply W3; reflexivity|reflexivity].
  - intros [(d & e & -> & ->)|[[H ->]|[H ->]]]; [reflexivity| |].
    + assert (is_word "inf" s || is_word "infinity" s = true) as I by (apply Bool.orb_true_iff; destruct H as [H|H]; [left; apply W1|right; apply W2]; exact H).
      destruct H as [H|H]; [destruct (letter_head "inf" s inf_letters ltac:(discriminate) H) as (b & t & _ & _ & P)
                           |destruct (letter_head "infinity" s infinity_letters ltac:(discriminate) H) as (b & t & _ & _ & P)]; rewrite P, I; reflexivity.
    + destruct (letter_head "nan" s nan_letters ltac:(discriminate) H) as (b & t & E & _ & P). rewrite P.
      pose proof (proj2 W3 H) as N3. rewrite N3.
      unfold is_word in *. apply str_eqb_eq in N3. rewrite N3. reflexivity.
Qed.

Lemma magnitude_head s m : parse_magnitude s = Some m -> exists b t, s = b :: t /\ b <> "-"%byte /\ b <> "+"%byte.
Proof.
  destruct s as [|b t]; [vm_compute; discriminate|]. intros H. exists b, t. split; [reflexivity|].
  split; intros ->; unfold parse_magnitude, parse_decimal, is_word in H; cbn [eat_digits map str_eqb] in H; cbv in H; destruct t; discriminate.
Qed.
Lemma f32_parse_split s x : f32_parse s = Some x <->
  exists neg sg body m, sign_text neg sg /\ s = sg ++ body /\ parse_magnitude body = Some m /\ x = with_sign neg m.
Proof.
  split.
  - destruct s as [|b t]; [discriminate|]. cbn [f32_parse].
    destruct (byte_eqb b "-") eqn:B1.
    { apply byte_eqb_eq in B1 as ->. destruct (parse_magnitude t) as [m|] eqn:P; [|discriminate]. cbn [option_map]. intros H. inv H.
      exists true, ["-"%byte], t, m. repeat split; auto. }
    destruct (byte_eqb b "+") eqn:B2.
    { apply byte_eqb_eq in B2 as ->. destruct (parse_magnitude t) as [m|] eqn:P; [|discriminate]. cbn [option_map]. intros H. inv H.
      exists false, ["+"%byte], t, m. repeat split; auto. right. reflexivity. }
    destruct (parse_magnitude (b :: t)) as [m|] eqn:P; [|discriminate]. cbn [option_map]. intros H. inv H.
    exists false, [], (b :: t), m. repeat split; auto. left. reflexivity.
  - intros (neg & sg & body & m & Sg & -> & P & ->). unfold sign_text in Sg. destruct neg.
    + subst sg. cbn [app f32_parse]. change (byte_eqb "-" "-") with true. cbv iota. rewrite P. reflexivity.
    + destruct Sg as [->| ->].
      * destruct (magnitude_head _ _ P) as (b & t & -> & B1 & B2). cbn [app f32_parse].
        destruct (byte_eqb b "-") eqn:K1; [apply byte_eqb_eq in K1; contradiction|].
        destruct (byte_eqb b "+") eqn:K2; [apply byte_eqb_eq in K2; contradiction|]. rewrite P. reflexivity.
      * cbn [app f32_parse]. change (byte_eqb "+" "-") with false. change (byte_eqb "+" "+") with true. cbv iota. rewrite P. reflexivity.
Qed.

(** ** Reading *)
Definition reads_as (s : str) (x : f32) : Prop :=
  (exists neg d e, decimal_text s neg d e /\ x = with_sign neg (round_dec d e)) \/
  (exists neg, (word_text "inf" neg s \/ word_text "infinity" neg s) /\ x = with_sign neg inf_bits) \/
  (exists neg, word_text "nan" neg s /\ x = with_sign neg 2143289344).
Lemma f32_parse_spec s x : f32_parse s = Some x <-> reads_as s x.
Proof.
  rewrite f32_parse_split. unfold reads_as. split.
  - intros (neg & sg & body & m & Sg & -> & P & ->). apply parse_magnitude_spec in P as [(d & e & P & ->)|[[P ->]|[P ->]]].
    + apply parse_decimal_spec in P as (b & ds & fs & ex & e0 & P1 & P2 & -> & -> & ->). left. exists neg. eexists _, _. split; [|reflexivity].
      exists sg, b, ds, fs, ex, e0. repeat split; try apply P1; auto.
    + right. left. exists neg. split; [|reflexivity]. destruct P as [P|P]; [left|right]; exists sg, body; auto.
    + right. right. exists neg. split; [|reflexivity]. exists sg, body; auto.
  - intros [(neg & d & e & (sg & b & ds & fs & ex & e0 & Sg & P1 & P2 & -> & -> & ->) & ->)|[(neg & P & ->)|(neg & (sg & body & Sg & -> & P) & ->)]].
    + exists neg, sg, (b ++ ex). eexists. split; [exact Sg|]. split; [reflexivity|]. split; [|reflexivity]. apply parse_magnitude_spec. left.
      eexists _, _. split; [|reflexivity]. apply parse_decimal_spec. exists b, ds, fs, ex, e0. repeat split; try apply P1; auto.
    + destruct P as [(sg & body & Sg & -> & P)|(sg & body & Sg & -> & P)]; exists neg, sg, body; eexists; (split; [exact Sg|]); (split; [reflexivity|]);
        (split; [|reflexivity]); apply parse_magnitude_spec; right; left; auto.
    + exists neg, sg, body. eexists. split; [exact Sg|]. split; [reflexivity|]. split; [|reflexivity]. apply parse_magnitude_spec. auto.
Qed.

Lemma nan_sf neg : f32_to_sf (with_sign neg 2143289344) = S754_nan.
Proof. destruct neg; vm_compute; reflexivity. Qed.

(** Every text of a decimal is read as the nearest number. *)
Lemma decimal_read s neg d e : decimal_text s neg d e -> exists x, f32_parse s = Some x /\ nearest neg d e x.
Proof.
  intros H. exists (with_sign neg (round_dec d e)). split; [|apply round_dec_nearest]. apply f32_parse_spec. left. eauto.
Qed.
(** Nothing else is read, except words. *)
Lemma number_read s x : f32_parse s = Some x ->
  (exists neg d e, decimal_text s neg d e /\ nearest neg d e x) \/
  (exists neg, (word_text "inf" neg s \/ word_text "infinity" neg s) /\ f32_to_sf x = S754_infinity neg) \/
  (exists neg, word_text "nan" neg s /\ f32_to_sf x = S754_nan).
Proof.
  intros H. apply f32_parse_spec in H as [(neg & d & e & H & ->)|[(neg & H & ->)|(neg & H & ->)]].
  - left. exists neg, d, e. split; [exact H|]. apply round_dec_nearest.
  - right. left. exists neg. split; [exact H|]. apply with_sign_inf.
  - right. right. exists neg. split; [exact H|]. apply nan_sf.
Qed.
Lemma word_read s neg : (word_text "inf" neg s \/ word_text "infinity" neg s -> exists x, f32_parse s = Some x /\ f32_to_sf x = S754_infinity neg) /\
  (word_text "nan" neg s -> exists x, f32_parse s = Some x /\ f32_to_sf x = S754_nan).
Proof.
  split; intros H; eexists; (split; [apply f32_parse_spec; right|]).
  - left. exists neg. split; [exact H|reflexivity].
  - apply with_sign_inf.
  - right. exists neg. split; [exact H|reflexivity].
  - apply nan_sf.
Qed.
