(** * Printing a number gives the shortest decimal that is read back. *)
From Coq Require Import Strings.String Strings.Byte Floats.SpecFloat.
From Verif Require Import Base BaseFacts F32 F32Facts TextIO TextSpec TextFacts F32Text F32TextFacts F32TextSpec F32Nearest.
Local Open Scope N_scope.

(** ** Rounding is monotone *)
Lemma units_succ mag : magnitude_units mag < magnitude_units (mag + 1).
Proof.
  destruct (units_fits mag) as (m & k & [F1 F2] & E & ->). rewrite E. pose proof (pow2_nonzero k) as P.
  assert (magnitude_units (k * 8388608 + m + 1) = (m + 1) * 2 ^ k) as ->; [|nia].
  rewrite <- N.add_assoc. destruct (N.eq_dec (m + 1) 16777216) as [K|K].
  - rewrite K. apply units_top.
  - apply units_of_fits. split; [lia|]. destruct F2; [auto|right; lia].
Qed.
Lemma units_lt m1 m2 : m1 < m2 -> magnitude_units m1 < magnitude_units m2.
Proof.
  intros H. replace m2 with (m1 + 1 + (m2 - m1 - 1)) by lia. generalize (m2 - m1 - 1) as j. intros j.
  induction j as [|j IH] using N.peano_ind.
  - rewrite N.add_0_r. apply units_succ.
  - replace (m1 + 1 + N.succ j) with (m1 + 1 + j + 1) by lia. pose proof (units_succ (m1 + 1 + j)). lia.
Qed.
Lemma round_mono a b a' b' : b <> 0 -> b' <> 0 -> a * b' <= a' * b -> round_ratio a b <= round_ratio a' b'.
Proof.
  intros B B' H. assert (forall a b, round_ratio a b <= inf_bits) as Le by (intros; apply N.le_min_r).
  pose proof (Le a b) as L1. pose proof (Le a' b') as L2.
  destruct (N.eq_dec (round_ratio a' b') inf_bits) as [I'|I']; [lia|].
  destruct (N.eq_dec (round_ratio a b) inf_bits) as [I|I].
  { exfalso. apply I'. apply round_ratio_overflow in I; [|exact B]. apply round_ratio_overflow; [exact B'|].
    set (c := 33554431 * 2 ^ 252) in *. set (t := 2 ^ 149) in *.
    assert (c * b * b' <= a * t * b') as H1 by (apply N.mul_le_mono_r; exact I).
    assert (a * b' * t <= a' * b * t) as H2 by (apply N.mul_le_mono_r; exact H).
    apply (N.mul_le_mono_pos_l _ _ b); lia. }
  destruct (N.le_gt_cases (round_ratio a b) (round_ratio a' b')) as [G|G]; [exact G|exfalso].
  set (m := round_ratio a b) in *. set (m' := round_ratio a' b') in *.
  destruct (round_ratio_nearest a b m' B ltac:(fold m; lia)) as [D1 D2]. destruct (round_ratio_nearest a' b' m B' ltac:(fold m'; lia)) as [E1 E2].
  fold m in D1, D2. fold m' in E1, E2. pose proof (units_lt m' m G) as U.
  set (u := magnitude_units m) in *. set (u' := magnitude_units m') in *. set (t := 2 ^ 149) in *.
  unfold dist in *. rewrite !N2Z.inj_mul in *.
  assert (Z.of_N (a * b') <= Z.of_N (a' * b))%Z as HZ by (apply N2Z.inj_le; exact H). rewrite !N2Z.inj_mul in HZ.
  assert (0 < Z.of_N b)%Z as PB by lia. assert (0 < Z.of_N b')%Z as PB' by lia. assert (Z.of_N u' < Z.of_N u)%Z as UZ by lia.
  assert (0 < Z.of_N t)%Z as PT by (pose proof (pow2_nonzero 149); fold t in H0; lia).
  set (A := Z.of_N a) in *. set (A' := Z.of_N a') in *. set (Bz := Z.of_N b) in *. set (Bz' := Z.of_N b') in *. set (V := Z.of_N u) in *. set (V' := Z.of_N u') in *. set (Tz := Z.of_N t) in *.
  assert ((V + V') * Bz <= 2 * (A * Tz))%Z as M1 by (clear D2 E1 E2; nia).
  assert (2 * (A' * Tz) <= (V + V') * Bz')%Z as M2 by (clear D1 D2 E2; nia).
  assert (A * Bz' * Tz <= A' * Bz * Tz)%Z as M3 by (apply Z.mul_le_mono_nonneg_r; lia).
  assert (2 * (A * Tz) = (V + V') * Bz)%Z as Q1.
  { assert (2 * (A * Tz) * Bz' <= (V + V') * Bz * Bz')%Z; [|nia]. nia. }
  assert (2 * (A' * Tz) = (V + V') * Bz')%Z as Q2.
  { assert ((V + V') * Bz' * Bz <= 2 * (A' * Tz) * Bz)%Z; [|nia]. nia. }
  destruct (D2 ltac:(nia)) as [K|K]; [lia|]. destruct (E2 ltac:(nia)) as [K'|K']; [lia|].
  destruct (N.eq_dec m (m' + 1)) as [S|S].
  - rewrite S, N.add_1_r, N.even_succ, <- N.negb_even, K' in K. discriminate.
  - assert (m' + 1 < m) as G2 by lia. pose proof (units_lt _ _ G2) as U2. pose proof (units_lt m' (m' + 1) ltac:(lia)) as U3. fold u in U2. fold u' in U3.
    destruct (round_ratio_nearest a b (m' + 1) B ltac:(fold m; lia)) as [D3 _]. fold m u t in D3. unfold dist in D3. rewrite !N2Z.inj_mul in D3.
    set (W := Z.of_N (magnitude_units (m' + 1))) in *. assert (V' < W < V)%Z as WV by lia. fold A Bz V Tz in D3. clear - D3 WV Q1 PB. nia.
Qed.

(** ** The printed decimal *)
Lemma round_dec_mono d e d' e' : dec_num d e * dec_den e' <= dec_num d' e' * dec_den e -> round_dec d e <= round_dec d' e'.
Proof. intros H. rewrite !round_dec_ratio. apply round_mono; try apply dec_den_nonzero. exact H. Qed.
Lemma round_dec_0 e : round_dec 0 e = 0.
Proof. reflexivity. Qed.
(** The number itself. *)
Lemma round_units mag : mag <= inf_bits -> round_ratio (magnitude_units mag) (2 ^ 149) = mag.
Proof.
  intros H. destruct (units_fits mag) as (m & k & F & E & EU). rewrite (round_ratio_exact _ _ m k (pow2_nonzero 149) F); [lia|].
  rewrite EU. lia.
Qed.
Lemma decimal_below mag d e : mag <= inf_bits -> dec_num d e * 2 ^ 149 <= magnitude_units mag * dec_den e -> round_dec d e <= mag.
Proof. intros L H. rewrite <- (round_units mag L), round_dec_ratio. apply round_mono; [apply dec_den_nonzero|apply pow2_nonzero|exact H]. Qed.
Lemma decimal_above mag d e : mag <= inf_bits -> magnitude_units mag * dec_den e <= dec_num d e * 2 ^ 149 -> mag <= round_dec d e.
Proof. intros L H. rewrite <- (round_units mag L) at 1. rewrite round_dec_ratio. apply round_mono; [apply pow2_nonzero|apply dec_den_nonzero|exact H]. Qed.

(** The candidates are the decimals next to the number. *)
Definition cand_num (x : N) (e : Z) : N := x * dec_den e.
Definition cand_den (e : Z) : N := 2 ^ 149 * 10 ^ Z.to_N e.
Lemma candidates_spec x e : candidates x e =
  if 4 * cand_num x e <? cand_den e then []
  else let q := cand_num x e / cand_den e in
       if 2 * (cand_num x e mod cand_den e) <? cand_den e then [q; q + 1] else [q + 1; q].
Proof.
  unfold candidates, cand_num, cand_den, dec_den. destruct e as [|p|p].
  - change (Z.to_N (- 0)) with 0. change (Z.to_N 0) with 0. rewrite !N.pow_0_r, !N.mul_1_r, div_eucl_pair. reflexivity.
  - change (Z.to_N (- Z.pos p)) with 0. rewrite !N.pow_0_r, !N.mul_1_r, div_eucl_pair. reflexivity.
  - change (Z.to_N (Z.neg p)) with 0. rewrite !N.pow_0_r, !N.mul_1_r. change (Z.to_N (- Z.neg p)) with (N.pos p). rewrite div_eucl_pair. reflexivity.
Qed.
Lemma cand_den_nonzero e : cand_den e <> 0.
Proof. unfold cand_den. pose proof (pow2_nonzero 149). pose proof (pow10_nonzero (Z.to_N e)). intros K. apply N.eq_mul_0 in K as [K|K]; contradiction. Qed.
Lemma dec_num_cand d e : dec_num d e * 2 ^ 149 = d * cand_den e.
Proof. unfold dec_num, cand_den. lia. Qed.

Section Shortest.
  Variable mag : N.
  Hypothesis P : 0 < mag.
  Hypothesis L : mag < inf_bits.
  Notation x := (magnitude_units mag).

  (** A decimal that is read as the number has a neighbour of the number
      with the same exponent that is read so too. *)
  Lemma read_neighbour d e : round_dec d e = mag -> 
    4 * cand_num x e <? cand_den e = false /\
    let q := cand_num x e / cand_den e in
    (d <= q -> round_dec q e = mag) /\ (q + 1 <= d -> round_dec (q + 1) e = mag).
  Proof.
    intros R. assert (d <> 0) as D0. { intros ->. rewrite round_dec_0 in R. revert P. rewrite <- R. apply N.lt_irrefl. }
    pose proof (cand_den_nonzero e) as CD. pose proof (units_pos mag P) as U. split.
    - apply N.ltb_ge. destruct (N.le_gt_cases (cand_den e) (4 * cand_num x e)) as [G|G]; [exact G|exfalso].
      assert (mag + 1 <= round_dec d e) as K; [|lia]. apply decimal_above; [lia|]. rewrite dec_num_cand.
      assert (magnitude_units (mag + 1) <= 2 * x) as S.
      { destruct (units_fits mag) as (m & k & [F1 F2] & E & EU). rewrite EU in *. pose proof (pow2_nonzero k) as PK. rewrite E.
        assert (magnitude_units (k * 8388608 + m + 1) = (m + 1) * 2 ^ k) as ->; [|nia].
        rewrite <- N.add_assoc. destruct (N.eq_dec (m + 1) 16777216) as [K|K]; [rewrite K; apply units_top|].
        apply units_of_fits. split; [lia|]. destruct F2; [auto|right; lia]. }
      unfold cand_num in G. assert (magnitude_units (mag + 1) * dec_den e <= 2 * x * dec_den e) by (apply N.mul_le_mono_r; exact S).
      assert (1 * cand_den e <= d * cand_den e) by (apply N.mul_le_mono_r; lia). lia.
    - cbv zeta. pose proof (N.div_mod (cand_num x e) (cand_den e) CD) as DM. pose proof (N.mod_lt (cand_num x e) (cand_den e) CD) as ML.
      set (q := cand_num x e / cand_den e) in *. split; intros H.
      + apply N.le_antisymm.
        * apply decimal_below; [lia|]. rewrite dec_num_cand. unfold cand_num in *. lia.
        * rewrite <- R. apply round_dec_mono. unfold dec_num. apply N.mul_le_mono_r, N.mul_le_mono_r. exact H.
      + apply N.le_antisymm.
        * rewrite <- R. apply round_dec_mono. unfold dec_num. apply N.mul_le_mono_r, N.mul_le_mono_r. exact H.
        * apply decimal_above; [lia|]. rewrite dec_num_cand. unfold cand_num in *. lia.
  Qed.
  Lemma read_found d e : round_dec d e = mag -> find (fun d => round_dec d e =? mag) (candidates x e) <> None.
  Proof.
    intros R. destruct (read_neighbour d e R) as [G [H1 H2]]. rewrite candidates_spec, G. cbv zeta in *. set (q := cand_num x e / cand_den e) in *.
    assert (round_dec q e = mag \/ round_dec (q + 1) e = mag) as C by (destruct (N.le_gt_cases d q); [left; auto|right; apply H2; lia]).
    destruct (2 * (cand_num x e mod cand_den e) <? cand_den e); cbn [find]; destruct (N.eqb_spec (round_dec q e) mag); destruct (N.eqb_spec (round_dec (q + 1) e) mag);
      try discriminate; destruct C; contradiction.
  Qed.
  Lemma shortest_max fuel : forall e0 d e, shortest fuel mag e0 = (d, e) -> (Z.of_nat fuel = e0 + 149)%Z ->
    forall d' e', round_dec d' e' = mag -> (e' <= e0)%Z -> (e' <= e)%Z.
  Proof.
    induction fuel as [|fuel IH]; intros e0 d e S F d' e' R E'; cbn [shortest] in S.
    - destruct (find _ _) as [d0|]; inv S; lia.
    - destruct (find _ _) as [d0|] eqn:Fd; [inv S; exact E'|]. destruct (Z.eq_dec e' e0) as [->|NE].
      + exfalso. exact (read_found d' e0 R Fd).
      + apply (IH _ _ _ S ltac:(lia) d' e' R). lia.
  Qed.
  Lemma shortest_candidate fuel : forall e0 d e, shortest fuel mag e0 = (d, e) -> (Z.of_nat fuel = e0 + 149)%Z ->
    find (fun d => round_dec d e =? mag) (candidates x e) = Some d.
  Proof.
    induction fuel as [|fuel IH]; intros e0 d e S F; cbn [shortest] in S.
    - destruct (find _ _) as [d0|] eqn:Fd; inv S; [exact Fd|]. exfalso. assert (e0 = -149)%Z as -> by lia.
      rewrite exact_candidates in Fd by exact P. cbn [find] in Fd. rewrite exact_candidate, N.eqb_refl in Fd by lia. discriminate.
    - destruct (find _ _) as [d0|] eqn:Fd; [inv S; exact Fd|]. apply (IH _ _ _ S). lia.
  Qed.

  Context (d : N) (e : Z) (S : shortest_decimal mag = (d, e)).

  (** The exponent is the largest possible. *)
  Lemma printed_exponent d' e' : round_dec d' e' = mag -> (e' <= e)%Z.
  Proof.
    intros R. apply (shortest_max 187 38 d e S eq_refl d' e' R).
    destruct (Z.le_gt_cases e' 38) as [G|G]; [exact G|exfalso]. unfold round_dec in R.
    destruct (d' =? 0); [lia|]. destruct (Z.leb_spec 39 e'); lia.
  Qed.
  (** No decimal with fewer digits is read as the number. *)
  Lemma printed_digits d' e' n : round_dec d' e' = mag -> 10 ^ n <= d -> 10 ^ n <= d'.
  Proof.
    intros R Hn. pose proof (printed_exponent d' e' R) as E'. pose proof (shortest_decimal_reads mag d e P ltac:(lia) S) as [RS _].
    destruct (N.le_gt_cases (10 ^ n) d') as [G|G]; [exact G|exfalso].
    assert (round_dec 1 (e + Z.of_N n) = mag) as R1.
    { apply N.le_antisymm.
      - rewrite <- RS. apply round_dec_mono. unfold dec_num, dec_den.
        assert (10 ^ Z.to_N (e + Z.of_N n) * 10 ^ Z.to_N (- e) = 10 ^ n * (10 ^ Z.to_N e * 10 ^ Z.to_N (- (e + Z.of_N n)))) as Q.
        { rewrite <- !N.pow_add_r. f_equal. lia. }
        assert (10 ^ n * (10 ^ Z.to_N e * 10 ^ Z.to_N (- (e + Z.of_N n))) <= d * (10 ^ Z.to_N e * 10 ^ Z.to_N (- (e + Z.of_N n)))) by (apply N.mul_le_mono_r; exact Hn). lia.
      - rewrite <- R. apply round_dec_mono. unfold dec_num, dec_den.
        assert (10 ^ n * (10 ^ Z.to_N e' * 10 ^ Z.to_N (- (e + Z.of_N n))) <= 10 ^ Z.to_N (e + Z.of_N n) * 10 ^ Z.to_N (- e')) as Q.
        { rewrite <- !N.pow_add_r. apply N.pow_le_mono_r; lia. }
        assert (d' * (10 ^ Z.to_N e' * 10 ^ Z.to_N (- (e + Z.of_N n))) <= 10 ^ n * (10 ^ Z.to_N e' * 10 ^ Z.to_N (- (e + Z.of_N n)))) by (apply N.mul_le_mono_r; lia). lia. }
    pose proof (printed_exponent _ _ R1) as K. assert (n = 0) as -> by lia. change (10 ^ 0) with 1 in G.
    assert (d' = 0) as -> by lia. rewrite round_dec_0 in R. revert P. rewrite <- R. apply N.lt_irrefl.
  Qed.
  (** Of the decimals with this exponent it is the nearest. *)
  Lemma printed_nearest d' : round_dec d' e = mag -> (distance d e (Z.of_N x) <= distance d' e (Z.of_N x))%Z.
  Proof.
    intros R. pose proof (shortest_candidate 187 38 d e S eq_refl) as Fd. destruct (read_neighbour d' e R) as [G [H1 H2]]. cbv zeta in *.
    rewrite candidates_spec, G in Fd. cbv zeta in Fd. rewrite !distance_N, !dec_num_cand. fold (cand_num x e).
    pose proof (cand_den_nonzero e) as CD. pose proof (N.div_mod (cand_num x e) (cand_den e) CD) as DM. pose proof (N.mod_lt (cand_num x e) (cand_den e) CD) as ML.
    set (q := cand_num x e / cand_den e) in *. set (r := cand_num x e mod cand_den e) in *. set (t := cand_den e) in *.
    assert (d' <= q \/ q + 1 <= d') as C by lia.
    assert (d' <= q -> d' * t <= q * t) as M1 by (intros; apply N.mul_le_mono_r; assumption).
    assert (q + 1 <= d' -> (q + 1) * t <= d' * t) as M2 by (intros; apply N.mul_le_mono_r; assumption).
    unfold dist. destruct (N.ltb_spec (2 * r) t) as [H|H]; cbn [find] in Fd.
    - destruct (N.eqb_spec (round_dec q e) mag) as [Y|Y].
      + inv Fd. destruct C as [C|C]; [specialize (M1 C)|specialize (M2 C)]; lia.
      + destruct C as [C|C]; [exfalso; auto|]. destruct (N.eqb_spec (round_dec (q + 1) e) mag) as [Y'|Y']; [|discriminate]. inv Fd. specialize (M2 C). lia.
    - destruct (N.eqb_spec (round_dec (q + 1) e) mag) as [Y|Y].
      + inv Fd. destruct C as [C|C]; [specialize (M1 C)|specialize (M2 C)]; lia.
      + destruct C as [C|C]; [|exfalso; auto]. destruct (N.eqb_spec (round_dec q e) mag) as [Y'|Y']; [|discriminate]. inv Fd. specialize (M1 C). lia.
  Qed.
End Shortest.

Lemma with_sign_inj neg neg' m m' : m <= inf_bits -> m' <= inf_bits -> with_sign neg m = with_sign neg' m' -> neg = neg' /\ m = m'.
Proof.
  intros H H' E. assert (f32_bits (with_sign neg m) = f32_bits (with_sign neg' m')) as K by (rewrite E; reflexivity).
  rewrite !with_sign_bits in K by assumption. unfold inf_bits in *. destruct neg, neg'; split; try reflexivity; lia.
Qed.
(** What is printed for a finite number other than zero. *)
Lemma print_shortest v neg u : f32_units v = Some (neg, u) -> u <> 0%Z -> exists d e ds fs,
  (f32_print v = (if neg then ["-"%byte] else []) ++ digits_text ds ++ (match fs with [] => [] | _ => "."%byte :: digits_text fs end) /\
   ds <> [] /\ Forall (fun x => x < 10) ds /\ Forall (fun x => x < 10) fs /\
   digits_value (ds ++ fs) = d * 10 ^ Z.to_N e /\ lenN fs = Z.to_N (- e)) /\
  forall s' d' e', decimal_text s' neg d' e' -> f32_parse s' = Some v ->
    (forall n, 10 ^ n <= d -> 10 ^ n <= d') /\ (e' <= e)%Z /\ (e' = e -> (distance d e u <= distance d' e u)%Z).
Proof.
  intros Hv Hu. apply f32_units_inv in Hv as (mag & L & -> & ->).
  assert (0 < mag) as P. { destruct (N.eq_dec mag 0) as [->|]; [|lia]. exfalso. apply Hu. reflexivity. }
  destruct (shortest_decimal mag) as [d e] eqn:S. destruct (positional_digits d e) as (ds & fs & N0 & F1 & F2 & E & V & Ln).
  exists d, e, ds, fs. split.
  - split; [|auto 6]. unfold f32_print. rewrite with_sign_bits by lia.
    assert (((if neg then 2147483648 else 0) + mag) mod 2147483648 = mag) as -> by (unfold inf_bits in L; destruct neg; lia).
    assert ((2147483648 <=? (if neg then 2147483648 else 0) + mag) = neg) as ->.
    { unfold inf_bits in L. destruct neg; [apply N.leb_le|apply N.leb_gt]; lia. }
    destruct (N.ltb_spec inf_bits mag) as [K|_]; [lia|]. f_equal. unfold print_mag.
    destruct (N.eqb_spec mag inf_bits) as [K|_]; [lia|]. destruct (N.eqb_spec mag 0) as [K|_]; [lia|]. rewrite S. exact E.
  - intros s' d' e' T Hp. assert (round_dec d' e' = mag) as R.
    { assert (f32_parse s' = Some (with_sign neg (round_dec d' e'))) as Hp' by (apply f32_parse_spec; left; eauto).
      rewrite Hp in Hp'. assert (with_sign neg mag = with_sign neg (round_dec d' e')) as K by congruence. apply with_sign_inj in K; [|lia|apply round_dec_le]. symmetry. apply K. }
    split; [|split].
    + intros n Hn. apply (printed_digits mag P L d e S d' e' n R Hn).
    + apply (printed_exponent mag P L d e S d' e' R).
    + intros ->. apply (printed_nearest mag P L d e S d' R).
Qed.
