(** * Sums of rows in [f32]: the vectors of unknown words. *)
From Coq Require Import Reals Lra Floats.SpecFloat.
From Verif Require Import Base BaseFacts Utf8 F32 Subword Vocab Storage Embeddings FileSpec VocabSpec EmbSpec EmbFacts MatrixFacts
  F32Facts F32RoundSpec F32Round F32Ops F32RoundThms SimRound EmbRound VocabFacts RankSpec DotRound SumSpec.
Local Open Scope R_scope.

(** ** Vectors of real numbers *)
Notation sqR v := (fold_right Rplus 0 (map (fun x => x * x) v)).
Lemma sqR_nonneg v : 0 <= sqR v.
Proof. induction v as [|x v IH]; cbn [map fold_right]; [lra|nra]. Qed.
Lemma len_nonneg v : 0 <= length_R v. Proof. apply sqrt_pos. Qed.
Lemma len_sq v : length_R v * length_R v = sqR v.
Proof. apply sqrt_sqrt, sqR_nonneg. Qed.

Lemma dot_len a : forall b, dot_R a b <= length_R a * length_R b.
Proof.
  induction a as [|x a IH]; intros b.
  - cbn [dot_R combine map fold_right]. pose proof (len_nonneg (@nil R)). pose proof (len_nonneg b). unfold dot_R. cbn [combine map fold_right]. nra.
  - destruct b as [|y b].
    + pose proof (len_nonneg (x :: a)). pose proof (len_nonneg (@nil R)). unfold dot_R. cbn [combine map fold_right]. nra.
    + specialize (IH b). unfold dot_R in *. cbn [combine map fold_right fst snd].
      pose proof (cauchy x y (sqR a) (sqR b) (sqR_nonneg a) (sqR_nonneg b)) as C.
      pose proof (Rle_abs (x * y)). unfold length_R in *. cbn [map fold_right]. lra.
Qed.

Definition plus_R (a b : list R) : list R := map (fun p => fst p + snd p) (combine a b).
Lemma plus_sq a : forall b, length a = length b -> sqR (plus_R a b) = sqR a + 2 * dot_R a b + sqR b.
Proof.
  induction a as [|x a IH]; intros [|y b] L; try discriminate L; unfold plus_R, dot_R in *; cbn [combine map fold_right fst snd].
  - lra.
  - injection L as L. rewrite IH by exact L. lra.
Qed.
Lemma minkowski a b : length a = length b -> length_R (plus_R a b) <= length_R a + length_R b.
Proof.
  intros L. pose proof (len_nonneg a). pose proof (len_nonneg b). unfold length_R at 1. apply sqrt_le_of; [lra|].
  rewrite plus_sq by exact L. pose proof (dot_len a b). pose proof (len_sq a). pose proof (len_sq b). nra.
Qed.
Lemma len_mono a b : Forall2 (fun x y => Rabs x <= y) a b -> length_R a <= length_R b.
Proof.
  intros H. apply sqrt_le_1_alt. induction H as [|x y a b XY H IH]; cbn [map fold_right]; [lra|].
  assert (x * x <= y * y) as Q. { pose proof (Rabs_pos x). rewrite <- (Rabs_right (x * x)) by nra. rewrite Rabs_mult. nra. } lra.
Qed.
Lemma len_scale c v : length_R (map (fun x => c * x) v) = Rabs c * length_R v.
Proof.
  unfold length_R. assert (sqR (map (fun x => c * x) v) = (c * c) * sqR v) as ->.
  { induction v as [|x v IH]; cbn [map fold_right]; [lra|]. rewrite IH. lra. }
  rewrite sqrt_mult by (nra || apply sqR_nonneg). f_equal. rewrite <- (sqrt_Rsqr_abs c). reflexivity.
Qed.
Lemma dist_triangle a : forall b c, length a = length b -> length b = length c -> distance_R a c <= distance_R a b + distance_R b c.
Proof.
  intros b c L1 L2. unfold distance_R.
  assert (map (fun p => fst p - snd p) (combine a c) =
    plus_R (map (fun p => fst p - snd p) (combine a b)) (map (fun p => fst p - snd p) (combine b c))) as ->.
  { revert b c L1 L2. induction a as [|x a IH]; intros [|y b] [|z c] L1 L2; try discriminate; [reflexivity|].
    injection L1 as L1. injection L2 as L2. unfold plus_R in *. cbn [combine map fst snd]. f_equal; [lra|]. apply IH; assumption. }
  apply minkowski. rewrite !map_length, !combine_length. lia.
Qed.
Lemma dist_mono a b m : length a = length b ->
  (forall j, (j < length a)%nat -> Rabs (nth j a 0 - nth j b 0) <= nth j m 0) -> length m = length a -> distance_R a b <= length_R m.
Proof.
  intros L H LM. apply len_mono. revert b m L H LM. induction a as [|x a IH]; intros [|y b] [|z m] L H LM; try discriminate; cbn [combine map fst snd]; constructor.
  - apply (H 0%nat). cbn [length]. lia.
  - apply IH; try (cbn [length] in *; lia). intros j J. apply (H (S j)). cbn [length]. lia.
Qed.
Lemma dist_scale c a b : distance_R (map (fun x => c * x) a) (map (fun x => c * x) b) = Rabs c * distance_R a b.
Proof.
  unfold distance_R. rewrite <- len_scale. f_equal. revert b. induction a as [|x a IH]; intros [|y b]; try reflexivity.
  cbn [map combine fst snd]. rewrite IH. f_equal. lra.
Qed.
Lemma dist_scales c d a : distance_R (map (fun x => c * x) a) (map (fun x => d * x) a) = Rabs (c - d) * length_R a.
Proof.
  unfold distance_R. rewrite <- len_scale. f_equal. induction a as [|x a IH]; [reflexivity|].
  cbn [map combine fst snd]. rewrite IH. f_equal. lra.
Qed.
Lemma dist_sym a : forall b, distance_R a b = distance_R b a.
Proof.
  intros b. unfold distance_R, length_R. f_equal. revert b. induction a as [|x a IH]; intros [|y b]; try reflexivity.
  cbn [combine map fold_right fst snd]. rewrite IH. lra.
Qed.
Lemma len_dist a b : length a = length b -> Rabs (length_R a - length_R b) <= distance_R a b.
Proof.
  assert (forall a b, length a = length b -> length_R a <= length_R b + distance_R a b) as H.
  { clear. intros a b L. unfold distance_R. assert (a = plus_R b (map (fun p => fst p - snd p) (combine a b))) as E.
    { revert b L. induction a as [|x a IH]; intros [|y b] L; try discriminate; [reflexivity|].
      injection L as L. unfold plus_R in *. cbn [combine map fst snd]. f_equal; [lra|]. apply IH, L. }
    rewrite E at 1. apply minkowski. rewrite map_length, combine_length. lia. }
  intros L. pose proof (H a b L) as H1. pose proof (H b a (eq_sym L)) as H2. rewrite dist_sym in H2. apply Rabs_le. lra.
Qed.

(** ** Sums *)

Lemma small_multiple K : (-16777216 < K < 16777216)%Z -> exists z, f32_value z = Some (IZR K * p2 (-149)).
Proof.
  intros B.
  assert (forall s m, (Z.pos m < 16777216)%Z -> f32_value (sf_to_f32 (S754_finite s m (-149))) = Some ((if s then -1 else 1) * IZR (Z.pos m) * p2 (-149))) as H.
  { clear. intros s m L. unfold f32_value. rewrite f32_to_sf_of; [reflexivity|].
    pose proof (digits_bounds m) as [D _].
    assert (Z.pos (digits2_pos m) <= 24)%Z as DB.
    { destruct (Z_le_gt_dec (Z.pos (digits2_pos m)) 24) as [|G]; [assumption|]. exfalso.
      pose proof (Z.pow_le_mono_r 2 24 (Z.pos (digits2_pos m) - 1) ltac:(lia) ltac:(lia)) as P. change (2 ^ 24)%Z with 16777216%Z in P. lia. }
    split; lia. }
  destruct K as [|m|m].
  - exists f32_zero. rewrite zero_value. f_equal. ring.
  - exists (sf_to_f32 (S754_finite false m (-149))). rewrite H by lia. f_equal. ring.
  - exists (sf_to_f32 (S754_finite true m (-149))). rewrite H by lia. f_equal. change (Z.neg m) with (- Z.pos m)%Z. rewrite opp_IZR. ring.
Qed.
(** Addition has no underflow. *)
Lemma add_relative x y a b c : f32_value x = Some a -> f32_value y = Some b -> f32_value (f32_add x y) = Some c ->
  Rabs (a + b - c) <= powerRZ 2 (-24) * Rabs (a + b).
Proof.
  intros VX VY V. destruct (add_rounds x y a b VX VY) as [R _]. pose proof (rounds_error _ _ _ R V) as E.
  destruct (Rle_lt_dec (p2 (-126)) (Rabs (a + b))) as [B|B].
  { eapply Rle_trans; [exact E|]. unfold rounding_error. apply Rmax_lub; [lra|].
    assert (p2 (-150) = u * p2 (-126)) as -> by (rewrite <- p2_add; reflexivity). pose proof u_bounds. nra. }
  assert (exists K, a + b = IZR K * p2 (-149) /\ (-16777216 < K < 16777216)%Z) as (K & EK & KB).
  { destruct (value_multiple _ _ VX) as (k1 & e1 & E1 & B1 & L1). destruct (value_multiple _ _ VY) as (k2 & e2 & E2 & B2 & L2).
    rewrite (p2_shift k1 e1 (-149)) in E1 by lia. rewrite (p2_shift k2 e2 (-149)) in E2 by lia.
    exists (k1 * 2 ^ (e1 - -149) + k2 * 2 ^ (e2 - -149))%Z. split; [rewrite plus_IZR; lra|].
    set (K := (k1 * 2 ^ (e1 - -149) + k2 * 2 ^ (e2 - -149))%Z). assert (a + b = IZR K * p2 (-149)) as EK by (unfold K; rewrite plus_IZR; lra).
    rewrite EK, Rabs_mult, (Rabs_right (p2 (-149))) in B by (pose proof (p2_pos (-149)); lra).
    assert (p2 (-126) = p2 23 * p2 (-149)) as E3 by (rewrite <- p2_add; reflexivity). rewrite E3 in B.
    apply Rmult_lt_reg_r in B; [|apply p2_pos]. rewrite p2_pow in B by lia. rewrite <- abs_IZR in B. apply lt_IZR in B.
    change (2 ^ 23)%Z with 8388608%Z in B. lia. }
  destruct (small_multiple K KB) as [z VZ]. rewrite <- EK in VZ.
  destruct R as (_ & _ & [[_ IN]|[_ (v & V' & N)]]).
  - destruct IN as [s IN]. unfold f32_value in V. rewrite IN in V. discriminate.
  - assert (v = c) as -> by congruence. destruct (N _ _ VZ) as [N' _].
    replace (a + b - (a + b)) with 0 in N' by ring. rewrite Rabs_R0 in N'. pose proof (Rabs_pos (a + b)). pose proof u_bounds. nra.
Qed.

Lemma fold_add_finite xs : forall acc c, f32_value (fold_left f32_add xs acc) = Some c -> f32_finite acc /\ Forall f32_finite xs.
Proof.
  induction xs as [|x xs IH]; intros acc c V; cbn [fold_left] in V; [split; [exists c; exact V|constructor]|].
  destruct (IH _ _ V) as [[d D] F]. destruct (add_finite_inv _ _ _ D) as (a & b & VA & VB & _).
  split; [exists a; exact VA|]. constructor; [exists b; exact VB|exact F].
Qed.
Notation sumR xs := (fold_right Rplus 0 (map f32_R xs)).
Notation absR xs := (fold_right Rplus 0 (map (fun x => Rabs (f32_R x)) xs)).
Lemma fold_add_error xs : forall acc a c T M d, f32_value acc = Some a -> Rabs T <= M -> Rabs (a - T) <= ((1 + u) ^ d - 1) * M ->
  f32_value (fold_left f32_add xs acc) = Some c ->
  Rabs (c - (T + sumR xs)) <= ((1 + u) ^ (d + length xs) - 1) * (M + absR xs).
Proof.
  induction xs as [|x xs IH]; intros acc a c T M d VA TM E V; cbn [fold_left map fold_right length] in *.
  - assert (a = c) as -> by congruence. rewrite !Rplus_0_r, Nat.add_0_r. exact E.
  - destruct (fold_add_finite _ _ _ V) as [[s VS] _]. destruct (add_finite_inv _ _ _ VS) as (a' & b & VA' & VB & _).
    assert (a' = a) as -> by congruence. pose proof (add_relative _ _ _ _ _ VA VB VS) as AE.
    assert (f32_R x = b) as -> by (unfold f32_R; rewrite VB; reflexivity).
    replace (T + (b + sumR xs)) with (T + b + sumR xs) by ring. replace (M + (Rabs b + absR xs)) with (M + Rabs b + absR xs) by ring.
    replace (d + S (length xs))%nat with (S d + length xs)%nat by lia.
    apply (IH (f32_add acc x) s c (T + b) (M + Rabs b) (S d) VS).
    + eapply Rle_trans; [apply Rabs_triang|]. lra.
    + pose proof u_bounds as U. destruct (up_pow d d (le_n _)) as [P1 _]. cbn [pow]. set (P := (1 + u) ^ d) in *.
      pose proof (Rabs_pos T). pose proof (Rabs_pos b) as BP.
      assert (Rabs (a + b) <= (P - 1) * M + M + Rabs b) as AB.
      { replace (a + b) with ((a - T) + T + b) by ring. eapply Rle_trans; [apply Rabs_triang|]. apply Rplus_le_compat_r.
        eapply Rle_trans; [apply Rabs_triang|]. lra. }
      assert (Rabs (s - (T + b)) <= u * Rabs (a + b) + (P - 1) * M) as S1.
      { replace (s - (T + b)) with (- (a + b - s) + (a - T)) by ring. eapply Rle_trans; [apply Rabs_triang|]. rewrite Rabs_Ropp. lra. }
      assert (u * Rabs (a + b) <= u * ((P - 1) * M + M + Rabs b)) by (apply Rmult_le_compat_l; lra).
      assert (0 <= (1 + u) * (P - 1) * Rabs b) by (apply Rmult_le_pos; [nra|lra]). nra.
    + exact V.
Qed.

(** The relative error of the sum of [k] numbers. *)
Lemma sum_factor k : (Z.of_nat k <= 8388608)%Z -> 0 <= (1 + u) ^ k - 1 <= 2 * (INR k * u).
Proof.
  intros K. pose proof (up_pow k k (le_n _)) as [P1 _]. pose proof (bernoulli_high k) as B. set (P := (1 + u) ^ k) in *.
  assert (INR k * u <= 1 / 2) as H.
  { rewrite u_value. assert (INR k <= 8388608). { rewrite INR_IZR_INZ. apply IZR_le. exact K. } lra. }
  pose proof (pos_INR k). pose proof u_bounds. assert (0 <= INR k * u) by nra. split; [lra|]. nra.
Qed.

(** The sums of the absolute values. *)
Definition abs_R (cols : N) (rs : list (list f32)) : list R :=
  map (fun j => fold_right Rplus 0 (map (fun r => Rabs (f32_R (nth j r f32_zero))) rs)) (seq 0 (N.to_nat cols)).
Lemma abs_len cols rs : Forall (fun r => lenN r = cols) rs -> length_R (abs_R cols rs) <= total_length rs.
Proof.
  induction rs as [|r rs IH]; intros H; unfold total_length in *; cbn [map fold_right].
  - unfold length_R, abs_R. cbn [map fold_right]. rewrite map_map. apply sqrt_le_of; [lra|].
    generalize (seq 0 (N.to_nat cols)). intros l. induction l as [|x l IH]; cbn [map fold_right]; lra.
  - inversion H as [|? ? L H']; subst.
    assert (abs_R (lenN r) (r :: rs) = plus_R (map (fun x => Rabs (f32_R x)) r) (abs_R (lenN r) rs)) as ->.
    { rewrite (map_nth_seq r f32_zero) at 3. rewrite map_map. unfold abs_R, plus_R. replace (N.to_nat (lenN r)) with (length r) by (unfold lenN; lia).
      generalize (seq 0 (length r)). intros l. induction l as [|x l IHl]; [reflexivity|]. cbn [map combine fst snd fold_right]. f_equal. exact IHl. }
    eapply Rle_trans; [apply minkowski|].
    + unfold abs_R. rewrite !map_length, seq_length. unfold lenN. lia.
    + apply Rplus_le_compat; [|apply IH, H']. right. unfold length_R. f_equal. rewrite !map_map. f_equal. apply map_ext.
      intros x. rewrite <- Rabs_mult. apply Rabs_right. nra.
Qed.

Lemma component_sum_fold rs j : component_sum f32_ops rs j = fold_left f32_add (map (fun r => nth j r f32_zero) rs) f32_zero.
Proof.
  unfold component_sum. change (fzero f32_ops) with f32_zero. change (fadd f32_ops) with f32_add. generalize f32_zero at 2 4. intros z.
  revert z. induction rs as [|r rs IH]; intros z; [reflexivity|]. cbn [fold_left map]. apply IH.
Qed.

Lemma nth_map_seq {A} (f : nat -> A) n j d : (j < n)%nat -> nth j (map f (seq 0 n)) d = f j.
Proof. intros L. rewrite (nth_indep _ d (f 0%nat)) by (rewrite map_length, seq_length; exact L). rewrite map_nth, seq_nth by exact L. reflexivity. Qed.

Lemma sums_near cols rs : Forall (fun r => lenN r = cols) rs -> (lenN rs <= 8388608)%N ->
  Forall f32_finite (component_sums f32_ops cols rs) ->
  distance_R (map f32_R (component_sums f32_ops cols rs)) (sums_R cols rs) <= 2 * (INR (length rs) * powerRZ 2 (-24)) * total_length rs.
Proof.
  intros L K F. destruct (sum_factor (length rs) ltac:(unfold lenN in K; lia)) as [G0 G1].
  apply Rle_trans with (length_R (map (fun x => ((1 + u) ^ length rs - 1) * x) (abs_R cols rs))).
  - apply dist_mono.
    + unfold component_sums, sums_R. rewrite !map_length. reflexivity.
    + intros j J. unfold component_sums, sums_R, abs_R in *. rewrite !map_length, seq_length in J. rewrite !map_map.
      rewrite !nth_map_seq by exact J.
      assert (f32_finite (component_sum f32_ops rs j)) as [c V].
      { rewrite Forall_forall in F. apply F. apply in_map, in_seq. lia. }
      assert (f32_R (component_sum f32_ops rs j) = c) as -> by (unfold f32_R; rewrite V; reflexivity).
      rewrite component_sum_fold in V.
      pose proof (fold_add_error (map (fun r => nth j r f32_zero) rs) f32_zero 0 c 0 0 0 zero_value) as E. rewrite Rabs_R0, Rminus_0_r, Rabs_R0 in E.
      specialize (E ltac:(lra) ltac:(cbn [pow]; lra) V). rewrite map_length, !map_map, !Rplus_0_l, Nat.add_0_l in E. exact E.
    + unfold component_sums, abs_R. rewrite !map_length. reflexivity.
  - rewrite len_scale, Rabs_right by lra. pose proof (abs_len cols rs L). pose proof (len_nonneg (abs_R cols rs)). apply Rmult_le_compat; lra.
Qed.

(** ** Directions *)
Lemma direction_scale a : direction_R a = map (fun x => / length_R a * x) a.
Proof. unfold direction_R. apply map_ext. intros x. unfold Rdiv. ring. Qed.

(** The direction of the exact sum, from the direction of the computed one. *)
Lemma direction_near v s : length v = length s -> 0 < length_R v -> 0 < length_R s ->
  distance_R (direction_R v) (direction_R s) <= 2 * (distance_R v s / length_R s).
Proof.
  intros L PV PS. rewrite !direction_scale. pose proof (len_dist v s L) as D.
  apply Rle_trans with (distance_R (map (fun x => / length_R v * x) v) (map (fun x => / length_R s * x) v)
    + distance_R (map (fun x => / length_R s * x) v) (map (fun x => / length_R s * x) s)).
  { apply dist_triangle; rewrite !map_length; [reflexivity|exact L]. }
  rewrite dist_scale, dist_scales. pose proof (Rinv_0_lt_compat _ PS) as IS. rewrite (Rabs_right (/ length_R s)) by lra.
  assert (Rabs (/ length_R v - / length_R s) * length_R v = Rabs (length_R v - length_R s) / length_R s) as ->.
  { replace (/ length_R v - / length_R s) with (- (length_R v - length_R s) * (/ length_R v * / length_R s)) by (field; lra).
    rewrite Rabs_mult, Rabs_Ropp, (Rabs_right (/ length_R v * _)); [field; lra|].
    apply Rle_ge, Rlt_le, Rmult_lt_0_compat; [apply Rinv_0_lt_compat; exact PV|exact IS]. }
  unfold Rdiv. assert (Rabs (length_R v - length_R s) * / length_R s <= distance_R v s * / length_R s) by (apply Rmult_le_compat_r; lra). lra.
Qed.

(** What [l2_normalize] gives is near the direction. *)
Lemma unit_direction v w : unit_of v w -> (lenN v <= 4194304)%N ->
  0 < length_R (map f32_R v) /\ length w = length v /\
  distance_R (map f32_R w) (direction_R (map f32_R v)) <= 2 * length_error (lenN v).
Proof.
  intros UN L. destruct (unit_facts v w UN L) as (nv & P & NB & FW & _ & Q). pose proof u_bounds as U.
  pose proof (length_error_bounds _ L) as LB. set (de := length_error (lenN v)) in *. set (l := length_R (map f32_R v)) in *.
  destruct (ratio_bounds nv l de P (len_nonneg _) ltac:(lra) NB) as (LP & R1 & R2).
  assert (length w = length v) as LW by (symmetry; eapply Forall2_same; exact Q).
  split; [exact LP|]. split; [exact LW|].
  pose proof eta_pos as EP.
  apply Rle_trans with (distance_R (map f32_R w) (map (fun x => / nv * x) (map f32_R v))
    + distance_R (map (fun x => / nv * x) (map f32_R v)) (direction_R (map f32_R v))).
  { apply dist_triangle; unfold direction_R; rewrite !map_length; [exact LW|reflexivity]. }
  rewrite direction_scale, dist_scales. fold l.
  assert (Rabs (/ nv - / l) * l <= de * (16 / 15)) as E2.
  { replace (/ nv - / l) with (- (nv - l) * (/ nv * / l)) by (field; lra).
    pose proof (Rinv_0_lt_compat _ P). pose proof (Rinv_0_lt_compat _ LP).
    rewrite Rabs_mult, Rabs_Ropp, (Rabs_right (/ nv * _)) by (apply Rle_ge, Rlt_le, Rmult_lt_0_compat; assumption).
    replace (Rabs (nv - l) * (/ nv * / l) * l) with (Rabs (nv - l) * / nv) by (field; lra).
    apply Rle_trans with (de * l * / nv); [apply Rmult_le_compat_r; lra|].
    replace (de * l * / nv) with (de * (l / nv)) by (unfold Rdiv; ring). apply Rmult_le_compat_l; [lra|]. nra. }
  assert (distance_R (map f32_R w) (map (fun x => / nv * x) (map f32_R v)) <= u * (16 / 15) + u) as E1.
  { apply Rle_trans with (length_R (plus_R (map (fun x => u / nv * x) (map (fun x => Rabs (f32_R x)) v)) (map (fun _ => eta) v))).
    - apply len_mono. clear - Q P. unfold plus_R. induction Q as [|x y v w H Q IH]; cbn [map combine fst snd]; constructor; [|exact IH].
      apply (quotient_near x y nv P) in H. replace (/ nv * f32_R x) with (f32_R x / nv) by (unfold Rdiv; ring). exact H.
    - eapply Rle_trans; [apply minkowski; rewrite !map_length; reflexivity|]. rewrite len_scale. apply Rplus_le_compat.
      + assert (length_R (map (fun x => Rabs (f32_R x)) v) = l) as ->.
        { unfold l, length_R. f_equal. rewrite !map_map. f_equal. apply map_ext. intros x. rewrite <- Rabs_mult. apply Rabs_right. nra. }
        pose proof (Rinv_0_lt_compat _ P). rewrite Rabs_right by (unfold Rdiv; nra).
        replace (u / nv * l) with (u * (l / nv)) by (field; lra). apply Rmult_le_compat_l; [lra|]. nra.
      + unfold length_R. apply sqrt_le_of; [lra|].
        assert (sqR (map (fun _ => eta) v) = INR (length v) * (eta * eta)) as ->.
        { clear. induction v as [|x v IH]; cbn [map fold_right length]; [cbn [INR]; lra|]. rewrite S_INR, IH. lra. }
        assert (INR (length v) <= p2 22) as NL.
        { rewrite p2_pow by lia. rewrite INR_IZR_INZ. apply IZR_le. unfold lenN in L. change (2 ^ 22)%Z with 4194304%Z. lia. }
        assert (u * u = p2 22 * (p2 (-70))) as -> by (rewrite <- !p2_add; reflexivity).
        assert (eta * eta <= p2 (-70)) by (rewrite <- p2_add; apply p2_le; lia). pose proof (p2_pos 22). pose proof (pos_INR (length v)).
        apply Rmult_le_compat; nra. }
  lra.
Qed.

(** The vector of an unknown word is near the direction of the exact sum. *)
Lemma unknown_near {Md S} (SO : storage_ops f32 S) pf (e : embeddings Md vocab_wrap S f32) cols rows w is :
  emb_made SO pf e cols rows -> (cols <= 4194304)%N -> v_idx wrap_ops pf (em_vocab e) w = Ok (Some (Subwords is)) ->
  Forall (fun i => (i < lenN rows)%N) is -> (lenN is <= 8388608)%N ->
  exists rs v n, selects rows is rs /\
  emb_embedding f32_ops wrap_ops SO pf e w = Ok (Some v) /\
  emb_with_norm f32_ops wrap_ops SO pf e w = Ok (Some (v, n)) /\
  forall nv, Forall f32_finite (component_sums f32_ops cols rs) -> f32_value n = Some nv -> powerRZ 2 (-40) <= nv ->
  0 < length_R (sums_R cols rs) ->
  distance_R (map f32_R v) (direction_R (sums_R cols rs)) <=
    2 * length_error cols + 4 * IZR (Z.of_N (lenN is)) * powerRZ 2 (-24) * (total_length rs / length_R (sums_R cols rs)).
Proof.
  intros M L E B K. destruct (unknown_word f32_ops SO pf e cols rows M w is E B) as (rs & v & n & S0 & SC & E1 & E2).
  exists rs, v, n. split; [exact S0|]. split; [exact E1|]. split; [exact E2|]. intros nv F V G PS.
  assert (lenN (component_sums f32_ops cols rs) = cols) as LC by (unfold component_sums, lenN; rewrite map_length, seq_length; lia).
  assert (length rs = length is) as LR by (symmetry; eapply Forall2_same; exact S0).
  destruct (unit_direction (component_sums f32_ops cols rs) v) as (PV & LW & D1).
  { split; [exact F|]. exists n, nv. auto. }
  { rewrite LC. exact L. }
  rewrite LC in D1.
  assert (Forall (fun r => lenN r = cols) rs) as RL by (eapply selects_Forall; [exact S0|apply (sm_cols _ _ _ _ (proj1 (proj2 M)))]).
  assert (lenN rs <= 8388608)%N as KR by (unfold lenN in *; rewrite LR; exact K).
  pose proof (sums_near cols rs RL KR F) as SN.
  assert (length (map f32_R (component_sums f32_ops cols rs)) = length (sums_R cols rs)) as LS by (unfold component_sums, sums_R; rewrite !map_length; reflexivity).
  pose proof (direction_near _ _ LS PV PS) as D2.
  eapply Rle_trans; [apply (dist_triangle _ (direction_R (map f32_R (component_sums f32_ops cols rs))))|].
  - unfold direction_R. rewrite !map_length. exact LW.
  - unfold direction_R. rewrite !map_length. rewrite map_length in LS. exact LS.
  - apply Rplus_le_compat; [exact D1|]. eapply Rle_trans; [exact D2|]. pose proof (Rinv_0_lt_compat _ PS). unfold Rdiv.
    assert (IZR (Z.of_N (lenN is)) = INR (length rs)) as -> by (rewrite LR, INR_IZR_INZ; unfold lenN; f_equal; lia).
    pose proof (Rmult_le_compat_r (/ length_R (sums_R cols rs)) _ _ ltac:(lra) SN). lra.
Qed.
