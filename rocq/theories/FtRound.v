(** * fastText models in [f32]: the rows of known words, and what is left of
    them after writing and reading. *)
From Coq Require Import Reals Lra Floats.SpecFloat.
From Verif Require Import Base BaseFacts Utf8 Stream F32 F32Text ChunkIO Subword Vocab Storage Embeddings TextIO FastText FileSpec VocabSpec EmbSpec EmbFacts MatrixFacts
  F32Facts F32RoundSpec F32Round F32Ops F32RoundThms SimRound EmbRound VocabFacts RankSpec DotRound SumSpec SumRound TripSpec TripRound FastTextSpec FastTextFacts FastTextReal FastTextThms.
Local Open Scope R_scope.

(** ** Subtracting is adding the opposite *)
Definition f32_opp (y : f32) : f32 := sf_to_f32 (SFopp (f32_to_sf y)).
Lemma opp_sf y : f32_finite y -> f32_to_sf (f32_opp y) = SFopp (f32_to_sf y).
Proof.
  intros [v V]. unfold f32_opp. destruct (value_cases y v V) as [(s & E & _)|(s & m & e & E & _ & C & _)]; rewrite E; cbn [SFopp]; [apply zero_back|apply f32_to_sf_of; exact C].
Qed.
Lemma opp_value y v : f32_value y = Some v -> f32_value (f32_opp y) = Some (- v).
Proof.
  intros V. unfold f32_value. rewrite opp_sf by (exists v; exact V). unfold f32_value in V. destruct (f32_to_sf y) as [s|s| |s m e]; try discriminate; injection V as <-; cbn [SFopp]; f_equal; [lra|].
  destruct s; cbn [negb]; lra.
Qed.
Lemma opp_finite y : f32_finite y -> f32_finite (f32_opp y).
Proof. intros [v V]. exists (- v). apply opp_value, V. Qed.
Lemma opp_R y : f32_finite y -> f32_R (f32_opp y) = - f32_R y.
Proof. intros F. apply finite_R in F. apply opp_value in F. unfold f32_R at 1. rewrite F. reflexivity. Qed.
Lemma sub_opp x y : f32_finite y -> f32_sub x y = f32_add x (f32_opp y).
Proof.
  intros F. unfold f32_sub, f32_add, f32_op2. rewrite (opp_sf y F). f_equal.
  destruct (f32_to_sf x) as [s|s| |s m e], (f32_to_sf y) as [s'|s'| |s' m' e']; cbn [SFopp SFsub SFadd]; try reflexivity.
  all: try (destruct s, s'; reflexivity).
  all: f_equal; destruct s, s'; cbn [negb cond_Zopp]; lia.
Qed.

(** ** Sums, from below *)
Lemma fold_add_exists xs : forall acc a T M d, f32_value acc = Some a -> Rabs T <= M -> Rabs (a - T) <= ((1 + u) ^ d - 1) * M -> Forall f32_finite xs ->
  (1 + u) ^ (d + length xs) * (M + absR xs) <= p2 119 -> exists c, f32_value (fold_left f32_add xs acc) = Some c.
Proof.
  induction xs as [|x xs IH]; intros acc a T M d VA TM E F B; cbn [fold_left]; [eauto|].
  inversion F as [|? ? FX F']; subst. pose proof (finite_R x FX) as VX. set (b := f32_R x) in *. cbn [length map fold_right] in B. fold b in B.
  assert (0 <= absR xs) as AP. { clear. induction xs as [|x xs IH]; cbn [map fold_right]; [lra|]. pose proof (Rabs_pos (f32_R x)). lra. }
  pose proof (Rabs_pos T) as TP. pose proof (Rabs_pos b) as BP.
  destruct (up_pow d (d + S (length xs)) ltac:(lia)) as [P1 P2]. set (P := (1 + u) ^ d) in *. set (Q := (1 + u) ^ (d + S (length xs))) in *.
  assert (Rabs (a + b) <= P * (M + Rabs b)) as AB.
  { replace (a + b) with ((a - T) + T + b) by ring. eapply Rle_trans; [apply Rabs_triang|]. pose proof (Rabs_triang (a - T) T). nra. }
  destruct (add_rounds acc x a b VA VX) as [R _].
  assert (P * (M + Rabs b) <= Q * (M + (Rabs b + absR xs))) as PQ by (apply Rmult_le_compat; lra).
  assert (p2 119 <= p2 120) as B120 by (apply p2_le; lia).
  destruct (bounded_value _ _ R) as (s & VS & _); [lra|].
  assert (f32_value (fold_left f32_add [x] acc) = Some s) as VS' by exact VS.
  pose proof (fold_add_error [x] acc a s T M d VA TM E VS') as ES. cbn [map fold_right length] in ES. fold b in ES. rewrite !Rplus_0_r in ES.
  apply (IH (f32_add acc x) s (T + b) (M + Rabs b) (d + 1)%nat VS).
  - eapply Rle_trans; [apply Rabs_triang|]. lra.
  - exact ES.
  - exact F'.
  - replace (d + 1 + length xs)%nat with (d + S (length xs))%nat by lia. fold Q. replace (M + Rabs b + absR xs) with (M + (Rabs b + absR xs)) by ring. exact B.
Qed.

(** Adding rows to a row. *)
Definition add_rows (acc : list f32) (rs : list (list f32)) : list f32 :=
  map (fun j => fold_left f32_add (map (fun r => nth j r f32_zero) rs) (nth j acc f32_zero)) (seq 0 (length acc)).
Definition abs_at (rs : list (list f32)) (j : nat) : R := fold_right Rplus 0 (map (fun r => Rabs (f32_R (nth j r f32_zero))) rs).
Definition sum_at (rs : list (list f32)) (j : nat) : R := fold_right Rplus 0 (map (fun r => f32_R (nth j r f32_zero)) rs).
Lemma abs_at_nonneg rs j : 0 <= abs_at rs j.
Proof. unfold abs_at. induction rs as [|r rs IH]; cbn [map fold_right]; [lra|]. pose proof (Rabs_pos (f32_R (nth j r f32_zero))). lra. Qed.
Lemma nth_len r j : Rabs (f32_R (nth j r f32_zero)) <= length_R (map f32_R r).
Proof.
  destruct (Nat.lt_ge_cases j (length r)) as [L|L].
  - apply component_len, nth_In, L.
  - rewrite nth_overflow by exact L. unfold f32_R at 1. rewrite zero_value, Rabs_R0. apply len_nonneg.
Qed.
Lemma abs_at_total rs j : abs_at rs j <= total_length rs.
Proof. unfold abs_at, total_length. induction rs as [|r rs IH]; cbn [map fold_right]; [lra|]. pose proof (nth_len r j). lra. Qed.
Lemma sum_abs rs j : Rabs (sum_at rs j) <= abs_at rs j.
Proof. unfold sum_at, abs_at. induction rs as [|r rs IH]; cbn [map fold_right]; [rewrite Rabs_R0; lra|]. eapply Rle_trans; [apply Rabs_triang|]. lra. Qed.
Lemma nth_finite r j : Forall f32_finite r -> f32_finite (nth j r f32_zero).
Proof.
  intros F. destruct (Nat.lt_ge_cases j (length r)) as [L|L].
  - rewrite Forall_forall in F. apply F, nth_In, L.
  - rewrite nth_overflow by exact L. exists 0. apply zero_value.
Qed.

Lemma add_rows_near acc rs d (T M : nat -> R) B : Forall f32_finite acc -> Forall (Forall f32_finite) rs -> (Z.of_nat (d + length rs) <= 8388608)%Z ->
  (forall j, (j < length acc)%nat -> Rabs (T j) <= M j <= B /\ Rabs (f32_R (nth j acc f32_zero) - T j) <= ((1 + u) ^ d - 1) * M j) ->
  B + total_length rs <= p2 118 ->
  Forall f32_finite (add_rows acc rs) /\
  forall j, (j < length acc)%nat ->
  Rabs (f32_R (nth j (add_rows acc rs) f32_zero) - (T j + sum_at rs j)) <= ((1 + u) ^ (d + length rs) - 1) * (M j + abs_at rs j).
Proof.
  intros FA FR K H BB. destruct (sum_factor _ K) as [G0 G1].
  assert (2 * (INR (d + length rs) * u) <= 1) as G2.
  { assert (INR (d + length rs) <= 8388608) by (rewrite INR_IZR_INZ; apply IZR_le; exact K). rewrite u_value. lra. }
  assert (forall j, (j < length acc)%nat -> exists c,
    f32_value (fold_left f32_add (map (fun r => nth j r f32_zero) rs) (nth j acc f32_zero)) = Some c /\
    Rabs (c - (T j + sum_at rs j)) <= ((1 + u) ^ (d + length rs) - 1) * (M j + abs_at rs j)) as MAIN.
  { intros j J. destruct (H j J) as ([TM MB] & E). pose proof (finite_R _ (nth_finite acc j FA)) as VA.
    assert (absR (map (fun r => nth j r f32_zero) rs) = abs_at rs j) as EA by (unfold abs_at; rewrite map_map; reflexivity).
    assert (sumR (map (fun r => nth j r f32_zero) rs) = sum_at rs j) as ES by (unfold sum_at; rewrite map_map; reflexivity).
    assert (Forall f32_finite (map (fun r => nth j r f32_zero) rs)) as FX.
    { apply Forall_map. eapply Forall_impl; [|exact FR]. intros r. apply nth_finite. }
    pose proof (abs_at_total rs j) as AT. pose proof (abs_at_nonneg rs j) as AN. pose proof (Rabs_pos (T j)) as TP.
    destruct (fold_add_exists (map (fun r => nth j r f32_zero) rs) _ _ (T j) (M j) d VA TM E FX) as (c & VC).
    { rewrite map_length, EA. assert (p2 119 = 2 * p2 118) as -> by (rewrite <- p2_succ; reflexivity). apply Rmult_le_compat; lra. }
    exists c. split; [exact VC|]. pose proof (fold_add_error _ _ _ _ _ _ _ VA TM E VC) as R. rewrite map_length, EA, ES in R. exact R. }
  split.
  - unfold add_rows. apply Forall_map, Forall_forall. intros j J. apply in_seq in J. destruct (MAIN j ltac:(lia)) as (c & V & _). exists c. exact V.
  - intros j J. destruct (MAIN j J) as (c & V & R). unfold add_rows. rewrite nth_map_seq by exact J. unfold f32_R at 1. rewrite V. exact R.
Qed.

(** ** Near a vector *)
Lemma near_unit x t ep r n : Forall f32_finite x -> (lenN x <= 4194304)%N -> length (map f32_R x) = length t ->
  p2 (-36) <= length_R t <= p2 49 -> 0 <= ep <= 1 / 2 -> distance_R (map f32_R x) t <= ep * length_R t -> scaled_by_length f32_ops x r n ->
  exists nv, f32_value n = Some nv /\ Forall f32_finite r /\ lenN r = lenN x /\
  distance_R (map f32_R r) (direction_R t) <= 2 * length_error (lenN x) + 2 * ep /\
  Rabs (nv - length_R t) <= (3 / 2 * length_error (lenN x) + ep) * length_R t.
Proof.
  intros F L LL [B1 B2] EP D SC. pose proof (len_dist _ _ LL) as LD. set (m := length_R t) in *. set (lx := length_R (map f32_R x)) in *.
  pose proof (p2_pos (-36)) as P36. assert (Rabs (lx - m) <= ep * m) as LD' by lra. apply abs_bounds in LD'.
  assert (ep * m <= 1 / 2 * m) as EM by (apply Rmult_le_compat_r; lra).
  assert (p2 (-38) <= lx <= p2 50) as LXB.
  { assert (p2 (-36) = 4 * p2 (-38)) as E4. { change (-36)%Z with (2 + -38)%Z. rewrite p2_add. f_equal. rewrite p2_pow by lia. reflexivity. }
    assert (p2 50 = 2 * p2 49) as E2 by (rewrite <- p2_succ; reflexivity). pose proof (p2_pos 49). split; lra. }
  destruct (norm_exists x F L LXB) as (nv & V & NB). assert (n = f32_sqrt (vdot f32_ops x x)) as EN by (destruct SC as (-> & _); reflexivity).
  rewrite <- EN in V. pose proof (scaled_f32 x r n nv F L SC V NB) as (H1 & H2 & H3 & H4). fold lx in H1.
  assert (unit_of x r) as UO by (split; [exact F|]; exists n, nv; auto).
  destruct (unit_direction x r UO L) as (P & LW & UD). fold lx in P.
  exists nv. split; [exact V|]. split; [exact H2|]. split; [unfold lenN; lia|].
  pose proof (length_error_bounds _ L) as LB. pose proof u_bounds as U. set (de := length_error (lenN x)) in *. split.
  - apply Rle_trans with (distance_R (map f32_R r) (direction_R (map f32_R x)) + distance_R (direction_R (map f32_R x)) (direction_R t)).
    { apply dist_triangle; unfold direction_R; rewrite !map_length; [exact LW|rewrite map_length in LL; exact LL]. }
    assert (0 < m) as MP by lra. pose proof (direction_near (map f32_R x) t LL P MP) as DN. fold m in DN.
    assert (distance_R (map f32_R x) t / m <= ep) as DM. { apply Rmult_le_reg_r with m; [lra|]. unfold Rdiv. rewrite Rmult_assoc, Rinv_l by lra. lra. }
    lra.
  - apply abs_bounds in H1. apply Rabs_le.
    assert (de * lx <= de * (3 / 2 * m)) as DL by (apply Rmult_le_compat_l; lra). lra.
Qed.

(** Dividing by a number changes the length only. *)
Lemma divided_near sg t c cv ep r n : Forall f32_finite sg -> (lenN sg <= 4194304)%N -> length (map f32_R sg) = length t ->
  f32_value c = Some cv -> 0 < cv -> p2 (-36) <= length_R t / cv <= p2 49 -> 0 <= ep <= 1 / 4 -> distance_R (map f32_R sg) t <= ep * length_R t ->
  scaled_by_length f32_ops (map (fun x => f32_div x c) sg) r n ->
  exists nv, f32_value n = Some nv /\ Forall f32_finite r /\ lenN r = lenN sg /\
  distance_R (map f32_R r) (direction_R t) <= 2 * length_error (lenN sg) + 3 * u + 2 * ep /\
  Rabs (nv - length_R t / cv) <= (3 / 2 * length_error (lenN sg) + 2 * u + ep) * (length_R t / cv).
Proof.
  intros F L LL V CP [B1 B2] EP D SC. set (m := length_R t) in *. pose proof u_bounds as U. pose proof eta_pos as EPS. pose proof (Rinv_0_lt_compat _ CP) as IC.
  set (X := m / cv) in *. pose proof (p2_pos (-36)) as P36. assert (m = X * cv) as EX by (unfold X, Rdiv; rewrite Rmult_assoc, Rinv_l by lra; ring).
  assert (0 < m) as MP by (rewrite EX; apply Rmult_lt_0_compat; lra).
  pose proof (len_dist _ _ LL) as LD. set (ls := length_R (map f32_R sg)) in *. fold m in LD. assert (Rabs (ls - m) <= ep * m) as LD' by lra. apply abs_bounds in LD'.
  assert (ep * m <= 1 / 4 * m) as EM by (apply Rmult_le_compat_r; lra). pose proof (len_nonneg (map f32_R sg)) as LS0. fold ls in LS0.
  assert (/ cv * ls <= 5 / 4 * X) as LSX. { apply Rle_trans with (/ cv * (5 / 4 * m)); [apply Rmult_le_compat_l; lra|]. right. unfold X. field. lra. }
  set (q := map (fun x => f32_div x c) sg) in *. set (tc := map (fun x => / cv * x) t). set (sc := map (fun x => / cv * x) (map f32_R sg)).
  assert (Forall (fun y => f32_finite (f32_div y c) /\ Rabs (f32_R (f32_div y c) - / cv * f32_R y) <= u * / cv * Rabs (f32_R y) + eta) sg) as H.
  { apply Forall_forall. intros y I. rewrite Forall_forall in F. destruct (div_rounds y c _ _ (finite_R _ (F y I)) V ltac:(lra)) as [R _].
    pose proof (component_len sg y I) as C. fold ls in C. pose proof (Rabs_pos (f32_R y)) as YP. assert (2 * p2 49 <= p2 120) as B120 by (rewrite <- p2_succ; apply p2_le; lia).
    assert (Rabs (f32_R y / cv) = / cv * Rabs (f32_R y)) as EA by (unfold Rdiv; rewrite Rabs_mult, (Rabs_right (/ cv)) by lra; ring).
    assert (/ cv * Rabs (f32_R y) <= / cv * ls) as YL by (apply Rmult_le_compat_l; lra).
    destruct (bounded_value _ _ R) as (v & VV & E); [rewrite EA; lra|]. rewrite EA in E.
    split; [exists v; exact VV|]. unfold f32_R at 1. rewrite VV. rewrite Rabs_minus_sym. replace (/ cv * f32_R y) with (f32_R y / cv) by (unfold Rdiv; ring). lra. }
  assert (Forall f32_finite q) as FQ. { unfold q. apply Forall_map. eapply Forall_impl; [|exact H]. intros y [K _]. exact K. }
  assert (lenN q = lenN sg) as LQ by apply lenN_map.
  assert (distance_R (map f32_R q) sc <= u * (/ cv * ls) + p2 (-139)) as D1.
  { apply Rle_trans with (length_R (plus_R (map (fun z => u * / cv * z) (map (fun y => Rabs (f32_R y)) sg)) (map (fun _ => eta) sg))).
    - apply len_mono. unfold q, sc, plus_R. clear - H. induction H as [|y r [_ E] H IH]; cbn [map combine fst snd]; constructor; [exact E|exact IH].
    - eapply Rle_trans; [apply minkowski; rewrite !map_length; reflexivity|]. rewrite len_scale, len_abs. fold ls. apply Rplus_le_compat.
      + rewrite Rabs_right by (apply Rle_ge, Rmult_le_pos; lra). lra.
      + eapply Rle_trans; [apply len_const; [lra|exact L]|]. rewrite <- p2_add. change (11 + -150)%Z with (-139)%Z. lra. }
  assert (distance_R sc tc = / cv * distance_R (map f32_R sg) t) as D2 by (unfold sc, tc; rewrite dist_scale, Rabs_right by lra; reflexivity).
  assert (/ cv * distance_R (map f32_R sg) t <= ep * X) as D3. { unfold X, Rdiv. replace (ep * (m * / cv)) with (/ cv * (ep * m)) by ring. apply Rmult_le_compat_l; lra. }
  assert (length_R tc = X) as LTC by (unfold tc, X; rewrite len_scale, Rabs_right by lra; fold m; unfold Rdiv; ring).
  assert (p2 (-139) <= u * (1 / 1000) * X) as T.
  { assert (p2 (-139) <= p2 (-24) * p2 (-10) * p2 (-36)) as K by (rewrite <- !p2_add; apply p2_le; lia).
    assert (p2 (-10) <= 1 / 1000) as K'. { assert (p2 (-10) * p2 10 = 1) as K' by (rewrite <- p2_add; reflexivity). assert (p2 10 = 1024) as K'' by (rewrite p2_pow by lia; reflexivity). rewrite K'' in K'. lra. }
    eapply Rle_trans; [exact K|]. pose proof (p2_pos (-10)). apply Rmult_le_compat; [apply Rmult_le_pos; lra|lra|apply Rmult_le_compat_l; lra|lra]. }
  assert (u * (/ cv * ls) <= u * (5 / 4 * X)) as T2 by (apply Rmult_le_compat_l; lra). assert (0 <= u * X) as UX by (apply Rmult_le_pos; lra).
  assert (distance_R (map f32_R q) tc <= (3 / 2 * u + ep) * X) as DQ.
  { eapply Rle_trans; [apply (dist_triangle (map f32_R q) sc tc); unfold q, sc, tc; rewrite !map_length in *; congruence|]. rewrite D2. lra. }
  destruct (near_unit q tc (3 / 2 * u + ep) r n FQ ltac:(rewrite LQ; exact L)) as (nv & VN & FR & LR & E1 & E2).
  - unfold q, tc. rewrite !map_length in *. exact LL.
  - rewrite LTC. lra.
  - lra.
  - rewrite LTC. exact DQ.
  - exact SC.
  - rewrite LQ in *. rewrite LTC in E2. unfold tc in E1. rewrite direction_mult in E1 by (try fold m; lra).
    exists nv. split; [exact VN|]. split; [exact FR|]. split; [exact LR|]. split; [lra|]. eapply Rle_trans; [exact E2|]. apply Rmult_le_compat_r; lra.
Qed.

(** ** Reading: the mean of rows *)
Lemma fold_map {A B C} (f : A -> B -> A) (g : C -> B) l : forall z, fold_left (fun a r => f a (g r)) l z = fold_left f (map g l) z.
Proof. induction l as [|x l IH]; intros z; cbn [fold_left map]; [reflexivity|apply IH]. Qed.
Lemma mean_divided own rs : rs <> [] -> mean_row f32_ops own rs = map (fun x => f32_div x (f32_of_N (lenN rs + 1))) (add_rows own rs).
Proof.
  intros NE. destruct rs as [|r0 rs']; [contradiction|]. unfold mean_row. set (rs := r0 :: rs') in *. unfold add_rows. rewrite map_map. apply map_ext. intros j.
  unfold at_. change (fzero f32_ops) with f32_zero. change (fadd f32_ops) with f32_add. rewrite (fold_map f32_add (fun r => nth j r f32_zero)). reflexivity.
Qed.
Lemma count_value k : (k <= 4194304)%N -> exists cv, f32_value (f32_of_N (k + 1)) = Some cv /\
  Rabs (cv - (IZR (Z.of_N k) + 1)) <= 11 / 10 * u * (IZR (Z.of_N k) + 1).
Proof.
  intros K. pose proof (of_N_rounds (k + 1)) as R. replace (IZR (Z.of_N (k + 1))) with (IZR (Z.of_N k) + 1) in R by (rewrite <- plus_IZR; f_equal; lia).
  assert (0 <= IZR (Z.of_N k) <= 4194304) as B by (split; apply IZR_le; lia). set (q := IZR (Z.of_N k) + 1) in *.
  assert (p2 24 <= p2 120) as P by (apply p2_le; lia). assert (p2 24 = 16777216) as E24 by (rewrite p2_pow by lia; reflexivity). rewrite E24 in P.
  destruct (bounded_value _ _ R) as (cv & V & E). { rewrite Rabs_right by (unfold q; lra). unfold q. lra. }
  exists cv. split; [exact V|]. rewrite Rabs_minus_sym. eapply Rle_trans; [exact E|]. rewrite Rabs_right by (unfold q; lra).
  assert (eta <= u * p2 (-10)) as EE by (rewrite <- p2_add; apply p2_le; lia).
  assert (p2 (-10) <= 1 / 1000) as K'. { assert (p2 (-10) * p2 10 = 1) as K' by (rewrite <- p2_add; reflexivity). assert (p2 10 = 1024) as K'' by (rewrite p2_pow by lia; reflexivity). rewrite K'' in K'. lra. }
  pose proof u_bounds as U. assert (u * p2 (-10) <= u * (1 / 1000)) by (apply Rmult_le_compat_l; lra). assert (u <= u * q) by (unfold q; nra). nra.
Qed.
(** Dividing by the rounded number instead of the number. *)
Lemma quotient_count l q cv : 0 < q -> 0 <= l -> Rabs (cv - q) <= 11 / 10 * u * q -> 0 < cv /\ Rabs (l / cv - l / q) <= 12 / 10 * u * (l / q) /\
  (1 - 2 * u) * (l / q) <= l / cv <= (1 + 2 * u) * (l / q).
Proof.
  intros Q L E. pose proof u_bounds as U. apply abs_bounds in E. assert (u * q <= 1 / 1000000 * q) as UQ by (apply Rmult_le_compat_r; lra).
  assert (0 < cv) as CP by lra. split; [exact CP|]. pose proof (Rinv_0_lt_compat _ Q) as IQ. set (X := l / q) in *.
  assert (0 <= X) as X0 by (unfold X, Rdiv; apply Rmult_le_pos; lra). assert (l = X * q) as EL by (unfold X, Rdiv; rewrite Rmult_assoc, Rinv_l by lra; ring).
  assert (Rabs (l / cv - X) <= 12 / 10 * u * X) as MAIN.
  { apply Rmult_le_reg_r with cv; [exact CP|]. rewrite <- (Rabs_right cv) at 2 by lra. rewrite <- Rabs_mult.
    replace ((l / cv - X) * cv) with (X * (q - cv)) by (rewrite EL; field; lra). rewrite Rabs_mult, (Rabs_right X) by lra.
    replace (12 / 10 * u * X * cv) with (X * (12 / 10 * u * cv)) by ring. apply Rmult_le_compat_l; [exact X0|]. apply Rabs_le. nra. }
  split; [exact MAIN|]. apply abs_bounds in MAIN. assert (0 <= u * X) by (apply Rmult_le_pos; lra). lra.
Qed.

Lemma sums_cons cols own rs : lenN own = cols -> sums_R cols (own :: rs) = map (fun j => f32_R (nth j own f32_zero) + sum_at rs j) (seq 0 (length own)).
Proof. intros L. unfold sums_R, sum_at. cbn [map fold_right]. replace (N.to_nat cols) with (length own) by (unfold lenN in L; lia). reflexivity. Qed.
Lemma sums_one cols own : lenN own = cols -> sums_R cols [own] = map f32_R own.
Proof.
  intros L. rewrite (sums_cons cols own [] L). unfold sum_at. cbn [map fold_right].
  transitivity (map f32_R (map (fun j => nth j own f32_zero) (seq 0 (length own)))); [rewrite map_map; apply map_ext; intros j; ring|rewrite <- map_nth_seq; reflexivity].
Qed.

Lemma own_sums_near cols own rs : lenN own = cols -> Forall (fun r => lenN r = cols) rs -> (lenN rs <= 4194304)%N ->
  Forall (Forall f32_finite) (own :: rs) -> total_length (own :: rs) <= p2 100 ->
  Forall f32_finite (add_rows own rs) /\
  distance_R (map f32_R (add_rows own rs)) (sums_R cols (own :: rs)) <= 2 * (INR (length rs) * u) * total_length (own :: rs).
Proof.
  intros L LR K F B. inversion F as [|? ? FO FR]; subst. pose proof (p2_pos 100) as P100. assert (2 * p2 100 <= p2 118) as B118 by (rewrite <- p2_succ; apply p2_le; lia).
  assert (total_length (own :: rs) = length_R (map f32_R own) + total_length rs) as TE by reflexivity. pose proof (len_nonneg (map f32_R own)) as LO.
  destruct (add_rows_near own rs 0 (fun j => f32_R (nth j own f32_zero)) (fun j => Rabs (f32_R (nth j own f32_zero))) (length_R (map f32_R own)) FO FR) as [FS E].
  - unfold lenN in K. lia.
  - intros j J. split; [split; [lra|apply nth_len]|]. cbn [pow]. rewrite Rminus_diag_eq, Rabs_R0 by reflexivity. lra.
  - lra.
  - split; [exact FS|]. destruct (sum_factor (length rs)) as [G0 G1]; [unfold lenN in K; lia|].
    apply Rle_trans with (length_R (map (fun x => ((1 + u) ^ length rs - 1) * x) (abs_R (lenN own) (own :: rs)))).
    + rewrite (sums_cons (lenN own) own rs eq_refl). apply dist_mono.
      * unfold add_rows. rewrite !map_length. reflexivity.
      * intros j J. unfold add_rows in J. rewrite !map_length, seq_length in J. rewrite (nth_indep _ 0 (f32_R f32_zero)) by (unfold add_rows; rewrite !map_length, seq_length; exact J).
        rewrite map_nth, nth_map_seq by exact J. unfold abs_R. rewrite map_map. replace (N.to_nat (lenN own)) with (length own) by (unfold lenN; lia).
        rewrite nth_map_seq by exact J. cbn [map fold_right]. exact (E j J).
      * unfold abs_R, add_rows. rewrite !map_length, !seq_length. unfold lenN. lia.
    + rewrite len_scale, Rabs_right by lra. pose proof (abs_len (lenN own) (own :: rs) ltac:(constructor; auto)) as AL. pose proof (len_nonneg (abs_R (lenN own) (own :: rs))) as A0.
      apply Rmult_le_compat; lra.
Qed.

(** The mean of [own] and [rs], which stand for the row of a word and the rows
    of its subwords. *)
Lemma mean_near cols own rs r n : lenN own = cols -> Forall (fun r => lenN r = cols) rs -> (cols <= 4194304)%N -> (lenN rs <= 4194304)%N ->
  Forall (Forall f32_finite) (own :: rs) -> total_length (own :: rs) <= powerRZ 2 100 ->
  powerRZ 2 (-35) <= length_R (sums_R cols (own :: rs)) / (INR (length rs) + 1) <= powerRZ 2 48 ->
  8 * (INR (length rs) * powerRZ 2 (-24)) * total_length (own :: rs) <= length_R (sums_R cols (own :: rs)) ->
  scaled_by_length f32_ops (mean_row f32_ops own rs) r n ->
  exists nv, f32_value n = Some nv /\ Forall f32_finite r /\ lenN r = cols /\
  distance_R (map f32_R r) (direction_R (sums_R cols (own :: rs))) <=
    2 * length_error cols + 3 * powerRZ 2 (-24) + 4 * (INR (length rs) * powerRZ 2 (-24)) * (total_length (own :: rs) / length_R (sums_R cols (own :: rs))) /\
  Rabs (nv - length_R (sums_R cols (own :: rs)) / (INR (length rs) + 1)) <=
    (2 * length_error cols + 2 * (INR (length rs) * powerRZ 2 (-24)) * (total_length (own :: rs) / length_R (sums_R cols (own :: rs)))) *
    (length_R (sums_R cols (own :: rs)) / (INR (length rs) + 1)).
Proof.
  intros L LR C K F TB [B1 B2] CO SC. pose proof u_bounds as U. set (t := sums_R cols (own :: rs)) in *. set (l := length_R t) in *.
  set (tot := total_length (own :: rs)) in *. set (k := INR (length rs)) in *. assert (0 <= k) as K0 by apply pos_INR. set (X := l / (k + 1)) in *.
  pose proof (p2_pos (-35)) as P35. assert (l = X * (k + 1)) as EL by (unfold X, Rdiv; rewrite Rmult_assoc, Rinv_l by lra; ring).
  assert (0 < l) as LP by (rewrite EL; apply Rmult_lt_0_compat; lra).
  assert (0 <= tot) as T0. { unfold tot, total_length. generalize (own :: rs). intros q. induction q as [|x q IH]; cbn [map fold_right]; [lra|]. pose proof (len_nonneg (map f32_R x)). lra. }
  pose proof (length_error_bounds cols C) as DE. set (de := length_error cols) in *.
  assert (p2 (-35) = 2 * p2 (-36)) as E36 by (rewrite <- p2_succ; reflexivity). assert (p2 49 = 2 * p2 48) as E49 by (rewrite <- p2_succ; reflexivity).
  assert (0 <= k * u) as KU by (apply Rmult_le_pos; lra).
  set (ep := 2 * (k * u) * (tot / l)). assert (0 <= tot / l) as TL by (unfold Rdiv; apply Rmult_le_pos; [exact T0|apply Rlt_le, Rinv_0_lt_compat, LP]).
  assert (0 <= ep) as EP0 by (unfold ep; apply Rmult_le_pos; lra).
  assert (ep * l = 2 * (k * u) * tot) as EPL by (unfold ep; field; lra).
  assert (ep <= 1 / 4) as EP1. { apply Rmult_le_reg_r with l; [exact LP|]. rewrite EPL. lra. }
  replace (4 * (k * u) * (tot / l)) with (2 * ep) by (unfold ep; ring). fold ep.
  assert (rs = [] \/ rs <> []) as [EN|NE] by (destruct rs; [left; reflexivity|right; discriminate]).
  - subst rs. assert (ep = 0) as EZ by (unfold ep, k; cbn [length INR]; ring). cbn [mean_row] in SC.
    assert (t = map f32_R own) as ET by (apply sums_one, L). inversion F as [|? ? FO _]; subst.
    assert (k = 0) as KZ by reflexivity. assert (X = l) as EX by (rewrite EL, KZ; ring).
    destruct (near_unit own t 0 r n FO C) as (nv & V & FR & LN & E1 & E2).
    + rewrite ET. reflexivity.
    + fold l. rewrite <- EX. pose proof (p2_pos (-36)). pose proof (p2_pos 48). lra.
    + lra.
    + rewrite Rmult_0_l. rewrite ET. pose proof (dist_scales 1 1 (map f32_R own)) as DS. rewrite Rminus_diag_eq, Rabs_R0, Rmult_0_l in DS by reflexivity.
      replace (map (fun x => 1 * x) (map f32_R own)) with (map f32_R own) in DS by (rewrite <- (map_id (map f32_R own)) at 1; apply map_ext; intros; ring). lra.
    + exact SC.
    + exists nv. split; [exact V|]. split; [exact FR|]. split; [exact LN|]. fold de l in E1, E2. rewrite EX, EZ. split; [lra|]. eapply Rle_trans; [exact E2|]. apply Rmult_le_compat_r; lra.
  - rewrite (mean_divided own rs NE) in SC.
    destruct (own_sums_near cols own rs L LR K F TB) as [FS DS]. fold t in DS. fold k in DS. fold tot in DS. rewrite <- EPL in DS.
    destruct (count_value (lenN rs) K) as (cv & VC & EC). assert (IZR (Z.of_N (lenN rs)) = k) as EK by (unfold k, lenN; rewrite nat_N_Z, <- INR_IZR_INZ; reflexivity).
    rewrite EK in EC. destruct (quotient_count l (k + 1) cv ltac:(lra) ltac:(lra) EC) as (CP & QE & QB). fold X in QE, QB.
    assert (lenN (add_rows own rs) = lenN own) as LA by (unfold add_rows, lenN; rewrite map_length, seq_length; reflexivity).
    assert (0 < X) as XP by lra. assert (u * X <= 1 / 1000000 * X) as UX by (apply Rmult_le_compat_r; lra).
    destruct (divided_near (add_rows own rs) t (f32_of_N (lenN rs + 1)) cv ep r n FS ltac:(lia)) as (nv & V & FR & LN & E1 & E2).
    + unfold t, sums_R, add_rows. rewrite !map_length, !seq_length. unfold lenN in L. lia.
    + exact VC.
    + exact CP.
    + fold l. lra.
    + lra.
    + fold l. exact DS.
    + exact SC.
    + rewrite LA, L in *. fold de l in E1, E2. exists nv. split; [exact V|]. split; [exact FR|]. split; [exact LN|]. split; [lra|].
      replace (nv - X) with ((nv - l / cv) + (l / cv - X)) by ring. eapply Rle_trans; [apply Rabs_triang|].
      assert ((3 / 2 * de + 2 * u + ep) * (l / cv) <= (3 / 2 * de + 2 * u + ep) * ((1 + 2 * u) * X)) as E3 by (apply Rmult_le_compat_l; lra).
      assert ((3 / 2 * de + 2 * u + ep) * (2 * u * X) <= 1 * (2 * u * X)) as E4. { apply Rmult_le_compat_r; [|lra]. apply Rmult_le_pos; lra. }
      assert (13 * u * X <= de * X) as E5 by (apply Rmult_le_compat_r; lra). lra.
Qed.

(** ** Writing: what is written such that the mean is the row times its norm *)
Definition opp_rows (rs : list (list f32)) : list (list f32) := map (map f32_opp) rs.
Lemma nth_opp r j : (j < length r)%nat -> nth j (map f32_opp r) f32_zero = f32_opp (nth j r f32_zero).
Proof. intros J. rewrite (nth_indep _ f32_zero (f32_opp f32_zero)) by (rewrite map_length; exact J). apply map_nth. Qed.
Lemma opp_sum rs j : Forall (fun r => (j < length r)%nat) rs -> Forall (Forall f32_finite) rs -> sum_at (opp_rows rs) j = - sum_at rs j.
Proof.
  intros L F. unfold sum_at, opp_rows. rewrite map_map. revert F. induction L as [|r rs J L IH]; intros F; cbn [map fold_right]; [lra|]. inversion F as [|? ? FR F']; subst.
  rewrite IH by exact F'. rewrite nth_opp by exact J. rewrite opp_R by (apply nth_finite; exact FR). lra.
Qed.
Lemma opp_abs rs j : Forall (fun r => (j < length r)%nat) rs -> Forall (Forall f32_finite) rs -> abs_at (opp_rows rs) j = abs_at rs j.
Proof.
  intros L F. unfold abs_at, opp_rows. rewrite map_map. revert F. induction L as [|r rs J L IH]; intros F; cbn [map fold_right]; [lra|]. inversion F as [|? ? FR F']; subst.
  rewrite IH by exact F'. rewrite nth_opp by exact J. rewrite opp_R by (apply nth_finite; exact FR). rewrite Rabs_Ropp. reflexivity.
Qed.
Lemma opp_rows_finite rs : Forall (Forall f32_finite) rs -> Forall (Forall f32_finite) (opp_rows rs).
Proof. intros F. unfold opp_rows. apply Forall_map. eapply Forall_impl; [|exact F]. intros r FR. apply Forall_map. eapply Forall_impl; [|exact FR]. intros x. apply opp_finite. Qed.
Lemma opp_total rs : Forall (Forall f32_finite) rs -> total_length (opp_rows rs) = total_length rs.
Proof.
  unfold total_length, opp_rows. rewrite map_map. induction 1 as [|r rs FR F IH]; cbn [map fold_right]; [reflexivity|]. rewrite IH. f_equal.
  unfold length_R. f_equal. rewrite !map_map. clear - FR. induction FR as [|x r FX FR IH]; cbn [map fold_right]; [reflexivity|]. rewrite IH, opp_R by exact FX. ring.
Qed.
Lemma fold_sub_opp rs j : Forall (fun r => (j < length r)%nat) rs -> Forall (Forall f32_finite) rs -> forall a,
  fold_left (fun a r => f32_sub a (nth j r f32_zero)) rs a = fold_left f32_add (map (fun r => nth j r f32_zero) (opp_rows rs)) a.
Proof.
  intros L. unfold opp_rows. rewrite map_map. induction L as [|r rs J L IH]; intros F a; cbn [fold_left map]; [reflexivity|]. inversion F as [|? ? FR F']; subst.
  rewrite nth_opp by exact J. rewrite sub_opp by (apply nth_finite; exact FR). apply IH, F'.
Qed.
Definition scaled_twice (d : list f32) (n c : f32) : list f32 := map (fun x => f32_mul (f32_mul x n) c) d.
Lemma unmean_added d n rs : rs <> [] -> Forall (fun r => length r = length d) rs -> Forall (Forall f32_finite) rs ->
  unmean_row f32_ops d n rs = add_rows (scaled_twice d n (f32_of_N (lenN rs + 1))) (opp_rows rs).
Proof.
  intros NE L F. destruct rs as [|r0 rs']; [contradiction|]. unfold unmean_row. set (rs := r0 :: rs') in *. unfold add_rows, scaled_twice. rewrite map_length.
  apply map_ext_in. intros j J. apply in_seq in J. unfold at_. change (fzero f32_ops) with f32_zero. change (fsub f32_ops) with f32_sub. change (fmul f32_ops) with f32_mul.
  change (fof_N f32_ops) with f32_of_N. rewrite fold_sub_opp; [|eapply Forall_impl; [|exact L]; intros r E; cbn beta in *; lia|exact F]. f_equal.
  set (g := fun x => f32_mul (f32_mul x n) (f32_of_N (lenN rs + 1))). rewrite (nth_indep (map g d) f32_zero (g f32_zero)) by (rewrite map_length; lia).
  rewrite (map_nth g). reflexivity.
Qed.

(** Two products. *)
Lemma twice_near x n c s cv : f32_finite x -> f32_value n = Some s -> f32_value c = Some cv -> 0 < s -> 1 <= cv -> s * Rabs (f32_R x) <= p2 48 -> cv <= p2 24 ->
  f32_finite (f32_mul (f32_mul x n) c) /\
  Rabs (f32_R (f32_mul (f32_mul x n) c) - cv * s * f32_R x) <= ((1 + u) ^ 2 - 1) * (Rabs (cv * s * f32_R x) + p2 (-126) * (cv + 1)).
Proof.
  intros FX VN VC S0 C1 B CB. pose proof u_bounds as U. pose proof eta_pos as EP. set (y := s * Rabs (f32_R x)) in *. pose proof (Rabs_pos (f32_R x)) as XP.
  assert (0 <= y) as Y0 by (unfold y; apply Rmult_le_pos; lra).
  destruct (mul_rounds x n _ _ (finite_R _ FX) VN) as [R1 _].
  assert (Rabs (f32_R x * s) = y) as EY by (unfold y; rewrite Rabs_mult, (Rabs_right s) by lra; ring).
  assert (p2 48 <= p2 120) as Q1 by (apply p2_le; lia).
  destruct (bounded_value _ _ R1) as (v & V & E); [rewrite EY; lra|]. rewrite EY in E.
  destruct (mul_rounds _ c _ _ V VC) as [R2 _].
  assert (u * y <= 1 * y) as UY by (apply Rmult_le_compat_r; lra). assert (eta <= p2 48) as E48 by (apply p2_le; lia).
  assert (Rabs v <= y + (u * y + eta)) as VB. { replace v with (- (f32_R x * s - v) + f32_R x * s) by ring. eapply Rle_trans; [apply Rabs_triang|]. rewrite Rabs_Ropp, EY. lra. }
  assert (Rabs (v * cv) = cv * Rabs v) as EV by (rewrite Rabs_mult, (Rabs_right cv) by lra; ring). pose proof (Rabs_pos v) as VP.
  assert (cv * Rabs v <= p2 24 * (4 * p2 48)) as CV by (apply Rmult_le_compat; lra).
  assert (p2 24 * (4 * p2 48) = p2 74) as E74. { replace 4 with (p2 2) by (rewrite p2_pow by lia; reflexivity). rewrite <- !p2_add. reflexivity. }
  assert (p2 74 <= p2 120) as Q2 by (apply p2_le; lia).
  destruct (bounded_value _ _ R2) as (w & W & E'); [rewrite EV; lra|]. split; [exists w; exact W|]. unfold f32_R at 1. rewrite W.
  assert (Rabs (cv * s * f32_R x) = cv * y) as EZ. { rewrite Rabs_mult, (Rabs_right (cv * s)) by (apply Rle_ge, Rmult_le_pos; lra). unfold y. ring. }
  rewrite EZ. rewrite EV in E'. replace (w - cv * s * f32_R x) with (- (v * cv - w) + - (cv * (f32_R x * s - v))) by ring.
  eapply Rle_trans; [apply Rabs_triang|]. rewrite !Rabs_Ropp, Rabs_mult, (Rabs_right cv) by lra.
  assert (cv * Rabs (f32_R x * s - v) <= cv * (u * y + eta)) as Z1 by (apply Rmult_le_compat_l; lra).
  assert (u * (cv * Rabs v) <= u * (cv * (y + (u * y + eta)))) as Z2 by (apply Rmult_le_compat_l; [lra|]; apply Rmult_le_compat_l; lra).
  assert (u * p2 (-126) = eta) as Z3 by (rewrite <- p2_add; reflexivity).
  assert (u * (cv * eta) <= 1 * (cv * eta)) as Z4 by (apply Rmult_le_compat_r; [apply Rmult_le_pos; lra|lra]).
  replace (((1 + u) ^ 2 - 1) * (cv * y + p2 (-126) * (cv + 1))) with ((2 * u + u * u) * (cv * y) + (2 + u) * (u * p2 (-126)) * (cv + 1)) by ring.
  rewrite Z3. assert (0 <= u * eta * (cv + 1)) as Z5 by (apply Rmult_le_pos; [apply Rmult_le_pos; lra|lra]). lra.
Qed.

Lemma plus_maps {A} (f g : A -> R) l : plus_R (map f l) (map g l) = map (fun x => f x + g x) l.
Proof. unfold plus_R. induction l as [|x l IH]; cbn [map combine fst snd]; [reflexivity|]. rewrite IH. reflexivity. Qed.
Lemma times_nth s d j : (j < length d)%nat -> nth j (times s d) 0 = s * f32_R (nth j d f32_zero).
Proof.
  intros J. unfold times. rewrite map_map. set (g := fun x => s * f32_R x). rewrite (nth_indep (map g d) 0 (g f32_zero)) by (rewrite map_length; exact J). rewrite (map_nth g). reflexivity.
Qed.

(** Subtracting the subword rows and adding them again. *)
Lemma subtract_add cols d n s rs cv : lenN d = cols -> Forall (fun r => lenN r = cols) rs -> (cols <= 4194304)%N -> (lenN rs <= 1048576)%N -> rs <> [] ->
  Forall f32_finite d -> Forall (Forall f32_finite) rs -> f32_value n = Some s -> 0 < s ->
  f32_value (f32_of_N (lenN rs + 1)) = Some cv -> 1 <= cv <= p2 24 ->
  s * length_R (map f32_R d) <= p2 48 -> total_length rs <= p2 100 ->
  let w := unmean_row f32_ops d n rs in
  lenN w = cols /\ Forall f32_finite (add_rows w rs) /\
  distance_R (map f32_R (add_rows w rs)) (times (cv * s) d) <=
    4 * ((INR (length rs) + 1) * u) * (cv * s * length_R (map f32_R d) + p2 (-115) * (cv + 1) + 2 * total_length rs).
Proof.
  intros L LR C K NE FD FR VN S0 VC [C1 C2] B TB. pose proof u_bounds as U. set (ld := length_R (map f32_R d)) in *. set (tot := total_length rs) in *.
  assert (Forall (fun r => length r = length d) rs) as LR'. { eapply Forall_impl; [|exact LR]. intros r E. cbn beta in E. unfold lenN in *. lia. }
  rewrite (unmean_added d n rs NE LR' FR). set (c := f32_of_N (lenN rs + 1)) in *. set (a := scaled_twice d n c). set (k := length rs) in *.
  assert (length a = length d) as LA by (unfold a, scaled_twice; apply map_length).
  assert (length (opp_rows rs) = k) as LO by (unfold opp_rows; apply map_length).
  set (th := p2 (-126) * (cv + 1)). set (p := fun j => cv * s * f32_R (nth j d f32_zero)).
  assert (0 < cv * s) as CS by (apply Rmult_lt_0_compat; lra). pose proof (p2_pos (-126)) as P126. assert (0 <= th) as TH0 by (unfold th; apply Rmult_le_pos; lra).
  assert (0 <= tot) as T0. { unfold tot, total_length. generalize rs. intros q. induction q as [|x q IH]; cbn [map fold_right]; [lra|]. pose proof (len_nonneg (map f32_R x)). lra. }
  assert (forall j, Forall (fun r => (j < length r)%nat) rs \/ (length d <= j)%nat) as JL.
  { intros j. destruct (Nat.lt_ge_cases j (length d)) as [J|J]; [left|right; exact J]. eapply Forall_impl; [|exact LR']. intros r E. cbn beta in E. lia. }
  assert (forall j, Rabs (p j) <= cv * (s * ld)) as PB.
  { intros j. unfold p. rewrite Rabs_mult, (Rabs_right (cv * s)) by lra. pose proof (nth_len d j) as N1. fold ld in N1. rewrite Rmult_assoc. apply Rmult_le_compat_l; [lra|]. apply Rmult_le_compat_l; lra. }
  pose proof (len_nonneg (map f32_R d)) as LD0. fold ld in LD0.
  assert (cv * (s * ld) <= p2 72) as P72. { change 72%Z with (24 + 48)%Z. rewrite p2_add. apply Rmult_le_compat; try lra. apply Rmult_le_pos; lra. }
  assert (th <= p2 72) as TH1.
  { unfold th. apply Rle_trans with (p2 (-126) * (2 * p2 24)); [apply Rmult_le_compat_l; lra|]. rewrite <- p2_succ, <- p2_add. apply p2_le. lia. }
  assert (2 * p2 72 <= p2 100) as Q100 by (rewrite <- p2_succ; apply p2_le; lia). assert (8 * p2 100 <= p2 118) as Q118.
  { replace 8 with (p2 3) by (rewrite p2_pow by lia; reflexivity). rewrite <- p2_add. apply p2_le. lia. }
  pose proof (p2_pos 100) as P100.
  assert (Forall f32_finite a) as FA.
  { unfold a, scaled_twice. apply Forall_map, Forall_forall. intros x I. rewrite Forall_forall in FD.
    apply (twice_near x n c s cv (FD x I) VN VC S0 C1); [|exact C2]. pose proof (component_len d x I) as CL. fold ld in CL.
    apply Rle_trans with (s * ld); [apply Rmult_le_compat_l; lra|exact B]. }
  (* subtracting *)
  destruct (add_rows_near a (opp_rows rs) 2 p (fun j => Rabs (p j) + th) (p2 100) FA (opp_rows_finite rs FR)) as [FW W].
  { rewrite LO. unfold lenN in K. unfold k. lia. }
  { intros j J. rewrite LA in J. split; [split; [lra|specialize (PB j); lra]|]. unfold a, scaled_twice. set (g := fun x => f32_mul (f32_mul x n) c).
    rewrite (nth_indep (map g d) f32_zero (g f32_zero)) by (rewrite map_length; exact J). rewrite (map_nth g). unfold g.
    apply (twice_near (nth j d f32_zero) n c s cv (nth_finite d j FD) VN VC S0 C1); [|exact C2]. pose proof (nth_len d j) as N1. fold ld in N1.
    apply Rle_trans with (s * ld); [apply Rmult_le_compat_l; lra|exact B]. }
  { rewrite opp_total by exact FR. fold tot. lra. }
  set (w := add_rows a (opp_rows rs)) in *. assert (length w = length d) as LW by (unfold w, add_rows; rewrite map_length, seq_length; exact LA).
  (* adding *)
  destruct (add_rows_near w rs (2 + k) (fun j => p j + sum_at (opp_rows rs) j) (fun j => Rabs (p j) + th + abs_at (opp_rows rs) j) (2 * p2 100) FW FR) as [FS E].
  { fold k. unfold lenN in K. unfold k. lia. }
  { intros j J. rewrite LW in J. split; [split|].
    - eapply Rle_trans; [apply Rabs_triang|]. pose proof (sum_abs (opp_rows rs) j). lra.
    - pose proof (abs_at_total (opp_rows rs) j) as AT. rewrite opp_total in AT by exact FR. fold tot in AT. specialize (PB j). lra.
    - rewrite <- LO. apply W. rewrite LA. exact J. }
  { fold tot. lra. }
  split; [unfold lenN in *; lia|]. split; [exact FS|]. fold k in E.
  destruct (sum_factor (2 + k + k)) as [G0 G1]; [unfold lenN in K; unfold k; lia|].
  assert (INR (2 + k + k) = 2 * (INR k + 1)) as EI by (rewrite !plus_INR; cbn [INR]; ring). rewrite EI in G1. set (f := (1 + u) ^ (2 + k + k) - 1) in *.
  apply Rle_trans with (length_R (map (fun x => f * x) (map (fun j => Rabs (p j) + th + 2 * abs_at rs j) (seq 0 (length d))))).
  - apply dist_mono.
    + unfold add_rows, times. rewrite !map_length, seq_length. exact LW.
    + intros j J. unfold add_rows in J. rewrite !map_length, seq_length, LW in J.
      rewrite (nth_indep _ 0 (f32_R f32_zero)) by (unfold add_rows; rewrite !map_length, seq_length; lia). rewrite map_nth, times_nth by exact J.
      rewrite map_map, nth_map_seq by exact J. specialize (E j ltac:(lia)). destruct (JL j) as [JJ|JJ]; [|lia].
      rewrite (opp_sum rs j JJ FR), (opp_abs rs j JJ FR) in E. replace (p j + - sum_at rs j + sum_at rs j) with (p j) in E by ring. unfold p in E at 1.
      replace (Rabs (p j) + th + 2 * abs_at rs j) with (Rabs (p j) + th + abs_at rs j + abs_at rs j) by ring. exact E.
    + unfold add_rows. rewrite !map_length, !seq_length. symmetry. exact LW.
  - rewrite len_scale, Rabs_right by lra.
    assert (length_R (map (fun j => Rabs (p j) + th + 2 * abs_at rs j) (seq 0 (length d))) <= cv * s * ld + p2 (-115) * (cv + 1) + 2 * tot) as LL.
    { rewrite <- (plus_maps (fun j => Rabs (p j) + th) (fun j => 2 * abs_at rs j)). eapply Rle_trans; [apply minkowski; rewrite !map_length; reflexivity|]. apply Rplus_le_compat.
      - rewrite <- (plus_maps (fun j => Rabs (p j)) (fun j => th)). eapply Rle_trans; [apply minkowski; rewrite !map_length; reflexivity|]. apply Rplus_le_compat.
        + right. replace (cv * s * ld) with (Rabs (cv * s) * length_R (map (fun x => Rabs (f32_R x)) d)) by (rewrite len_abs, Rabs_right by lra; reflexivity).
          rewrite <- len_scale. f_equal. rewrite (map_nth_seq d f32_zero) at 2. rewrite !map_map. apply map_ext. intros j. unfold p. rewrite Rabs_mult, (Rabs_right (cv * s)) by lra. reflexivity.
        + eapply Rle_trans; [apply len_const; [exact TH0|unfold lenN in *; rewrite seq_length; lia]|]. unfold th. rewrite <- Rmult_assoc, <- p2_add. change (11 + -126)%Z with (-115)%Z. lra.
      - rewrite <- (map_map (fun j => abs_at rs j) (fun x => 2 * x)), len_scale, Rabs_right by lra. apply Rmult_le_compat_l; [lra|].
        assert (map (fun j => abs_at rs j) (seq 0 (length d)) = abs_R cols rs) as ->.
        { unfold abs_R, abs_at. replace (N.to_nat cols) with (length d) by (unfold lenN in L; lia). reflexivity. }
        apply abs_len, LR. }
    pose proof (len_nonneg (map (fun j => Rabs (p j) + th + 2 * abs_at rs j) (seq 0 (length d)))) as L0. fold k. apply Rmult_le_compat; lra.
Qed.

(** A row and its norm that are written and read.  [X] is the length of the
    vector, [k] the number of subwords. *)
Lemma unmean_mean_near cols d n s rs r' n' : lenN d = cols -> Forall (fun r => lenN r = cols) rs -> (cols <= 4194304)%N -> (lenN rs <= 1048576)%N ->
  Forall (Forall f32_finite) (d :: rs) -> f32_value n = Some s -> 0 < s -> total_length rs <= powerRZ 2 100 ->
  powerRZ 2 (-35) <= s * length_R (map f32_R d) <= powerRZ 2 47 ->
  20 * powerRZ 2 (-24) * ((INR (length rs) + 1) * (s * length_R (map f32_R d)) + 2 * total_length rs) <= s * length_R (map f32_R d) ->
  scaled_by_length f32_ops (mean_row f32_ops (unmean_row f32_ops d n rs) rs) r' n' ->
  exists nv, f32_value n' = Some nv /\ Forall f32_finite r' /\ lenN r' = cols /\
  distance_R (map f32_R r') (direction_R (map f32_R d)) <=
    2 * length_error cols + 11 * powerRZ 2 (-24) * (INR (length rs) + 1 + 2 * (total_length rs / (s * length_R (map f32_R d)))) /\
  Rabs (nv - s * length_R (map f32_R d)) <=
    2 * length_error cols * (s * length_R (map f32_R d)) + 5 * powerRZ 2 (-24) * ((INR (length rs) + 1) * (s * length_R (map f32_R d)) + 2 * total_length rs).
Proof.
  intros L LR C K F VN S0 TB [B1 B2] CO SC. inversion F as [|? ? FD FR]; subst x l. pose proof u_bounds as U. set (ld := length_R (map f32_R d)) in *. set (X := s * ld) in *.
  set (tot := total_length rs) in *. pose proof (p2_pos (-35)) as P35. pose proof (length_error_bounds cols C) as DE. set (de := length_error cols) in *.
  assert (0 <= tot) as T0. { unfold tot, total_length. generalize rs. intros q. induction q as [|x q IH]; cbn [map fold_right]; [lra|]. pose proof (len_nonneg (map f32_R x)). lra. }
  pose proof (Rinv_0_lt_compat X ltac:(lra)) as IX.
  assert (0 <= tot / X) as TX by (unfold Rdiv; apply Rmult_le_pos; lra).
  assert (p2 (-35) = 2 * p2 (-36)) as E36 by (rewrite <- p2_succ; reflexivity). assert (p2 48 = 2 * p2 47) as E48 by (rewrite <- p2_succ; reflexivity).
  assert (p2 49 = 2 * p2 48) as E49 by (rewrite <- p2_succ; reflexivity). pose proof (p2_pos 47) as P47.
  assert (rs = [] \/ rs <> []) as [NE|NE] by (destruct rs; [left; reflexivity|right; discriminate]).
  - subst rs. cbn [unmean_row mean_row] in SC. cbn [length INR]. unfold total_length in tot. cbn [map fold_right] in tot.
    destruct (reread true d n s _ r' n' FD ltac:(rewrite L; exact C) VN S0 ltac:(fold ld X; lra) eq_refl SC) as (nv & V & _ & FR' & LR' & D1 & _ & D2).
    rewrite L in D1, D2. fold de in D1, D2. fold ld X in D2. exists nv. rewrite L in LR'. split; [exact V|]. split; [exact FR'|]. split; [exact LR'|].
    assert (tot / X = 0) as -> by (unfold tot, Rdiv; ring). assert (0 <= u * X) by (apply Rmult_le_pos; lra). unfold tot. split; lra.
  - destruct (count_value (lenN rs) ltac:(lia)) as (cv & VC & EC). assert (IZR (Z.of_N (lenN rs)) = INR (length rs)) as EK by (unfold lenN; rewrite nat_N_Z, <- INR_IZR_INZ; reflexivity).
    rewrite EK in EC. assert (INR (length rs) <= 1048576) as KB. { rewrite <- EK. apply IZR_le. lia. } assert (1 <= INR (length rs)) as K1.
    { rewrite <- EK. apply IZR_le. destruct rs; [contradiction|]. rewrite lenN_cons. lia. }
    set (k := INR (length rs)) in *. assert (0 <= u * (k + 1)) as UK by (apply Rmult_le_pos; lra). assert (u * (k + 1) <= 1 / 1000 * (k + 1)) as UK' by (apply Rmult_le_compat_r; lra).
    apply abs_bounds in EC. assert (p2 24 = 16777216) as E24 by (rewrite p2_pow by lia; reflexivity).
    assert (1 <= cv <= p2 24) as CB by lra.
    destruct (subtract_add cols d n s rs cv L LR C K NE FD FR VN S0 VC CB ltac:(fold ld X; lra) TB) as (LW & FS & D). set (w := unmean_row f32_ops d n rs) in *. fold ld tot in D. fold k in D.
    rewrite (mean_divided w rs NE) in SC. set (sg := add_rows w rs) in *.
    assert (0 < cv * s) as CS by (apply Rmult_lt_0_compat; lra). set (t := times (cv * s) d) in *.
    assert (length_R t = cv * X) as LT by (unfold t; rewrite times_len by exact CS; unfold X, ld; ring).
    assert (length (map f32_R sg) = length t) as LL. { unfold sg, add_rows, t, times. rewrite !map_length, seq_length. unfold lenN in *; lia. }
    assert (lenN sg = cols) as LS. { unfold sg, add_rows, lenN. rewrite map_length, seq_length. unfold lenN in LW. exact LW. }
    assert (length_R t / cv = X) as EX by (rewrite LT; field; lra).
    (* the error relative to the length *)
    assert (p2 (-115) * (cv + 1) <= 1 / 100 * (cv * X)) as TH.
    { assert (p2 (-115) <= 1 / 1024 * p2 (-35)) as Q. { assert (p2 (-10) = 1 / 1024) as <-. { assert (p2 (-10) * p2 10 = 1) as K' by (rewrite <- p2_add; reflexivity). assert (p2 10 = 1024) as K'' by (rewrite p2_pow by lia; reflexivity). rewrite K'' in K'. lra. }
        rewrite <- p2_add. apply p2_le. lia. }
      pose proof (p2_pos (-115)) as P115. apply Rle_trans with (1 / 1024 * X * (2 * cv)); [apply Rmult_le_compat; lra|].
      assert (0 <= cv * X) by (apply Rmult_le_pos; lra). lra. }
    set (ep := 45 / 10 * u * ((k + 1) + 2 * (tot / X))).
    assert (ep * X = 45 / 10 * u * ((k + 1) * X + 2 * tot)) as EPX by (unfold ep; field; lra).
    assert (0 <= ep) as EP0 by (unfold ep; apply Rmult_le_pos; lra).
    assert (ep <= 1 / 4) as EP1. { apply Rmult_le_reg_r with X; [lra|]. rewrite EPX. lra. }
    assert (distance_R (map f32_R sg) t <= ep * length_R t) as D'.
    { eapply Rle_trans; [exact D|]. rewrite LT. replace (ep * (cv * X)) with (cv * (ep * X)) by ring. rewrite EPX.
      replace (cv * s * ld) with (cv * X) by (unfold X; ring).
      assert (4 * ((k + 1) * u) * (cv * X + p2 (-115) * (cv + 1) + 2 * tot) <= 4 * ((k + 1) * u) * (101 / 100 * (cv * X) + 2 * tot)) as Z1 by (apply Rmult_le_compat_l; lra).
      eapply Rle_trans; [exact Z1|].
      assert ((k + 1) * tot <= 101 / 100 * cv * tot) as Z2 by (apply Rmult_le_compat_r; lra).
      assert (u * ((k + 1) * tot) <= u * (101 / 100 * cv * tot)) as Z3 by (apply Rmult_le_compat_l; lra).
      assert (0 <= u * ((k + 1) * cv * X)) as Z4. { apply Rmult_le_pos; [lra|]. apply Rmult_le_pos; [apply Rmult_le_pos; lra|lra]. }
      assert (0 <= u * (cv * tot)) as Z5. { apply Rmult_le_pos; [lra|]. apply Rmult_le_pos; lra. }
      replace (4 * ((k + 1) * u) * (101 / 100 * (cv * X) + 2 * tot)) with (404 / 100 * (u * ((k + 1) * cv * X)) + 8 * (u * ((k + 1) * tot))) by field.
      replace (cv * (45 / 10 * u * ((k + 1) * X + 2 * tot))) with (45 / 10 * (u * ((k + 1) * cv * X)) + 9 * (u * (cv * tot))) by field. lra. }
    destruct (divided_near sg t _ cv ep r' n' FS ltac:(rewrite LS; exact C) LL VC ltac:(lra) ltac:(rewrite EX; lra) (conj EP0 EP1) D' SC) as (nv & V & FR' & LR' & D1 & D2).
    rewrite LS in D1, D2, LR'. fold de in D1, D2. rewrite EX in D2. exists nv. split; [exact V|]. split; [exact FR'|]. split; [exact LR'|]. split.
    + assert (0 < ld) as LD. { destruct (Rle_lt_dec ld 0) as [Z|Z]; [|exact Z]. assert (X <= 0) by (unfold X; rewrite <- (Rmult_0_r s); apply Rmult_le_compat_l; lra). lra. }
      unfold t, times in D1. rewrite (direction_mult (cv * s) _ CS LD) in D1. eapply Rle_trans; [exact D1|]. unfold ep. assert (0 <= u * (tot / X)) by (apply Rmult_le_pos; lra). assert (u * 1 <= u * k) by (apply Rmult_le_compat_l; lra). lra.
    + eapply Rle_trans; [exact D2|]. replace ((3 / 2 * de + 2 * u + ep) * X) with ((3 / 2 * de + 2 * u) * X + ep * X) by ring. rewrite EPX.
      assert ((3 / 2 * de + 2 * u) * X <= 2 * de * X) as Z1 by (apply Rmult_le_compat_r; lra).
      assert (0 <= u * ((k + 1) * X + 2 * tot)) as Z2. { apply Rmult_le_pos; [lra|]. assert (0 <= (k + 1) * X) by (apply Rmult_le_pos; lra). lra. } lra.
Qed.
