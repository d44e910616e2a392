(** * The measures in [f32]. *)
From Coq Require Import Reals Lra Floats.SpecFloat.
From Verif Require Import Base BaseFacts F32 SimSpec Similarity F32Facts F32RoundSpec F32Round F32Ops F32RoundThms.
Local Open Scope R_scope.

(** ** Monotone operations *)
Lemma le_cases x y : f32_le x y <->
  f32_inf true x /\ f32_is_nan y = false \/ f32_inf false y /\ f32_is_nan x = false \/
  exists a b, f32_value x = Some a /\ f32_value y = Some b /\ a <= b.
Proof.
  unfold f32_le. split.
  - intros (c & E & G). destruct (class_cases x) as [[N _]|[(s & _ & IX)|[a VX]]].
    { destruct (nan_operand x y (or_introl N)) as (_ & _ & _ & _ & K). congruence. }
    all: destruct (class_cases y) as [[N _]|[(s' & _ & IY)|[b VY]]].
    1,4: destruct (nan_operand x y (or_intror N)) as (_ & _ & _ & _ & K); congruence.
    + assert (f32_is_nan x = false /\ f32_is_nan y = false) as [NX NY].
      { apply inf_sf in IX, IY. unfold f32_is_nan. rewrite IX, IY. auto. }
      destruct s; [auto|]. destruct s'; [|auto]. destruct (cmp_inf x y false IX) as [_ K]. rewrite (K _ IY) in E. congruence.
    + destruct s; [left; split; [exact IX|eapply nan_value; eauto]|].
      destruct (cmp_inf x y false IX) as [K _]. destruct (K (ex_intro _ b VY)) as [K' _]. congruence.
    + destruct s'; [|right; left; split; [exact IY|eapply nan_value; eauto]].
      destruct (cmp_inf y x true IY) as [K _]. destruct (K (ex_intro _ a VX)) as [_ K']. congruence.
    + right. right. exists a, b. split; [exact VX|]. split; [exact VY|].
      destruct (value_compare x y a b VX VY) as (c' & E' & O). destruct c'; cbn [R_order] in O; try lra. congruence.
  - intros [[IX NY]|[[IY NX]|(a & b & VX & VY & L)]].
    + destruct (class_cases y) as [[N _]|[(s' & _ & IY)|F]]; [congruence| |].
      * destruct (cmp_inf x y true IX) as [_ K]. rewrite (K _ IY). destruct s'; eexists; (split; [reflexivity|discriminate]).
      * destruct (cmp_inf x y true IX) as [K _]. destruct (K F) as [-> _]. eexists; (split; [reflexivity|discriminate]).
    + destruct (class_cases x) as [[N _]|[(s' & _ & IX)|F]]; [congruence| |].
      * destruct (cmp_inf x y s' IX) as [_ K]. rewrite (K _ IY). destruct s'; eexists; (split; [reflexivity|discriminate]).
      * destruct (cmp_inf y x false IY) as [K _]. destruct (K F) as [_ ->]. eexists; (split; [reflexivity|discriminate]).
    + destruct (value_compare x y a b VX VY) as (c' & -> & O). exists c'. split; [reflexivity|]. intros ->. cbn [R_order] in O. lra.
Qed.
Lemma nan_or x : {f32_is_nan x = true} + {f32_is_nan x = false}.
Proof. destruct (f32_is_nan x); auto. Qed.
Lemma le_nan x y : f32_le x y -> f32_is_nan x = false /\ f32_is_nan y = false.
Proof.
  intros (c & E & _). split; [destruct (nan_or x) as [N|]|destruct (nan_or y) as [N|]]; auto.
  - destruct (nan_operand x y (or_introl N)) as (_ & _ & _ & _ & K). congruence.
  - destruct (nan_operand x y (or_intror N)) as (_ & _ & _ & _ & K). congruence.
Qed.
Lemma inf_nan s x : f32_inf s x -> f32_is_nan x = false.
Proof. intros H. apply inf_sf in H. unfold f32_is_nan. rewrite H. reflexivity. Qed.
Lemma rounds_nan r x : rounds_to r x -> f32_is_nan x = false.
Proof. intros (_ & _ & [[_ [s I]]|[_ (v & V & _)]]); [|eapply nan_value; eauto]. unfold f32_is_nan. rewrite I. reflexivity. Qed.

Lemma positive_sign c k : f32_value c = Some k -> 0 < k -> f32_negative c = false.
Proof. intros V K. apply (value_sign c k V). exact K. Qed.

Lemma mul_nan c k x : f32_value c = Some k -> 0 < k -> f32_is_nan x = false -> f32_is_nan (f32_mul c x) = false.
Proof.
  intros V K N. destruct (class_cases x) as [[NN _]|[(s & _ & IX)|[a VX]]]; [congruence| |].
  - destruct (inf_finite s x c k IX V) as (_ & _ & _ & _ & M & _). destruct (M ltac:(lra)) as [_ I]. eapply inf_nan; eauto.
  - destruct (mul_rounds c x k a V VX) as [R _]. eapply rounds_nan; eauto.
Qed.
Lemma mul_le c k x y : f32_value c = Some k -> 0 < k -> f32_le x y -> f32_le (f32_mul c x) (f32_mul c y).
Proof.
  intros V K H. pose proof (le_nan _ _ H) as [NX NY]. apply le_cases in H as [[IX _]|[[IY _]|(a & b & VX & VY & L)]]; apply le_cases.
  - left. split; [|eapply mul_nan; eauto]. destruct (inf_finite true x c k IX V) as (_ & _ & _ & _ & M & _). destruct (M ltac:(lra)) as [_ I].
    rewrite (positive_sign c k V K) in I. exact I.
  - right. left. split; [|eapply mul_nan; eauto]. destruct (inf_finite false y c k IY V) as (_ & _ & _ & _ & M & _). destruct (M ltac:(lra)) as [_ I].
    rewrite (positive_sign c k V K) in I. exact I.
  - apply le_cases. destruct (mul_rounds c x k a V VX) as [R1 _]. destruct (mul_rounds c y k b V VY) as [R2 _].
    eapply rounds_mono; [|exact R1|exact R2]. nra.
Qed.
Lemma div_nan c k x : f32_value c = Some k -> 0 < k -> f32_is_nan x = false -> f32_is_nan (f32_div x c) = false.
Proof.
  intros V K N. destruct (class_cases x) as [[NN _]|[(s & _ & IX)|[a VX]]]; [congruence| |].
  - destruct (inf_finite s x c k IX V) as (_ & _ & _ & _ & _ & _ & I & _). eapply inf_nan; eauto.
  - destruct (div_rounds x c a k VX V ltac:(lra)) as [R _]. eapply rounds_nan; eauto.
Qed.
Lemma div_le c k x y : f32_value c = Some k -> 0 < k -> f32_le x y -> f32_le (f32_div x c) (f32_div y c).
Proof.
  intros V K H. pose proof (le_nan _ _ H) as [NX NY]. apply le_cases in H as [[IX _]|[[IY _]|(a & b & VX & VY & L)]]; apply le_cases.
  - left. split; [|eapply div_nan; eauto]. destruct (inf_finite true x c k IX V) as (_ & _ & _ & _ & _ & _ & I & _).
    rewrite (positive_sign c k V K) in I. exact I.
  - right. left. split; [|eapply div_nan; eauto]. destruct (inf_finite false y c k IY V) as (_ & _ & _ & _ & _ & _ & I & _).
    rewrite (positive_sign c k V K) in I. exact I.
  - apply le_cases. destruct (div_rounds x c a k VX V ltac:(lra)) as [R1 _]. destruct (div_rounds y c b k VY V ltac:(lra)) as [R2 _].
    eapply rounds_mono; [|exact R1|exact R2]. apply Rmult_le_compat_r; [left; apply Rinv_0_lt_compat; exact K|exact L].
Qed.
Lemma sub_nan c k x : f32_value c = Some k -> f32_is_nan x = false -> f32_is_nan (f32_sub c x) = false.
Proof.
  intros V N. destruct (class_cases x) as [[NN _]|[(s & _ & IX)|[a VX]]]; [congruence| |].
  - destruct (inf_finite s x c k IX V) as (_ & _ & _ & I & _). eapply inf_nan; eauto.
  - destruct (sub_rounds c x k a V VX) as [R _]. eapply rounds_nan; eauto.
Qed.
Lemma sub_le c k x y : f32_value c = Some k -> f32_le x y -> f32_le (f32_sub c y) (f32_sub c x).
Proof.
  intros V H. pose proof (le_nan _ _ H) as [NX NY]. apply le_cases in H as [[IX _]|[[IY _]|(a & b & VX & VY & L)]]; apply le_cases.
  - right. left. split; [|eapply sub_nan; eauto]. destruct (inf_finite true x c k IX V) as (_ & _ & _ & I & _). exact I.
  - left. split; [|eapply sub_nan; eauto]. destruct (inf_finite false y c k IY V) as (_ & _ & _ & I & _). exact I.
  - apply le_cases. destruct (sub_rounds c x k a V VX) as [R1 _]. destruct (sub_rounds c y k b V VY) as [R2 _].
    eapply rounds_mono; [|exact R2|exact R1]. lra.
Qed.
Lemma zero_value : f32_value f32_zero = Some 0.
Proof. unfold f32_value. vm_compute (f32_to_sf f32_zero). reflexivity. Qed.
Lemma le_zero x : f32_le f32_zero x -> f32_inf false x \/ exists a, f32_value x = Some a /\ 0 <= a.
Proof.
  intros H. apply le_cases in H as [[I _]|[[I _]|(a & b & VX & VY & L)]]; [|auto|].
  - apply inf_sf in I. vm_compute in I. discriminate.
  - rewrite zero_value in VX. inv VX. eauto.
Qed.
Lemma sqrt_nan x : f32_le f32_zero x -> f32_is_nan (f32_sqrt x) = false.
Proof.
  intros H. apply le_zero in H as [I|(a & V & A)].
  - destruct (sqrt_special x) as (_ & _ & S & _). rewrite (S I). eapply inf_nan; eauto.
  - destruct (sqrt_rounds x a V A) as [R _]. eapply rounds_nan; eauto.
Qed.
Lemma sqrt_le x y : f32_le f32_zero x -> f32_le x y -> f32_le (f32_sqrt x) (f32_sqrt y).
Proof.
  intros Z H. assert (f32_le f32_zero y) as ZY.
  { apply le_zero in Z. apply le_cases. pose proof (le_nan _ _ H) as [NX NY]. apply le_cases in H as [[I _]|[[I _]|(a & b & VX & VY & L)]].
    - exfalso. destruct Z as [I'|(a & V & _)].
      + apply inf_sf in I, I'. congruence.
      + apply inf_sf in I. unfold f32_value in V. rewrite I in V. discriminate.
    - right. left. split; [exact I|reflexivity].
    - destruct Z as [I'|(a' & V & A)].
      + apply inf_sf in I'. unfold f32_value in VX. rewrite I' in VX. discriminate.
      + right. right. exists 0, b. split; [apply zero_value|]. split; [exact VY|]. assert (a' = a) by congruence. lra. }
  pose proof (sqrt_nan x Z) as N1. pose proof (sqrt_nan y ZY) as N2.
  pose proof (le_nan _ _ H) as [NX NY]. apply le_zero in Z, ZY.
  destruct ZY as [IY|(b & VY & B)].
  - apply le_cases. right. left. split; [|exact N1]. destruct (sqrt_special y) as (_ & _ & S & _). rewrite (S IY). exact IY.
  - destruct Z as [IX|(a & VX & A)].
    + exfalso. destruct H as (c & E & G). destruct (cmp_inf x y false IX) as [K _]. destruct (K (ex_intro _ b VY)) as [K' _]. congruence.
    + destruct H as (c & E & G). destruct (value_compare x y a b VX VY) as (c' & E' & O).
      destruct (sqrt_rounds x a VX A) as [R1 _]. destruct (sqrt_rounds y b VY B) as [R2 _].
      eapply rounds_mono; [|exact R1|exact R2]. apply sqrt_le_1; try lra. destruct c'; cbn [R_order] in O; try lra. congruence.
Qed.
Lemma le_trans x y z : f32_le x y -> f32_le y z -> f32_le x z.
Proof.
  intros H1 H2. pose proof (le_nan _ _ H1) as [NX NY]. pose proof (le_nan _ _ H2) as [_ NZ].
  apply le_cases in H1 as [[IX _]|[[IY _]|(a & b & VX & VY & L)]]; apply le_cases; [auto| |].
  - right. left. split; [|exact NX]. apply le_cases in H2 as [[I _]|[[I _]|(a & b & V1 & V2 & L)]]; [|exact I|].
    + apply inf_sf in IY, I. congruence.
    + apply inf_sf in IY. unfold f32_value in V1. rewrite IY in V1. discriminate.
  - apply le_cases in H2 as [[I _]|[[I _]|(a' & b' & V1 & V2 & L')]]; [|auto|].
    + apply inf_sf in I. unfold f32_value in VY. rewrite I in VY. discriminate.
    + right. right. exists a, b'. assert (a' = b) by congruence. repeat split; auto. lra.
Qed.

(** ** The measures *)
Lemma two_value : f32_value (f32_of_N 2) = Some 2.
Proof.
  unfold f32_value. replace (f32_to_sf (f32_of_N 2)) with (S754_finite false 8388608 (-22)) by (vm_compute; reflexivity).
  f_equal. assert (8388608 * p2 (-22) = 2) as E; [|lra].
  replace 8388608 with (p2 23) by (rewrite p2_pow by lia; reflexivity). rewrite <- p2_add. apply powerRZ_1.
Qed.
Lemma one_value : f32_value f32_one = Some 1.
Proof.
  unfold f32_value. replace (f32_to_sf f32_one) with (S754_finite false 8388608 (-23)) by (vm_compute; reflexivity).
  f_equal. replace (IZR 8388608) with (p2 23) by (rewrite p2_pow by lia; reflexivity). rewrite Rmult_1_l, <- p2_add. reflexivity.
Qed.

Notation dist s := (euclidean_distance f32_ops s).
Notation esim s := (euclidean_similarity f32_ops s).

Lemma inner_le (x y : wsr f32) : f32_le (wr_sim x) (wr_sim y) ->
  f32_le (f32_sub (f32_of_N 2) (f32_mul (f32_of_N 2) (wr_sim y))) (f32_sub (f32_of_N 2) (f32_mul (f32_of_N 2) (wr_sim x))).
Proof. intros H. eapply sub_le; [apply two_value|]. eapply mul_le; [apply two_value|lra|exact H]. Qed.
Lemma inner_nonneg x : f32_le x f32_one -> f32_le f32_zero (f32_sub (f32_of_N 2) (f32_mul (f32_of_N 2) x)).
Proof.
  intros H. pose proof (inner_le (mkWsr x []) (mkWsr f32_one []) H) as L. cbn [wr_sim] in L.
  replace (f32_sub (f32_of_N 2) (f32_mul (f32_of_N 2) f32_one)) with f32_zero in L by (vm_compute; reflexivity). exact L.
Qed.
Lemma dist_le (x y : wsr f32) : f32_le (wr_sim y) f32_one -> f32_le (wr_sim x) (wr_sim y) -> f32_le (dist y) (dist x).
Proof. intros H1 H. apply sqrt_le; [apply inner_nonneg; exact H1|]. apply inner_le. exact H. Qed.
Lemma esim_le (x y : wsr f32) : f32_le (wr_sim y) f32_one -> f32_le (wr_sim x) (wr_sim y) -> f32_le (esim x) (esim y).
Proof.
  intros H1 H. eapply sub_le; [apply one_value|]. eapply div_le; [apply two_value|lra|]. apply dist_le; assumption.
Qed.
Lemma dist_at (x : wsr f32) : wr_sim x = f32_one -> dist x = f32_zero /\ esim x = f32_one.
Proof. destruct x as [s w]. cbn [wr_sim]. intros ->. split; vm_compute; reflexivity. Qed.
Lemma dist_at_m (x : wsr f32) : wr_sim x = f32_minus_one -> dist x = f32_of_N 2 /\ esim x = f32_zero.
Proof. destruct x as [s w]. cbn [wr_sim]. intros ->. split; vm_compute; reflexivity. Qed.

Lemma measures_f32_order (x y : wsr f32) : f32_le (wr_sim x) (wr_sim y) -> f32_le (wr_sim y) f32_one ->
  f32_le (euclidean_distance f32_ops y) (euclidean_distance f32_ops x) /\ f32_le (euclidean_similarity f32_ops x) (euclidean_similarity f32_ops y).
Proof. intros H H1. split; [apply dist_le|apply esim_le]; assumption. Qed.
Lemma measures_f32_range (x : wsr f32) : f32_le f32_minus_one (wr_sim x) -> f32_le (wr_sim x) f32_one ->
  f32_le f32_zero (euclidean_distance f32_ops x) /\ f32_le (euclidean_distance f32_ops x) (f32_of_N 2) /\ f32_le f32_zero (euclidean_similarity f32_ops x) /\ f32_le (euclidean_similarity f32_ops x) f32_one.
Proof.
  intros H1 H2. set (lo := mkWsr f32_minus_one []). set (hi := mkWsr f32_one []).
  destruct (dist_at hi eq_refl) as [D1 E1]. destruct (dist_at_m lo eq_refl) as [D2 E2].
  assert (f32_le f32_one f32_one) as R by (exists Eq; split; [vm_compute; reflexivity|discriminate]).
  destruct (measures_f32_order x hi H2 R) as [A1 A2]. destruct (measures_f32_order lo x H1 H2) as [A3 A4].
  rewrite D1, E1, D2, E2 in *. auto.
Qed.

(** No number lies between one and the next. *)
Definition next_one : f32 := F32 x01 x00 x80 x3f.
Lemma next_value : f32_value next_one = Some (1 + p2 (-23)).
Proof.
  unfold f32_value. replace (f32_to_sf next_one) with (S754_finite false 8388609 (-23)) by (vm_compute; reflexivity).
  f_equal. replace (IZR 8388609) with (p2 23 + 1) by (rewrite p2_pow by lia; rewrite <- plus_IZR; reflexivity).
  rewrite Rmult_1_l, Rmult_plus_distr_r, <- p2_add, Rmult_1_l. reflexivity.
Qed.
Lemma above_one b x : f32_value x = Some b -> 1 < b -> 1 + p2 (-23) <= b.
Proof.
  intros V L. destruct (value_cases x b V) as [(s & _ & _ & ->)|(s & m & e & _ & _ & C & ->)]; [lra|].
  pose proof (value_pos m e) as P. destruct s; cbn [signed] in *; [lra|]. pose proof (canonical_R m e C) as (C1 & C2 & C3).
  pose proof (p2_pos e) as PE. pose proof (p2_pos (-23)) as P23.
  assert (p2 23 * p2 (-23) = 1) as E1 by (rewrite <- p2_add; reflexivity).
  destruct (Z.lt_trichotomy e (-23)) as [K|[->|K]].
  - exfalso. pose proof (p2_le (e + 24) 0 ltac:(lia)) as Q. rewrite p2_add in Q. change (p2 0) with 1 in Q. nra.
  - assert (8388608 < Z.pos m)%Z as M.
    { apply lt_IZR. replace 8388608 with (p2 23) by (rewrite p2_pow by lia; reflexivity). nra. }
    assert (p2 23 + 1 <= IZR (Z.pos m)) as M' by (rewrite p2_pow by lia; rewrite <- plus_IZR; apply IZR_le; change (2 ^ 23)%Z with 8388608%Z; lia). nra.
  - destruct C2 as [|C2]; [lia|]. pose proof (p2_le (-22) e ltac:(lia)) as Q.
    assert (p2 (-22) = 2 * p2 (-23)) as E2 by (rewrite <- p2_succ; reflexivity).
    pose proof (p2_le (-23) 0 ltac:(lia)) as Q2. change (p2 0) with 1 in Q2.
    assert (p2 23 * p2 (-22) <= IZR (Z.pos m) * p2 e) as Q3 by (apply Rmult_le_compat; try lra; left; apply p2_pos).
    rewrite E2 in Q3. lra.
Qed.
Lemma lt_one_cases x : f32_lt f32_one x -> f32_le next_one x.
Proof.
  unfold f32_lt. intros H. assert (f32_le f32_one x) as L by (exists Lt; split; [exact H|discriminate]).
  pose proof (le_nan _ _ L) as [_ N]. apply le_cases in L as [[I _]|[[I _]|(a & b & VX & VY & L)]]; apply le_cases.
  - apply inf_sf in I. vm_compute in I. discriminate.
  - right. left. split; [exact I|reflexivity].
  - right. right. exists (1 + p2 (-23)), b. split; [apply next_value|]. split; [exact VY|].
    rewrite one_value in VX. inv VX. apply (above_one b x VY).
    destruct (value_compare f32_one x 1 b one_value VY) as (c & E & O). rewrite E in H. inv H. exact O.
Qed.
Lemma measures_f32_nan (x : wsr f32) : f32_is_nan (wr_sim x) = true \/ f32_lt f32_one (wr_sim x) ->
  f32_is_nan (euclidean_distance f32_ops x) = true /\ f32_is_nan (euclidean_similarity f32_ops x) = true.
Proof.
  intros H. assert (f32_is_nan (dist x) = true) as D.
  { unfold euclidean_distance, cosine_similarity, ftwo. cbn [fsqrt fsub fmul fof_N f32_ops]. destruct H as [H|H].
    - apply (proj1 (sqrt_special _)). destruct (nan_operand (f32_of_N 2) _ (or_intror H)) as (_ & _ & M & _).
      destruct (nan_operand (f32_of_N 2) _ (or_intror M)) as (_ & S & _). exact S.
    - apply lt_one_cases in H. pose proof (inner_le (mkWsr next_one []) x H) as L. cbn [wr_sim] in L.
      set (t := f32_sub (f32_of_N 2) (f32_mul (f32_of_N 2) (wr_sim x))) in *.
      replace (f32_sub (f32_of_N 2) (f32_mul (f32_of_N 2) next_one)) with (F32 x00 x00 x80 xb4) in L by (vm_compute; reflexivity).
      destruct (sqrt_special t) as (_ & S1 & _ & S2). apply le_cases in L as [[I _]|[[I _]|(a & b & VX & VY & L)]].
      + apply S1. exact I.
      + apply inf_sf in I. vm_compute in I. discriminate.
      + apply (S2 a VX). assert (b < 0); [|lra]. unfold f32_value in VY. replace (f32_to_sf (F32 x00 x00 x80 xb4)) with (S754_finite true 8388608 (-45)) in VY by (vm_compute; reflexivity).
        inv VY. pose proof (value_pos 8388608 (-45)). lra. }
  split; [exact D|]. unfold euclidean_similarity. cbn [fsub fone fdiv f32_ops].
  destruct (nan_operand _ (ftwo f32_ops) (or_introl D)) as (_ & _ & _ & M & _).
  destruct (nan_operand f32_one _ (or_intror M)) as (_ & S & _). exact S.
Qed.

(** ** Errors *)
Lemma double_value x s : f32_value x = Some s -> Rabs s <= 1 -> f32_value (f32_mul (f32_of_N 2) x) = Some (2 * s).
Proof.
  intros V B. destruct (mul_rounds (f32_of_N 2) x 2 s two_value V) as [R _].
  assert (exists y, f32_value y = Some (2 * s)) as [y VY].
  { destruct (value_cases x s V) as [(t & _ & _ & ->)|(t & m & e & _ & _ & C & ->)].
    - exists f32_zero. rewrite Rmult_0_r. apply zero_value.
    - rewrite signed_abs, Rabs_right in B by (left; apply value_pos).
      assert (e < 0)%Z as E0.
      { destruct (Z_lt_le_dec e 0) as [|L]; [assumption|]. exfalso. destruct (canonical_R m e C) as (_ & [|C2] & _); [lia|].
        pose proof (p2_ge_1 e L). pose proof (p2_lt 0 23 ltac:(lia)) as Q. change (p2 0) with 1 in Q. nra. }
      destruct C as [C1 C2].
      assert (exists m' e', canonical m' e' /\ IZR (Z.pos m') * p2 e' = 2 * (IZR (Z.pos m) * p2 e)) as (m' & e' & C' & VE).
      { destruct (Z.eq_dec e (-149)) as [->|N].
        - destruct (Z_lt_le_dec (Z.pos (digits2_pos m)) 24) as [L|L].
          + exists (m~0)%positive, (-149)%Z. split; [|change (Z.pos m~0) with (2 * Z.pos m)%Z; rewrite mult_IZR; lra].
            split; [cbn [digits2_pos]|]; lia.
          + exists m, (-149 + 1)%Z. split; [split; lia|]. rewrite p2_succ. lra.
        - exists m, (e + 1)%Z. split; [split; lia|]. rewrite p2_succ. lra. }
      exists (sf_to_f32 (S754_finite t m' e')). unfold f32_value. rewrite f32_to_sf_of by exact C'. f_equal. destruct t; cbn [signed]; lra. }
  destruct (Req_dec (2 * s) 0) as [Z|Z]; [rewrite Z in *; apply rounds_0; exact R|].
  rewrite (rounds_unique (2 * s) _ y Z R (rounds_self y _ VY)). exact VY.
Qed.
Lemma below_one b x : f32_value x = Some b -> b < 1 -> b <= 1 - p2 (-24).
Proof.
  intros V L. pose proof (p2_pos (-24)) as P24. pose proof (p2_le (-24) (-1) ltac:(lia)) as Q1. assert (p2 1 * p2 (-1) = 1) as EH by (rewrite <- p2_add; reflexivity). rewrite powerRZ_1 in EH.
  destruct (value_cases x b V) as [(s & _ & _ & ->)|(s & m & e & _ & _ & C & ->)]; [lra|].
  pose proof (value_pos m e) as P. destruct s; cbn [signed] in *; [lra|]. pose proof (canonical_R m e C) as (C1 & C2 & C3).
  pose proof (p2_pos e) as PE. assert (p2 24 * p2 (-24) = 1) as E1 by (rewrite <- p2_add; reflexivity).
  destruct (Z_le_gt_dec e (-24)) as [K|K].
  - assert (IZR (Z.pos m) + 1 <= p2 24) as M. { rewrite p2_pow in * by lia. apply lt_IZR in C1. rewrite <- plus_IZR. apply IZR_le. lia. }
    pose proof (p2_le e (-24) K) as Q. pose proof (IZR_pos_lt m) as PM.
    assert (IZR (Z.pos m) * p2 e <= (p2 24 - 1) * p2 (-24)); [apply Rmult_le_compat; lra|lra].
  - exfalso. destruct C2 as [|C2]; [lia|]. pose proof (p2_le (-23) e ltac:(lia)) as Q.
    assert (p2 23 * p2 (-23) = 1) as E2 by (rewrite <- p2_add; reflexivity). pose proof (p2_pos (-23)).
    assert (p2 23 * p2 (-23) <= IZR (Z.pos m) * p2 e); [apply Rmult_le_compat; try lra; left; apply p2_pos|lra].
Qed.
Lemma small_value r x : rounds_to r x -> Rabs r <= 4 -> exists v, f32_value x = Some v /\ Rabs (r - v) <= rounding_error r.
Proof.
  intros R B. pose proof R as (_ & _ & [[TL _]|[_ (v & V & _)]]).
  - exfalso. unfold too_large in TL. pose proof (p2_ge_1 103 ltac:(lia)). lra.
  - exists v. split; [exact V|]. eapply rounds_error; eauto.
Qed.
Lemma rounding_normal r c : p2 (-126) <= r -> r <= c -> rounding_error r <= p2 (-24) * c.
Proof.
  intros L U. pose proof (p2_pos (-126)). pose proof (p2_pos (-24)). unfold rounding_error. rewrite Rabs_right by lra. apply Rmax_lub; [nra|].
  assert (p2 (-150) = p2 (-24) * p2 (-126)) as -> by (rewrite <- p2_add; reflexivity). nra.
Qed.
Lemma u_value : p2 (-24) = / 16777216.
Proof.
  assert (p2 24 * p2 (-24) = 1) as E1 by (rewrite <- p2_add; reflexivity). assert (p2 24 = 16777216) as E by (rewrite p2_pow by lia; reflexivity).
  rewrite E in E1. lra.
Qed.

Lemma dist_error_tight (x : wsr f32) s : f32_value (wr_sim x) = Some s -> -1 <= s <= 1 ->
  exists d, f32_value (dist x) = Some d /\ Rabs (d - sqrt (2 - 2 * s)) <= 8 / 5 * p2 (-24) * sqrt (2 - 2 * s).
Proof.
  intros V B. unfold euclidean_distance, cosine_similarity, ftwo. cbn [fsqrt fsub fmul fof_N f32_ops].
  pose proof (double_value _ _ V ltac:(apply Rabs_le; lra)) as V2.
  destruct (sub_rounds _ _ _ _ two_value V2) as [R _]. set (q := f32_sub (f32_of_N 2) (f32_mul (f32_of_N 2) (wr_sim x))) in *.
  set (r := 2 - 2 * s) in *. pose proof (p2_pos (-24)) as P24.
  destruct (small_value r q R) as (qv & VQ & EQ); [apply Rabs_le; unfold r; lra|].
  destruct (Req_dec s 1) as [->|N1].
  - replace r with 0 in * by (unfold r; lra). apply rounds_0 in R. destruct (sqrt_rounds q 0 R (Rle_refl 0)) as [_ S]. rewrite (S eq_refl).
    exists 0. split; [exact R|]. rewrite sqrt_0, Rminus_0_r, Rabs_R0. lra.
  - pose proof (below_one s _ V ltac:(lra)) as BL. rewrite u_value in *.
    assert (/ 8388608 <= r) as RL by (unfold r; lra).
    assert (rounding_error r <= / 16777216 * r) as RE.
    { rewrite <- u_value. apply rounding_normal; [|lra]. apply Rle_trans with (p2 (-23)); [apply p2_le; lia|].
      replace (p2 (-23)) with (2 * p2 (-24)) by (rewrite <- p2_succ; reflexivity). rewrite u_value. lra. }
    assert (Rabs (r - qv) <= / 16777216 * r) as EQ' by lra. apply abs_bounds in EQ'.
    assert (0 < qv) as QP by lra. destruct (sqrt_rounds q qv VQ ltac:(lra)) as [RS _].
    set (a := sqrt r) in *. set (b := sqrt qv) in *.
    assert (0 < a) as A0 by (apply sqrt_lt_R0; lra). assert (0 < b) as B0 by (apply sqrt_lt_R0; lra).
    assert (a * a = r) as AA by (apply sqrt_sqrt; lra). assert (b * b = qv) as BB by (apply sqrt_sqrt; lra).
    assert (r <= 4) as R4 by (unfold r; lra).
    assert (a <= 2) as A2 by (apply Rsqr_incr_0; unfold Rsqr; lra).
    assert (b <= 3) as B3 by (apply Rsqr_incr_0; unfold Rsqr; lra).
    assert (Rabs (b - a) <= 11 / 20 * / 16777216 * a) as BA.
    { assert (9 / 10 * a <= b) as LB by (apply Rsqr_incr_0; unfold Rsqr; nra).
      apply Rabs_le. split; nra. }
    destruct (small_value b _ RS) as (d & VD & ED); [apply Rabs_le; lra|].
    exists d. split; [exact VD|].
    assert (/ 8192 <= b) as BL2 by (apply Rsqr_incr_0; unfold Rsqr; lra).
    assert (rounding_error b <= / 16777216 * b) as RE2.
    { rewrite <- u_value. apply rounding_normal; [|lra]. apply Rle_trans with (p2 (-13)); [apply p2_le; lia|].
      assert (p2 13 * p2 (-13) = 1) as E1 by (rewrite <- p2_add; reflexivity). assert (p2 13 = 8192) as E by (rewrite p2_pow by lia; reflexivity). rewrite E in E1. lra. }
    apply abs_bounds in BA. assert (Rabs (b - d) <= / 16777216 * b) as ED' by lra. apply abs_bounds in ED'. apply Rabs_le. split; nra.
Qed.
Lemma measures_f32_error (x : wsr f32) s : f32_value (wr_sim x) = Some s -> -1 <= s <= 1 ->
  exists d t, f32_value (euclidean_distance f32_ops x) = Some d /\ f32_value (euclidean_similarity f32_ops x) = Some t /\
  Rabs (d - sqrt (2 - 2 * s)) <= powerRZ 2 (-23) * sqrt (2 - 2 * s) /\
  Rabs (t - (1 - sqrt (2 - 2 * s) / 2)) <= powerRZ 2 (-22).
Proof.
  intros V B. destruct (dist_error_tight x s V B) as (d & VD & ED).
  set (D := sqrt (2 - 2 * s)) in *. assert (0 <= D) as D0 by apply sqrt_pos.
  assert (D <= 2) as D2. { apply Rsqr_incr_0; [|exact D0|lra]. unfold Rsqr, D. rewrite sqrt_sqrt by lra. lra. }
  assert (p2 (-23) = 2 * p2 (-24)) as E23 by (rewrite <- p2_succ; reflexivity).
  assert (p2 (-22) = 4 * p2 (-24)) as E22. { assert (p2 (-22) = 2 * p2 (-23)) as -> by (rewrite <- p2_succ; reflexivity). lra. }
  assert (p2 (-150) <= p2 (-24) / 100) as E150.
  { apply Rle_trans with (p2 (-24 + -7)); [apply p2_le; lia|]. rewrite p2_add. assert (p2 (-7) <= / 100); [|pose proof (p2_pos (-24)); nra].
    assert (p2 7 * p2 (-7) = 1) as E1 by (rewrite <- p2_add; reflexivity). assert (p2 7 = 128) as E by (rewrite p2_pow by lia; reflexivity). rewrite E in E1. lra. }
  rewrite E23, E22. pose proof u_value as U. set (u := p2 (-24)) in *.
  assert (0 <= d) as DP.
  { unfold euclidean_distance in VD. cbn [fsqrt f32_ops] in VD. set (q := fsub f32_ops _ _) in VD.
    destruct (Rle_dec 0 d) as [|N]; [assumption|]. exfalso. apply abs_bounds in ED. apply N. nra. }
  destruct (div_rounds (dist x) (f32_of_N 2) d 2 VD two_value ltac:(lra)) as [RH _].
  apply abs_bounds in ED.
  destruct (small_value (d / 2) _ RH) as (h & VH & EH); [apply Rabs_le; nra|].
  assert (rounding_error (d / 2) <= 101 / 100 * u) as RE1.
  { unfold rounding_error. fold u. rewrite Rabs_right by lra. apply Rmax_lub; nra. }
  assert (Rabs (d / 2 - h) <= 101 / 100 * u) as EH' by lra. apply abs_bounds in EH'.
  destruct (sub_rounds f32_one _ 1 h one_value VH) as [RT _].
  destruct (small_value (1 - h) _ RT) as (t & VT & ET); [apply Rabs_le; nra|].
  assert (rounding_error (1 - h) <= 101 / 100 * u) as RE2.
  { unfold rounding_error. fold u. apply Rmax_lub; [|lra]. assert (Rabs (1 - h) <= 101 / 100) by (apply Rabs_le; nra). nra. }
  assert (Rabs (1 - h - t) <= 101 / 100 * u) as ET' by lra. apply abs_bounds in ET'.
  exists d, t. split; [exact VD|]. split; [exact VT|]. split; apply Rabs_le; split; nra.
Qed.

(** ** The angular similarity *)
Lemma angular_f32 acos pi (x y : wsr f32) : acos_law acos pi -> f32_le f32_minus_one (wr_sim x) -> f32_le (wr_sim x) (wr_sim y) -> f32_le (wr_sim y) f32_one ->
  f32_le (angular_similarity f32_ops acos pi x) (angular_similarity f32_ops acos pi y) /\
  f32_le f32_zero (angular_similarity f32_ops acos pi x) /\ f32_le (angular_similarity f32_ops acos pi y) f32_one.
Proof.
  intros [(p & VP & P0) AN RG] H1 H2 H3. unfold angular_similarity. cbn [fsub fone fdiv f32_ops].
  assert (f32_le (wr_sim x) f32_one) as H4 by (eapply le_trans; eauto). assert (f32_le f32_minus_one (wr_sim y)) as H5 by (eapply le_trans; eauto).
  split; [|split].
  - eapply sub_le; [apply one_value|]. eapply div_le; [exact VP|exact P0|]. apply AN; assumption.
  - destruct (RG _ H1 H4) as [_ L]. apply (div_le pi p _ _ VP P0) in L.
    assert (f32_div pi pi = f32_one) as E.
    { destruct (div_rounds pi pi p p VP VP ltac:(lra)) as [R _]. replace (p / p) with 1 in R by (field; lra).
      apply (rounds_unique 1); [lra|exact R|]. apply rounds_self, one_value. }
    rewrite E in L. apply (sub_le f32_one 1 _ _ one_value) in L. replace (f32_sub f32_one f32_one) with f32_zero in L by (vm_compute; reflexivity). exact L.
  - destruct (RG _ H5 H3) as [L _]. apply (div_le pi p _ _ VP P0) in L. apply (sub_le f32_one 1 _ _ one_value) in L. eapply le_trans; [exact L|].
    destruct (div_rounds f32_zero pi 0 p zero_value VP ltac:(lra)) as [R _]. replace (0 / p) with 0 in R by (field; lra). apply rounds_0 in R.
    destruct (sub_rounds f32_one _ 1 0 one_value R) as [R' _]. rewrite Rminus_0_r in R'.
    rewrite (rounds_unique 1 _ f32_one ltac:(lra) R' (rounds_self _ _ one_value)). exists Eq. split; [vm_compute; reflexivity|discriminate].
Qed.
