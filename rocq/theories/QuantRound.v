(** * Quantizing in [f32]: how far vectors are from the original ones. *)
From Coq Require Import Reals Lra.
From Verif Require Import Base BaseFacts Utf8 F32 Subword Vocab Storage Embeddings FileSpec VocabSpec EmbSpec MatrixFacts QuantFacts
  F32RoundSpec F32Round F32Ops F32RoundThms SimRound EmbRound VocabFacts DotRound.
Local Open Scope R_scope.

(** One component: [r] was divided by the norm, giving [t]; [c] is what the
    quantizer returns for [t]; it is multiplied by the norm. *)
Lemma component_near nv eps r t c w : powerRZ 2 (-40) <= nv <= powerRZ 2 100 -> 0 <= eps <= 1 -> Rabs t <= 4 ->
  Rabs (nv * t - r) <= u * Rabs r + eta * nv -> Rabs (c - t) <= eps -> rounds_to (c * nv) w ->
  exists v, f32_value w = Some v /\
  Rabs (v - r) <= (1 + powerRZ 2 (-24)) * (nv * eps) + 3 * powerRZ 2 (-24) * Rabs r + powerRZ 2 (-149) * (nv + 1).
Proof.
  intros [N1 N2] [E1 E2] T D C R. pose proof u_bounds as U. pose proof eta_pos as EP. pose proof (p2_pos (-40)) as P0. assert (0 < nv) as NP by lra.
  assert (Rabs c <= 5) as CB. { replace c with (t + (c - t)) by ring. eapply Rle_trans; [apply Rabs_triang|]. lra. }
  assert (Rabs (c * nv) <= p2 120) as B.
  { rewrite Rabs_mult, (Rabs_right nv) by lra. assert (p2 120 = p2 20 * p2 100) as -> by (rewrite <- p2_add; reflexivity).
    assert (5 <= p2 20) as P5 by (rewrite p2_pow by lia; change (2 ^ 20)%Z with 1048576%Z; lra).
    apply Rmult_le_compat; [apply Rabs_pos|lra|lra|exact N2]. }
  destruct (bounded_value _ _ R B) as (v & V & E). exists v. split; [exact V|].
  assert (p2 (-149) = 2 * eta) as -> by (change (-149)%Z with (1 + -150)%Z; rewrite p2_add; f_equal; rewrite p2_pow by lia; reflexivity).
  assert (Rabs (c * nv - r) <= nv * eps + (u * Rabs r + eta * nv)) as E3.
  { replace (c * nv - r) with (nv * (c - t) + (nv * t - r)) by ring. eapply Rle_trans; [apply Rabs_triang|].
    rewrite Rabs_mult, (Rabs_right nv) by lra. assert (nv * Rabs (c - t) <= nv * eps) by (apply Rmult_le_compat_l; lra). lra. }
  assert (Rabs (c * nv) <= Rabs r + (nv * eps + (u * Rabs r + eta * nv))) as E4.
  { replace (c * nv) with (r + (c * nv - r)) at 1 by ring. eapply Rle_trans; [apply Rabs_triang|]. lra. }
  assert (Rabs (v - r) <= u * Rabs (c * nv) + eta + (nv * eps + (u * Rabs r + eta * nv))) as E5.
  { replace (v - r) with ((v - c * nv) + (c * nv - r)) by ring. eapply Rle_trans; [apply Rabs_triang|]. rewrite (Rabs_minus_sym v). lra. }
  assert (u * Rabs (c * nv) <= u * (Rabs r + (nv * eps + (u * Rabs r + eta * nv)))) as E6 by (apply Rmult_le_compat_l; lra).
  pose proof (Rabs_pos r) as RP. assert (0 <= nv * eps) as NE by nra. assert (u <= 1 / 2) as UH by lra.
  assert (u * (u * Rabs r) <= 1 * (u * Rabs r)) as E7 by (apply Rmult_le_compat_r; nra).
  assert (u * (eta * nv) <= 1 * (eta * nv)) as E8 by (apply Rmult_le_compat_r; nra).
  lra.
Qed.

Lemma row_near nv eps n r t c : powerRZ 2 (-40) <= nv <= powerRZ 2 100 -> 0 <= eps <= 1 -> f32_value n = Some nv ->
  Forall (fun y => Rabs (f32_R y) <= 4) t ->
  Forall2 (fun x y => Rabs (nv * f32_R y - f32_R x) <= u * Rabs (f32_R x) + eta * nv) r t ->
  Forall2 (fun x y => f32_finite x /\ Rabs (f32_R x - f32_R y) <= eps) c t ->
  Forall2 (fun x y => f32_finite x /\ Rabs (f32_R x - f32_R y) <=
    (1 + powerRZ 2 (-24)) * (nv * eps) + 3 * powerRZ 2 (-24) * Rabs (f32_R y) + powerRZ 2 (-149) * (nv + 1)) (map (fun x => f32_mul x n) c) r.
Proof.
  intros NB EB VN TB D. revert c. induction D as [|x y r t DX D IH]; intros c C.
  - inv C. constructor.
  - inv C. inv TB. cbn [map]. constructor; [|apply IH; assumption].
    match goal with H : f32_finite ?z /\ _ |- _ => destruct H as [FZ ZE]; destruct (mul_rounds z n _ _ (finite_R _ FZ) VN) as [R _] end.
    destruct (component_near nv eps _ _ _ _ NB EB ltac:(eassumption) DX ZE R) as (v & V & E). split; [exists v; exact V|].
    replace (f32_R (f32_mul _ n)) with v by (unfold f32_R; rewrite V; reflexivity). exact E.
Qed.

Lemma unit_component (w : list f32) n : Rabs (length_R (map f32_R w) - 1) <= length_error n -> (n <= 4194304)%N ->
  Forall (fun y => Rabs (f32_R y) <= 4) w.
Proof.
  intros U L. pose proof (length_error_bounds _ L) as LB. apply abs_bounds in U. apply Forall_forall. intros y HI.
  assert (length_R (map f32_R w) = sqrt (squares w)) as E by (unfold length_R; rewrite map_map; reflexivity). rewrite E in U.
  pose proof (square_in w y HI) as SI. pose proof (squares_nonneg w) as S0. pose proof (sqrt_pos (squares w)) as SP. pose proof (sqrt_sqrt _ S0) as SS.
  assert (Rabs (f32_R y) <= sqrt (squares w)) as AB.
  { apply Rsqr_incr_0; [|apply Rabs_pos|exact SP]. unfold Rsqr. rewrite <- Rabs_mult, Rabs_right by nra. rewrite SS. exact SI. }
  lra.
Qed.

Lemma quantized_near tr ns bits it at_ (a : array2 f32) q i r : trainer_fits tr ->
  quantize_using f32_ops tr ns bits it at_ true a = Ok q -> (a2_cols a <= 4194304)%N ->
  nthN (a2_rows a) i = Some r -> lenN r = a2_cols a -> Forall f32_finite r ->
  exists data t n codes w,
  training_data f32_ops true (a2_rows a) data (qa_norms q) /\ nthN data i = Some t /\
  (exists norms, qa_norms q = Some norms /\ nthN norms i = Some n) /\
  nthN (a2_rows (qa_codes q)) i = Some codes /\ qa_embedding f32_ops q i = Ok w /\
  forall nv eps, f32_value n = Some nv -> powerRZ 2 (-40) <= nv <= powerRZ 2 100 -> 0 <= eps <= 1 ->
  Forall2 (fun x y => f32_finite x /\ Rabs (f32_R x - f32_R y) <= eps) (projected f32_ops (qa_pq q) (chosen (qa_pq q) codes)) t ->
  Forall2 (fun x y => f32_finite x /\ Rabs (f32_R x - f32_R y) <=
    (1 + powerRZ 2 (-24)) * (nv * eps) + 3 * powerRZ 2 (-24) * Rabs (f32_R y) + powerRZ 2 (-149) * (nv + 1)) w r.
Proof.
  intros TF Q L HR LR FR. destruct (quantize_shape f32_ops tr _ _ _ _ _ _ _ TF Q) as (U & NR & RL & data & TD & _ & _).
  pose proof TD as [ED EN]. apply nthN_Some_lt in HR as LT.
  assert (exists codes, nthN (a2_rows (qa_codes q)) i = Some codes) as [codes HC].
  { destruct (nthN (a2_rows (qa_codes q)) i) as [cs|] eqn:E; [eauto|]. apply nthN_None in E. unfold a2_nrows in NR. lia. }
  set (n := f32_sqrt (vdot f32_ops r r)).
  exists data, (map (fun x => f32_div x n) r), n, codes, (map (fun x => f32_mul x n) (projected f32_ops (qa_pq q) (chosen (qa_pq q) codes))).
  split; [exact TD|]. split; [rewrite ED, nthN_map; exact (f_equal (option_map _) HR)|]. split; [rewrite EN; eexists; split; [reflexivity|]; rewrite nthN_map; exact (f_equal (option_map _) HR)|].
  split; [exact HC|]. split.
  - unfold qa_embedding, a2_row, index. rewrite HC. cbn [rbind]. unfold pq_reconstruct.
    pose proof (qu_codes _ U) as CO. rewrite Forall_forall in CO. specialize (CO codes (nthN_In _ _ _ HC)).
    destruct (pq_concat_chosen (fun _ x => x) q U codes CO) as [-> _]. cbn [rbind]. rewrite EN.
    assert (nthN (map (fun r : vec f32 => fsqrt f32_ops (vdot f32_ops r r)) (a2_rows a)) i = Some n) as -> by (rewrite nthN_map; exact (f_equal (option_map _) HR)). reflexivity.
  - intros nv eps VN NB EB C.
    assert (fis_zero f32_ops n = false) as NZ.
    { destruct (fis_zero f32_ops n) eqn:Z; [|reflexivity]. apply is_zero_value in Z. rewrite Z in VN. injection VN as <-. pose proof (p2_pos (-40)). lra. }
    assert (scaled_by_length f32_ops r (map (fun x => f32_div x n) r) n) as SC.
    { split; [reflexivity|]. split; [intros Z; rewrite Z in NZ; discriminate|]. intros _. reflexivity. }
    rewrite <- LR in L. destruct (scaled_f32 _ _ _ _ FR L SC VN (proj1 NB)) as (_ & _ & UL & D).
    apply row_near with (t := map (fun x => f32_div x n) r); try assumption. eapply unit_component; [exact UL|exact L].
Qed.
