(** * Round trips in [f32]: what the normalising readers make of what the
    writers wrote. *)
From Coq Require Import Reals Lra Floats.SpecFloat.
From Verif Require Import Base BaseFacts Utf8 Stream F32 F32Text ChunkIO Subword Vocab Storage Embeddings TextIO FileSpec VocabSpec EmbSpec EmbFacts MatrixFacts
  F32Facts F32RoundSpec F32Round F32Ops F32RoundThms SimRound EmbRound VocabFacts RankSpec DotRound SumSpec SumRound TextSpec TextThms BinaryThms TripSpec.
Local Open Scope R_scope.

(** ** Lengths *)
Lemma len_const {A} (v : list A) c : 0 <= c -> (lenN v <= 4194304)%N -> length_R (map (fun _ => c) v) <= p2 11 * c.
Proof.
  intros C L. unfold length_R. pose proof (p2_pos 11). apply sqrt_le_of; [nra|].
  assert (sqR (map (fun _ => c) v) = INR (length v) * (c * c)) as ->.
  { clear. induction v as [|x v IH]; cbn [map fold_right length]; [cbn [INR]; lra|]. rewrite S_INR, IH. lra. }
  assert (INR (length v) <= p2 22) as NL.
  { rewrite p2_pow by lia. rewrite INR_IZR_INZ. apply IZR_le. unfold lenN in L. change (2 ^ 22)%Z with 4194304%Z. lia. }
  replace (p2 11 * c * (p2 11 * c)) with (p2 11 * p2 11 * (c * c)) by ring. rewrite <- p2_add. change (11 + 11)%Z with 22%Z.
  apply Rmult_le_compat_r; [nra|exact NL].
Qed.
Lemma len_abs v : length_R (map (fun x => Rabs (f32_R x)) v) = length_R (map f32_R v).
Proof. unfold length_R. f_equal. rewrite !map_map. f_equal. apply map_ext. intros x. rewrite <- Rabs_mult. apply Rabs_right. nra. Qed.
Lemma component_len v x : In x v -> Rabs (f32_R x) <= length_R (map f32_R v).
Proof.
  intros I. pose proof (square_in v x I) as Q. rewrite len_squares. apply sqrt_ge_of; [apply Rabs_pos|]. rewrite <- Rabs_mult, Rabs_right by nra. exact Q.
Qed.
Lemma direction_mult c v : 0 < c -> 0 < length_R v -> direction_R (map (fun x => c * x) v) = direction_R v.
Proof.
  intros C L. unfold direction_R. rewrite len_scale, map_map, (Rabs_right c) by lra. apply map_ext. intros x. field. lra.
Qed.

(** ** The length is computed *)
Lemma norm_exists x : Forall f32_finite x -> (lenN x <= 4194304)%N -> p2 (-38) <= length_R (map f32_R x) <= p2 50 ->
  exists nv, f32_value (f32_sqrt (vdot f32_ops x x)) = Some nv /\ p2 (-40) <= nv.
Proof.
  intros F L [B1 B2]. set (l := length_R (map f32_R x)) in *. pose proof (p2_pos (-38)) as P38. pose proof u_bounds as U. pose proof eta_pos as EP.
  assert (p2 50 * p2 50 = p2 100) as E100 by (rewrite <- p2_add; reflexivity).
  assert (l * l <= p2 100) as LU by (rewrite <- E100; apply Rmult_le_compat; lra).
  destruct (dot_f32 x x eq_refl L F F LU) as (D & VD & ED). fold l in ED.
  assert (dot_R (map f32_R x) (map f32_R x) = l * l) as EL.
  { unfold l. rewrite len_sq. unfold dot_R. generalize (map f32_R x). intros v. induction v as [|y v IH]; cbn [combine map fold_right fst snd]; [lra|]. rewrite IH. lra. }
  rewrite EL in ED. apply abs_bounds in ED. pose proof (length_error_bounds _ L) as LB.
  assert (p2 (-38) * p2 (-38) = p2 (-76)) as E76 by (rewrite <- p2_add; reflexivity).
  assert (p2 (-76) = p2 2 * p2 (-78)) as E78 by (rewrite <- p2_add; reflexivity). assert (p2 2 = 4) as E4 by (rewrite p2_pow by lia; reflexivity). rewrite E4 in E78.
  assert (p2 (-39) * p2 (-39) = p2 (-78)) as E39 by (rewrite <- p2_add; reflexivity).
  assert (p2 (-124) <= p2 (-78)) as S124 by (apply p2_le; lia). pose proof (p2_pos (-78)) as P78.
  assert (p2 (-76) <= l * l <= p2 100) as LL by (split; [rewrite <- E76|rewrite <- E100]; apply Rmult_le_compat; lra). set (q := l * l) in *.
  assert (length_error (lenN x) * q <= 1 / 16 * q) as DQ by (apply Rmult_le_compat_r; lra).
  assert (p2 (-78) <= D) as D1 by lra.
  assert (p2 (-124) <= p2 100) as S100 by (apply p2_le; lia).
  assert (D <= 4 * p2 100) as D2 by lra.
  destruct (sqrt_rounds _ D VD ltac:(lra)) as [R _].
  assert (p2 (-39) <= sqrt D) as Q1 by (pose proof (p2_pos (-39)); apply sqrt_ge_of; lra).
  assert (sqrt D <= p2 51) as Q2.
  { pose proof (p2_pos 51). apply sqrt_le_of; [lra|]. rewrite <- p2_add. change (51 + 51)%Z with (2 + 100)%Z. rewrite p2_add, E4. exact D2. }
  assert (p2 51 <= p2 120) as Q3 by (apply p2_le; lia). pose proof (p2_pos (-39)) as P39.
  destruct (bounded_value _ _ R) as (nv & V & E); [rewrite Rabs_right by lra; lra|].
  exists nv. split; [exact V|]. apply abs_bounds in E. rewrite Rabs_right in E by lra.
  assert (eta <= p2 (-42)) as E42 by (apply p2_le; lia). assert (p2 (-39) = 8 * p2 (-42)) as E8.
  { change (-39)%Z with (3 + -42)%Z. rewrite p2_add. f_equal. rewrite p2_pow by lia. reflexivity. }
  assert (p2 (-40) = 4 * p2 (-42)) as E9. { change (-40)%Z with (2 + -42)%Z. rewrite p2_add, E4. reflexivity. }
  pose proof (p2_pos (-42)). nra.
Qed.

(** ** What a writer writes *)
Definition times (s : R) (r : list f32) : list R := map (fun x => s * x) (map f32_R r).
Lemma times_len s r : 0 < s -> length_R (times s r) = s * length_R (map f32_R r).
Proof. intros S0. unfold times. rewrite len_scale, Rabs_right by lra. reflexivity. Qed.
Lemma product_near r n s : Forall f32_finite r -> (lenN r <= 4194304)%N -> f32_value n = Some s -> 0 < s -> s * length_R (map f32_R r) <= p2 49 ->
  let x := map (fun y => f32_mul y n) r in
  Forall f32_finite x /\ distance_R (map f32_R x) (times s r) <= u * (s * length_R (map f32_R r)) + p2 (-139).
Proof.
  intros F L V S0 B x. pose proof u_bounds as U. pose proof eta_pos as EP. set (l := length_R (map f32_R r)) in *.
  assert (Forall (fun y => f32_finite (f32_mul y n) /\ Rabs (f32_R (f32_mul y n) - s * f32_R y) <= u * s * Rabs (f32_R y) + eta) r) as H.
  { apply Forall_forall. intros y I. rewrite Forall_forall in F. destruct (mul_rounds y n _ _ (finite_R _ (F y I)) V) as [R _].
    pose proof (component_len r y I) as C. fold l in C. pose proof (Rabs_pos (f32_R y)). assert (p2 49 <= p2 120) by (apply p2_le; lia).
    assert (Rabs (f32_R y * s) = s * Rabs (f32_R y)) as EA by (rewrite Rabs_mult, (Rabs_right s) by lra; ring).
    destruct (bounded_value _ _ R) as (v & VV & E); [rewrite EA; nra|]. rewrite EA in E.
    split; [exists v; exact VV|]. unfold f32_R at 1. rewrite VV. rewrite Rabs_minus_sym. replace (s * f32_R y) with (f32_R y * s) by ring. lra. }
  split. { unfold x. apply Forall_map. eapply Forall_impl; [|exact H]. intros y [K _]. exact K. }
  apply Rle_trans with (length_R (plus_R (map (fun z => u * s * z) (map (fun y => Rabs (f32_R y)) r)) (map (fun _ => eta) r))).
  - apply len_mono. unfold x, times, plus_R. clear - H. induction H as [|y r [_ E] H IH]; cbn [map combine fst snd]; constructor; [exact E|exact IH].
  - eapply Rle_trans; [apply minkowski; rewrite !map_length; reflexivity|]. rewrite len_scale, len_abs. fold l. apply Rplus_le_compat.
    + rewrite Rabs_right by nra. lra.
    + eapply Rle_trans; [apply len_const; [lra|exact L]|]. rewrite <- p2_add. change (11 + -150)%Z with (-139)%Z. lra.
Qed.
Lemma written_near un r n s : Forall f32_finite r -> (lenN r <= 4194304)%N -> output_scale un n s -> 0 < s -> s * length_R (map f32_R r) <= p2 49 ->
  let x := if un then map (fun y => fmul f32_ops y n) r else r in
  Forall f32_finite x /\ lenN x = lenN r /\ distance_R (map f32_R x) (times s r) <= u * (s * length_R (map f32_R r)) + p2 (-139).
Proof.
  intros F L O S0 B x. destruct un; cbn [output_scale] in O; unfold x.
  - destruct (product_near r n s F L O S0 B) as [H1 H2]. split; [exact H1|]. split; [apply lenN_map|exact H2].
  - subst s. split; [exact F|]. split; [reflexivity|]. pose proof u_bounds. pose proof (len_nonneg (map f32_R r)). pose proof (p2_pos (-139)).
    assert (distance_R (map f32_R r) (times 1 r) = 0) as ->; [|nra].
    unfold times, distance_R. generalize (map f32_R r). intros v.
    assert (map (fun p => fst p - snd p) (combine v (map (fun x => 1 * x) v)) = map (fun x => 0 * x) v) as ->.
    { induction v as [|y v IH]; cbn [map combine fst snd]; [reflexivity|]. rewrite IH. f_equal. ring. }
    rewrite len_scale, Rabs_R0. ring.
Qed.

(** ** What a reader makes of it *)
Lemma reread un r n s x r' n' : Forall f32_finite r -> (lenN r <= 4194304)%N -> output_scale un n s -> 0 < s ->
  p2 (-36) <= s * length_R (map f32_R r) <= p2 49 ->
  x = (if un then map (fun y => fmul f32_ops y n) r else r) -> scaled_by_length f32_ops x r' n' ->
  exists nv, f32_value n' = Some nv /\ Forall f32_finite x /\ Forall f32_finite r' /\ lenN r' = lenN r /\
  distance_R (map f32_R r') (direction_R (map f32_R r)) <= 2 * length_error (lenN r) + 3 * u /\
  distance_R (map f32_R r') (map f32_R r) <= 2 * length_error (lenN r) + 3 * u + Rabs (length_R (map f32_R r) - 1) /\
  Rabs (nv - s * length_R (map f32_R r)) <= 2 * length_error (lenN r) * (s * length_R (map f32_R r)).
Proof.
  intros F L O S0 [B1 B2] EX SC. destruct (written_near un r n s F L O S0 B2) as (FX & LX & DX). rewrite <- EX in FX, LX, DX. clear EX.
  pose proof u_bounds as U. rewrite <- (times_len s r S0) in *. set (t := times s r) in *. set (m := length_R t) in *.
  pose proof (p2_pos (-36)) as P36. assert (p2 (-139) <= u * (1 / 1000) * p2 (-36)) as T.
  { assert (p2 (-139) <= p2 (-24) * p2 (-10) * p2 (-36)) as K by (rewrite <- !p2_add; apply p2_le; lia).
    assert (p2 (-10) <= 1 / 1000) as K'. { assert (p2 (-10) * p2 10 = 1) as K' by (rewrite <- p2_add; reflexivity). assert (p2 10 = 1024) as K'' by (rewrite p2_pow by lia; reflexivity). rewrite K'' in K'. lra. }
    eapply Rle_trans; [exact K|]. apply Rmult_le_compat_r; [lra|]. apply Rmult_le_compat_l; lra. }
  assert (u * (1 / 1000) * p2 (-36) <= u * (1 / 1000) * m) as T' by (apply Rmult_le_compat_l; lra).
  assert (0 <= u * m) as UM by (apply Rmult_le_pos; lra).
  set (d := distance_R (map f32_R x) t) in *. assert (d <= u * (11 / 10) * m) as DD by lra.
  assert (length (map f32_R x) = length t) as LL by (unfold t, times; rewrite !map_length; unfold lenN in LX; lia).
  pose proof (len_dist (map f32_R x) t LL) as LD. fold d m in LD. set (lx := length_R (map f32_R x)) in *. pose proof LD as LD'. apply abs_bounds in LD'.
  assert (0 <= m) as M0 by lra.
  assert (p2 (-38) <= lx <= p2 50) as LXB.
  { assert (p2 (-36) = 4 * p2 (-38)) as E4. { change (-36)%Z with (2 + -38)%Z. rewrite p2_add. f_equal. rewrite p2_pow by lia. reflexivity. }
    assert (p2 50 = 2 * p2 49) as E2 by (rewrite <- p2_succ; reflexivity). pose proof (p2_pos 49). split; nra. }
  rewrite <- LX in L. destruct (norm_exists x FX L LXB) as (nv & V & NB). assert (n' = f32_sqrt (vdot f32_ops x x)) as EN by (destruct SC as (-> & _); reflexivity).
  rewrite <- EN in V. pose proof (scaled_f32 x r' n' nv FX L SC V NB) as (H1 & H2 & H3 & H4). fold lx in H1.
  assert (unit_of x r') as UO by (split; [exact FX|]; exists n', nv; auto).
  destruct (unit_direction x r' UO L) as (P & LW & UD). fold lx in P.
  exists nv. split; [exact V|]. split; [exact FX|]. split; [exact H2|]. split; [unfold lenN in *; lia|].
  rewrite LX in *. set (de := length_error (lenN r)) in *.
  assert (13 * u <= de) as DE by (pose proof (length_error_bounds _ L); unfold de; lra).
  assert (0 < m) as MP by lra.
  assert (0 < length_R (map f32_R r)) as RP. { unfold m, t in MP. rewrite times_len in MP by exact S0. pose proof (len_nonneg (map f32_R r)). nra. }
  assert (distance_R (map f32_R r') (direction_R (map f32_R r)) <= 2 * de + 3 * u) as MAIN.
  { apply Rle_trans with (distance_R (map f32_R r') (direction_R (map f32_R x)) + distance_R (direction_R (map f32_R x)) (direction_R (map f32_R r))).
    { apply dist_triangle; unfold direction_R; rewrite !map_length; [exact LW|unfold lenN in LX; lia]. }
    rewrite <- (direction_mult s (map f32_R r) S0 RP). fold (times s r). fold t.
    pose proof (direction_near (map f32_R x) t LL P MP) as DN. fold d m in DN.
    assert (d / m <= u * (11 / 10)) as DM. { apply Rmult_le_reg_r with m; [exact MP|]. unfold Rdiv. rewrite Rmult_assoc, Rinv_l by lra. lra. }
    lra. }
  split; [exact MAIN|]. split.
  - apply Rle_trans with (distance_R (map f32_R r') (direction_R (map f32_R r)) + distance_R (direction_R (map f32_R r)) (map f32_R r)).
    { apply dist_triangle; unfold direction_R; rewrite !map_length; unfold lenN in *; lia. }
    assert (distance_R (direction_R (map f32_R r)) (map f32_R r) = Rabs (length_R (map f32_R r) - 1)) as ->; [|lra].
    rewrite direction_scale. set (v := map f32_R r) in *. pose proof (dist_scales (/ length_R v) 1 v) as DS.
    replace (map (fun x => 1 * x) v) with v in DS by (rewrite <- (map_id v) at 1; apply map_ext; intros; ring). rewrite DS.
    rewrite <- (Rabs_right (length_R v)) at 2 by lra. rewrite <- Rabs_mult, (Rabs_minus_sym (length_R v)). f_equal. field. lra.
  - apply abs_bounds in H1. apply Rabs_le. assert (de <= 1 / 16) as D16 by (pose proof (length_error_bounds _ L); unfold de; lra).
    clearbody lx d m de. nra.
Qed.

(** ** Round trips *)
Section Trips.
  Context {Md S : Type} (SO : storage_ops f32 S) (pf : profile) (e : embeddings Md vocab_wrap S f32) (cols : N) (rows : list (list f32)).
  Hypothesis made : emb_made SO pf e cols rows.
  Hypothesis width : (cols <= 4194304)%N.

  Lemma output_row un l i w v : output_items un e rows l -> plain_vectors un e rows -> nthN l i = Some (w, v) ->
    exists r n s, nthN (v_words wrap_ops (em_vocab e)) i = Some w /\ nthN rows i = Some r /\ norm_of f32_ops e i n /\ output_scale un n s /\ 0 < s /\
    powerRZ 2 (-36) <= s * length_R (map f32_R r) <= powerRZ 2 49 /\ Forall f32_finite r /\ lenN r = cols /\
    v = if un then map (fun x => fmul f32_ops x n) r else r.
  Proof.
    intros [W O] PV K. destruct (O _ _ _ K) as (r & n & R & NO & E).
    assert (nthN (v_words wrap_ops (em_vocab e)) i = Some w) as WI by (rewrite <- W, nthN_map, K; reflexivity).
    destruct (PV _ _ _ _ WI R NO) as (F & s & OS & S0 & B). exists r, n, s.
    destruct made as (_ & M & _). pose proof (sm_cols _ _ _ _ M) as C. rewrite Forall_forall in C. specialize (C r (nthN_In _ _ _ R)). cbn in C.
    auto 12.
  Qed.
  Lemma plain_nan_free un l : output_items un e rows l -> plain_vectors un e rows -> nan_free l.
  Proof.
    intros O PV. apply Forall_forall. intros [w v] I. apply In_nthN in I as (i & K).
    destruct (output_row un l i w v O PV K) as (r & n & s & _ & _ & _ & OS & S0 & [_ B] & F & C & ->). cbn [snd].
    destruct (written_near un r n s F ltac:(lia) OS S0 B) as (FX & _). eapply Forall_impl; [|exact FX]. intros y [a V]. exact (nan_value _ _ V).
  Qed.
  Lemma normalized_near un l (e' : embeddings Md simple_vocab (array2 f32) f32) : output_items un e rows l -> plain_vectors un e rows ->
    normalized_result f32_ops e' cols l -> near_embeddings un e cols rows e'.
  Proof.
    intros O PV (V & _ & C & LR & ns & NS & LN & R). destruct (output_words SO pf e cols rows made un l O) as [_ LL].
    split; [rewrite <- (proj1 O); exact V|]. exists ns. split; [exact NS|]. split; [lia|]. split; [exact C|]. split; [lia|].
    intros i w K. assert (exists v, nthN l i = Some (w, v)) as (v & KL).
    { rewrite <- (proj1 O), nthN_map in K. destruct (nthN l i) as [[w' v]|]; [|discriminate]. cbn [option_map fst] in K. injection K as ->. eauto. }
    destruct (output_row un l i w v O PV KL) as (r & n & s & _ & RI & NO & OS & S0 & B & F & CR & E).
    destruct (R _ _ _ KL) as (r' & n' & RI' & NI & SC).
    destruct (reread un r n s v r' n' F ltac:(lia) OS S0 B E SC) as (nv & VN & _ & F' & L' & H1 & H2 & H3). rewrite CR in H1, H2, H3.
    exists r, n, s, r', n', nv. repeat (split; [eassumption|]). exact H3.
  Qed.
End Trips.

Lemma text_trip (P : ftext_ops) : ftext_law P -> forall {Md S : Type} (SO : storage_ops f32 S) pf (e : embeddings Md vocab_wrap S f32) cols rows un lossy base,
  emb_made SO pf e cols rows -> norms_fit e -> Forall text_word (v_words wrap_ops (em_vocab e)) -> v_words wrap_ops (em_vocab e) <> [] ->
  (cols <= 4194304)%N -> plain_vectors un e rows ->
  exists out (e' : embeddings Md simple_vocab (array2 f32) f32), run_writer (write_text P wrap_ops SO un e) base = Ok out /\
  run_reader (read_text P pf lossy) out = Ok e' /\ near_embeddings un e cols rows e'.
Proof.
  intros LW Md S SO pf e cols rows un lossy base M NF TW NE C PV.
  destruct (text_round_trip P LW SO pf e cols rows M NF TW un lossy base NE) as (l & out & O & W & R).
  destruct (R (plain_nan_free SO pf e cols rows M C un l O PV)) as (_ & e' & RD & NR). exists out, e'. split; [exact W|]. split; [exact RD|].
  eapply normalized_near; eauto.
Qed.
Lemma text_dims_trip (P : ftext_ops) : ftext_law P -> forall {Md S : Type} (SO : storage_ops f32 S) pf (e : embeddings Md vocab_wrap S f32) cols rows un lossy base,
  emb_made SO pf e cols rows -> norms_fit e -> Forall text_word (v_words wrap_ops (em_vocab e)) -> v_words wrap_ops (em_vocab e) <> [] ->
  dims_fit (v_words_len wrap_ops (em_vocab e)) cols -> (cols <= 4194304)%N -> plain_vectors un e rows ->
  exists out (e' : embeddings Md simple_vocab (array2 f32) f32), run_writer (write_text_dims P wrap_ops SO un e) base = Ok out /\
  run_reader (read_text_dims P pf lossy) out = Ok e' /\ near_embeddings un e cols rows e'.
Proof.
  intros LW Md S SO pf e cols rows un lossy base M NF TW NE DF C PV.
  destruct (text_dims_round_trip P LW SO pf e cols rows M NF TW un lossy base NE DF) as (l & out & O & W & R).
  destruct (R (plain_nan_free SO pf e cols rows M C un l O PV)) as (_ & e' & RD & NR). exists out, e'. split; [exact W|]. split; [exact RD|].
  eapply normalized_near; eauto.
Qed.
Lemma word2vec_trip {Md S : Type} (SO : storage_ops f32 S) pf (e : embeddings Md vocab_wrap S f32) cols rows un lossy base :
  emb_made SO pf e cols rows -> norms_fit e -> Forall binary_word (v_words wrap_ops (em_vocab e)) ->
  binary_fits (v_words_len wrap_ops (em_vocab e)) cols -> (cols <= 4194304)%N -> plain_vectors un e rows ->
  exists out (e' : embeddings Md simple_vocab (array2 f32) f32), run_writer (write_word2vec wrap_ops SO un e) base = Ok out /\
  run_reader (read_word2vec pf lossy) out = Ok e' /\ near_embeddings un e cols rows e'.
Proof.
  intros M NF BW BF C PV.
  destruct (binary_round_trip SO pf e cols rows M NF BW un lossy base BF ltac:(unfold two64; lia)) as (l & out & O & W & _ & e' & RD & NR).
  exists out, e'. split; [exact W|]. split; [exact RD|]. eapply normalized_near; eauto.
Qed.

(** ** Multiplying by the norm again *)
Lemma unnormalized_f32 v w n nv : Forall f32_finite v -> (lenN v <= 4194304)%N -> scaled_by_length f32_ops v w n ->
  f32_value n = Some nv -> powerRZ 2 (-40) <= nv -> length_R (map f32_R v) <= powerRZ 2 49 ->
  Forall2 (fun x y => f32_finite y /\ Rabs (f32_R y - f32_R x) <= 3 * powerRZ 2 (-24) * Rabs (f32_R x) + powerRZ 2 (-149) * (nv + 1)) v
    (into_unnormalized f32_ops (w, n)).
Proof.
  intros F L SC V B LB. destruct (scaled_f32 v w n nv F L SC V B) as (H1 & H2 & H3 & H4). pose proof u_bounds as U. pose proof eta_pos as EP.
  assert (p2 (-149) = 2 * eta) as E149 by (rewrite <- p2_succ; reflexivity). pose proof (p2_pos (-40)) as P40.
  pose proof (length_error_bounds _ L) as DE. apply abs_bounds in H1. pose proof (len_nonneg (map f32_R v)) as L0.
  assert (nv <= 2 * p2 49) as NU by nra.
  assert (forall x, In x v -> Rabs (f32_R x) <= p2 49) as CL by (intros x I; pose proof (component_len v x I); lra).
  assert (2 * (p2 49 + p2 49) <= p2 120) as BG. { assert (p2 49 + p2 49 = p2 50) as -> by (change 50%Z with (49 + 1)%Z; rewrite p2_succ; ring). rewrite <- p2_succ. apply p2_le. lia. }
  unfold into_unnormalized, vscale. cbn [fst snd]. change (fmul f32_ops) with f32_mul. clear H1 H3 LB L DE L0.
  revert CL H2. clear F SC. induction H4 as [|x y v' w' E H4 IH]; intros CL F; cbn [map]; constructor.
  2: { inversion F; subst. apply IH; [|assumption]. intros z Z. apply CL. right. exact Z. }
  inversion F as [|? ? FY _]; subst. destruct (mul_rounds y n _ _ (finite_R _ FY) V) as [R _].
  specialize (CL x (or_introl eq_refl)). apply abs_bounds in E. pose proof (Rabs_pos (f32_R x)) as X0.
  assert (Rabs (f32_R y * nv) <= (1 + u) * Rabs (f32_R x) + eta * nv) as YB.
  { replace (f32_R y * nv) with ((nv * f32_R y - f32_R x) + f32_R x) by ring. eapply Rle_trans; [apply Rabs_triang|].
    assert (Rabs (nv * f32_R y - f32_R x) <= u * Rabs (f32_R x) + eta * nv) by (apply Rabs_le; lra). lra. }
  assert (eta * nv <= nv) as EN. { assert (eta <= u) by (apply p2_le; lia). rewrite <- (Rmult_1_l nv) at 2. apply Rmult_le_compat_r; lra. }
  destruct (bounded_value _ _ R) as (z & VZ & EZ); [assert (u * Rabs (f32_R x) <= 1 * Rabs (f32_R x)) by (apply Rmult_le_compat_r; lra); lra|]. split; [exists z; exact VZ|].
  unfold f32_R at 1. rewrite VZ. apply abs_bounds in EZ. pose proof (Rabs_pos (f32_R y * nv)). rewrite E149.
  replace (nv * f32_R y) with (f32_R y * nv) in E by ring. set (p := f32_R y * nv) in *. clearbody p. apply Rabs_le.
  assert (u * Rabs p <= u * ((1 + u) * Rabs (f32_R x) + eta * nv)) as K1 by (apply Rmult_le_compat_l; lra).
  assert (0 <= eta * nv) as K4 by (apply Rmult_le_pos; lra). assert (0 <= u * Rabs (f32_R x)) as K5 by (apply Rmult_le_pos; lra).
  assert (u * (eta * nv) <= 1 / 2 * (eta * nv)) as K2 by (apply Rmult_le_compat_r; lra). assert (u * (u * Rabs (f32_R x)) <= 1 / 2 * (u * Rabs (f32_R x))) as K3 by (apply Rmult_le_compat_r; lra).
  lra.
Qed.

Lemma read_back_f32 {Md} (e : embeddings Md simple_vocab (array2 f32) f32) cols l : normalized_result f32_ops e cols l -> (cols <= 4194304)%N ->
  forall i w v, nthN l i = Some (w, v) -> lenN v = cols -> Forall f32_finite v ->
  powerRZ 2 (-38) <= length_R (map f32_R v) <= powerRZ 2 49 -> exists r n nv,
  nthN (a2_rows (em_storage e)) i = Some r /\ (exists ns, em_norms e = Some ns /\ nthN ns i = Some n) /\ f32_value n = Some nv /\
  Rabs (nv - length_R (map f32_R v)) <= length_error cols * length_R (map f32_R v) /\
  Forall f32_finite r /\ Rabs (length_R (map f32_R r) - 1) <= length_error cols /\
  Forall2 (fun x y => f32_finite y /\ Rabs (f32_R y - f32_R x) <= 3 * powerRZ 2 (-24) * Rabs (f32_R x) + powerRZ 2 (-149) * (nv + 1)) v
    (into_unnormalized f32_ops (r, n)).
Proof.
  intros (_ & _ & _ & _ & ns & NS & _ & R) C i w v K L F [B1 B2]. destruct (R _ _ _ K) as (r & n & RI & NI & SC).
  assert (p2 49 <= p2 50) as B3 by (apply p2_le; lia). rewrite <- L in C |- *.
  destruct (norm_exists v F C) as (nv & V & NB); [lra|]. assert (n = f32_sqrt (vdot f32_ops v v)) as EN by (destruct SC as (-> & _); reflexivity). rewrite <- EN in V.
  destruct (scaled_f32 v r n nv F C SC V NB) as (H1 & H2 & H3 & _).
  exists r, n, nv. split; [exact RI|]. split; [exists ns; auto|]. split; [exact V|]. split; [exact H1|]. split; [exact H2|]. split; [exact H3|].
  exact (unnormalized_f32 v r n nv F C SC V NB B2).
Qed.
