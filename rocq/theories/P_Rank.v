(** * Theorems about dot products and the ranking of queries in [f32] (C89), and of
    quantized vectors (C92) and the vectors of unknown words (C95). *)
From Coq Require Import Reals Lra Floats.SpecFloat.
From Verif Require Import Base BaseFacts Utf8 F32 Subword Vocab Storage Embeddings Similarity FileSpec VocabSpec EmbSpec TextSpec SimSpec
  F32RoundSpec RankSpec SumSpec P_Emb P_Sim P_Quant P_Round.
From Verif Require EmbFacts DotRound QuantRound SumRound.
Local Open Scope R_scope.

(** ** C89: ranking *)
Theorem dot_error_thm : forall a b,
  lenN a = lenN b -> (lenN a <= 4194304)%N -> Forall f32_finite a -> Forall f32_finite b ->
  length_R (map f32_R a) * length_R (map f32_R b) <= powerRZ 2 100 -> exists D, f32_value (vdot f32_ops a b) = Some D /\
  Rabs (D - dot_R (map f32_R a) (map f32_R b)) <= 9 / 8 * length_error (lenN a) * (length_R (map f32_R a) * length_R (map f32_R b)) + powerRZ 2 (-124).
Proof. exact (@DotRound.dot_f32). Qed.
Print Assumptions dot_error_thm.
Theorem unit_cosine_thm : forall v w v' w',
  unit_of v w -> unit_of v' w' -> lenN v = lenN v' -> (lenN v <= 4194304)%N ->
  exists s, f32_value (vdot f32_ops w w') = Some s /\
  Rabs (s - cosine_R (map f32_R v) (map f32_R v')) <= 4 * length_error (lenN v).
Proof. exact (@DotRound.unit_cosine). Qed.
Print Assumptions unit_cosine_thm.
Theorem ranked_returns_thm : forall (Md S : Type) (SO : storage_ops f32 S) (view : S -> res (array2 f32)) (pf : profile) (e : embeddings Md vocab_wrap S f32) (a : array2 f32) (vs : list (list f32)), emb_made SO pf e (a2_cols a) (a2_rows a) -> view (em_storage e) = Ok a -> (a2_cols a <= 4194304)%N -> word_rows (v_words wrap_ops (em_vocab e)) vs (a2_rows a) ->
  forall q w skip limit batch,
  unit_of q w ->
    (exists rs, similarity_ f32_ops wrap_ops view e w skip limit batch = Ok rs) <->
    (limit * 24 <= isize_max)%N /\ match batch with Some b => b <> 0%N | None => v_words wrap_ops (em_vocab e) <> [] end /\
    (v_words wrap_ops (em_vocab e) = [] \/ lenN q = a2_cols a) /\
    (limit = 0%N -> forall w, In w (v_words wrap_ops (em_vocab e)) -> In w skip).
Proof. exact (@DotRound.ranked_returns). Qed.
Print Assumptions ranked_returns_thm.
Theorem similarity_ranked_thm : forall (Md S : Type) (SO : storage_ops f32 S) (view : S -> res (array2 f32)) (pf : profile) (e : embeddings Md vocab_wrap S f32) (a : array2 f32) (vs : list (list f32)), emb_made SO pf e (a2_cols a) (a2_rows a) -> view (em_storage e) = Ok a -> (a2_cols a <= 4194304)%N -> word_rows (v_words wrap_ops (em_vocab e)) vs (a2_rows a) ->
  forall q w skip limit batch rs,
  unit_of q w -> similarity_ f32_ops wrap_ops view e w skip limit batch = Ok rs ->
    ranked (v_words wrap_ops (em_vocab e)) vs q skip (4 * length_error (a2_cols a)) rs.
Proof. exact (@DotRound.similarity_ranked). Qed.
Print Assumptions similarity_ranked_thm.
Theorem word_ranked_thm : forall (Md S : Type) (SO : storage_ops f32 S) (view : S -> res (array2 f32)) (pf : profile) (e : embeddings Md vocab_wrap S f32) (a : array2 f32) (vs : list (list f32)), emb_made SO pf e (a2_cols a) (a2_rows a) -> view (em_storage e) = Ok a -> (a2_cols a <= 4194304)%N -> word_rows (v_words wrap_ops (em_vocab e)) vs (a2_rows a) ->
  forall w i v limit batch,
  nthN (v_words wrap_ops (em_vocab e)) i = Some w -> nthN vs i = Some v ->
    ((exists r, word_similarity f32_ops wrap_ops SO view pf e w limit batch = Ok r) <->
     (limit * 24 <= isize_max)%N /\ batch <> Some 0%N /\ (limit = 0%N -> v_words wrap_ops (em_vocab e) = [w])) /\
    forall r, word_similarity f32_ops wrap_ops SO view pf e w limit batch = Ok r -> exists rs, r = Some rs /\
    ranked (v_words wrap_ops (em_vocab e)) vs v [w] (4 * length_error (a2_cols a)) rs.
Proof. exact (@DotRound.word_ranked). Qed.
Print Assumptions word_ranked_thm.
Theorem masked_ranked_thm : forall (Md S : Type) (SO : storage_ops f32 S) (view : S -> res (array2 f32)) (pf : profile) (e : embeddings Md vocab_wrap S f32) (a : array2 f32) (vs : list (list f32)), emb_made SO pf e (a2_cols a) (a2_rows a) -> view (em_storage e) = Ok a -> (a2_cols a <= 4194304)%N -> word_rows (v_words wrap_ops (em_vocab e)) vs (a2_rows a) ->
  forall q nv limit skip batch,
  Forall f32_finite q -> f32_value (f32_sqrt (vdot f32_ops q q)) = Some nv -> powerRZ 2 (-40) <= nv ->
    ((exists r, embedding_similarity_masked f32_ops wrap_ops view e q limit skip batch = Ok r) <->
     (limit * 24 <= isize_max)%N /\ match batch with Some b => b <> 0%N | None => v_words wrap_ops (em_vocab e) <> [] end /\
     (v_words wrap_ops (em_vocab e) = [] \/ lenN q = a2_cols a) /\
     (limit = 0%N -> forall w, In w (v_words wrap_ops (em_vocab e)) -> In w skip)) /\
    forall r, embedding_similarity_masked f32_ops wrap_ops view e q limit skip batch = Ok r -> exists rs, r = Some rs /\
    ranked (v_words wrap_ops (em_vocab e)) vs q skip (4 * length_error (a2_cols a)) rs.
Proof. exact (@DotRound.masked_ranked). Qed.
Print Assumptions masked_ranked_thm.
Theorem analogy_ranked_thm : forall (Md S : Type) (SO : storage_ops f32 S) (view : S -> res (array2 f32)) (pf : profile) (e : embeddings Md vocab_wrap S f32) (a : array2 f32) (vs : list (list f32)), emb_made SO pf e (a2_cols a) (a2_rows a) -> view (em_storage e) = Ok a -> (a2_cols a <= 4194304)%N -> word_rows (v_words wrap_ops (em_vocab e)) vs (a2_rows a) ->
  forall ia ib ic wa wb wc xa xb xc ra rb rc nv limit batch,
  nthN (v_words wrap_ops (em_vocab e)) ia = Some wa -> nthN (a2_rows a) ia = Some xa ->
    nthN (v_words wrap_ops (em_vocab e)) ib = Some wb -> nthN (a2_rows a) ib = Some xb ->
    nthN (v_words wrap_ops (em_vocab e)) ic = Some wc -> nthN (a2_rows a) ic = Some xc ->
    f32_value (f32_sqrt (vdot f32_ops (analogy_vector f32_ops (a2_cols a) xa xb xc) (analogy_vector f32_ops (a2_cols a) xa xb xc))) = Some nv ->
    powerRZ 2 (-40) <= nv ->
    (forall j, (j < N.to_nat (a2_cols a))%nat ->
     Rabs (f32_R (nth j (analogy_vector f32_ops (a2_cols a) xa xb xc) f32_zero) -
           (f32_R (nth j xb f32_zero) - f32_R (nth j xa f32_zero) + f32_R (nth j xc f32_zero))) <= 6 * powerRZ 2 (-24)) /\
    exists skip, (forall w, In w skip <-> (ra = true /\ w = wa) \/ (rb = true /\ w = wb) \/ (rc = true /\ w = wc)) /\
    ((exists r, analogy_masked f32_ops wrap_ops SO view pf e (wa, wb, wc) (ra, rb, rc) limit batch = Ok r) <->
     (limit * 24 <= isize_max)%N /\ batch <> Some 0%N /\ (limit = 0%N -> forall w, In w (v_words wrap_ops (em_vocab e)) -> In w skip)) /\
    forall r, analogy_masked f32_ops wrap_ops SO view pf e (wa, wb, wc) (ra, rb, rc) limit batch = Ok r -> exists rs, r = inl rs /\
    ranked (v_words wrap_ops (em_vocab e)) vs (analogy_vector f32_ops (a2_cols a) xa xb xc) skip (4 * length_error (a2_cols a)) rs.
Proof. exact (@DotRound.analogy_ranked). Qed.
Print Assumptions analogy_ranked_thm.
Theorem read_ranked_thm : forall (Md : Type) pf (e : embeddings Md simple_vocab (array2 f32) f32) cols l,
  normalized_result f32_ops e cols l ->
  (forall i w v, nthN l i = Some (w, v) -> lenN v = cols) ->
  emb_made (nd_ops f32) pf (emb_wrap VSimple (fun s => s) e) cols (a2_rows (em_storage e)) /\
  v_words wrap_ops (em_vocab (emb_wrap VSimple (fun s => s) e)) = map fst l /\
  ((forall i w v, nthN l i = Some (w, v) -> Forall f32_finite v /\ exists ns n nv, em_norms e = Some ns /\ nthN ns i = Some n /\ f32_value n = Some nv /\ powerRZ 2 (-40) <= nv) ->
   word_rows (map fst l) (map snd l) (a2_rows (em_storage e))).
Proof. exact (@DotRound.normalized_ranked). Qed.
Print Assumptions read_ranked_thm.

(** Three words with the vectors (3, 4), (4, 3) and (5, 12) in the file; a
    query with (8, 6). *)
Definition rank_words : list str := [[x61]; [x62]; [x63]].
Definition rank_vs : list (list f32) := [[fN 3; fN 4]; [fN 4; fN 3]; [fN 5; fN 12]].
Definition rank_q : list f32 := [fN 8; fN 6].
Definition rank_rows : list (list f32) := Eval vm_compute in map (fun v => fst (l2_normalize f32_ops v)) rank_vs.
Definition rank_emb : embeddings unit vocab_wrap (array2 f32) f32 := sim_emb rank_words rank_rows.
Lemma unit_ex v w n m k : w = fst (l2_normalize f32_ops v) -> Forall f32_finite v ->
  f32_to_sf (snd (l2_normalize f32_ops v)) = S754_finite false m (- Z.of_nat k) -> n = IZR (Zpos m) / IZR (2 ^ Z.of_nat k) -> 1 <= n -> unit_of v w.
Proof.
  intros -> F E -> L. split; [exact F|]. exists (snd (l2_normalize f32_ops v)), (IZR (Zpos m) / IZR (2 ^ Z.of_nat k)). split; [apply EmbFacts.l2_normalize_scaled|].
  split; [|apply above_small; exact L]. rewrite (value_down _ _ _ _ E). f_equal. lra.
Qed.
Ltac finites := repeat (constructor; [finite|]); constructor.
Ltac unit_by n m k := apply (unit_ex _ _ n m k); [vm_compute; reflexivity|finites|vm_compute; reflexivity|
  let p := eval vm_compute in (2 ^ Z.of_nat k)%Z in change (2 ^ Z.of_nat k)%Z with p; lra|lra].
Lemma rank_rows_ex : word_rows rank_words rank_vs rank_rows.
Proof.
  intros i w H. assert (i < 3)%N as L by exact (nthN_Some_lt _ _ _ H). assert (i = 0 \/ i = 1 \/ i = 2)%N as C by lia; destruct C as [C|C]; [|destruct C as [C|C]]; subst i;
    (do 2 eexists; split; [reflexivity|]; split; [reflexivity|]).
  - unit_by 5 10485760%positive 21%nat.
  - unit_by 5 10485760%positive 21%nat.
  - unit_by 13 13631488%positive 20%nat.
Qed.
Lemma rank_q_unit : unit_of rank_q (fst (l2_normalize f32_ops rank_q)).
Proof. unit_by 10 10485760%positive 20%nat. Qed.
Lemma rank_made : emb_made (nd_ops f32) Debug rank_emb 2 rank_rows.
Proof. apply sim_emb_made; [vm_compute; reflexivity|reflexivity|repeat constructor]. Qed.
Example ranked_ex : emb_made (nd_ops f32) Debug rank_emb 2 rank_rows /\ Ok (em_storage rank_emb) = Ok (mkA2 2 rank_rows) /\ (2 <= 4194304)%N /\
  word_rows (v_words wrap_ops (em_vocab rank_emb)) rank_vs rank_rows /\ unit_of rank_q (fst (l2_normalize f32_ops rank_q)) /\
  map (fun r => (wr_word r, f32_bits (wr_sim r)))
    (match similarity_ f32_ops wrap_ops Ok rank_emb (fst (l2_normalize f32_ops rank_q)) [] 2 None with Ok rs => rs | _ => [] end)
  = [([x62], 1065353216%N); ([x61], 1064682128%N)] /\
  cosine_R [4; 3] [8; 6] = 1 /\ cosine_R [3; 4] [8; 6] = 24 / 25 /\ cosine_R [5; 12] [8; 6] = 56 / 65 /\
  (56 / 65 < 24 / 25 - 2 * (4 * length_error 2) /\ 24 / 25 < 1 - 2 * (4 * length_error 2)).
Proof.
  split; [apply rank_made|]. split; [reflexivity|]. split; [discriminate|]. split; [apply rank_rows_ex|]. split; [apply rank_q_unit|].
  split; [vm_compute; reflexivity|].
  assert (forall x y z, 0 <= z -> x * x + (y * y + 0) = z * z -> length_R [x; y] = z) as LE.
  { intros x y z Z E. unfold length_R. cbn [map fold_right]. rewrite E. apply sqrt_square. exact Z. }
  unfold cosine_R, dot_R. cbn [combine map fold_right fst snd]. rewrite (LE 4 3 5), (LE 3 4 5), (LE 8 6 10), (LE 5 12 13) by lra.
  split; [lra|]. split; [lra|]. split; [lra|]. unfold length_error. change (Z.of_N 2) with 2%Z. rewrite SimRound.u_value. split; lra.
Qed.
Example word_ranked_ex : nthN (v_words wrap_ops (em_vocab rank_emb)) 0 = Some [x61] /\ nthN rank_vs 0 = Some [fN 3; fN 4] /\
  map (fun r => (wr_word r, f32_bits (wr_sim r)))
    (match word_similarity f32_ops wrap_ops (nd_ops f32) Ok Debug rank_emb [x61] 5 None with Ok (Some rs) => rs | _ => [] end)
  = [([x63], 1064836994%N); ([x62], 1064682128%N)] /\
  match word_similarity f32_ops wrap_ops (nd_ops f32) Ok Debug rank_emb [x61] 0 None with Panic _ => True | _ => False end.
Proof. split; [reflexivity|]. split; [reflexivity|]. split; vm_compute; [reflexivity|exact I]. Qed.
Example masked_ranked_ex : Forall f32_finite rank_q /\ f32_value (f32_sqrt (vdot f32_ops rank_q rank_q)) = Some 10 /\ powerRZ 2 (-40) <= 10.
Proof. split; [finites|]. split; [value false 10485760%positive 20%nat|apply above_small; lra]. Qed.
(** 2 b - a: the length is computed from rounded components. *)
Example analogy_ranked_ex : let q := analogy_vector f32_ops 2 (nth 0 rank_rows []) (nth 1 rank_rows []) (nth 1 rank_rows []) in
  nthN (v_words wrap_ops (em_vocab rank_emb)) 0 = Some [x61] /\ nthN rank_rows 0 = Some (nth 0 rank_rows []) /\
  nthN (v_words wrap_ops (em_vocab rank_emb)) 1 = Some [x62] /\ nthN rank_rows 1 = Some (nth 1 rank_rows []) /\
  exists nv, f32_value (f32_sqrt (vdot f32_ops q q)) = Some nv /\ powerRZ 2 (-40) <= nv.
Proof.
  cbn zeta. split; [reflexivity|]. split; [reflexivity|]. split; [reflexivity|]. split; [reflexivity|]. eexists. split.
  - eapply value_down with (k := 23%nat). vm_compute. reflexivity.
  - apply above_small. change (2 ^ Z.of_nat 23)%Z with 8388608%Z. lra.
Qed.
Example dot_error_ex : lenN rank_q = lenN (nth 2 rank_vs []) /\ (lenN rank_q <= 4194304)%N /\ Forall f32_finite rank_q /\ Forall f32_finite (nth 2 rank_vs []) /\
  length_R [8; 6] * length_R [5; 12] <= powerRZ 2 100 /\ f32_value (vdot f32_ops rank_q (nth 2 rank_vs [])) = Some 112.
Proof.
  split; [reflexivity|]. split; [discriminate|]. split; [finites|]. split; [cbn [nth rank_vs]; finites|]. split; [|value false 14680064%positive 17%nat].
  assert (forall x y z, 0 <= z -> x * x + (y * y + 0) = z * z -> length_R [x; y] = z) as LE.
  { intros x y z Z E. unfold length_R. cbn [map fold_right]. rewrite E. apply sqrt_square. exact Z. }
  rewrite (LE 8 6 10), (LE 5 12 13) by lra. apply Rle_trans with (powerRZ 2 8); [rewrite F32Round.p2_pow by lia; change (2 ^ 8)%Z with 256%Z; lra|]. apply F32Round.p2_le. lia.
Qed.
(** The embeddings of [ex_read] of C81. *)
Example read_ranked_ex : normalized_result f32_ops ex_read 2 [([x61], [fN 3; fN 4])] /\
  (forall i w v, nthN [([x61], [fN 3; fN 4])] i = Some (w, v) -> lenN v = 2%N) /\
  forall i w v, nthN [([x61], [fN 3; fN 4])] i = Some (w, v) -> Forall f32_finite v /\ exists ns n nv, em_norms ex_read = Some ns /\ nthN ns i = Some n /\ f32_value n = Some nv /\ powerRZ 2 (-40) <= nv.
Proof.
  split; [apply read_length_ex|]. split; intros i w v H; (assert (i = 0)%N as -> by (assert (i < 1)%N by exact (nthN_Some_lt _ _ _ H); lia)); injection H as <- <-; [reflexivity|].
  split; [finites|]. do 3 eexists. split; [reflexivity|]. split; [reflexivity|]. split; [apply five_value|apply above_small; lra].
Qed.

(** ** C92: quantized vectors *)
Theorem quantized_near_thm : forall tr ns bits it at_ (a : array2 f32) q i r,
  trainer_fits tr ->
  quantize_using f32_ops tr ns bits it at_ true a = Ok q -> (a2_cols a <= 4194304)%N ->
  nthN (a2_rows a) i = Some r -> lenN r = a2_cols a -> Forall f32_finite r ->
  exists data t n codes w,
  training_data f32_ops true (a2_rows a) data (qa_norms q) /\ nthN data i = Some t /\
  (exists norms, qa_norms q = Some norms /\ nthN norms i = Some n) /\
  nthN (a2_rows (qa_codes q)) i = Some codes /\ qa_embedding f32_ops q i = Ok w /\
  forall nv eps, f32_value n = Some nv -> powerRZ 2 (-40) <= nv <= powerRZ 2 100 -> 0 <= eps <= 1 ->
  Forall2 (fun x y => f32_finite x /\ Rabs (f32_R x - f32_R y) <= eps) (projected f32_ops (qa_pq q) (chosen (qa_pq q) codes)) t ->
  Forall2 (fun x y => f32_finite x /\ Rabs (f32_R x - f32_R y) <=
    (1 + powerRZ 2 (-24)) * (nv * eps) + 3 * powerRZ 2 (-24) * Rabs (f32_R y) + powerRZ 2 (-149) * (nv + 1)) w r.
Proof. exact (@QuantRound.quantized_near). Qed.
Print Assumptions quantized_near_thm.
(** With one centroid, taken from the first of the rows (3, 4) and (4, 3), the
    second one is off by 1/5 in both components. *)
Definition ex_quant_rows : array2 f32 := mkA2 2 [[fN 3; fN 4]; [fN 4; fN 3]].
Definition ex_quant : quantized f32 :=
  Eval vm_compute in match quantize_using f32_ops ex_trainer 1 0 1 1 true ex_quant_rows with Ok q => q | _ => mkQuant (mkPq None 0 0 0 []) (mkA2 0 []) None end.
Example quantized_near_ex : trainer_fits ex_trainer /\ quantize_using f32_ops ex_trainer 1 0 1 1 true ex_quant_rows = Ok ex_quant /\
  (a2_cols ex_quant_rows <= 4194304)%N /\ nthN (a2_rows ex_quant_rows) 1 = Some [fN 4; fN 3] /\ lenN [fN 4; fN 3] = 2%N /\ Forall f32_finite [fN 4; fN 3] /\
  (exists norms, qa_norms ex_quant = Some norms /\ nthN norms 1 = Some (fN 5)) /\ f32_value (fN 5) = Some 5 /\ powerRZ 2 (-40) <= 5 <= powerRZ 2 100 /\
  nthN (a2_rows (qa_codes ex_quant)) 1 = Some [x00] /\
  Forall2 (fun x y => f32_finite x /\ Rabs (f32_R x - f32_R y) <= 1 / 4) (projected f32_ops (qa_pq ex_quant) (chosen (qa_pq ex_quant) [x00]))
    (map (fun x => f32_div x (fN 5)) [fN 4; fN 3]).
Proof.
  split; [apply ex_trainer_fits|]. split; [vm_compute; reflexivity|]. split; [discriminate|]. split; [reflexivity|]. split; [reflexivity|].
  split; [finites|]. split; [eexists; split; [reflexivity|vm_compute; reflexivity]|]. split; [apply five_value|].
  split; [split; [apply above_small; lra|]|].
  { apply Rle_trans with (powerRZ 2 3); [rewrite F32Round.p2_pow by lia; change (2 ^ 3)%Z with 8%Z; lra|]. apply F32Round.p2_le. lia. }
  split; [reflexivity|].
  assert (f32_value (bits 1058642330) = Some (10066330 / 16777216)) as V6 by value false 10066330%positive 24%nat.
  assert (f32_value (bits 1061997773) = Some (13421773 / 16777216)) as V8 by value false 13421773%positive 24%nat.
  assert (projected f32_ops (qa_pq ex_quant) (chosen (qa_pq ex_quant) [x00]) = [bits 1058642330; bits 1061997773]) as -> by (vm_compute; reflexivity).
  assert (map (fun x => f32_div x (fN 5)) [fN 4; fN 3] = [bits 1061997773; bits 1058642330]) as -> by (vm_compute; reflexivity).
  assert (f32_R (bits 1058642330) = 10066330 / 16777216) as R6 by (unfold f32_R; rewrite V6; reflexivity).
  assert (f32_R (bits 1061997773) = 13421773 / 16777216) as R8 by (unfold f32_R; rewrite V8; reflexivity).
  constructor; [|constructor; [|constructor]]; rewrite R6, R8; (split; [eexists; eassumption|]); [rewrite Rabs_left by lra|rewrite Rabs_right by lra]; lra.
Qed.

(** ** C95: unknown words *)
Theorem add_relative_thm : forall x y a b c,
  f32_value x = Some a -> f32_value y = Some b -> f32_value (f32_add x y) = Some c ->
  Rabs (a + b - c) <= powerRZ 2 (-24) * Rabs (a + b).
Proof. exact (@SumRound.add_relative). Qed.
Print Assumptions add_relative_thm.
Theorem sums_near_thm : forall cols rs,
  Forall (fun r => lenN r = cols) rs -> (lenN rs <= 8388608)%N ->
  Forall f32_finite (component_sums f32_ops cols rs) ->
  distance_R (map f32_R (component_sums f32_ops cols rs)) (sums_R cols rs) <= 2 * (INR (length rs) * powerRZ 2 (-24)) * total_length rs.
Proof. exact (@SumRound.sums_near). Qed.
Print Assumptions sums_near_thm.
Theorem unit_direction_thm : forall v w,
  unit_of v w -> (lenN v <= 4194304)%N ->
  0 < length_R (map f32_R v) /\ length w = length v /\
  distance_R (map f32_R w) (direction_R (map f32_R v)) <= 2 * length_error (lenN v).
Proof. exact (@SumRound.unit_direction). Qed.
Print Assumptions unit_direction_thm.
Theorem unknown_near_thm : forall (Md S : Type) (SO : storage_ops f32 S) pf (e : embeddings Md vocab_wrap S f32) cols rows w is,
  emb_made SO pf e cols rows -> (cols <= 4194304)%N -> v_idx wrap_ops pf (em_vocab e) w = Ok (Some (Subwords is)) ->
  Forall (fun i => (i < lenN rows)%N) is -> (lenN is <= 8388608)%N ->
  exists rs v n, selects rows is rs /\
  emb_embedding f32_ops wrap_ops SO pf e w = Ok (Some v) /\
  emb_with_norm f32_ops wrap_ops SO pf e w = Ok (Some (v, n)) /\
  forall nv, Forall f32_finite (component_sums f32_ops cols rs) -> f32_value n = Some nv -> powerRZ 2 (-40) <= nv ->
  0 < length_R (sums_R cols rs) ->
  distance_R (map f32_R v) (direction_R (sums_R cols rs)) <=
    2 * length_error cols + 4 * IZR (Z.of_N (lenN is)) * powerRZ 2 (-24) * (total_length rs / length_R (sums_R cols rs)).
Proof. exact (@SumRound.unknown_near). Qed.
Print Assumptions unknown_near_thm.

Lemma positive_R x m e : f32_to_sf x = S754_finite false m e -> 0 < f32_R x.
Proof.
  intros E. unfold f32_R, f32_value. rewrite E. apply Rmult_lt_0_compat; [|apply powerRZ_lt; lra].
  rewrite Rmult_1_l. apply IZR_lt. reflexivity.
Qed.
Lemma positive_length x v : 0 < x -> 0 < length_R (x :: v).
Proof. intros P. apply sqrt_lt_R0. cbn [map fold_right]. pose proof (SumRound.sqR_nonneg v). nra. Qed.
Example unknown_near_ex : emb_made (nd_ops f32) Debug ex_emb 2 ex_rows /\ (2 <= 4194304)%N /\
  exists is rs v n nv, v_idx wrap_ops Debug ex_vocab ex_unknown = Ok (Some (Subwords is)) /\ Forall (fun i => (i < lenN ex_rows)%N) is /\
  (1 < lenN is <= 8388608)%N /\
  selects ex_rows is rs /\ emb_with_norm f32_ops wrap_ops (nd_ops f32) Debug ex_emb ex_unknown = Ok (Some (v, n)) /\
  Forall f32_finite (component_sums f32_ops 2 rs) /\ f32_value n = Some nv /\ powerRZ 2 (-40) <= nv /\ 0 < length_R (sums_R 2 rs).
Proof.
  split; [apply ex_emb_made|]. split; [discriminate|]. do 5 eexists. split; [vm_compute; reflexivity|]. split; [repeat constructor|].
  split; [split; vm_compute; [reflexivity|discriminate]|].
  split; [repeat (constructor; [vm_compute; reflexivity|]); constructor|]. split; [vm_compute; reflexivity|].
  split; [constructor; [finite|constructor; [finite|constructor]]|]. split; [|split].
  - eapply value_down with (k := 18%nat). vm_compute. reflexivity.
  - apply above_small. change (2 ^ Z.of_nat 18)%Z with 262144%Z. lra.
  - change (seq 0 (N.to_nat 2)) with [0; 1]%nat. unfold sums_R. change (seq 0 (N.to_nat 2)) with [0; 1]%nat. cbn [map].
    apply positive_length. cbn [nth fold_right map].
    repeat (apply Rplus_lt_le_0_compat; [eapply positive_R; vm_compute; reflexivity|]; try apply Rle_refl; apply Rlt_le).
Qed.
