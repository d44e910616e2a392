(** * Theorems about round trips through formats with normalising readers, in [f32] (C96, C97). *)
From Coq Require Import Reals Lra Floats.SpecFloat.
From Verif Require Import Base BaseFacts Utf8 Stream F32 F32Text ChunkIO Subword Vocab Storage Embeddings TextIO FastText FileSpec VocabSpec EmbSpec TextSpec
  F32RoundSpec SumSpec TripSpec FastTextSpec P_Emb P_Sim P_Text P_Round P_Rank P_FastText.
From Verif Require EmbFacts TripRound FtTrip.
Local Open Scope R_scope.

(** ** C96: writing and reading with normalisation *)
Theorem text_trip_thm : forall (P : ftext_ops),
  ftext_law P -> forall {Md S : Type} (SO : storage_ops f32 S) pf (e : embeddings Md vocab_wrap S f32) cols rows un lossy base,
  emb_made SO pf e cols rows -> norms_fit e -> Forall text_word (v_words wrap_ops (em_vocab e)) -> v_words wrap_ops (em_vocab e) <> [] ->
  (cols <= 4194304)%N -> plain_vectors un e rows ->
  exists out (e' : embeddings Md simple_vocab (array2 f32) f32), run_writer (write_text P wrap_ops SO un e) base = Ok out /\
  run_reader (read_text P pf lossy) out = Ok e' /\ near_embeddings un e cols rows e'.
Proof. exact (@TripRound.text_trip). Qed.
Print Assumptions text_trip_thm.
Theorem text_dims_trip_thm : forall (P : ftext_ops),
  ftext_law P -> forall {Md S : Type} (SO : storage_ops f32 S) pf (e : embeddings Md vocab_wrap S f32) cols rows un lossy base,
  emb_made SO pf e cols rows -> norms_fit e -> Forall text_word (v_words wrap_ops (em_vocab e)) -> v_words wrap_ops (em_vocab e) <> [] ->
  dims_fit (v_words_len wrap_ops (em_vocab e)) cols -> (cols <= 4194304)%N -> plain_vectors un e rows ->
  exists out (e' : embeddings Md simple_vocab (array2 f32) f32), run_writer (write_text_dims P wrap_ops SO un e) base = Ok out /\
  run_reader (read_text_dims P pf lossy) out = Ok e' /\ near_embeddings un e cols rows e'.
Proof. exact (@TripRound.text_dims_trip). Qed.
Print Assumptions text_dims_trip_thm.
Theorem word2vec_trip_thm : forall (Md S : Type) (SO : storage_ops f32 S) pf (e : embeddings Md vocab_wrap S f32) cols rows un lossy base,
  emb_made SO pf e cols rows -> norms_fit e -> Forall binary_word (v_words wrap_ops (em_vocab e)) ->
  binary_fits (v_words_len wrap_ops (em_vocab e)) cols -> (cols <= 4194304)%N -> plain_vectors un e rows ->
  exists out (e' : embeddings Md simple_vocab (array2 f32) f32), run_writer (write_word2vec wrap_ops SO un e) base = Ok out /\
  run_reader (read_word2vec pf lossy) out = Ok e' /\ near_embeddings un e cols rows e'.
Proof. exact (@TripRound.word2vec_trip). Qed.
Print Assumptions word2vec_trip_thm.
Theorem read_back_thm : forall (Md : Type) (e : embeddings Md simple_vocab (array2 f32) f32) cols l,
  normalized_result f32_ops e cols l -> (cols <= 4194304)%N ->
  forall i w v, nthN l i = Some (w, v) -> lenN v = cols -> Forall f32_finite v ->
  powerRZ 2 (-38) <= length_R (map f32_R v) <= powerRZ 2 49 -> exists r n nv,
  nthN (a2_rows (em_storage e)) i = Some r /\ (exists ns, em_norms e = Some ns /\ nthN ns i = Some n) /\ f32_value n = Some nv /\
  Rabs (nv - length_R (map f32_R v)) <= length_error cols * length_R (map f32_R v) /\
  Forall f32_finite r /\ Rabs (length_R (map f32_R r) - 1) <= length_error cols /\
  Forall2 (fun x y => f32_finite y /\ Rabs (f32_R y - f32_R x) <= 3 * powerRZ 2 (-24) * Rabs (f32_R x) + powerRZ 2 (-149) * (nv + 1)) v
    (into_unnormalized f32_ops (r, n)).
Proof. exact (@TripRound.read_back_f32). Qed.
Print Assumptions read_back_thm.

(** Two words with the rows (1, 2) and (2, 3) and the norms 7 and 8. *)
Lemma length_two x y a b : f32_value x = Some a -> f32_value y = Some b -> 0 <= a -> 1 <= b -> a + b <= 16 -> 1 <= length_R (map f32_R [x; y]) <= 16.
Proof.
  intros VX VY A B C. unfold length_R. cbn [map fold_right]. unfold f32_R. rewrite VX, VY. split.
  - apply EmbRound.sqrt_ge_of; nra.
  - apply EmbRound.sqrt_le_of; nra.
Qed.
Lemma trip_bounds s l : 1 <= s <= 16 -> 1 <= l <= 16 -> powerRZ 2 (-36) <= s * l <= powerRZ 2 49.
Proof.
  intros S0 L. assert (powerRZ 2 (-36) <= powerRZ 2 0) by (apply F32Round.p2_le; lia). assert (powerRZ 2 8 <= powerRZ 2 49) by (apply F32Round.p2_le; lia).
  change (powerRZ 2 0) with 1 in *. assert (powerRZ 2 8 = 256) as E by (rewrite F32Round.p2_pow by lia; reflexivity). nra.
Qed.
Lemma seven_value : f32_value (fN 7) = Some 7. Proof. value false 14680064%positive 21%nat. Qed.
Lemma eight_value : f32_value (fN 8) = Some 8. Proof. value false 8388608%positive 20%nat. Qed.
Lemma four_value : f32_value (fN 4) = Some 4. Proof. value false 8388608%positive 21%nat. Qed.
Lemma trip_plain un : plain_vectors un ex_emb ex_rows.
Proof.
  intros i w r n W R NO. assert (i < 2)%N as L by exact (nthN_Some_lt _ _ _ W). assert (i = 0 \/ i = 1)%N as C by lia.
  destruct C as [C|C]; subst i; cbn in R, NO; injection R as <-; injection NO as <-.
  - split; [finites|]. pose proof (length_two (fN 1) (fN 2) 1 2 one_value two_value ltac:(lra) ltac:(lra) ltac:(lra)) as LB.
    exists (if un then 7 else 1). split; [destruct un; [apply seven_value|reflexivity]|]. split; [destruct un; lra|]. apply trip_bounds; [destruct un; lra|exact LB].
  - split; [finites|]. pose proof (length_two (fN 2) (fN 3) 2 3 two_value three_value ltac:(lra) ltac:(lra) ltac:(lra)) as LB.
    exists (if un then 8 else 1). split; [destruct un; [apply eight_value|reflexivity]|]. split; [destruct un; lra|]. apply trip_bounds; [destruct un; lra|exact LB].
Qed.
Example text_trip_ex : ftext_law ex_P /\ emb_made (nd_ops f32) Debug ex_emb 2 ex_rows /\ norms_fit ex_emb /\
  Forall text_word (v_words wrap_ops (em_vocab ex_emb)) /\ v_words wrap_ops (em_vocab ex_emb) <> [] /\
  dims_fit (v_words_len wrap_ops (em_vocab ex_emb)) 2 /\ (2 <= 4194304)%N /\ plain_vectors true ex_emb ex_rows /\
  exists out e', run_writer (write_text_dims ex_P wrap_ops (nd_ops f32) true ex_emb) 0 = Ok out /\
  run_reader (read_text_dims (Md := unit) ex_P Debug true) out = Ok e' /\
  map (map f32_bits) (a2_rows (em_storage e')) = [[1055193390; 1063581998]; [1057882325; 1062535488]]%N /\
  option_map (map f32_bits) (em_norms e') = Some [1098543243; 1105641818]%N.
Proof.
  split; [apply ex_P_law|]. split; [apply ex_emb_made|]. split; [apply ex_norms_fit|]. split; [apply ex_text_words|]. split; [discriminate|].
  split; [split; vm_compute; discriminate|]. split; [discriminate|]. split; [apply trip_plain|].
  eexists. eexists. split; [vm_compute; reflexivity|]. split; [vm_compute; reflexivity|]. split; vm_compute; reflexivity.
Qed.
Lemma w34_plain : plain_vectors false ex_34 [[fN 3; fN 4]].
Proof.
  intros i w r n W R NO. assert (i < 1)%N as L by exact (nthN_Some_lt _ _ _ W). assert (i = 0)%N as C by lia. subst i. cbn in R. injection R as <-.
  split; [finites|]. exists 1. split; [reflexivity|]. split; [lra|]. apply trip_bounds; [lra|].
  apply (length_two (fN 3) (fN 4) 3 4 three_value four_value); lra.
Qed.
Example word2vec_trip_ex : emb_made (nd_ops f32) Debug ex_34 2 [[fN 3; fN 4]] /\ norms_fit ex_34 /\ Forall binary_word (v_words wrap_ops (em_vocab ex_34)) /\
  binary_fits (v_words_len wrap_ops (em_vocab ex_34)) 2 /\ (2 <= 4194304)%N /\ plain_vectors false ex_34 [[fN 3; fN 4]] /\
  exists out e', run_writer (write_word2vec wrap_ops (nd_ops f32) false ex_34) 0 = Ok out /\
  run_reader (read_word2vec (Md := unit) Debug true) out = Ok e' /\ em_norms e' = Some [fN 5].
Proof.
  split; [apply ex_34_made|]. split; [apply ex_34_fits|]. split.
  { constructor; [|constructor]. apply (plain_word [x61] [97%N]); [reflexivity|reflexivity|repeat constructor|]. intros [K|[]]. discriminate K. }
  split; [split; vm_compute; repeat split; discriminate|]. split; [discriminate|]. split; [apply w34_plain|].
  eexists. eexists. split; [vm_compute; reflexivity|]. split; vm_compute; reflexivity.
Qed.
(** The vector (3, 4), whose length is 5. *)
Example read_back_ex : normalized_result f32_ops (mkEmb (Md := unit) None (mkA2 2 [fst (l2_normalize f32_ops [fN 3; fN 4])]) (mkSimple (create_indices [[x61]]) [[x61]]) (Some [fN 5])) 2 [([x61], [fN 3; fN 4])] /\
  Forall f32_finite [fN 3; fN 4] /\ length_R (map f32_R [fN 3; fN 4]) = 5 /\
  map f32_bits (into_unnormalized f32_ops (fst (l2_normalize f32_ops [fN 3; fN 4]), fN 5)) = map f32_bits [fN 3; fN 4].
Proof.
  split.
  - split; [vm_compute; reflexivity|]. split; [reflexivity|]. split; [reflexivity|]. split; [reflexivity|]. exists [fN 5]. split; [reflexivity|]. split; [reflexivity|].
    intros i w v K. assert (i < 1)%N as L by exact (nthN_Some_lt _ _ _ K). assert (i = 0)%N as C by lia. subst i. cbn in K. injection K as <- <-.
    exists (fst (l2_normalize f32_ops [fN 3; fN 4])), (fN 5). split; [reflexivity|]. split; [reflexivity|].
    assert (fN 5 = snd (l2_normalize f32_ops [fN 3; fN 4])) as -> by (vm_compute; reflexivity). apply EmbFacts.l2_normalize_scaled.
  - split; [finites|]. split; [|vm_compute; reflexivity]. unfold length_R. cbn [map fold_right]. unfold f32_R. rewrite three_value, four_value.
    replace (3 * 3 + (4 * 4 + 0)) with (5 * 5) by ring. apply sqrt_square. lra.
Qed.

(** ** C97: fastText models *)
Theorem ft_read_f32_thm : forall pf (T : toml_ops) (config_table : ft_config -> option (toml_table T)) lossy data e,
  run_reader (read_fasttext pf T config_table lossy) data = Ok e ->
  exists f c ws rest, data = ft_bytes f ++ rest /\ ft_config_is f c /\ ft_words lossy f ws /\
  (fc_bucket c <> 0%N -> exists subs ns, sv_words (em_vocab e) = ws /\ subwords_are (em_vocab e) subs /\ em_norms e = Some ns /\
   forall i w own rs, nthN ws i = Some w -> nthN (a2_rows (ff_matrix f)) i = Some own -> selects (a2_rows (ff_matrix f)) (subs w) rs ->
   (a2_cols (ff_matrix f) <= 4194304)%N -> plain_mean (a2_cols (ff_matrix f)) own rs ->
   exists r n, nthN (a2_rows (em_storage e)) i = Some r /\ nthN ns i = Some n /\ near_mean (a2_cols (ff_matrix f)) own rs r n).
Proof. exact (@FtTrip.ft_read_f32). Qed.
Print Assumptions ft_read_f32_thm.
Theorem ft_trip_f32_thm : forall pf (T : toml_ops) (config_table : ft_config -> option (toml_table T)) S (SO : storage_ops f32 S)
  (e : embeddings (toml_table T) (subword_vocab ft_indexer) S f32) cols rows lossy base rest,
  ft_emb_made SO pf e cols rows ->
  (lenN (sv_words (em_vocab e)) < two32)%N -> (cols <= 4194304)%N -> (sv_min (em_vocab e) < two32)%N -> (sv_max (em_vocab e) < two32)%N ->
  dims_ok [lenN rows; cols] 4 -> Forall (fun w => ~ In x00 w) (sv_words (em_vocab e)) ->
  sv_bow (em_vocab e) = default_bow -> sv_eow (em_vocab e) = default_eow -> (forall c, config_table c <> None) ->
  exists subs out e' ns, run_writer (write_fasttext pf T SO e) base = Ok out /\
  run_reader (read_fasttext pf T config_table lossy) (out ++ rest) = Ok e' /\
  em_vocab e' = em_vocab e /\ a2_cols (em_storage e') = cols /\ em_norms e' = Some ns /\ lenN ns = lenN (sv_words (em_vocab e)) /\
  lenN (a2_rows (em_storage e')) = lenN rows /\ subwords_are (em_vocab e) subs /\
  (forall i, (lenN (sv_words (em_vocab e)) <= i)%N -> nthN (a2_rows (em_storage e')) i = nthN rows i) /\
  (forall i w, nthN (sv_words (em_vocab e)) i = Some w -> exists d rs, nthN rows i = Some d /\ selects rows (subs w) rs /\
   (plain_ft_word d (ft_norm f32_ops e i) rs ->
    exists d' n', nthN (a2_rows (em_storage e')) i = Some d' /\ nthN ns i = Some n' /\ near_ft_word cols d (ft_norm f32_ops e i) rs d' n')).
Proof. exact (@FtTrip.ft_trip_f32). Qed.
Print Assumptions ft_trip_f32_thm.

(** The words of [ft_ex], with the subword rows (1, 2) and (3, 4). *)
Lemma small_cases x y z : 0 <= x <= 16 -> 1 <= y <= 8 -> 0 <= z <= 16 ->
  20 * powerRZ 2 (-24) * ((1 + 1) * y + 2 * x) <= y /\ 8 * (1 * powerRZ 2 (-24)) * z <= y /\ powerRZ 2 (-35) <= y / (1 + 1) <= powerRZ 2 48 /\
  powerRZ 2 (-35) <= y <= powerRZ 2 47 /\ x <= powerRZ 2 100 /\ z <= powerRZ 2 100.
Proof.
  intros X Y Z. assert (powerRZ 2 (-35) <= powerRZ 2 (-1)) as A by (apply F32Round.p2_le; lia). assert (powerRZ 2 4 <= powerRZ 2 47) as B by (apply F32Round.p2_le; lia).
  assert (powerRZ 2 47 <= powerRZ 2 48) as C by (apply F32Round.p2_le; lia). assert (powerRZ 2 48 <= powerRZ 2 100) as D by (apply F32Round.p2_le; lia).
  assert (powerRZ 2 (-1) = / 2) as E by (unfold powerRZ; change (Pos.to_nat 1) with 1%nat; rewrite pow_1; reflexivity). assert (powerRZ 2 4 = 16) as G by (rewrite F32Round.p2_pow by lia; reflexivity).
  assert (powerRZ 2 (-24) <= powerRZ 2 (-12)) as H by (apply F32Round.p2_le; lia). assert (0 < powerRZ 2 (-24)) as P by (apply powerRZ_lt; lra).
  assert (powerRZ 2 (-12) * powerRZ 2 12 = 1) as K by (rewrite <- F32Round.p2_add; reflexivity). assert (powerRZ 2 12 = 4096) as K' by (rewrite F32Round.p2_pow by lia; reflexivity). rewrite K' in K.
  set (q := powerRZ 2 (-24)) in *. assert (q * (2 * y + 2 * x) <= / 4096 * 48) by (apply Rmult_le_compat; lra). assert (q * z <= / 4096 * 16) by (apply Rmult_le_compat; lra). lra.
Qed.
Lemma length_values x y a b lo hi : f32_value x = Some a -> f32_value y = Some b -> 0 <= lo -> 0 <= hi -> lo * lo <= a * a + b * b <= hi * hi -> lo <= length_R (map f32_R [x; y]) <= hi.
Proof.
  intros VX VY A B C. unfold length_R. cbn [map fold_right]. unfold f32_R. rewrite VX, VY. split; [apply EmbRound.sqrt_ge_of|apply EmbRound.sqrt_le_of]; lra.
Qed.
Lemma ft_case x y z t n a b c d s : f32_value x = Some a -> f32_value y = Some b -> f32_value z = Some c -> f32_value t = Some d -> f32_value n = Some s ->
  a * a + b * b = 1 -> 1 <= s <= 4 -> c * c + d * d <= 64 -> 1 <= (a + c) * (a + c) + (b + d) * (b + d) <= 64 ->
  plain_ft_word [x; y] n [[z; t]] /\ plain_mean 2 [x; y] [[z; t]].
Proof.
  intros VX VY VZ VT VN A S0 C M.
  pose proof (length_values x y a b 1 1 VX VY ltac:(lra) ltac:(lra) ltac:(lra)) as LD.
  pose proof (length_values z t c d 0 8 VZ VT ltac:(lra) ltac:(lra) ltac:(split; [pose proof (Rle_0_sqr c); pose proof (Rle_0_sqr d); unfold Rsqr in *; lra|lra])) as LR.
  assert (Forall (Forall f32_finite) [[x; y]; [z; t]]) as F. { constructor; [|constructor; [|constructor]]; (constructor; [|constructor; [|constructor]]); eexists; eassumption. }
  assert (length_R (map f32_R [x; y]) = 1) as E1 by lra.
  assert (1 <= length_R (sums_R 2 [[x; y]; [z; t]]) <= 8) as LS.
  { unfold sums_R, length_R. change (seq 0 (N.to_nat 2)) with [0%nat; 1%nat]. cbn [map fold_right nth]. unfold f32_R. rewrite VX, VY, VZ, VT.
    split; [apply EmbRound.sqrt_ge_of|apply EmbRound.sqrt_le_of]; lra. }
  assert (total_length [[z; t]] = length_R (map f32_R [z; t])) as T1 by (unfold total_length; cbn [map fold_right]; lra).
  assert (total_length [[x; y]; [z; t]] = 1 + length_R (map f32_R [z; t])) as T2 by (unfold total_length; cbn [map fold_right]; cbn [map] in E1; rewrite E1; lra).
  pose proof (small_cases (length_R (map f32_R [z; t])) s (1 + length_R (map f32_R [z; t])) ltac:(lra) ltac:(lra) ltac:(lra)) as K1.
  pose proof (small_cases (length_R (map f32_R [z; t])) (length_R (sums_R 2 [[x; y]; [z; t]])) (1 + length_R (map f32_R [z; t])) ltac:(lra) LS ltac:(lra)) as K2.
  split.
  - split; [exact F|]. split; [discriminate|]. rewrite T1. split; [tauto|]. exists s. rewrite E1, Rmult_1_r. change (INR (length [[z; t]])) with 1. split; [exact VN|]. split; [lra|]. tauto.
  - split; [exact F|]. split; [discriminate|]. rewrite T2. change (INR (length [[z; t]])) with 1. tauto.
Qed.
Lemma none_value : f32_value (fN 0) = Some 0. Proof. vm_compute. reflexivity. Qed.
Example ft_trip_f32_ex : ft_emb_made (nd_ops f32) Debug ft_ex 2 ft_rows /\ (2 <= 4194304)%N /\
  (forall r, In r [[fN 1; fN 2]; [fN 3; fN 4]] -> plain_ft_word [fN 1; fN 0] (ft_norm f32_ops ft_ex 0) [r] /\ plain_ft_word [fN 0; fN 1] (ft_norm f32_ops ft_ex 1) [r]).
Proof.
  split; [apply ft_ex_made|]. split; [discriminate|]. change (ft_norm f32_ops ft_ex 0) with (fN 2). change (ft_norm f32_ops ft_ex 1) with (fN 4).
  intros r [<-|[<-|[]]]; split.
  - apply (ft_case _ _ _ _ _ 1 0 1 2 2 one_value none_value one_value two_value two_value); lra.
  - apply (ft_case _ _ _ _ _ 0 1 1 2 4 none_value one_value one_value two_value four_value); lra.
  - apply (ft_case _ _ _ _ _ 1 0 3 4 2 one_value none_value three_value four_value two_value); lra.
  - apply (ft_case _ _ _ _ _ 0 1 3 4 4 none_value one_value three_value four_value four_value); lra.
Qed.
(** A model with these rows. *)
Example ft_read_f32_ex : let e := ft_emb default_bow default_eow ft_rows None in
  (exists e', run_reader (read_fasttext Debug ft_T ft_table false) (ft_bytes (ft_written e 2 ft_rows)) = Ok e' /\ sv_words (em_vocab e') = [[x61]; [x62]]) /\
  (forall r, In r [[fN 1; fN 2]; [fN 3; fN 4]] -> plain_mean 2 [fN 1; fN 0] [r] /\ plain_mean 2 [fN 0; fN 1] [r]).
Proof.
  split; [eexists; split; [vm_compute; reflexivity|reflexivity]|]. intros r [<-|[<-|[]]]; split.
  - apply (ft_case _ _ _ _ _ 1 0 1 2 2 one_value none_value one_value two_value two_value); lra.
  - apply (ft_case _ _ _ _ _ 0 1 1 2 4 none_value one_value one_value two_value four_value); lra.
  - apply (ft_case _ _ _ _ _ 1 0 3 4 2 one_value none_value three_value four_value two_value); lra.
  - apply (ft_case _ _ _ _ _ 0 1 3 4 4 none_value one_value three_value four_value four_value); lra.
Qed.
