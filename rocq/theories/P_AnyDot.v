(** * Theorems about queries whose dot products are computed in any way (C114): in any
    memory layout, or by a BLAS library. *)
From Coq Require Import Reals Lra Floats.SpecFloat Sorting.Permutation.
From Verif Require Import Base BaseFacts Utf8 F32 Subword Vocab Storage Embeddings Similarity FileSpec VocabSpec EmbSpec TextSpec SimSpec
  F32RoundSpec RankSpec AnyDot AnyDotSpec P_Emb P_Sim P_Round P_Rank.
From Verif Require F32Round F32RoundThms MatrixFacts F32Facts EmbFacts SimFacts DotRound AnyDotFacts AnyDotRound.
Local Open Scope N_scope.

(** ** The model is one of the ways *)
Theorem modelled_queries_thm : forall (Md S F : Type) (o : fops F) (SO : storage_ops F S) (view : S -> res (array2 F)) (pf : profile) (e : embeddings Md vocab_wrap S F),
  (forall w limit batch, word_similarity_by o wrap_ops SO view pf (nd_dot o true true) (nd_gemv o true true) e w limit batch
       = word_similarity o wrap_ops SO view pf e w limit batch) /\
    (forall q limit skip batch, embedding_similarity_masked_by o wrap_ops view (nd_dot o true true) (nd_gemv o true true) e q limit skip batch
       = embedding_similarity_masked o wrap_ops view e q limit skip batch) /\
    (forall q remove limit batch, analogy_masked_by o wrap_ops SO view pf (nd_dot o true true) (nd_gemv o true true) e q remove limit batch
       = analogy_masked o wrap_ops SO view pf e q remove limit batch).
Proof. exact (@AnyDotFacts.modelled_queries). Qed.
Print Assumptions modelled_queries_thm.

(** ** The result is exact for the similarities that are computed *)
Theorem similarity_by_exact_thm : forall (Md S F : Type) (o : fops F), ordered o -> forall (SO : storage_ops F S) (view : S -> res (array2 F)) (pf : profile) (e : embeddings Md vocab_wrap S F) (a : array2 F) (gemv : list (list F) -> list F -> list F), emb_made SO pf e (a2_cols a) (a2_rows a) -> view (em_storage e) = Ok a -> one_per_row gemv ->
  forall q skip limit batch rs,
  similarity_by o wrap_ops view gemv e q skip limit batch = Ok rs ->
    top_k o (candidate_by gemv (v_words wrap_ops (em_vocab e)) (a2_rows a) skip q (batch_of (v_words wrap_ops (em_vocab e)) batch)) limit rs.
Proof. exact (@AnyDotFacts.similarity_by_exact). Qed.
Print Assumptions similarity_by_exact_thm.
Theorem similarity_by_ok_iff_thm : forall (Md S F : Type) (o : fops F), ordered o -> forall (SO : storage_ops F S) (view : S -> res (array2 F)) (pf : profile) (e : embeddings Md vocab_wrap S F) (a : array2 F) (gemv : list (list F) -> list F -> list F), emb_made SO pf e (a2_cols a) (a2_rows a) -> view (em_storage e) = Ok a -> one_per_row gemv ->
  forall q skip limit batch,
  (exists rs, similarity_by o wrap_ops view gemv e q skip limit batch = Ok rs) <->
    query_ok_by o gemv (v_words wrap_ops (em_vocab e)) (a2_cols a) (a2_rows a) skip q limit batch.
Proof. exact (@AnyDotFacts.similarity_by_ok_iff). Qed.
Print Assumptions similarity_by_ok_iff_thm.
Theorem batch_by_irrelevant_thm : forall (Md S F : Type) (o : fops F) (SO : storage_ops F S) (view : S -> res (array2 F)) (pf : profile) (e : embeddings Md vocab_wrap S F) (a : array2 F) (gemv : list (list F) -> list F -> list F), emb_made SO pf e (a2_cols a) (a2_rows a) -> view (em_storage e) = Ok a -> one_per_row gemv ->
  forall f q skip limit b b',
  (forall rs, gemv rs q = map f rs) -> b <> 0 -> b' <> 0 ->
    similarity_by o wrap_ops view gemv e q skip limit (Some b) = similarity_by o wrap_ops view gemv e q skip limit (Some b').
Proof. exact (@AnyDotFacts.batch_by_irrelevant). Qed.
Print Assumptions batch_by_irrelevant_thm.
Theorem word_by_exact_thm : forall (Md S F : Type) (o : fops F), ordered o -> forall (SO : storage_ops F S) (view : S -> res (array2 F)) (pf : profile) (e : embeddings Md vocab_wrap S F) (a : array2 F) (dot : list F -> list F -> F) (gemv : list (list F) -> list F -> list F), emb_made SO pf e (a2_cols a) (a2_rows a) -> view (em_storage e) = Ok a -> one_per_row gemv ->
  forall w i r limit batch,
  nthN (v_words wrap_ops (em_vocab e)) i = Some w -> nthN (a2_rows a) i = Some r ->
    ((exists x, word_similarity_by o wrap_ops SO view pf dot gemv e w limit batch = Ok x) <->
     query_ok_by o gemv (v_words wrap_ops (em_vocab e)) (a2_cols a) (a2_rows a) [w] r limit batch) /\
    forall x, word_similarity_by o wrap_ops SO view pf dot gemv e w limit batch = Ok x ->
    exists rs, x = Some rs /\
      top_k o (candidate_by gemv (v_words wrap_ops (em_vocab e)) (a2_rows a) [w] r (batch_of (v_words wrap_ops (em_vocab e)) batch)) limit rs.
Proof. exact (@AnyDotFacts.word_by_exact). Qed.
Print Assumptions word_by_exact_thm.
Theorem masked_by_exact_thm : forall (Md S F : Type) (o : fops F), ordered o -> forall (SO : storage_ops F S) (view : S -> res (array2 F)) (pf : profile) (e : embeddings Md vocab_wrap S F) (a : array2 F) (dot : list F -> list F -> F) (gemv : list (list F) -> list F -> list F), emb_made SO pf e (a2_cols a) (a2_rows a) -> view (em_storage e) = Ok a -> one_per_row gemv ->
  forall q limit skip batch,
  exists v n, scaled_by o dot q v n /\ lenN v = lenN q /\
      ((exists r, embedding_similarity_masked_by o wrap_ops view dot gemv e q limit skip batch = Ok r) <->
       query_ok_by o gemv (v_words wrap_ops (em_vocab e)) (a2_cols a) (a2_rows a) skip v limit batch) /\
      forall r, embedding_similarity_masked_by o wrap_ops view dot gemv e q limit skip batch = Ok r ->
      exists rs, r = Some rs /\
        top_k o (candidate_by gemv (v_words wrap_ops (em_vocab e)) (a2_rows a) skip v (batch_of (v_words wrap_ops (em_vocab e)) batch)) limit rs.
Proof. exact (@AnyDotFacts.masked_by_exact). Qed.
Print Assumptions masked_by_exact_thm.
Theorem analogy_by_exact_thm : forall (Md S F : Type) (o : fops F), ordered o -> forall (SO : storage_ops F S) (view : S -> res (array2 F)) (pf : profile) (e : embeddings Md vocab_wrap S F) (a : array2 F) (dot : list F -> list F -> F) (gemv : list (list F) -> list F -> list F), emb_made SO pf e (a2_cols a) (a2_rows a) -> view (em_storage e) = Ok a -> one_per_row gemv ->
  forall wa wb wc ra rb rc limit batch,
  vocab_usable (em_vocab e) ->
    utf8_valid wa = true -> utf8_valid wb = true -> utf8_valid wc = true ->
    exists va vb vc, emb_embedding_by o wrap_ops SO pf dot e wa = Ok va /\ emb_embedding_by o wrap_ops SO pf dot e wb = Ok vb /\
    emb_embedding_by o wrap_ops SO pf dot e wc = Ok vc /\
    ((va = None \/ vb = None \/ vc = None) ->
     analogy_masked_by o wrap_ops SO view pf dot gemv e (wa, wb, wc) (ra, rb, rc) limit batch
     = Ok (inr (match va with Some _ => true | None => false end, match vb with Some _ => true | None => false end,
                match vc with Some _ => true | None => false end))) /\
    forall xa xb xc, va = Some xa -> vb = Some xb -> vc = Some xc ->
    exists v n skip, scaled_by o dot (analogy_vector o (a2_cols a) xa xb xc) v n /\ lenN v = a2_cols a /\
      (forall w, In w skip <-> (ra = true /\ w = wa) \/ (rb = true /\ w = wb) \/ (rc = true /\ w = wc)) /\
      ((exists r, analogy_masked_by o wrap_ops SO view pf dot gemv e (wa, wb, wc) (ra, rb, rc) limit batch = Ok r) <->
       query_ok_by o gemv (v_words wrap_ops (em_vocab e)) (a2_cols a) (a2_rows a) skip v limit batch) /\
      forall r, analogy_masked_by o wrap_ops SO view pf dot gemv e (wa, wb, wc) (ra, rb, rc) limit batch = Ok r ->
      exists rs, r = inl rs /\
        top_k o (candidate_by gemv (v_words wrap_ops (em_vocab e)) (a2_rows a) skip v (batch_of (v_words wrap_ops (em_vocab e)) batch)) limit rs.
Proof. exact (@AnyDotFacts.analogy_by_exact). Qed.
Print Assumptions analogy_by_exact_thm.

(** A product that computes the last row of a batch in another way. *)
Definition odd_gemv (rows : list (list f32)) (q : list f32) : list f32 :=
  match rev rows with
  | [] => []
  | r :: rs => rev (dot_tail f32_ops r q f32_zero :: map (fun r => vdot f32_ops r q) rs)
  end.
Lemma odd_one : one_per_row odd_gemv.
Proof.
  intros rows q. unfold odd_gemv. rewrite <- (rev_length rows). destruct (rev rows) as [|r rs]; [reflexivity|].
  rewrite rev_length. cbn [length]. rewrite map_length. reflexivity.
Qed.
(** Eight columns: sums in order lose the small terms. *)
Definition f1 : f32 := f32_one.
Definition f24 : f32 := F32 x00 x00 x80 x33.  (** 2^-24 *)
Definition f1p : f32 := F32 x01 x00 x80 x3f.  (** 1 + 2^-23 *)
Definition any_words : list str := [[x61]; [x62]; [x63]].
Definition any_rows : list (list f32) :=
  [[f1; f1; f1; f1; f1; f1; f1; f1]; [f1; f24; f24; f24; f24; f24; f24; f24]; [f1p; f32_zero; f32_zero; f32_zero; f32_zero; f32_zero; f32_zero; f32_zero]].
Definition any_emb : embeddings unit vocab_wrap (array2 f32) f32 :=
  mkEmb None (mkA2 8 any_rows) (VSimple (mkSimple (create_indices any_words) any_words)) None.
Lemma any_made : emb_made (nd_ops f32) Debug any_emb 8 any_rows.
Proof.
  split; [apply (vm_simple Debug any_words); vm_compute; reflexivity|]. split; [apply (MatrixFacts.nd_matrix (mkA2 8 any_rows)); repeat constructor|]. vm_compute. reflexivity.
Qed.
Lemma any_usable : vocab_usable (em_vocab any_emb).
Proof. intros mn mx bow eow H. discriminate. Qed.
Example similarity_by_ex : ordered f32_ops /\ emb_made (nd_ops f32) Debug any_emb 8 any_rows /\ one_per_row odd_gemv /\ vocab_usable (em_vocab any_emb) /\
  (** the batch that a row is in decides how it is computed *)
  map (fun r => (wr_word r, f32_bits (wr_sim r)))
    (match similarity_by f32_ops wrap_ops Ok odd_gemv any_emb (nth 0 any_rows []) [[x61]] 5 (Some 2) with Ok rs => rs | _ => [] end)
  = [([x63], 1065353217); ([x62], 1065353216)] /\
  map (fun r => (wr_word r, f32_bits (wr_sim r)))
    (match similarity_by f32_ops wrap_ops Ok odd_gemv any_emb (nth 0 any_rows []) [[x61]] 5 (Some 3) with Ok rs => rs | _ => [] end)
  = [([x62], 1065353219); ([x63], 1065353217)] /\
  batch_entry odd_gemv 2 any_rows (nth 0 any_rows []) 1 f1 /\
  nthN (v_words wrap_ops (em_vocab any_emb)) 0 = Some [x61] /\ nthN any_rows 0 = Some (nth 0 any_rows []).
Proof.
  split; [apply F32Facts.f32_ordered|]. split; [apply any_made|]. split; [apply odd_one|]. split; [apply any_usable|].
  repeat split; vm_compute; reflexivity.
Qed.
Example batch_by_irrelevant_ex : one_per_row (nd_gemv f32_ops false true) /\
  forall q rs, nd_gemv f32_ops false true rs q = map (fun r => f32_mul (dot_tail f32_ops r q f32_zero) f32_one) rs.
Proof. split; [apply AnyDotFacts.nd_one_per_row|reflexivity]. Qed.

(** ** Layouts *)
Theorem short_layouts_thm : forall (Md S F : Type) (o : fops F) (SO : storage_ops F S) (view : S -> res (array2 F)) (pf : profile) (e : embeddings Md vocab_wrap S F) (a : array2 F) (s s' : bool), fadd o (fzero o) (fzero o) = fzero o -> emb_made SO pf e (a2_cols a) (a2_rows a) -> view (em_storage e) = Ok a -> a2_cols a < 8 ->
  (forall w limit batch, word_similarity_by o wrap_ops SO view pf (nd_dot o s s') (nd_gemv o s s') e w limit batch
       = word_similarity o wrap_ops SO view pf e w limit batch) /\
    (forall q limit skip batch, lenN q = a2_cols a -> embedding_similarity_masked_by o wrap_ops view (nd_dot o s s') (nd_gemv o s s') e q limit skip batch
       = embedding_similarity_masked o wrap_ops view e q limit skip batch) /\
    (forall wa wb wc remove limit batch, vocab_usable (em_vocab e) -> utf8_valid wa = true -> utf8_valid wb = true -> utf8_valid wc = true ->
       analogy_masked_by o wrap_ops SO view pf (nd_dot o s s') (nd_gemv o s s') e (wa, wb, wc) remove limit batch
       = analogy_masked o wrap_ops SO view pf e (wa, wb, wc) remove limit batch).
Proof. exact (@AnyDotFacts.short_layouts). Qed.
Print Assumptions short_layouts_thm.
Example short_layouts_ex : fadd f32_ops (fzero f32_ops) (fzero f32_ops) = fzero f32_ops /\ emb_made (nd_ops f32) Debug rank_emb 2 rank_rows /\ 2 < 8 /\
  map (fun r => (wr_word r, f32_bits (wr_sim r)))
    (match word_similarity_by f32_ops wrap_ops (nd_ops f32) Ok Debug (nd_dot f32_ops false false) (nd_gemv f32_ops false false) rank_emb [x61] 5 None with Ok (Some rs) => rs | _ => [] end)
  = [([x63], 1064836994); ([x62], 1064682128)].
Proof. split; [vm_compute; reflexivity|]. split; [apply rank_made|]. split; [reflexivity|]. vm_compute. reflexivity. Qed.

(** With eight columns the order of two words depends on the layout: what
    [word_similarity] returns changes when the embeddings are written to a
    file and read, which stores the matrix in row-major order. *)
Theorem layout_irrelevant_refuted : exists (e : embeddings unit vocab_wrap (array2 f32) f32) (w : str) (rs rs' : list (wsr f32)),
  emb_made (nd_ops f32) Debug e (a2_cols (em_storage e)) (a2_rows (em_storage e)) /\ a2_cols (em_storage e) = 8 /\
  word_similarity_by f32_ops wrap_ops (nd_ops f32) Ok Debug (nd_dot f32_ops true true) (nd_gemv f32_ops false false) e w 1 None = Ok (Some rs) /\
  word_similarity_by f32_ops wrap_ops (nd_ops f32) Ok Debug (nd_dot f32_ops true true) (nd_gemv f32_ops true true) e w 1 None = Ok (Some rs') /\
  map wr_word rs <> map wr_word rs'.
Proof.
  exists any_emb, [x61]. do 2 eexists. split; [apply any_made|]. split; [reflexivity|]. split; [vm_compute; reflexivity|]. split; [vm_compute; reflexivity|].
  vm_compute. discriminate.
Qed.
Print Assumptions layout_irrelevant_refuted.

(** ** Rounding *)
Local Open Scope R_scope.
Theorem sums_dot_thm : forall d a b x,
  (13 <= d)%nat -> (N.of_nat d <= 1048576)%N -> sums d a b x -> Forall f32_finite a -> Forall f32_finite b ->
  length_R (map f32_R a) * length_R (map f32_R b) <= powerRZ 2 100 -> exists D, f32_value x = Some D /\
  Rabs (D - dot_R (map f32_R a) (map f32_R b)) <= 9 / 8 * depth_error d * (length_R (map f32_R a) * length_R (map f32_R b)) + powerRZ 2 (-124).
Proof. exact (@AnyDotRound.sums_dot). Qed.
Print Assumptions sums_dot_thm.
Theorem sums_cosine_thm : forall d v w v' w' x,
  (13 <= d)%nat -> (N.of_nat d <= 1048576)%N -> unit_by d v w -> unit_by d v' w' -> lenN v = lenN v' -> (lenN v <= 4194304)%N ->
  sums d w w' x -> exists s, f32_value x = Some s /\ Rabs (s - cosine_R (map f32_R v) (map f32_R v')) <= 4 * depth_error d.
Proof. exact (@AnyDotRound.sums_cosine). Qed.
Print Assumptions sums_cosine_thm.
Theorem nd_dot_depth_thm : forall s s' d cols,
  (cols <= 4194304)%N -> (if s && s' then N.to_nat cols + 8 * 13 < 8 * (d + 1) else N.to_nat cols < d)%nat ->
  dot_depth d cols (nd_dot f32_ops s s').
Proof. exact (@AnyDotRound.nd_dot_depth). Qed.
Print Assumptions nd_dot_depth_thm.
Theorem nd_gemv_depth_thm : forall s s' d cols,
  (cols <= 4194304)%N -> (if s && s' then N.to_nat cols + 8 * 13 < 8 * (d + 1) else N.to_nat cols < d)%nat ->
  gemv_depth d cols (nd_gemv f32_ops s s').
Proof. exact (@AnyDotRound.nd_gemv_depth). Qed.
Print Assumptions nd_gemv_depth_thm.
Theorem unit_of_by_thm : forall d v w,
  (lenN v <= 4194304)%N -> (length v + 8 * 13 < 8 * (d + 1))%nat -> unit_of v w -> unit_by d v w.
Proof. exact (@AnyDotRound.unit_of_by). Qed.
Print Assumptions unit_of_by_thm.
Theorem scaled_unit_by_thm : forall d dot v w n nv cols,
  dot_depth d cols dot -> lenN v = cols -> Forall f32_finite v -> scaled_by f32_ops dot v w n ->
  f32_value n = Some nv -> powerRZ 2 (-40) <= nv -> unit_by d v w.
Proof. exact (@AnyDotRound.scaled_unit_by). Qed.
Print Assumptions scaled_unit_by_thm.
Theorem ranked_returns_by_thm : forall (Md S : Type) (SO : storage_ops f32 S) (view : S -> res (array2 f32)) (pf : profile) (e : embeddings Md vocab_wrap S f32) (a : array2 f32) (vs : list (list f32)) (d : nat) (gemv : list (list f32) -> list f32 -> list f32), emb_made SO pf e (a2_cols a) (a2_rows a) -> view (em_storage e) = Ok a -> (a2_cols a <= 4194304)%N -> (13 <= d)%nat -> (N.of_nat d <= 1048576)%N -> gemv_depth d (a2_cols a) gemv -> one_per_row gemv -> word_rows_by d (v_words wrap_ops (em_vocab e)) vs (a2_rows a) ->
  forall q w skip limit batch,
  unit_by d q w ->
    (exists rs, similarity_by f32_ops wrap_ops view gemv e w skip limit batch = Ok rs) <->
    (limit * 24 <= isize_max)%N /\ match batch with Some b => b <> 0%N | None => v_words wrap_ops (em_vocab e) <> [] end /\
    (v_words wrap_ops (em_vocab e) = [] \/ lenN q = a2_cols a) /\
    (limit = 0%N -> forall w, In w (v_words wrap_ops (em_vocab e)) -> In w skip).
Proof. exact (@AnyDotRound.ranked_returns_by). Qed.
Print Assumptions ranked_returns_by_thm.
Theorem similarity_ranked_by_thm : forall (Md S : Type) (SO : storage_ops f32 S) (view : S -> res (array2 f32)) (pf : profile) (e : embeddings Md vocab_wrap S f32) (a : array2 f32) (vs : list (list f32)) (d : nat) (gemv : list (list f32) -> list f32 -> list f32), emb_made SO pf e (a2_cols a) (a2_rows a) -> view (em_storage e) = Ok a -> (a2_cols a <= 4194304)%N -> (13 <= d)%nat -> (N.of_nat d <= 1048576)%N -> gemv_depth d (a2_cols a) gemv -> one_per_row gemv -> word_rows_by d (v_words wrap_ops (em_vocab e)) vs (a2_rows a) ->
  forall q w skip limit batch rs,
  unit_by d q w -> similarity_by f32_ops wrap_ops view gemv e w skip limit batch = Ok rs ->
    ranked (v_words wrap_ops (em_vocab e)) vs q skip (4 * depth_error d) rs.
Proof. exact (@AnyDotRound.similarity_ranked_by). Qed.
Print Assumptions similarity_ranked_by_thm.
Theorem word_ranked_by_thm : forall (Md S : Type) (SO : storage_ops f32 S) (view : S -> res (array2 f32)) (pf : profile) (e : embeddings Md vocab_wrap S f32) (a : array2 f32) (vs : list (list f32)) (d : nat) (dot : list f32 -> list f32 -> f32) (gemv : list (list f32) -> list f32 -> list f32), emb_made SO pf e (a2_cols a) (a2_rows a) -> view (em_storage e) = Ok a -> (a2_cols a <= 4194304)%N -> (13 <= d)%nat -> (N.of_nat d <= 1048576)%N -> gemv_depth d (a2_cols a) gemv -> one_per_row gemv -> word_rows_by d (v_words wrap_ops (em_vocab e)) vs (a2_rows a) ->
  forall w i v limit batch,
  nthN (v_words wrap_ops (em_vocab e)) i = Some w -> nthN vs i = Some v ->
    ((exists r, word_similarity_by f32_ops wrap_ops SO view pf dot gemv e w limit batch = Ok r) <->
     (limit * 24 <= isize_max)%N /\ batch <> Some 0%N /\ (limit = 0%N -> v_words wrap_ops (em_vocab e) = [w])) /\
    forall r, word_similarity_by f32_ops wrap_ops SO view pf dot gemv e w limit batch = Ok r -> exists rs, r = Some rs /\
    ranked (v_words wrap_ops (em_vocab e)) vs v [w] (4 * depth_error d) rs.
Proof. exact (@AnyDotRound.word_ranked_by). Qed.
Print Assumptions word_ranked_by_thm.
Theorem masked_ranked_by_thm : forall (Md S : Type) (SO : storage_ops f32 S) (view : S -> res (array2 f32)) (pf : profile) (e : embeddings Md vocab_wrap S f32) (a : array2 f32) (vs : list (list f32)) (d : nat) (dot : list f32 -> list f32 -> f32) (gemv : list (list f32) -> list f32 -> list f32), emb_made SO pf e (a2_cols a) (a2_rows a) -> view (em_storage e) = Ok a -> (a2_cols a <= 4194304)%N -> (13 <= d)%nat -> (N.of_nat d <= 1048576)%N -> dot_depth d (a2_cols a) dot -> gemv_depth d (a2_cols a) gemv -> one_per_row gemv -> word_rows_by d (v_words wrap_ops (em_vocab e)) vs (a2_rows a) ->
  forall q nv limit skip batch,
  Forall f32_finite q -> lenN q = a2_cols a -> f32_value (f32_sqrt (dot q q)) = Some nv -> powerRZ 2 (-40) <= nv ->
    ((exists r, embedding_similarity_masked_by f32_ops wrap_ops view dot gemv e q limit skip batch = Ok r) <->
     (limit * 24 <= isize_max)%N /\ match batch with Some b => b <> 0%N | None => v_words wrap_ops (em_vocab e) <> [] end /\
     (limit = 0%N -> forall w, In w (v_words wrap_ops (em_vocab e)) -> In w skip)) /\
    forall r, embedding_similarity_masked_by f32_ops wrap_ops view dot gemv e q limit skip batch = Ok r -> exists rs, r = Some rs /\
    ranked (v_words wrap_ops (em_vocab e)) vs q skip (4 * depth_error d) rs.
Proof. exact (@AnyDotRound.masked_ranked_by). Qed.
Print Assumptions masked_ranked_by_thm.
Theorem analogy_ranked_by_thm : forall (Md S : Type) (SO : storage_ops f32 S) (view : S -> res (array2 f32)) (pf : profile) (e : embeddings Md vocab_wrap S f32) (a : array2 f32) (vs : list (list f32)) (d : nat) (dot : list f32 -> list f32 -> f32) (gemv : list (list f32) -> list f32 -> list f32), emb_made SO pf e (a2_cols a) (a2_rows a) -> view (em_storage e) = Ok a -> (a2_cols a <= 4194304)%N -> (13 <= d)%nat -> (N.of_nat d <= 1048576)%N -> dot_depth d (a2_cols a) dot -> gemv_depth d (a2_cols a) gemv -> one_per_row gemv -> word_rows_by d (v_words wrap_ops (em_vocab e)) vs (a2_rows a) ->
  forall ia ib ic wa wb wc xa xb xc ra rb rc nv limit batch,
  nthN (v_words wrap_ops (em_vocab e)) ia = Some wa -> nthN (a2_rows a) ia = Some xa ->
    nthN (v_words wrap_ops (em_vocab e)) ib = Some wb -> nthN (a2_rows a) ib = Some xb ->
    nthN (v_words wrap_ops (em_vocab e)) ic = Some wc -> nthN (a2_rows a) ic = Some xc ->
    Forall f32_finite (analogy_vector f32_ops (a2_cols a) xa xb xc) ->
    f32_value (f32_sqrt (dot (analogy_vector f32_ops (a2_cols a) xa xb xc) (analogy_vector f32_ops (a2_cols a) xa xb xc))) = Some nv ->
    powerRZ 2 (-40) <= nv ->
    exists skip, (forall w, In w skip <-> (ra = true /\ w = wa) \/ (rb = true /\ w = wb) \/ (rc = true /\ w = wc)) /\
    ((exists r, analogy_masked_by f32_ops wrap_ops SO view pf dot gemv e (wa, wb, wc) (ra, rb, rc) limit batch = Ok r) <->
     (limit * 24 <= isize_max)%N /\ batch <> Some 0%N /\ (limit = 0%N -> forall w, In w (v_words wrap_ops (em_vocab e)) -> In w skip)) /\
    forall r, analogy_masked_by f32_ops wrap_ops SO view pf dot gemv e (wa, wb, wc) (ra, rb, rc) limit batch = Ok r -> exists rs, r = inl rs /\
    ranked (v_words wrap_ops (em_vocab e)) vs (analogy_vector f32_ops (a2_cols a) xa xb xc) skip (4 * depth_error d) rs.
Proof. exact (@AnyDotRound.analogy_ranked_by). Qed.
Print Assumptions analogy_ranked_by_thm.

(** The sum of two products from the right, and with a fused product. *)
Lemma any_fused : fused (fN 3) (fN 4) (fN 5) (fN 17).
Proof.
  split.
  - intros _. repeat split; finite.
  - intros va vb vx A B X. assert (va = 3) as -> by (assert (f32_value (fN 3) = Some 3) as E by value false 12582912%positive 22%nat; congruence).
    assert (vb = 4) as -> by (assert (f32_value (fN 4) = Some 4) as E by value false 8388608%positive 21%nat; congruence).
    assert (vx = 5) as -> by (assert (f32_value (fN 5) = Some 5) as E by value false 10485760%positive 21%nat; congruence).
    replace (3 * 4 + 5) with 17 by lra. exact (F32RoundThms.of_N_rounds 17).
Qed.
Example sum_order_ex : sum_order 2 2 (combine [fN 3; fN 5] [fN 4; fN 1]) (fN 17) /\ sums 13 [fN 3; fN 5] [fN 4; fN 1] (fN 17) /\
  sums 13 [fN 3; fN 5] [fN 4; fN 1] (f32_add (f32_mul (fN 5) (fN 1)) (f32_mul (fN 3) (fN 4))).
Proof.
  assert (sum_order 2 2 (combine [fN 3; fN 5] [fN 4; fN 1]) (fN 17)) as H.
  { cbn [combine]. apply (so_fused 1 1 [(fN 5, fN 1)] (fN 3) (fN 4) (fN 5) (fN 17)); [|apply any_fused].
    replace (fN 5) with (f32_mul (fN 5) (fN 1)) at 2 by (vm_compute; reflexivity). apply so_mul. }
  split; [exact H|]. split; [exists 2%nat, 2%nat; split; [lia|]; split; [vm_compute; discriminate|exact H]|].
  exists 2%nat, 3%nat. split; [lia|]. split; [vm_compute; discriminate|]. eapply so_perm; [apply (so_add 1 1 1 1 _ _ _ _ (so_mul (fN 5) (fN 1)) (so_mul (fN 3) (fN 4)))|].
  cbn [combine app]. apply perm_swap.
Qed.
(** The three words of C89 with a matrix in column-major order. *)
Example ranked_by_ex : emb_made (nd_ops f32) Debug rank_emb 2 rank_rows /\ (2 <= 4194304)%N /\ (13 <= 14)%nat /\ (N.of_nat 14 <= 1048576)%N /\
  dot_depth 14 2 (nd_dot f32_ops true true) /\ gemv_depth 14 2 (nd_gemv f32_ops false true) /\ one_per_row (nd_gemv f32_ops false true) /\
  word_rows_by 14 (v_words wrap_ops (em_vocab rank_emb)) rank_vs rank_rows /\ unit_by 14 rank_q (fst (l2_normalize f32_ops rank_q)) /\
  (exists rs, word_similarity_by f32_ops wrap_ops (nd_ops f32) Ok Debug (nd_dot f32_ops true true) (nd_gemv f32_ops false true) rank_emb [x61] 5 None = Ok (Some rs) /\
   ranked rank_words rank_vs [fN 3; fN 4] [[x61]] (4 * depth_error 14) rs).
Proof.
  assert (dot_depth 14 2 (nd_dot f32_ops true true)) as DD by (apply AnyDotRound.nd_dot_depth; vm_compute; [discriminate|lia]).
  assert (gemv_depth 14 2 (nd_gemv f32_ops false true)) as GD by (apply AnyDotRound.nd_gemv_depth; vm_compute; [discriminate|lia]).
  assert (word_rows_by 14 (v_words wrap_ops (em_vocab rank_emb)) rank_vs rank_rows) as WR.
  { intros i w H. destruct (rank_rows_ex i w H) as (v & r & HV & HR & U). exists v, r. split; [exact HV|]. split; [exact HR|].
    assert (lenN v = 2%N) as LV. { assert (Forall (fun v => lenN v = 2%N) rank_vs) as F by (repeat constructor). rewrite Forall_forall in F. apply F. eapply nthN_In; eauto. }
    apply AnyDotRound.unit_of_by; [rewrite LV; discriminate|unfold lenN in LV; lia|exact U]. }
  split; [apply rank_made|]. split; [discriminate|]. split; [lia|]. split; [discriminate|]. split; [exact DD|]. split; [exact GD|].
  split; [apply AnyDotFacts.nd_one_per_row|]. split; [exact WR|]. split.
  - apply AnyDotRound.unit_of_by; [discriminate|cbn; lia|apply rank_q_unit].
  - destruct (word_ranked_by_thm unit (array2 f32) (nd_ops f32) Ok Debug rank_emb (mkA2 2 rank_rows) rank_vs 14 (nd_dot f32_ops true true) (nd_gemv f32_ops false true)
      rank_made eq_refl ltac:(discriminate) ltac:(lia) ltac:(discriminate) GD (AnyDotFacts.nd_one_per_row _ _ _) WR [x61] 0%N [fN 3; fN 4] 5%N None eq_refl eq_refl) as (_ & H).
    eexists. split; [vm_compute; reflexivity|]. destruct (H _ ltac:(vm_compute; reflexivity)) as (rs & E & R). injection E as <-. exact R.
Qed.
Example sums_dot_ex : length_R (map f32_R [fN 3; fN 4]) * length_R (map f32_R [fN 4; fN 3]) <= powerRZ 2 100.
Proof.
  assert (f32_R (fN 3) = 3) as E3 by (unfold f32_R; assert (f32_value (fN 3) = Some 3) as -> by value false 12582912%positive 22%nat; reflexivity).
  assert (f32_R (fN 4) = 4) as E4 by (unfold f32_R; assert (f32_value (fN 4) = Some 4) as -> by value false 8388608%positive 21%nat; reflexivity).
  cbn [map]. rewrite E3, E4.
  assert (forall x y z, 0 <= z -> x * x + (y * y + 0) = z * z -> length_R [x; y] = z) as LE.
  { intros x y z Z E. unfold length_R. cbn [map fold_right]. rewrite E. apply sqrt_square. exact Z. }
  rewrite (LE 3 4 5), (LE 4 3 5) by lra. apply Rle_trans with (powerRZ 2 8); [rewrite F32Round.p2_pow by lia; change (2 ^ 8)%Z with 256%Z; lra|]. apply F32Round.p2_le. lia.
Qed.
