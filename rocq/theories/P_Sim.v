(** * Theorems about similarity and analogy queries (C35-C40, C77, C90, C109, C112). *)
From Coq Require Import Reals Lra Sorting.Sorted Sorting.Permutation.
From Verif Require Import Base BaseFacts Utf8 F32 Subword Vocab Storage Embeddings Similarity FileSpec VocabSpec EmbSpec SimSpec LookupExactSpec RealOps SimReal ReorderThms StdHeap HeapThms P_Emb.
From Verif Require MatrixFacts EmbFacts F32Facts SimFacts SimExact WrapThms FastTextFacts LookupFacts.
Local Open Scope N_scope.

(** ** Concrete values for the examples *)

(** Embeddings with a simple vocabulary. *)
Definition sim_emb (words : list str) (rows : list (list f32)) : embeddings unit vocab_wrap (array2 f32) f32 :=
  mkEmb None (mkA2 2 rows) (VSimple (mkSimple (create_indices words) words)) None.
Lemma sim_emb_made words rows : simple_new words = Ok (mkSimple (create_indices words) words) ->
  hm_len (create_indices words) = lenN rows -> Forall (fun r => lenN r = 2) rows ->
  emb_made (nd_ops f32) Debug (sim_emb words rows) 2 rows.
Proof.
  intros H L W. split; [apply (vm_simple Debug words), H|]. split; [apply (MatrixFacts.nd_matrix (mkA2 2 rows)); exact W|].
  unfold emb_new_with_maybe_norms, sim_emb. cbn -[hm_len create_indices]. unfold a2_nrows. cbn [a2_rows]. rewrite <- L, N.eqb_refl. reflexivity.
Qed.
Lemma sim_emb_usable words rows : vocab_usable (em_vocab (sim_emb words rows)).
Proof. intros mn mx bow eow H. discriminate. Qed.
(** Four words, the second and the fourth have the same vector. *)
Definition sim_words : list str := [[x61]; [x64]; [x63]; [x62]].
Definition fNeg (n : N) : f32 := f32_sub (fN 0) (fN n).
Definition sim_rows : list (list f32) := [[fN 1; fN 0]; [fN 2; fN 1]; [fNeg 1; fN 1]; [fN 2; fN 1]].
Definition sim_ex : embeddings unit vocab_wrap (array2 f32) f32 := sim_emb sim_words sim_rows.
Lemma sim_ex_made : emb_made (nd_ops f32) Debug sim_ex 2 sim_rows.
Proof. apply sim_emb_made; [vm_compute; reflexivity|reflexivity|repeat constructor]. Qed.

(** ** The hypotheses on arithmetic hold for [f32] and for the reals *)
Theorem f32_ordered_thm : ordered f32_ops.
Proof. exact (@F32Facts.f32_ordered). Qed.
Print Assumptions f32_ordered_thm.
Theorem f32_one_neutral_thm : one_neutral f32_ops.
Proof. exact (@SimFacts.f32_one_neutral). Qed.
Print Assumptions f32_one_neutral_thm.
Theorem f32_number_thm : forall x,
  number f32_ops x <-> f32_is_nan x = false.
Proof. exact (@F32Facts.f32_number). Qed.
Print Assumptions f32_number_thm.
Theorem R_ordered_thm : ordered R_ops.
Proof. exact (@SimReal.R_ordered). Qed.
Print Assumptions R_ordered_thm.
Theorem R_one_neutral_thm : one_neutral R_ops.
Proof. exact (@SimReal.R_one_neutral). Qed.
Print Assumptions R_one_neutral_thm.

(** ** C35: exact top-k *)
Theorem similarity_top_k_thm : forall (F : Type) (o : fops F), ordered o -> one_neutral o -> forall (Md S : Type) (SO : storage_ops F S) (view : S -> res (array2 F)) (pf : profile) (e : embeddings Md vocab_wrap S F) (a : array2 F), emb_made SO pf e (a2_cols a) (a2_rows a) -> view (em_storage e) = Ok a ->
  forall q skip limit batch rs,
  similarity_ o wrap_ops view e q skip limit batch = Ok rs ->
      top_k o (candidate o (v_words wrap_ops (em_vocab e)) (a2_rows a) skip q) limit rs.
Proof. exact (@SimFacts.similarity_exact). Qed.
Print Assumptions similarity_top_k_thm.
Theorem word_similarity_thm : forall (F : Type) (o : fops F), ordered o -> one_neutral o -> forall (Md S : Type) (SO : storage_ops F S) (view : S -> res (array2 F)) (pf : profile) (e : embeddings Md vocab_wrap S F) (a : array2 F), emb_made SO pf e (a2_cols a) (a2_rows a) -> view (em_storage e) = Ok a -> vocab_usable (em_vocab e) ->
  forall w limit batch,
  utf8_valid w = true ->
      (emb_embedding o wrap_ops SO pf e w = Ok None /\ word_similarity o wrap_ops SO view pf e w limit batch = Ok None) \/
      exists v, emb_embedding o wrap_ops SO pf e w = Ok (Some v) /\ lenN v = a2_cols a /\
        ((exists r, word_similarity o wrap_ops SO view pf e w limit batch = Ok r) <->
         query_ok o (v_words wrap_ops (em_vocab e)) (a2_cols a) (a2_rows a) [w] v limit batch) /\
        forall r, word_similarity o wrap_ops SO view pf e w limit batch = Ok r ->
        exists rs, r = Some rs /\
          top_k o (candidate o (v_words wrap_ops (em_vocab e)) (a2_rows a) [w] v) limit rs.
Proof. exact (@SimFacts.word_similarity_exact). Qed.
Print Assumptions word_similarity_thm.
Theorem embedding_similarity_masked_thm : forall (F : Type) (o : fops F), ordered o -> one_neutral o -> forall (Md S : Type) (SO : storage_ops F S) (view : S -> res (array2 F)) (pf : profile) (e : embeddings Md vocab_wrap S F) (a : array2 F), emb_made SO pf e (a2_cols a) (a2_rows a) -> view (em_storage e) = Ok a ->
  forall q limit skip batch,
  exists v n, scaled_by_length o q v n /\ lenN v = lenN q /\
        ((exists r, embedding_similarity_masked o wrap_ops view e q limit skip batch = Ok r) <->
         query_ok o (v_words wrap_ops (em_vocab e)) (a2_cols a) (a2_rows a) skip v limit batch) /\
        forall r, embedding_similarity_masked o wrap_ops view e q limit skip batch = Ok r ->
        exists rs, r = Some rs /\
          top_k o (candidate o (v_words wrap_ops (em_vocab e)) (a2_rows a) skip v) limit rs.
Proof. exact (@SimFacts.embedding_similarity_masked_exact). Qed.
Print Assumptions embedding_similarity_masked_thm.
Theorem embedding_similarity_thm : forall (F : Type) (o : fops F) (Md S : Type) (view : S -> res (array2 F)) (e : embeddings Md vocab_wrap S F),
  forall q limit batch,
  embedding_similarity o wrap_ops view e q limit batch = embedding_similarity_masked o wrap_ops view e q limit [] batch.
Proof. exact (@SimFacts.embedding_similarity_unmasked). Qed.
Print Assumptions embedding_similarity_thm.
(** The result is the only list with these properties. *)
Theorem top_k_unique_thm : forall (F : Type) (o : fops F), ordered o ->
  forall (eqd : forall x y : F, sumbool (x = y) (x <> y)) cand limit cs rs rs',
  NoDup cs -> (forall x, In x cs <-> cand x) ->
    (forall x, cand x -> number o (wr_sim x)) ->
    top_k o cand limit rs -> top_k o cand limit rs' -> rs = rs'.
Proof. exact (@SimFacts.top_k_unique). Qed.
Print Assumptions top_k_unique_thm.
Example word_similarity_ex :
  emb_made (nd_ops f32) Debug sim_ex (a2_cols (em_storage sim_ex)) (a2_rows (em_storage sim_ex)) /\
  vocab_usable (em_vocab sim_ex) /\ utf8_valid [x61] = true /\
  word_similarity f32_ops wrap_ops (nd_ops f32) Ok Debug sim_ex [x61] 2 (Some 3)
  = Ok (Some [mkWsr (fN 2) [x62]; mkWsr (fN 2) [x64]]) /\
  word_similarity f32_ops wrap_ops (nd_ops f32) Ok Debug sim_ex [x61] 9 None
  = Ok (Some [mkWsr (fN 2) [x62]; mkWsr (fN 2) [x64]; mkWsr (fNeg 1) [x63]]) /\
  word_similarity f32_ops wrap_ops (nd_ops f32) Ok Debug sim_ex [x7a] 9 None = Ok None.
Proof.
  split; [apply sim_ex_made|]. split; [apply sim_emb_usable|]. repeat split; vm_compute; reflexivity.
Qed.
Example query_ok_ex : query_ok f32_ops sim_words 2 sim_rows [[x61]] [fN 1; fN 0] 2 (Some 3) /\
  candidate f32_ops sim_words sim_rows [[x61]] [fN 1; fN 0] (mkWsr (fNeg 1) [x63]).
Proof.
  split.
  - constructor; [vm_compute; discriminate|discriminate|right; reflexivity| |discriminate].
    intros x (i & r & W & R & _ & E). rewrite E. apply F32Facts.f32_number.
    apply nthN_Some_lt in W. change (lenN sim_words) with 4 in W. assert (i = 0 \/ i = 1 \/ i = 2 \/ i = 3) as C by lia.
    destruct C as [->|[->|[->| ->]]]; vm_compute in R; inv R; vm_compute; reflexivity.
  - exists 2, [fNeg 1; fN 1]. split; [reflexivity|]. split; [reflexivity|]. split; [intros [H|[]]; discriminate|]. vm_compute. reflexivity.
Qed.

(** ** C36: batch sizes *)
Theorem batch_size_thm : forall (F : Type) (o : fops F)  (Md S : Type) (SO : storage_ops F S) (view : S -> res (array2 F)) (pf : profile) (e : embeddings Md vocab_wrap S F) (a : array2 F), emb_made SO pf e (a2_cols a) (a2_rows a) -> view (em_storage e) = Ok a ->
  forall limit b b',
  b <> 0 -> b' <> 0 ->
      (forall w, word_similarity o wrap_ops SO view pf e w limit (Some b) = word_similarity o wrap_ops SO view pf e w limit (Some b')) /\
      (forall q skip, embedding_similarity_masked o wrap_ops view e q limit skip (Some b)
                    = embedding_similarity_masked o wrap_ops view e q limit skip (Some b')) /\
      (forall q remove, analogy_masked o wrap_ops SO view pf e q remove limit (Some b)
                      = analogy_masked o wrap_ops SO view pf e q remove limit (Some b')).
Proof. exact (@SimFacts.batch_size_queries). Qed.
Print Assumptions batch_size_thm.
Theorem batch_default_thm : forall (F : Type) (o : fops F)  (Md S : Type) (SO : storage_ops F S) (view : S -> res (array2 F)) (pf : profile) (e : embeddings Md vocab_wrap S F) (a : array2 F), emb_made SO pf e (a2_cols a) (a2_rows a) -> view (em_storage e) = Ok a ->
  forall limit b,
  b <> 0 -> v_words wrap_ops (em_vocab e) <> [] ->
      (forall w, word_similarity o wrap_ops SO view pf e w limit None = word_similarity o wrap_ops SO view pf e w limit (Some b)) /\
      (forall q skip, embedding_similarity_masked o wrap_ops view e q limit skip None
                    = embedding_similarity_masked o wrap_ops view e q limit skip (Some b)) /\
      (forall q remove, analogy_masked o wrap_ops SO view pf e q remove limit None
                      = analogy_masked o wrap_ops SO view pf e q remove limit (Some b)).
Proof. exact (@SimFacts.batch_default_queries). Qed.
Print Assumptions batch_default_thm.
Example batch_size_ex :
  emb_made (nd_ops f32) Debug sim_ex (a2_cols (em_storage sim_ex)) (a2_rows (em_storage sim_ex)) /\
  Ok (em_storage sim_ex) = Ok (em_storage sim_ex) /\ v_words wrap_ops (em_vocab sim_ex) <> [].
Proof. split; [apply sim_ex_made|]. split; [reflexivity|discriminate]. Qed.

(** ** C37: excluded words *)
Theorem word_similarity_excludes_thm : forall (F : Type) (o : fops F), ordered o -> one_neutral o -> forall (Md S : Type) (SO : storage_ops F S) (view : S -> res (array2 F)) (pf : profile) (e : embeddings Md vocab_wrap S F) (a : array2 F), emb_made SO pf e (a2_cols a) (a2_rows a) -> view (em_storage e) = Ok a ->
  forall w limit batch rs,
  word_similarity o wrap_ops SO view pf e w limit batch = Ok (Some rs) ->
      ~ In w (map wr_word rs) /\
      forall w', In w' (v_words wrap_ops (em_vocab e)) -> w' <> w ->
      lenN (v_words wrap_ops (em_vocab e)) <= limit -> In w' (map wr_word rs).
Proof. exact (@SimFacts.word_similarity_words). Qed.
Print Assumptions word_similarity_excludes_thm.
Theorem masked_excludes_thm : forall (F : Type) (o : fops F), ordered o -> one_neutral o -> forall (Md S : Type) (SO : storage_ops F S) (view : S -> res (array2 F)) (pf : profile) (e : embeddings Md vocab_wrap S F) (a : array2 F), emb_made SO pf e (a2_cols a) (a2_rows a) -> view (em_storage e) = Ok a ->
  forall q limit skip batch rs,
  embedding_similarity_masked o wrap_ops view e q limit skip batch = Ok (Some rs) ->
      (forall w, In w skip -> ~ In w (map wr_word rs)) /\
      (forall w, In w (v_words wrap_ops (em_vocab e)) -> ~ In w skip ->
       lenN (v_words wrap_ops (em_vocab e)) <= limit -> In w (map wr_word rs)).
Proof. exact (@SimFacts.embedding_similarity_masked_words). Qed.
Print Assumptions masked_excludes_thm.
Example masked_ex :
  embedding_similarity_masked f32_ops wrap_ops Ok sim_ex [fN 0; fN 5] 4 [[x62]; [x7a]; [x61]] None
  = Ok (Some [mkWsr (fN 1) [x63]; mkWsr (fN 1) [x64]]).
Proof. vm_compute. reflexivity. Qed.

(** ** C38: queries that return *)
(** Full statement: every query returns.  A query returns exactly if
    [query_ok]: the limit can be allocated, the batch size is positive, the
    query is as wide as the matrix, no similarity is NaN, and the limit is
    positive or there is no candidate.  Otherwise it panics. *)
Theorem similarity_returns_partial : forall (F : Type) (o : fops F), ordered o -> one_neutral o -> forall (Md S : Type) (SO : storage_ops F S) (view : S -> res (array2 F)) (pf : profile) (e : embeddings Md vocab_wrap S F) (a : array2 F), emb_made SO pf e (a2_cols a) (a2_rows a) -> view (em_storage e) = Ok a ->
  forall q skip limit batch,
  (exists rs, similarity_ o wrap_ops view e q skip limit batch = Ok rs) <->
      query_ok o (v_words wrap_ops (em_vocab e)) (a2_cols a) (a2_rows a) skip q limit batch.
Proof. exact (@SimFacts.similarity_ok_iff). Qed.
Print Assumptions similarity_returns_partial.
Theorem similarity_panics_thm : forall (F : Type) (o : fops F)  (Md S : Type) (SO : storage_ops F S) (view : S -> res (array2 F)) (pf : profile) (e : embeddings Md vocab_wrap S F) (a : array2 F), emb_made SO pf e (a2_cols a) (a2_rows a) -> view (em_storage e) = Ok a ->
  forall q skip limit batch,
  (exists rs, similarity_ o wrap_ops view e q skip limit batch = Ok rs) \/
      (exists p, similarity_ o wrap_ops view e q skip limit batch = Panic p).
Proof. exact (@SimFacts.similarity_panics). Qed.
Print Assumptions similarity_panics_thm.
(** Limit zero. *)
Theorem limit_zero_refuted : exists (e : embeddings unit vocab_wrap (array2 f32) f32) w,
  emb_made (nd_ops f32) Debug e 2 sim_rows /\ Forall (Forall (fun x => f32_finite x = true)) sim_rows /\
  word_similarity f32_ops wrap_ops (nd_ops f32) Ok Debug e w 0 None = Panic PAssert.
Proof. exists sim_ex, [x61]. split; [apply sim_ex_made|]. split; [repeat constructor|]. vm_compute. reflexivity. Qed.
Print Assumptions limit_zero_refuted.
(** Batch size zero. *)
Theorem batch_zero_refuted : exists (e : embeddings unit vocab_wrap (array2 f32) f32) w,
  emb_made (nd_ops f32) Debug e 2 sim_rows /\ Forall (Forall (fun x => f32_finite x = true)) sim_rows /\
  word_similarity f32_ops wrap_ops (nd_ops f32) Ok Debug e w 1 (Some 0) = Panic PAssert.
Proof. exists sim_ex, [x61]. split; [apply sim_ex_made|]. split; [repeat constructor|]. vm_compute. reflexivity. Qed.
Print Assumptions batch_zero_refuted.
(** An empty vocabulary: the default batch size is zero. *)
Theorem empty_vocab_refuted : exists e : embeddings unit vocab_wrap (array2 f32) f32,
  emb_made (nd_ops f32) Debug e 2 [] /\
  forall q limit, limit * 24 <= isize_max -> embedding_similarity f32_ops wrap_ops Ok e q limit None = Panic PAssert.
Proof.
  exists (sim_emb [] []). split; [apply sim_emb_made; [vm_compute; reflexivity|reflexivity|constructor]|].
  intros q limit H. unfold embedding_similarity, embedding_similarity_masked, similarity_.
  apply N.leb_le in H. rewrite H. reflexivity.
Qed.
Print Assumptions empty_vocab_refuted.
(** A limit that cannot be allocated, for instance [usize::MAX]. *)
Theorem limit_max_refuted : exists e : embeddings unit vocab_wrap (array2 f32) f32,
  emb_made (nd_ops f32) Debug e 2 sim_rows /\
  forall q batch, embedding_similarity f32_ops wrap_ops Ok e q 18446744073709551615 batch = Panic PCapacity.
Proof. exists sim_ex. split; [apply sim_ex_made|]. intros q batch. reflexivity. Qed.
Print Assumptions limit_max_refuted.
(** Finite vectors whose dot product is NaN. *)
Theorem nan_refuted : exists (e : embeddings unit vocab_wrap (array2 f32) f32) w rows,
  emb_made (nd_ops f32) Debug e 2 rows /\ Forall (Forall (fun x => f32_finite x = true)) rows /\
  word_similarity f32_ops wrap_ops (nd_ops f32) Ok Debug e w 1 None = Panic PNaN.
Proof.
  set (big := f32_of_bits 2139095039). set (rows := [[big; big]; [big; f32_sub (fN 0) big]]).
  exists (sim_emb [[x61]; [x62]] rows), [x61], rows.
  split; [apply sim_emb_made; [vm_compute; reflexivity|reflexivity|repeat constructor]|].
  split; [repeat constructor|]. vm_compute. reflexivity.
Qed.
Print Assumptions nan_refuted.

(** ** C39: analogies *)
Theorem analogy_masked_thm : forall (F : Type) (o : fops F), ordered o -> one_neutral o -> forall (Md S : Type) (SO : storage_ops F S) (view : S -> res (array2 F)) (pf : profile) (e : embeddings Md vocab_wrap S F) (a : array2 F), emb_made SO pf e (a2_cols a) (a2_rows a) -> view (em_storage e) = Ok a -> vocab_usable (em_vocab e) ->
  forall wa wb wc ra rb rc limit batch,
  utf8_valid wa = true -> utf8_valid wb = true -> utf8_valid wc = true ->
      exists va vb vc, emb_embedding o wrap_ops SO pf e wa = Ok va /\ emb_embedding o wrap_ops SO pf e wb = Ok vb /\
      emb_embedding o wrap_ops SO pf e wc = Ok vc /\
      ((va = None \/ vb = None \/ vc = None) ->
       analogy_masked o wrap_ops SO view pf e (wa, wb, wc) (ra, rb, rc) limit batch
       = Ok (inr (match va with Some _ => true | None => false end, match vb with Some _ => true | None => false end,
                  match vc with Some _ => true | None => false end))) /\
      forall xa xb xc, va = Some xa -> vb = Some xb -> vc = Some xc ->
      exists v n skip, scaled_by_length o (analogy_vector o (a2_cols a) xa xb xc) v n /\ lenN v = a2_cols a /\
        (forall w, In w skip <-> (ra = true /\ w = wa) \/ (rb = true /\ w = wb) \/ (rc = true /\ w = wc)) /\
        ((exists r, analogy_masked o wrap_ops SO view pf e (wa, wb, wc) (ra, rb, rc) limit batch = Ok r) <->
         query_ok o (v_words wrap_ops (em_vocab e)) (a2_cols a) (a2_rows a) skip v limit batch) /\
        forall r, analogy_masked o wrap_ops SO view pf e (wa, wb, wc) (ra, rb, rc) limit batch = Ok r ->
        exists rs, r = inl rs /\
          top_k o (candidate o (v_words wrap_ops (em_vocab e)) (a2_rows a) skip v) limit rs.
Proof. exact (@SimFacts.analogy_exact). Qed.
Print Assumptions analogy_masked_thm.
Theorem analogy_thm : forall (F : Type) (o : fops F) (Md S : Type) (SO : storage_ops F S) (view : S -> res (array2 F)) (pf : profile) (e : embeddings Md vocab_wrap S F),
  forall q limit batch,
  analogy o wrap_ops SO view pf e q limit batch = analogy_masked o wrap_ops SO view pf e q (true, true, true) limit batch.
Proof. exact (@SimFacts.analogy_all). Qed.
Print Assumptions analogy_thm.
Example analogy_ex :
  analogy_vector f32_ops 2 [fN 1; fN 0] [fN 2; fN 1] [fNeg 1; fN 1] = [fN 0; fN 2] /\
  analogy_masked f32_ops wrap_ops (nd_ops f32) Ok Debug sim_ex ([x61], [x64], [x63]) (true, false, true) 9 None
  = Ok (inl [mkWsr (fN 1) [x62]; mkWsr (fN 1) [x64]]) /\
  analogy f32_ops wrap_ops (nd_ops f32) Ok Debug sim_ex ([x61], [x64], [x63]) 9 None
  = Ok (inl [mkWsr (fN 1) [x62]]) /\
  analogy f32_ops wrap_ops (nd_ops f32) Ok Debug sim_ex ([x7a], [x64], [x7a]) 9 None = Ok (inr (false, true, false)).
Proof. repeat split; vm_compute; reflexivity. Qed.

(** ** C40: measures *)
(** Full statement: also for [f32].  Over the reals: *)
Local Open Scope R_scope.
Theorem measures_partial : forall u v w,
  length u = length v -> inner u u = 1 -> inner v v = 1 ->
  euclidean_distance R_ops (mkWsr (inner u v) w) = distance u v /\
  euclidean_similarity R_ops (mkWsr (inner u v) w) = 1 - distance u v / 2 /\
  exists angle, 0 <= angle <= PI /\ cos angle = inner u v /\
  angular_similarity R_ops acos PI (mkWsr (inner u v) w) = 1 - angle / PI.
Proof. exact (@SimReal.measures_exact). Qed.
Print Assumptions measures_partial.
Theorem measures_range_partial : forall (x : wsr R),
  -1 <= wr_sim x <= 1 ->
  0 <= euclidean_distance R_ops x <= 2 /\ 0 <= euclidean_similarity R_ops x <= 1 /\
  0 <= angular_similarity R_ops acos PI x <= 1.
Proof. exact (@SimReal.measures_range). Qed.
Print Assumptions measures_range_partial.
Theorem measures_order_partial : forall (x y : wsr R),
  -1 <= wr_sim x <= 1 -> -1 <= wr_sim y <= 1 ->
  (cosine_similarity x < cosine_similarity y <-> angular_similarity R_ops acos PI x < angular_similarity R_ops acos PI y) /\
  (cosine_similarity x < cosine_similarity y <-> euclidean_distance R_ops y < euclidean_distance R_ops x) /\
  (cosine_similarity x < cosine_similarity y <-> euclidean_similarity R_ops x < euclidean_similarity R_ops y).
Proof. exact (@SimReal.measures_order). Qed.
Print Assumptions measures_order_partial.
Theorem unit_inner_thm : forall u v,
  length u = length v -> inner u u = 1 -> inner v v = 1 -> -1 <= inner u v <= 1.
Proof. exact (@SimReal.unit_inner). Qed.
Print Assumptions unit_inner_thm.
Local Close Scope R_scope.
Example measures_ex : let u := [3 / 5; 4 / 5]%R in let v := [1; 0]%R in
  length u = length v /\ inner u u = 1%R /\ inner v v = 1%R /\ (inner u v = 3 / 5)%R /\
  (-1 <= inner u v <= 1)%R.
Proof. cbn. unfold inner. cbn. repeat split; lra. Qed.
(** For [f32], the dot product of a normalised vector with itself may exceed
    one: the distance of the two words is NaN. *)
Theorem measures_refuted : exists (e : embeddings unit vocab_wrap (array2 f32) f32) rows w x,
  emb_made (nd_ops f32) Debug e 2 rows /\
  Forall (fun r => exists u n, scaled_by_length f32_ops u r n) rows /\
  word_similarity f32_ops wrap_ops (nd_ops f32) Ok Debug e w 1 None = Ok (Some [x]) /\
  fcmp f32_ops (cosine_similarity x) (fN 1) = Some Gt /\
  f32_is_nan (euclidean_distance f32_ops x) = true /\ f32_is_nan (euclidean_similarity f32_ops x) = true.
Proof.
  set (r := fst (l2_normalize f32_ops [fN 3; fN 3])). set (rows := [r; r]).
  exists (sim_emb [[x61]; [x62]] rows), rows, [x61]. eexists.
  split; [apply sim_emb_made; [vm_compute; reflexivity|reflexivity|repeat constructor]|].
  split; [repeat constructor; eexists; eexists; apply EmbFacts.l2_normalize_scaled|].
  split; [vm_compute; reflexivity|]. split; [vm_compute; reflexivity|]. split; vm_compute; reflexivity.
Qed.
Print Assumptions measures_refuted.

(** ** C77: exactly when queries panic *)
Theorem query_panics_thm : forall (F : Type) (o : fops F), one_neutral o -> forall (Md S : Type) (SO : storage_ops F S) (view : S -> res (array2 F)) (pf : profile) (e : embeddings Md vocab_wrap S F) (a : array2 F), emb_made SO pf e (a2_cols a) (a2_rows a) -> view (em_storage e) = Ok a ->
  forall q skip limit batch p,
  similarity_ o wrap_ops view e q skip limit batch = Panic p <->
    query_panic o (v_words wrap_ops (em_vocab e)) (a2_cols a) (a2_rows a) skip q limit batch p.
Proof. exact (@SimExact.similarity_panic_iff). Qed.
Print Assumptions query_panics_thm.
Theorem masked_panics_thm : forall (F : Type) (o : fops F), one_neutral o -> forall (Md S : Type) (SO : storage_ops F S) (view : S -> res (array2 F)) (pf : profile) (e : embeddings Md vocab_wrap S F) (a : array2 F), emb_made SO pf e (a2_cols a) (a2_rows a) -> view (em_storage e) = Ok a ->
  forall q limit skip batch,
  exists v n, scaled_by_length o q v n /\ lenN v = lenN q /\ forall p,
      embedding_similarity_masked o wrap_ops view e q limit skip batch = Panic p <->
      query_panic o (v_words wrap_ops (em_vocab e)) (a2_cols a) (a2_rows a) skip v limit batch p.
Proof. exact (@SimExact.embedding_similarity_masked_panic_iff). Qed.
Print Assumptions masked_panics_thm.
Theorem word_similarity_panics_thm : forall (F : Type) (o : fops F), one_neutral o -> forall (Md S : Type) (SO : storage_ops F S) (view : S -> res (array2 F)) (pf : profile) (e : embeddings Md vocab_wrap S F) (a : array2 F), emb_made SO pf e (a2_cols a) (a2_rows a) -> view (em_storage e) = Ok a -> bounds_utf8 (em_vocab e) ->
  forall w limit batch p,
  utf8_valid w = true ->
    word_similarity o wrap_ops SO view pf e w limit batch = Panic p <->
    (p = PAssert /\ unusable_lookup (em_vocab e) w) \/
    exists v, emb_embedding o wrap_ops SO pf e w = Ok (Some v) /\
    query_panic o (v_words wrap_ops (em_vocab e)) (a2_cols a) (a2_rows a) [w] v limit batch p.
Proof. exact (@SimExact.word_similarity_panic_iff). Qed.
Print Assumptions word_similarity_panics_thm.
Theorem analogy_panics_thm : forall (F : Type) (o : fops F), one_neutral o -> forall (Md S : Type) (SO : storage_ops F S) (view : S -> res (array2 F)) (pf : profile) (e : embeddings Md vocab_wrap S F) (a : array2 F), emb_made SO pf e (a2_cols a) (a2_rows a) -> view (em_storage e) = Ok a -> bounds_utf8 (em_vocab e) ->
  forall wa wb wc ra rb rc limit batch,
  utf8_valid wa = true -> utf8_valid wb = true -> utf8_valid wc = true ->
    (unusable_lookup (em_vocab e) wa \/ unusable_lookup (em_vocab e) wb \/ unusable_lookup (em_vocab e) wc ->
     analogy_masked o wrap_ops SO view pf e (wa, wb, wc) (ra, rb, rc) limit batch = Panic PAssert) /\
    (~ unusable_lookup (em_vocab e) wa -> ~ unusable_lookup (em_vocab e) wb -> ~ unusable_lookup (em_vocab e) wc ->
     exists va vb vc, emb_embedding o wrap_ops SO pf e wa = Ok va /\ emb_embedding o wrap_ops SO pf e wb = Ok vb /\
     emb_embedding o wrap_ops SO pf e wc = Ok vc /\
     ((va = None \/ vb = None \/ vc = None) ->
      exists r, analogy_masked o wrap_ops SO view pf e (wa, wb, wc) (ra, rb, rc) limit batch = Ok r) /\
     forall xa xb xc, va = Some xa -> vb = Some xb -> vc = Some xc ->
     exists v n skip, scaled_by_length o (analogy_vector o (a2_cols a) xa xb xc) v n /\ lenN v = a2_cols a /\
     (forall w, In w skip <-> (ra = true /\ w = wa) \/ (rb = true /\ w = wb) \/ (rc = true /\ w = wc)) /\
     forall p, analogy_masked o wrap_ops SO view pf e (wa, wb, wc) (ra, rb, rc) limit batch = Panic p <->
     query_panic o (v_words wrap_ops (em_vocab e)) (a2_cols a) (a2_rows a) skip v limit batch p).
Proof. exact (@SimExact.analogy_panic_iff). Qed.
Print Assumptions analogy_panics_thm.
(** The panics of a query without results, and those of a dot product that is
    not a number: it is found in any position for positive limits, and only
    in the first one for the limit zero. *)
Definition nan_rows : list (list f32) := [[fN 1; fN 0]; [f32_of_bits 2143289344; fN 0]].
Definition nan_ex : embeddings unit vocab_wrap (array2 f32) f32 := sim_emb [[x61]; [x62]] nan_rows.
Example query_panics_ex :
  emb_made (nd_ops f32) Debug nan_ex 2 nan_rows /\ bounds_utf8 (em_vocab nan_ex) /\
  query_panic f32_ops [[x61]; [x62]] 2 nan_rows [] [fN 1; fN 0] 5 None PNaN /\
  embedding_similarity f32_ops wrap_ops Ok nan_ex [fN 1; fN 0] 5 None = Panic PNaN /\
  query_panic f32_ops [[x61]; [x62]] 2 nan_rows [] [fN 1; fN 0] 0 None PAssert /\
  embedding_similarity f32_ops wrap_ops Ok nan_ex [fN 1; fN 0] 0 None = Panic PAssert /\
  embedding_similarity_masked f32_ops wrap_ops Ok nan_ex [fN 1; fN 0] 0 [[x61]] None = Panic PNaN /\
  word_similarity f32_ops wrap_ops (nd_ops f32) Ok Debug ex_bad ex_unknown 1 None = Panic PAssert /\
  analogy f32_ops wrap_ops (nd_ops f32) Ok Debug nan_ex ([x61], [x61], [x62]) 1 None = Ok (inl []).
Proof.
  split; [apply sim_emb_made; [vm_compute; reflexivity|reflexivity|repeat constructor]|].
  split; [intros mn mx bow eow H; discriminate|].
  split.
  { refine (qp_nan _ _ _ _ _ _ _ _ (mkWsr (f32_of_bits 2143289344) [x62]) _ _ _ _ _ _).
    - vm_compute. discriminate.
    - discriminate.
    - reflexivity.
    - discriminate.
    - exists 1, [f32_of_bits 2143289344; fN 0]. split; [reflexivity|]. split; [reflexivity|]. split; [intros []|].
      vm_compute. reflexivity.
    - vm_compute. intros H. apply H. reflexivity. }
  split; [vm_compute; reflexivity|]. split.
  { refine (qp_zero _ _ _ _ _ _ _ _ 0 [fN 1; fN 0] _ _ _ _ _ _).
    - reflexivity.
    - discriminate.
    - reflexivity.
    - split; [exists [x61]; split; [reflexivity|intros []]|]. intros j w J. destruct (N.nlt_0_r _ J).
    - reflexivity.
    - vm_compute. discriminate. }
  repeat split; vm_compute; reflexivity.
Qed.

(** ** C90: conversions to wrapped embeddings *)
Theorem converted_lookups_thm : forall (Md : Type) pf gemm V VO rv cv fv rw S SO rs cs fs,
  vkind pf V VO rv cv fv -> skind pf gemm rw S SO rs cs fs ->
  forall e : embeddings Md V S f32,
  (forall w, emb_embedding f32_ops wrap_ops (swrap_ops gemm) pf (emb_wrap fv fs e) w = emb_embedding f32_ops VO SO pf e w) /\
  (forall w, emb_with_norm f32_ops wrap_ops (swrap_ops gemm) pf (emb_wrap fv fs e) w = emb_with_norm f32_ops VO SO pf e w) /\
  (forall w t, emb_embedding_into f32_ops wrap_ops (swrap_ops gemm) pf (emb_wrap fv fs e) w t = emb_embedding_into f32_ops VO SO pf e w t) /\
  (forall order ws, emb_batch f32_ops wrap_ops (swrap_ops gemm) pf order (emb_wrap fv fs e) ws = emb_batch f32_ops VO SO pf order e ws) /\
  (forall order ws out, emb_batch_into f32_ops wrap_ops (swrap_ops gemm) pf order (emb_wrap fv fs e) ws out = emb_batch_into f32_ops VO SO pf order e ws out) /\
  emb_dims (swrap_ops gemm) (emb_wrap fv fs e) = emb_dims SO e /\ emb_len wrap_ops (emb_wrap fv fs e) = emb_len VO e /\
  emb_iter wrap_ops (swrap_ops gemm) (emb_wrap fv fs e) = emb_iter VO SO e /\
  emb_iter_with_norms f32_ops wrap_ops (swrap_ops gemm) (emb_wrap fv fs e) = emb_iter_with_norms f32_ops VO SO e.
Proof. exact (@WrapThms.converted_lookups). Qed.
Print Assumptions converted_lookups_thm.
Theorem converted_queries_thm : forall (Md : Type) pf V VO rv cv fv S SO view fs,
  vkind pf V VO rv cv fv -> view_kind S SO view fs ->
  forall e : embeddings Md V S f32,
  (forall w, emb_embedding f32_ops wrap_ops svwrap_ops pf (emb_wrap fv fs e) w = emb_embedding f32_ops VO SO pf e w) /\
  (forall w limit batch, word_similarity f32_ops wrap_ops svwrap_ops svwrap_view pf (emb_wrap fv fs e) w limit batch = word_similarity f32_ops VO SO view pf e w limit batch) /\
  (forall q limit skip batch, embedding_similarity_masked f32_ops wrap_ops svwrap_view (emb_wrap fv fs e) q limit skip batch = embedding_similarity_masked f32_ops VO view e q limit skip batch) /\
  (forall q remove limit batch, analogy_masked f32_ops wrap_ops svwrap_ops svwrap_view pf (emb_wrap fv fs e) q remove limit batch = analogy_masked f32_ops VO SO view pf e q remove limit batch).
Proof. exact (@WrapThms.converted_queries). Qed.
Print Assumptions converted_queries_thm.
Example converted_ex : exists rv cv,
  vkind Debug simple_vocab simple_ops rv cv VSimple /\ view_kind _ (nd_ops f32) (fun a => Ok a) SvNdArray /\
  skind Debug (fun _ vs => vs) read_storage_wrap _ (nd_ops f32) read_ndarray nd_chunk SNdArray /\
  let e := mkEmb (Md := unit) None (mkA2 2 sim_rows) (mkSimple (create_indices sim_words) sim_words) None in
  word_similarity f32_ops wrap_ops svwrap_ops svwrap_view Debug (emb_wrap VSimple SvNdArray e) [x61] 2 (Some 3)
  = Ok (Some [mkWsr (fN 2) [x62]; mkWsr (fN 2) [x64]]).
Proof. do 2 eexists. split; [constructor|]. split; [constructor|]. split; [constructor|]. vm_compute. reflexivity. Qed.

(** ** C109: the order of the words, and more words *)
Theorem extended_lookup_thm : forall (Md Md' S S' F : Type) (o : fops F) (SO : storage_ops F S) (SO' : storage_ops F S') (pf : profile) (e : embeddings Md vocab_wrap S F) (e' : embeddings Md' vocab_wrap S' F) (cols : N) (rows rows' : list (list F)), emb_made SO pf e cols rows -> emb_made SO' pf e' cols rows' -> extends e e' rows rows' ->
  forall w,
  In w (v_words wrap_ops (em_vocab e)) \/ ~ In w (v_words wrap_ops (em_vocab e')) ->
    emb_embedding o wrap_ops SO' pf e' w = emb_embedding o wrap_ops SO pf e w /\
    emb_with_norm o wrap_ops SO' pf e' w = emb_with_norm o wrap_ops SO pf e w /\
    forall target, emb_embedding_into o wrap_ops SO' pf e' w target = emb_embedding_into o wrap_ops SO pf e w target.
Proof. exact (@ReorderThms.extends_lookup). Qed.
Print Assumptions extended_lookup_thm.
Theorem reordered_lookups_thm : forall (Md Md' S S' F : Type) (o : fops F) (SO : storage_ops F S) (SO' : storage_ops F S') (pf : profile) (e : embeddings Md vocab_wrap S F) (e' : embeddings Md' vocab_wrap S' F) (cols : N) (rows rows' : list (list F)), emb_made SO pf e cols rows -> emb_made SO' pf e' cols rows' -> extends e e' rows rows' -> lenN (v_words wrap_ops (em_vocab e')) = lenN (v_words wrap_ops (em_vocab e)) ->
  forall w,
  emb_embedding o wrap_ops SO' pf e' w = emb_embedding o wrap_ops SO pf e w /\
    emb_with_norm o wrap_ops SO' pf e' w = emb_with_norm o wrap_ops SO pf e w /\
    (forall target, emb_embedding_into o wrap_ops SO' pf e' w target = emb_embedding_into o wrap_ops SO pf e w target).
Proof. exact (@ReorderThms.reordered_lookups). Qed.
Print Assumptions reordered_lookups_thm.
Theorem reordered_batches_thm : forall (Md Md' S S' F : Type) (o : fops F) (SO : storage_ops F S) (SO' : storage_ops F S') (pf : profile) (e : embeddings Md vocab_wrap S F) (e' : embeddings Md' vocab_wrap S' F) (cols : N) (rows rows' : list (list F)), emb_made SO pf e cols rows -> emb_made SO' pf e' cols rows' -> extends e e' rows rows' -> lenN (v_words wrap_ops (em_vocab e')) = lenN (v_words wrap_ops (em_vocab e)) ->
  forall order ws,
  emb_batch o wrap_ops SO' pf order e' ws = emb_batch o wrap_ops SO pf order e ws /\
    forall out, emb_batch_into o wrap_ops SO' pf order e' ws out = emb_batch_into o wrap_ops SO pf order e ws out.
Proof. exact (@ReorderThms.reordered_batches). Qed.
Print Assumptions reordered_batches_thm.
Theorem reordered_queries_thm : forall (F : Type) (o : fops F), ordered o -> one_neutral o -> (forall x y : F, sumbool (x = y) (x <> y)) -> forall (Md Md' S S' : Type) (SO : storage_ops F S) (SO' : storage_ops F S') (view : S -> res (array2 F)) (view' : S' -> res (array2 F)) (pf : profile) (e : embeddings Md vocab_wrap S F) (e' : embeddings Md' vocab_wrap S' F) (a a' : array2 F), emb_made SO pf e (a2_cols a) (a2_rows a) -> emb_made SO' pf e' (a2_cols a') (a2_rows a') -> view (em_storage e) = Ok a -> view' (em_storage e') = Ok a' -> a2_cols a' = a2_cols a -> reordered e e' (a2_rows a) (a2_rows a') ->
  (forall w limit batch r, word_similarity o wrap_ops SO' view' pf e' w limit batch = Ok r <-> word_similarity o wrap_ops SO view pf e w limit batch = Ok r) /\
    (forall q limit skip batch r, embedding_similarity_masked o wrap_ops view' e' q limit skip batch = Ok r <-> embedding_similarity_masked o wrap_ops view e q limit skip batch = Ok r) /\
    (forall q remove limit batch r, analogy_masked o wrap_ops SO' view' pf e' q remove limit batch = Ok r <-> analogy_masked o wrap_ops SO view pf e q remove limit batch = Ok r).
Proof. exact (@ReorderThms.reordered_queries). Qed.
Print Assumptions reordered_queries_thm.
(** Every order of the words can be built. *)
Theorem reordered_exists_thm : forall (Md S F : Type) (d : F) (SO : storage_ops F S) pf (e : embeddings Md vocab_wrap S F) cols rows ws',
  emb_made SO pf e cols rows -> (forall ns, em_norms e = Some ns -> lenN (v_words wrap_ops (em_vocab e)) <= lenN ns) ->
  Permutation (v_words wrap_ops (em_vocab e)) ws' ->
  exists (e' : embeddings Md vocab_wrap (array2 F) F) rows', v_words wrap_ops (em_vocab e') = ws' /\
  emb_made (nd_ops F) pf e' cols rows' /\ reordered e e' rows rows'.
Proof. exact (@ReorderThms.reordered_exists). Qed.
Print Assumptions reordered_exists_thm.
(** The embeddings [ex_emb] with other words, the same buckets and the same
    rows of buckets. *)
Definition other_emb (ws : list str) (rows : list (list f32)) (norms : list f32) : embeddings unit vocab_wrap (array2 f32) f32 :=
  mkEmb None (mkA2 2 (rows ++ dropN 2 ex_rows)) (VBucket (mkSub default_bow default_eow ex_hash (create_indices ws) ws 3 6)) (Some norms).
Lemma other_emb_made ws rows norms : sub_new_with_boundaries hash_ops Debug ws 3 6 ex_hash default_bow default_eow
    = Ok (mkSub default_bow default_eow ex_hash (create_indices ws) ws 3 6) ->
  lenN ws = lenN rows -> Forall (fun r => lenN r = 2) rows -> emb_made (nd_ops f32) Debug (other_emb ws rows norms) 2 (rows ++ dropN 2 ex_rows).
Proof.
  intros H L W. assert (vocab_made Debug (em_vocab (other_emb ws rows norms))) as V.
  { apply (vm_bucket Debug ws 3 6 ex_hash default_bow default_eow); [apply (im_hash 2); [discriminate|reflexivity]|exact H]. }
  split; [exact V|]. split.
  - apply (MatrixFacts.nd_matrix (mkA2 2 (rows ++ dropN 2 ex_rows))). apply Forall_app. split; [exact W|repeat constructor].
  - unfold emb_new_with_maybe_norms. cbn [v_vocab_len wrap_ops em_vocab other_emb].
    destruct (LookupFacts.sub_vocab_len_exact _ _ _ _ _ _ _ _ _ H) as (b & B & E). rewrite E. vm_compute in B. inv B. cbn [rbind].
    change (fst (st_shape (nd_ops f32) (em_storage (other_emb ws rows norms)))) with (lenN (rows ++ dropN 2 ex_rows)). rewrite lenN_app, L. change (lenN (dropN 2 ex_rows)) with 4. rewrite N.eqb_refl. reflexivity.
Qed.
(** A third word at the front and the others exchanged. *)
Definition three_words : list str := [[x61]; [x74; x77; x65; x65]; [x65; x65; x6e]].
Definition three_rows : list (list f32) := [[fN 9; fN 9]; [fN 2; fN 3]; [fN 1; fN 2]].
Definition three_emb := other_emb three_words three_rows [fN 4; fN 8; fN 7].
(** The two words exchanged. *)
Definition two_emb := other_emb (tl three_words) (tl three_rows) [fN 8; fN 7].
Lemma other_extends ws rows norms : forall (f : N -> N),
  (forall i w, nthN ex_words i = Some w -> nthN ws (f i) = Some w /\ nthN (rows ++ dropN 2 ex_rows) (f i) = nthN ex_rows i /\ nthN norms (f i) = nthN [fN 7; fN 8] i) ->
  lenN ws = lenN rows -> extends ex_emb (other_emb ws rows norms) ex_rows (rows ++ dropN 2 ex_rows).
Proof.
  intros f H L. constructor.
  - cbn. repeat split.
  - intros i w W. exists (f i). apply H. exact W.
  - intros i. change (v_words wrap_ops (em_vocab (other_emb ws rows norms))) with ws. rewrite L, nthN_app2 by lia.
    replace (lenN rows + i - lenN rows) with i by lia. apply FastTextFacts.nthN_dropN.
Qed.
Example reordered_ex :
  emb_made (nd_ops f32) Debug three_emb 2 (three_rows ++ dropN 2 ex_rows) /\ extends ex_emb three_emb ex_rows (three_rows ++ dropN 2 ex_rows) /\
  emb_made (nd_ops f32) Debug two_emb 2 (tl three_rows ++ dropN 2 ex_rows) /\ reordered ex_emb two_emb ex_rows (tl three_rows ++ dropN 2 ex_rows) /\
  (exists v, emb_embedding f32_ops wrap_ops (nd_ops f32) Debug ex_emb ex_unknown = Ok (Some v) /\
             emb_embedding f32_ops wrap_ops (nd_ops f32) Debug three_emb ex_unknown = Ok (Some v)) /\
  word_similarity f32_ops wrap_ops (nd_ops f32) Ok Debug two_emb ex_unknown 1 None = word_similarity f32_ops wrap_ops (nd_ops f32) Ok Debug ex_emb ex_unknown 1 None /\
  emb_embedding f32_ops wrap_ops (nd_ops f32) Debug three_emb [x61] <> emb_embedding f32_ops wrap_ops (nd_ops f32) Debug ex_emb [x61].
Proof.
  split; [apply other_emb_made; [vm_compute; reflexivity|reflexivity|repeat constructor]|].
  assert (forall i w, nthN ex_words i = Some w -> i = 0 \/ i = 1) as C by (intros i w W; apply nthN_Some_lt in W; change (lenN ex_words) with 2 in W; lia).
  split.
  { apply (other_extends _ _ _ (fun i => 2 - i)); [|reflexivity]. intros i w W. destruct (C i w W) as [-> | ->]; vm_compute in W; inv W; vm_compute; auto. }
  split; [apply other_emb_made; [vm_compute; reflexivity|reflexivity|repeat constructor]|].
  split.
  { split; [|reflexivity]. apply (other_extends _ _ _ (fun i => 1 - i)); [|reflexivity]. intros i w W. destruct (C i w W) as [-> | ->]; vm_compute in W; inv W; vm_compute; auto. }
  split; [eexists; split; vm_compute; reflexivity|]. split; [vm_compute; reflexivity|]. vm_compute. discriminate.
Qed.

(** ** C112: the heap of the standard library *)
Theorem heap_empty_thm : forall (A : Type) (cmp : A -> A -> comparison) d,
  is_heap cmp d [].
Proof. exact (@HeapThms.heap_empty). Qed.
Print Assumptions heap_empty_thm.
Theorem heap_push_thm : forall (A : Type) (cmp : A -> A -> comparison) d (P : A -> Prop) x l,
  total_order cmp P -> Forall P (x :: l) -> is_heap cmp d l ->
  Permutation (heap_push cmp d x l) (x :: l) /\ is_heap cmp d (heap_push cmp d x l).
Proof. exact (@HeapThms.heap_push_contract). Qed.
Print Assumptions heap_push_thm.
Theorem heap_peek_thm : forall (A : Type) (cmp : A -> A -> comparison) d (P : A -> Prop) y l,
  total_order cmp P -> Forall P (y :: l) -> is_heap cmp d (y :: l) ->
  forall z, In z (y :: l) -> cmp z y <> Gt.
Proof. exact (@HeapThms.heap_peek_contract). Qed.
Print Assumptions heap_peek_thm.
Theorem heap_assign_thm : forall (A : Type) (cmp : A -> A -> comparison) d (P : A -> Prop) x y l,
  total_order cmp P -> Forall P (x :: y :: l) -> is_heap cmp d (y :: l) ->
  Permutation (heap_assign cmp d x (y :: l)) (x :: l) /\ is_heap cmp d (heap_assign cmp d x (y :: l)).
Proof. exact (@HeapThms.heap_assign_contract). Qed.
Print Assumptions heap_assign_thm.
Theorem heap_sort_thm : forall (A : Type) (cmp : A -> A -> comparison) d (P : A -> Prop) l,
  total_order cmp P -> Forall P l -> is_heap cmp d l ->
  Permutation (into_sorted_vec cmp d l) l /\ StronglySorted (fun a b => cmp a b <> Gt) (into_sorted_vec cmp d l).
Proof. exact (@HeapThms.heap_sort_contract). Qed.
Print Assumptions heap_sort_thm.
Theorem wsr_total_order_thm : forall (F : Type) (o : fops F),
  ordered o -> total_order (wsr_cmp o) (fun x => number o (wr_sim x)).
Proof. exact (@HeapThms.wsr_total_order). Qed.
Print Assumptions wsr_total_order_thm.
Theorem std_similarity_thm : forall (Md S F : Type) (o : fops F), ordered o -> forall (SO : storage_ops F S) (view : S -> res (array2 F)) (pf : profile) (e : embeddings Md vocab_wrap S F) (a : array2 F), emb_made SO pf e (a2_cols a) (a2_rows a) -> view (em_storage e) = Ok a ->
  forall q skip limit batch,
  std_similarity o wrap_ops view e q skip limit batch = similarity_ o wrap_ops view e q skip limit batch.
Proof. exact (@HeapThms.std_similarity_same). Qed.
Print Assumptions std_similarity_thm.
(** Seven numbers: a heap is not sorted. *)
Example heap_ex :
  total_order Nat.compare (fun _ => True) /\
  fold_left (fun h x => heap_push Nat.compare 0%nat x h) [3; 1; 4; 1; 5; 9; 2]%nat [] = [9; 4; 5; 1; 1; 3; 2]%nat /\
  heap_assign Nat.compare 0%nat 2%nat [9; 4; 5; 1; 1; 3; 2]%nat = [5; 4; 3; 1; 1; 2; 2]%nat /\
  into_sorted_vec Nat.compare 0%nat [5; 4; 3; 1; 1; 2; 2]%nat = [1; 1; 2; 2; 3; 4; 5]%nat.
Proof.
  split; [|repeat split; vm_compute; reflexivity]. split.
  - intros a b _ _. apply Nat.compare_antisym.
  - intros a b c _ _ _ H1 H2. apply Nat.compare_le_iff in H1, H2. apply Nat.compare_le_iff. lia.
Qed.
(** The third word is replaced while the query runs. *)
Example std_similarity_ex :
  emb_made (nd_ops f32) Debug sim_ex (a2_cols (em_storage sim_ex)) (a2_rows (em_storage sim_ex)) /\
  std_similarity f32_ops wrap_ops Ok sim_ex [fN 1; fN 0] [[x64]] 2 (Some 3) = Ok [mkWsr (fN 2) [x62]; mkWsr (fN 1) [x61]] /\
  std_similarity f32_ops wrap_ops Ok sim_ex [fN 1; fN 0] [] 0 None = Panic PAssert.
Proof. split; [apply sim_ex_made|]. split; vm_compute; reflexivity. Qed.
