(** * Theorems about the size hints that lookups ask for (C121). *)
From Verif Require Import Base BaseFacts Utf8 F32 Stream ChunkIO Subword Vocab VocabSpec Storage Embeddings Similarity EmbSpec FastText Width WidthThms WidthUse WidthUseThms Hints HintsThms.
From Verif Require P_WidthUse P_FastText.
Local Open Scope N_scope.

(** Hints never change what is returned. *)
Theorem hinted_sound_thm : forall (w : machine) {I : Type} (ops : indexer_ops I) (pf : profile) (v : subword_vocab I) (s : str),
  (forall r, h_sub_subword_indices w ops pf v s = Ok r -> w_sub_subword_indices w ops pf v s = Ok r) /\
    (forall r, h_sub_ngram_indices w ops pf v s = Ok r -> w_sub_ngram_indices w ops pf v s = Ok r) /\
    (forall r, h_sub_idx w ops pf v s = Ok r -> w_sub_idx w ops pf v s = Ok r).
Proof. exact (@HintsThms.hinted_sound). Qed.
Print Assumptions hinted_sound_thm.
(** The same is returned if the product fits. *)
Theorem hinted_same_thm : forall (w : machine) {I : Type} (ops : indexer_ops I) (pf : profile) (v : subword_vocab I) (s : str),
  ix_made I ops (sv_ix v) -> fit_vocab w ops pf v -> word_fits w pf (sv_min v) (sv_max v) (bracket v s) ->
    h_sub_subword_indices w ops pf v s = w_sub_subword_indices w ops pf v s /\ h_sub_idx w ops pf v s = w_sub_idx w ops pf v s.
Proof. exact (@HintsThms.hinted_same). Qed.
Print Assumptions hinted_same_thm.
Theorem hinted_lookup_thm : forall w pf v s,
  w_size w <= two64 -> vocab_made pf v -> vocab_fits w pf v -> lookup_fits w pf v s ->
  v_idx (h_wrap_ops w) pf v s = v_idx wrap_ops pf v s.
Proof. exact (@HintsThms.hinted_lookup). Qed.
Print Assumptions hinted_lookup_thm.
Theorem hinted_64_thm : forall pf v s,
  vocab_made pf v -> vocab_fits m64 pf v ->
  (forall mn mx bow eow, vocab_range v = Some (mn, mx, bow, eow) -> mx < 4294967296 /\ chars (bow ++ s ++ eow) < 268435456) ->
  v_idx (h_wrap_ops m64) pf v s = v_idx wrap_ops pf v s.
Proof. exact (@HintsThms.hinted_64). Qed.
Print Assumptions hinted_64_thm.
Theorem hinted_i686_thm : forall pf v s,
  vocab_made pf v -> vocab_fits i686 pf v ->
  (forall mn mx bow eow, vocab_range v = Some (mn, mx, bow, eow) ->
     chars (bow ++ s ++ eow) < 8192 /\ (pf = Release \/ 1 <= mn /\ mx < 4294967296 /\ (mx - mn + 1) * chars (bow ++ s ++ eow) < 4294967296)) ->
  v_idx (h_wrap_ops i686) pf v s = v_idx wrap_ops pf v s.
Proof. exact (@HintsThms.hinted_i686). Qed.
Print Assumptions hinted_i686_thm.
(** Otherwise debug builds panic. *)
Theorem hinted_overflow_thm : forall (w : machine) {I : Type} (ops : indexer_ops I) (pf : profile) (v : subword_vocab I) (s : str),
  forall l,
  dense ops (sv_ix v) -> ~ hint_fits w pf (sv_min v) (sv_max v) (bracket v s) -> w_sub_subword_indices w ops pf v s = Ok (Some l) ->
    h_sub_subword_indices w ops pf v s = Panic PArithOverflow.
Proof. exact (@HintsThms.hinted_overflow). Qed.
Print Assumptions hinted_overflow_thm.
Theorem made_dense_thm : (forall exp ix, exp <> 64 -> hash_indexer_new exp = Ok ix -> dense hash_ops ix) /\
  (forall n ix, n <> 0 -> ft_indexer_new n = Ok ix -> dense ft_ops ix) /\ (forall nb nh seed ix, floret_indexer_new nb nh seed = Ok ix -> dense floret_ops ix).
Proof. exact (@HintsThms.made_dense). Qed.
Print Assumptions made_dense_thm.
Theorem hinted_ngrams_overflow_thm : forall (w : machine) {I : Type} (ops : indexer_ops I) (pf : profile) (v : subword_vocab I) (s : str),
  forall l,
  ~ hint_fits w pf (sv_min v) (sv_max v) (bracket v s) -> w_sub_ngram_indices w ops pf v s = Ok (Some l) ->
    h_sub_ngram_indices w ops pf v s = Panic PArithOverflow.
Proof. exact (@HintsThms.hinted_ngrams_overflow). Qed.
Print Assumptions hinted_ngrams_overflow_thm.
(** What [ngram_indices] asks for. *)
Theorem hinted_ngrams_thm : forall (w : machine) {I : Type} (ops : indexer_ops I) (pf : profile) (v : subword_vocab I) (s : str),
  forall r,
  mw_limit w < w_size w -> 1 <= mw_string w ->
    sv_max v - sv_min v + 1 < w_size w -> (sv_max v - sv_min v + 1) * chars (bracket v s) < w_size w ->
    w_sub_ngram_indices w ops pf v s = Ok r ->
    h_sub_ngram_indices w ops pf v s =
      match r with
      | None => Ok None
      | Some _ => if N.max 4 ((sv_max v - sv_min v + 1) * chars (bracket v s) + 1) * (3 * mw_string w) <=? mw_limit w then Ok r else Panic PCapacity
      end.
Proof. exact (@HintsThms.hinted_ngrams). Qed.
Print Assumptions hinted_ngrams_thm.
Theorem ngram_items_count_thm : forall (I : Type) (ops : indexer_ops I) s mn mx ix l,
  subword_indices_with_ngrams ops s mn mx ix = Ok l ->
  lenN l <= (mx - mn + 1) * chars s + 1 /\ lenN l <= chars s * chars s + 1.
Proof. exact (@HintsThms.items_count). Qed.
Print Assumptions ngram_items_count_thm.
Theorem subword_indices_count_thm : forall (I : Type) (ops : indexer_ops I) ix s mn mx l,
  four ops ix -> str_subword_indices ops s mn mx ix = Ok l -> lenN l <= 4 * (chars s * chars s + 1).
Proof. exact (@HintsThms.indices_count). Qed.
Print Assumptions subword_indices_count_thm.
(** Embeddings, queries and fastText files. *)
Theorem hinted_embedding_thm : forall (w : machine) (W : w_size w <= two64) {Md S F : Type} (o : fops F) (SO : storage_ops F S) (pf : profile) (e : embeddings Md vocab_wrap S F), vocab_made pf (em_vocab e) -> vocab_fits w pf (em_vocab e) ->
  forall s,
  lookup_fits w pf (em_vocab e) s ->
    emb_embedding o (h_wrap_ops w) SO pf e s = emb_embedding o wrap_ops SO pf e s /\
    emb_with_norm o (h_wrap_ops w) SO pf e s = emb_with_norm o wrap_ops SO pf e s /\
    forall t, emb_embedding_into o (h_wrap_ops w) SO pf e s t = emb_embedding_into o wrap_ops SO pf e s t.
Proof. exact (@HintsThms.hinted_embedding). Qed.
Print Assumptions hinted_embedding_thm.
Theorem hinted_batch_thm : forall (w : machine) (W : w_size w <= two64) {Md S F : Type} (o : fops F) (SO : storage_ops F S) (pf : profile) (e : embeddings Md vocab_wrap S F), vocab_made pf (em_vocab e) -> vocab_fits w pf (em_vocab e) ->
  forall order words out,
  (forall s is, In (s, is) (order (word_indices words)) -> lookup_fits w pf (em_vocab e) s) ->
    emb_batch_into o (h_wrap_ops w) SO pf order e words out = emb_batch_into o wrap_ops SO pf order e words out.
Proof. exact (@HintsThms.hinted_batch). Qed.
Print Assumptions hinted_batch_thm.
Theorem hinted_queries_thm : forall (w : machine) (W : w_size w <= two64) {Md S F : Type} (o : fops F) (SO : storage_ops F S) (pf : profile) (e : embeddings Md vocab_wrap S F), vocab_made pf (em_vocab e) -> vocab_fits w pf (em_vocab e) -> forall (view : S -> res (array2 F)),
  forall limit bs,
  limit * mw_string w <= mw_limit w -> limit * 24 <= isize_max ->
    (forall s, lookup_fits w pf (em_vocab e) s -> w_word_similarity w o (h_wrap_ops w) SO view pf e s limit bs = word_similarity o wrap_ops SO view pf e s limit bs) /\
    (forall w1 w2 w3 r, lookup_fits w pf (em_vocab e) w1 -> lookup_fits w pf (em_vocab e) w2 -> lookup_fits w pf (em_vocab e) w3 ->
       w_analogy_masked w o (h_wrap_ops w) SO view pf e (w1, w2, w3) r limit bs = analogy_masked o wrap_ops SO view pf e (w1, w2, w3) r limit bs).
Proof. exact (@HintsThms.hinted_queries). Qed.
Print Assumptions hinted_queries_thm.
Theorem hinted_fasttext_sound_thm : forall (w : machine) (pf : profile) (T : toml_ops) (ct : ft_config -> option (toml_table T)) (lossy : bool),
  forall s e s',
  h_fasttext w pf T ct lossy s = (Ok e, s') -> w_fasttext w pf T ct lossy s = (Ok e, s').
Proof. exact (@HintsThms.hinted_fasttext_sound). Qed.
Print Assumptions hinted_fasttext_sound_thm.
Theorem hinted_fasttext_thm : forall (w : machine) (pf : profile) (T : toml_ops) (ct : ft_config -> option (toml_table T)) (lossy : bool),
  forall s e s',
  w_fasttext w pf T ct lossy s = (Ok e, s') ->
    (forall x, In x (sv_words (em_vocab e)) -> word_fits w pf (sv_min (em_vocab e)) (sv_max (em_vocab e)) (bracket (em_vocab e) x)) ->
    h_fasttext w pf T ct lossy s = (Ok e, s').
Proof. exact (@HintsThms.hinted_fasttext). Qed.
Print Assumptions hinted_fasttext_thm.
Theorem hinted_fasttext_64_thm : forall pf T ct lossy s e s',
  read_fasttext pf T ct lossy s = (Ok e, s') -> sv_max (em_vocab e) < 4294967296 ->
  (forall x, In x (sv_words (em_vocab e)) -> chars (bracket (em_vocab e) x) < 268435456) ->
  h_fasttext m64 pf T ct lossy s = (Ok e, s').
Proof. exact (@HintsThms.hinted_fasttext_64). Qed.
Print Assumptions hinted_fasttext_64_thm.

(** The vocabulary of [P_WidthUse] with n-grams of 3 to [mx] characters. *)
Definition hx_vocab (w : machine) (pf : profile) (mx : N) : subword_vocab hash_indexer :=
  match w_sub_new w hash_ops pf P_WidthUse.ux_words 3 mx P_WidthUse.ux_ix default_bow default_eow with Ok v => v | _ => mkSub [] [] P_WidthUse.ux_ix [] [] 3 6 end.
(** A word of one letter has one n-gram of three characters. *)
Example hinted_same_ex : ix_made _ hash_ops (sv_ix (hx_vocab i686 Debug 6)) /\ fit_vocab i686 hash_ops Debug (hx_vocab i686 Debug 6) /\
  word_fits i686 Debug 3 6 (bracket (hx_vocab i686 Debug 6) [x61]) /\
  exists l, h_sub_subword_indices i686 hash_ops Debug (hx_vocab i686 Debug 6) [x61] = Ok (Some l) /\ lenN l = 1.
Proof.
  assert (ix_made _ hash_ops P_WidthUse.ux_ix) as M by (apply (im_hash 3); [discriminate|vm_compute; reflexivity]).
  split; [exact M|]. split.
  - exists 8. split; [vm_compute; reflexivity|]. split; [vm_compute; reflexivity|]. apply (ix_made_safe _ hash_ops _ Debug 8); [exact M|vm_compute; reflexivity].
  - split; [split; [right; split; vm_compute; reflexivity|vm_compute; discriminate]|]. eexists. split; vm_compute; reflexivity.
Qed.
Example hinted_64_ex : vocab_made Debug (VBucket (hx_vocab m64 Debug 4294967295)) /\ vocab_fits m64 Debug (VBucket (hx_vocab m64 Debug 4294967295)) /\
  (forall mn mx bow eow, vocab_range (VBucket (hx_vocab m64 Debug 4294967295)) = Some (mn, mx, bow, eow) -> mx < 4294967296 /\ chars (bow ++ [x61] ++ eow) < 268435456) /\
  exists l, v_idx (h_wrap_ops m64) Debug (VBucket (hx_vocab m64 Debug 4294967295)) [x61] = Ok (Some (Subwords l)).
Proof.
  split; [|split; [|split]].
  - apply (vm_bucket Debug P_WidthUse.ux_words 3 4294967295 P_WidthUse.ux_ix default_bow default_eow); [apply (im_hash 3); [discriminate|vm_compute; reflexivity]|vm_compute; reflexivity].
  - intros n H. vm_compute in H. injection H as <-. reflexivity.
  - intros mn mx bow eow H. vm_compute in H. injection H as <- <- <- <-. split; vm_compute; reflexivity.
  - eexists. vm_compute. reflexivity.
Qed.
(** With a limit of 2 GiB one n-gram of a vocabulary with lengths up to 100
    is found. *)
Example hinted_ngrams_ex : mw_limit i686 < w_size i686 /\ 1 <= mw_string i686 /\ (100 - 3 + 1) * chars (bracket (hx_vocab i686 Debug 100) [x61]) = 294 /\
  exists l, w_sub_ngram_indices i686 hash_ops Debug (hx_vocab i686 Debug 100) [x61] = Ok (Some l) /\
    h_sub_ngram_indices i686 hash_ops Debug (hx_vocab i686 Debug 100) [x61] = Ok (Some l) /\
    h_sub_ngram_indices (mkMachine 32 12 20 (295 * 36 - 1)) hash_ops Debug (hx_vocab i686 Debug 100) [x61] = Panic PCapacity.
Proof. split; [reflexivity|]. split; [discriminate|]. split; [reflexivity|]. eexists. split; [vm_compute; reflexivity|]. split; vm_compute; reflexivity. Qed.
Example hinted_fasttext_ex : exists e s', w_fasttext i686 Debug P_FastText.ft_T P_FastText.ft_table false (mkStream P_WidthUse.ux_fasttext 0) = (Ok e, s') /\
  (forall x, In x (sv_words (em_vocab e)) -> word_fits i686 Debug (sv_min (em_vocab e)) (sv_max (em_vocab e)) (bracket (em_vocab e) x)) /\ lenN (sv_words (em_vocab e)) = 2.
Proof.
  eexists. eexists. split; [vm_compute; reflexivity|]. split; [|reflexivity]. cbn [em_vocab sv_words sv_min sv_max].
  intros x [<-|[<-|[]]]; (split; [right; split; vm_compute; reflexivity|vm_compute; discriminate]).
Qed.

(** A vocabulary with n-grams of up to [2^32 - 1] characters is built on all
    machines.  On a 32-bit machine all its lookups with n-grams panic in
    debug builds. *)
Theorem hint_overflow_refuted : exists v, w_sub_new i686 hash_ops Debug P_WidthUse.ux_words 3 4294967295 P_WidthUse.ux_ix default_bow default_eow = Ok v /\
  (exists l, sub_idx hash_ops Debug v [x61] = Ok (Some (Subwords l)) /\ h_sub_idx m64 hash_ops Debug v [x61] = Ok (Some (Subwords l)) /\
             h_sub_idx i686 hash_ops Release v [x61] = Ok (Some (Subwords l))) /\
  h_sub_idx i686 hash_ops Debug v [x61] = Panic PArithOverflow.
Proof.
  eexists. split; [vm_compute; reflexivity|]. split; [|vm_compute; reflexivity]. eexists. split; [vm_compute; reflexivity|]. split; vm_compute; reflexivity.
Qed.
Print Assumptions hint_overflow_refuted.
(** A 64-bit machine needs more than half a terabyte for the n-grams of a
    word of one letter, of which there is one. *)
Theorem hint_memory_refuted : exists v, sub_new_with_boundaries hash_ops Release P_WidthUse.ux_words 3 4294967295 P_WidthUse.ux_ix default_bow default_eow = Ok v /\
  (exists l, sub_ngram_indices hash_ops Release v [x61] = Ok (Some l) /\ lenN l = 1) /\
  h_sub_ngram_indices (limited 549755813888) hash_ops Release v [x61] = Panic PCapacity.
Proof. eexists. split; [vm_compute; reflexivity|]. split; [eexists; split; vm_compute; reflexivity|vm_compute; reflexivity]. Qed.
Print Assumptions hint_memory_refuted.
(** Without overflow checks the product wraps on a 32-bit machine, and what
    is asked for has nothing to do with it: with three more lengths the n-grams
    are found. *)
Theorem hint_wrap_refuted : exists mx1 mx2, mx1 < mx2 /\ h_sub_ngram_indices i686 hash_ops Release (hx_vocab i686 Release mx1) [x61] = Panic PCapacity /\
  exists l, h_sub_ngram_indices i686 hash_ops Release (hx_vocab i686 Release mx2) [x61] = Ok (Some l).
Proof. exists 1431655767, 1431655770. split; [reflexivity|]. split; [vm_compute; reflexivity|]. eexists. vm_compute. reflexivity. Qed.
Print Assumptions hint_wrap_refuted.
(** A fastText file that 64-bit machines read. *)
Definition hx_fasttext : list byte := P_FastText.ft_ex_bytes 2 3 4294967295 [[x61]; [x62]] 0 P_FastText.ft_ex_rows.
Theorem hint_fasttext_refuted : exists e s', read_fasttext Debug P_FastText.ft_T P_FastText.ft_table false (mkStream hx_fasttext 0) = (Ok e, s') /\
  h_fasttext m64 Debug P_FastText.ft_T P_FastText.ft_table false (mkStream hx_fasttext 0) = (Ok e, s') /\
  h_fasttext i686 Release P_FastText.ft_T P_FastText.ft_table false (mkStream hx_fasttext 0) = (Ok e, s') /\
  fst (h_fasttext i686 Debug P_FastText.ft_T P_FastText.ft_table false (mkStream hx_fasttext 0)) = Panic PArithOverflow.
Proof. eexists. eexists. split; [vm_compute; reflexivity|]. split; [vm_compute; reflexivity|]. split; vm_compute; reflexivity. Qed.
Print Assumptions hint_fasttext_refuted.
