(** * Theorems about the size hints that lookups ask for (C121). *)
From Verif Require Import Base BaseFacts Utf8 F32 Stream ChunkIO Subword Vocab VocabSpec Storage Embeddings Similarity EmbSpec FastText Width WidthThms WidthUse WidthUseThms Hints HintsThms.
From Verif Require P_WidthUse P_FastText.
Local Open Scope N_scope.

(** Hints never change what is returned. *)
@thm hinted_sound_thm HintsThms hinted_sound | forall (w : machine) {I : Type} (ops : indexer_ops I) (pf : profile) (v : subword_vocab I) (s : str),
(** The same is returned if the product fits. *)
@thm hinted_same_thm HintsThms hinted_same | forall (w : machine) {I : Type} (ops : indexer_ops I) (pf : profile) (v : subword_vocab I) (s : str),
@thm hinted_lookup_thm HintsThms hinted_lookup
@thm hinted_64_thm HintsThms hinted_64
@thm hinted_i686_thm HintsThms hinted_i686
(** Otherwise debug builds panic. *)
@thm hinted_overflow_thm HintsThms hinted_overflow | forall (w : machine) {I : Type} (ops : indexer_ops I) (pf : profile) (v : subword_vocab I) (s : str),
@thm made_dense_thm HintsThms made_dense
@thm hinted_ngrams_overflow_thm HintsThms hinted_ngrams_overflow | forall (w : machine) {I : Type} (ops : indexer_ops I) (pf : profile) (v : subword_vocab I) (s : str),
(** What [ngram_indices] asks for. *)
@thm hinted_ngrams_thm HintsThms hinted_ngrams | forall (w : machine) {I : Type} (ops : indexer_ops I) (pf : profile) (v : subword_vocab I) (s : str),
@thm ngram_items_count_thm HintsThms items_count
@thm subword_indices_count_thm HintsThms indices_count
(** Embeddings, queries and fastText files. *)
@thm hinted_embedding_thm HintsThms hinted_embedding | forall (w : machine) (W : w_size w <= two64) {Md S F : Type} (o : fops F) (SO : storage_ops F S) (pf : profile) (e : embeddings Md vocab_wrap S F), vocab_made pf (em_vocab e) -> vocab_fits w pf (em_vocab e) ->
@thm hinted_batch_thm HintsThms hinted_batch | forall (w : machine) (W : w_size w <= two64) {Md S F : Type} (o : fops F) (SO : storage_ops F S) (pf : profile) (e : embeddings Md vocab_wrap S F), vocab_made pf (em_vocab e) -> vocab_fits w pf (em_vocab e) ->
@thm hinted_queries_thm HintsThms hinted_queries | forall (w : machine) (W : w_size w <= two64) {Md S F : Type} (o : fops F) (SO : storage_ops F S) (pf : profile) (e : embeddings Md vocab_wrap S F), vocab_made pf (em_vocab e) -> vocab_fits w pf (em_vocab e) -> forall (view : S -> res (array2 F)),
@thm hinted_fasttext_sound_thm HintsThms hinted_fasttext_sound | forall (w : machine) (pf : profile) (T : toml_ops) (ct : ft_config -> option (toml_table T)) (lossy : bool),
@thm hinted_fasttext_thm HintsThms hinted_fasttext | forall (w : machine) (pf : profile) (T : toml_ops) (ct : ft_config -> option (toml_table T)) (lossy : bool),
@thm hinted_fasttext_64_thm HintsThms hinted_fasttext_64

(** The vocabulary of [P_WidthUse] with n-grams of 3 to [mx] characters. *)
Definition hx_vocab (w : machine) (pf : profile) (mx : N) : subword_vocab hash_indexer :=
  match w_sub_new w hash_ops pf P_WidthUse.ux_words 3 mx P_WidthUse.ux_ix default_bow default_eow with Ok v => v | _ => mkSub [] [] P_WidthUse.ux_ix [] [] 3 6 end.
(** A word of one letter has one n-gram of three characters. *)
Example hinted_same_ex : ix_made _ hash_ops (sv_ix (hx_vocab i686 Debug 6)) /\ fit_vocab i686 hash_ops Debug (hx_vocab i686 Debug 6) /\
  word_fits i686 Debug 3 6 (bracket (hx_vocab i686 Debug 6) [x61]) /\
  exists l, h_sub_subword_indices i686 hash_ops Debug (hx_vocab i686 Debug 6) [x61] = Ok (Some l) /\ lenN l = 1.
Proof.
  assert (ix_made _ hash_ops P_WidthUse.ux_ix) as M by (apply (im_hash 3); [discriminate|vm_compute; reflexivity]).
  split; [exact M|]. split.
  - exists 8. split; [vm_compute; reflexivity|]. split; [vm_compute; reflexivity|]. apply (ix_made_safe _ hash_ops _ Debug 8); [exact M|vm_compute; reflexivity].
  - split; [split; [right; split; vm_compute; reflexivity|vm_compute; discriminate]|]. eexists. split; vm_compute; reflexivity.
Qed.
Example hinted_64_ex : vocab_made Debug (VBucket (hx_vocab m64 Debug 4294967295)) /\ vocab_fits m64 Debug (VBucket (hx_vocab m64 Debug 4294967295)) /\
  (forall mn mx bow eow, vocab_range (VBucket (hx_vocab m64 Debug 4294967295)) = Some (mn, mx, bow, eow) -> mx < 4294967296 /\ chars (bow ++ [x61] ++ eow) < 268435456) /\
  exists l, v_idx (h_wrap_ops m64) Debug (VBucket (hx_vocab m64 Debug 4294967295)) [x61] = Ok (Some (Subwords l)).
Proof.
  split; [|split; [|split]].
  - apply (vm_bucket Debug P_WidthUse.ux_words 3 4294967295 P_WidthUse.ux_ix default_bow default_eow); [apply (im_hash 3); [discriminate|vm_compute; reflexivity]|vm_compute; reflexivity].
  - intros n H. vm_compute in H. injection H as <-. reflexivity.
  - intros mn mx bow eow H. vm_compute in H. injection H as <- <- <- <-. split; vm_compute; reflexivity.
  - eexists. vm_compute. reflexivity.
Qed.
(** With a limit of 2 GiB one n-gram of a vocabulary with lengths up to 100
    is found. *)
Example hinted_ngrams_ex : mw_limit i686 < w_size i686 /\ 1 <= mw_string i686 /\ (100 - 3 + 1) * chars (bracket (hx_vocab i686 Debug 100) [x61]) = 294 /\
  exists l, w_sub_ngram_indices i686 hash_ops Debug (hx_vocab i686 Debug 100) [x61] = Ok (Some l) /\
    h_sub_ngram_indices i686 hash_ops Debug (hx_vocab i686 Debug 100) [x61] = Ok (Some l) /\
    h_sub_ngram_indices (mkMachine 32 12 20 (295 * 36 - 1)) hash_ops Debug (hx_vocab i686 Debug 100) [x61] = Panic PCapacity.
Proof. split; [reflexivity|]. split; [discriminate|]. split; [reflexivity|]. eexists. split; [vm_compute; reflexivity|]. split; vm_compute; reflexivity. Qed.
Example hinted_fasttext_ex : exists e s', w_fasttext i686 Debug P_FastText.ft_T P_FastText.ft_table false (mkStream P_WidthUse.ux_fasttext 0) = (Ok e, s') /\
  (forall x, In x (sv_words (em_vocab e)) -> word_fits i686 Debug (sv_min (em_vocab e)) (sv_max (em_vocab e)) (bracket (em_vocab e) x)) /\ lenN (sv_words (em_vocab e)) = 2.
Proof.
  eexists. eexists. split; [vm_compute; reflexivity|]. split; [|reflexivity]. cbn [em_vocab sv_words sv_min sv_max].
  intros x [<-|[<-|[]]]; (split; [right; split; vm_compute; reflexivity|vm_compute; discriminate]).
Qed.

(** A vocabulary with n-grams of up to [2^32 - 1] characters is built on all
    machines.  On a 32-bit machine all its lookups with n-grams panic in
    debug builds. *)
Theorem hint_overflow_refuted : exists v, w_sub_new i686 hash_ops Debug P_WidthUse.ux_words 3 4294967295 P_WidthUse.ux_ix default_bow default_eow = Ok v /\
  (exists l, sub_idx hash_ops Debug v [x61] = Ok (Some (Subwords l)) /\ h_sub_idx m64 hash_ops Debug v [x61] = Ok (Some (Subwords l)) /\
             h_sub_idx i686 hash_ops Release v [x61] = Ok (Some (Subwords l))) /\
  h_sub_idx i686 hash_ops Debug v [x61] = Panic PArithOverflow.
Proof.
  eexists. split; [vm_compute; reflexivity|]. split; [|vm_compute; reflexivity]. eexists. split; [vm_compute; reflexivity|]. split; vm_compute; reflexivity.
Qed.
Print Assumptions hint_overflow_refuted.
(** A 64-bit machine needs more than half a terabyte for the n-grams of a
    word of one letter, of which there is one. *)
Theorem hint_memory_refuted : exists v, sub_new_with_boundaries hash_ops Release P_WidthUse.ux_words 3 4294967295 P_WidthUse.ux_ix default_bow default_eow = Ok v /\
  (exists l, sub_ngram_indices hash_ops Release v [x61] = Ok (Some l) /\ lenN l = 1) /\
  h_sub_ngram_indices (limited 549755813888) hash_ops Release v [x61] = Panic PCapacity.
Proof. eexists. split; [vm_compute; reflexivity|]. split; [eexists; split; vm_compute; reflexivity|vm_compute; reflexivity]. Qed.
Print Assumptions hint_memory_refuted.
(** Without overflow checks the product wraps on a 32-bit machine, and what
    is asked for has nothing to do with it: with three more lengths the n-grams
    are found. *)
Theorem hint_wrap_refuted : exists mx1 mx2, mx1 < mx2 /\ h_sub_ngram_indices i686 hash_ops Release (hx_vocab i686 Release mx1) [x61] = Panic PCapacity /\
  exists l, h_sub_ngram_indices i686 hash_ops Release (hx_vocab i686 Release mx2) [x61] = Ok (Some l).
Proof. exists 1431655767, 1431655770. split; [reflexivity|]. split; [vm_compute; reflexivity|]. eexists. vm_compute. reflexivity. Qed.
Print Assumptions hint_wrap_refuted.
(** A fastText file that 64-bit machines read. *)
Definition hx_fasttext : list byte := P_FastText.ft_ex_bytes 2 3 4294967295 [[x61]; [x62]] 0 P_FastText.ft_ex_rows.
Theorem hint_fasttext_refuted : exists e s', read_fasttext Debug P_FastText.ft_T P_FastText.ft_table false (mkStream hx_fasttext 0) = (Ok e, s') /\
  h_fasttext m64 Debug P_FastText.ft_T P_FastText.ft_table false (mkStream hx_fasttext 0) = (Ok e, s') /\
  h_fasttext i686 Release P_FastText.ft_T P_FastText.ft_table false (mkStream hx_fasttext 0) = (Ok e, s') /\
  fst (h_fasttext i686 Debug P_FastText.ft_T P_FastText.ft_table false (mkStream hx_fasttext 0)) = Panic PArithOverflow.
Proof. eexists. eexists. split; [vm_compute; reflexivity|]. split; [vm_compute; reflexivity|]. split; vm_compute; reflexivity. Qed.
Print Assumptions hint_fasttext_refuted.
