(** * Theorems about lookups, queries and other formats with pointers of other widths (C117). *)
From Coq Require Import Permutation.
From Verif Require Import Base BaseFacts Utf8 F32 Stream ChunkIO Subword Vocab VocabSpec Storage Embeddings Similarity EmbSpec ExplicitFacts TextIO FastText Width WidthThms WidthUse WidthUseThms.
From Verif Require P_File P_Width P_Memory P_Text P_FastText.
Local Open Scope N_scope.

(** Vocabularies that are built, and those that are read. *)
@thm width_built_thm WidthUseThms width_built
@thm width_lookup_thm WidthUseThms width_lookup
@thm width_vocab_len_thm WidthUseThms width_vocab_len
(** Embeddings. *)
@thm width_embedding_thm WidthUseThms width_embedding | forall (w : machine) (W : w_size w <= two64) {Md S F : Type} (o : fops F) (SO : storage_ops F S) (pf : profile) (e : embeddings Md vocab_wrap S F), vocab_made pf (em_vocab e) -> vocab_fits w pf (em_vocab e) ->
@thm width_embedding_into_thm WidthUseThms width_embedding_into | forall (w : machine) (W : w_size w <= two64) {Md S F : Type} (o : fops F) (SO : storage_ops F S) (pf : profile) (e : embeddings Md vocab_wrap S F), vocab_made pf (em_vocab e) -> vocab_fits w pf (em_vocab e) ->
@thm width_with_norm_thm WidthUseThms width_with_norm | forall (w : machine) (W : w_size w <= two64) {Md S F : Type} (o : fops F) (SO : storage_ops F S) (pf : profile) (e : embeddings Md vocab_wrap S F), vocab_made pf (em_vocab e) -> vocab_fits w pf (em_vocab e) ->
@thm width_batch_thm WidthUseThms width_batch | forall (w : machine) (W : w_size w <= two64) {Md S F : Type} (o : fops F) (SO : storage_ops F S) (pf : profile) (e : embeddings Md vocab_wrap S F), vocab_made pf (em_vocab e) -> vocab_fits w pf (em_vocab e) ->
@thm width_batch_into_thm WidthUseThms width_batch_into | forall (w : machine) (W : w_size w <= two64) {Md S F : Type} (o : fops F) (SO : storage_ops F S) (pf : profile) (e : embeddings Md vocab_wrap S F), vocab_made pf (em_vocab e) -> vocab_fits w pf (em_vocab e) ->
@thm width_queries_thm WidthUseThms width_queries | forall (w : machine) (W : w_size w <= two64) {Md S F : Type} (o : fops F) (SO : storage_ops F S) (pf : profile) (e : embeddings Md vocab_wrap S F), vocab_made pf (em_vocab e) -> vocab_fits w pf (em_vocab e) -> forall (view : S -> res (array2 F)),
@thm width_queries_large_thm WidthUseThms width_queries_large | forall (w : machine) (W : w_size w <= two64) {Md S F : Type} (o : fops F) (SO : storage_ops F S) (pf : profile) (e : embeddings Md vocab_wrap S F), vocab_made pf (em_vocab e) -> vocab_fits w pf (em_vocab e) -> forall (view : S -> res (array2 F)),
(** Conversion to explicit vocabularies. *)
@thm width_to_explicit_thm WidthUseThms width_to_explicit

(** Other formats: on 64-bit machines nothing changes. *)
@thm width_64_text_thm WidthUseThms width_64_text
@thm width_64_text_dims_thm WidthUseThms width_64_text_dims
@thm width_64_word2vec_thm WidthUseThms width_64_word2vec
@thm width_64_floret_thm WidthUseThms width_64_floret
@thm width_64_fasttext_thm WidthUseThms width_64_fasttext
(** What is read on a narrow machine is what 64-bit machines read. *)
@thm narrow_text_thm WidthUseThms narrow_text | forall (w : machine),
@thm narrow_text_dims_thm WidthUseThms narrow_text_dims | forall (w : machine) (N : narrow w),
@thm narrow_word2vec_thm WidthUseThms narrow_word2vec | forall (w : machine) (N : narrow w),
@thm narrow_floret_thm WidthUseThms narrow_floret | forall (w : machine) (N : narrow w),
@thm narrow_fasttext_thm WidthUseThms narrow_fasttext | forall (w : machine) (N : narrow w),
(** Files that fit. *)
@thm fits_text_thm WidthUseThms fits_text | forall (w : machine) (N : narrow w),
@thm fits_text_dims_thm WidthUseThms fits_text_dims | forall (w : machine) (N : narrow w),
@thm fits_word2vec_raw_thm WidthUseThms fits_word2vec_raw | forall (w : machine) (N : narrow w),
@thm fits_word2vec_thm WidthUseThms fits_word2vec | forall (w : machine) (N : narrow w),
@thm fits_floret_thm WidthUseThms fits_floret | forall (w : machine) (N : narrow w),
@thm fits_fasttext_thm WidthUseThms fits_fasttext | forall (w : machine) (N : narrow w),

(** A vocabulary with the words "ab" and "c" and 8 buckets, built on i686. *)
Definition ux_words : list str := [[x61; x62]; [x63]].
Definition ux_ix : hash_indexer := mkHashIx 3 7.
Definition ux_vocab : subword_vocab hash_indexer :=
  match w_sub_new i686 hash_ops Debug ux_words 3 6 ux_ix default_bow default_eow with Ok v => v | _ => mkSub [] [] ux_ix [] [] 3 6 end.
Example width_built_ex : w_size i686 <= two64 /\ ix_made _ hash_ops ux_ix /\ w_sub_new i686 hash_ops Debug ux_words 3 6 ux_ix default_bow default_eow = Ok ux_vocab /\
  sub_words_len ux_vocab = 2 /\ exists is, w_sub_idx i686 hash_ops Debug ux_vocab [x61] = Ok (Some (Subwords is)) /\ is <> [].
Proof.
  split; [vm_compute; discriminate|]. split; [apply (im_hash 3); [discriminate|vm_compute; reflexivity]|]. split; [vm_compute; reflexivity|]. split; [vm_compute; reflexivity|].
  eexists. split; [vm_compute; reflexivity|]. discriminate.
Qed.
(** Embeddings with this vocabulary. *)
Definition ux_storage : array2 f32 := mkA2 1 (repeat [f32_one] 10).
Definition ux_emb : embeddings unit vocab_wrap (array2 f32) f32 := mkEmb None ux_storage (VBucket ux_vocab) None.
Example width_embedding_ex : vocab_made Debug (em_vocab ux_emb) /\ vocab_fits i686 Debug (em_vocab ux_emb) /\
  emb_embedding f32_ops (w_wrap_ops i686) (nd_ops f32) Debug ux_emb [x63] = Ok (Some [f32_one]).
Proof.
  split.
  - apply (vm_bucket Debug ux_words 3 6 ux_ix default_bow default_eow); [apply (im_hash 3); [discriminate|vm_compute; reflexivity]|vm_compute; reflexivity].
  - split; [|vm_compute; reflexivity]. intros n H. vm_compute in H. injection H as <-. reflexivity.
Qed.
Example width_batch_ex : exists r, w_batch i686 f32_ops (w_wrap_ops i686) (nd_ops f32) Debug (fun l => l) ux_emb [[x63]; [x61; x62]] = Ok r.
Proof. eexists. vm_compute. reflexivity. Qed.
Example width_queries_ex : 2 * mw_string i686 <= mw_limit i686 /\ 2 * 24 <= isize_max /\
  exists r, w_word_similarity i686 f32_ops (w_wrap_ops i686) (nd_ops f32) (fun a => Ok a) Debug ux_emb [x63] 2 None = Ok (Some r) /\ lenN r = 1.
Proof. split; [vm_compute; discriminate|]. split; [vm_compute; discriminate|]. eexists. split; vm_compute; reflexivity. Qed.
Example width_to_explicit_ex : any_order (@rev (str * N)) /\ any_order (@rev (N * N)) /\ (forall n, sub_vocab_len hash_ops Debug ux_vocab = Ok n -> n < w_size i686) /\
  exists r, w_to_explicit (Md := unit) i686 hash_bucket_ops (nd_ops f32) Debug nd_clone_from_mapping (@rev _) (@rev _) ux_vocab ux_storage None = Ok r.
Proof.
  split; [intros l; apply Permutation_rev|]. split; [intros l; apply Permutation_rev|].
  split; [intros n H; vm_compute in H; injection H as <-; reflexivity|]. eexists. vm_compute. reflexivity.
Qed.
(** Files. *)
Example fits_text_ex : exists e s', 12 * lenN P_Memory.mx_text <= w_max i686 /\
  read_text_dims_raw (Md := unit) P_Memory.mx_numbers Debug false (mkStream P_Memory.mx_text 0) = (Ok e, s') /\
  w_text_dims_raw (Md := unit) i686 P_Memory.mx_numbers Debug false (mkStream P_Memory.mx_text 0) = (Ok e, s') /\ v_words simple_ops (em_vocab e) = [[x61]].
Proof. eexists. eexists. split; [vm_compute; discriminate|]. split; [vm_compute; reflexivity|]. split; vm_compute; reflexivity. Qed.
Example fits_word2vec_ex : exists e s', 12 * lenN P_Memory.mx_w2v <= w_max i686 /\ a2_cols (em_storage e) <= w_max i686 /\
  read_word2vec_raw (Md := unit) Debug false (mkStream P_Memory.mx_w2v 0) = (Ok e, s') /\
  w_word2vec_raw (Md := unit) i686 Debug false (mkStream P_Memory.mx_w2v 0) = (Ok e, s').
Proof. eexists. eexists. split; [vm_compute; discriminate|]. split; [|split; vm_compute; reflexivity]. vm_compute. discriminate. Qed.
Definition ux_floret (seed : N) : list byte := P_Text.floret_file 1 2 3 6 2 seed P_Text.ex_row.
Definition ux_read_floret (w : machine) (l : list byte) := w_floret_text (Md := unit) w P_Text.ex_P Debug (mkStream l 0).
Example fits_floret_ex : exists e s', 12 * lenN (ux_floret 7) <= w_max i686 /\
  (forall l s1, repeat_m 6 (read_number x20) (mkStream (ux_floret 7) 0) = (Ok l, s1) -> Forall (fun n => n < w_size i686) l) /\
  read_floret_text (Md := unit) P_Text.ex_P Debug (mkStream (ux_floret 7) 0) = (Ok e, s') /\ ux_read_floret i686 (ux_floret 7) = (Ok e, s').
Proof.
  eexists. eexists. split; [vm_compute; discriminate|]. split; [|split; vm_compute; reflexivity].
  intros l s1 H. vm_compute in H. injection H as <- _. repeat constructor.
Qed.
Definition ux_fasttext : list byte := P_FastText.ft_ex_bytes 2 3 6 [[x61]; [x62]] 0 P_FastText.ft_ex_rows.
Example fits_fasttext_ex : exists e s', 12 * lenN ux_fasttext <= w_max i686 /\ a2_nrows (em_storage e) <= w_max i686 /\ a2_cols (em_storage e) <= w_max i686 /\
  read_fasttext Debug P_FastText.ft_T P_FastText.ft_table false (mkStream ux_fasttext 0) = (Ok e, s') /\
  w_fasttext i686 Debug P_FastText.ft_T P_FastText.ft_table false (mkStream ux_fasttext 0) = (Ok e, s').
Proof.
  eexists. eexists. split; [vm_compute; discriminate|]. split; [|split; [|split; vm_compute; reflexivity]]; vm_compute; discriminate.
Qed.

(** A seed of more than 32 bits is reduced on 64-bit machines, and an error on
    32-bit machines. *)
Theorem narrow_seed_refuted : exists l e s', read_floret_text (Md := unit) P_Text.ex_P Debug (mkStream l 0) = (Ok e, s') /\
  fst (ux_read_floret i686 l) = Err EFormat.
Proof. exists (ux_floret 4294967303). eexists. eexists. split; vm_compute; reflexivity. Qed.
Print Assumptions narrow_seed_refuted.
(** A matrix without rows: "0 5000000000". *)
Theorem narrow_empty_refuted : exists l e s', read_word2vec_raw (Md := unit) Debug false (mkStream l 0) = (Ok e, s') /\ a2_nrows (em_storage e) = 0 /\
  fst (w_word2vec_raw (Md := unit) i686 Debug false (mkStream l 0)) = Err EFormat.
Proof.
  exists [x30; x20; x35; x30; x30; x30; x30; x30; x30; x30; x30; x30; x0a]. eexists. eexists. split; [vm_compute; reflexivity|]. split; vm_compute; reflexivity.
Qed.
Print Assumptions narrow_empty_refuted.
(** The condition on the indexer: with [2^64] buckets and without overflow
    checks the bound is zero; the vocabulary is built on both machines, and
    the rows of n-grams are not the same. *)
Theorem narrow_exponent_refuted : exists ix v s, hash_indexer_new 64 = Ok ix /\ w_sub_new i686 hash_ops Release ux_words 3 6 ix default_bow default_eow = Ok v /\
  sub_new_with_boundaries hash_ops Release ux_words 3 6 ix default_bow default_eow = Ok v /\
  w_sub_vocab_len i686 hash_ops Release v = Ok 2 /\ w_sub_idx i686 hash_ops Release v s <> sub_idx hash_ops Release v s.
Proof.
  eexists. eexists. exists [x61]. split; [vm_compute; reflexivity|]. split; [vm_compute; reflexivity|]. split; [vm_compute; reflexivity|]. split; [vm_compute; reflexivity|].
  vm_compute. discriminate.
Qed.
Print Assumptions narrow_exponent_refuted.
