(** * Theorems about lookups, queries and other formats with pointers of other widths (C117). *)
From Coq Require Import Permutation.
From Verif Require Import Base BaseFacts Utf8 F32 Stream ChunkIO Subword Vocab VocabSpec Storage Embeddings Similarity EmbSpec ExplicitFacts TextIO FastText Width WidthThms WidthUse WidthUseThms.
From Verif Require P_File P_Width P_Memory P_Text P_FastText.
Local Open Scope N_scope.

(** Vocabularies that are built, and those that are read. *)
Theorem width_built_thm : forall w (I : Type) (ops : indexer_ops I) pf words mn mx ix bow eow v,
  w_size w <= two64 -> ix_made I ops ix ->
  w_sub_new w ops pf words mn mx ix bow eow = Ok v ->
  sub_new_with_boundaries ops pf words mn mx ix bow eow = Ok v /\ w_sub_vocab_len w ops pf v = sub_vocab_len ops pf v /\
  forall s, w_sub_idx w ops pf v s = sub_idx ops pf v s /\ w_sub_subword_indices w ops pf v s = sub_subword_indices ops pf v s /\
    w_sub_ngram_indices w ops pf v s = sub_ngram_indices ops pf v s.
Proof. exact (@WidthUseThms.width_built). Qed.
Print Assumptions width_built_thm.
Theorem width_lookup_thm : forall w pf v s,
  w_size w <= two64 -> vocab_made pf v -> vocab_fits w pf v -> v_idx (w_wrap_ops w) pf v s = v_idx wrap_ops pf v s.
Proof. exact (@WidthUseThms.width_lookup). Qed.
Print Assumptions width_lookup_thm.
Theorem width_vocab_len_thm : forall w pf v,
  w_size w <= two64 -> vocab_made pf v -> vocab_fits w pf v -> v_vocab_len (w_wrap_ops w) pf v = v_vocab_len wrap_ops pf v.
Proof. exact (@WidthUseThms.width_vocab_len). Qed.
Print Assumptions width_vocab_len_thm.
(** Embeddings. *)
Theorem width_embedding_thm : forall (w : machine) (W : w_size w <= two64) {Md S F : Type} (o : fops F) (SO : storage_ops F S) (pf : profile) (e : embeddings Md vocab_wrap S F), vocab_made pf (em_vocab e) -> vocab_fits w pf (em_vocab e) ->
  forall s,
  emb_embedding o (w_wrap_ops w) SO pf e s = emb_embedding o wrap_ops SO pf e s.
Proof. exact (@WidthUseThms.width_embedding). Qed.
Print Assumptions width_embedding_thm.
Theorem width_embedding_into_thm : forall (w : machine) (W : w_size w <= two64) {Md S F : Type} (o : fops F) (SO : storage_ops F S) (pf : profile) (e : embeddings Md vocab_wrap S F), vocab_made pf (em_vocab e) -> vocab_fits w pf (em_vocab e) ->
  forall s t,
  emb_embedding_into o (w_wrap_ops w) SO pf e s t = emb_embedding_into o wrap_ops SO pf e s t.
Proof. exact (@WidthUseThms.width_embedding_into). Qed.
Print Assumptions width_embedding_into_thm.
Theorem width_with_norm_thm : forall (w : machine) (W : w_size w <= two64) {Md S F : Type} (o : fops F) (SO : storage_ops F S) (pf : profile) (e : embeddings Md vocab_wrap S F), vocab_made pf (em_vocab e) -> vocab_fits w pf (em_vocab e) ->
  forall s,
  emb_with_norm o (w_wrap_ops w) SO pf e s = emb_with_norm o wrap_ops SO pf e s.
Proof. exact (@WidthUseThms.width_with_norm). Qed.
Print Assumptions width_with_norm_thm.
Theorem width_batch_thm : forall (w : machine) (W : w_size w <= two64) {Md S F : Type} (o : fops F) (SO : storage_ops F S) (pf : profile) (e : embeddings Md vocab_wrap S F), vocab_made pf (em_vocab e) -> vocab_fits w pf (em_vocab e) ->
  forall order words,
  w_max w <= isize_max -> mw_limit w <= isize_max ->
    w_batch w o (w_wrap_ops w) SO pf order e words =
      if (nonzero (lenN words) * nonzero (emb_dims SO e) <=? w_max w) && (lenN words * emb_dims SO e * 4 <=? mw_limit w)
      then emb_batch o wrap_ops SO pf order e words else Panic PCapacity.
Proof. exact (@WidthUseThms.width_batch). Qed.
Print Assumptions width_batch_thm.
Theorem width_batch_into_thm : forall (w : machine) (W : w_size w <= two64) {Md S F : Type} (o : fops F) (SO : storage_ops F S) (pf : profile) (e : embeddings Md vocab_wrap S F), vocab_made pf (em_vocab e) -> vocab_fits w pf (em_vocab e) ->
  forall order words out,
  emb_batch_into o (w_wrap_ops w) SO pf order e words out = emb_batch_into o wrap_ops SO pf order e words out.
Proof. exact (@WidthUseThms.width_batch_into). Qed.
Print Assumptions width_batch_into_thm.
Theorem width_queries_thm : forall (w : machine) (W : w_size w <= two64) {Md S F : Type} (o : fops F) (SO : storage_ops F S) (pf : profile) (e : embeddings Md vocab_wrap S F), vocab_made pf (em_vocab e) -> vocab_fits w pf (em_vocab e) -> forall (view : S -> res (array2 F)),
  forall limit bs,
  limit * mw_string w <= mw_limit w -> limit * 24 <= isize_max ->
    (forall s, w_word_similarity w o (w_wrap_ops w) SO view pf e s limit bs = word_similarity o wrap_ops SO view pf e s limit bs) /\
    (forall q skip, w_embedding_similarity_masked w o (w_wrap_ops w) view e q limit skip bs = embedding_similarity_masked o wrap_ops view e q limit skip bs) /\
    (forall q r, w_analogy_masked w o (w_wrap_ops w) SO view pf e q r limit bs = analogy_masked o wrap_ops SO view pf e q r limit bs).
Proof. exact (@WidthUseThms.width_queries). Qed.
Print Assumptions width_queries_thm.
Theorem width_queries_large_thm : forall (w : machine) (W : w_size w <= two64) {Md S F : Type} (o : fops F) (SO : storage_ops F S) (pf : profile) (e : embeddings Md vocab_wrap S F), vocab_made pf (em_vocab e) -> vocab_fits w pf (em_vocab e) -> forall (view : S -> res (array2 F)),
  forall limit bs,
  mw_limit w < limit * mw_string w ->
    (forall s, w_word_similarity w o (w_wrap_ops w) SO view pf e s limit bs =
       match emb_embedding o wrap_ops SO pf e s with Ok None => Ok None | Ok (Some _) => Panic PCapacity | Err er => Err er | Panic p => Panic p end) /\
    (forall q skip, w_embedding_similarity_masked w o (w_wrap_ops w) view e q limit skip bs = Panic PCapacity) /\
    (forall q r, w_analogy_masked w o (w_wrap_ops w) SO view pf e q r limit bs =
       match lookup_words3 o wrap_ops SO pf e q with Ok (inr p) => Ok (inr p) | Ok (inl _) => Panic PCapacity | Err er => Err er | Panic p => Panic p end).
Proof. exact (@WidthUseThms.width_queries_large). Qed.
Print Assumptions width_queries_large_thm.
(** Conversion to explicit vocabularies. *)
Theorem width_to_explicit_thm : forall w (Md I S S' F : Type) (B : bucket_ops I) (SO' : storage_ops F S') pf (clone : S -> list N -> res S') order order' words mn mx ix bow eow v
  (s : S) (norms : option (list F)),
  w_size w <= two64 -> any_order order -> any_order order' -> ix_made I (bk_ops B) ix ->
  sub_new_with_boundaries (bk_ops B) pf words mn mx ix bow eow = Ok v -> (forall n, sub_vocab_len (bk_ops B) pf v = Ok n -> n < w_size w) ->
  w_to_explicit (Md := Md) w B SO' pf clone order order' v s norms = to_explicit_impl B SO' pf clone order order' v s norms.
Proof. exact (@WidthUseThms.width_to_explicit). Qed.
Print Assumptions width_to_explicit_thm.

(** Other formats: on 64-bit machines nothing changes. *)
Theorem width_64_text_thm : forall P pf (Md : Type) lossy s,
  3 * lenN (s_rest s) <= isize_max ->
  w_text_raw (Md := Md) m64 P pf lossy s = read_text_raw P pf lossy s /\ w_text (Md := Md) m64 P pf lossy s = read_text P pf lossy s.
Proof. exact (@WidthUseThms.width_64_text). Qed.
Print Assumptions width_64_text_thm.
Theorem width_64_text_dims_thm : forall P pf (Md : Type) lossy s,
  3 * lenN (s_rest s) <= isize_max ->
  w_text_dims_raw (Md := Md) m64 P pf lossy s = read_text_dims_raw P pf lossy s /\ w_text_dims (Md := Md) m64 P pf lossy s = read_text_dims P pf lossy s.
Proof. exact (@WidthUseThms.width_64_text_dims). Qed.
Print Assumptions width_64_text_dims_thm.
Theorem width_64_word2vec_thm : forall pf (Md : Type) lossy s,
  w_word2vec_raw (Md := Md) m64 pf lossy s = read_word2vec_raw pf lossy s /\ w_word2vec (Md := Md) m64 pf lossy s = read_word2vec pf lossy s.
Proof. exact (@WidthUseThms.width_64_word2vec). Qed.
Print Assumptions width_64_word2vec_thm.
Theorem width_64_floret_thm : forall P pf (Md : Type) s,
  3 * lenN (s_rest s) <= isize_max -> w_floret_text (Md := Md) m64 P pf s = read_floret_text P pf s.
Proof. exact (@WidthUseThms.width_64_floret). Qed.
Print Assumptions width_64_floret_thm.
Theorem width_64_fasttext_thm : forall pf T ct lossy s,
  w_fasttext m64 pf T ct lossy s = read_fasttext pf T ct lossy s.
Proof. exact (@WidthUseThms.width_64_fasttext). Qed.
Print Assumptions width_64_fasttext_thm.
(** What is read on a narrow machine is what 64-bit machines read. *)
Theorem narrow_text_thm : forall (w : machine),
  forall P pf (Md : Type) lossy s e s',
  (w_text_raw (Md := Md) w P pf lossy s = (Ok e, s') -> read_text_raw P pf lossy s = (Ok e, s')) /\
    (w_text (Md := Md) w P pf lossy s = (Ok e, s') -> read_text P pf lossy s = (Ok e, s')).
Proof. exact (@WidthUseThms.narrow_text). Qed.
Print Assumptions narrow_text_thm.
Theorem narrow_text_dims_thm : forall (w : machine) (N : narrow w),
  forall P pf (Md : Type) lossy s e s',
  (w_text_dims_raw (Md := Md) w P pf lossy s = (Ok e, s') -> read_text_dims_raw P pf lossy s = (Ok e, s')) /\
    (w_text_dims (Md := Md) w P pf lossy s = (Ok e, s') -> read_text_dims P pf lossy s = (Ok e, s')).
Proof. exact (@WidthUseThms.narrow_text_dims). Qed.
Print Assumptions narrow_text_dims_thm.
Theorem narrow_word2vec_thm : forall (w : machine) (N : narrow w),
  forall pf (Md : Type) lossy s e s',
  (w_word2vec_raw (Md := Md) w pf lossy s = (Ok e, s') -> read_word2vec_raw pf lossy s = (Ok e, s')) /\
    (w_word2vec (Md := Md) w pf lossy s = (Ok e, s') -> read_word2vec pf lossy s = (Ok e, s')).
Proof. exact (@WidthUseThms.narrow_word2vec). Qed.
Print Assumptions narrow_word2vec_thm.
Theorem narrow_floret_thm : forall (w : machine) (N : narrow w),
  forall P pf (Md : Type) s e s',
  w_floret_text (Md := Md) w P pf s = (Ok e, s') -> read_floret_text P pf s = (Ok e, s').
Proof. exact (@WidthUseThms.narrow_floret). Qed.
Print Assumptions narrow_floret_thm.
Theorem narrow_fasttext_thm : forall (w : machine) (N : narrow w),
  forall pf T ct lossy s e s',
  w_fasttext w pf T ct lossy s = (Ok e, s') -> read_fasttext pf T ct lossy s = (Ok e, s').
Proof. exact (@WidthUseThms.narrow_fasttext). Qed.
Print Assumptions narrow_fasttext_thm.
(** Files that fit. *)
Theorem fits_text_thm : forall (w : machine) (N : narrow w),
  forall P pf (Md : Type) lossy s e s',
  12 * lenN (s_rest s) <= w_max w ->
    (read_text_raw (Md := Md) P pf lossy s = (Ok e, s') -> w_text_raw w P pf lossy s = (Ok e, s')) /\
    (read_text (Md := Md) P pf lossy s = (Ok e, s') -> w_text w P pf lossy s = (Ok e, s')).
Proof. exact (@WidthUseThms.fits_text). Qed.
Print Assumptions fits_text_thm.
Theorem fits_text_dims_thm : forall (w : machine) (N : narrow w),
  forall P pf (Md : Type) lossy s e s',
  12 * lenN (s_rest s) <= w_max w ->
    (read_text_dims_raw (Md := Md) P pf lossy s = (Ok e, s') -> w_text_dims_raw w P pf lossy s = (Ok e, s')) /\
    (read_text_dims (Md := Md) P pf lossy s = (Ok e, s') -> w_text_dims w P pf lossy s = (Ok e, s')).
Proof. exact (@WidthUseThms.fits_text_dims). Qed.
Print Assumptions fits_text_dims_thm.
Theorem fits_word2vec_raw_thm : forall (w : machine) (N : narrow w),
  forall pf (Md : Type) lossy s e s',
  12 * lenN (s_rest s) <= w_max w -> a2_cols (em_storage e) <= w_max w ->
    read_word2vec_raw (Md := Md) pf lossy s = (Ok e, s') -> w_word2vec_raw w pf lossy s = (Ok e, s').
Proof. exact (@WidthUseThms.fits_word2vec_raw). Qed.
Print Assumptions fits_word2vec_raw_thm.
Theorem fits_word2vec_thm : forall (w : machine) (N : narrow w),
  forall pf (Md : Type) lossy s e s',
  12 * lenN (s_rest s) <= w_max w -> a2_cols (em_storage e) <= w_max w ->
    read_word2vec (Md := Md) pf lossy s = (Ok e, s') -> w_word2vec w pf lossy s = (Ok e, s').
Proof. exact (@WidthUseThms.fits_word2vec). Qed.
Print Assumptions fits_word2vec_thm.
Theorem fits_floret_thm : forall (w : machine) (N : narrow w),
  forall P pf (Md : Type) s e s',
  12 * lenN (s_rest s) <= w_max w ->
    (forall l s1, repeat_m 6 (read_number x20) s = (Ok l, s1) -> Forall (fun n => n < w_size w) l) ->
    read_floret_text (Md := Md) P pf s = (Ok e, s') -> w_floret_text w P pf s = (Ok e, s').
Proof. exact (@WidthUseThms.fits_floret). Qed.
Print Assumptions fits_floret_thm.
Theorem fits_fasttext_thm : forall (w : machine) (N : narrow w),
  forall pf T ct lossy s e s',
  12 * lenN (s_rest s) <= w_max w -> a2_nrows (em_storage e) <= w_max w -> a2_cols (em_storage e) <= w_max w ->
    read_fasttext pf T ct lossy s = (Ok e, s') -> w_fasttext w pf T ct lossy s = (Ok e, s').
Proof. exact (@WidthUseThms.fits_fasttext). Qed.
Print Assumptions fits_fasttext_thm.

(** A vocabulary with the words "ab" and "c" and 8 buckets, built on i686. *)
Definition ux_words : list str := [[x61; x62]; [x63]].
Definition ux_ix : hash_indexer := mkHashIx 3 7.
Definition ux_vocab : subword_vocab hash_indexer :=
  match w_sub_new i686 hash_ops Debug ux_words 3 6 ux_ix default_bow default_eow with Ok v => v | _ => mkSub [] [] ux_ix [] [] 3 6 end.
Example width_built_ex : w_size i686 <= two64 /\ ix_made _ hash_ops ux_ix /\ w_sub_new i686 hash_ops Debug ux_words 3 6 ux_ix default_bow default_eow = Ok ux_vocab /\
  sub_words_len ux_vocab = 2 /\ exists is, w_sub_idx i686 hash_ops Debug ux_vocab [x61] = Ok (Some (Subwords is)) /\ is <> [].
Proof.
  split; [vm_compute; discriminate|]. split; [apply (im_hash 3); [discriminate|vm_compute; reflexivity]|]. split; [vm_compute; reflexivity|]. split; [vm_compute; reflexivity|].
  eexists. split; [vm_compute; reflexivity|]. discriminate.
Qed.
(** Embeddings with this vocabulary. *)
Definition ux_storage : array2 f32 := mkA2 1 (repeat [f32_one] 10).
Definition ux_emb : embeddings unit vocab_wrap (array2 f32) f32 := mkEmb None ux_storage (VBucket ux_vocab) None.
Example width_embedding_ex : vocab_made Debug (em_vocab ux_emb) /\ vocab_fits i686 Debug (em_vocab ux_emb) /\
  emb_embedding f32_ops (w_wrap_ops i686) (nd_ops f32) Debug ux_emb [x63] = Ok (Some [f32_one]).
Proof.
  split.
  - apply (vm_bucket Debug ux_words 3 6 ux_ix default_bow default_eow); [apply (im_hash 3); [discriminate|vm_compute; reflexivity]|vm_compute; reflexivity].
  - split; [|vm_compute; reflexivity]. intros n H. vm_compute in H. injection H as <-. reflexivity.
Qed.
Example width_batch_ex : exists r, w_batch i686 f32_ops (w_wrap_ops i686) (nd_ops f32) Debug (fun l => l) ux_emb [[x63]; [x61; x62]] = Ok r.
Proof. eexists. vm_compute. reflexivity. Qed.
Example width_queries_ex : 2 * mw_string i686 <= mw_limit i686 /\ 2 * 24 <= isize_max /\
  exists r, w_word_similarity i686 f32_ops (w_wrap_ops i686) (nd_ops f32) (fun a => Ok a) Debug ux_emb [x63] 2 None = Ok (Some r) /\ lenN r = 1.
Proof. split; [vm_compute; discriminate|]. split; [vm_compute; discriminate|]. eexists. split; vm_compute; reflexivity. Qed.
Example width_to_explicit_ex : any_order (@rev (str * N)) /\ any_order (@rev (N * N)) /\ (forall n, sub_vocab_len hash_ops Debug ux_vocab = Ok n -> n < w_size i686) /\
  exists r, w_to_explicit (Md := unit) i686 hash_bucket_ops (nd_ops f32) Debug nd_clone_from_mapping (@rev _) (@rev _) ux_vocab ux_storage None = Ok r.
Proof.
  split; [intros l; apply Permutation_rev|]. split; [intros l; apply Permutation_rev|].
  split; [intros n H; vm_compute in H; injection H as <-; reflexivity|]. eexists. vm_compute. reflexivity.
Qed.
(** Files. *)
Example fits_text_ex : exists e s', 12 * lenN P_Memory.mx_text <= w_max i686 /\
  read_text_dims_raw (Md := unit) P_Memory.mx_numbers Debug false (mkStream P_Memory.mx_text 0) = (Ok e, s') /\
  w_text_dims_raw (Md := unit) i686 P_Memory.mx_numbers Debug false (mkStream P_Memory.mx_text 0) = (Ok e, s') /\ v_words simple_ops (em_vocab e) = [[x61]].
Proof. eexists. eexists. split; [vm_compute; discriminate|]. split; [vm_compute; reflexivity|]. split; vm_compute; reflexivity. Qed.
Example fits_word2vec_ex : exists e s', 12 * lenN P_Memory.mx_w2v <= w_max i686 /\ a2_cols (em_storage e) <= w_max i686 /\
  read_word2vec_raw (Md := unit) Debug false (mkStream P_Memory.mx_w2v 0) = (Ok e, s') /\
  w_word2vec_raw (Md := unit) i686 Debug false (mkStream P_Memory.mx_w2v 0) = (Ok e, s').
Proof. eexists. eexists. split; [vm_compute; discriminate|]. split; [|split; vm_compute; reflexivity]. vm_compute. discriminate. Qed.
Definition ux_floret (seed : N) : list byte := P_Text.floret_file 1 2 3 6 2 seed P_Text.ex_row.
Definition ux_read_floret (w : machine) (l : list byte) := w_floret_text (Md := unit) w P_Text.ex_P Debug (mkStream l 0).
Example fits_floret_ex : exists e s', 12 * lenN (ux_floret 7) <= w_max i686 /\
  (forall l s1, repeat_m 6 (read_number x20) (mkStream (ux_floret 7) 0) = (Ok l, s1) -> Forall (fun n => n < w_size i686) l) /\
  read_floret_text (Md := unit) P_Text.ex_P Debug (mkStream (ux_floret 7) 0) = (Ok e, s') /\ ux_read_floret i686 (ux_floret 7) = (Ok e, s').
Proof.
  eexists. eexists. split; [vm_compute; discriminate|]. split; [|split; vm_compute; reflexivity].
  intros l s1 H. vm_compute in H. injection H as <- _. repeat constructor.
Qed.
Definition ux_fasttext : list byte := P_FastText.ft_ex_bytes 2 3 6 [[x61]; [x62]] 0 P_FastText.ft_ex_rows.
Example fits_fasttext_ex : exists e s', 12 * lenN ux_fasttext <= w_max i686 /\ a2_nrows (em_storage e) <= w_max i686 /\ a2_cols (em_storage e) <= w_max i686 /\
  read_fasttext Debug P_FastText.ft_T P_FastText.ft_table false (mkStream ux_fasttext 0) = (Ok e, s') /\
  w_fasttext i686 Debug P_FastText.ft_T P_FastText.ft_table false (mkStream ux_fasttext 0) = (Ok e, s').
Proof.
  eexists. eexists. split; [vm_compute; discriminate|]. split; [|split; [|split; vm_compute; reflexivity]]; vm_compute; discriminate.
Qed.

(** A seed of more than 32 bits is reduced on 64-bit machines, and an error on
    32-bit machines. *)
Theorem narrow_seed_refuted : exists l e s', read_floret_text (Md := unit) P_Text.ex_P Debug (mkStream l 0) = (Ok e, s') /\
  fst (ux_read_floret i686 l) = Err EFormat.
Proof. exists (ux_floret 4294967303). eexists. eexists. split; vm_compute; reflexivity. Qed.
Print Assumptions narrow_seed_refuted.
(** A matrix without rows: "0 5000000000". *)
Theorem narrow_empty_refuted : exists l e s', read_word2vec_raw (Md := unit) Debug false (mkStream l 0) = (Ok e, s') /\ a2_nrows (em_storage e) = 0 /\
  fst (w_word2vec_raw (Md := unit) i686 Debug false (mkStream l 0)) = Err EFormat.
Proof.
  exists [x30; x20; x35; x30; x30; x30; x30; x30; x30; x30; x30; x30; x0a]. eexists. eexists. split; [vm_compute; reflexivity|]. split; vm_compute; reflexivity.
Qed.
Print Assumptions narrow_empty_refuted.
(** The condition on the indexer: with [2^64] buckets and without overflow
    checks the bound is zero; the vocabulary is built on both machines, and
    the rows of n-grams are not the same. *)
Theorem narrow_exponent_refuted : exists ix v s, hash_indexer_new 64 = Ok ix /\ w_sub_new i686 hash_ops Release ux_words 3 6 ix default_bow default_eow = Ok v /\
  sub_new_with_boundaries hash_ops Release ux_words 3 6 ix default_bow default_eow = Ok v /\
  w_sub_vocab_len i686 hash_ops Release v = Ok 2 /\ w_sub_idx i686 hash_ops Release v s <> sub_idx hash_ops Release v s.
Proof.
  eexists. eexists. exists [x61]. split; [vm_compute; reflexivity|]. split; [vm_compute; reflexivity|]. split; [vm_compute; reflexivity|]. split; [vm_compute; reflexivity|].
  vm_compute. discriminate.
Qed.
Print Assumptions narrow_exponent_refuted.
