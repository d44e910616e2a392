(** * Writing with pointers of any width: proofs (C120). *)
From Coq Require Import Lia.
From Verif Require Import Base BaseFacts Utf8 Stream StreamFacts F32 ChunkIO ChunkFacts Subword Vocab Storage Embeddings FileSpec VocabFacts StorageFacts FileFacts FileThms FileExact ReadFacts FastTextThms Width WidthThms WidthUse WidthWrite.
Local Open Scope N_scope.

(** ** What the embeddings take in memory *)

(** Strings: the structures and the bytes. *)
Fixpoint strings_bytes (size : N) (l : list str) : N :=
  match l with [] => 0 | s :: l => size + lenN s + strings_bytes size l end.
(** The words (the hash table has another copy), n-grams with their indices
    in a hash table, and boundaries. *)
Definition vocab_bytes (w : machine) (v : vocab_wrap) : N :=
  match v with
  | VSimple v => strings_bytes (mw_string w) (sm_words v)
  | VFastText v => strings_bytes (mw_string w) (sv_words v)
  | VBucket v => strings_bytes (mw_string w) (sv_words v)
  | VExplicit v =>
      strings_bytes (mw_string w) (sv_words v)
      + strings_bytes (mw_string w) (ei_ngrams (sv_ix v)) + strings_bytes (mw_pair w) (ei_ngrams (sv_ix v))
  | VFloret v => lenN (sv_bow v) + lenN (sv_eow v)
  end.
Definition pq_bytes (q : pq f32) : N :=
  match pq_proj q with Some _ => pq_rl q * pq_rl q * 4 | None => 0 end + pq_ql q * pq_nc q * pq_sub q * 4.
Definition norms_bytes (ns : option (list f32)) : N := match ns with Some l => lenN l * 4 | None => 0 end.
(** Arrays, and the memory maps. *)
Definition storage_bytes (s : storage_wrap) : N :=
  match s with
  | SNdArray a => a2_nrows a * a2_cols a * 4
  | SQuantized q => pq_bytes (qa_pq q) + norms_bytes (qa_norms q) + a2_nrows (qa_codes q) * pq_ql (qa_pq q)
  | SMmapArray m => mm_len (ma_map m)
  | SMmapQuantized q => pq_bytes (mq_pq q) + norms_bytes (mq_norms q) + mm_len (mq_map q)
  end.
Definition memory_bytes (w : machine) {T} (e : emb T) : N :=
  vocab_bytes w (em_vocab e) + storage_bytes (em_storage e) + norms_bytes (em_norms e).

(** What holds for every storage: quantizers have a centroid (asserted by
    [Pq::new]), there is a norm for each vector, and a map has no more bytes
    than its length. *)
Definition has_centroid (s : storage_wrap) : Prop :=
  match s with
  | SQuantized q => pq_ql (qa_pq q) * pq_nc (qa_pq q) * pq_sub (qa_pq q) <> 0
  | SMmapQuantized q => pq_ql (mq_pq q) * pq_nc (mq_pq q) * pq_sub (mq_pq q) <> 0
  | _ => True
  end.
Definition storage_sound (s : storage_wrap) : Prop :=
  has_centroid s /\
  match s with
  | SNdArray _ => True
  | SQuantized q => forall ns, qa_norms q = Some ns -> a2_nrows (qa_codes q) <= lenN ns
  | SMmapArray m => lenN (mm_bytes (ma_map m)) <= mm_len (ma_map m)
  | SMmapQuantized q => forall ns, mq_norms q = Some ns -> mmq_nrows q <= lenN ns
  end.

(** The length of a quantized matrix without padding. *)
Definition quantized_size (q : pq f32) (rows : N) (norms : option (list f32)) : N :=
  48 + b2n (is_some (pq_proj q)) * pq_rl q * pq_rl q * 4 + pq_ql q * pq_nc q * (pq_rl q / pq_ql q) * 4 + b2n (is_some norms) * rows * 4 + rows * pq_ql q.
Lemma quantized_size_least q rows norms : 48 <= quantized_size q rows norms.
Proof. unfold quantized_size. rewrite <- !N.add_assoc. apply N.le_add_r. Qed.
Lemma centroids_fit q rows norms x : pq_ql q * pq_nc q * pq_sub q <> 0 -> quantized_size q rows norms + 4 < x -> pq_ql q * pq_nc q < x.
Proof.
  intros A H. unfold quantized_size in H. assert (pq_rl q / pq_ql q = pq_sub q) as R.
  { unfold pq_rl. rewrite N.mul_comm, N.div_mul by nia. reflexivity. }
  rewrite R in H. assert (forall a c, a * c <> 0 -> a <= a * c * 4) as M.
  { intros a c Z. destruct (N.eq_dec c 0) as [->|C]; [lia|]. rewrite <- N.mul_assoc. rewrite <- (N.mul_1_r a) at 1. apply N.mul_le_mono_l. lia. }
  apply M in A.
  set (y := pq_ql q * pq_nc q * pq_sub q * 4) in *. set (z := b2n (is_some norms) * rows * 4) in *. set (u := rows * pq_ql q) in *.
  set (t := b2n (is_some (pq_proj q)) * pq_rl q * pq_rl q * 4) in *. lia.
Qed.
Lemma quantized_size_len q codes norms offset : qa_chunk_len_ q codes norms offset = quantized_size q (a2_nrows codes) norms + padding4 (offset + 4).
Proof. unfold qa_chunk_len_, quantized_size. lia. Qed.

Section Arith.
  Context (w : machine) (pf : profile).

  Lemma w_add_ok a b : a + b < w_size w -> w_add w pf a b = Ok (a + b).
  Proof. intros H. unfold w_add. apply N.ltb_lt in H. rewrite H. reflexivity. Qed.
  Lemma w_mul_ok a b : a * b < w_size w -> w_mul w pf a b = Ok (a * b).
  Proof. intros H. unfold w_mul. apply N.ltb_lt in H. rewrite H. reflexivity. Qed.
  Lemma sum_from a l : fold_left N.add l a = a + fold_left N.add l 0.
  Proof. revert a. induction l as [|x l IH]; intros a; cbn [fold_left]; [lia|]. rewrite IH, (IH (0 + x)). lia. Qed.
  Lemma w_sum_ok l : fold_left N.add l 0 < w_size w -> w_sum w pf l = Ok (fold_left N.add l 0).
  Proof.
    unfold w_sum. generalize 0. induction l as [|x l IH]; intros a; cbn [fold_left rbind]; [reflexivity|].
    intros H. rewrite w_add_ok by (rewrite sum_from in H; lia). apply IH. exact H.
  Qed.
  Lemma w_sum_of_ok {A} (f : A -> res N) (g : A -> N) l : (forall x, g x < w_size w -> f x = Ok (g x)) -> fold_left (fun a x => a + g x) l 0 < w_size w ->
    w_sum_of w pf f l = Ok (fold_left (fun a x => a + g x) l 0).
  Proof.
    intros F. unfold w_sum_of. generalize 0.
    assert (forall l a, a <= fold_left (fun a x => a + g x) l a) as LE.
    { clear. induction l as [|x l IH]; intros a; cbn [fold_left]; [lia|]. specialize (IH (a + g x)). lia. }
    induction l as [|x l IH]; intros a; cbn [fold_left rbind]; [reflexivity|].
    intros H. pose proof (LE l (a + g x)). rewrite F by lia. cbn [rbind]. rewrite w_add_ok by lia. apply IH. exact H.
  Qed.
  Lemma w_item_ok x : lenN x + 4 < w_size w -> w_item_len w pf x = Ok (lenN x + 4).
  Proof. intros H. unfold w_item_len. rewrite w_sum_ok; [|cbn [fold_left]; exact H]. reflexivity. Qed.
  Lemma w_ngram_ok x : lenN x + 4 + 8 < w_size w -> w_ngram_len w pf x = Ok (lenN x + 4 + 8).
  Proof. intros H. unfold w_ngram_len. rewrite w_sum_ok; [|cbn [fold_left]; exact H]. reflexivity. Qed.
  Lemma w_prod_ok x y z : x * y < w_size w -> x * y * z < w_size w -> w_prod w pf x [y; z] = Ok (x * y * z).
  Proof. intros A B. unfold w_prod. cbn [fold_left rbind]. rewrite (w_mul_ok x y A). cbn [rbind]. apply w_mul_ok, B. Qed.
  Lemma w_prod3_ok x y z u : x * y < w_size w -> x * y * z < w_size w -> x * y * z * u < w_size w -> w_prod w pf x [y; z; u] = Ok (x * y * z * u).
  Proof. intros A B C. unfold w_prod. cbn [fold_left rbind]. rewrite (w_mul_ok x y A). cbn [rbind]. rewrite w_mul_ok by exact B. cbn [rbind]. apply w_mul_ok, C. Qed.
  Lemma remaining_ok n : 12 <= n -> w_remaining pf n = Ok (n - 12).
  Proof. intros H. unfold w_remaining. apply N.leb_le in H. rewrite H. reflexivity. Qed.
  Lemma add64_fits a b : a + b < two64 -> add64 pf a b = Ok (a + b).
  Proof. intros H. unfold add64. apply N.ltb_lt in H. rewrite H. reflexivity. Qed.

  Hypothesis W : w_size w <= two64.

  Lemma padded_ok n offset : n + 4 < w_size w -> w_padded pf n offset = Ok (n + padding4 (offset + 4)).
  Proof. intros H. pose proof (padding4_range (offset + 4)). apply add64_fits. lia. Qed.

  (** ** Lengths *)
  Lemma header_len_ok ids : header_chunk_len ids 0 < w_size w -> w_header_len w pf ids = Ok (header_chunk_len ids 0).
  Proof.
    unfold header_chunk_len, w_header_len. intros H. rewrite w_mul_ok by lia. cbn [rbind]. rewrite w_sum_ok; cbn [fold_left]; [f_equal|]; change (lenN magic) with 4 in *; lia.
  Qed.
  Lemma metadata_len_ok T t : metadata_chunk_len T t 0 < w_size w -> w_metadata_len w pf T t = Ok (metadata_chunk_len T t 0).
  Proof. unfold metadata_chunk_len, w_metadata_len. intros H. rewrite w_sum_ok; cbn [fold_left]; [f_equal|]; lia. Qed.
  Lemma norms_len_ok ns offset : norms_chunk_len ns 0 + 4 < w_size w -> w_norms_len w pf ns offset = Ok (norms_chunk_len ns offset).
  Proof.
    unfold norms_chunk_len, w_norms_len. intros H. rewrite w_mul_ok by lia. cbn [rbind]. rewrite w_sum_ok; cbn [fold_left]; [|lia]. cbn [rbind].
    rewrite padded_ok by lia. f_equal; lia.
  Qed.
  Lemma items_len_ok l : items_len l < w_size w -> w_sum_of w pf (w_item_len w pf) l = Ok (items_len l).
  Proof. intros H. apply (w_sum_of_ok (A := str) _ (fun x => lenN x + 4)); [apply w_item_ok|exact H]. Qed.
  Lemma vocab_len_ok v offset : vocab_wrap_chunk_len v offset < w_size w -> w_vocab_wrap_len w pf v = Ok (vocab_wrap_chunk_len v offset).
  Proof.
    destruct v as [v|v|v|v|v]; cbn [vocab_wrap_chunk_len w_vocab_wrap_len]; intros H.
    - unfold simple_chunk_len, w_simple_len in *. rewrite items_len_ok by lia. cbn [rbind]. rewrite w_sum_ok; cbn [fold_left]; [f_equal|]; lia.
    - unfold explicit_chunk_len, w_explicit_len in *. rewrite items_len_ok by lia. cbn [rbind].
      pose proof (w_sum_of_ok (A := str) (w_ngram_len w pf) (fun x => lenN x + 4 + 8) (ei_ngrams (sv_ix v)) w_ngram_ok) as G. cbv beta in G. unfold str in *. rewrite G by lia. cbn [rbind]. rewrite w_sum_ok; cbn [fold_left]; [f_equal|]; lia.
    - unfold bucket_chunk_len, w_bucketed_len in *. rewrite items_len_ok by lia. cbn [rbind]. rewrite w_sum_ok; cbn [fold_left]; [f_equal|]; lia.
    - unfold floret_chunk_len, w_floret_len in *. rewrite w_sum_ok; cbn [fold_left]; [f_equal|]; lia.
    - unfold bucket_chunk_len, w_bucketed_len in *. rewrite items_len_ok by lia. cbn [rbind]. rewrite w_sum_ok; cbn [fold_left]; [f_equal|]; lia.
  Qed.
  Lemma vocab_len_least v offset : 12 <= vocab_wrap_chunk_len v offset.
  Proof. destruct v; cbn [vocab_wrap_chunk_len]; [unfold simple_chunk_len|unfold explicit_chunk_len|unfold bucket_chunk_len|unfold floret_chunk_len|unfold bucket_chunk_len]; lia. Qed.

  Lemma matrix_len_ok r c offset : 28 + r * c * 4 + 4 < w_size w -> w_matrix_len w pf r c offset = Ok (4 + 8 + 8 + 4 + 4 + r * c * 4 + padding4 (offset + 4)).
  Proof.
    intros H. unfold w_matrix_len. rewrite w_prod_ok by lia. cbn [rbind]. rewrite w_sum_ok; cbn [fold_left]; [|lia]. cbn [rbind]. rewrite padded_ok by lia. f_equal; lia.
  Qed.
  Lemma le4 x : x <= x * 4. Proof. lia. Qed.
  Lemma quantized_len_ok q rows norms offset : pq_ql q * pq_nc q * pq_sub q <> 0 -> quantized_size q rows norms + 4 < w_size w ->
    w_quantized_len w pf q rows norms offset = Ok (quantized_size q rows norms + padding4 (offset + 4)).
  Proof.
    intros A H. apply centroids_fit with (rows := rows) (norms := norms) (x := w_size w) in A; [|exact H]. unfold quantized_size in *. unfold w_quantized_len.
    assert (b2n (is_some (pq_proj q)) * pq_rl q <= b2n (is_some (pq_proj q)) * pq_rl q * pq_rl q * 4) as H1 by (destruct (is_some (pq_proj q)); cbn [b2n]; nia).
    assert (b2n (is_some (pq_proj q)) * pq_rl q * pq_rl q <= b2n (is_some (pq_proj q)) * pq_rl q * pq_rl q * 4) as H2 by apply le4.
    assert (pq_ql q * pq_nc q * (pq_rl q / pq_ql q) <= pq_ql q * pq_nc q * (pq_rl q / pq_ql q) * 4) as H3 by apply le4.
    assert (b2n (is_some norms) * rows <= b2n (is_some norms) * rows * 4) as H4 by apply le4.
    set (p1 := b2n (is_some (pq_proj q)) * pq_rl q * pq_rl q * 4) in *. set (p2 := pq_ql q * pq_nc q * (pq_rl q / pq_ql q) * 4) in *.
    set (p3 := b2n (is_some norms) * rows * 4) in *. set (p4 := rows * pq_ql q) in *.
    rewrite w_mul_ok by lia. cbn [rbind].
    rewrite (w_prod3_ok _ (pq_rl q)) by (fold p1; lia). cbn [rbind]. fold p1.
    rewrite w_prod3_ok by (fold p2; lia). cbn [rbind]. fold p2. rewrite w_prod_ok by (fold p3; lia). cbn [rbind]. fold p3.
    unfold w_prod. cbn [fold_left rbind]. rewrite w_mul_ok by (fold p4; lia). cbn [rbind]. fold p4.
    rewrite w_sum_ok; cbn [fold_left]; [|lia]. cbn [rbind]. rewrite padded_ok by lia. f_equal; lia.
  Qed.

  (** ** Writers *)
  Lemma write_rest_ok (n : N) r k : r = Ok n -> 12 <= n -> w_write_rest pf r k = write_u64 (n - (4 + 8)) k.
  Proof. intros -> H. unfold w_write_rest. unfold bind at 1, lift at 1. unfold bind at 1, lift at 1. rewrite remaining_ok by exact H. reflexivity. Qed.
  Lemma same_norms ns k : norms_chunk_len ns 0 + 4 < w_size w -> w_write_norms w pf ns k = write_norms ns k.
  Proof.
    intros H. unfold w_write_norms, write_norms. apply bind_eta. intros _ k1. apply bind_eta. intros pos k2. apply bind_ext.
    - apply write_rest_ok; [apply norms_len_ok, H|unfold norms_chunk_len; lia].
    - reflexivity.
  Qed.
  Lemma same_vocab v k : vocab_wrap_chunk_len v 0 < w_size w -> w_write_vocab w pf v k = write_vocab_wrap v k.
  Proof.
    intros H. pose proof (vocab_len_ok v 0 H) as E. pose proof (vocab_len_least v 0) as L.
    destruct v as [v|v|v|v|v]; cbn [w_write_vocab write_vocab_wrap vocab_wrap_chunk_len w_vocab_wrap_len] in *.
    - unfold w_write_simple, write_simple. apply bind_eta. intros _ k1.
      match goal with |- _ = bind wposition ?f k1 => change (bind wposition f k1) with (f (k_pos k1) k1) end. cbv beta. apply bind_ext; [|reflexivity].
      exact (write_rest_ok _ _ _ E L).
    - unfold w_write_explicit, write_explicit. rewrite E. unfold bind at 1, lift at 1. rewrite remaining_ok by exact L. reflexivity.
    - unfold w_write_bucketed, write_bucketed. apply bind_eta. intros _ k1. apply bind_ext; [|reflexivity]. exact (write_rest_ok _ _ _ E L).
    - unfold w_write_floret, write_floret. rewrite E. unfold bind at 1, lift at 1. rewrite remaining_ok by exact L. reflexivity.
    - unfold w_write_bucketed, write_bucketed. apply bind_eta. intros _ k1. apply bind_ext; [|reflexivity]. exact (write_rest_ok _ _ _ E L).
  Qed.
  Lemma same_ndarray a k : 32 + a2_nrows a * a2_cols a * 4 < w_size w -> w_write_ndarray w pf a k = write_ndarray a k.
  Proof.
    intros H. unfold w_write_ndarray, write_ndarray. apply bind_eta. intros _ k1. apply bind_eta. intros pos k2. apply bind_ext; [|reflexivity].
    apply write_rest_ok; [unfold nd_chunk_len; rewrite matrix_len_ok by lia; reflexivity|unfold nd_chunk_len; lia].
  Qed.
  Lemma same_quantized q k : pq_ql (qa_pq q) * pq_nc (qa_pq q) * pq_sub (qa_pq q) <> 0 -> quantized_size (qa_pq q) (a2_nrows (qa_codes q)) (qa_norms q) + 4 < w_size w ->
    w_write_quantized w pf q k = write_quantized q k.
  Proof.
    intros A H. unfold w_write_quantized, write_quantized. cbv zeta. apply bind_eta. intros _ k1. apply bind_eta. intros pos k2. apply bind_ext; [|reflexivity].
    apply write_rest_ok; [unfold qa_chunk_len; rewrite quantized_size_len; apply quantized_len_ok; assumption|].
    unfold qa_chunk_len. rewrite quantized_size_len. pose proof (quantized_size_least (qa_pq q) (a2_nrows (qa_codes q)) (qa_norms q)). lia.
  Qed.
End Arith.

(** ** Storage *)
Definition storage_fits (w : machine) (s : storage_wrap) : Prop :=
  match s with
  | SNdArray a => 32 + a2_nrows a * a2_cols a * 4 < w_size w
  | SQuantized q => pq_ql (qa_pq q) * pq_nc (qa_pq q) * pq_sub (qa_pq q) <> 0 /\ quantized_size (qa_pq q) (a2_nrows (qa_codes q)) (qa_norms q) + 4 < w_size w
  | SMmapArray m => forall a, mma_view m = Ok a -> 32 + ma_rows m * ma_cols m * 4 < w_size w
  | SMmapQuantized q => pq_ql (mq_pq q) * pq_nc (mq_pq q) * pq_sub (mq_pq q) <> 0 /\ quantized_size (mq_pq q) (mmq_nrows q) (mq_norms q) + 4 < w_size w
  end.
Lemma view_shape m a : mma_view m = Ok a -> a2_nrows a = ma_rows m /\ a2_cols a = ma_cols m /\ ma_rows m * (ma_cols m * 4) <= lenN (mm_bytes (ma_map m)).
Proof.
  unfold mma_view, mm_read. destruct (N.leb_spec (0 + ma_rows m * (ma_cols m * 4)) (lenN (mm_bytes (ma_map m)))) as [L|]; [|discriminate]. cbn [rbind]. intros H. injection H as <-.
  cbn [a2_cols a2_rows]. unfold a2_nrows. cbn [a2_rows]. rewrite unflattenN_lenN. repeat split. lia.
Qed.
Lemma codes_shape m q : mmq_to_quantized m = Ok q -> qa_pq q = mq_pq m /\ a2_nrows (qa_codes q) = mmq_nrows m /\ qa_norms q = mq_norms m.
Proof.
  unfold mmq_to_quantized, mmq_codes. destruct (mm_read _ _ _) as [bs| |]; [|discriminate|discriminate]. cbn [rbind]. intros H. injection H as <-.
  cbn [qa_pq qa_codes qa_norms]. unfold a2_nrows. cbn [a2_rows]. rewrite unflattenN_lenN. auto.
Qed.
Lemma same_storage w pf s k : w_size w <= two64 -> storage_fits w s -> w_write_storage w pf s k = write_storage_wrap s k.
Proof.
  intros W H. destruct s as [a|q|m|m]; cbn [w_write_storage write_storage_wrap storage_fits] in *.
  - apply same_ndarray; assumption.
  - apply same_quantized; tauto.
  - unfold write_mmap_ndarray. unfold bind, lift. destruct (mma_view m) as [a| |] eqn:E; [|reflexivity|reflexivity]. apply same_ndarray; [exact W|].
    destruct (view_shape m a E) as (-> & -> & _). exact (H a eq_refl).
  - unfold write_mmap_quantized. unfold bind, lift. destruct (mmq_to_quantized m) as [q| |] eqn:E; [|reflexivity|reflexivity].
    destruct (codes_shape m q E) as (E1 & E2 & E3). apply same_quantized; [exact W|rewrite E1; tauto|rewrite E1, E2, E3; tauto].
Qed.
Lemma mapped_quantized_len m offset : swrap_chunk_len (SMmapQuantized m) offset = quantized_size (mq_pq m) (mmq_nrows m) (mq_norms m) + padding4 (offset + 4).
Proof.
  cbn [swrap_chunk_len]. rewrite quantized_size_len. unfold a2_nrows. cbn [a2_rows]. unfold lenN. rewrite repeat_length, N2Nat.id. reflexivity.
Qed.
Lemma length_fits w s : has_centroid s -> swrap_chunk_len s 0 + 4 <= w_size w -> storage_fits w s.
Proof.
  intros A H. pose proof (padding4_range (0 + 4)) as P. destruct s as [a|q|m|m]; cbn [storage_fits has_centroid] in *.
  - cbn [swrap_chunk_len] in H. unfold nd_chunk_len in H. lia.
  - cbn [swrap_chunk_len] in H. unfold qa_chunk_len in H. rewrite quantized_size_len in H. split; [exact A|lia].
  - cbn [swrap_chunk_len] in H. intros _ _. lia.
  - rewrite mapped_quantized_len in H. split; [exact A|lia].
Qed.
Lemma storage_len_ok w pf s offset : w_size w <= two64 -> has_centroid s -> swrap_chunk_len s 0 + 4 <= w_size w ->
  w_storage_wrap_len w pf s offset = Ok (swrap_chunk_len s offset).
Proof.
  intros W A H. pose proof (padding4_range (0 + 4)) as P. destruct s as [a|q|m|m]; cbn [w_storage_wrap_len has_centroid] in *.
  - cbn [swrap_chunk_len] in *. unfold nd_chunk_len in *. apply matrix_len_ok; [exact W|lia].
  - cbn [swrap_chunk_len] in *. unfold qa_chunk_len in *. rewrite quantized_size_len in *. apply quantized_len_ok; [exact W|exact A|lia].
  - cbn [swrap_chunk_len] in *. apply matrix_len_ok; [exact W|lia].
  - rewrite mapped_quantized_len in *. apply quantized_len_ok; [exact W|exact A|lia].
Qed.

(** ** Files *)
Section Files.
  Context (w : machine) (pf : profile) (T : toml_ops) (W : w_size w <= two64).

  Lemma same_parts (e : emb T) k : vocab_wrap_chunk_len (em_vocab e) 0 < w_size w -> storage_fits w (em_storage e) ->
    (forall ns, em_norms e = Some ns -> norms_chunk_len ns 0 + 4 < w_size w) -> w_write_file w pf T e k = write_file T e k.
  Proof.
    intros V S N. unfold w_write_file, write_file, write_embeddings. apply bind_eta. intros _ k1. apply bind_eta. intros _ k2.
    apply bind_ext; [apply same_vocab; assumption|]. intros _ k3 _. apply bind_ext; [apply same_storage; assumption|]. intros _ k4 _.
    destruct (em_norms e) as [ns|]; [|reflexivity]. apply same_norms; [exact W|]. apply N. reflexivity.
  Qed.
  (** The parts of the length. *)
  Lemma file_parts (e : emb T) offset : let ids := emb_chunks T vwrap_chunk swrap_chunk e in
    let m := match em_meta e with Some t => metadata_chunk_len T t 0 | None => 0 end in
    let v := vocab_wrap_chunk_len (em_vocab e) 0 in
    let s := swrap_chunk_len (em_storage e) (offset + (header_chunk_len ids 0 + m + v)) in
    write_file_len T e offset = header_chunk_len ids 0 + m + v + s +
      match em_norms e with Some ns => norms_chunk_len ns (offset + (header_chunk_len ids 0 + m + v + s)) | None => 0 end.
  Proof.
    cbv zeta. unfold write_file_len, write_embeddings_len. cbv zeta. cbn [ck_len vwrap_chunk swrap_chunk].
    assert (forall i, vocab_wrap_chunk_len (em_vocab e) i = vocab_wrap_chunk_len (em_vocab e) 0) as VI by (intros i; destruct (em_vocab e); reflexivity).
    rewrite VI. rewrite N.add_0_l. unfold header_chunk_len, metadata_chunk_len. reflexivity.
  Qed.
  Lemma swrap_len_pad s i j : swrap_chunk_len s i <= swrap_chunk_len s j + 3.
  Proof.
    pose proof (padding4_range (i + 4)). pose proof (padding4_range (j + 4)). destruct s as [a|q|m|m].
    - cbn [swrap_chunk_len]. unfold nd_chunk_len. lia.
    - cbn [swrap_chunk_len]. unfold qa_chunk_len. rewrite !quantized_size_len. lia.
    - cbn [swrap_chunk_len]. lia.
    - rewrite !mapped_quantized_len. lia.
  Qed.
  Lemma norms_len_pad ns i j : norms_chunk_len ns i <= norms_chunk_len ns j + 3.
  Proof. pose proof (padding4_range (i + 4)). pose proof (padding4_range (j + 4)). unfold norms_chunk_len. lia. Qed.

  (** Files that are smaller than the address space. *)
  Lemma length_write (e : emb T) offset k : has_centroid (em_storage e) -> write_file_len T e offset + 8 <= w_size w ->
    w_write_file w pf T e k = write_file T e k.
  Proof.
    intros A H. rewrite file_parts in H. cbv zeta in H.
    set (h := header_chunk_len _ 0) in *. set (m := match em_meta e with Some _ => _ | None => _ end) in *.
    match type of H with context [swrap_chunk_len ?s ?i] => pose proof (swrap_len_pad s 0 i) as SP; set (sl := swrap_chunk_len s i) in * end.
    apply same_parts.
    - lia.
    - apply length_fits; [exact A|lia].
    - intros ns E. rewrite E in H. match type of H with context [norms_chunk_len ns ?i] => pose proof (norms_len_pad ns 0 i) end.
      assert (1 <= h) by (unfold h, header_chunk_len; lia). lia.
  Qed.
  Lemma length_len (e : emb T) offset : has_centroid (em_storage e) -> write_file_len T e offset + 8 <= w_size w ->
    w_write_file_len w pf T e offset = Ok (write_file_len T e offset).
  Proof.
    intros A H. rewrite file_parts in *. cbv zeta in *.
    set (h := header_chunk_len _ 0) in *. set (m := match em_meta e with Some _ => _ | None => _ end) in *. set (v := vocab_wrap_chunk_len (em_vocab e) 0) in *.
    match type of H with context [swrap_chunk_len ?s ?i] => pose proof (swrap_len_pad s 0 i) as SP; set (sl := swrap_chunk_len s i) in * end.
    unfold w_write_file_len. rewrite header_len_ok by first [assumption | fold h; lia]. cbn [rbind]. fold h. rewrite N.add_comm in H. rewrite add64_fits by lia. cbn [rbind]. rewrite N.add_0_l.
    assert (match em_meta e with Some t => w_metadata_len w pf T t | None => Ok 0 end = Ok m) as EM.
    { unfold m. destruct (em_meta e) as [t|]; [|reflexivity]. apply metadata_len_ok; first [assumption | lia]. }
    rewrite EM. cbn [rbind]. rewrite add64_fits by lia. cbn [rbind]. rewrite (vocab_len_ok w pf W (em_vocab e) 0) by first [assumption | fold v; lia]. cbn [rbind]. fold v. rewrite add64_fits by lia. cbn [rbind].
    rewrite storage_len_ok by first [assumption | lia]. fold sl. cbn [rbind]. rewrite add64_fits by lia. cbn [rbind].
    destruct (em_norms e) as [ns|]; [|cbn [rbind]; apply add64_fits; lia].
    match type of H with context [norms_chunk_len ns ?i] => pose proof (norms_len_pad ns 0 i) end.
    assert (1 <= h) by (unfold h, header_chunk_len; lia). rewrite norms_len_ok by first [assumption | lia]. cbn [rbind]. apply add64_fits. lia.
  Qed.
End Files.

(** ** Embeddings that are in memory *)
Lemma strings_items size l : 4 <= size -> items_len l <= strings_bytes size l.
Proof.
  intros S. unfold items_len. assert (forall l a, fold_left (fun a w => a + (lenN w + 4)) l a <= a + strings_bytes size l) as H.
  { clear l. induction l as [|x l IH]; intros a; cbn [fold_left strings_bytes]; [lia|]. specialize (IH (a + (lenN x + 4))). lia. }
  specialize (H l 0). lia.
Qed.
Lemma strings_ngrams size size2 l : 12 <= size + size2 -> fold_left (fun a g => a + (lenN g + 4 + 8)) l 0 <= strings_bytes size l + strings_bytes size2 l.
Proof.
  intros S. assert (forall l a, fold_left (fun a g => a + (lenN g + 4 + 8)) l a <= a + (strings_bytes size l + strings_bytes size2 l)) as H.
  { clear l. induction l as [|x l IH]; intros a; cbn [fold_left strings_bytes]; [lia|]. specialize (IH (a + (lenN x + 4 + 8))). lia. }
  specialize (H l 0). lia.
Qed.
Lemma vocab_bytes_len w v : 4 <= mw_string w -> 8 <= mw_pair w -> vocab_wrap_chunk_len v 0 <= 64 + vocab_bytes w v.
Proof.
  intros A B. destruct v as [v|v|v|v|v]; cbn [vocab_wrap_chunk_len vocab_bytes].
  - unfold simple_chunk_len. pose proof (strings_items _ (sm_words v) A). lia.
  - unfold explicit_chunk_len. pose proof (strings_items _ (sv_words v) A). pose proof (strings_ngrams (mw_string w) (mw_pair w) (ei_ngrams (sv_ix v)) ltac:(lia)). lia.
  - unfold bucket_chunk_len. pose proof (strings_items _ (sv_words v) A). lia.
  - unfold floret_chunk_len. lia.
  - unfold bucket_chunk_len. pose proof (strings_items _ (sv_words v) A). lia.
Qed.
Lemma pq_bytes_size q rows norms : (forall ns, norms = Some ns -> rows <= lenN ns) ->
  quantized_size q rows norms <= 48 + pq_bytes q + norms_bytes norms + rows * pq_ql q.
Proof.
  intros N. unfold quantized_size, pq_bytes.
  assert (b2n (is_some (pq_proj q)) * pq_rl q * pq_rl q * 4 = match pq_proj q with Some _ => pq_rl q * pq_rl q * 4 | None => 0 end) as -> by (destruct (pq_proj q); cbn [is_some b2n]; lia).
  assert (b2n (is_some norms) * rows * 4 <= norms_bytes norms) by (destruct norms as [ns|]; cbn [is_some b2n norms_bytes]; [specialize (N ns eq_refl)|]; lia).
  assert (pq_rl q / pq_ql q <= pq_sub q) as R.
  { unfold pq_rl. destruct (N.eq_dec (pq_ql q) 0) as [->|Z]; [cbn; lia|]. rewrite N.mul_comm, N.div_mul by exact Z. lia. }
  apply (N.mul_le_mono_l _ _ (pq_ql q * pq_nc q)) in R. lia.
Qed.
Lemma sound_fits w s : storage_sound s -> storage_bytes s + 64 <= w_size w -> storage_fits w s.
Proof.
  intros [A N] H. destruct s as [a|q|m|m]; cbn [has_centroid storage_bytes storage_fits] in *.
  - lia.
  - split; [exact A|]. pose proof (pq_bytes_size (qa_pq q) _ _ N). lia.
  - intros a E. apply view_shape in E as (_ & _ & E). lia.
  - split; [exact A|]. pose proof (pq_bytes_size (mq_pq m) _ _ N).
    assert (mmq_nrows m * pq_ql (mq_pq m) <= mm_len (mq_map m)).
    { unfold mmq_nrows. destruct (N.eq_dec (pq_ql (mq_pq m)) 0) as [->|Z]; [lia|]. rewrite N.mul_comm. apply N.mul_div_le, Z. }
    lia.
Qed.
Lemma memory_write w pf T (e : emb T) k : w_size w <= two64 -> 4 <= mw_string w -> 8 <= mw_pair w -> storage_sound (em_storage e) ->
  memory_bytes w e + 128 <= w_size w -> w_write_file w pf T e k = write_file T e k.
Proof.
  intros W A B S H. unfold memory_bytes in H. apply same_parts; [exact W| | |].
  - pose proof (vocab_bytes_len w (em_vocab e) A B). lia.
  - apply sound_fits; [exact S|lia].
  - intros ns E. rewrite E in H. cbn [norms_bytes] in H. unfold norms_chunk_len. pose proof (padding4_range (0 + 4)). lia.
Qed.

(** ** What is read on the machine *)
Lemma w_pq_inv w s n q has s' : w_pq w s = (Ok (n, q, has), s') -> pq_ql q * pq_nc q * pq_sub q <> 0.
Proof.
  unfold w_pq. intros H. minv H as y1 Y1. minv H as y2 Y2. minv H as y3 Y3. minv H as y4 Y4. minv H as y5 Y5. minv H as y6 Y6. minv H as n1 X6. minv H as u7 X7. minv H as u8 X8. minv H as u9 X9. minv H as pos X10. minv H as u11 X11. minv H as pr X12.
  minv H as u13 X13. minv H as data X14. minv H as q0 X15. apply ret_inv in H as [E _]. injection E as _ <- _. apply lift_inv in X15 as [X15 _].
  pose proof (pq_new_inv _ _ _ _ _ _ X15) as ->. unfold pq_new in X15. apply rbind_Ok_inv in X15 as (u & R & _). apply rassert_Ok in R. cbn [pq_ql pq_nc pq_sub].
  intros Z. rewrite Z in R. discriminate.
Qed.
Lemma w_qnorms_inv w has n s ns s' : w_quantized_norms w has n s = (Ok ns, s') -> forall l, ns = Some l -> lenN l = n.
Proof.
  unfold w_quantized_norms. intros H l E. subst ns. destruct has; [|apply ret_inv in H as [H _]; discriminate]. minv H as u X. minv H as l' Y.
  apply ret_inv in H as [H _]. injection H as <-. unfold read_f32s in Y. minv Y as bs Z. apply ret_inv in Y as [<- _].
  apply read_exact_inv in Z as (_ & L & _). rewrite f32s_of_bytes_lenN, L. rewrite N.mul_comm, N.div_mul by lia. reflexivity.
Qed.
Lemma w_mul_le w pf a b c : w_mul w pf a b = Ok c -> c <= a * b.
Proof.
  unfold w_mul. destruct (N.ltb_spec (a * b) (w_size w)) as [L|L]; [intros H; injection H as <-; lia|]. destruct pf; [discriminate|]. intros H. injection H as <-.
  apply N.mod_le. unfold w_size. apply N.pow_nonzero. lia.
Qed.
Lemma w_storage_sound w s st s' : w_storage w s = (Ok st, s') -> storage_sound st.
Proof.
  unfold w_storage. intros H. minv H as id X. destruct id; try discriminate; minv H as a Y; apply ret_inv in H as [<- _].
  - split; exact Logic.I.
  - unfold w_quantized in Y. minv Y as u X1. minv Y as u2 X2. minv Y as r X3. destruct r as [[n q] has]. minv Y as ns X4. minv Y as u5 X5. minv Y as data X6. apply ret_inv in Y as [<- _].
    split; cbn [has_centroid qa_pq qa_norms qa_codes]; [exact (w_pq_inv _ _ _ _ _ _ X3)|]. intros l E. rewrite (w_qnorms_inv _ _ _ _ _ _ X4 l E).
    unfold a2_nrows. cbn [a2_rows]. rewrite unflattenN_lenN. apply N.le_refl.
Qed.
Lemma w_map_len w len s m s' : w_map w len s = (Ok m, s') -> mm_len m = len /\ lenN (mm_bytes m) <= len.
Proof.
  unfold w_map. destruct (len <=? w_max w); [|discriminate]. intros H. injection H as <- _. cbn [mm_len mm_bytes]. split; [reflexivity|]. unfold takeN, lenN. rewrite firstn_length. lia.
Qed.
Lemma w_mmap_storage_sound w pf s st s' : w_mmap_storage w pf s = (Ok st, s') -> storage_sound st.
Proof.
  unfold w_mmap_storage. intros H. minv H as id X. destruct id; try discriminate; minv H as a Y; apply ret_inv in H as [<- _].
  - unfold w_mmap_ndarray in Y. minv Y as y1 Y1. minv Y as y2 Y2. minv Y as y3 Y3. minv Y as y4 Y4. minv Y as y5 Y5. minv Y as y6 Y6. minv Y as y7 Y7. minv Y as y8 Y8. minv Y as size X8. minv Y as len X9. minv Y as map X10. minv Y as u X11. apply ret_inv in Y as [<- _].
    split; [exact Logic.I|]. cbn [ma_map]. apply w_map_len in X10 as [-> L]. exact L.
  - unfold w_mmap_quantized in Y. minv Y as u X1. minv Y as u2 X2. minv Y as r X3. destruct r as [[n q] has]. minv Y as ns X4. minv Y as len X5. minv Y as map X6. minv Y as u7 X7. apply ret_inv in Y as [<- _].
    split; cbn [has_centroid mq_pq mq_norms]; [exact (w_pq_inv _ _ _ _ _ _ X3)|]. intros l E. rewrite (w_qnorms_inv _ _ _ _ _ _ X4 l E).
    unfold mmq_nrows. cbn [mq_map mq_pq]. apply w_map_len in X6 as [-> _]. apply lift_inv in X5 as [X5 _]. apply w_mul_le in X5.
    pose proof (w_pq_inv _ _ _ _ _ _ X3) as Z. apply N.div_le_upper_bound; [nia|]. rewrite N.mul_comm. exact X5.
Qed.
Lemma w_file_storage w b T {V S} (rv : reader V) (rs : reader S) s e s' : w_file w b T rv rs s = (Ok e, s') -> exists t t', rs t = (Ok (em_storage e), t').
Proof.
  unfold w_file. intros H. minv H as ids X. destruct ids as [|id ids]; [discriminate|]. minv H as md X1. minv H as v X2. minv H as st X3. minv H as ns X4. apply ret_inv in H as [<- _].
  cbn [em_storage]. eauto.
Qed.
(** Whatever was read or mapped on a machine is written there as on 64-bit
    machines. *)
Lemma read_write w b pf pf' T s e s' k : w_size w <= two64 -> 4 <= mw_string w -> 8 <= mw_pair w ->
  w_read w b T pf s = (Ok e, s') \/ w_mmap w b T pf s = (Ok e, s') ->
  memory_bytes w e + 128 <= w_size w -> w_write_file w pf' T e k = write_file T e k.
Proof.
  intros W A B H M. apply memory_write; auto.
  destruct H as [H|H]; apply w_file_storage in H as (t & t' & H); [exact (w_storage_sound _ _ _ _ H)|exact (w_mmap_storage_sound _ _ _ _ _ H)].
Qed.

(** ** Files that move between machines *)
Lemma reads_stream {A} (m : reader A) f a pos tail : reads m f a -> m (mkStream (f pos ++ tail) pos) = (Ok a, mkStream tail (pos + lenN (f pos))).
Proof. intros H. apply H. Qed.
Lemma w_norms_nil w pos : exists er s', w_norms w (mkStream [] pos) = (Err er, s').
Proof. do 2 eexists. reflexivity. Qed.

Lemma takes_seq {A B} k (m1 m2 : reader A) Q f a (c : A -> reader B) pos tail : takes k m1 m2 Q -> reads m2 f a -> Q a -> lenN (f pos ++ tail) <= k ->
  bind m1 c (mkStream (f pos ++ tail) pos) = c a (mkStream tail (pos + lenN (f pos))).
Proof. intros TK R H L. apply bind_step. apply (takes_use k m1 m2 Q); auto. Qed.
Lemma takes_fseq {A B} k (m1 m2 : reader A) Q f g a (c : A -> reader B) pos tail : takes k m1 m2 Q -> reads m2 f a -> Q a -> lenN (fseq f g pos ++ tail) <= k ->
  bind m1 c (mkStream (fseq f g pos ++ tail) pos) = c a (mkStream (g (pos + lenN (f pos)) ++ tail) (pos + lenN (f pos))).
Proof. unfold fseq. rewrite <- app_assoc. apply takes_seq. Qed.
Lemma fseq_rest k f g pos tail : lenN (fseq f g pos ++ tail) <= k -> lenN (g (pos + lenN (f pos)) ++ tail) <= k.
Proof. unfold fseq. rewrite !lenN_app. lia. Qed.
Lemma takes_meta w b k (RO : roomy w k) T id : takes k
  (if chunk_eqb id CMetadata then t <- w_metadata w b T ;; ret (Some t) else ret None)
  (if chunk_eqb id CMetadata then t <- read_metadata_chunk T ;; ret (Some t) else ret None) (fun _ => True).
Proof.
  intros s a s' L H _. destruct (chunk_eqb _ _); [|exact H]. minv H as t X. rewrite (bind_step _ _ _ _ _ (takes_use k _ _ _ _ _ _ (takes_metadata w b k RO T) X L Logic.I)). exact H.
Qed.

(** The layout of a file, read on the machine. *)
Lemma w_layout w b k T pf e s0 S2 (rs1 rs2 : reader S2) s2 QS : toml_law T -> emb_built pf T e s0 -> roomy w k ->
  takes k rs1 rs2 QS -> QS s2 -> reads rs2 (framed (chunk_num (swrap_id (em_storage e))) (storage_body s0)) s2 -> vocab_fits w pf (em_vocab e) ->
  exists vb, emits (write_file T e) (file_layout T e s0 vb) /\
    forall pos tail, lenN (main_layout T e s0 vb pos ++ tail) <= k ->
    w_file w b T (w_vocab w b pf) rs1 (mkStream (main_layout T e s0 vb pos ++ tail) pos)
    = (n <- ok_opt (w_norms w) ;; ret (mkEmb (em_meta e) s2 (em_vocab e) n)) (mkStream tail (pos + lenN (main_layout T e s0 vb pos))).
Proof.
  intros TL [HV HS HM HN] RO TS Q2 SR VF. destruct (vocab_wrap_codec pf _ HV) as (vb & CV & SV & IDV).
  destruct (storage_wrap_codec _ _ HS) as (CS & SS & MS). exists vb. split.
  - pose proof (file_emits T TL vwrap_chunk swrap_chunk _ _ (em_meta e) (em_vocab e) (em_storage e) (em_norms e)
      _ _ _ _ IDV CV CS HM HN) as X. rewrite emb_eta in X. exact X.
  - intros pos tail L.
    destruct (chunks_ok T vwrap_chunk swrap_chunk _ _ (em_meta e) (em_vocab e) (em_storage e) (em_norms e) _ _ _ _ CV CS HM HN) as [C1 C2].
    destruct (header_codec _ C1 C2) as (_ & HR & _).
    destruct (chunks_cons T vwrap_chunk swrap_chunk (em_meta e) (em_vocab e) (em_storage e) (em_norms e) tt tt HM) as (id & rest & EC).
    destruct (meta_codec T TL vwrap_chunk swrap_chunk (em_meta e) (em_vocab e) (em_storage e) (em_norms e) IDV HM) as [_ MC].
    destruct (MC id rest EC) as [MR _]. pose proof (cc_reads _ _ _ _ _ _ CV) as VR.
    revert L. unfold w_file, main_layout, main_f, vs_f. rewrite emb_eta in *. intros L.
    set (hb := header_bytes (emb_chunks T vwrap_chunk swrap_chunk e)) in *. clearbody hb. rewrite EC in HR.
    rewrite (takes_fseq k _ _ _ (fconst _) _ _ _ pos _ (takes_header w k RO) HR Logic.I L). cbv iota. apply fseq_rest in L.
    rewrite (takes_fseq k _ _ _ (meta_f T (em_meta e)) _ _ _ _ _ (takes_meta w b k RO T id) MR Logic.I L). apply fseq_rest in L.
    rewrite (takes_fseq k _ _ _ (framed (chunk_num (vocab_wrap_id (em_vocab e))) (fconst vb)) _ _ _ _ _ (takes_vocab w b k RO pf) VR VF L). apply fseq_rest in L.
    rewrite (takes_seq k _ _ _ (framed (chunk_num (swrap_id (em_storage e))) (storage_body s0)) _ _ _ _ TS SR Q2 L).
    do 2 f_equal. unfold fseq. rewrite !lenN_app, !N.add_assoc. reflexivity.
Qed.

(** The whole file, with nothing after it. *)
Lemma w_layout_end w b k T pf e s0 S2 (rs1 rs2 : reader S2) s2 QS base : toml_law T -> emb_built pf T e s0 -> roomy w k ->
  takes k rs1 rs2 QS -> QS s2 -> reads rs2 (framed (chunk_num (swrap_id (em_storage e))) (storage_body s0)) s2 -> vocab_fits w pf (em_vocab e) ->
  exists bytes, run_writer (write_file T e) base = Ok bytes /\
    (lenN bytes <= k -> exists s', w_file w b T (w_vocab w b pf) rs1 (mkStream bytes base) = (Ok (mkEmb (em_meta e) s2 (em_vocab e) (em_norms e)), s')).
Proof.
  intros TL EB RO TS Q2 SR VF. destruct (w_layout w b k T pf e s0 S2 rs1 rs2 s2 QS TL EB RO TS Q2 SR VF) as (vb & EM & RD). destruct EB as [_ _ _ HN].
  exists (file_layout T e s0 vb base). split; [apply emits_run, EM|]. intros L. unfold file_layout in *. unfold fseq at 1. unfold fseq in L. rewrite RD by exact L.
  unfold norms_layout, norms_f in *. destruct (em_norms e) as [ns|].
  - destruct (norms_codec ns (HN ns eq_refl)) as (_ & NR & _). rewrite lenN_app in L.
    pose proof (reads_stream _ _ _ (base + lenN (main_layout T e s0 vb base)) [] NR) as R. rewrite app_nil_r in R.
    apply (takes_use k _ _ _ _ _ _ (takes_norms w k RO)) in R; [|cbn [s_rest]; lia|exact Logic.I]. unfold bind, ok_opt. rewrite R. eexists; reflexivity.
  - unfold fconst. destruct (w_norms_nil w (base + lenN (main_layout T e s0 vb base))) as (er & s' & E). rewrite app_nil_r in *. unfold bind, ok_opt. rewrite E. eexists; reflexivity.
Qed.

(** A file that a 64-bit machine wrote is read or mapped on a narrower one, and
    written there again byte for byte. *)
Lemma portable w b pf pf' T e s0 base bytes : toml_law T -> emb_built pf T e s0 -> narrow w ->
  run_writer (write_file T e) base = Ok bytes -> 3 * lenN bytes <= w_max w -> vocab_fits w pf (em_vocab e) -> shape_fits w s0 ->
  exists s', w_read w b T pf (mkStream bytes base) = (Ok (loaded e s0 (em_norms e)), s') /\
    run_writer (w_write_file w pf' T (loaded e s0 (em_norms e))) base = Ok bytes.
Proof.
  intros TL EB NW W L VF SF. pose proof (narrow_roomy w _ NW L) as RO.
  assert (storage_holds (em_storage e) s0) as HS by apply EB. destruct (storage_wrap_codec _ _ HS) as (CS & _ & _).
  destruct (w_layout_end w b _ T pf e s0 _ (w_storage w) read_storage_wrap s0 (shape_fits w) base TL EB RO (takes_storage w _ RO) SF (cc_reads _ _ _ _ _ _ CS) VF) as (bytes' & W' & R).
  rewrite W in W'. injection W' as <-. destruct (R (N.le_refl _)) as (s' & E). exists s'. split; [exact E|].
  assert (has_centroid (em_storage (loaded e s0 (em_norms e)))) as HC.
  { apply w_file_storage in E as (t & t' & E). apply w_storage_sound in E as [E _]. exact E. }
  destruct (narrow_size w NW) as (SZ & P & U).
  assert (emb_built pf T (loaded e s0 (em_norms e)) s0) as EB'.
  { destruct EB as [E1 E2 E3 E4]. split; auto. cbn [loaded em_storage]. destruct E2; constructor; assumption. }
  unfold run_writer in *. rewrite (length_write w pf' T ltac:(unfold two64; lia) (loaded e s0 (em_norms e)) base _ HC).
  - rewrite (file_rewrite pf T e s0 TL EB). exact W.
  - rewrite <- (FileThms.file_length pf T _ s0 base bytes TL EB'); [lia|]. unfold run_writer. rewrite (file_rewrite pf T e s0 TL EB). exact W.
Qed.
Lemma portable_mmap w b pf pf' T e s0 base bytes : toml_law T -> emb_built pf T e s0 -> narrow w ->
  run_writer (write_file T e) base = Ok bytes -> 3 * lenN bytes <= w_max w -> vocab_fits w pf (em_vocab e) -> shape_fits w (storage_mapped s0) ->
  exists s', w_mmap w b T pf (mkStream bytes base) = (Ok (loaded e (storage_mapped s0) (em_norms e)), s') /\
    run_writer (w_write_file w pf' T (loaded e (storage_mapped s0) (em_norms e))) base = Ok bytes.
Proof.
  intros TL EB NW W L VF SF. pose proof (narrow_roomy w _ NW L) as RO.
  assert (storage_holds (em_storage e) s0) as HS by apply EB. destruct (storage_wrap_codec _ _ HS) as (CS & _ & MS).
  destruct (w_layout_end w b _ T pf e s0 _ (w_mmap_storage w pf) (mmap_storage_wrap Debug) (storage_mapped s0) (shape_fits w) base TL EB RO (takes_mmap_storage w _ RO pf) SF (MS Debug) VF) as (bytes' & W' & R).
  rewrite W in W'. injection W' as <-. destruct (R (N.le_refl _)) as (s' & E). exists s'. split; [exact E|].
  assert (has_centroid (em_storage (loaded e (storage_mapped s0) (em_norms e)))) as HC.
  { apply w_file_storage in E as (t & t' & E). apply w_mmap_storage_sound in E as [E _]. exact E. }
  destruct (narrow_size w NW) as (SZ & P & U).
  assert (storage_holds s0 s0) as H0 by (destruct HS; constructor; assumption).
  assert (emb_built pf T (loaded e (storage_mapped s0) (em_norms e)) s0) as EB'.
  { destruct EB as [E1 E2 E3 E4]. split; auto. cbn [loaded em_storage]. apply (storage_mapped_ops (fun _ _ => []) s0 H0). }
  assert (forall k, write_file T (loaded e (storage_mapped s0) (em_norms e)) k = write_file T e k) as SAME.
  { intros k. rewrite <- (file_rewrite pf T e s0 TL EB k), <- (file_rewrite pf T _ s0 TL EB' k). reflexivity. }
  unfold run_writer in *. rewrite (length_write w pf' T ltac:(unfold two64; lia) (loaded e (storage_mapped s0) (em_norms e)) base _ HC).
  - rewrite SAME. exact W.
  - rewrite <- (FileThms.file_length pf T _ s0 base bytes TL EB'); [lia|]. unfold run_writer. rewrite SAME. exact W.
Qed.
