(** * Embedding matrices: codecs, mapped and in-memory matrices agree. *)
From Verif Require Import Base BaseFacts Utf8 Stream StreamFacts F32 ChunkIO ChunkFacts Subword Vocab VocabFacts Storage FileSpec.
Local Open Scope N_scope.

(** ** Flattening *)
Lemma unflatten_concat {A} c (rows : list (list A)) :
  Forall (fun r => length r = c) rows -> unflatten (length rows) c (concat rows) = rows.
Proof.
  induction 1 as [|r rows Hr H IH]; [reflexivity|]. cbn [length unflatten concat].
  rewrite firstn_app, Hr, Nat.sub_diag, firstn_all2 by lia. cbn [firstn]. rewrite app_nil_r.
  rewrite skipn_app, Hr, Nat.sub_diag, skipn_all2 by lia. cbn [skipn app]. rewrite IH. reflexivity.
Qed.
Lemma unflattenN_concat {A} n c (rows : list (list A)) :
  n = lenN rows -> Forall (fun r => lenN r = c) rows -> unflattenN n c (concat rows) = rows.
Proof.
  intros -> H. unfold unflattenN, lenN. rewrite Nat2N.id. apply unflatten_concat.
  eapply Forall_impl; [|exact H]. unfold lenN. intros; cbn beta in *. lia.
Qed.
Lemma concat_lenN {A} c (rows : list (list A)) :
  Forall (fun r => lenN r = c) rows -> lenN (concat rows) = lenN rows * c.
Proof.
  induction 1 as [|r rows Hr H IH]; [reflexivity|]. cbn [concat]. rewrite lenN_app, lenN_cons, IH, Hr. lia.
Qed.
Lemma f32s_bytes_concat rows : f32s_bytes (concat rows) = flat_map f32s_bytes rows.
Proof.
  induction rows as [|r rows IH]; [reflexivity|]. cbn [concat flat_map]. rewrite f32s_bytes_app, IH. reflexivity.
Qed.
Lemma emits_f32_rows rows : emits (for_each rows write_f32s) (fconst (f32s_bytes (concat rows))).
Proof.
  eapply emits_ext; [|apply emits_for_each_const; intros; apply emits_f32s].
  intros pos. unfold fconst. symmetry. apply f32s_bytes_concat.
Qed.
Lemma emits_codes rows :
  emits (for_each rows (fun row => for_each row (fun c => write_bytes [c]))) (fconst (concat rows)).
Proof.
  assert (forall row, emits (for_each row (fun c => write_bytes [c])) (fconst row)) as R.
  { intros row. eapply emits_ext; [|apply emits_for_each_const; intros; apply emits_bytes].
    intros pos. unfold fconst. induction row; cbn [flat_map app]; congruence. }
  eapply emits_ext; [|apply emits_for_each_const; intros; apply R].
  intros pos. unfold fconst. rewrite flat_map_concat_map, map_id. reflexivity.
Qed.

(** ** Allocations *)
Lemma alloc_zeros_ok {S} dims size (s : S) : dims_ok dims size -> alloc_zeros dims size s = (Ok tt, s).
Proof.
  intros [H1 H2]. unfold alloc_zeros. apply N.leb_le in H1, H2. rewrite H1, H2. reflexivity.
Qed.
Lemma reads_alloc {A} dims size (k : reader A) f a :
  dims_ok dims size -> reads k f a -> reads (alloc_zeros dims size ;;; k) f a.
Proof. intros H R. apply reads_pure_l with (a := tt); auto. intros; apply alloc_zeros_ok; auto. Qed.
Lemma short_alloc {A} dims size (k : reader A) f :
  dims_ok dims size -> short k f -> short (alloc_zeros dims size ;;; k) f.
Proof. intros H R. apply short_pure_l with (a := tt); auto. intros; apply alloc_zeros_ok; auto. Qed.

(** ** Plain matrices *)
Definition nd_body (a : array2 f32) : bytesf := fun pos =>
  le_bytes 8 (a2_nrows a) ++ le_bytes 4 (a2_cols a) ++ le_bytes 4 10
  ++ zeros (padding4 (pos + 16)) ++ f32s_bytes (concat (a2_rows a)).

Lemma nd_body_fseq a pos : nd_body a pos =
  fseq (fconst (le_bytes 8 (a2_nrows a))) (fseq (fconst (le_bytes 4 (a2_cols a)))
    (fseq (fconst (le_bytes 4 10)) (fseq fpad (fconst (f32s_bytes (concat (a2_rows a))))))) pos.
Proof.
  unfold nd_body, fseq, fconst, fpad. rewrite !le_bytes_lenN.
  replace (pos + N.of_nat 8 + N.of_nat 4 + N.of_nat 4) with (pos + 16) by lia. reflexivity.
Qed.

Lemma nd_data_len {F} (a : array2 F) : a2_wf a -> lenN (concat (a2_rows a)) = a2_nrows a * a2_cols a.
Proof. intros H. apply concat_lenN. exact H. Qed.

Lemma nd_frame_len a pos : a2_wf a -> lenN (framed 2 (nd_body a) pos) = nd_chunk_len a pos.
Proof.
  intros W. rewrite framed_len. unfold nd_body, nd_chunk_len.
  rewrite !lenN_app, !le_bytes_lenN, zeros_lenN, f32s_bytes_lenN, nd_data_len by auto.
  replace (pos + 12 + 16) with (pos + 28) by lia.
  rewrite (padding4_add4 pos 28), (padding4_add4 pos 4) by reflexivity. lia.
Qed.

Lemma nd_emits a : a2_wf a -> emits (write_ndarray a) (framed 2 (nd_body a)).
Proof.
  intros W. unfold write_ndarray.
  eapply emits_ext; [|eapply emits_seq; [apply emits_u32|
    apply (emits_wpos _ (fun p => le_bytes 8 (16 + a2_nrows a * a2_cols a * 4 + padding4 p)
      ++ le_bytes 8 (a2_nrows a) ++ le_bytes 4 (a2_cols a) ++ le_bytes 4 10
      ++ zeros (padding4 p) ++ f32s_bytes (concat (a2_rows a))))]].
  - intros pos. unfold fseq, fconst, framed, nd_body. change (chunk_num CNdArray) with 2.
    rewrite le_bytes_lenN.
    replace (pos + 12 + 16) with (pos + 28) by lia.
    rewrite (padding4_add4 pos (N.of_nat 4)), (padding4_add4 pos 28) by reflexivity.
    rewrite !lenN_app, !le_bytes_lenN, zeros_lenN, f32s_bytes_lenN, nd_data_len by auto.
    do 3 f_equal. lia.
  - intros p. eexists. split.
    + eapply emits_seq; [apply emits_u64|]. eapply emits_seq; [apply emits_u64|].
      eapply emits_seq; [apply emits_u32|]. eapply emits_seq; [apply emits_u32|].
      eapply emits_seq; [apply emits_bytes|]. apply emits_f32_rows.
    + unfold fseq, fconst, nd_chunk_len. rewrite (padding4_add4 p 4) by reflexivity.
      replace (4 + 8 + 8 + 4 + 4 + a2_nrows a * a2_cols a * 4 + padding4 p - (4 + 8))
        with (16 + a2_nrows a * a2_cols a * 4 + padding4 p) by lia.
      reflexivity.
Qed.

Lemma nd_codec a : nd_ok a ->
  chunk_codec CNdArray (write_ndarray a) read_ndarray (nd_body a) (nd_chunk_len a) a /\
  (a2_nrows a * a2_cols a <> 0 -> short read_ndarray (framed 2 (nd_body a))).
Proof.
  intros (W & Lr & Lc & D). pose proof (nd_data_len a W) as DL.
  assert (mkA2 (a2_cols a) (unflattenN (a2_nrows a) (a2_cols a) (concat (a2_rows a))) = a) as EA.
  { rewrite unflattenN_concat; [destruct a; reflexivity|reflexivity|exact W]. }
  split; [split|].
  - discriminate.
  - apply nd_emits, W.
  - unfold read_ndarray. apply reads_framed; [discriminate|].
    eapply reads_ext; [symmetry; apply nd_body_fseq|].
    eapply reads_bind; [apply (reads_u64 (a2_nrows a)), Lr|]. cbv beta.
    eapply reads_bind; [apply (reads_u32 (a2_cols a)), Lc|]. cbv beta.
    eapply reads_bind; [apply (reads_data_type 10); reflexivity|]. cbv beta.
    apply reads_pad. apply reads_alloc; [exact D|].
    rewrite <- EA at 4. apply (reads_map (read_f32s (a2_nrows a * a2_cols a))
      (fun data => mkA2 (a2_cols a) (unflattenN (a2_nrows a) (a2_cols a) data))).
    apply reads_f32s. auto.
  - intros pos. apply nd_frame_len, W.
  - intros NE. unfold read_ndarray. apply (short_framed CNdArray); [discriminate|].
    eapply short_ext; [symmetry; apply nd_body_fseq|].
    eapply short_bind; [apply (reads_u64 (a2_nrows a)), Lr|apply short_u64|]. cbv beta.
    eapply short_bind; [apply (reads_u32 (a2_cols a)), Lc|apply short_u32|]. cbv beta.
    eapply short_bind; [apply (reads_data_type 10); reflexivity|apply (short_data_type 10); reflexivity|]. cbv beta.
    apply short_pad.
    + apply short_alloc; [exact D|]. apply short_map, short_f32s. auto.
    + intros pos E. unfold fconst in E. apply (f_equal lenN) in E.
      rewrite f32s_bytes_lenN, lenN_nil, DL in E. lia.
Qed.

(** *** Mapped plain matrix *)
Lemma reads_mmap {A} bs n (k : mmap -> reader A) a :
  n = lenN bs -> n <= isize_max -> reads (k (mkMmap n bs)) (fconst []) a ->
  reads (m <- mmap_region n ;; seek_forward n ;;; k m) (fconst bs) a.
Proof.
  intros -> L R pos tail brk. unfold bind at 1, mmap_region.
  destruct (N.leb_spec (lenN bs) isize_max); [|lia]. cbn [s_rest]. unfold fconst at 1. rewrite takeN_app.
  pose proof (reads_bind _ (fun _ => k (mkMmap (lenN bs) bs)) _ _ _ _ (reads_seek bs) R pos tail brk) as B.
  unfold fseq, fconst in B. rewrite app_nil_r in B. exact B.
Qed.

Definition nd_mapped (a : array2 f32) : mmap_array :=
  mkMma (mkMmap (a2_nrows a * a2_cols a * 4) (f32s_bytes (concat (a2_rows a)))) (a2_nrows a) (a2_cols a).

Lemma mul64_ok pf a b : a * b < two64 -> mul64 pf a b = Ok (a * b).
Proof. intros H. unfold mul64. apply N.ltb_lt in H. rewrite H. reflexivity. Qed.
Lemma add64_ok pf a b : a + b < two64 -> add64 pf a b = Ok (a + b).
Proof. intros H. unfold add64. apply N.ltb_lt in H. rewrite H. reflexivity. Qed.

Lemma dims2 r c k : dims_ok [r; c] k -> r * c * k <= isize_max.
Proof. intros [_ H]. cbn [fold_left] in H. lia. Qed.

Lemma nd_mmap_reads pf a : nd_ok a ->
  reads (mmap_ndarray pf) (framed 2 (nd_body a)) (nd_mapped a).
Proof.
  intros (W & Lr & Lc & D). pose proof (nd_data_len a W) as DL. apply dims2 in D.
  assert (a2_nrows a * a2_cols a * 4 < two64) as L1 by (unfold isize_max, two64 in *; lia).
  unfold mmap_ndarray. apply (reads_framed CNdArray); [discriminate|].
  eapply reads_ext; [symmetry; apply nd_body_fseq|].
  eapply reads_bind; [apply (reads_u64 (a2_nrows a)), Lr|]. cbv beta.
  eapply reads_bind; [apply (reads_u32 (a2_cols a)), Lc|]. cbv beta.
  eapply reads_bind; [apply (reads_data_type 10); reflexivity|]. cbv beta.
  apply reads_pad.
  eapply reads_lift; [apply mul64_ok; lia|]. cbv beta.
  eapply reads_lift; [apply mul64_ok; lia|]. cbv beta.
  apply (reads_mmap _ _ (fun m => ret (mkMma m (a2_nrows a) (a2_cols a)))).
  - rewrite f32s_bytes_lenN, DL. lia.
  - exact D.
  - apply reads_ret.
Qed.

(** Rows of flattened data. *)
Lemma takeN_app_l {A} n (a b : list A) : n = lenN a -> takeN n (a ++ b) = a.
Proof. intros ->. apply takeN_app. Qed.
Lemma dropN_app_l {A} n (a b : list A) : n = lenN a -> dropN n (a ++ b) = b.
Proof. intros ->. apply dropN_app. Qed.
Lemma nthN_split {A} (l : list A) i a : nthN l i = Some a ->
  exists l1 l2, l = l1 ++ a :: l2 /\ lenN l1 = i.
Proof.
  rewrite nthN_spec. intros H. apply nth_error_split in H as (l1 & l2 & E & L).
  exists l1, l2. split; [auto|]. unfold lenN. lia.
Qed.
Lemma concat_slice {A} c (rows : list (list A)) i r :
  Forall (fun r => lenN r = c) rows -> nthN rows i = Some r ->
  takeN c (dropN (i * c) (concat rows)) = r.
Proof.
  intros W H. apply nthN_split in H as (l1 & l2 & -> & <-).
  apply Forall_app in W as [W1 W2]. inversion W2 as [|? ? Wr W3]; subst.
  rewrite concat_app. cbn [concat]. rewrite dropN_app_l by (symmetry; apply concat_lenN; auto).
  apply takeN_app_l. reflexivity.
Qed.
Lemma f32_slice rows c i r :
  Forall (fun r => lenN r = c) rows -> nthN rows i = Some r ->
  takeN (c * 4) (dropN (i * (c * 4)) (f32s_bytes (concat rows))) = f32s_bytes r.
Proof.
  intros W H. apply nthN_split in H as (l1 & l2 & -> & <-).
  apply Forall_app in W as [W1 W2]. inversion W2 as [|? ? Wr W3]; subst.
  rewrite concat_app, f32s_bytes_app. cbn [concat]. rewrite f32s_bytes_app.
  rewrite dropN_app_l by (rewrite f32s_bytes_lenN, (concat_lenN (lenN r)) by auto; lia).
  apply takeN_app_l. rewrite f32s_bytes_lenN. lia.
Qed.

Lemma mma_row_mapped a i : a2_wf a -> mma_row (nd_mapped a) i = a2_row a i.
Proof.
  intros W. unfold mma_row, nd_mapped, a2_row, index. cbn [ma_rows ma_cols ma_map].
  destruct (N.ltb_spec i (a2_nrows a)) as [L|L].
  - destruct (nthN_lt (a2_rows a) i L) as [r Hr]. rewrite Hr. unfold mm_read. cbn [mm_bytes].
    rewrite f32s_bytes_lenN, nd_data_len by auto.
    destruct (N.leb_spec (i * (a2_cols a * 4) + a2_cols a * 4) (4 * (a2_nrows a * a2_cols a))) as [L2|L2];
      [|nia].
    rewrite (f32_slice _ _ _ _ W Hr). cbn [rbind]. rewrite f32s_of_bytes_bytes. reflexivity.
  - apply nthN_None in L. rewrite L. reflexivity.
Qed.
Lemma mma_view_mapped a : a2_wf a -> mma_view (nd_mapped a) = Ok a.
Proof.
  intros W. unfold mma_view, nd_mapped, mm_read. cbn [ma_rows ma_cols ma_map mm_bytes].
  rewrite f32s_bytes_lenN, nd_data_len by auto.
  destruct (N.leb_spec (0 + a2_nrows a * (a2_cols a * 4)) (4 * (a2_nrows a * a2_cols a))); [|lia].
  cbn [rbind]. rewrite dropN_0.
  replace (a2_nrows a * (a2_cols a * 4)) with (lenN (f32s_bytes (concat (a2_rows a))))
    by (rewrite f32s_bytes_lenN, nd_data_len by auto; lia).
  rewrite takeN_all, f32s_of_bytes_bytes, unflattenN_concat by auto. destruct a; reflexivity.
Qed.

Lemma mma_ops_mapped a : a2_wf a ->
  (forall i, st_embedding mma_ops (nd_mapped a) i = st_embedding (nd_ops f32) a i) /\
  (forall is, st_embeddings mma_ops (nd_mapped a) is = st_embeddings (nd_ops f32) a is) /\
  st_shape mma_ops (nd_mapped a) = st_shape (nd_ops f32) a.
Proof.
  intros W. repeat split; cbn [st_embedding st_embeddings st_shape mma_ops nd_ops].
  - intros i. apply mma_row_mapped, W.
  - intros is. unfold a2_select. rewrite (rmap_ext (mma_row (nd_mapped a)) (a2_row a)); [reflexivity|].
    intros; apply mma_row_mapped, W.
Qed.

(** ** Quantized matrices *)
Definition opt_data {A} (f : A -> list byte) (x : option A) : list byte :=
  match x with None => [] | Some a => f a end.

Definition qa_fixed (q : quantized f32) : list byte :=
  let p := qa_pq q in
  le_bytes 4 (b2n (is_some (pq_proj p))) ++ le_bytes 4 (b2n (is_some (qa_norms q)))
  ++ le_bytes 4 (pq_ql p) ++ le_bytes 4 (pq_rl p) ++ le_bytes 4 (pq_nc p)
  ++ le_bytes 8 (a2_nrows (qa_codes q)) ++ le_bytes 4 1 ++ le_bytes 4 10.
Definition qa_data (q : quantized f32) : list byte :=
  let p := qa_pq q in
  opt_data (fun pr => f32s_bytes (concat (a2_rows pr))) (pq_proj p)
  ++ f32s_bytes (concat (concat (pq_cent p)))
  ++ opt_data f32s_bytes (qa_norms q)
  ++ concat (a2_rows (qa_codes q)).
Definition qa_body (q : quantized f32) : bytesf := fun pos =>
  qa_fixed q ++ zeros (padding4 (pos + 36)) ++ qa_data q.

Lemma qa_fixed_len q : lenN (qa_fixed q) = 36.
Proof. unfold qa_fixed. rewrite !lenN_app, !le_bytes_lenN. reflexivity. Qed.

Lemma cent_len {F} (p : pq F) : lenN (pq_cent p) = pq_ql p ->
  Forall (fun sub => lenN sub = pq_nc p /\ Forall (fun v => lenN v = pq_sub p) sub) (pq_cent p) ->
  lenN (concat (concat (pq_cent p))) = pq_ql p * (pq_nc p * pq_sub p) /\
  map (unflattenN (pq_nc p) (pq_sub p)) (unflattenN (pq_ql p) (pq_nc p * pq_sub p) (concat (concat (pq_cent p))))
  = pq_cent p.
Proof.
  intros L W.
  assert (Forall (fun r => lenN r = pq_nc p * pq_sub p) (map (@concat _) (pq_cent p))) as W1.
  { apply Forall_map. eapply Forall_impl; [|exact W]. intros sub [<- H]. apply concat_lenN; auto. }
  assert (concat (concat (pq_cent p)) = concat (map (@concat _) (pq_cent p))) as E.
  { induction (pq_cent p) as [|x l IH]; [reflexivity|]. cbn [concat map]. rewrite concat_app.
    inversion W; inversion W1; subst. f_equal. clear -x. induction l as [|y l IH]; [reflexivity|].
    cbn [concat map]. rewrite concat_app, IH. reflexivity. }
  rewrite E. split.
  - rewrite (concat_lenN _ _ W1), lenN_map, L. reflexivity.
  - rewrite unflattenN_concat; [|rewrite lenN_map; auto|auto].
    rewrite map_map. clear -W. induction W as [|sub l [H1 H2] H IH]; [reflexivity|]. cbn [map].
    rewrite IH, unflattenN_concat; auto.
Qed.

Lemma pq_ok_pos p : pq_ok p -> 0 < pq_ql p /\ 0 < pq_nc p /\ 0 < pq_sub p /\
  pq_rl p / pq_ql p = pq_sub p /\ pq_rl p mod pq_ql p = 0 /\ pq_ql p <= pq_rl p.
Proof.
  intros (H & _). unfold pq_new in H. rinv H. apply rassert_Ok in H0.
  apply negb_true_iff, N.eqb_neq in H0. unfold pq_rl.
  assert (pq_ql p <> 0 /\ pq_nc p <> 0 /\ pq_sub p <> 0) as (A & B & C) by (repeat split; nia).
  rewrite N.mul_comm, N.div_mul, N.mod_mul by auto. repeat split; try lia; nia.
Qed.

Lemma qa_data_len q : qa_ok q ->
  lenN (qa_data q) = b2n (is_some (pq_proj (qa_pq q))) * pq_rl (qa_pq q) * pq_rl (qa_pq q) * 4
  + pq_ql (qa_pq q) * pq_nc (qa_pq q) * pq_sub (qa_pq q) * 4
  + b2n (is_some (qa_norms q)) * a2_nrows (qa_codes q) * 4
  + a2_nrows (qa_codes q) * pq_ql (qa_pq q).
Proof.
  intros (HP & W & WC & _ & _ & HN). pose proof HP as (PN & PP & CL & CW & _).
  unfold qa_data. rewrite !lenN_app, f32s_bytes_lenN. destruct (cent_len _ CL CW) as [-> _].
  rewrite (concat_lenN _ _ W), WC. unfold a2_nrows.
  assert (lenN (opt_data (fun pr => f32s_bytes (concat (a2_rows pr))) (pq_proj (qa_pq q)))
    = b2n (is_some (pq_proj (qa_pq q))) * pq_rl (qa_pq q) * pq_rl (qa_pq q) * 4) as ->.
  { destruct (pq_proj (qa_pq q)) as [pr|] eqn:EP; cbn [opt_data is_some b2n]; [|rewrite lenN_nil; lia].
    destruct (PP _ eq_refl) as [PW _]. rewrite f32s_bytes_lenN, (concat_lenN _ _ PW).
    unfold pq_new in PN. rinv PN. rinv H0. apply rassert_Ok, andb_true_iff in H1 as [X1 X2].
    apply N.eqb_eq in X1, X2. unfold a2_nrows in X1. unfold pq_rl. rewrite X1, X2. lia. }
  assert (lenN (opt_data f32s_bytes (qa_norms q)) = b2n (is_some (qa_norms q)) * lenN (a2_rows (qa_codes q)) * 4) as ->.
  { destruct (qa_norms q) as [ns|]; cbn [opt_data is_some b2n]; [|rewrite lenN_nil; lia].
    destruct (HN _ eq_refl) as [E _]. rewrite f32s_bytes_lenN, E. unfold a2_nrows. lia. }
  lia.
Qed.

Lemma qa_frame_len q pos : qa_ok q -> lenN (framed 4 (qa_body q) pos) = qa_chunk_len q pos.
Proof.
  intros H. rewrite framed_len. unfold qa_body, qa_chunk_len, qa_chunk_len_.
  rewrite !lenN_app, qa_fixed_len, zeros_lenN, qa_data_len by auto.
  destruct H as (HP & _). apply pq_ok_pos in HP as (_ & _ & _ & -> & _).
  replace (pos + 12 + 36) with (pos + 48) by lia.
  rewrite (padding4_add4 pos 48), (padding4_add4 pos 4) by reflexivity. lia.
Qed.

Lemma qa_emits q : qa_ok q -> emits (write_quantized q) (framed 4 (qa_body q)).
Proof.
  intros H. unfold write_quantized.
  eapply emits_ext; [|eapply emits_seq; [apply emits_u32|
    apply (emits_wpos _ (fun p => le_bytes 8 (qa_chunk_len q p - 12)
      ++ qa_fixed q ++ zeros (padding4 p) ++ qa_data q))]].
  - intros pos. unfold fseq, fconst, framed. change (chunk_num CQuantizedArray) with 4.
    rewrite le_bytes_lenN. do 2 f_equal.
    + pose proof (qa_frame_len q pos H) as E. rewrite framed_len in E.
      replace (qa_chunk_len q (pos + N.of_nat 4)) with (qa_chunk_len q pos); [f_equal; lia|].
      unfold qa_chunk_len, qa_chunk_len_. f_equal.
      replace (pos + N.of_nat 4 + 4) with (pos + 8) by lia.
      rewrite (padding4_add4 pos 8), (padding4_add4 pos 4) by reflexivity. reflexivity.
    + unfold qa_body. replace (pos + 12 + 36) with (pos + 48) by lia.
      rewrite (padding4_add4 pos 48), (padding4_add4 pos (N.of_nat 4)) by reflexivity. reflexivity.
  - intros p. eexists. split.
    + eapply emits_seq; [apply emits_u64|]. do 5 (eapply emits_seq; [apply emits_u32|]).
      eapply emits_seq; [apply emits_u64|]. do 2 (eapply emits_seq; [apply emits_u32|]).
      eapply emits_seq; [apply emits_bytes|].
      eapply emits_seq.
      { instantiate (1 := fconst (opt_data (fun pr => f32s_bytes (concat (a2_rows pr))) (pq_proj (qa_pq q)))).
        destruct (pq_proj (qa_pq q)); [apply emits_f32_rows|apply emits_ret]. }
      eapply emits_seq.
      { eapply emits_ext; [|apply emits_for_each_const; intros; apply emits_f32_rows].
        intros pos. unfold fconst. instantiate (1 := fconst (f32s_bytes (concat (concat (pq_cent (qa_pq q)))))).
        unfold fconst. induction (pq_cent (qa_pq q)) as [|x l IH]; [reflexivity|].
        cbn [flat_map concat]. rewrite concat_app, f32s_bytes_app, IH. reflexivity. }
      eapply emits_seq.
      { instantiate (1 := fconst (opt_data f32s_bytes (qa_norms q))).
        destruct (qa_norms q); [apply emits_f32s|apply emits_ret]. }
      apply emits_codes.
    + unfold fseq, fconst, qa_fixed, qa_data. change (4 + 8) with 12. rewrite <- ?app_assoc. reflexivity.
Qed.


(** The part of the body read by [read_product_quantizer]. *)
Definition qa_pq_part (q : quantized f32) : bytesf :=
  fseq (fconst (le_bytes 4 (b2n (is_some (pq_proj (qa_pq q))))))
  (fseq (fconst (le_bytes 4 (b2n (is_some (qa_norms q)))))
  (fseq (fconst (le_bytes 4 (pq_ql (qa_pq q)))) (fseq (fconst (le_bytes 4 (pq_rl (qa_pq q))))
  (fseq (fconst (le_bytes 4 (pq_nc (qa_pq q)))) (fseq (fconst (le_bytes 8 (a2_nrows (qa_codes q))))
  (fseq (fconst (le_bytes 4 1)) (fseq (fconst (le_bytes 4 10)) (fseq fpad
  (fseq (fconst (opt_data (fun pr => f32s_bytes (concat (a2_rows pr))) (pq_proj (qa_pq q))))
        (fconst (f32s_bytes (concat (concat (pq_cent (qa_pq q))))))))))))))).

Lemma qa_body_fseq q pos : qa_body q pos =
  fseq (qa_pq_part q) (fseq (fconst (opt_data f32s_bytes (qa_norms q)))
                            (fconst (concat (a2_rows (qa_codes q))))) pos.
Proof.
  unfold qa_body, qa_fixed, qa_data, qa_pq_part, fseq, fconst, fpad. rewrite !le_bytes_lenN, <- ?app_assoc.
  replace (pos + N.of_nat 4 + N.of_nat 4 + N.of_nat 4 + N.of_nat 4 + N.of_nat 4 + N.of_nat 8 + N.of_nat 4 + N.of_nat 4)
    with (pos + 36) by lia. reflexivity.
Qed.

Lemma dims_ok_1 n : n * 4 <= isize_max -> dims_ok [n] 4.
Proof.
  intros H. unfold dims_ok, nonzero. cbn [fold_left]. destruct (n =? 0); unfold isize_max in *; lia.
Qed.

Lemma b2n_lt b : b2n b < two32.
Proof. destruct b; reflexivity. Qed.
Lemma b2n_neq b : negb (b2n b =? 0) = b.
Proof. destruct b; reflexivity. Qed.

Definition read_projection (has : bool) (rl : N) : reader (option (array2 f32)) :=
  if has then alloc_zeros [rl; rl] 4 ;;; data <- read_f32s (rl * rl) ;;
              ret (Some (mkA2 rl (unflattenN rl rl data))) else ret None.

Lemma projection_codec p : pq_ok p ->
  reads (read_projection (is_some (pq_proj p)) (pq_rl p))
    (fconst (opt_data (fun pr => f32s_bytes (concat (a2_rows pr))) (pq_proj p))) (pq_proj p) /\
  short (read_projection (is_some (pq_proj p)) (pq_rl p))
    (fconst (opt_data (fun pr => f32s_bytes (concat (a2_rows pr))) (pq_proj p))).
Proof.
  intros (PN & PP & _). unfold read_projection.
  destruct (pq_proj p) as [pr|] eqn:EP; cbn [is_some opt_data].
  - destruct (PP _ eq_refl) as [PW PD].
    unfold pq_new in PN. rinv PN. rinv H0. apply rassert_Ok, andb_true_iff in H1 as [X1 X2].
    apply N.eqb_eq in X1, X2. fold (pq_rl p) in X1, X2.
    assert (pq_rl p * pq_rl p = lenN (concat (a2_rows pr))) as EL.
    { rewrite (concat_lenN _ _ PW), X2. unfold a2_nrows in X1. rewrite X1. reflexivity. }
    assert (mkA2 (pq_rl p) (unflattenN (pq_rl p) (pq_rl p) (concat (a2_rows pr))) = pr) as EP'.
    { unfold a2_wf in PW. rewrite X2 in PW. rewrite unflattenN_concat; auto. rewrite <- X2. destruct pr; reflexivity. }
    split.
    + apply reads_alloc; auto. rewrite <- EP' at 2.
      apply (reads_map (read_f32s (pq_rl p * pq_rl p))
        (fun data => Some (mkA2 (pq_rl p) (unflattenN (pq_rl p) (pq_rl p) data)))).
      apply reads_f32s; auto.
    + apply short_alloc; auto.
      apply (short_map (read_f32s (pq_rl p * pq_rl p))
        (fun data => Some (mkA2 (pq_rl p) (unflattenN (pq_rl p) (pq_rl p) data)))).
      apply short_f32s; auto.
  - split; [apply reads_ret|apply short_ret].
Qed.

Lemma quantized_norms_codec q : qa_ok q ->
  reads (read_quantized_norms (is_some (qa_norms q)) (a2_nrows (qa_codes q)))
    (fconst (opt_data f32s_bytes (qa_norms q))) (qa_norms q) /\
  short (read_quantized_norms (is_some (qa_norms q)) (a2_nrows (qa_codes q)))
    (fconst (opt_data f32s_bytes (qa_norms q))).
Proof.
  intros (_ & _ & _ & _ & _ & HN). unfold read_quantized_norms.
  destruct (qa_norms q) as [ns|]; cbn [is_some opt_data].
  - destruct (HN _ eq_refl) as [E D]. rewrite E in D. split.
    + apply reads_alloc; auto. apply (reads_map (read_f32s _) Some). apply reads_f32s; auto.
    + apply short_alloc; auto. apply (short_map (read_f32s _) Some), short_f32s; auto.
  - split; [apply reads_ret|apply short_ret].
Qed.

Lemma product_quantizer_codec q : qa_ok q ->
  reads read_product_quantizer (qa_pq_part q) (a2_nrows (qa_codes q), qa_pq q, is_some (qa_norms q)) /\
  short read_product_quantizer (qa_pq_part q).
Proof.
  intros (HP & W & WC & Ln & LC & HN). pose proof (pq_ok_pos _ HP) as (P1 & P2 & P3 & PS & PM & PL).
  pose proof (projection_codec _ HP) as [PR PSh].
  pose proof HP as (PN & PP & CL & CW & Lrl & Lnc & LD).
  destruct (cent_len _ CL CW) as [CE CU]. unfold qa_pq_part. set (p := qa_pq q) in *.
  assert (pq_ql p < two32) as Lql by lia.
  assert (check_quantizer_invariants (pq_ql p) (pq_rl p) = Ok tt) as CI.
  { unfold check_quantizer_invariants. destruct (N.eqb_spec (pq_ql p) 0); [lia|]. rewrite PM. reflexivity. }
  assert (pq_ql p * pq_nc p * pq_sub p = lenN (concat (concat (pq_cent p)))) as EC by (rewrite CE; lia).
  unfold read_projection in PR, PSh.
  split.
  - unfold read_product_quantizer.
    eapply reads_bind; [apply (reads_u32 (b2n (is_some (pq_proj p)))), b2n_lt|]. cbv beta.
    eapply reads_bind; [apply (reads_u32 (b2n (is_some (qa_norms q)))), b2n_lt|]. cbv beta.
    eapply reads_bind; [apply (reads_u32 (pq_ql p)), Lql|]. cbv beta.
    eapply reads_bind; [apply (reads_u32 (pq_rl p)), Lrl|]. cbv beta.
    eapply reads_bind; [apply (reads_u32 (pq_nc p)), Lnc|]. cbv beta.
    eapply reads_bind; [apply (reads_u64 (a2_nrows (qa_codes q))), Ln|]. cbv beta.
    eapply reads_lift; [exact CI|]. cbv beta.
    eapply reads_bind; [apply (reads_data_type 1); reflexivity|]. cbv beta.
    eapply reads_bind; [apply (reads_data_type 10); reflexivity|]. cbv beta.
    apply reads_pad. rewrite !b2n_neq, PS.
    eapply reads_bind; [exact PR|]. cbv beta. apply reads_alloc; [exact LD|].
    eapply reads_ext; [|eapply reads_bind; [apply (reads_f32s (concat (concat (pq_cent p)))); exact EC|]].
    2:{ cbv beta. rewrite CU. eapply reads_lift; [exact PN|]. cbv beta. apply reads_ret. }
    layout.
  - unfold read_product_quantizer.
    eapply short_bind; [apply (reads_u32 (b2n (is_some (pq_proj p)))), b2n_lt|apply short_u32|]. cbv beta.
    eapply short_bind; [apply (reads_u32 (b2n (is_some (qa_norms q)))), b2n_lt|apply short_u32|]. cbv beta.
    eapply short_bind; [apply (reads_u32 (pq_ql p)), Lql|apply short_u32|]. cbv beta.
    eapply short_bind; [apply (reads_u32 (pq_rl p)), Lrl|apply short_u32|]. cbv beta.
    eapply short_bind; [apply (reads_u32 (pq_nc p)), Lnc|apply short_u32|]. cbv beta.
    eapply short_bind; [apply (reads_u64 (a2_nrows (qa_codes q))), Ln|apply short_u64|]. cbv beta.
    eapply short_lift; [exact CI|]. cbv beta.
    eapply short_bind; [apply (reads_data_type 1); reflexivity|apply (short_data_type 1); reflexivity|]. cbv beta.
    eapply short_bind; [apply (reads_data_type 10); reflexivity|apply (short_data_type 10); reflexivity|]. cbv beta.
    apply short_pad.
    + rewrite !b2n_neq, PS.
      eapply short_bind; [exact PR|exact PSh|]. cbv beta. apply short_alloc; [exact LD|].
      eapply short_ext; [|eapply short_bind; [apply (reads_f32s (concat (concat (pq_cent p)))); exact EC|apply short_f32s; exact EC|]].
      2:{ cbv beta. rewrite CU. eapply short_lift; [exact PN|]. cbv beta. apply short_ret. }
      layout.
    + intros pos E. unfold fseq, fconst in E. apply app_eq_nil in E as [_ E]. apply (f_equal lenN) in E.
      rewrite f32s_bytes_lenN, lenN_nil, <- EC in E. nia.
Qed.

Lemma qa_codec q : qa_ok q ->
  chunk_codec CQuantizedArray (write_quantized q) read_quantized (qa_body q) (qa_chunk_len q) q /\
  short read_quantized (framed 4 (qa_body q)).
Proof.
  intros H. destruct (product_quantizer_codec q H) as [QR QS].
  destruct (quantized_norms_codec q H) as [NR NS].
  pose proof H as (_ & W & WC & _ & LC & _).
  assert (a2_nrows (qa_codes q) * pq_ql (qa_pq q) = lenN (concat (a2_rows (qa_codes q)))) as EL.
  { rewrite (concat_lenN _ _ W), WC. reflexivity. }
  assert (mkQuant (qa_pq q) (mkA2 (pq_ql (qa_pq q)) (unflattenN (a2_nrows (qa_codes q)) (pq_ql (qa_pq q))
            (concat (a2_rows (qa_codes q))))) (qa_norms q) = q) as EQ.
  { rewrite <- WC, unflattenN_concat by auto. destruct q as [p [c r] n]; reflexivity. }
  assert (reads (alloc_zeros [a2_nrows (qa_codes q); pq_ql (qa_pq q)] 1 ;;;
     data <- read_exact (a2_nrows (qa_codes q) * pq_ql (qa_pq q)) ;;
     ret (mkQuant (qa_pq q) (mkA2 (pq_ql (qa_pq q)) (unflattenN (a2_nrows (qa_codes q)) (pq_ql (qa_pq q)) data)) (qa_norms q)))
     (fconst (concat (a2_rows (qa_codes q)))) q) as KR.
  { apply reads_alloc; auto. rewrite EL.
    pose proof (reads_map (read_exact (lenN (concat (a2_rows (qa_codes q)))))
      (fun data => mkQuant (qa_pq q) (mkA2 (pq_ql (qa_pq q)) (unflattenN (a2_nrows (qa_codes q)) (pq_ql (qa_pq q)) data)) (qa_norms q))
      _ _ (reads_exact _)) as R.
    cbv beta in R. rewrite EQ in R. exact R. }
  split; [split|].
  - discriminate.
  - apply qa_emits, H.
  - unfold read_quantized. apply reads_framed; [discriminate|].
    eapply reads_ext; [symmetry; apply qa_body_fseq|].
    eapply reads_bind; [exact QR|]. cbv beta iota.
    eapply reads_bind; [exact NR|]. cbv beta. exact KR.
  - intros pos. apply qa_frame_len, H.
  - unfold read_quantized. apply (short_framed CQuantizedArray); [discriminate|].
    eapply short_ext; [symmetry; apply qa_body_fseq|].
    eapply short_bind; [exact QR|exact QS|]. cbv beta iota.
    eapply short_bind; [exact NR|exact NS|]. cbv beta.
    apply short_alloc; auto. apply short_map. rewrite EL. apply short_exact.
Qed.

(** *** Mapped quantized matrix *)
Definition qa_mapped (q : quantized f32) : mmap_quantized :=
  mkMmq (qa_pq q)
    (mkMmap (a2_nrows (qa_codes q) * pq_ql (qa_pq q)) (concat (a2_rows (qa_codes q)))) (qa_norms q).

Lemma qa_mmap_reads pf q : qa_ok q ->
  reads (mmap_quantized_chunk pf) (framed 4 (qa_body q)) (qa_mapped q).
Proof.
  intros H. destruct (product_quantizer_codec q H) as [QR QS].
  destruct (quantized_norms_codec q H) as [NR NS].
  pose proof H as (_ & W & WC & _ & LC & _). apply dims2 in LC.
  unfold mmap_quantized_chunk. apply (reads_framed CQuantizedArray); [discriminate|].
  eapply reads_ext; [symmetry; apply qa_body_fseq|].
  eapply reads_bind; [exact QR|]. cbv beta iota.
  eapply reads_bind; [exact NR|]. cbv beta.
  eapply reads_lift; [apply mul64_ok; unfold isize_max, two64 in *; lia|]. cbv beta.
  apply (reads_mmap _ _ (fun m => ret (mkMmq (qa_pq q) m (qa_norms q)))).
  - rewrite (concat_lenN _ _ W), WC. reflexivity.
  - lia.
  - apply reads_ret.
Qed.

Lemma mmq_nrows_mapped q : qa_ok q -> mmq_nrows (qa_mapped q) = a2_nrows (qa_codes q).
Proof.
  intros (HP & _). apply pq_ok_pos in HP as (P1 & _). unfold mmq_nrows, qa_mapped.
  cbn [mq_map mq_pq mm_len]. apply N.div_mul. lia.
Qed.
Lemma mmq_codes_row_mapped q i : qa_ok q -> mmq_codes_row (qa_mapped q) i = a2_row (qa_codes q) i.
Proof.
  intros H. unfold mmq_codes_row. rewrite mmq_nrows_mapped by auto.
  destruct H as (_ & W & WC & _). unfold a2_row, index. cbn [qa_mapped mq_map mq_pq].
  destruct (N.ltb_spec i (a2_nrows (qa_codes q))) as [L|L].
  - destruct (nthN_lt (a2_rows (qa_codes q)) i L) as [r Hr]. rewrite Hr. unfold mm_read. cbn [mm_bytes].
    rewrite nd_data_len, <- WC by auto.
    destruct (N.leb_spec (i * a2_cols (qa_codes q) + a2_cols (qa_codes q))
       (a2_nrows (qa_codes q) * a2_cols (qa_codes q))) as [L2|L2]; [|nia].
    rewrite (concat_slice _ _ _ _ W Hr). reflexivity.
  - apply nthN_None in L. rewrite L. reflexivity.
Qed.
Lemma mmq_select_mapped q is : qa_ok q -> mmq_select (qa_mapped q) is = a2_select (qa_codes q) is.
Proof.
  intros H. unfold mmq_select, a2_select.
  rewrite (rmap_ext _ (a2_row (qa_codes q))) by (intros; apply mmq_codes_row_mapped; auto).
  destruct H as (_ & W & WC & _). cbn [qa_mapped mq_pq]. rewrite WC. reflexivity.
Qed.
Lemma mmq_codes_mapped q : qa_ok q -> mmq_codes (qa_mapped q) = Ok (qa_codes q).
Proof.
  intros H. unfold mmq_codes. rewrite mmq_nrows_mapped by auto.
  destruct H as (_ & W & WC & _). cbn [qa_mapped mq_pq mq_map]. unfold mm_read. cbn [mm_bytes].
  rewrite nd_data_len, <- WC by auto.
  destruct (N.leb_spec (0 + a2_nrows (qa_codes q) * a2_cols (qa_codes q))
    (a2_nrows (qa_codes q) * a2_cols (qa_codes q))); [|lia].
  cbn [rbind]. rewrite dropN_0, <- nd_data_len by auto. rewrite takeN_all, unflattenN_concat by auto.
  destruct (qa_codes q); reflexivity.
Qed.
Lemma mmq_to_quantized_mapped q : qa_ok q -> mmq_to_quantized (qa_mapped q) = Ok q.
Proof.
  intros H. unfold mmq_to_quantized. rewrite mmq_codes_mapped by auto. destruct q; reflexivity.
Qed.

Lemma mmq_ops_mapped gemm q : qa_ok q ->
  (forall i, st_embedding (mmq_ops gemm) (qa_mapped q) i = st_embedding (qa_ops f32_ops gemm) q i) /\
  (forall is, st_embeddings (mmq_ops gemm) (qa_mapped q) is = st_embeddings (qa_ops f32_ops gemm) q is) /\
  st_shape (mmq_ops gemm) (qa_mapped q) = st_shape (qa_ops f32_ops gemm) q /\
  (forall is, mmq_clone_from_mapping (qa_mapped q) is = qa_clone_from_mapping q is) /\
  mmq_reconstruct gemm (qa_mapped q) = qa_reconstruct f32_ops gemm q.
Proof.
  intros H. repeat split; cbn [st_embedding st_embeddings st_shape mmq_ops qa_ops].
  - intros i. unfold mmq_embedding, qa_embedding. rewrite mmq_codes_row_mapped by auto. reflexivity.
  - intros is. unfold mmq_embeddings, qa_embeddings. rewrite mmq_select_mapped by auto. reflexivity.
  - rewrite mmq_nrows_mapped by auto. reflexivity.
  - intros is. unfold mmq_clone_from_mapping, qa_clone_from_mapping. rewrite mmq_select_mapped by auto. reflexivity.
  - unfold mmq_reconstruct. rewrite mmq_to_quantized_mapped by auto. reflexivity.
Qed.

(** ** Wrappers: the identifier is inspected before reading *)
Lemma peek_framed {A} c body (k : chunk_id -> reader A) pos tail brk :
  c <> CHeader ->
  (x <- peek peek_chunk_id ;; k x) (mkBroken (framed (chunk_num c) body pos ++ tail) pos brk)
  = k c (mkBroken (framed (chunk_num c) body pos ++ tail) pos brk).
Proof.
  intros H. unfold bind at 1, peek.
  assert (peek_chunk_id (mkBroken (framed (chunk_num c) body pos ++ tail) pos brk)
    = (Ok c, mkBroken (dropN 4 (framed (chunk_num c) body pos ++ tail)) (pos + 4) brk)) as ->; [|reflexivity].
  unfold framed. rewrite <- !app_assoc. pose proof (reads_chunk_id c H pos) as R. unfold fconst in R.
  unfold peek_chunk_id. rewrite R, le_bytes_lenN. rewrite dropN_app_l by (rewrite le_bytes_lenN; reflexivity).
  reflexivity.
Qed.
Lemma reads_peek {A} c body (k : chunk_id -> reader A) a :
  c <> CHeader -> reads (k c) (framed (chunk_num c) body) a ->
  reads (x <- peek peek_chunk_id ;; k x) (framed (chunk_num c) body) a.
Proof. intros H R pos tail brk. rewrite peek_framed by auto. apply R. Qed.
Lemma short_peek {A} c body (k : chunk_id -> reader A) :
  c <> CHeader -> short (k c) (framed (chunk_num c) body) ->
  short (x <- peek peek_chunk_id ;; k x) (framed (chunk_num c) body).
Proof.
  intros H S pos p q brk E Hq. pose proof E as E0. unfold framed in E.
  apply app_eq_app_cases in E as [(d & Hd & E1 & E2)|(d & E1 & E2)].
  - destruct (short_chunk_id c pos p d brk E1 Hd) as (e & s' & X).
    exists e, s'. unfold bind at 1, peek, peek_chunk_id. rewrite X. reflexivity.
  - destruct (S pos p q brk E0 Hq) as (e & s' & X). exists e, s'. rewrite <- X.
    unfold bind at 1, peek, peek_chunk_id. rewrite E1. pose proof (reads_chunk_id c H pos d brk) as R.
    unfold fconst in R. rewrite R. reflexivity.
Qed.

Lemma codec_wrap {A B} (g : A -> B) id w m body len a m' :
  chunk_codec id w m body len a ->
  reads m' (framed (chunk_num id) body) (g a) ->
  chunk_codec id w m' body len (g a).
Proof. intros [H1 H2 H3 H4] R. split; auto. Qed.
