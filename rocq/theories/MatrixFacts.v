(** * Storages behave as matrices. *)
From Verif Require Import Base BaseFacts Utf8 F32 ChunkIO Subword Vocab Storage Embeddings FileSpec VocabSpec EmbSpec
  VocabFacts StorageFacts.
From Coq Require Import Lia Permutation.
Local Open Scope N_scope.

(** ** Lists *)
Lemma selects_length {A} (rows : list A) is rs : selects rows is rs -> length is = length rs.
Proof. induction 1; cbn [length]; auto. Qed.

Lemma selects_total {A} (rows : list A) is : Forall (fun i => i < lenN rows) is -> exists rs, selects rows is rs.
Proof.
  induction 1 as [|i is L F [rs IH]]; [exists []; constructor|].
  destruct (nthN_lt rows i L) as [r R]. exists (r :: rs). constructor; auto.
Qed.

Lemma selects_in {A} (rows : list A) is rs : selects rows is rs -> Forall (fun i => i < lenN rows) is.
Proof. induction 1; constructor; auto. eapply nthN_Some_lt; eauto. Qed.

Lemma selects_Forall {A} (P : A -> Prop) (rows : list A) is rs : selects rows is rs -> Forall P rows -> Forall P rs.
Proof.
  intros S F. induction S; constructor; auto. apply nthN_In in H. rewrite Forall_forall in F. auto.
Qed.

Lemma selects_rmap {A} (rows : list A) is rs : selects rows is rs -> rmap (index rows) is = Ok rs.
Proof.
  intros S. apply rmap_Ok. induction S as [|i r is rs H S IH]; constructor; auto. unfold index. rewrite H. reflexivity.
Qed.

Lemma selects_map {A B} (f : A -> B) rows is rs : selects rows is rs -> selects (map f rows) is (map f rs).
Proof.
  induction 1; constructor; auto. rewrite nthN_map, H. reflexivity.
Qed.

Lemma index_out {A} (l : list A) i : lenN l <= i -> index l i = Panic PIndexOutOfBounds.
Proof. intros H. unfold index. apply nthN_None in H. rewrite H. reflexivity. Qed.

Lemma rmap_panic {A B} (f : A -> res B) (P : A -> Prop) p l :
  Exists P l -> (forall a, P a -> f a = Panic p) -> (forall a, In a l -> ~ P a -> exists b, f a = Ok b) ->
  (forall a, P a \/ ~ P a) -> rmap f l = Panic p.
Proof.
  intros E HP HO D. induction l as [|a l IH]; [inv E|]. cbn [rmap].
  destruct (D a) as [H|H].
  - rewrite HP by auto. reflexivity.
  - destruct (HO a) as [b ->]; [left; auto|auto|]. cbn [rbind]. rewrite IH; [reflexivity| |].
    + inv E; [tauto|auto].
    + intros; apply HO; [right|]; auto.
Qed.

Lemma rmap_index_out {A} (rows : list A) is : Exists (fun i => lenN rows <= i) is ->
  rmap (index rows) is = Panic PIndexOutOfBounds.
Proof.
  intros E. apply rmap_panic with (P := fun i => lenN rows <= i); auto.
  - intros. apply index_out. auto.
  - intros i _ H. destruct (nthN_lt rows i) as [r R]; [lia|]. exists r. unfold index. rewrite R. reflexivity.
  - intros i. lia.
Qed.

(** ** Plain matrices *)
Lemma nd_matrix {F} (a : array2 F) : a2_wf a -> st_matrix (nd_ops F) a (a2_cols a) (a2_rows a).
Proof.
  intros W. constructor; cbn [st_shape st_embedding st_embeddings nd_ops]; auto.
  - intros i r H. unfold a2_row, index. rewrite H. reflexivity.
  - intros i H. apply index_out. auto.
  - intros is rs S. unfold a2_select. change (rmap (a2_row a) is) with (rmap (index (a2_rows a)) is). rewrite (selects_rmap _ _ _ S). reflexivity.
  - intros is E. unfold a2_select. change (rmap (a2_row a) is) with (rmap (index (a2_rows a)) is). rewrite rmap_index_out by auto. reflexivity.
Qed.

Lemma nd_clones {F} (a : array2 F) : a2_wf a ->
  clones nd_clone_from_mapping (nd_ops F) a (a2_cols a) (a2_rows a).
Proof.
  intros W is rs S. exists (mkA2 (a2_cols a) rs). split; [apply (sm_rows _ _ _ _ (nd_matrix a W)); auto|].
  apply (nd_matrix (mkA2 (a2_cols a) rs)). unfold a2_wf. cbn [a2_cols a2_rows].
  eapply selects_Forall; eauto.
Qed.

(** ** Memory-mapped matrices *)
Lemma unflatten_nth {A} n c (l : list A) i : (i < n)%nat ->
  nth_error (unflatten n c l) i = Some (firstn c (skipn (i * c) l)).
Proof.
  revert l i. induction n as [|n IH]; intros l i H; [lia|]. cbn [unflatten].
  destruct i as [|i]; [reflexivity|]. cbn [nth_error]. rewrite IH by lia. rewrite skipn_skipn'. do 3 f_equal. lia.
Qed.
Lemma unflatten_length {A} n c (l : list A) : length (unflatten n c l) = n.
Proof. revert l. induction n; intros; cbn [unflatten length]; auto. Qed.

Lemma unflatten_wf {A} n c (l : list A) : (n * c <= length l)%nat -> Forall (fun r => length r = c) (unflatten n c l).
Proof.
  revert l. induction n as [|n IH]; intros l H; [constructor|]. cbn [unflatten]. constructor.
  - rewrite firstn_length. lia.
  - apply IH. rewrite skipn_length. lia.
Qed.

Lemma f32s_of_bytes_firstn n l : f32s_of_bytes (firstn (4 * n) l) = firstn n (f32s_of_bytes l).
Proof.
  revert l. induction n as [|n IH]; intros l; [reflexivity|].
  replace (4 * S n)%nat with (S (S (S (S (4 * n))))) by lia.
  destruct l as [|a [|b [|c [|d l]]]]; cbn [firstn f32s_of_bytes]; try reflexivity.
  rewrite IH. reflexivity.
Qed.
Lemma f32s_of_bytes_skipn n l : f32s_of_bytes (skipn (4 * n) l) = skipn n (f32s_of_bytes l).
Proof.
  revert l. induction n as [|n IH]; intros l; [reflexivity|].
  replace (4 * S n)%nat with (S (S (S (S (4 * n))))) by lia.
  destruct l as [|a [|b [|c [|d l]]]]; cbn [skipn f32s_of_bytes]; try (rewrite ?skipn_nil; reflexivity).
  apply IH.
Qed.
Lemma f32s_of_bytes_len n l : (4 * n <= length l)%nat -> (n <= length (f32s_of_bytes l))%nat.
Proof.
  revert l. induction n as [|n IH]; intros l H; [lia|].
  destruct l as [|a [|b [|c [|d l]]]]; cbn [length] in H; try lia. cbn [f32s_of_bytes length].
  apply le_n_S, IH. lia.
Qed.

Lemma mma_view_Ok m a : mma_view m = Ok a -> a2_wf a /\ a2_nrows a = ma_rows m /\ a2_cols a = ma_cols m /\
  forall i, mma_row m i = a2_row a i.
Proof.
  intros H. unfold mma_view, mm_read in H.
  destruct (N.leb_spec (0 + ma_rows m * (ma_cols m * 4)) (lenN (mm_bytes (ma_map m)))) as [L|]; [|discriminate].
  cbn [rbind] in H. inv H. unfold a2_wf, a2_nrows. cbn [a2_rows a2_cols].
  set (bs := mm_bytes (ma_map m)) in *. set (r := ma_rows m) in *. set (c := ma_cols m) in *.
  rewrite dropN_0.
  assert (takeN (r * (c * 4)) bs = firstn (4 * (N.to_nat r * N.to_nat c)) bs) as E.
  { unfold takeN. f_equal. lia. }
  rewrite E, f32s_of_bytes_firstn.
  assert (N.to_nat r * N.to_nat c <= length (f32s_of_bytes bs))%nat as L'.
  { apply f32s_of_bytes_len. unfold lenN in L. lia. }
  split; [|split; [|split; [reflexivity|]]].
  - unfold unflattenN. eapply Forall_impl; [|apply unflatten_wf; rewrite firstn_length; lia].
    intros x Hx. cbn beta in Hx. unfold lenN. lia.
  - unfold lenN, unflattenN. rewrite unflatten_length. lia.
  - intros i. unfold mma_row, a2_row, index. cbn [a2_rows]. fold r. destruct (N.ltb_spec i r) as [Li|Li].
    + rewrite nthN_spec. unfold unflattenN. rewrite unflatten_nth by lia.
      unfold mm_read. fold bs c. destruct (N.leb_spec (i * (c * 4) + c * 4) (lenN bs)) as [|Bad]; [|nia].
      cbn [rbind]. f_equal. unfold takeN, dropN.
      replace (N.to_nat (c * 4)) with (4 * N.to_nat c)%nat by lia.
      replace (N.to_nat (i * (c * 4))) with (4 * (N.to_nat i * N.to_nat c))%nat by lia.
      rewrite f32s_of_bytes_firstn, f32s_of_bytes_skipn.
      rewrite skipn_firstn_comm, firstn_firstn. f_equal. nia.
    + assert (lenN (unflattenN r c (firstn (N.to_nat r * N.to_nat c) (f32s_of_bytes bs))) <= i) as O.
      { unfold lenN, unflattenN. rewrite unflatten_length. lia. }
      apply nthN_None in O. rewrite O. reflexivity.
Qed.

Lemma mma_ops_view m a : mma_view m = Ok a ->
  (forall i, st_embedding mma_ops m i = st_embedding (nd_ops f32) a i) /\
  (forall is, st_embeddings mma_ops m is = st_embeddings (nd_ops f32) a is) /\
  st_shape mma_ops m = st_shape (nd_ops f32) a.
Proof.
  intros H. apply mma_view_Ok in H as (W & R & C & E).
  cbn [st_embedding st_embeddings st_shape mma_ops nd_ops]. split; [auto|]. split; [|congruence].
  intros is. unfold a2_select. rewrite (rmap_ext _ (a2_row a)) by (intros; apply E). rewrite C. reflexivity.
Qed.

Lemma st_matrix_ext {F S S'} (SO : storage_ops F S) (SO' : storage_ops F S') s s' cols rows :
  (forall i, st_embedding SO s i = st_embedding SO' s' i) ->
  (forall is, st_embeddings SO s is = st_embeddings SO' s' is) ->
  st_shape SO s = st_shape SO' s' ->
  st_matrix SO' s' cols rows -> st_matrix SO s cols rows.
Proof. intros H1 H2 H3 []. constructor; intros; rewrite ?H1, ?H2, ?H3; auto. Qed.

Lemma mma_matrix m a : mma_view m = Ok a -> st_matrix mma_ops m (a2_cols a) (a2_rows a).
Proof.
  intros H. destruct (mma_ops_view m a H) as (H1 & H2 & H3). apply mma_view_Ok in H as (W & _).
  eapply st_matrix_ext; eauto. apply nd_matrix. auto.
Qed.

Lemma mma_clones m a : mma_view m = Ok a ->
  clones mma_clone_from_mapping (nd_ops f32) m (a2_cols a) (a2_rows a).
Proof.
  intros H is rs S. destruct (mma_ops_view m a H) as (_ & H2 & _). apply mma_view_Ok in H as (W & _).
  unfold mma_clone_from_mapping. rewrite H2. apply (nd_clones a W); auto.
Qed.

(** ** Quantized matrices *)
Section Quantized.
  Context {F : Type} (o : fops F) (gemm : array2 F -> list (list F) -> list (list F)).

  Lemma pq_concat_chosen_ nc sl cent codes :
    Forall (fun sub : list (list F) => lenN sub = nc /\ Forall (fun v => lenN v = sl) sub) cent ->
    Forall (fun c => bN c < nc) codes -> length cent = length codes ->
    pq_concat cent codes = Ok (concat (zip_with (fun sub c => nth (N.to_nat (bN c)) sub []) cent codes)) /\
    lenN (concat (zip_with (fun sub c => nth (N.to_nat (bN c)) sub []) cent codes)) = lenN codes * sl.
  Proof.
    intros FC FB. revert cent FC. induction FB as [|c codes Hc FB IH]; intros [|sub cent] FC L; try discriminate.
    - split; reflexivity.
    - apply Forall_inv in FC as FH. apply Forall_inv_tail in FC. destruct FH as [L1 L2].
      cbn [pq_concat zip_with concat]. cbn [length] in L.
      destruct (IH cent FC) as [E1 E2]; [lia|].
      assert (nthN sub (bN c) = Some (nth (N.to_nat (bN c)) sub [])) as NT.
      { rewrite nthN_spec. apply nth_error_nth'. unfold lenN in L1. lia. }
      unfold index. rewrite NT. cbn [rbind]. rewrite E1. cbn [rbind]. split; [reflexivity|].
      rewrite lenN_app, E2, lenN_cons. rewrite Forall_forall in L2. rewrite L2 by (eapply nthN_In; eauto). lia.
  Qed.

  Context (q : quantized F).
  Hypothesis U : qa_usable q.
  Hypothesis G : gemm_exact o gemm q.

  Definition code_ok (codes : list byte) : Prop :=
    lenN codes = pq_ql (qa_pq q) /\ Forall (fun c => bN c < pq_nc (qa_pq q)) codes.

  Lemma pq_concat_chosen codes : code_ok codes ->
    pq_concat (pq_cent (qa_pq q)) codes = Ok (chosen (qa_pq q) codes) /\ lenN (chosen (qa_pq q) codes) = pq_rl (qa_pq q).
  Proof.
    intros [L B]. destruct (pq_concat_chosen_ (pq_nc (qa_pq q)) (pq_sub (qa_pq q)) (pq_cent (qa_pq q)) codes) as [E1 E2].
    - apply (qu_sub _ U).
    - auto.
    - pose proof (qu_cent _ U). unfold lenN in *. lia.
    - split; [exact E1|]. unfold chosen. rewrite E2, L. reflexivity.
  Qed.

  Lemma projected_len v : lenN v = pq_rl (qa_pq q) -> lenN (projected o (qa_pq q) v) = pq_rl (qa_pq q).
  Proof.
    intros L. unfold projected. destruct (pq_proj (qa_pq q)) as [m|] eqn:E; [|auto].
    rewrite lenN_map. apply (qu_proj _ U). auto.
  Qed.

  Lemma with_norm_len ns i v : lenN (with_norm o ns i v) = lenN v.
  Proof. destruct ns; [apply lenN_map|reflexivity]. Qed.

  (** What is stored for row [i]. *)
  Definition full_row (i : nat) : list F :=
    with_norm o (qa_norms q) i (projected o (qa_pq q) (chosen (qa_pq q) (nth i (a2_rows (qa_codes q)) []))).

  Lemma quantized_rows_len : lenN (quantized_rows o q) = a2_nrows (qa_codes q).
  Proof. unfold quantized_rows, a2_nrows, lenN. rewrite map_length, seq_length. reflexivity. Qed.

  Lemma quantized_rows_nth i r : nthN (quantized_rows o q) i = Some r ->
    i < a2_nrows (qa_codes q) /\ r = full_row (N.to_nat i) /\
    nthN (a2_rows (qa_codes q)) i = Some (nth (N.to_nat i) (a2_rows (qa_codes q)) []) /\
    code_ok (nth (N.to_nat i) (a2_rows (qa_codes q)) []).
  Proof.
    intros H. apply nthN_Some_lt in H as L. rewrite quantized_rows_len in L. split; [auto|].
    unfold quantized_rows in H. unfold a2_nrows, lenN in L. rewrite nthN_map, nthN_spec, nth_error_seq in H by lia.
    inv H. split; [reflexivity|].
    assert (nthN (a2_rows (qa_codes q)) i = Some (nth (N.to_nat i) (a2_rows (qa_codes q)) [])) as NT.
    { rewrite nthN_spec. apply nth_error_nth'. lia. }
    split; [auto|]. pose proof (qu_codes _ U) as C. rewrite Forall_forall in C. apply C. eapply nthN_In; eauto.
  Qed.

  Lemma norm_nth ns i : qa_norms q = Some ns -> i < a2_nrows (qa_codes q) ->
    index ns i = Ok (nth (N.to_nat i) ns (fzero o)).
  Proof.
    intros E L. pose proof (qu_norms _ U ns E) as LN. unfold index. rewrite nthN_spec.
    erewrite nth_error_nth'; [reflexivity|]. unfold lenN in LN. lia.
  Qed.

  Lemma qa_matrix : st_matrix (qa_ops o gemm) q (pq_rl (qa_pq q)) (quantized_rows o q).
  Proof.
    constructor; cbn [st_shape st_embedding st_embeddings qa_ops].
    - rewrite quantized_rows_len. reflexivity.
    - apply Forall_forall. intros r H. apply In_nthN in H as [i H].
      apply quantized_rows_nth in H as (L & -> & NT & CO). unfold full_row. rewrite with_norm_len.
      apply projected_len, pq_concat_chosen. auto.
    - intros i r H. apply quantized_rows_nth in H as (L & -> & NT & CO).
      unfold qa_embedding, a2_row. unfold index at 1. rewrite NT. cbn [rbind]. unfold pq_reconstruct.
      destruct (pq_concat_chosen _ CO) as [E _]. rewrite E. cbn [rbind].
      unfold full_row, with_norm. destruct (qa_norms q) as [ns|] eqn:N; [|reflexivity].
      rewrite (norm_nth ns i N L). reflexivity.
    - intros i L. rewrite quantized_rows_len in L. unfold qa_embedding, a2_row.
      rewrite index_out by auto. reflexivity.
    - intros is rs S. unfold qa_embeddings, a2_select.
      assert (rmap (a2_row (qa_codes q)) is = Ok (map (fun i => nth (N.to_nat i) (a2_rows (qa_codes q)) []) is)) as E1.
      { apply rmap_pure. intros i Hi. apply selects_in in S. rewrite Forall_forall in S. apply S in Hi.
        destruct (nthN_lt _ _ Hi) as [r R]. apply quantized_rows_nth in R as (_ & _ & NT & _).
        unfold a2_row, index. rewrite NT. reflexivity. }
      rewrite E1. cbn [rbind]. unfold pq_reconstruct_batch. cbn [a2_rows].
      assert (rmap (pq_concat (pq_cent (qa_pq q))) (map (fun i => nth (N.to_nat i) (a2_rows (qa_codes q)) []) is)
        = Ok (map (fun i => chosen (qa_pq q) (nth (N.to_nat i) (a2_rows (qa_codes q)) [])) is)) as E2.
      { rewrite <- (map_map (fun i => nth (N.to_nat i) (a2_rows (qa_codes q)) []) (chosen (qa_pq q))).
        apply rmap_pure. intros codes Hc. apply in_map_iff in Hc as (i & <- & Hi).
        apply selects_in in S. rewrite Forall_forall in S. apply S in Hi.
        destruct (nthN_lt _ _ Hi) as [r R]. apply quantized_rows_nth in R as (_ & _ & _ & CO).
        apply pq_concat_chosen. auto. }
      rewrite E2. cbn [rbind].
      set (vs := map (fun i => chosen (qa_pq q) (nth (N.to_nat i) (a2_rows (qa_codes q)) [])) is).
      assert ((match pq_proj (qa_pq q) with None => vs | Some p => gemm p vs end) = map (projected o (qa_pq q)) vs) as E3.
      { unfold projected. destruct (pq_proj (qa_pq q)) as [m|] eqn:P; [apply G; auto|]. rewrite map_id. reflexivity. }
      rewrite E3. cbn [a2_cols a2_rows].
      assert (rs = map (fun i => full_row (N.to_nat i)) is) as ER.
      { clear -S U. induction S as [|i r is rs H S IH]; [reflexivity|].
        apply quantized_rows_nth in H as (_ & -> & _). cbn [map]. rewrite IH. reflexivity. }
      subst rs vs. rewrite map_map. unfold full_row, with_norm.
      destruct (qa_norms q) as [ns|] eqn:N; [|reflexivity].
      assert (a1_select ns is = Ok (map (fun i => nth (N.to_nat i) ns (fzero o)) is)) as E4.
      { unfold a1_select. apply rmap_pure. intros i Hi. apply (norm_nth ns i N).
        apply selects_in in S. rewrite Forall_forall in S. apply S in Hi. rewrite quantized_rows_len in Hi. auto. }
      rewrite E4. cbn [rbind]. do 2 f_equal. unfold scale_rows, vscale.
      clear. induction is as [|i is IH]; [reflexivity|]. cbn [map zip_with]. rewrite IH. reflexivity.
    - intros is E. rewrite quantized_rows_len in E. unfold qa_embeddings, a2_select.
      replace (rmap (a2_row (qa_codes q)) is) with (@Panic (list (list byte)) PIndexOutOfBounds); [reflexivity|].
      symmetry. apply rmap_index_out. auto.
  Qed.

  Lemma qa_reconstruct_rows : qa_reconstruct o gemm q = Ok (mkA2 (pq_rl (qa_pq q)) (quantized_rows o q)).
  Proof.
    unfold qa_reconstruct, pq_reconstruct_batch.
    set (codes := a2_rows (qa_codes q)).
    assert (rmap (pq_concat (pq_cent (qa_pq q))) codes = Ok (map (chosen (qa_pq q)) codes)) as E1.
    { apply rmap_pure. intros c Hc. apply pq_concat_chosen.
      pose proof (qu_codes _ U) as C. rewrite Forall_forall in C. apply C. auto. }
    rewrite E1. cbn [rbind]. set (vs := map (chosen (qa_pq q)) codes).
    assert ((match pq_proj (qa_pq q) with None => vs | Some p => gemm p vs end) = map (projected o (qa_pq q)) vs) as E3.
    { unfold projected. destruct (pq_proj (qa_pq q)) as [m|] eqn:P; [apply G; auto|]. rewrite map_id. reflexivity. }
    rewrite E3. unfold a2_nrows. cbn [a2_cols a2_rows]. subst vs.
    assert (map (projected o (qa_pq q)) (map (chosen (qa_pq q)) codes)
      = map (fun i => projected o (qa_pq q) (chosen (qa_pq q) (nth i codes []))) (seq 0 (length codes))) as E4.
    { rewrite map_map. rewrite <- (map_map (fun i => nth i codes []) (fun c => projected o (qa_pq q) (chosen (qa_pq q) c))).
      f_equal. clear. induction codes as [|c cs IH]; [reflexivity|]. cbn [length seq map nth].
      f_equal. rewrite <- seq_shift, map_map. cbn [nth]. exact IH. }
    rewrite E4. unfold quantized_rows. fold codes. unfold with_norm.
    destruct (qa_norms q) as [ns|] eqn:N; [|reflexivity].
    pose proof (qu_norms _ U ns N) as LN. unfold a2_nrows in LN. fold codes in LN.
    assert (forall (B : Type) (f : nat -> B), lenN (map f (seq 0 (length codes))) = lenN codes) as LS
      by (intros; rewrite lenN_map; unfold lenN; rewrite seq_length; reflexivity).
    rewrite LS, LN, N.eqb_refl. cbn [orb rassert rbind]. do 2 f_equal. unfold scale_rows, vscale.
    apply nth_error_ext'. intros i.
    assert (forall (A B : list (list F)) (f : list F -> F -> list F) ns' i, nth_error (zip_with f A ns') i
       = match nth_error A i, nth_error ns' i with Some a, Some n => Some (f a n) | _, _ => None end) as Z.
    { clear. intros A _ f. induction A as [|a A IH]; intros [|n ns'] [|i]; cbn [zip_with nth_error]; auto.
      - destruct (nth_error A i); reflexivity. }
    rewrite Z by exact []. rewrite !nth_error_map. destruct (Nat.lt_ge_cases i (length codes)) as [L|L].
    - rewrite nth_error_seq by auto. cbn [option_map]. rewrite (nth_error_nth' ns (fzero o)) by (unfold lenN in LN; lia).
      reflexivity.
    - replace (nth_error (seq 0 (length codes)) i) with (@None nat); [reflexivity|].
      symmetry. apply nth_error_None. rewrite seq_length. auto.
  Qed.

  Lemma qa_clone_usable is rs : selects (quantized_rows o q) is rs ->
    exists q', qa_clone_from_mapping q is = Ok q' /\ qa_usable q' /\ gemm_exact o gemm q' /\
    qa_pq q' = qa_pq q /\ quantized_rows o q' = rs.
  Proof.
    intros S. unfold qa_clone_from_mapping, a2_select.
    assert (forall i, In i is -> i < a2_nrows (qa_codes q) /\ code_ok (nth (N.to_nat i) (a2_rows (qa_codes q)) []) /\
       a2_row (qa_codes q) i = Ok (nth (N.to_nat i) (a2_rows (qa_codes q)) [])) as IN.
    { intros i Hi. pose proof (selects_in _ _ _ S) as SI. rewrite Forall_forall in SI. apply SI in Hi.
      destruct (nthN_lt _ _ Hi) as [r R]. apply quantized_rows_nth in R as (L & _ & NT & CO).
      split; [auto|]. split; [auto|]. unfold a2_row, index. rewrite NT. reflexivity. }
    rewrite (rmap_pure _ (fun i => nth (N.to_nat i) (a2_rows (qa_codes q)) []) is) by (intros; apply IN; auto).
    cbn [rbind].
    assert ((match qa_norms q with None => Ok None | Some n => let* n' := a1_select n is in Ok (Some n') end)
      = Ok (option_map (fun ns => map (fun i => nth (N.to_nat i) ns (fzero o)) is) (qa_norms q))) as EN.
    { destruct (qa_norms q) as [ns|] eqn:N; [|reflexivity]. unfold a1_select.
      rewrite (rmap_pure _ (fun i => nth (N.to_nat i) ns (fzero o))) by (intros; apply (norm_nth ns _ N); apply IN; auto).
      reflexivity. }
    rewrite EN. cbn [rbind]. eexists. split; [reflexivity|].
    split; [|split; [|split; [reflexivity|]]].
    - constructor; cbn [qa_pq qa_codes qa_norms a2_rows]; try apply U.
      + apply Forall_forall. intros r Hr. apply in_map_iff in Hr as (i & <- & Hi). apply IN. auto.
      + intros ns' E. unfold a2_nrows. cbn [a2_rows]. rewrite lenN_map.
        destruct (qa_norms q); inv E. apply lenN_map.
    - exact G.
    - unfold quantized_rows at 1. cbn [qa_pq qa_codes qa_norms a2_rows]. rewrite map_length.
      assert (rs = map (fun i => full_row (N.to_nat i)) is) as ->.
      { clear -S U. induction S as [|i r is rs H S IH]; [reflexivity|].
        apply quantized_rows_nth in H as (_ & -> & _). cbn [map]. rewrite IH. reflexivity. }
      clear. apply nth_error_ext'. intros j. rewrite !nth_error_map.
      destruct (Nat.lt_ge_cases j (length is)) as [L|L].
      + rewrite nth_error_seq by auto. rewrite (nth_error_nth' is 0) by auto. cbn [option_map]. f_equal.
        unfold full_row, with_norm. cbn [Nat.add].
        assert (forall {B} (f : N -> B) d, nth j (map f is) d = f (nth j is 0)) as NM.
        { intros B f d. erewrite nth_indep by (rewrite map_length; exact L). apply map_nth. }
        rewrite NM. destruct (qa_norms q); cbn [option_map]; [rewrite NM|]; reflexivity.
      + replace (nth_error (seq 0 (length is)) j) with (@None nat)
          by (symmetry; apply nth_error_None; rewrite seq_length; auto).
        replace (nth_error is j) with (@None N) by (symmetry; apply nth_error_None; auto). reflexivity.
  Qed.
End Quantized.

Lemma qa_clones {F} (o : fops F) gemm q : qa_usable q -> gemm_exact o gemm q ->
  clones qa_clone_from_mapping (qa_ops o gemm) q (pq_rl (qa_pq q)) (quantized_rows o q).
Proof.
  intros U G is rs S. destruct (qa_clone_usable o gemm q U G is rs S) as (q' & E & U' & G' & EP & ER).
  exists q'. split; [auto|]. rewrite <- EP, <- ER. apply qa_matrix; auto.
Qed.

(** *** Memory-mapped *)
Lemma mmq_codes_Ok m q : mmq_to_quantized m = Ok q -> pq_ql (mq_pq m) <> 0 ->
  qa_pq q = mq_pq m /\ qa_norms q = mq_norms m /\ a2_nrows (qa_codes q) = mmq_nrows m /\
  a2_cols (qa_codes q) = pq_ql (mq_pq m) /\
  forall i, mmq_codes_row m i = a2_row (qa_codes q) i.
Proof.
  intros H NZ. unfold mmq_to_quantized, mmq_codes, mm_read in H.
  set (bs := mm_bytes (mq_map m)) in *. set (r := mmq_nrows m) in *. set (c := pq_ql (mq_pq m)) in *.
  destruct (N.leb_spec (0 + r * c) (lenN bs)) as [L|]; [|discriminate]. cbn [rbind] in H. inv H.
  cbn [qa_pq qa_norms qa_codes]. unfold a2_nrows. cbn [a2_rows a2_cols]. rewrite dropN_0.
  split; [reflexivity|]. split; [reflexivity|]. split; [unfold lenN, unflattenN; rewrite unflatten_length; lia|].
  split; [reflexivity|].
  intros i. unfold mmq_codes_row, a2_row, index. cbn [a2_rows]. fold r c. destruct (N.ltb_spec i r) as [Li|Li].
  - rewrite nthN_spec. unfold unflattenN. rewrite unflatten_nth by lia. unfold mm_read. fold bs.
    destruct (N.leb_spec (i * c + c) (lenN bs)) as [|Bad]; [|nia].
    f_equal. unfold takeN, dropN. rewrite skipn_firstn_comm, firstn_firstn. f_equal; [nia|f_equal; lia].
  - assert (lenN (unflattenN r c (takeN (r * c) bs)) <= i) as O.
    { unfold lenN, unflattenN. rewrite unflatten_length. lia. }
    apply nthN_None in O. rewrite O. reflexivity.
Qed.

Lemma mmq_ops_view gemm m q : mmq_to_quantized m = Ok q -> pq_ql (mq_pq m) <> 0 ->
  (forall i, st_embedding (mmq_ops gemm) m i = st_embedding (qa_ops f32_ops gemm) q i) /\
  (forall is, st_embeddings (mmq_ops gemm) m is = st_embeddings (qa_ops f32_ops gemm) q is) /\
  st_shape (mmq_ops gemm) m = st_shape (qa_ops f32_ops gemm) q /\
  (forall is, mmq_clone_from_mapping m is = qa_clone_from_mapping q is) /\
  mmq_reconstruct gemm m = qa_reconstruct f32_ops gemm q.
Proof.
  intros H NZ. pose proof H as H'. apply mmq_codes_Ok in H as (E1 & E2 & E3 & E4 & E5); [|auto].
  cbn [st_embedding st_embeddings st_shape mmq_ops qa_ops].
  assert (forall is, mmq_select m is = a2_select (qa_codes q) is) as SEL.
  { intros is. unfold mmq_select, a2_select. rewrite (rmap_ext _ (a2_row (qa_codes q))) by (intros; apply E5).
    rewrite E4. reflexivity. }
  split; [|split; [|split; [|split]]].
  - intros i. unfold mmq_embedding, qa_embedding. rewrite E5, E1, E2. reflexivity.
  - intros is. unfold mmq_embeddings, qa_embeddings. rewrite SEL, E1, E2. reflexivity.
  - rewrite E1, E3. reflexivity.
  - intros is. unfold mmq_clone_from_mapping, qa_clone_from_mapping. rewrite SEL, E1, E2. reflexivity.
  - unfold mmq_reconstruct. rewrite H'. reflexivity.
Qed.

(** ** All storages *)
Lemma storage_matrix gemm s cols rows : holds_matrix gemm s cols rows ->
  st_matrix (swrap_ops gemm) s cols rows.
Proof.
  intros H. destruct H as [a W|q U G|m a V|m q V NZ U G].
  - eapply st_matrix_ext with (SO' := nd_ops f32) (s' := a); try reflexivity. apply nd_matrix. auto.
  - eapply st_matrix_ext with (SO' := qa_ops f32_ops gemm) (s' := q); try reflexivity. apply qa_matrix; auto.
  - eapply st_matrix_ext with (SO' := mma_ops) (s' := m); try reflexivity. apply mma_matrix. auto.
  - destruct (mmq_ops_view gemm m q V NZ) as (H1 & H2 & H3 & _).
    eapply st_matrix_ext with (SO' := qa_ops f32_ops gemm) (s' := q); [exact H1|exact H2|exact H3|]. apply qa_matrix; auto.
Qed.

Lemma storage_clones gemm s cols rows : holds_matrix gemm s cols rows ->
  forall is rs, selects rows is rs -> exists s', swrap_clone_from_mapping s is = Ok s' /\ holds_matrix gemm s' cols rs.
Proof.
  intros H is rs S. destruct H as [a W|q U G|m a V|m q V NZ U G]; cbn [swrap_clone_from_mapping].
  - exists (SNdArray (mkA2 (a2_cols a) rs)). unfold nd_clone_from_mapping.
    rewrite (sm_rows _ _ _ _ (nd_matrix a W) is rs S). split; [reflexivity|].
    apply (hm_nd gemm (mkA2 (a2_cols a) rs)). unfold a2_wf. eapply selects_Forall; eauto.
  - destruct (qa_clone_usable f32_ops gemm q U G is rs S) as (q' & E & U' & G' & EP & ER).
    exists (SQuantized q'). rewrite E. split; [reflexivity|]. rewrite <- EP, <- ER. constructor; auto.
  - exists (SNdArray (mkA2 (a2_cols a) rs)). destruct (mma_ops_view m a V) as (_ & H2 & _).
    apply mma_view_Ok in V as (W & _). unfold mma_clone_from_mapping. rewrite H2.
    rewrite (sm_rows _ _ _ _ (nd_matrix a W) is rs S). split; [reflexivity|].
    apply (hm_nd gemm (mkA2 (a2_cols a) rs)). unfold a2_wf. eapply selects_Forall; eauto.
  - destruct (mmq_ops_view gemm m q V NZ) as (_ & _ & _ & H4 & _). rewrite H4.
    destruct (qa_clone_usable f32_ops gemm q U G is rs S) as (q' & E & U' & G' & EP & ER).
    exists (SQuantized q'). rewrite E. split; [reflexivity|]. rewrite <- EP, <- ER. constructor; auto.
Qed.

(** [Reconstruct] with norms of any number: one for each row, one for all
    rows, or a panic. *)
Lemma reconstruct_norms {F} (o : fops F) gemm p codes ns : qa_usable (mkQuant p codes None) -> gemm_exact o gemm (mkQuant p codes None) ->
  let rows := quantized_rows o (mkQuant p codes None) in
  qa_reconstruct o gemm (mkQuant p codes None) = Ok (mkA2 (pq_rl p) rows) /\
  (lenN ns = a2_nrows codes -> qa_reconstruct o gemm (mkQuant p codes (Some ns)) = Ok (mkA2 (pq_rl p) (zip_with (fun r n => map (fun x => fmul o x n) r) rows ns))) /\
  (forall n, ns = [n] -> a2_nrows codes <> 1 ->
    qa_reconstruct o gemm (mkQuant p codes (Some ns)) = Ok (mkA2 (pq_rl p) (map (map (fun x => fmul o x n)) rows))) /\
  (lenN ns <> a2_nrows codes -> lenN ns <> 1 -> qa_reconstruct o gemm (mkQuant p codes (Some ns)) = Panic PAssert).
Proof.
  intros U G rows. pose proof (qa_reconstruct_rows o gemm _ U G) as R. fold rows in R. cbn [qa_pq] in R. split; [exact R|].
  assert (lenN rows = a2_nrows codes) as L by apply (quantized_rows_len o (mkQuant p codes None)).
  unfold qa_reconstruct in *. cbn [qa_pq qa_codes qa_norms] in *.
  destruct (pq_reconstruct_batch gemm p codes) as [a| |]; [|discriminate..]. cbn [rbind] in R. injection R as ->. cbn [rbind].
  assert (a2_nrows (mkA2 (pq_rl p) rows) = a2_nrows codes) as -> by exact L. cbn [a2_rows a2_cols].
  split; [|split].
  - intros E. rewrite E, N.eqb_refl. reflexivity.
  - intros n -> N1. change (lenN [n]) with 1. rewrite (proj2 (N.eqb_neq 1 (a2_nrows codes))) by lia. cbn [orb rassert rbind]. rewrite N.eqb_refl. cbn [rassert rbind].
    do 2 f_equal. clear. unfold scale_rows. induction rows as [|r rows IH]; [reflexivity|]. cbn [length repeat concat app zip_with map]. rewrite IH. reflexivity.
  - intros E1 E2. rewrite (proj2 (N.eqb_neq _ _) E1), (proj2 (N.eqb_neq _ _) E2). reflexivity.
Qed.

(** [Reconstruct] of the quantized storages. *)
Lemma storage_reconstruct gemm s cols rows : holds_matrix gemm s cols rows ->
  match s with
  | SQuantized q => qa_reconstruct f32_ops gemm q = Ok (mkA2 cols rows)
  | SMmapQuantized m => mmq_reconstruct gemm m = Ok (mkA2 cols rows)
  | SNdArray a => a = mkA2 cols rows
  | SMmapArray m => mma_view m = Ok (mkA2 cols rows)
  end.
Proof.
  intros H. destruct H as [a W|q U G|m a V|m q V NZ U G].
  - destruct a; reflexivity.
  - apply qa_reconstruct_rows; auto.
  - rewrite V. destruct a; reflexivity.
  - destruct (mmq_ops_view gemm m q V NZ) as (_ & _ & _ & _ & ->). apply qa_reconstruct_rows; auto.
Qed.

(** Every operation stacks single lookups; two ways to ask agree. *)
Lemma matrix_stacks {F S} (SO : storage_ops F S) s cols rows : st_matrix SO s cols rows ->
  forall is, st_embeddings SO s is = (let* rs := rmap (st_embedding SO s) is in Ok (mkA2 (snd (st_shape SO s)) rs)).
Proof.
  intros M is. rewrite (sm_shape _ _ _ _ M). cbn [snd].
  rewrite (rmap_ext _ (index rows)).
  - assert (forall i, {i < lenN rows} + {~ i < lenN rows}) as D
      by (intros i; destruct (i <? lenN rows) eqn:E; [left|right]; lia).
    destruct (Forall_Exists_dec _ D is) as [H|H].
    + apply selects_total in H as [rs H]. rewrite (sm_rows _ _ _ _ M is rs H), (selects_rmap _ _ _ H). reflexivity.
    + assert (Exists (fun i => lenN rows <= i) is) as H' by (eapply Exists_impl; [|exact H]; cbn beta; intros; lia).
      rewrite (sm_rows_out _ _ _ _ M is H'), rmap_index_out by auto. reflexivity.
  - intros i _. destruct (N.lt_ge_cases i (lenN rows)) as [L|L].
    + destruct (nthN_lt rows i L) as [r R]. rewrite (sm_row _ _ _ _ M i r R). unfold index. rewrite R. reflexivity.
    + rewrite (sm_out _ _ _ _ M i L), index_out by auto. reflexivity.
Qed.
