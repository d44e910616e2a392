(** * Where the numbers of a file are. *)
From Verif Require Import Base BaseFacts Utf8 Stream StreamFacts F32 ChunkIO Subword Vocab Storage Embeddings FileSpec
  ChunkFacts StorageFacts FileFacts FileThms.
Local Open Scope N_scope.

(** The same number of norms, or none. *)
Definition same_norms (ns ns' : option (list f32)) : Prop :=
  match ns, ns' with Some l, Some l' => lenN l = lenN l' | None, None => True | _, _ => False end.
Definition norm_numbers (ns : option (list f32)) : list f32 := match ns with Some l => l | None => [] end.
Definition same_shape (a a' : array2 f32) : Prop :=
  a2_wf a' /\ a2_nrows a' = a2_nrows a /\ a2_cols a' = a2_cols a.

Lemma concat_wf_len {A} (rows : list (list A)) c : Forall (fun r => lenN r = c) rows -> lenN (concat rows) = lenN rows * c.
Proof. induction 1 as [|r rows H F IH]; [reflexivity|]. cbn [concat]. rewrite lenN_app, lenN_cons, IH, H. lia. Qed.
Lemma concat_nth {A} (rows : list (list A)) c i j r x : Forall (fun r => lenN r = c) rows -> nthN rows i = Some r -> nthN r j = Some x ->
  exists l l', concat rows = l ++ x :: l' /\ lenN l = i * c + j.
Proof.
  intros F HI HJ. destruct (nthN_split _ _ _ HI) as (l1 & l2 & -> & L1). destruct (nthN_split _ _ _ HJ) as (k1 & k2 & -> & L2).
  exists (concat l1 ++ k1), (k2 ++ concat l2). rewrite concat_app. cbn [concat]. rewrite <- !app_assoc. split; [reflexivity|].
  apply Forall_app in F as [F _]. rewrite lenN_app, (concat_wf_len _ c F). lia.
Qed.
Lemma number_at (pre post : list byte) l x l' k : lenN l = k -> takeN 4 (dropN (lenN pre + 4 * k) (pre ++ f32s_bytes (l ++ x :: l') ++ post)) = f32_bytes x.
Proof.
  intros <-. rewrite f32s_bytes_app. rewrite <- app_assoc, app_assoc. rewrite dropN_app_l by (rewrite lenN_app, f32s_bytes_lenN; reflexivity).
  change (f32s_bytes (x :: l')) with (f32_bytes x ++ f32s_bytes l'). rewrite <- app_assoc. apply takeN_app_l. destruct x; reflexivity.
Qed.

(** Two lists of bytes surround the numbers of the matrix; they depend only
    on the shape, the metadata, the vocabulary and the number of norms. *)
Lemma file_numbers pf T e a base : toml_law T -> em_storage e = SNdArray a -> emb_built pf T e (SNdArray a) ->
  exists pre mid, (base + lenN pre) mod 4 = 0 /\ (em_norms e <> None -> (base + lenN pre + lenN mid) mod 4 = 0) /\
  forall a' ns', same_shape a a' -> same_norms (em_norms e) ns' ->
  exists bytes, run_writer (write_file T (mkEmb (em_meta e) (SNdArray a') (em_vocab e) ns')) base = Ok bytes /\
    bytes = pre ++ f32s_bytes (concat (a2_rows a')) ++ mid ++ f32s_bytes (norm_numbers ns') /\
    (forall i j r x, nthN (a2_rows a') i = Some r -> nthN r j = Some x ->
       takeN 4 (dropN (lenN pre + 4 * (i * a2_cols a + j)) bytes) = f32_bytes x) /\
    (forall i x, nthN (norm_numbers ns') i = Some x ->
       takeN 4 (dropN (lenN pre + 4 * (a2_nrows a * a2_cols a) + lenN mid + 4 * i) bytes) = f32_bytes x).
Proof.
  intros TL ES [HV HS HM HN]. rewrite ES in HS. inversion HS as [a0 OK| | |]; subst a0.
  destruct (vocab_wrap_codec pf _ HV) as (vb & CV & SV & IDV).
  pose (H := pre_f T vwrap_chunk swrap_chunk (em_meta e) (em_vocab e) (SNdArray a) (em_norms e) (fconst vb) base).
  pose (p3 := base + lenN H).
  pose (n := a2_nrows a * a2_cols a).
  pose (pre := H ++ le_bytes 4 2 ++ le_bytes 8 (16 + padding4 (p3 + 28) + 4 * n) ++ le_bytes 8 (a2_nrows a) ++ le_bytes 4 (a2_cols a) ++ le_bytes 4 10 ++ zeros (padding4 (p3 + 28))).
  pose (p4 := base + lenN pre + 4 * n).
  pose (mid := match em_norms e with None => [] | Some l =>
    le_bytes 4 6 ++ le_bytes 8 (12 + padding4 (p4 + 24) + 4 * lenN l) ++ le_bytes 8 (lenN l) ++ le_bytes 4 10 ++ zeros (padding4 (p4 + 24)) end).
  assert (lenN pre = lenN H + 28 + padding4 (p3 + 28)) as LP.
  { unfold pre. rewrite !lenN_app, !le_bytes_lenN, zeros_lenN. lia. }
  exists pre, mid. split; [|split].
  - rewrite LP. replace (base + (lenN H + 28 + padding4 (p3 + 28))) with (p3 + 28 + padding4 (p3 + 28)) by (unfold p3; lia). apply padding4_aligned.
  - intros NN. unfold mid. destruct (em_norms e) as [l|]; [|congruence]. rewrite !lenN_app, !le_bytes_lenN, zeros_lenN.
    pose proof (padding4_aligned (p4 + 24)) as A.
    replace (base + lenN pre + (N.of_nat 4 + (N.of_nat 8 + (N.of_nat 8 + (N.of_nat 4 + padding4 (p4 + 24)))))) with (base + lenN pre + 24 + padding4 (p4 + 24)) by lia.
    unfold p4 in A at 1. replace (base + lenN pre + 4 * n + 24 + padding4 (p4 + 24)) with (base + lenN pre + 24 + padding4 (p4 + 24) + n * 4) in A by lia.
    rewrite N.mod_add in A by discriminate. exact A.
  - intros a' ns' (WF & RN & RC) SN.
    assert (nd_ok a') as OK'. { destruct OK as (_ & O2 & O3 & O4). split; [exact WF|]. rewrite RN, RC. auto. }
    destruct (storage_wrap_codec _ _ (sh_nd _ OK')) as (CS & _ & _).
    assert (forall l, ns' = Some l -> lenN l * 4 <= isize_max) as HN'.
    { intros l ->. destruct (em_norms e) as [l0|]; [|destruct SN]. cbn in SN. rewrite <- SN. apply HN. reflexivity. }
    pose proof (file_emits T TL vwrap_chunk swrap_chunk _ _ (em_meta e) (em_vocab e) (SNdArray a') ns' _ _ _ _ IDV CV CS HM HN') as X.
    apply (emits_run _ _ base) in X.
    assert (lenN (concat (a2_rows a')) = n) as LC by (unfold n; rewrite <- RN, <- RC; apply concat_wf_len; exact WF).
    assert (file_f T vwrap_chunk swrap_chunk (em_meta e) (em_vocab e) (SNdArray a') ns' (fconst vb) (storage_body (SNdArray a')) base
      = pre ++ f32s_bytes (concat (a2_rows a')) ++ mid ++ f32s_bytes (norm_numbers ns')) as EQ.
    { unfold file_f. unfold fseq at 1. rewrite main_pre. unfold fseq at 1 2.
      assert (pre_f T vwrap_chunk swrap_chunk (em_meta e) (em_vocab e) (SNdArray a') ns' (fconst vb) base = H) as ->.
      { unfold H, pre_f, emb_chunks. cbn [em_meta em_vocab em_storage em_norms]. destruct (em_norms e), ns'; try (exfalso; exact SN); reflexivity. }
      fold p3. cbn [storage_body ck_id swrap_chunk swrap_id chunk_num].
      assert (lenN (nd_body a' (p3 + 12)) = 16 + padding4 (p3 + 28) + 4 * n) as LB.
      { unfold nd_body. rewrite !lenN_app, !le_bytes_lenN, zeros_lenN, f32s_bytes_lenN, LC. replace (p3 + 12 + 16) with (p3 + 28) by lia. lia. }
      assert (framed 2 (nd_body a') p3 = le_bytes 4 2 ++ le_bytes 8 (16 + padding4 (p3 + 28) + 4 * n) ++ le_bytes 8 (a2_nrows a) ++ le_bytes 4 (a2_cols a) ++ le_bytes 4 10 ++ zeros (padding4 (p3 + 28)) ++ f32s_bytes (concat (a2_rows a'))) as ->.
      { unfold framed. rewrite LB. unfold nd_body. rewrite RN, RC. replace (p3 + 12 + 16) with (p3 + 28) by lia. reflexivity. }
      unfold pre. rewrite <- !app_assoc. do 7 f_equal.
      set (q := base + _). assert (q = p4) as ->.
      { unfold q, p4. rewrite LP, !lenN_app, !le_bytes_lenN, zeros_lenN, f32s_bytes_lenN, LC. lia. }
      unfold norms_f, mid, norm_numbers. destruct (em_norms e) as [l|], ns' as [l'|]; try (exfalso; exact SN); [|reflexivity]. cbn in SN.
      unfold framed. assert (lenN (norms_body l' (p4 + 12)) = 12 + padding4 (p4 + 24) + 4 * lenN l') as ->.
      { unfold norms_body. rewrite !lenN_app, !le_bytes_lenN, zeros_lenN, f32s_bytes_lenN. replace (p4 + 12 + 12) with (p4 + 24) by lia. lia. }
      unfold norms_body. rewrite <- !app_assoc. replace (p4 + 12 + 12) with (p4 + 24) by lia. rewrite SN. reflexivity. }
    eexists. split; [exact X|]. split; [exact EQ|]. rewrite EQ. split.
    + intros i j r x HI HJ. unfold a2_wf in WF. rewrite RC in WF. destruct (concat_nth _ _ _ _ _ _ WF HI HJ) as (l & l' & -> & L). apply number_at. exact L.
    + intros i x HI. destruct (nthN_split _ _ _ HI) as (l & l' & -> & L).
      replace (pre ++ f32s_bytes (concat (a2_rows a')) ++ mid ++ f32s_bytes (l ++ x :: l')) with ((pre ++ f32s_bytes (concat (a2_rows a')) ++ mid) ++ f32s_bytes (l ++ x :: l') ++ [])
        by (rewrite app_nil_r, <- !app_assoc; reflexivity).
      replace (lenN pre + 4 * (a2_nrows a * a2_cols a) + lenN mid + 4 * i) with (lenN (pre ++ f32s_bytes (concat (a2_rows a')) ++ mid) + 4 * i)
        by (rewrite !lenN_app, f32s_bytes_lenN, LC; unfold n; lia). apply number_at. exact L.
Qed.

(** Only the metadata changes; the old metadata are returned. *)
Lemma set_metadata_file pf T e s0 m e' old base : toml_law T -> emb_built pf T e s0 -> (forall t, m = Some t -> lenN (toml_print T t) <= isize_max) ->
  emb_set_metadata e m = (e', old) ->
  old = em_meta e /\ emb_set_metadata e' old = (e, m) /\
  emb_into_parts e' = (m, em_vocab e, em_storage e, em_norms e) /\
  (forall gemm o pf' w, emb_embedding o wrap_ops (swrap_ops gemm) pf' e' w = emb_embedding o wrap_ops (swrap_ops gemm) pf' e w) /\
  exists bytes s', run_writer (write_file T e') base = Ok bytes /\
    read_file pf T (mkStream bytes base) = (Ok (mkEmb m s0 (em_vocab e) (em_norms e)), s').
Proof.
  intros TL [HV HS HM HN] Hm E. injection E as <- <-. split; [reflexivity|]. split; [destruct e; reflexivity|]. split; [reflexivity|]. split; [reflexivity|].
  destruct (file_round_trip pf T (mkEmb m (em_storage e) (em_vocab e) (em_norms e)) s0 base TL) as (bytes & W & R); [split; assumption|].
  destruct (R []) as (s' & R'); [intros _; apply not_norms_nil|]. rewrite app_nil_r in R'. exists bytes, s'. split; [exact W|exact R'].
Qed.
(** The parts can be put together again if there are norms. *)
Lemma parts_rebuild {Md V S F} (VO : vocab_ops V) (SO : storage_ops F S) pf (e : embeddings Md V S F) md v s ns :
  emb_into_parts e = (md, v, s, ns) ->
  (forall l e', ns = Some l -> emb_new VO SO pf md v s l = Ok e' -> e' = e) /\
  (forall l0 v0 s0 md0, emb_new VO SO pf md0 v0 s0 l0 = Ok e -> ns = Some l0 /\ md = md0 /\ v = v0 /\ s = s0 /\ emb_new VO SO pf md v s l0 = Ok e).
Proof.
  intros E. injection E as <- <- <- <-. unfold emb_new, emb_new_with_maybe_norms. split.
  - intros l e' EN H. repeat (apply rbind_Ok_inv in H as (? & _ & H)). injection H as <-. destruct e. cbn in *. subst. reflexivity.
  - intros l0 v0 s0 md0 H. assert (e = mkEmb md0 s0 v0 (Some l0)) as ->; [|auto].
    repeat (apply rbind_Ok_inv in H as (? & _ & H)). injection H as <-. reflexivity.
Qed.
(** Views are copied like storages. *)
Lemma view_clone v is s : swrap_clone_from_mapping (view_storage v) is = Ok s <->
  exists v', svwrap_clone_from_mapping v is = Ok v' /\ s = view_storage v'.
Proof.
  destruct v as [a|m]; cbn [view_storage swrap_clone_from_mapping svwrap_clone_from_mapping].
  - destruct (nd_clone_from_mapping a is); cbn [rbind]; split; try discriminate; [intros H; injection H as <-; eexists; split; reflexivity|intros (v' & H & ->); injection H as <-; reflexivity|intros (? & ? & _); discriminate..].
  - destruct (mma_clone_from_mapping m is); cbn [rbind]; split; try discriminate; [intros H; injection H as <-; eexists; split; reflexivity|intros (v' & H & ->); injection H as <-; reflexivity|intros (? & ? & _); discriminate..].
Qed.
