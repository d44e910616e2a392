(** * What every text file gives (C42, C43, C55, C56). *)
From Verif Require Import Base BaseFacts Utf8 Utf8Facts Stream StreamFacts F32 ChunkIO Subword Vocab Storage Embeddings TextIO FileSpec VocabSpec
  ChunkFacts VocabFacts StorageFacts ReadFacts LookupFacts EmbSpec MatrixFacts EmbFacts BatchFacts TextSpec TextFacts TextThms BinaryThms LossyFacts.
Local Open Scope N_scope.

Lemma run_reader_eq {A} (m : reader A) data x s : m (mkStream data 0) = (x, s) -> run_reader m data = x.
Proof. intros H. unfold run_reader. rewrite H. reflexivity. Qed.
Lemma run_reader_Ok {A} (m : reader A) data a : run_reader m data = Ok a -> exists s, m (mkStream data 0) = (Ok a, s).
Proof. unfold run_reader. destruct (m (mkStream data 0)) as [x s]. cbn [fst]. intros ->. eauto. Qed.

Section Outcomes.
  Context (P : ftext_ops) (pf : profile) {Md : Type}.

  (** After the lines are read. *)
  Lemma embeds_after shape lossy s items : s_broken s = false -> shape_fits shape -> text_items P lossy (s_rest s) items ->
    read_embeds (Md := Md) P pf shape lossy s =
    (sh <- lift (text_shape shape (lenN items) (lenN (flat_map snd items))) ;;
     a <- lift (from_shape_vec (fst sh) (snd sh) (flat_map snd items)) ;;
     v <- lift (simple_new (map fst items)) ;;
     lift (emb_new_with_maybe_norms simple_ops (nd_ops f32) pf None v a None)) (mkStream [] (s_pos s + lenN (s_rest s))).
  Proof.
    intros BR F T. unfold read_embeds, bind at 1. rewrite (shape_reserve pf shape s F). unfold bind at 1. rewrite (read_lines_items P lossy s items BR T), lenN_map. reflexivity.
  Qed.

  Lemma contents_of items d v : items <> [] -> lenN (flat_map snd items) = lenN items * d -> simple_new (map fst items) = Ok v ->
    text_contents (mkEmb (Md := Md) None (mkA2 d (unflattenN (lenN items) d (flat_map snd items))) v None) items d.
  Proof.
    intros NE L SV. destruct (unflattenN_spec _ _ _ L) as (U1 & U2 & U3). unfold text_contents. cbn [em_vocab em_storage em_norms em_meta a2_cols a2_rows].
    pose proof (simple_new_Ok _ _ SV) as [_ EV]. repeat split; auto. rewrite EV. reflexivity.
  Qed.

  (** Rows are lines if and only if all lines are equally long. *)
  Lemma contents_lines (e : embeddings Md simple_vocab (array2 f32) f32) items d : text_contents e items d ->
    (a2_rows (em_storage e) = map snd items <-> Forall (fun it => lenN (snd it) = d) items).
  Proof.
    intros (_ & _ & C & L & W & _). split.
    - intros E. rewrite E in W. apply Forall_map in W. exact W.
    - intros F. eapply equal_lines; eauto.
  Qed.

  Lemma multiple_div n k : n <> 0 -> k mod n = 0 -> k = n * (k / n).
  Proof. intros NZ M. pose proof (N.div_mod k n NZ). lia. Qed.

  (** C55 *)
  Lemma text_outcomes lossy data :
    ((forall items, ~ text_items P lossy data items) -> run_reader (read_text_raw (Md := Md) P pf lossy) data = Err EFormat) /\
    forall items, text_items P lossy data items ->
      (items = [] -> run_reader (read_text_raw (Md := Md) P pf lossy) data = Panic PDivByZero) /\
      (items <> [] -> lenN (flat_map snd items) mod lenN items <> 0 -> run_reader (read_text_raw (Md := Md) P pf lossy) data = Err EMatrixShape) /\
      (items <> [] -> lenN (flat_map snd items) mod lenN items = 0 -> ~ NoDup (map fst items) ->
         run_reader (read_text_raw (Md := Md) P pf lossy) data = Panic PDuplicateWords) /\
      (items <> [] -> lenN (flat_map snd items) mod lenN items = 0 -> NoDup (map fst items) ->
         exists e : embeddings Md simple_vocab (array2 f32) f32, run_reader (read_text_raw P pf lossy) data = Ok e /\
         text_contents e items (lenN (flat_map snd items) / lenN items)).
  Proof.
    split.
    - intros NI. destruct (read_embeds_error P pf (Md := Md) None lossy (mkStream data 0) eq_refl I NI) as (s' & E). eapply run_reader_eq; exact E.
    - intros items T. unfold run_reader, read_text_raw. rewrite (embeds_after None lossy (mkStream data 0) items eq_refl I T).
      unfold bind, lift, text_shape, div64. split; [|split; [|split]].
      + intros ->. reflexivity.
      + intros NE M. assert (lenN items <> 0) as NE0 by (intros K; apply NE, lenN_0, K). clear NE. rename NE0 into NE. apply N.eqb_neq in NE. rewrite NE. cbn [rbind fst snd]. apply N.eqb_neq in NE.
        unfold from_shape_vec. destruct (N.eqb_spec (lenN (flat_map snd items)) (lenN items * (lenN (flat_map snd items) / lenN items))) as [E|_]; [|reflexivity].
        exfalso. apply M. rewrite E at 1. rewrite N.mul_comm. apply N.mod_mul. exact NE.
      + intros NE M D. assert (lenN items <> 0) as NE0 by (intros K; apply NE, lenN_0, K). clear NE. rename NE0 into NE. apply N.eqb_neq in NE. rewrite NE. cbn [rbind fst snd]. apply N.eqb_neq in NE.
        unfold from_shape_vec. rewrite <- (multiple_div _ _ NE M), N.eqb_refl. rewrite (proj2 (simple_new_iff (map fst items)) D). reflexivity.
      + intros NE M D. assert (lenN items <> 0) as NZ by (intros K; apply NE, lenN_0, K). apply N.eqb_neq in NZ. rewrite NZ. cbn [rbind fst snd]. apply N.eqb_neq in NZ.
        unfold from_shape_vec. rewrite <- (multiple_div _ _ NZ M), N.eqb_refl. pose proof (simple_new_NoDup _ D) as SV. rewrite SV.
        rewrite (simple_emb pf (map fst items)); [|exact SV|].
        * cbn [fst]. eexists. split; [reflexivity|]. apply contents_of; auto. apply multiple_div; auto.
        * unfold a2_nrows. cbn [a2_rows]. rewrite lenN_map. apply (unflattenN_spec (lenN items) _ _ (multiple_div _ _ NZ M)).
  Qed.

  (** C56 *)
  Lemma text_dims_outcomes lossy data n d rest : header_line data n d rest -> dims_fit n d ->
    ((forall items, ~ text_items P lossy rest items) -> run_reader (read_text_dims_raw (Md := Md) P pf lossy) data = Err EFormat) /\
    forall items, text_items P lossy rest items ->
      (lenN items <> n -> run_reader (read_text_dims_raw (Md := Md) P pf lossy) data = Err EFormat) /\
      (lenN items = n -> n = 0 -> run_reader (read_text_dims_raw (Md := Md) P pf lossy) data = Panic PDivByZero) /\
      (lenN items = n -> n <> 0 -> lenN (flat_map snd items) <> n * d ->
         exists er, run_reader (read_text_dims_raw (Md := Md) P pf lossy) data = Err er /\ (er = EFormat \/ er = EMatrixShape)) /\
      (lenN items = n -> n <> 0 -> lenN (flat_map snd items) = n * d -> ~ NoDup (map fst items) ->
         run_reader (read_text_dims_raw (Md := Md) P pf lossy) data = Panic PDuplicateWords) /\
      (lenN items = n -> n <> 0 -> lenN (flat_map snd items) = n * d -> NoDup (map fst items) ->
         exists e : embeddings Md simple_vocab (array2 f32) f32, run_reader (read_text_dims_raw P pf lossy) data = Ok e /\ text_contents e items d).
  Proof.
    intros HL DF. unfold run_reader, read_text_dims_raw.
    destruct (header_read data n d rest HL (fun n d => read_embeds (Md := Md) P pf (Some (n, d)) lossy) 0) as (p & ->). split.
    - intros NI. destruct (read_embeds_error P pf (Md := Md) (Some (n, d)) lossy (mkStream rest p) eq_refl DF NI) as (s' & E). rewrite E. reflexivity.
    - intros items T. destruct (read_embeds_header P pf (Md := Md) n d lossy (mkStream rest p) items eq_refl DF T) as [H1 H2].
      split; [intros K; destruct (H1 K) as (s' & E); rewrite E; reflexivity|].
      split; [|split; [intros K1 K2 K3; destruct (H2 K1 K2 K3) as (s' & er & E & O); rewrite E; cbn [fst]; eauto|]].
      + intros E Z. rewrite (embeds_after (Some (n, d)) lossy (mkStream rest p) items eq_refl DF T). unfold bind, lift, text_shape. rewrite E, N.eqb_refl, Z. reflexivity.
      + split; intros E NZ L D; rewrite (embeds_after (Some (n, d)) lossy (mkStream rest p) items eq_refl DF T); unfold bind, lift, text_shape, div64;
          rewrite E, N.eqb_refl; cbn [negb]; (assert (n <> 0) as NZ' by exact NZ); apply N.eqb_neq in NZ'; rewrite NZ'; cbn [rbind];
          (assert (lenN (flat_map snd items) / n = d) as -> by (rewrite L, N.mul_comm; apply N.div_mul; exact NZ)); rewrite N.eqb_refl; cbn [negb fst snd];
          unfold from_shape_vec; rewrite L, N.eqb_refl.
        * rewrite (proj2 (simple_new_iff (map fst items)) D). reflexivity.
        * pose proof (simple_new_NoDup _ D) as SV. rewrite SV. assert (lenN (flat_map snd items) = lenN items * d) as L' by (rewrite E; exact L).
          rewrite (simple_emb pf (map fst items)); [|exact SV|unfold a2_nrows; cbn [a2_rows]; rewrite lenN_map, <- E; apply (unflattenN_spec _ _ _ L')].
          cbn [fst]. eexists. split; [reflexivity|]. rewrite <- E. apply contents_of; auto. intros ->. apply NZ. rewrite <- E. reflexivity.
  Qed.

  (** C43: what an accepted file gave. *)
  Lemma text_accepted lossy data (e : embeddings Md simple_vocab (array2 f32) f32) : run_reader (read_text_raw P pf lossy) data = Ok e ->
    exists items, text_items P lossy data items /\ text_contents e items (a2_cols (em_storage e)) /\
    (a2_rows (em_storage e) = map snd items <-> Forall (fun it => lenN (snd it) = a2_cols (em_storage e)) items).
  Proof.
    intros H. apply run_reader_Ok in H as (s & H). unfold read_text_raw in H. apply read_embeds_inv in H as (items & d & T & NE & _ & _ & _ & SV & <- & C & L & W & NN & NM).
    exists items. split; [exact T|]. pose proof (simple_new_Ok _ _ SV) as [_ EV].
    assert (text_contents e items (a2_cols (em_storage e))) as TC by (unfold text_contents; rewrite EV; repeat split; auto; rewrite <- EV; exact SV).
    split; [exact TC|]. apply contents_lines. exact TC.
  Qed.
  Lemma text_dims_accepted lossy data (e : embeddings Md simple_vocab (array2 f32) f32) : run_reader (read_text_dims_raw P pf lossy) data = Ok e ->
    exists n d rest items, header_line data n d rest /\ text_items P lossy rest items /\ lenN items = n /\ n <> 0 /\ lenN (flat_map snd items) = n * d /\
    text_contents e items d /\ (a2_rows (em_storage e) = map snd items <-> Forall (fun it => lenN (snd it) = d) items).
  Proof.
    intros H. apply run_reader_Ok in H as (s & H). unfold read_text_dims_raw in H. apply bind_Ok_inv in H as (n & s1 & H0 & H). apply bind_Ok_inv in H as (d & s2 & H1 & H).
    apply read_embeds_inv in H as (items & d' & T & NE & _ & TL & [SA1 SA2] & SV & E & C & L & W & NN & NM). subst d' n.
    exists (lenN items), d, (s_rest s2), items. pose proof (simple_new_Ok _ _ SV) as [_ EV].
    assert (text_contents e items d) as TC by (unfold text_contents; rewrite EV; repeat split; auto; rewrite <- EV; exact SV).
    split; [|split; [exact T|split; [reflexivity|split; [intros K; apply NE, lenN_0, K|split; [exact TL|split; [exact TC|apply contents_lines; exact TC]]]]]].
    assert (s_rest s2 <> []) as NR.
    { intros K. rewrite K in T. destruct T as (ls & LL & F). inversion LL; subst; [inversion F; subst; contradiction|contradiction|destruct l; discriminate]. }
    apply read_number_inv in H1 as [(g & E1 & G & Ld)|[K _]]; [|contradiction].
    apply read_number_inv in H0 as [(f & E0 & F & Ln)|[K _]].
    - cbn [s_rest] in E0. exists f, g. rewrite E1 in E0. auto.
    - rewrite K in E1. destruct g; discriminate.
  Qed.

  (** The readers that normalise. *)
  Lemma normalizing_reader (m : reader (embeddings Md simple_vocab (array2 f32) f32)) data :
    (forall e, run_reader m data = Ok e -> exists words, simple_new words = Ok (em_vocab e) /\ a2_nrows (em_storage e) = lenN words) ->
    (forall e, run_reader m data = Ok e -> exists e', run_reader (e <- m ;; lift (normalize_all f32_ops pf e)) data = Ok e' /\
      normalized_result f32_ops e' (a2_cols (em_storage e)) (combine (v_words simple_ops (em_vocab e)) (a2_rows (em_storage e)))) /\
    (forall er, run_reader m data = Err er -> run_reader (e <- m ;; lift (normalize_all f32_ops pf e)) data = Err er) /\
    (forall p, run_reader m data = Panic p -> run_reader (e <- m ;; lift (normalize_all f32_ops pf e)) data = Panic p).
  Proof.
    unfold run_reader, bind, lift. intros H. destruct (m (mkStream data 0)) as [x s]. cbn [fst] in *. split; [|split; intros y ->; reflexivity].
    intros e ->. destruct (H e eq_refl) as (words & SV & L). destruct (normalize_all_exact f32_ops pf e words SV L) as (e' & E & N0). cbn [fst]. exists e'.
    split; [exact E|]. pose proof (simple_new_Ok _ _ SV) as [_ EV]. rewrite EV. cbn [v_words simple_ops sm_words]. exact N0.
  Qed.
  Lemma text_normalized lossy data :
    (forall e, run_reader (read_text_raw (Md := Md) P pf lossy) data = Ok e -> exists e' : embeddings Md simple_vocab (array2 f32) f32, run_reader (read_text P pf lossy) data = Ok e' /\
      normalized_result f32_ops e' (a2_cols (em_storage e)) (combine (v_words simple_ops (em_vocab e)) (a2_rows (em_storage e)))) /\
    (forall er, run_reader (read_text_raw (Md := Md) P pf lossy) data = Err er -> run_reader (read_text (Md := Md) P pf lossy) data = Err er) /\
    (forall p, run_reader (read_text_raw (Md := Md) P pf lossy) data = Panic p -> run_reader (read_text (Md := Md) P pf lossy) data = Panic p).
  Proof.
    apply (normalizing_reader (read_text_raw P pf lossy)). intros e H. apply text_accepted in H as (items & _ & TC & _). exists (map fst items).
    destruct TC as (SV & _ & _ & L & _). split; [exact SV|]. rewrite lenN_map. exact L.
  Qed.
  Lemma text_dims_normalized lossy data :
    (forall e, run_reader (read_text_dims_raw (Md := Md) P pf lossy) data = Ok e -> exists e' : embeddings Md simple_vocab (array2 f32) f32, run_reader (read_text_dims P pf lossy) data = Ok e' /\
      normalized_result f32_ops e' (a2_cols (em_storage e)) (combine (v_words simple_ops (em_vocab e)) (a2_rows (em_storage e)))) /\
    (forall er, run_reader (read_text_dims_raw (Md := Md) P pf lossy) data = Err er -> run_reader (read_text_dims (Md := Md) P pf lossy) data = Err er) /\
    (forall p, run_reader (read_text_dims_raw (Md := Md) P pf lossy) data = Panic p -> run_reader (read_text_dims (Md := Md) P pf lossy) data = Panic p).
  Proof.
    apply (normalizing_reader (read_text_dims_raw P pf lossy)). intros e H. apply text_dims_accepted in H as (n & d & rest & items & _ & _ & _ & _ & _ & TC & _). exists (map fst items).
    destruct TC as (SV & _ & _ & L & _). split; [exact SV|]. rewrite lenN_map. exact L.
  Qed.
End Outcomes.

(** Any bytes without spaces do for the words of a word2vec file. *)
Lemma binary_lossy_items d (l : list (list byte * list f32)) rest : Forall (fun it => ~ In x20 (fst it) /\ lenN (snd it) = d) l ->
  exists items, binary_items true d (flat_map (fun it => fst it ++ x20 :: f32s_bytes (snd it)) l ++ rest) items rest /\ map snd items = map snd l /\
  map fst items = map (fun it => str_trim (from_utf8_lossy (fst it))) l.
Proof.
  induction l as [|[name v] l IH]; intros H; [exists []; split; [constructor|auto]|]. apply Forall_cons_iff in H as [[H1 H2] H3]. cbn [fst snd] in *.
  destruct (IH H3) as (items & B & E1 & E2). exists ((str_trim (from_utf8_lossy name), v) :: items). split; [|cbn [map fst snd]; rewrite E1, E2; auto].
  cbn [flat_map fst snd]. rewrite <- !app_assoc. cbn [app]. rewrite <- ?app_assoc. eapply bi_cons; eauto; [reflexivity|]. apply trims_trim, from_utf8_lossy_valid.
Qed.
