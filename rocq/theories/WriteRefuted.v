(** * Texts of writers that name another field. *)
From Coq Require Import Strings.String.
From Verif Require Import Base BaseFacts Utf8 Stream F32 ChunkIO Subword Vocab Storage Embeddings TextIO FastText EmbSpec
  FileSpec FastTextSpec Messages MessageSpec WriteMessages WriteSpec WriteTexts WriteOther.
Local Open Scope N_scope.

(** ** Errors of writers are write errors *)
Definition write_only (fs : list field) : Prop :=
  Forall (fun f => match f with Fld _ e => kind e = EWrite | Pad _ => False end) fs.
Lemma write_only_kind fs i e : write_only fs -> missing fs i = Some e -> kind e = EWrite.
Proof.
  intros H. revert i. induction H as [|[n e'|n] fs H HF IH]; intros i; cbn [missing]; [discriminate| |destruct H].
  destruct (i <? n); [intros X; injection X as <-; exact H|apply IH].
Qed.
Lemma write_only_flat {A} (f : A -> list field) l : (forall a, write_only (f a)) -> write_only (flat_map f l).
Proof. intros H. induction l as [|a l IH]; cbn [flat_map]; [constructor|]. apply Forall_app. split; [apply H|exact IH]. Qed.
Ltac wo := repeat (first [ apply Forall_nil | (apply Forall_cons; [reflexivity|]) | (apply Forall_app; split) | (apply write_only_flat; intros ?) ]).
Lemma wvocab_only v : write_only (wvocab v).
Proof. destruct v; unfold wvocab, wbucket, wmarker; wo. Qed.
Lemma wstorage_only s p : write_only (wstorage s p).
Proof.
  assert (forall a, write_only (wnd a p)) as A by (intros a; unfold wnd; wo).
  assert (forall q, write_only (wqa q p)) as Q by (intros q; unfold wqa; wo; [destruct (pq_proj _)|destruct (qa_norms _)]; wo).
  destruct s; cbn [wstorage]; auto; [destruct (mma_view m)|destruct (mmq_to_quantized q)]; auto; constructor.
Qed.
Lemma wfile_only {T} (e : emb T) base : write_only (wfile e base).
Proof.
  assert (forall n, write_only (wheader n)) as H.
  { intros n. unfold wheader. wo. generalize (N.to_nat n). intros k. induction k as [|k IH]; cbn [repeat]; constructor; [reflexivity|exact IH]. }
  unfold wfile. cbv zeta. apply Forall_app. split; [apply Forall_app; split; [apply Forall_app; split; [apply H|apply Forall_app; split; [|apply wvocab_only]]|apply wstorage_only]|];
    [destruct (em_meta e)|destruct (em_norms e)]; unfold wmetadata, wnorms; wo.
Qed.
Lemma full_device_kind T (e : emb T) base bytes c : run_writer (write_file T e) base = Ok bytes -> c < lenN bytes ->
  exists err, fst (tell_file T e (mkSink base [] (Some c))) = MErr err /\ kind err = EWrite.
Proof.
  intros R L. destruct (full_device T e base bytes R) as [_ H]. specialize (H c). destruct (N.leb_spec (lenN bytes) c); [lia|].
  destruct H as (err & M & E). exists err. rewrite E. split; [reflexivity|]. exact (write_only_kind _ _ _ (wfile_only e base) M).
Qed.

(** ** fastText *)
Section FastText.
  Context (pf : profile) (T : toml_ops) {S : Type} (SO : storage_ops f32 S).
  Variables (e : embeddings (toml_table T) (subword_vocab ft_indexer) S f32) (cols : N) (rows : list (list f32)).
  Hypothesis made : ft_emb_made SO pf e cols rows.

  (** Bytes 32 to 35 are the loss function, bytes 36 to 39 the type of the model. *)
  Lemma model_text base bytes c : run_writer (write_fasttext pf T SO e) base = Ok bytes -> 32 <= c < 40 ->
    fst (tell_fasttext pf SO e (mkSink base [] (Some c))) = MErr (MWrite (txt "Cannot write loss function")).
  Proof.
    intros R L. destruct (fasttext_full pf T SO e cols rows made base bytes R) as [FL H]. specialize (H c).
    assert (c < lenN bytes) as LB.
    { rewrite <- FL. unfold wfasttext. rewrite fields_len_app. cbn [fields_len field_len wd]. lia. }
    destruct (N.leb_spec (lenN bytes) c); [lia|]. destruct H as (err & M & ->). cbn [fst]. f_equal. revert M. unfold wfasttext. cbn [app missing wd].
    do 8 (match goal with |- context [?x <? 4] => destruct (N.ltb_spec x 4); [lia|] end).
    destruct (N.ltb_spec (c - 4 - 4 - 4 - 4 - 4 - 4 - 4 - 4) 4); [congruence|].
    destruct (N.ltb_spec (c - 4 - 4 - 4 - 4 - 4 - 4 - 4 - 4 - 4) 4); [congruence|lia].
  Qed.
  (** The type of an entry: 92 bytes come before the first entry, and 9 between
      the word and the type. *)
  Lemma entry_type_text base bytes ws w ws' : run_writer (write_fasttext pf T SO e) base = Ok bytes -> sv_words (em_vocab e) = ws ++ w :: ws' ->
    fst (tell_fasttext pf SO e (mkSink base [] (Some (92 + fold_right N.add 0 (map (fun w => lenN w + 10) ws) + lenN w + 9))))
      = MErr (MRead (txt "Cannot read entry type")).
  Proof.
    intros R W. destruct (fasttext_full pf T SO e cols rows made base bytes R) as [FL H].
    set (c := 92 + fold_right N.add 0 (map (fun w => lenN w + 10) ws) + lenN w + 9) in *. specialize (H c).
    assert (fields_len (flat_map wentry ws) = fold_right N.add 0 (map (fun w => lenN w + 10) ws)) as F.
    { clear. induction ws as [|x l IH]; [reflexivity|]. cbn [flat_map map fold_right]. rewrite fields_len_app, IH. unfold wentry. cbn [fields_len field_len wd rd]. lia. }
    assert (forall tail, missing (flat_map wentry (ws ++ w :: ws') ++ tail) (c - 92) = Some (MRead (txt "Cannot read entry type")) /\ c - 92 < fields_len (flat_map wentry (ws ++ w :: ws') ++ tail)) as X.
    { intros tail. rewrite flat_map_app. cbn [flat_map]. rewrite <- !app_assoc. rewrite missing_app_r by (unfold c; lia).
      replace (c - 92 - fields_len (flat_map wentry ws)) with (lenN w + 9) by (unfold c; lia).
      split; [|rewrite !fields_len_app; unfold wentry at 2; cbn [fields_len field_len wd rd]; unfold c; lia].
      unfold wentry at 1. cbn [app missing wd rd]. destruct (N.ltb_spec (lenN w + 9) (lenN w)); [lia|].
      destruct (N.ltb_spec (lenN w + 9 - lenN w) 1); [lia|]. destruct (N.ltb_spec (lenN w + 9 - lenN w - 1) 8); [lia|].
      destruct (N.ltb_spec (lenN w + 9 - lenN w - 1 - 8) 1); [reflexivity|lia]. }
    unfold wfasttext in FL, H. rewrite W in FL, H.
    match type of FL with fields_len (?a ++ ?b ++ ?t) = _ => specialize (X t) as [X1 X2]; assert (fields_len a = 92) as A by reflexivity;
      set (head := a) in *; set (tail := t) in * end.
    rewrite fields_len_app, A in FL. destruct (N.leb_spec (lenN bytes) c) as [Y|Y]; [lia|].
    destruct H as (err & M & ->). cbn [fst]. rewrite missing_app_r, A in M by (rewrite A; unfold c; lia). congruence.
  Qed.
End FastText.

(** ** finalfusion *)
Lemma room_says w d fs base bytes c err : says w d fs -> run_writer w base = Ok bytes -> missing (fs base) c = Some err -> c < fields_len (fs base) ->
  fst (d (mkSink base [] (Some c))) = MErr err.
Proof.
  intros S R M L. destruct (says_run _ _ _ _ _ S R) as [FL H]. specialize (H c). destruct (N.leb_spec (lenN bytes) c); [lia|].
  destruct H as (err' & M' & ->). cbn [fst]. congruence.
Qed.
(** Bytes 20 to 27 of the chunk are the number of n-grams; the length of the first
    n-gram comes 36 bytes and the words after the start. *)
Definition words_size (words : list str) : N := fold_right N.add 0 (map (fun w => lenN w + 4) words).
Lemma ngram_texts v base bytes c : run_writer (write_explicit v) base = Ok bytes ->
  20 <= c < 28 \/ (ei_ngrams (sv_ix v) <> [] /\ 36 + words_size (sv_words v) <= c < 40 + words_size (sv_words v)) ->
  fst (tell_explicit v (mkSink base [] (Some c))) = MErr (MWrite (txt "Cannot write ngram length")).
Proof.
  intros R H. assert (fields_len (flat_map wstring (sv_words v)) = words_size (sv_words v)) as F.
  { unfold words_size. generalize (sv_words v). intros l. induction l as [|s l IH]; [reflexivity|]. cbn [flat_map map fold_right].
    rewrite fields_len_app, IH. cbn [wstring fields_len field_len wd]. lia. }
  apply (room_says _ _ _ _ _ _ _ (says_vocab (VExplicit v)) R); cbn [wvocab].
  - destruct H as [H|(NE & H)].
    + cbn [app missing wd]. destruct (N.ltb_spec c 4); [lia|]. destruct (N.ltb_spec (c - 4) 8); [lia|]. destruct (N.ltb_spec (c - 4 - 8) 8); [lia|].
      destruct (N.ltb_spec (c - 4 - 8 - 8) 8); [reflexivity|lia].
    + rewrite missing_app_r by (cbn [fields_len field_len wd]; lia). rewrite missing_app_r by (rewrite F; cbn [fields_len field_len wd]; lia).
      rewrite F. cbn [fields_len field_len wd]. destruct (ei_ngrams (sv_ix v)) as [|g gs]; [congruence|]. cbn [flat_map wngram app missing wd].
      match goal with |- context [?x <? 4] => destruct (N.ltb_spec x 4); [reflexivity|lia] end.
  - rewrite !fields_len_app, F. cbn [fields_len field_len wd]. destruct H as [H|(NE & H)]; [lia|].
    destruct (ei_ngrams (sv_ix v)) as [|g gs]; [congruence|]. cbn [flat_map wngram app fields_len field_len wd]. lia.
Qed.
(** Bytes 28 to 31 of the chunk are the number of centroids. *)
Lemma centroids_text q base bytes c : run_writer (write_quantized q) base = Ok bytes -> 28 <= c < 32 ->
  fst (tell_quantized q (mkSink base [] (Some c))) = MErr (MWrite (txt "Cannot write number of subquantizers")).
Proof.
  intros R H. apply (room_says _ _ _ _ _ _ _ (says_quantized q) R); unfold wqa; cbn [app missing fields_len field_len wd]; [|lia].
  destruct (N.ltb_spec c 4); [lia|]. destruct (N.ltb_spec (c - 4) 8); [lia|].
  do 4 (match goal with |- context [?x <? 4] => destruct (N.ltb_spec x 4); [lia|] end).
  match goal with |- context [?x <? 4] => destruct (N.ltb_spec x 4); [reflexivity|lia] end.
Qed.

(** So one text stands for two fields, and another one names something else. *)
Definition one_ngram : subword_vocab explicit_indexer := mkSub [] [] (mkExIx [[x61]] [([x61], 0)] 1) [] [] 1 1.
Lemma ngram_text_not : exists v g bytes c c', run_writer (write_explicit v) 0 = Ok bytes /\ ei_ngrams (sv_ix v) = [g] /\
  takeN 8 (dropN c bytes) = le_bytes 8 (lenN (ei_ngrams (sv_ix v))) /\ takeN (4 + lenN g) (dropN c' bytes) = le_bytes 4 (lenN g) ++ g /\ c + 8 <= c' /\
  fst (tell_explicit v (mkSink 0 [] (Some c))) = fst (tell_explicit v (mkSink 0 [] (Some c'))).
Proof.
  eexists one_ngram, [x61], _, 20, 36. split; [vm_compute; reflexivity|]. split; [reflexivity|]. split; [vm_compute; reflexivity|].
  split; [vm_compute; reflexivity|]. split; [discriminate|]. vm_compute. reflexivity.
Qed.
Definition two_centroids : quantized f32 :=
  let z := F32 x00 x00 x00 x00 in mkQuant (mkPq None 1 2 1 [[[z]; [z]]]) (mkA2 1 [[x00]]) None.
Lemma centroids_text_not : exists q bytes c, run_writer (write_quantized q) 0 = Ok bytes /\ lenN (pq_cent (qa_pq q)) = 1 /\
  takeN 4 (dropN c bytes) = le_bytes 4 2 /\
  fst (tell_quantized q (mkSink 0 [] (Some c))) = MErr (MWrite (txt "Cannot write number of subquantizers")).
Proof.
  eexists two_centroids, _, 28. split; [vm_compute; reflexivity|]. split; [reflexivity|]. split; vm_compute; reflexivity.
Qed.
