(** * Every outcome of the text readers. *)
From Verif Require Import Base BaseFacts Utf8 Utf8Facts Stream StreamFacts F32 ChunkIO Subword Vocab Storage Embeddings TextIO FileSpec VocabSpec
  ChunkFacts VocabFacts StorageFacts ReadFacts LookupFacts EmbSpec MatrixFacts EmbFacts BatchFacts
  TextSpec TextExactSpec TextFacts TextThms BinaryThms LossyFacts TextAccept FloretThms.
Local Open Scope N_scope.

(** ** Fields *)
Lemma field_exists d data : exists f r, field_of d data f r.
Proof.
  destruct (byte_in_dec d data) as [I|I].
  - apply first_split in I as (a & b & -> & NI). exists a, b. constructor. exact NI.
  - destruct data as [|x data']; [do 2 eexists; constructor|]. destruct (exists_last (l := x :: data') ltac:(discriminate)) as (f & b & E). rewrite E in *. exists f, []. constructor. exact I.
Qed.
Lemma field_read d data f r : field_of d data f r -> forall p, exists buf, read_until d (mkStream data p) = (Ok buf, mkStream r (p + (lenN data - lenN r))) /\ removelast buf = f.
Proof.
  intros H p. destruct H as [f rest NI|f b NI| ].
  - rewrite read_until_hit by exact NI. eexists. rewrite removelast_last. split; [|reflexivity]. do 2 f_equal. rewrite !lenN_app, !lenN_cons, lenN_nil. lia.
  - rewrite read_until_miss by exact NI. eexists. rewrite removelast_last. split; [|reflexivity]. do 2 f_equal. rewrite lenN_nil. lia.
  - rewrite read_until_miss by (intros []). exists []. split; reflexivity.
Qed.
Lemma field_unique d data f r f' r' : field_of d data f r -> field_of d data f' r' -> f = f' /\ r = r'.
Proof.
  intros H H'. destruct (field_read d data f r H 0) as (b & E & <-). destruct (field_read d data f' r' H' 0) as (b' & E' & <-).
  rewrite E in E'. injection E' as <- -> _. auto.
Qed.

Lemma number_exact d data n r p : number_of d data n r -> exists p', read_number d (mkStream data p) = (Ok n, mkStream r p').
Proof.
  intros (f & H & NU & L). destruct (field_read d data f r H p) as (buf & E & RL). unfold read_number, read_string, bind. rewrite E, RL.
  rewrite (numeral_valid f n NU). unfold ret. rewrite (proj2 (dec_parse_spec f n)) by auto. eexists. reflexivity.
Qed.
Lemma no_number_exact d data r p : no_number d data r -> exists p', read_number d (mkStream data p) = (Err EFormat, mkStream r p').
Proof.
  intros (f & H & NN). destruct (field_read d data f r H p) as (buf & E & RL). unfold read_number, read_string, bind. rewrite E, RL.
  destruct (utf8_valid f); unfold ret, fail; [|eexists; reflexivity]. destruct (dec_parse f) as [n|] eqn:DP; [|eexists; reflexivity].
  apply dec_parse_spec in DP as [NU L]. specialize (NN n NU). lia.
Qed.
Lemma number_cases d data : (exists n r, number_of d data n r) \/ exists r, no_number d data r.
Proof.
  destruct (field_exists d data) as (f & r & H). destruct (dec_parse f) as [n|] eqn:DP.
  - left. exists n, r, f. split; [exact H|]. apply dec_parse_spec. exact DP.
  - right. exists r, f. split; [exact H|]. intros n NU. destruct (N.lt_ge_cases n two64) as [L|L]; [|exact L].
    rewrite (proj2 (dec_parse_spec f n)) in DP by auto. discriminate.
Qed.
Lemma text_exact d lossy data s r p : text_of d lossy data s r -> exists p', read_string d lossy (mkStream data p) = (Ok s, mkStream r p').
Proof.
  intros (f & H & D). destruct (field_read d data f r H p) as (buf & E & RL). unfold read_string, bind. rewrite E, RL.
  unfold decodes in D. destruct lossy; [subst s; eexists; reflexivity|]. destruct D as [-> ->]. eexists. reflexivity.
Qed.
Lemma no_text_exact d lossy data r p : no_text d lossy data r -> exists p', read_string d lossy (mkStream data p) = (Err EFormat, mkStream r p').
Proof.
  intros (f & H & -> & U). destruct (field_read d data f r H p) as (buf & E & RL). unfold read_string, bind. rewrite E, RL, U. eexists. reflexivity.
Qed.
Lemma text_cases d lossy data : (exists s r, text_of d lossy data s r /\ utf8_valid s = true) \/ exists r, no_text d lossy data r.
Proof.
  destruct (field_exists d data) as (f & r & H). destruct lossy.
  - left. do 2 eexists. split; [exists f; split; [exact H|reflexivity]|]. apply from_utf8_lossy_valid.
  - destruct (utf8_valid f) eqn:U; [left; exists f, r; split; [exists f; split; [exact H|split; auto]|exact U]|].
    right. exists r, f. auto.
Qed.
(** What [read_number] does on any bytes. *)
Lemma number_outcome d data p : exists f r,
  field_of d data f r /\ (forall f' r', field_of d data f' r' -> f' = f /\ r' = r) /\
  ((forall n, numeral f n -> n < two64 -> read_number d (mkStream data p) = (Ok n, mkStream r (p + (lenN data - lenN r)))) /\
   ((forall n, numeral f n -> two64 <= n) -> read_number d (mkStream data p) = (Err EFormat, mkStream r (p + (lenN data - lenN r)))) /\
   ((exists n, numeral f n /\ n < two64) \/ forall n, numeral f n -> two64 <= n)).
Proof.
  destruct (field_exists d data) as (f & r & H). exists f, r. split; [exact H|]. split; [intros f' r' H'; eapply field_unique; eauto|].
  destruct (field_read d data f r H p) as (buf & E & RL). split; [|split].
  - intros n NU L. unfold read_number, read_string, bind. rewrite E, RL, (numeral_valid f n NU). unfold ret. rewrite (proj2 (dec_parse_spec f n)) by auto. reflexivity.
  - intros NN. unfold read_number, read_string, bind. rewrite E, RL.
    destruct (utf8_valid f); unfold ret, fail; [|reflexivity]. destruct (dec_parse f) as [n|] eqn:DP; [|reflexivity].
    apply dec_parse_spec in DP as [NU L]. specialize (NN n NU). lia.
  - destruct (dec_parse f) as [n|] eqn:DP; [left; exists n; apply dec_parse_spec; exact DP|]. right. intros n NU.
    destruct (N.lt_ge_cases n two64) as [L|L]; [|exact L]. rewrite (proj2 (dec_parse_spec f n)) in DP by auto. discriminate.
Qed.

Lemma shape_cases data : (exists n d r, shape_of data n d r) \/ no_shape data.
Proof.
  destruct (number_cases x20 data) as [(n & r & H)|(r & H)]; [|right; left; eauto].
  destruct (number_cases x0a r) as [(d & r' & H')|(r' & H')]; [left; exists n, d, r', r; auto|]. right. right. eauto.
Qed.
Lemma shape_read {A} data n d rest (k : N -> N -> reader A) p : shape_of data n d rest -> exists p',
  (n <- read_number x20 ;; d <- read_number x0a ;; k n d) (mkStream data p) = k n d (mkStream rest p').
Proof.
  intros (r & H1 & H2). unfold bind. destruct (number_exact x20 data n r p H1) as (p1 & ->). destruct (number_exact x0a r d rest p1 H2) as (p2 & ->). eauto.
Qed.
Lemma no_shape_read {A} data (k : N -> N -> reader A) p : no_shape data -> exists s,
  (n <- read_number x20 ;; d <- read_number x0a ;; k n d) (mkStream data p) = (Err EFormat, s).
Proof.
  intros [(r & H)|(n & r & r' & H1 & H2)]; unfold bind.
  - destruct (no_number_exact x20 data r p H) as (p1 & ->). eauto.
  - destruct (number_exact x20 data n r p H1) as (p1 & ->). destruct (no_number_exact x0a r r' p1 H2) as (p2 & ->). eauto.
Qed.

(** ** Embeddings are determined by their description *)
Lemma rows_unique {A} c (rows rows' : list (list A)) : lenN rows = lenN rows' -> Forall (fun r => lenN r = c) rows -> Forall (fun r => lenN r = c) rows' ->
  concat rows = concat rows' -> rows = rows'.
Proof.
  intros L F F' E. rewrite <- (unflattenN_concat (lenN rows) c rows eq_refl F). rewrite E. apply unflattenN_concat; auto.
Qed.
Lemma contents_unique {Md} (e e' : embeddings Md simple_vocab (array2 f32) f32) items d : text_contents e items d -> text_contents e' items d -> e = e'.
Proof.
  intros (A1 & _ & A3 & A4 & A5 & A6 & _ & A8 & A9) (B1 & _ & B3 & B4 & B5 & B6 & _ & B8 & B9).
  destruct e as [m [c rows] v n], e' as [m' [c' rows'] v' n']. cbn [em_vocab em_storage em_norms em_meta a2_cols a2_rows] in *. subst.
  rewrite A1 in B1. injection B1 as <-. f_equal. f_equal. eapply rows_unique; eauto; congruence.
Qed.
Lemma raw_unique {Md} (e e' : embeddings Md simple_vocab (array2 f32) f32) d l : raw_result e d l -> raw_result e' d l -> e = e'.
Proof.
  intros (A1 & A2 & A3 & A4) (B1 & B2 & B3 & B4). destruct e as [m s v n], e' as [m' s' v' n']. cbn [em_vocab em_storage em_norms em_meta] in *. congruence.
Qed.
Lemma floret_unique {Md} (e e' : embeddings Md (subword_vocab floret_indexer) (array2 f32) f32) nb dims mn mx nh seed bow eow rows :
  floret_result e nb dims mn mx nh seed bow eow rows -> floret_result e' nb dims mn mx nh seed bow eow rows -> e = e'.
Proof.
  intros (A1 & A2 & A3 & A4 & A5 & A6 & A7 & A8 & A9 & A0) (B1 & B2 & B3 & B4 & B5 & B6 & B7 & B8 & B9 & B0).
  destruct e as [m s [b0 e0 i0 ix0 w0 mn0 mx0] n], e' as [m' s' [b1 e1 i1 ix1 w1 mn1 mx1] n'].
  cbn [em_vocab em_storage em_norms em_meta sv_words sv_indices sv_min sv_max sv_bow sv_eow sv_ix] in *. congruence.
Qed.
Lemma words_nodup (l : list str) : NoDup l \/ ~ NoDup l.
Proof. destruct (ListDec.NoDup_dec str_eq_dec l); auto. Qed.

Section Room.
  Context (pf : profile).
  Lemma room_cases n d : (exists p, no_room pf n d p /\ forall s, (c <- lift (mul64 pf n d) ;; reserve c 4) s = (Panic p, s : stream)) \/
    ((forall p, ~ no_room pf n d p) /\ forall s : stream, (c <- lift (mul64 pf n d) ;; reserve c 4) s = (Ok tt, s)).
  Proof.
    unfold bind, lift, mul64, reserve. destruct (N.ltb_spec (n * d) two64) as [L|L].
    - destruct (N.leb_spec (n * d * 4) isize_max) as [L'|L'].
      + right. split; [|reflexivity]. intros p H. inversion H as [|_ K|]; try lia. rewrite N.mod_small in K by exact L. lia.
      + left. exists PCapacity. split; [apply nr_large; auto|reflexivity].
    - destruct pf eqn:EP.
      + left. exists PArithOverflow. split; [apply nr_overflow; auto|reflexivity].
      + destruct (N.leb_spec (n * d mod two64 * 4) isize_max) as [L'|L'].
        * right. split; [|reflexivity]. intros p H. inversion H; try discriminate; lia.
        * left. exists PCapacity. split; [apply nr_wrapped; auto|reflexivity].
  Qed.
  Lemma no_room_unique n d p q : no_room pf n d p -> no_room pf n d q -> p = q.
  Proof. intros H H'. inversion H; inversion H'; subst; try reflexivity; try discriminate; lia. Qed.
  Lemma room_panic n d p s : no_room pf n d p -> (c <- lift (mul64 pf n d) ;; reserve c 4) s = (Panic p, s : stream).
  Proof.
    intros H. destruct (room_cases n d) as [(q & H' & E)|[H' _]]; [|exfalso; eapply H'; eauto]. rewrite (no_room_unique _ _ _ _ H H'). apply E.
  Qed.
  Lemma room_ok n d (s : stream) : (forall p, ~ no_room pf n d p) -> (c <- lift (mul64 pf n d) ;; reserve c 4) s = (Ok tt, s).
  Proof. intros H. destruct (room_cases n d) as [(q & H' & _)|[_ E]]; [exfalso; eapply H; eauto|apply E]. Qed.
  Lemma room_dec n d : (exists p, no_room pf n d p) \/ forall p, ~ no_room pf n d p.
  Proof. destruct (room_cases n d) as [(q & H' & _)|[H _]]; eauto. Qed.
End Room.

Section Text.
  Context (P : ftext_ops) (pf : profile) {Md : Type}.

  Lemma text_total lossy data : exists o : res (embeddings Md simple_vocab (array2 f32) f32), text_outcome P lossy data o.
  Proof.
    destruct (read_lines_cases P lossy (mkStream data 0) eq_refl) as [(items & T)|[N0 _]]; cbn [s_rest] in *; [|eexists; apply to_lines; exact N0].
    destruct (text_outcomes P Debug (Md := Md) lossy data) as [_ H]. specialize (H items T) as (_ & _ & _ & H4).
    destruct items as [|it items]; [eexists; apply to_empty; exact T|]. assert (it :: items <> []) as NE by discriminate.
    destruct (N.eq_dec (lenN (flat_map snd (it :: items)) mod lenN (it :: items)) 0) as [M|M]; [|eexists; eapply to_ragged; eauto].
    destruct (words_nodup (map fst (it :: items))) as [ND|ND]; [|eexists; eapply to_duplicate; eauto].
    destruct (H4 NE M ND) as (e & _ & C). eexists. eapply to_done; eauto.
  Qed.
  Lemma text_run lossy data (o : res (embeddings Md simple_vocab (array2 f32) f32)) : text_outcome P lossy data o -> run_reader (read_text_raw P pf lossy) data = o.
  Proof.
    destruct (text_outcomes P pf (Md := Md) lossy data) as [H0 H]. intros X. destruct X as [N0|T|items T NE M|items T NE M ND|items e T NE M ND C].
    - apply H0, N0.
    - destruct (H _ T) as (H1 & _). apply H1. reflexivity.
    - destruct (H _ T) as (_ & H2 & _). apply H2; auto.
    - destruct (H _ T) as (_ & _ & H3 & _). apply H3; auto.
    - destruct (H _ T) as (_ & _ & _ & H4). destruct (H4 NE M ND) as (e' & E & C'). rewrite E. f_equal. eapply contents_unique; eauto.
  Qed.
  Theorem text_exact_outcome lossy data (o : res (embeddings Md simple_vocab (array2 f32) f32)) : run_reader (read_text_raw P pf lossy) data = o <-> text_outcome P lossy data o.
  Proof.
    split; [|apply text_run]. intros <-. destruct (text_total lossy data) as (o & H). rewrite (text_run _ _ _ H). exact H.
  Qed.

  (** *** With a header *)
  Definition after_lines n d items : reader (embeddings Md simple_vocab (array2 f32) f32) :=
    (sh <- lift (text_shape (Some (n, d)) (lenN items) (lenN (flat_map snd items))) ;;
     a <- lift (from_shape_vec (fst sh) (snd sh) (flat_map snd items)) ;;
     v <- lift (simple_new (map fst items)) ;;
     lift (emb_new_with_maybe_norms simple_ops (nd_ops f32) pf None v a None)).
  Lemma embeds_step n d lossy s : s_broken s = false -> n * 24 <= isize_max -> (forall p, ~ no_room pf n d p) ->
    (forall items, text_items P lossy (s_rest s) items -> exists s', read_embeds (Md := Md) P pf (Some (n, d)) lossy s = after_lines n d items s') /\
    ((forall items, ~ text_items P lossy (s_rest s) items) -> exists s', read_embeds (Md := Md) P pf (Some (n, d)) lossy s = (Err EFormat, s')).
  Proof.
    intros BR H1 H2. assert ((reserve n 24 ;;; c <- lift (mul64 pf n d) ;; reserve c 4) s = (Ok tt, s)) as E.
    { unfold bind at 1. rewrite reserve_ok by exact H1. apply room_ok. exact H2. }
    unfold read_embeds, after_lines. split.
    - intros items T. exists (mkStream [] (s_pos s + lenN (s_rest s))). unfold bind at 1. rewrite E. unfold bind at 1.
      rewrite (read_lines_items P lossy s items BR T), lenN_map. reflexivity.
    - intros N0. unfold bind at 1. rewrite E. unfold bind. destruct (read_lines_cases P lossy s BR) as [(items & T)|(_ & s3 & E3)]; [exfalso; eapply N0; eauto|].
      rewrite E3. eauto.
  Qed.
  Lemma after_lines_done n d items s : lenN items = n -> n <> 0 -> lenN (flat_map snd items) = n * d -> NoDup (map fst items) ->
    exists e, text_contents e items d /\ after_lines n d items s = (Ok e, s).
  Proof.
    intros E NZ L D. unfold after_lines, bind, lift, text_shape, div64.
    rewrite E, N.eqb_refl; cbn [negb]; (assert (n <> 0) as NZ' by exact NZ); apply N.eqb_neq in NZ'; rewrite NZ'; cbn [rbind].
    assert (lenN (flat_map snd items) / n = d) as -> by (rewrite L, N.mul_comm; apply N.div_mul; exact NZ). rewrite N.eqb_refl; cbn [negb fst snd].
    unfold from_shape_vec; rewrite L, N.eqb_refl.
    pose proof (simple_new_NoDup _ D) as SV. rewrite SV. assert (lenN (flat_map snd items) = lenN items * d) as L' by (rewrite E; exact L).
    rewrite (simple_emb pf (map fst items)); [|exact SV|unfold a2_nrows; cbn [a2_rows]; rewrite lenN_map, <- E; apply (unflattenN_spec _ _ _ L')].
    eexists. split; [|reflexivity]. rewrite <- E. apply contents_of; auto. intros ->. apply NZ. rewrite <- E. reflexivity.
  Qed.
  Lemma body_total lossy n d data : exists o : res (embeddings Md simple_vocab (array2 f32) f32), body_outcome P lossy n d data o.
  Proof.
    destruct (read_lines_cases P lossy (mkStream data 0) eq_refl) as [(items & T)|[N0 _]]; cbn [s_rest] in *; [|eexists; apply bo_lines; exact N0].
    destruct (N.eq_dec (lenN items) n) as [E|E]; [|eexists; eapply bo_count; eauto].
    destruct (N.eq_dec n 0) as [Z|NZ]; [rewrite Z in E; apply lenN_0 in E; subst items; eexists; apply bo_empty; eauto|].
    destruct (N.eq_dec (lenN (flat_map snd items) / n) d) as [D|D]; [|eexists; eapply bo_columns; eauto].
    destruct (N.eq_dec (lenN (flat_map snd items)) (n * d)) as [L|L]; [|eexists; eapply bo_ragged; eauto].
    destruct (words_nodup (map fst items)) as [ND|ND]; [|eexists; eapply bo_duplicate; eauto].
    destruct (after_lines_done n d items (mkStream [] 0) E NZ L ND) as (e & C & _). eexists. eapply bo_done; eauto.
  Qed.
  Lemma body_run lossy n d data p (o : res (embeddings Md simple_vocab (array2 f32) f32)) : n * 24 <= isize_max -> (forall p, ~ no_room pf n d p) -> body_outcome P lossy n d data o ->
    exists s', read_embeds P pf (Some (n, d)) lossy (mkStream data p) = (o, s').
  Proof.
    intros H1 H2 X. destruct (embeds_step n d lossy (mkStream data p) eq_refl H1 H2) as [HI H0]. cbn [s_rest] in *.
    destruct X as [N0|items T E|T E|items T E NZ D|items T E NZ D L|items T E NZ L ND|items e T E NZ L ND C]; [apply H0, N0|destruct (HI _ T) as (s' & ->); clear HI H0..].
    - unfold after_lines, bind, lift, text_shape. apply N.eqb_neq in E. rewrite E. eexists. reflexivity.
    - subst n. eexists. reflexivity.
    - unfold after_lines, bind, lift, text_shape, div64. rewrite E, N.eqb_refl. apply N.eqb_neq in NZ, D. cbn [negb]. rewrite NZ. cbn [rbind]. rewrite D. eexists. reflexivity.
    - unfold after_lines, bind, lift, text_shape, div64. rewrite E, N.eqb_refl. apply N.eqb_neq in NZ, L. cbn [negb]. rewrite NZ. cbn [rbind]. rewrite D, N.eqb_refl.
      cbn [negb fst snd]. unfold from_shape_vec. rewrite L. eexists. reflexivity.
    - unfold after_lines, bind, lift, text_shape, div64. rewrite E, N.eqb_refl; cbn [negb]; (assert (n <> 0) as NZ' by exact NZ); apply N.eqb_neq in NZ'; rewrite NZ'; cbn [rbind].
      assert (lenN (flat_map snd items) / n = d) as -> by (rewrite L, N.mul_comm; apply N.div_mul; exact NZ). rewrite N.eqb_refl; cbn [negb fst snd].
      unfold from_shape_vec; rewrite L, N.eqb_refl. rewrite (proj2 (simple_new_iff (map fst items)) ND). eexists. reflexivity.
    - destruct (after_lines_done n d items s' E NZ L ND) as (e' & C' & ->). rewrite (contents_unique _ _ _ _ C C'). eauto.
  Qed.
  Lemma dims_total lossy data : exists o : res (embeddings Md simple_vocab (array2 f32) f32), dims_outcome P pf lossy data o.
  Proof.
    destruct (shape_cases data) as [(n & d & r & S)|S]; [|eexists; apply do_header; exact S].
    destruct (N.le_gt_cases (n * 24) isize_max) as [L|L]; [|eexists; eapply do_words; eauto].
    destruct (room_dec pf n d) as [(p & H)|H]; [eexists; eapply do_numbers; eauto|].
    destruct (body_total lossy n d r) as (o & B). exists o. eapply do_body; eauto.
  Qed.
  Lemma dims_run lossy data (o : res (embeddings Md simple_vocab (array2 f32) f32)) : dims_outcome P pf lossy data o -> run_reader (read_text_dims_raw P pf lossy) data = o.
  Proof.
    intros X. unfold run_reader, read_text_dims_raw. destruct X as [S|n d r S L|n d r p S L H|n d r o S L H B].
    - destruct (no_shape_read data (fun n d => read_embeds (Md := Md) P pf (Some (n, d)) lossy) 0 S) as (s & ->). reflexivity.
    - destruct (shape_read data n d r (fun n d => read_embeds (Md := Md) P pf (Some (n, d)) lossy) 0 S) as (p' & ->).
      unfold read_embeds, bind, reserve. destruct (N.leb_spec (n * 24) isize_max); [lia|]. reflexivity.
    - destruct (shape_read data n d r (fun n d => read_embeds (Md := Md) P pf (Some (n, d)) lossy) 0 S) as (p' & ->).
      unfold read_embeds. unfold bind at 1. unfold bind at 1. rewrite reserve_ok by exact L. rewrite (room_panic pf n d p _ H). reflexivity.
    - destruct (shape_read data n d r (fun n d => read_embeds (Md := Md) P pf (Some (n, d)) lossy) 0 S) as (p' & ->).
      destruct (body_run lossy n d r p' o L H B) as (s' & ->). reflexivity.
  Qed.
  Theorem dims_exact_outcome lossy data (o : res (embeddings Md simple_vocab (array2 f32) f32)) : run_reader (read_text_dims_raw P pf lossy) data = o <-> dims_outcome P pf lossy data o.
  Proof.
    split; [|apply dims_run]. intros <-. destruct (dims_total lossy data) as (o & H). rewrite (dims_run _ _ _ H). exact H.
  Qed.
End Text.

(** ** word2vec *)
Lemma f32s_split d r : d * 4 <= lenN r -> exists v r', r = f32s_bytes v ++ r' /\ lenN v = d.
Proof.
  intros L. exists (f32s_of_bytes (takeN (4 * d) r)), (dropN (4 * d) r).
  assert (lenN (takeN (4 * d) r) = 4 * d) as LT by (rewrite lenN_takeN; lia).
  split; [rewrite f32s_bytes_of_bytes by (rewrite LT; lia); rewrite takeN_dropN; reflexivity|]. rewrite f32s_of_bytes_lenN, LT. lia.
Qed.
Lemma entry_step lossy d data s v r w p : text_of x20 lossy data s (f32s_bytes v ++ r) -> trims s w -> lenN v = d ->
  exists p', read_w2v_entry d lossy (mkStream data p) = (Ok (w, v), mkStream r p').
Proof.
  intros T TR L. destruct (text_exact x20 lossy data s _ p T) as (p1 & E). unfold read_w2v_entry, bind. rewrite E. subst d.
  pose proof (reads_f32s v (lenN v) eq_refl p1 r) as R. unfold fconst in R. rewrite R. rewrite (trims_exact s w TR). eexists. reflexivity.
Qed.
Lemma bytes4 v : lenN (f32s_bytes v) = 4 * lenN v.
Proof. rewrite f32s_bytes_lenN. reflexivity. Qed.
Lemma entries_run lossy d n data l rest : entries_of lossy d n data l rest -> forall p, exists p',
  repeat_m n (read_w2v_entry d lossy) (mkStream data p) = (Ok l, mkStream rest p').
Proof.
  induction 1 as [rest|n data s w v r l rest T TR L H IH]; intros p; [eexists; reflexivity|].
  rewrite repeat_m_nat. replace (N.to_nat (1 + n)) with (Datatypes.S (N.to_nat n)) by lia. cbn [repeat_nat]. unfold bind at 1.
  destruct (entry_step lossy d data s v r w p T TR L) as (p1 & ->). unfold bind. rewrite <- repeat_m_nat. destruct (IH p1) as (p2 & ->). eexists. reflexivity.
Qed.
Lemma entries_len lossy d n data l rest : entries_of lossy d n data l rest -> lenN l = n /\ Forall (fun it => lenN (snd it) = d) l.
Proof. induction 1 as [|n data s w v r l rest T TR L H [IH1 IH2]]; [split; [reflexivity|constructor]|]. rewrite lenN_cons, IH1. split; [lia|constructor; auto]. Qed.
Lemma bad_entry_run lossy d n data er : bad_entry lossy d n data er -> forall p, exists s',
  repeat_m n (read_w2v_entry d lossy) (mkStream data p) = (Err er, s').
Proof.
  induction 1 as [n data r H|n data s r T L|n data s v r er T L H IH]; intros p;
    rewrite repeat_m_nat; replace (N.to_nat (1 + n)) with (Datatypes.S (N.to_nat n)) by lia; cbn [repeat_nat]; unfold bind at 1.
  - destruct (no_text_exact x20 lossy data r p H) as (p1 & E). unfold read_w2v_entry, bind at 1. rewrite E. eauto.
  - destruct (text_exact x20 lossy data s r p T) as (p1 & E). unfold read_w2v_entry, bind at 1. rewrite E. unfold read_f32s, bind. rewrite read_exact_short by lia. eauto.
  - assert (utf8_valid s = true) as V.
    { destruct T as (f & _ & D). unfold decodes in D. destruct lossy; [subst s; apply from_utf8_lossy_valid|destruct D as [-> D]; exact D]. }
    destruct (entry_step lossy d data s v r (str_trim s) p T (trims_trim s V) L) as (p1 & ->). unfold bind. rewrite <- repeat_m_nat. destruct (IH p1) as (s' & ->). eauto.
Qed.
Lemma entries_total lossy d n : forall data, (exists l rest, entries_of lossy d n data l rest) \/ exists er, bad_entry lossy d n data er.
Proof.
  induction n as [|n IH] using N.peano_ind; intros data; [left; do 2 eexists; constructor|]. rewrite <- N.add_1_l.
  destruct (text_cases x20 lossy data) as [(s & r & T & V)|(r & T)]; [|right; eexists; eapply be_word; eauto].
  destruct (N.lt_ge_cases (lenN r) (d * 4)) as [L|L]; [right; eexists; eapply be_short; eauto|].
  destruct (f32s_split d r L) as (v & r' & -> & LV). destruct (IH r') as [(l & rest & H)|(er & H)].
  - left. exists ((str_trim s, v) :: l), rest. eapply eo_cons; eauto. apply trims_trim. exact V.
  - right. exists er. eapply be_later; eauto.
Qed.

Section Binary.
  Context (pf : profile) {Md : Type}.
  Definition w2v_after lossy n d : reader (embeddings Md simple_vocab (array2 f32) f32) :=
    alloc_zeros [n; d] 4 ;;;
    reserve n 24 ;;;
    es <- repeat_m n (read_w2v_entry d lossy) ;;
    v <- lift (simple_new (map fst es)) ;;
    lift (emb_new_with_maybe_norms simple_ops (nd_ops f32) pf None v (mkA2 d (map snd es)) None).
  Lemma fits_dec n d : binary_fits n d \/ ~ binary_fits n d.
  Proof.
    unfold binary_fits, dims_ok. destruct (N.le_gt_cases (n * 24) isize_max); [|right; lia].
    destruct (N.le_gt_cases (fold_left (fun a d => a * nonzero d) [n; d] 1) isize_max); [|right; lia].
    destruct (N.le_gt_cases (fold_left N.mul [n; d] 1 * 4) isize_max); [|right; lia]. auto.
  Qed.
  Lemma w2v_large lossy n d s : ~ binary_fits n d -> w2v_after lossy n d s = (Panic PCapacity, s).
  Proof.
    unfold binary_fits, dims_ok, w2v_after, bind, alloc_zeros, reserve. intros H.
    destruct (N.leb_spec (fold_left (fun a d => a * nonzero d) [n; d] 1) isize_max); [|reflexivity].
    destruct (N.leb_spec (fold_left N.mul [n; d] 1 * 4) isize_max); [|reflexivity]. cbn [andb].
    destruct (N.leb_spec (n * 24) isize_max); [|reflexivity]. exfalso. apply H. auto.
  Qed.
  Lemma w2v_done l d s : NoDup (map fst l) -> exists e : (embeddings Md simple_vocab (array2 f32) f32), raw_result e d l /\
    (v <- lift (simple_new (map fst l)) ;; lift (emb_new_with_maybe_norms simple_ops (nd_ops f32) pf None v (mkA2 d (map snd l)) None)) s = (Ok e, s : stream).
  Proof.
    intros ND. destruct (proj2 (proj1 (simple_new_iff (map fst l))) ND) as (v & E). unfold bind, lift. rewrite E.
    rewrite (simple_emb pf (map fst l) v) by (auto; unfold a2_nrows; cbn [a2_rows]; rewrite !lenN_map; reflexivity).
    eexists. split; [|reflexivity]. repeat split; auto.
  Qed.
  Lemma binary_total lossy data : exists o : res (embeddings Md simple_vocab (array2 f32) f32), binary_outcome lossy data o.
  Proof.
    destruct (shape_cases data) as [(n & d & r & S)|S]; [|eexists; apply wo_header; exact S].
    destruct (fits_dec n d) as [F|F]; [|eexists; eapply wo_large; eauto].
    destruct (entries_total lossy d n r) as [(l & tail & H)|(er & H)]; [|eexists; eapply wo_entry; eauto].
    destruct (words_nodup (map fst l)) as [ND|ND]; [|eexists; eapply wo_duplicate; eauto].
    destruct (w2v_done l d (mkStream [] 0) ND) as (e & RR & _). eexists. eapply wo_done; eauto.
  Qed.
  Lemma binary_run lossy data (o : res (embeddings Md simple_vocab (array2 f32) f32)) : binary_outcome lossy data o -> run_reader (read_word2vec_raw pf lossy) data = o.
  Proof.
    intros X. unfold run_reader, read_word2vec_raw. change (fst ((n <- read_number x20 ;; d <- read_number x0a ;; w2v_after lossy n d) (mkStream data 0)) = o).
    destruct X as [S|n d r S F|n d r er S F H|n d r l t S F H ND|n d r l t e S F H ND RR];
      [destruct (no_shape_read data (w2v_after lossy) 0 S) as (s & ->); reflexivity|destruct (shape_read data n d r (w2v_after lossy) 0 S) as (p & ->)..].
    - rewrite w2v_large by exact F. reflexivity.
    - destruct F as [F1 F2]. unfold w2v_after. unfold bind at 1. rewrite alloc_zeros_ok by exact F1. unfold bind at 1. rewrite reserve_ok by exact F2.
      unfold bind at 1. destruct (bad_entry_run lossy d n r er H p) as (s' & ->). reflexivity.
    - destruct F as [F1 F2]. unfold w2v_after. unfold bind at 1. rewrite alloc_zeros_ok by exact F1. unfold bind at 1. rewrite reserve_ok by exact F2.
      unfold bind at 1. destruct (entries_run lossy d n r l t H p) as (s' & ->). unfold bind, lift. rewrite (proj2 (simple_new_iff (map fst l)) ND). reflexivity.
    - destruct F as [F1 F2]. unfold w2v_after. unfold bind at 1. rewrite alloc_zeros_ok by exact F1. unfold bind at 1. rewrite reserve_ok by exact F2.
      unfold bind at 1. destruct (entries_run lossy d n r l t H p) as (s' & ->).
      destruct (w2v_done l d (mkStream t s') ND) as (e' & RR' & ->). cbn [fst]. f_equal. eapply raw_unique; eauto.
  Qed.
  Theorem binary_exact_outcome lossy data (o : res (embeddings Md simple_vocab (array2 f32) f32)) : run_reader (read_word2vec_raw pf lossy) data = o <-> binary_outcome lossy data o.
  Proof.
    split; [|apply binary_run]. intros <-. destruct (binary_total lossy data) as (o & H). rewrite (binary_run _ _ _ H). exact H.
  Qed.
End Binary.

(** ** floret *)
Lemma bad_row_cases P dims data : dims <> 0 -> (exists rows, floret_rows P dims data rows) \/ exists er, bad_row P dims data er.
Proof.
  intros D0. destruct (lines_exist data) as (ls & H).
  assert ((exists rows, Forall2 (floret_row P dims) ls rows) \/ exists l1 rows l l2, ls = l1 ++ l :: l2 /\ Forall2 (floret_row P dims) l1 rows /\ forall v, ~ floret_row P dims l v) as [(rows & R)|(l1 & rows & l & l2 & -> & R & N0)].
  { clear H. induction ls as [|l ls IH]; [left; exists []; constructor|].
    destruct (floret_line P dims l) as [v|er|q] eqn:E.
    - apply floret_line_row in E; [|exact D0]. destruct IH as [(rows & R)|(l1 & rows & l' & l2 & -> & R & N0)]; [left; exists (v :: rows); constructor; auto|].
      right. exists (l :: l1), (v :: rows), l', l2. split; [reflexivity|]. split; [constructor; auto|exact N0].
    - right. exists [], [], l, ls. split; [reflexivity|]. split; [constructor|]. intros v K. apply floret_line_row in K; [congruence|exact D0].
    - right. exists [], [], l, ls. split; [reflexivity|]. split; [constructor|]. intros v K. apply floret_line_row in K; [congruence|exact D0]. }
  - left. exists rows, ls. auto.
  - right. destruct (utf8_valid l) eqn:V; eexists; exists l1, rows, l, l2; (split; [exact H|]); (split; [exact R|]); [right|left]; auto.
Qed.
Lemma bad_row_run P dims data er p : dims <> 0 -> bad_row P dims data er -> exists s', read_floret_lines P dims (mkStream data p) = (Err er, s').
Proof.
  intros D0 (ls & rows & l & ls' & H & R & B). unfold read_floret_lines. cbn [s_rest].
  destruct (floret_lines_fst P dims data _ H (Datatypes.S (length data)) p ltac:(lia)) as [E1 _].
  assert (floret_line P dims l = Err er) as EL.
  { destruct B as [[V ->]|(V & N0 & ->)]; [unfold floret_line; rewrite V; reflexivity|].
    unfold floret_line. rewrite V. destruct (parse_floats_cases P (tl (fields l))) as [(xs & E)|E]; rewrite E; cbn [rbind]; [|reflexivity].
    destruct (lenN xs =? dims) eqn:K; [|reflexivity]. exfalso. apply (N0 xs). apply floret_line_row; [exact D0|]. unfold floret_line. rewrite V, E. cbn [rbind]. rewrite K. reflexivity. }
  assert (rmap (floret_line P dims) (ls ++ l :: ls') = Err er) as E.
  { clear - D0 R EL. induction R as [|a v ls rows H R IH]; cbn [app rmap]; [rewrite EL; reflexivity|]. apply floret_line_row in H; [|exact D0]. rewrite H. cbn [rbind]. rewrite IH. reflexivity. }
  rewrite E in E1. cbn [rbind] in E1. destruct (floret_lines P _ dims (mkStream data p)) as [x s']. cbn [fst] in E1. subst x. eauto.
Qed.

Section Floret.
  Context (P : ftext_ops) (pf : profile) {Md : Type}.
  Lemma head_cases data : (exists nb dims mn mx nh seed bow eow rest, head_of data nb dims mn mx nh seed bow eow rest) \/ no_head data.
  Proof.
    assert (forall k data, (exists l r, numbers_of x20 data l r /\ lenN l = k) \/ no_numbers x20 k data) as G.
    { clear. induction k as [|k IH] using N.peano_ind; intros data; [left; exists [], data; split; [constructor|reflexivity]|]. rewrite <- N.add_1_l.
      destruct (number_cases x20 data) as [(n & r & H)|(r & H)].
      - destruct (IH r) as [(l & r' & H' & L)|(l & r1 & r2 & H' & L & H2)].
        + left. exists (n :: l), r'. split; [econstructor; eauto|]. rewrite lenN_cons. lia.
        + right. exists (n :: l), r1, r2. split; [econstructor; eauto|]. rewrite lenN_cons. split; [lia|exact H2].
      - right. exists [], data, r. split; [constructor|]. split; [rewrite lenN_nil; lia|exact H]. }
    destruct (G 6 data) as [(l & r & H & L)|H]; [|right; left; exact H].
    destruct (text_cases x20 false r) as [(bow & r1 & HB & _)|(r1 & HB)]; [|right; right; exists l, r; eauto].
    destruct (text_cases x0a false r1) as [(eow & r2 & HE & _)|(r2 & HE)]; [|right; right; exists l, r; repeat split; auto; right; eauto].
    unfold lenN in L. destruct l as [|nb [|dims [|mn [|mx [|nh [|seed [|? ?]]]]]]]; cbn [length] in L; try lia.
    left. exists nb, dims, mn, mx, nh, seed, bow, eow, r2, r, r1. auto.
  Qed.
  Lemma head_read data nb dims mn mx nh seed bow eow rest p : head_of data nb dims mn mx nh seed bow eow rest ->
    exists p', read_floret_text (Md := Md) P pf (mkStream data p) = floret_tail P pf nb dims mn mx nh seed bow eow (mkStream rest p').
  Proof.
    intros (r & r' & H & HB & HE). unfold read_floret_text, bind. fold (floret_tail (Md := Md) P pf nb dims mn mx nh seed bow eow).
    repeat match goal with H : numbers_of _ _ (_ :: _) _ |- _ => inversion H; subst; clear H end.
    repeat match goal with H : numbers_of _ _ [] _ |- _ => inversion H; subst; clear H end.
    repeat match goal with H : number_of _ ?data _ _ |- context [read_number _ (mkStream ?data ?p)] => destruct (number_exact _ _ _ _ p H) as (? & ->); clear H end.
    repeat match goal with H : text_of _ _ ?data _ _ |- context [read_string _ _ (mkStream ?data ?p)] => destruct (text_exact _ _ _ _ _ p H) as (? & ->); clear H end.
    eexists. reflexivity.
  Qed.
  Lemma no_head_read data p : no_head data -> exists s', read_floret_text (Md := Md) P pf (mkStream data p) = (Err EFormat, s').
  Proof.
    unfold read_floret_text, bind. intros [(l & r & r' & H & L & N0)|(l & r & H & L & T)]; unfold lenN in L.
    - destruct l as [|nb [|dims [|mn [|mx [|nh [|seed l]]]]]]; cbn [length] in L; try lia;
      repeat match goal with H : numbers_of _ _ (_ :: _) _ |- _ => inversion H; subst; clear H end;
      match goal with H : numbers_of _ _ [] _ |- _ => inversion H; subst; clear H end;
      repeat match goal with H : number_of _ ?data _ _ |- context [read_number _ (mkStream ?data ?p)] => destruct (number_exact _ _ _ _ p H) as (? & ->); clear H end;
      match goal with H : no_number _ ?data _ |- context [read_number _ (mkStream ?data ?p)] => destruct (no_number_exact _ _ _ p H) as (? & ->); clear H end; eauto.
    - destruct l as [|nb [|dims [|mn [|mx [|nh [|seed [|? ?]]]]]]]; cbn [length] in L; try lia.
      repeat match goal with H : numbers_of _ _ (_ :: _) _ |- _ => inversion H; subst; clear H end.
      match goal with H : numbers_of _ _ [] _ |- _ => inversion H; subst; clear H end.
      repeat match goal with H : number_of _ ?data _ _ |- context [read_number _ (mkStream ?data ?p)] => destruct (number_exact _ _ _ _ p H) as (? & ->); clear H end.
      destruct T as [(r' & T)|(bow & r' & r'' & HB & T)].
      + match goal with |- context [read_string _ _ (mkStream ?data ?p)] => destruct (no_text_exact _ _ _ _ p T) as (? & ->) end. eauto.
      + match goal with |- context [read_string _ _ (mkStream ?data ?p)] => destruct (text_exact _ _ _ _ _ p HB) as (? & ->) end.
        match goal with |- context [read_string _ _ (mkStream ?data ?p)] => destruct (no_text_exact _ _ _ _ p T) as (? & ->) end. eauto.
  Qed.
  Lemma head_numbers data nb dims mn mx nh seed bow eow rest : head_of data nb dims mn mx nh seed bow eow rest -> nb < two64.
  Proof. intros (r & r' & H & _). inversion H; subst. match goal with H : number_of _ _ nb _ |- _ => destruct H as (f & _ & _ & L) end. exact L. Qed.
  Lemma params_dec nb dims mn mx nh : params_ok nb dims mn mx nh \/ ~ params_ok nb dims mn mx nh.
  Proof. unfold params_ok. destruct (N.eq_dec nb 0), (N.eq_dec dims 0), (N.le_gt_cases (mn mod two32) (mx mod two32)), (N.le_gt_cases 1 (nh mod two32)), (N.le_gt_cases (nh mod two32) 4); try (right; tauto || lia); left; auto. Qed.
  Lemma floret_total data : exists o : res (embeddings Md (subword_vocab floret_indexer) (array2 f32) f32), floret_outcome P pf data o.
  Proof.
    destruct (head_cases data) as [(nb & dims & mn & mx & nh & seed & bow & eow & rest & H)|H]; [|eexists; apply fo_head; exact H].
    destruct (params_dec nb dims mn mx nh) as [PO|PO]; [|eexists; eapply fo_params; eauto].
    destruct (room_dec pf nb dims) as [(p & R)|R]; [eexists; eapply fo_large; eauto|].
    destruct (bad_row_cases P dims rest) as [(rows & RR)|(er & RR)]; [apply PO|..|eexists; eapply fo_row; eauto].
    destruct (N.eq_dec (lenN rows) nb) as [E|E]; [|eexists; eapply fo_count; eauto].
    destruct (floret_finish pf (Md := Md) nb dims mn mx nh seed bow eow rows PO (head_numbers _ _ _ _ _ _ _ _ _ _ H) E) as (e & _ & RES & _).
    eexists. eapply fo_done; eauto.
  Qed.
  Definition floret_rest nb dims mn mx nh seed bow eow : reader (embeddings Md (subword_vocab floret_indexer) (array2 f32) f32) :=
    data <- read_floret_lines P dims ;;
    a <- lift (from_shape_vec nb dims data) ;;
    ix <- lift (floret_indexer_new nb (nh mod two32) (seed mod two32)) ;;
    v <- lift (sub_new_with_boundaries floret_ops pf [] (mn mod two32) (mx mod two32) ix bow eow) ;;
    lift (emb_new_with_maybe_norms (sub_ops floret_ops) (nd_ops f32) pf None v a None).
  Lemma tail_params nb dims mn mx nh seed bow eow s : params_ok nb dims mn mx nh ->
    floret_tail (Md := Md) P pf nb dims mn mx nh seed bow eow s = ((c <- lift (mul64 pf nb dims) ;; reserve c 4) ;;; floret_rest nb dims mn mx nh seed bow eow) s.
  Proof.
    intros (H1 & H2 & H3 & H4). unfold floret_tail. destruct (N.eqb_spec nb 0); [contradiction|]. destruct (N.eqb_spec dims 0); [contradiction|].
    destruct (N.ltb_spec (mx mod two32) (mn mod two32)); [lia|].
    assert ((1 <=? nh mod two32) && (nh mod two32 <=? 4) = true) as -> by lia. cbn [negb]. unfold floret_rest, bind, lift. destruct (mul64 pf nb dims); reflexivity.
  Qed.
  Lemma floret_run data (o : res (embeddings Md (subword_vocab floret_indexer) (array2 f32) f32)) : floret_outcome P pf data o -> run_reader (read_floret_text P pf) data = o.
  Proof.
    intros X. unfold run_reader.
    destruct X as [H|nb dims mn mx nh seed bow eow rest H PO|nb dims mn mx nh seed bow eow rest q H PO R|nb dims mn mx nh seed bow eow rest er H PO R B
      |nb dims mn mx nh seed bow eow rest rows H PO R RR L|nb dims mn mx nh seed bow eow rest rows e H PO R RR L RES];
      [destruct (no_head_read data 0 H) as (s & ->); reflexivity|destruct (head_read _ _ _ _ _ _ _ _ _ _ 0 H) as (p & ->)..].
    - unfold floret_tail. destruct (N.eqb_spec nb 0); [reflexivity|]. destruct (N.eqb_spec dims 0); [reflexivity|].
      destruct (N.ltb_spec (mx mod two32) (mn mod two32)); [reflexivity|].
      destruct ((1 <=? nh mod two32) && (nh mod two32 <=? 4)) eqn:E; [|reflexivity]. exfalso. apply PO. unfold params_ok. apply andb_prop in E as [A B].
      apply N.leb_le in A, B. auto.
    - rewrite tail_params by exact PO. unfold bind at 1. rewrite (room_panic pf nb dims q _ R). reflexivity.
    - rewrite tail_params by exact PO. unfold bind at 1. rewrite (room_ok pf nb dims _ R). unfold floret_rest, bind.
      destruct (bad_row_run P dims rest er p (proj1 (proj2 PO)) B) as (s & ->). reflexivity.
    - rewrite tail_params by exact PO. unfold bind at 1. rewrite (room_ok pf nb dims _ R). unfold floret_rest, bind, lift.
      rewrite (read_rows P dims (mkStream rest p) rows eq_refl (proj1 (proj2 PO)) RR). unfold from_shape_vec.
      rewrite (concat_lenN dims rows (floret_rows_width P dims rest rows RR)). destruct (N.eqb_spec (lenN rows * dims) (nb * dims)) as [E|E]; [|reflexivity].
      apply N.mul_cancel_r in E; [contradiction|apply PO].
    - rewrite tail_params by exact PO. unfold bind at 1. rewrite (room_ok pf nb dims _ R). unfold floret_rest, bind, lift.
      rewrite (read_rows P dims (mkStream rest p) rows eq_refl (proj1 (proj2 PO)) RR). unfold from_shape_vec. pose proof (floret_rows_width P dims rest rows RR) as W.
      rewrite (concat_lenN dims rows W), L, N.eqb_refl. rewrite unflattenN_concat by auto.
      destruct (floret_finish pf (Md := Md) nb dims mn mx nh seed bow eow rows PO (head_numbers _ _ _ _ _ _ _ _ _ _ H) L) as (e' & E & RES' & _).
      apply rbind_Ok_inv in E as (ix & E1 & E). apply rbind_Ok_inv in E as (v & E2 & E). rewrite E1, E2. cbn [fst]. rewrite E. f_equal. eapply floret_unique; eauto.
  Qed.
  Theorem floret_exact_outcome data (o : res (embeddings Md (subword_vocab floret_indexer) (array2 f32) f32)) : run_reader (read_floret_text P pf) data = o <-> floret_outcome P pf data o.
  Proof.
    split; [|apply floret_run]. intros <-. destruct (floret_total data) as (o & H). rewrite (floret_run _ _ H). exact H.
  Qed.
End Floret.

(** The reader that normalises. *)
Lemma binary_normalized pf {Md} lossy data :
  (forall e, run_reader (read_word2vec_raw (Md := Md) pf lossy) data = Ok e -> exists e' : embeddings Md simple_vocab (array2 f32) f32, run_reader (read_word2vec pf lossy) data = Ok e' /\
    normalized_result f32_ops e' (a2_cols (em_storage e)) (combine (v_words simple_ops (em_vocab e)) (a2_rows (em_storage e)))) /\
  (forall er, run_reader (read_word2vec_raw (Md := Md) pf lossy) data = Err er -> run_reader (read_word2vec (Md := Md) pf lossy) data = Err er) /\
  (forall p, run_reader (read_word2vec_raw (Md := Md) pf lossy) data = Panic p -> run_reader (read_word2vec (Md := Md) pf lossy) data = Panic p).
Proof.
  apply (normalizing_reader pf (read_word2vec_raw pf lossy)). intros e H. apply binary_exact_outcome in H. inversion H; subst.
  match goal with H : raw_result _ _ l |- _ => destruct H as (SV & ES & _) end. exists (map fst l). split; [exact SV|]. rewrite ES. unfold a2_nrows. cbn [a2_rows]. rewrite !lenN_map. reflexivity.
Qed.
