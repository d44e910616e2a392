(** * Reading and writing floret files (C47, C48). *)
From Verif Require Import Base BaseFacts Utf8 Utf8Facts Stream StreamFacts F32 ChunkIO Subword Vocab Storage Embeddings TextIO FileSpec VocabSpec
  ChunkFacts VocabFacts StorageFacts ReadFacts LookupFacts EmbSpec MatrixFacts EmbFacts BatchFacts TextSpec TextFacts BrokenFacts TextThms BinaryThms LossyFacts.
Local Open Scope N_scope.

Lemma read_string_field d lossy f r p : ~ In d f -> utf8_valid f = true ->
  exists p', read_string d lossy (mkStream (f ++ d :: r) p) = (Ok f, mkStream r p').
Proof.
  intros NI V. pose proof (reads_string d lossy f NI V p r false) as R. unfold fconst in R. rewrite <- app_assoc in R. cbn [app] in R. eexists. exact R.
Qed.
Lemma read_number_numeral d f n r p : numeral f n -> n < two64 -> ~ 43 <= bN d <= 57 ->
  exists p', read_number d (mkStream (f ++ d :: r) p) = (Ok n, mkStream r p').
Proof. intros F L D. pose proof (numeral_not_in f n d F D) as NI. eexists. apply (read_number_field d f r p NI); auto. Qed.

(** ** Lines *)
Lemma strip_crlf_hit l : strip_crlf (l ++ [x0a]) = l \/ l = strip_crlf (l ++ [x0a]) ++ [x0d].
Proof.
  unfold strip_crlf. rewrite rev_app_distr. cbn [rev app].
  destruct (rev l) as [|b r] eqn:E; [left; rewrite <- (rev_involutive l), E; reflexivity|].
  assert (l = rev r ++ [b]) as EL by (rewrite <- (rev_involutive l), E; reflexivity).
  destruct b; try (left; rewrite EL; reflexivity). right. exact EL.
Qed.
Lemma strip_crlf_miss l : ~ In x0a l -> strip_crlf l = l.
Proof.
  intros H. unfold strip_crlf. destruct (rev l) as [|b r] eqn:E; [reflexivity|].
  assert (In b l) as I by (apply in_rev; rewrite E; left; reflexivity). destruct b; try reflexivity. contradiction.
Qed.
Lemma split_ws_cr s cur : split_ws (s ++ [x0d]) cur = split_ws s cur.
Proof.
  revert cur. induction s as [|b s IH]; intros cur; cbn [app split_ws]; [destruct cur; reflexivity|]. destruct (is_ascii_ws b); [|apply IH]. destruct cur; rewrite IH; reflexivity.
Qed.
Lemma utf8_valid_cr l : utf8_valid (l ++ [x0d]) = utf8_valid l.
Proof.
  pose proof (valid_split l x0d [] eq_refl) as H. destruct (utf8_valid (l ++ [x0d])) eqn:E1, (utf8_valid l) eqn:E2; auto.
  - symmetry. apply H. reflexivity.
  - apply H. split; reflexivity.
Qed.

Section Lines.
  Context (P : ftext_ops).
  Lemma floret_line_cr dims l : floret_line P dims (strip_crlf (l ++ [x0a])) = floret_line P dims l.
  Proof.
    destruct (strip_crlf_hit l) as [->|E]; [reflexivity|]. rewrite E at 2. unfold floret_line, fields. rewrite utf8_valid_cr, split_ws_cr. reflexivity.
  Qed.
  Lemma parse_floats_iff ps v : parse_floats P ps = Ok v <-> Forall2 (fun p x => ft_parse P p = Some x) ps v.
  Proof.
    unfold parse_floats. split; intros H.
    - apply rmap_Ok_inv in H. induction H as [|p x ps xs H R IH]; constructor; auto. destruct (ft_parse P p); [inv H; reflexivity|discriminate].
    - apply rmap_Ok. induction H as [|p x ps xs H R IH]; constructor; auto. rewrite H. reflexivity.
  Qed.
  Lemma parse_floats_cases ps : (exists xs, parse_floats P ps = Ok xs) \/ parse_floats P ps = Err EFormat.
  Proof.
    induction ps as [|p ps IH]; [left; exists []; reflexivity|]. unfold parse_floats in *. cbn [rmap].
    destruct (ft_parse P p); cbn [rbind]; [|right; reflexivity]. destruct IH as [(xs & ->)| ->]; cbn [rbind]; eauto.
  Qed.
  Lemma floret_line_row dims l v : dims <> 0 -> floret_line P dims l = Ok v <-> floret_row P dims l v.
  Proof.
    intros D0. unfold floret_line, floret_row. split.
    - intros H. destruct (utf8_valid l) eqn:V; [|discriminate]. apply rbind_Ok_inv in H as (xs & E & H).
      destruct (N.eqb_spec (lenN xs) dims) as [L|L]; [|discriminate]. inv H. apply parse_floats_iff in E. pose proof (fields_has l) as F.
      destruct (fields l) as [|f ps]; [inversion E; subst; exfalso; apply D0; reflexivity|]. exists f, ps. auto.
    - intros (f & ps & V & H & R & L). rewrite V, (fields_exact _ _ H). cbn [tl]. apply parse_floats_iff in R. rewrite R. cbn [rbind]. rewrite L, N.eqb_refl. reflexivity.
  Qed.
  Lemma floret_line_cases dims l : (exists v, floret_line P dims l = Ok v) \/ floret_line P dims l = Err EFormat \/ floret_line P dims l = Err ERead.
  Proof.
    unfold floret_line. destruct (utf8_valid l); [|auto]. destruct (parse_floats_cases (tl (fields l))) as [(xs & ->)| ->]; cbn [rbind]; [|auto].
    destruct (lenN xs =? dims); eauto.
  Qed.

  Lemma floret_lines_fst dims data ls : lines data ls -> forall fuel p, (length data < fuel)%nat ->
    fst (floret_lines P fuel dims (mkStream data p)) = (let* rows := rmap (floret_line P dims) ls in Ok (concat rows)) /\
    (forall r s, floret_lines P fuel dims (mkStream data p) = (Ok r, s) -> s = mkStream [] (p + lenN data)).
  Proof.
    induction 1 as [|l N0 NI|l r ls NI H IH]; intros [|fuel] p L; try lia; cbn [floret_lines]; unfold bind.
    - rewrite read_until_miss by (intros []). split; [reflexivity|]. intros r s E. inv E. reflexivity.
    - rewrite read_until_miss by exact NI. destruct l as [|b l]; [contradiction|]. rewrite strip_crlf_miss by exact NI.
      cbn [rmap]. destruct (floret_line_cases dims (b :: l)) as [(it & E)|[E|E]]; rewrite E; unfold lift; cbn [rbind]; try (split; [reflexivity|discriminate]).
      destruct fuel as [|fuel]; [cbn in L; lia|]. cbn [floret_lines]. unfold bind. rewrite read_until_miss by (intros []). unfold ret. cbn [concat].
      split; [reflexivity|]. intros r s K. inv K. f_equal. rewrite lenN_nil. lia.
    - rewrite read_until_hit by exact NI. assert (l ++ [x0a] <> []) as NE by (destruct l; discriminate).
      destruct (l ++ [x0a]) as [|b t] eqn:EB; [contradiction|]. rewrite <- EB, floret_line_cr. clear EB b t NE.
      cbn [rmap]. destruct (floret_line_cases dims l) as [(it & E)|[E|E]]; rewrite E; unfold lift; cbn [rbind]; try (split; [reflexivity|discriminate]).
      destruct (IH fuel (p + lenN (l ++ [x0a]))) as [I1 I2].
      { rewrite app_length in L. cbn [length] in L. lia. }
      destruct (floret_lines P fuel dims (mkStream r (p + lenN (l ++ [x0a])))) as [x s'] eqn:ET. cbn [fst] in I1. subst x.
      destruct (rmap (floret_line P dims) ls) as [its| |]; cbn [rbind]; [|split; [reflexivity|discriminate]..].
      unfold ret. cbn [concat]. split; [reflexivity|]. intros x s K. inv K. rewrite (I2 _ _ eq_refl). f_equal.
      rewrite !lenN_app, !lenN_cons, lenN_nil. lia.
  Qed.
  Lemma rmap_rows dims ls rows : dims <> 0 -> rmap (floret_line P dims) ls = Ok rows <-> Forall2 (floret_row P dims) ls rows.
  Proof.
    intros D0. split; intros H.
    - apply rmap_Ok_inv in H. induction H; constructor; auto. apply floret_line_row; auto.
    - apply rmap_Ok. induction H; constructor; auto. apply floret_line_row; auto.
  Qed.
  Lemma read_rows dims s rows : s_broken s = false -> dims <> 0 -> floret_rows P dims (s_rest s) rows ->
    read_floret_lines P dims s = (Ok (concat rows), mkStream [] (s_pos s + lenN (s_rest s))).
  Proof.
    intros BR D0 (ls & H & R). unfold read_floret_lines. destruct s as [data p brk]. cbn [s_rest s_pos s_broken] in *. subst brk.
    destruct (floret_lines_fst dims data ls H (Datatypes.S (length data)) p ltac:(lia)) as [E1 E2].
    apply rmap_rows in R; [|exact D0]. rewrite R in E1. cbn [rbind] in E1. destruct (floret_lines P _ dims (mkStream data p)) as [x s']. cbn [fst] in E1. subst x.
    rewrite (E2 _ _ eq_refl). reflexivity.
  Qed.
  Lemma read_rows_cases dims s : s_broken s = false -> dims <> 0 ->
    (exists rows, floret_rows P dims (s_rest s) rows) \/
    ((forall rows, ~ floret_rows P dims (s_rest s) rows) /\ exists s' er, read_floret_lines P dims s = (Err er, s') /\ (er = EFormat \/ er = ERead)).
  Proof.
    destruct s as [data p brk]. cbn [s_rest s_broken]. intros -> D0. destruct (lines_exist data) as (ls & H). unfold read_floret_lines. cbn [s_rest].
    destruct (floret_lines_fst dims data ls H (Datatypes.S (length data)) p ltac:(lia)) as [E1 _].
    assert ((exists its, rmap (floret_line P dims) ls = Ok its) \/ exists er, rmap (floret_line P dims) ls = Err er /\ (er = EFormat \/ er = ERead)) as [(its & E)|(er & E & Er)].
    { clear. induction ls as [|l ls IH]; [left; exists []; reflexivity|]. cbn [rmap].
      destruct (floret_line_cases dims l) as [(it & ->)|[->| ->]]; cbn [rbind]; eauto. destruct IH as [(its & ->)|(er & -> & H)]; cbn [rbind]; eauto. }
    - left. exists its. exists ls. split; [exact H|]. apply rmap_rows; auto.
    - right. split.
      + intros rows (ls' & H' & R). rewrite <- (lines_unique _ _ H _ H') in R. apply rmap_rows in R; [|exact D0]. congruence.
      + rewrite E in E1. cbn [rbind] in E1. destruct (floret_lines P _ dims (mkStream data p)) as [x s']. cbn [fst] in E1. subst x. eauto.
  Qed.
  Lemma floret_rows_width dims data rows : floret_rows P dims data rows -> Forall (fun r => lenN r = dims) rows.
  Proof. intros (ls & _ & F). induction F as [|l v ls rows (f & ps & _ & _ & _ & L) F IH]; constructor; auto. Qed.
End Lines.

(** ** [read_floret_text] *)
Section Reader.
  Context (P : ftext_ops) (pf : profile) {Md : Type}.

  (** What follows the header. *)
  Definition floret_tail (nb dims mn mx nh seed : N) (bow eow : str) : reader (embeddings Md (subword_vocab floret_indexer) (array2 f32) f32) :=
    if nb =? 0 then fail EFormat else
    if dims =? 0 then fail EFormat else
    if mx mod two32 <? mn mod two32 then fail EFormat else
    if negb ((1 <=? nh mod two32) && (nh mod two32 <=? 4)) then fail EFormat else
    c <- lift (mul64 pf nb dims) ;;
    reserve c 4 ;;;
    data <- read_floret_lines P dims ;;
    a <- lift (from_shape_vec nb dims data) ;;
    ix <- lift (floret_indexer_new nb (nh mod two32) (seed mod two32)) ;;
    v <- lift (sub_new_with_boundaries floret_ops pf [] (mn mod two32) (mx mod two32) ix bow eow) ;;
    lift (emb_new_with_maybe_norms (sub_ops floret_ops) (nd_ops f32) pf None v a None).

  Lemma floret_head_read data nb dims mn mx nh seed bow eow rest p : floret_head data nb dims mn mx nh seed bow eow rest ->
    exists p', read_floret_text (Md := Md) P pf (mkStream data p) = floret_tail nb dims mn mx nh seed bow eow (mkStream rest p').
  Proof.
    intros (f1 & f2 & f3 & f4 & f5 & f6 & N1 & N2 & N3 & N4 & N5 & N6 & L & B1 & B2 & E1 & E2 & ->).
    repeat match goal with H : Forall _ (_ :: _) |- _ => inv H end. unfold read_floret_text, bind. fold (floret_tail nb dims mn mx nh seed bow eow).
    assert (~ 43 <= bN x20 <= 57) as SP by (change (bN x20) with 32; lia).
    edestruct (read_number_numeral x20 f1 nb) as (p1 & ->); [eassumption..|].
    edestruct (read_number_numeral x20 f2 dims) as (p2 & ->); [eassumption..|].
    edestruct (read_number_numeral x20 f3 mn) as (p3 & ->); [eassumption..|].
    edestruct (read_number_numeral x20 f4 mx) as (p4 & ->); [eassumption..|].
    edestruct (read_number_numeral x20 f5 nh) as (p5 & ->); [eassumption..|].
    edestruct (read_number_numeral x20 f6 seed) as (p6 & ->); [eassumption..|].
    edestruct (read_string_field x20 false bow) as (p7 & ->); [eassumption..|].
    edestruct (read_string_field x0a false eow) as (p8 & ->); [eassumption..|].
    eexists. reflexivity.
  Qed.

  (** What is built from the rows. *)
  Lemma floret_finish nb dims mn mx nh seed bow eow (rows : list (list f32)) : params_ok nb dims mn mx nh -> nb < two64 -> lenN rows = nb ->
    exists e : embeddings Md (subword_vocab floret_indexer) (array2 f32) f32,
    (let* ix := floret_indexer_new nb (nh mod two32) (seed mod two32) in
     let* v := sub_new_with_boundaries floret_ops pf [] (mn mod two32) (mx mod two32) ix bow eow in
     emb_new_with_maybe_norms (sub_ops floret_ops) (nd_ops f32) pf None v (mkA2 dims rows) None) = Ok e /\
    floret_result e nb dims (mn mod two32) (mx mod two32) (nh mod two32) (seed mod two32) bow eow rows /\
    vocab_made pf (VFloret (em_vocab e)).
  Proof.
    intros (H1 & H2 & H3 & H4) LB L.
    assert (floret_indexer_new nb (nh mod two32) (seed mod two32) = Ok (mkFloretIx nb (seed mod two32) (nh mod two32))) as EI.
    { unfold floret_indexer_new. assert ((0 <? nh mod two32) && (nh mod two32 <=? 4) = true) as -> by lia.
      destruct (N.eqb_spec nb 0); [contradiction|]. reflexivity. }
    assert (sub_new_with_boundaries floret_ops pf [] (mn mod two32) (mx mod two32) (mkFloretIx nb (seed mod two32) (nh mod two32)) bow eow
      = Ok (mkSub bow eow (mkFloretIx nb (seed mod two32) (nh mod two32)) (create_indices []) [] (mn mod two32) (mx mod two32))) as EV.
    { unfold sub_new_with_boundaries. cbn [ix_bound floret_ops]. unfold floret_bound. cbn [rbind fl_buckets].
      assert (lenN (@nil str) =? hm_len (create_indices []) = true) as -> by reflexivity. cbn [rassert rbind].
      rewrite lenN_nil, N.add_0_l. destruct (N.ltb_spec nb two64); [reflexivity|lia]. }
    rewrite EI. cbn [rbind]. rewrite EV. cbn [rbind].
    unfold emb_new_with_maybe_norms. cbn [v_vocab_len sub_ops]. unfold sub_vocab_len. cbn [ix_bound floret_ops sv_ix]. unfold floret_bound. cbn [rbind fl_buckets].
    unfold sub_words_len. cbn [sv_indices]. change (hm_len (create_indices [])) with 0. unfold add64. rewrite N.add_0_l. destruct (N.ltb_spec nb two64); [|lia].
    cbn [rbind st_shape nd_ops fst]. unfold a2_nrows. cbn [a2_rows]. rewrite L, N.eqb_refl. cbn [rassert rbind].
    eexists. split; [reflexivity|]. split; [repeat split|]. cbn [em_vocab]. eapply vm_floret; [eapply im_floret; exact EI|exact EV].
  Qed.

  Lemma floret_read_exact data nb dims mn mx nh seed bow eow rest rows :
    floret_head data nb dims mn mx nh seed bow eow rest -> params_ok nb dims mn mx nh -> nb * dims * 4 <= isize_max ->
    floret_rows P dims rest rows -> lenN rows = nb ->
    exists e : embeddings Md (subword_vocab floret_indexer) (array2 f32) f32,
    run_reader (read_floret_text P pf) data = Ok e /\
    floret_result e nb dims (mn mod two32) (mx mod two32) (nh mod two32) (seed mod two32) bow eow rows.
  Proof.
    intros H (H1 & H2 & H3 & H4) C R L. unfold run_reader. destruct (floret_head_read _ _ _ _ _ _ _ _ _ _ 0 H) as (p & ->).
    unfold floret_tail. destruct (N.eqb_spec nb 0); [contradiction|]. destruct (N.eqb_spec dims 0); [contradiction|].
    destruct (N.ltb_spec (mx mod two32) (mn mod two32)); [lia|].
    assert ((1 <=? nh mod two32) && (nh mod two32 <=? 4) = true) as -> by lia. cbn [negb].
    assert (nb * dims < two64) as LM by (unfold isize_max, two64 in *; lia).
    unfold bind, lift, mul64, reserve. destruct (N.ltb_spec (nb * dims) two64); [|lia]. destruct (N.leb_spec (nb * dims * 4) isize_max); [|lia].
    rewrite (read_rows P dims (mkStream rest p) rows eq_refl H2 R). cbn [s_rest s_pos].
    pose proof (floret_rows_width P dims rest rows R) as W.
    unfold from_shape_vec. rewrite (concat_lenN dims rows W), L, N.eqb_refl.
    rewrite unflattenN_concat by auto.
    destruct (floret_finish nb dims mn mx nh seed bow eow rows) as (e & E & RES & _); [repeat split; auto; lia|unfold two64 in *; nia|exact L|].
    exists e. split; [|exact RES]. cbn [fst]. apply rbind_Ok_inv in E as (ix & E1 & E). apply rbind_Ok_inv in E as (v & E2 & E). rewrite E1, E2. exact E.
  Qed.

  (** Invalid parameters, rows and numbers of rows are errors. *)
  Lemma floret_params_rejected data nb dims mn mx nh seed bow eow rest :
    floret_head data nb dims mn mx nh seed bow eow rest -> ~ params_ok nb dims mn mx nh ->
    run_reader (read_floret_text (Md := Md) P pf) data = Err EFormat.
  Proof.
    intros H H'. unfold run_reader. destruct (floret_head_read _ _ _ _ _ _ _ _ _ _ 0 H) as (p & ->). unfold floret_tail.
    destruct (N.eqb_spec nb 0); [reflexivity|]. destruct (N.eqb_spec dims 0); [reflexivity|].
    destruct (N.ltb_spec (mx mod two32) (mn mod two32)); [reflexivity|].
    destruct ((1 <=? nh mod two32) && (nh mod two32 <=? 4)) eqn:E; [|reflexivity]. exfalso. apply H'. unfold params_ok. apply andb_prop in E as [A B].
    apply N.leb_le in A, B. auto.
  Qed.
  Lemma floret_rows_rejected data nb dims mn mx nh seed bow eow rest :
    floret_head data nb dims mn mx nh seed bow eow rest -> params_ok nb dims mn mx nh -> nb * dims * 4 <= isize_max ->
    (forall rows, floret_rows P dims rest rows -> lenN rows <> nb) ->
    exists er, run_reader (read_floret_text (Md := Md) P pf) data = Err er /\ (er = EFormat \/ er = ERead \/ er = EMatrixShape).
  Proof.
    intros H (H1 & H2 & H3 & H4) C R. unfold run_reader. destruct (floret_head_read _ _ _ _ _ _ _ _ _ _ 0 H) as (p & ->).
    unfold floret_tail. destruct (N.eqb_spec nb 0); [contradiction|]. destruct (N.eqb_spec dims 0); [contradiction|].
    destruct (N.ltb_spec (mx mod two32) (mn mod two32)); [lia|].
    assert ((1 <=? nh mod two32) && (nh mod two32 <=? 4) = true) as -> by lia. cbn [negb].
    assert (nb * dims < two64) as LM by (unfold isize_max, two64 in *; lia).
    unfold bind, lift, mul64, reserve. destruct (N.ltb_spec (nb * dims) two64); [|lia]. destruct (N.leb_spec (nb * dims * 4) isize_max); [|lia].
    destruct (read_rows_cases P dims (mkStream rest p) eq_refl H2) as [(rows & RR)|(_ & s' & er & E & Er)].
    - rewrite (read_rows P dims (mkStream rest p) rows eq_refl H2 RR). cbn [s_rest] in RR. pose proof (floret_rows_width P dims rest rows RR) as W.
      unfold from_shape_vec. rewrite (concat_lenN dims rows W). destruct (N.eqb_spec (lenN rows * dims) (nb * dims)) as [E|E].
      + exfalso. apply (R rows RR). apply N.mul_cancel_r in E; auto.
      + eexists. split; [reflexivity|]. auto.
    - rewrite E. eexists. split; [reflexivity|]. tauto.
  Qed.

  (** Accepted files. *)
  Lemma floret_accepted data nb dims mn mx nh seed bow eow rest (e : embeddings Md (subword_vocab floret_indexer) (array2 f32) f32) :
    floret_head data nb dims mn mx nh seed bow eow rest -> run_reader (read_floret_text P pf) data = Ok e ->
    exists rows, params_ok nb dims mn mx nh /\ floret_rows P dims rest rows /\ lenN rows = nb /\
    floret_result e nb dims (mn mod two32) (mx mod two32) (nh mod two32) (seed mod two32) bow eow rows /\
    vocab_made pf (VFloret (em_vocab e)) /\ (mn mod two32 <> 0 -> vocab_usable (VFloret (em_vocab e))).
  Proof.
    intros H E. unfold run_reader in E. destruct (floret_head_read _ _ _ _ _ _ _ _ _ _ 0 H) as (p & E0). rewrite E0 in E. clear E0.
    destruct (floret_tail nb dims mn mx nh seed bow eow (mkStream rest p)) as [x s'] eqn:ET. cbn [fst] in E. subst x.
    unfold floret_tail in ET. destruct (N.eqb_spec nb 0); [discriminate|]. destruct (N.eqb_spec dims 0) as [|D0]; [discriminate|].
    destruct (N.ltb_spec (mx mod two32) (mn mod two32)); [discriminate|].
    destruct ((1 <=? nh mod two32) && (nh mod two32 <=? 4)) eqn:E; [|discriminate]. cbn [negb] in ET. apply andb_prop in E as [A B]. apply N.leb_le in A, B.
    assert (params_ok nb dims mn mx nh) as PO by (repeat split; auto).
    apply bind_Ok_inv in ET as (c & s1 & E1 & ET). unfold lift in E1. injection E1 as E1 <-.
    apply bind_Ok_inv in ET as (u & s2 & E2 & ET). unfold reserve in E2. destruct (c * 4 <=? isize_max); [|discriminate]. injection E2 as _ <-.
    apply bind_Ok_inv in ET as (xs & s3 & E3 & ET).
    destruct (read_rows_cases P dims (mkStream rest p) eq_refl D0) as [(rows & RR)|(_ & s4 & er & E4 & Er)]; [|congruence].
    rewrite (read_rows P dims (mkStream rest p) rows eq_refl D0 RR) in E3. injection E3 as <- <-. cbn [s_rest] in *.
    apply bind_Ok_inv in ET as (a & s4 & E4 & ET). unfold lift in E4. injection E4 as E4 <-. unfold from_shape_vec in E4.
    pose proof (floret_rows_width P dims rest rows RR) as W. rewrite (concat_lenN dims rows W) in E4.
    destruct (N.eqb_spec (lenN rows * dims) (nb * dims)) as [EL|EL]; [|discriminate]. injection E4 as <-.
    apply N.mul_cancel_r in EL; [|exact D0]. rewrite unflattenN_concat in ET by auto.
    assert (nb < two64) as LB by (destruct H as (? & ? & ? & ? & ? & ? & _ & _ & _ & _ & _ & _ & F & _); inv F; auto).
    destruct (floret_finish nb dims mn mx nh seed bow eow rows PO LB EL) as (e' & EF & RES & VM).
    apply bind_Ok_inv in ET as (ix & s5 & E5 & ET). unfold lift in E5. injection E5 as E5 <-.
    apply bind_Ok_inv in ET as (v & s6 & E6 & ET). unfold lift in E6. injection E6 as E6 <-. unfold lift in ET. injection ET as ET <-.
    rewrite E5 in EF. cbn [rbind] in EF. rewrite E6 in EF. cbn [rbind] in EF. rewrite ET in EF. injection EF as <-.
    exists rows. split; [exact PO|]. split; [exact RR|]. split; [exact EL|]. split; [exact RES|]. split; [exact VM|].
    intros NZ mn' mx' bow' eow' K. cbn [vocab_range] in K. injection K as <- <- <- <-. destruct RES as (_ & _ & -> & -> & -> & -> & _).
    destruct H as (? & ? & ? & ? & ? & ? & _ & _ & _ & _ & _ & _ & _ & _ & VB & _ & VE & _). split; [|auto]. unfold range_ok. lia.
  Qed.
End Reader.

(** An accepted file has a complete header. *)
Lemma read_string_inv d lossy s w s' : read_string d lossy s = (Ok w, s') ->
  (exists f, s_rest s = f ++ d :: s_rest s' /\ ~ In d f /\ decodes lossy f w) \/ (s_rest s' = [] /\ ~ In d (s_rest s)).
Proof.
  intros H. apply complete_prefix in H as (s0 & H & <- & _); [|apply complete_string]. revert H.
  generalize (s_rest s) as data, (s_pos s) as p. clear s s'. rename s0 into s'. intros data p H. unfold read_string in H. apply bind_Ok_inv in H as (buf & s1 & H0 & H).
  destruct (byte_in_dec d data) as [I|I].
  - left. destruct (first_split d data I) as (f & r & -> & NI). rewrite read_until_hit in H0 by exact NI. injection H0 as <- <-. rewrite removelast_last in H.
    exists f. unfold decodes. destruct lossy; [injection H as <- <-; auto|]. destruct (utf8_valid f); [|discriminate]. injection H as <- <-. auto.
  - right. split; [|exact I]. rewrite read_until_miss in H0 by exact I. injection H0 as <- <-.
    destruct lossy; [injection H as <- <-; reflexivity|]. destruct (utf8_valid (removelast data)); [|discriminate]. injection H as <- <-. reflexivity.
Qed.
Section Accepted.
  Context (P : ftext_ops) (pf : profile) {Md : Type}.
  Lemma floret_tail_empty nb dims mn mx nh seed bow eow p brk e s' : floret_tail (Md := Md) P pf nb dims mn mx nh seed bow eow (mkBroken [] p brk) <> (Ok e, s').
  Proof.
    unfold floret_tail. destruct (N.eqb_spec nb 0); [discriminate|]. destruct (N.eqb_spec dims 0) as [|D0]; [discriminate|].
    destruct (mx mod two32 <? mn mod two32); [discriminate|]. destruct (negb _); [discriminate|]. intros ET.
    apply bind_Ok_inv in ET as (c & s1 & E1 & ET). unfold lift in E1. injection E1 as E1 <-.
    apply bind_Ok_inv in ET as (u & s2 & E2 & ET). unfold reserve in E2. destruct (c * 4 <=? isize_max); [|discriminate]. injection E2 as _ <-.
    apply bind_Ok_inv in ET as (xs & s3 & E3 & ET). destruct brk; [discriminate|].
    change (read_floret_lines P dims (mkStream [] p)) with (@Ok (list f32) [], mkStream [] (p + 0)) in E3. injection E3 as <- <-.
    apply bind_Ok_inv in ET as (a & s4 & E4 & ET). unfold lift, from_shape_vec in E4. destruct (N.eqb_spec (lenN (@nil f32)) (nb * dims)) as [E|E]; [|discriminate].
    rewrite lenN_nil in E. symmetry in E. apply N.mul_eq_0 in E as [E|E]; contradiction.
  Qed.
  Lemma floret_head_exists data (e : embeddings Md (subword_vocab floret_indexer) (array2 f32) f32) : run_reader (read_floret_text P pf) data = Ok e ->
    exists nb dims mn mx nh seed bow eow rest, floret_head data nb dims mn mx nh seed bow eow rest.
  Proof.
    unfold run_reader. intros H. destruct (read_floret_text P pf (mkStream data 0)) as [x s'] eqn:E. cbn [fst] in H. subst x. unfold read_floret_text in E.
    apply bind_Ok_inv in E as (nb & s1 & E1 & E). apply bind_Ok_inv in E as (dims & s2 & E2 & E). apply bind_Ok_inv in E as (mn & s3 & E3 & E). cbv zeta in E.
    apply bind_Ok_inv in E as (mx & s4 & E4 & E). apply bind_Ok_inv in E as (nh & s5 & E5 & E). apply bind_Ok_inv in E as (seed & s6 & E6 & E).
    apply bind_Ok_inv in E as (bow & s7 & E7 & E). apply bind_Ok_inv in E as (eow & s8 & E8 & E).
    assert (s_rest s8 <> []) as NE.
    { intros K. destruct s8 as [r8 p8 b8]. cbn [s_rest] in K. subst r8. eapply (floret_tail_empty nb dims mn mx nh seed bow eow p8 b8). exact E. }
    assert (forall (l r : list byte) b, l ++ b :: r <> []) as NIL by (intros [|b0 l0] r b; discriminate).
    apply read_string_inv in E8 as [(feow & R8 & NI8 & D8)|[K _]]; [|contradiction]. apply read_string_inv in E7 as [(fbow & R7 & NI7 & D7)|[K _]]; [|rewrite R8 in K; exfalso; eapply NIL; exact K].
    destruct D8 as [<- V8]. destruct D7 as [<- V7].
    apply read_number_inv in E6 as [(f6 & R6 & N6 & L6)|[K _]]; [|rewrite R7 in K; exfalso; eapply NIL; exact K].
    apply read_number_inv in E5 as [(f5 & R5 & N5 & L5)|[K _]]; [|rewrite R6 in K; exfalso; eapply NIL; exact K].
    apply read_number_inv in E4 as [(f4 & R4 & N4 & L4)|[K _]]; [|rewrite R5 in K; exfalso; eapply NIL; exact K].
    apply read_number_inv in E3 as [(f3 & R3 & N3 & L3)|[K _]]; [|rewrite R4 in K; exfalso; eapply NIL; exact K].
    apply read_number_inv in E2 as [(f2 & R2 & N2 & L2)|[K _]]; [|rewrite R3 in K; exfalso; eapply NIL; exact K].
    apply read_number_inv in E1 as [(f1 & R1 & N1 & L1)|[K _]]; [|rewrite R2 in K; exfalso; eapply NIL; exact K].
    exists nb, dims, mn, mx, nh, seed, bow, eow, (s_rest s8), f1, f2, f3, f4, f5, f6. repeat (split; [assumption|]).
    split; [repeat constructor; assumption|]. repeat (split; [assumption|]). cbn [s_rest] in R1. rewrite R1, R2, R3, R4, R5, R6, R7, R8. reflexivity.
  Qed.
End Accepted.

(** ** [write_floret_text] *)
Section Writer.
  Context (P : ftext_ops) (law : ftext_law P) (pf : profile) {Md : Type}.
  Variable e : embeddings Md (subword_vocab floret_indexer) (array2 f32) f32.
  Variables (ws : list str) (mn mx nb nh seed : N) (ix : floret_indexer) (bow eow : str).
  Hypothesis new_ix : floret_indexer_new nb nh seed = Ok ix.
  Hypothesis new_vocab : sub_new_with_boundaries floret_ops pf ws mn mx ix bow eow = Ok (em_vocab e).
  Hypothesis new_emb : emb_new_with_maybe_norms (sub_ops floret_ops) (nd_ops f32) pf (em_meta e) (em_vocab e) (em_storage e) (em_norms e) = Ok e.
  Hypothesis storage_wf : a2_wf (em_storage e).

  Definition subword_rows : list (list f32) := dropN (lenN ws) (a2_rows (em_storage e)).
  Definition floret_row_bytes (i : N) (v : list f32) : list byte := dec_print i ++ [x20] ++ join [x20] (map (ft_print P) v) ++ [x0a].
  Definition floret_head_bytes : list byte :=
    dec_print nb ++ x20 :: dec_print (a2_cols (em_storage e)) ++ x20 :: dec_print mn ++ x20 :: dec_print mx ++ x20 :: dec_print nh ++ x20 :: dec_print seed ++ x20 :: bow ++ x20 :: eow ++ [x0a].

  Lemma floret_ix : ix = mkFloretIx nb seed nh /\ nb <> 0 /\ 1 <= nh <= 4.
  Proof.
    clear - new_ix. pose proof new_ix as NI. unfold floret_indexer_new in NI. apply rbind_Ok_inv in NI as (u & H1 & H). apply rbind_Ok_inv in H as (u' & H2 & H). apply rassert_Ok in H1, H2. inv H.
    split; [reflexivity|]. apply andb_prop in H1 as [A B]. split; [|lia]. intros ->. discriminate.
  Qed.
  Lemma floret_vocab : em_vocab e = mkSub bow eow ix (create_indices ws) ws mn mx /\ NoDup ws /\ lenN ws + nb < two64.
  Proof.
    clear new_emb storage_wf. pose proof new_vocab as NV. unfold sub_new_with_boundaries in NV. apply rbind_Ok_inv in NV as (u & H1 & H). apply rbind_Ok_inv in H as (b & H2 & H). apply rbind_Ok_inv in H as (u' & H3 & H).
    apply rassert_Ok in H1, H3. apply N.eqb_eq, ci_len_NoDup in H1. cbn [ix_bound floret_ops] in H2. unfold floret_bound in H2. injection H2 as <-. injection H as H.
    destruct floret_ix as (EI & _). rewrite EI in H3. cbn [fl_buckets] in H3. apply N.ltb_lt in H3. auto.
  Qed.
  Lemma floret_vocab_len : sub_words_len (em_vocab e) = lenN ws /\ sub_vocab_len floret_ops pf (em_vocab e) = Ok (lenN ws + nb) /\ a2_nrows (em_storage e) = lenN ws + nb.
  Proof.
    destruct floret_vocab as (EV & ND & L). destruct floret_ix as (EI & _). assert (sub_words_len (em_vocab e) = lenN ws) as E1.
    { unfold sub_words_len. rewrite EV. cbn [sv_indices]. symmetry. apply ci_len_NoDup. exact ND. }
    assert (sub_vocab_len floret_ops pf (em_vocab e) = Ok (lenN ws + nb)) as E2.
    { unfold sub_vocab_len. rewrite E1, EV, EI. cbn [sv_ix ix_bound floret_ops]. unfold floret_bound. cbn [rbind fl_buckets]. unfold add64. destruct (N.ltb_spec (lenN ws + nb) two64); [reflexivity|lia]. }
    split; [exact E1|]. split; [exact E2|]. pose proof new_emb as NE. unfold emb_new_with_maybe_norms in NE. cbn [v_vocab_len sub_ops] in NE. rewrite E2 in NE. cbn [rbind] in NE.
    apply rbind_Ok_inv in NE as (u & H & _). apply rassert_Ok, N.eqb_eq in H. cbn [st_shape nd_ops fst] in H. auto.
  Qed.
  Lemma emits_floret : emits (write_floret_text P pf e) (fconst (floret_head_bytes ++ flat_map (fun '(i, v) => floret_row_bytes i v) (enumerate subword_rows))).
  Proof.
    destruct floret_vocab_len as (E1 & E2 & E3). destruct floret_vocab as (EV & _). destruct floret_ix as (EI & _). unfold write_floret_text. apply emits_lift_ok with (a := lenN ws + nb); [exact E2|]. cbv zeta. rewrite E1.
    eapply emits_ext; [|apply emits_seq; [apply emits_bytes|apply emits_lift_ok with (a := tt)]].
    2:{ rewrite E3. destruct (N.leb_spec (lenN ws) (lenN ws + nb)); [reflexivity|lia]. }
    2:{ apply (emits_for_each_const (enumerate subword_rows) _ (fun '(i, v) => floret_row_bytes i v)). intros [i v] _. apply emits_bytes. }
    intros pos. unfold fseq, fconst. f_equal. unfold floret_header, floret_head_bytes, emb_dims. rewrite EV, EI. cbn [sv_min sv_max sv_ix fl_hashes fl_seed sv_bow sv_eow st_shape nd_ops snd].
    replace (lenN ws + nb - lenN ws) with nb by lia. reflexivity.
  Qed.

  Hypothesis fits : Forall (fun n => n < two32) [mn; mx; seed].
  Hypothesis range : mn <= mx.
  Hypothesis bow_ok : ~ In x20 bow /\ utf8_valid bow = true.
  Hypothesis eow_ok : ~ In x0a eow /\ utf8_valid eow = true.
  Hypothesis cols_pos : a2_cols (em_storage e) <> 0.
  Hypothesis capacity : nb * a2_cols (em_storage e) * 4 <= isize_max.
  Hypothesis no_nan : Forall (Forall (fun x => f32_is_nan x = false)) (dropN (lenN ws) (a2_rows (em_storage e))).

  Lemma floret_row_written i v : Forall (fun x => f32_is_nan x = false) v -> floret_row P (lenN v) (line_of P (dec_print i, v)) v.
  Proof.
    intros NN. assert (text_word (dec_print i)) as W.
    { destruct (dec_print_numeral i) as (ds & DN & DF & _ & DT). split; [|split].
      - intros K. rewrite K in DT. destruct ds; [contradiction|]. destruct DT; discriminate.
      - apply Forall_forall. intros b Hb. apply dec_print_range in Hb. apply printable_nonblank. lia.
      - eapply numeral_valid, dec_print_numeral. }
    exists (dec_print i), (map (ft_print P) v). split; [apply (line_of_valid P law (dec_print i, v)); exact W|]. split; [apply (line_of_fields P law (dec_print i, v)); exact W|].
    split; [|reflexivity]. induction NN as [|x xs Hx NN IH]; constructor; auto. destruct (law x) as [(y & E & K & _) _]. rewrite E, (K Hx). reflexivity.
  Qed.
  Lemma floret_body_rows (rows : list (list f32)) dims : Forall (fun r => lenN r = dims) rows -> Forall (Forall (fun x => f32_is_nan x = false)) rows ->
    forall n, floret_rows P dims (flat_map (fun '(i, v) => floret_row_bytes i v) (enumerate_from n rows)) rows.
  Proof.
    intros W NN. induction rows as [|v rows IH]; intros n; [exists []; split; constructor|]. apply Forall_cons_iff in W as [W1 W2]. apply Forall_cons_iff in NN as [N1 N2]. cbn [enumerate_from flat_map].
    destruct (IH W2 N2 (n + 1)) as (ls & L & F). exists (line_of P (dec_print n, v) :: ls).
    assert (floret_row_bytes n v = line_of P (dec_print n, v) ++ [x0a]) as ->.
    { unfold floret_row_bytes, line_of. cbn [fst snd]. rewrite <- !app_assoc. reflexivity. }
    split; [|constructor; [rewrite <- W1; apply floret_row_written; assumption|exact F]]. rewrite <- app_assoc. apply lines_cons; [|exact L].
    apply (line_of_newline P law (dec_print n, v)). cbn [fst]. destruct (dec_print_numeral n) as (ds & DN & DF & _ & DT). split; [|split].
      - intros K. rewrite K in DT. destruct ds; [contradiction|]. destruct DT; discriminate.
      - apply Forall_forall. intros b Hb. apply dec_print_range in Hb. apply printable_nonblank. lia.
      - eapply numeral_valid, dec_print_numeral.
  Qed.

  (** C47 *)
  Lemma floret_round_trip base : exists out, run_writer (write_floret_text P pf e) base = Ok out /\
    exists e' : embeddings Md (subword_vocab floret_indexer) (array2 f32) f32, run_reader (read_floret_text P pf) out = Ok e' /\
    floret_result e' nb (a2_cols (em_storage e)) mn mx nh seed bow eow (dropN (lenN ws) (a2_rows (em_storage e))).
  Proof.
    eexists. split; [apply (emits_run _ _ base emits_floret)|]. unfold fconst. destruct floret_ix as (_ & NB & NH). destruct floret_vocab_len as (_ & _ & ER). destruct floret_vocab as (_ & _ & LT).
    repeat match goal with H : Forall _ (_ :: _) |- _ => inv H end.
    assert (nb < two64 /\ a2_cols (em_storage e) < two64) as [LB LC] by (split; [lia|]; unfold isize_max, two64 in *; nia).
    assert (forall n, n < two32 -> n < two64) as T by (unfold two32, two64; lia). assert (nh < two32) as LH by (unfold two32; lia).
    destruct (floret_read_exact P pf (Md := Md) (floret_head_bytes ++ flat_map (fun '(i, v) => floret_row_bytes i v) (enumerate subword_rows)) nb (a2_cols (em_storage e)) mn mx nh seed bow eow
      (flat_map (fun '(i, v) => floret_row_bytes i v) (enumerate subword_rows)) subword_rows) as (e' & E & R).
    - exists (dec_print nb), (dec_print (a2_cols (em_storage e))), (dec_print mn), (dec_print mx), (dec_print nh), (dec_print seed).
      repeat (split; [apply dec_print_numeral|]). split; [repeat constructor; auto|]. split; [apply bow_ok|]. split; [apply bow_ok|]. split; [apply eow_ok|]. split; [apply eow_ok|].
      unfold floret_head_bytes. repeat (rewrite <- app_assoc; cbn [app]). reflexivity.
    - unfold params_ok. rewrite !N.mod_small by auto. auto.
    - exact capacity.
    - apply floret_body_rows; [|exact no_nan]. unfold subword_rows. apply Forall_forall. intros r HR. pose proof storage_wf as W. unfold a2_wf in W. rewrite Forall_forall in W. apply W.
      rewrite <- (takeN_dropN (lenN ws) (a2_rows (em_storage e))). apply in_or_app. right. exact HR.
    - unfold subword_rows. rewrite lenN_dropN. unfold a2_nrows in ER. lia.
    - exists e'. split; [exact E|]. rewrite !N.mod_small in R by auto. exact R.
  Qed.
End Writer.
