(** * Converted and quantized embeddings in files (stated in P_Convert.v). *)
From Verif Require Import Base BaseFacts Utf8 Utf8Facts Stream F32 ChunkIO Subword SubwordFacts Vocab Storage Embeddings
  FileSpec FileThms VocabSpec EmbSpec IndexerFacts VocabFacts LookupFacts MatrixFacts BatchFacts QuantFacts ExplicitFacts.
Require Import Permutation.
Local Open Scope N_scope.

(** [e] can be written, and reading what was written gives [e]. *)
Definition storable (pf : profile) (T : toml_ops) (e : emb T) : Prop :=
  forall base, exists bytes, run_writer (write_file T e) base = Ok bytes /\
  exists s, read_file pf T (mkStream bytes base) = (Ok e, s).

Lemma built_storable pf T (e : emb T) : toml_law T -> emb_built pf T e (em_storage e) -> storable pf T e.
Proof.
  intros TL EB base. destruct (file_round_trip pf T e (em_storage e) base TL EB) as (bytes & W & R).
  exists bytes. split; [exact W|]. destruct (R []) as (s' & E); [intros _; apply not_norms_nil|].
  rewrite app_nil_r, loaded_self in E. eauto.
Qed.

(** ** Selecting rows *)
Lemma rmap_index_facts {A} (l : list A) is rs : rmap (index l) is = Ok rs ->
  lenN rs = lenN is /\ forall P : A -> Prop, Forall P l -> Forall P rs.
Proof.
  intros H. apply rmap_Ok_inv in H. split.
  - unfold lenN. f_equal. symmetry. clear -H. induction H; cbn [length]; congruence.
  - intros P FP. induction H as [|i r is rs E _ IH]; constructor; [|exact IH].
    unfold index in E. destruct (nthN l i) as [x|] eqn:N1; [|discriminate]. inv E.
    rewrite Forall_forall in FP. apply FP. eapply nthN_In; eauto.
Qed.

Lemma a2_select_facts {F} (a : array2 F) is r : a2_select a is = Ok r ->
  a2_cols r = a2_cols a /\ a2_nrows r = lenN is /\ (a2_wf a -> a2_wf r).
Proof.
  unfold a2_select. intros H. apply rbind_Ok_inv in H as (rs & E & H). inv H.
  change (rmap (a2_row a) is) with (rmap (index (a2_rows a)) is) in E. apply rmap_index_facts in E as [L FP].
  split; [reflexivity|]. split; [exact L|]. unfold a2_wf. cbn [a2_rows a2_cols]. apply FP.
Qed.

Lemma dims2_le n m c size : n <= m -> dims_ok [m; c] size -> dims_ok [n; c] size.
Proof.
  unfold dims_ok. cbn [fold_left]. unfold nonzero. intros L [A B].
  destruct (N.eqb_spec n 0), (N.eqb_spec m 0), (N.eqb_spec c 0); nia.
Qed.

Lemma clone_holds s s0 is s' gemm : storage_holds s s0 ->
  swrap_clone_from_mapping s is = Ok s' -> lenN is <= fst (st_shape (swrap_ops gemm) s) ->
  storage_holds s' s'.
Proof.
  assert (forall a r, nd_ok a -> a2_select a is = Ok r -> lenN is <= a2_nrows a -> nd_ok r) as ND.
  { intros a r (W & L1 & L2 & D) E L. apply a2_select_facts in E as (EC & ER & EW).
    unfold nd_ok. rewrite EC, ER. split; [auto|]. split; [lia|]. split; [auto|]. eapply dims2_le; eauto. }
  assert (forall q r, qa_ok q -> qa_clone_from_mapping q is = Ok r -> lenN is <= a2_nrows (qa_codes q) -> qa_ok r) as QA.
  { intros q r (P & W & C & L1 & D & NO) E L. unfold qa_clone_from_mapping in E.
    apply rbind_Ok_inv in E as (codes & E1 & E). apply rbind_Ok_inv in E as (norms & E2 & E). inv E.
    apply a2_select_facts in E1 as (EC & ER & EW). unfold qa_ok. cbn [qa_pq qa_codes qa_norms]. rewrite EC, ER.
    split; [exact P|]. split; [auto|]. split; [exact C|]. split; [lia|]. split; [eapply dims2_le; eauto|].
    intros ns ->. destruct (qa_norms q) as [ns0|]; [|discriminate].
    apply rbind_Ok_inv in E2 as (ns1 & E2 & E3). inv E3. apply rmap_index_facts in E2 as [LN _].
    destruct (NO ns0 eq_refl) as [LO DO]. split; [exact LN|]. rewrite LN. revert DO. unfold dims_ok.
    cbn [fold_left]. unfold nonzero. destruct (N.eqb_spec (lenN is) 0), (N.eqb_spec (lenN ns0) 0); lia. }
  intros H E L. destruct H as [a OK|q OK|m a V OK|m q V OK]; cbn [swrap_clone_from_mapping] in E;
    apply rbind_Ok_inv in E as (r & E & R); inv R; constructor.
  - eapply ND; eauto.
  - eapply QA; eauto.
  - destruct (mma_ops_view m a V) as (_ & H2 & H3). unfold mma_clone_from_mapping in E. rewrite H2 in E.
    eapply ND; [exact OK|exact E|]. cbn [swrap_ops st_shape] in L. rewrite H3 in L. exact L.
  - assert (pq_ql (mq_pq m) <> 0) as NZ.
    { destruct OK as (P & _). apply StorageFacts.pq_ok_pos in P. unfold mmq_to_quantized in V.
      apply rbind_Ok_inv in V as (c & _ & V). inv V. cbn [qa_pq] in P. lia. }
    destruct (mmq_ops_view gemm m q V NZ) as (_ & _ & H3 & H4 & _). rewrite H4 in E.
    eapply QA; [exact OK|exact E|]. cbn [swrap_ops st_shape] in L. rewrite H3 in L. exact L.
Qed.

(** ** Conversion to explicit n-grams *)
Lemma explicit_mapping_len pf wl n l m : explicit_mapping pf wl n l = Ok m -> lenN m = n.
Proof.
  unfold explicit_mapping. rewrite <- (rangeN_lenN n) at 2. generalize (rangeN n) as m0.
  induction l as [|[old new] l IH]; intros m0 H; cbn [rfold] in H; [inv H; reflexivity|].
  apply rbind_Ok_inv in H as (m1 & E & H). apply IH in H. rewrite H.
  apply rbind_Ok_inv in E as (i & _ & E). apply rbind_Ok_inv in E as (x & _ & E).
  unfold set_row in E. apply rbind_Ok_inv in E as (y & _ & E). inv E. unfold lenN. rewrite set_nth_length. reflexivity.
Qed.

Lemma ngram_str s mn mx g : ngram_in s mn mx g -> utf8_valid g = true /\ lenN g <= lenN s.
Proof.
  intros (cs & i & n & SC & -> & _ & _ & ->). split.
  - apply utf8_valid_iff. eexists. split; [reflexivity|]. apply substring_scalar. exact SC.
  - unfold substring. rewrite <- (takeN_dropN i cs) at 2. rewrite <- (takeN_dropN n (dropN i cs)) at 2.
    rewrite !utf8_encode_app, !lenN_app. lia.
Qed.

Section Parts.
  Context {Md I S S' F : Type} (B : bucket_ops I) (SO' : storage_ops F S').
  Variables (pf : profile) (clone : S -> list N -> res S').
  Variables (order : hmap N -> list (str * N)) (order' : nmap N -> list (N * N)).
  Variables (ws : list str) (mn mx : N) (ix : I) (v : subword_vocab I) (f : swcl -> N) (b : N).
  Variables (s : S) (norms : option (list F)) (e' : embeddings Md (subword_vocab explicit_indexer) S' F).
  Hypothesis O : any_order order.
  Hypothesis built : sub_new (bk_ops B) pf ws mn mx ix = Ok v.
  Hypothesis one : forall g, ix_index (bk_ops B) ix g = Ok [f g].
  Hypothesis below : forall g, f g < b.
  Hypothesis small : lenN ws + b < two64.
  Hypothesis scope : ix_scope (bk_ops B) = Substrings.
  Hypothesis range : range_ok mn mx.
  Hypothesis Vws : Forall (fun w => utf8_valid w = true) ws.
  Hypothesis run : to_explicit_impl B SO' pf clone order order' v s norms = Ok e'.

  Lemma explicit_parts : exists ix' mp,
    sub_new explicit_ops pf ws mn mx ix' = Ok (em_vocab e') /\ sv_ix (em_vocab e') = ix' /\ explicit_built ix' /\
    Forall (fun g => exists w, In w ws /\ ngram_in (default_bow ++ w ++ default_eow) mn mx g) (ei_ngrams ix') /\
    clone s mp = Ok (em_storage e') /\ lenN mp <= lenN ws + b /\ em_meta e' = None /\ em_norms e' = norms.
  Proof.
    pose proof built as Bt. apply sub_new_Ok in Bt as (ND & Ev & b' & Bb & L).
    destruct (te_words B mn mx ix default_bow default_eow f (create_indices ws) one scope eq_refl eq_refl range ws ws Vws)
      as (m & R & NDm & G).
    pose proof (O m) as P.
    assert (NoDup (map fst (order m))) as NDo by (eapply Permutation_NoDup; [apply Permutation_map, P|auto]).
    destruct (proj2 (explicit_numbering (order m)) NDo) as (ix' & o2n & E & Eg & Eb & _).
    assert (forall g i, In (g, i) (order m) -> hm_get m g = Some i) as IO.
    { intros g i H. apply hm_get_NoDup; [auto|]. eapply Permutation_in; [apply Permutation_sym, P|auto]. }
    assert (ei_bound ix' <= b) as Lb.
    { rewrite Eb. apply first_seen_bound. apply Forall_forall. intros i Hi. apply in_map_iff in Hi as ([g j] & <- & Hi).
      apply IO, G in Hi as [_ ->]. apply below. }
    pose proof run as H. unfold to_explicit_impl, sub_to_explicit in H. rewrite Ev in H. cbn [sv_words sv_min sv_max] in H.
    rewrite R in H. cbn [rbind] in H. rewrite E in H. cbn [rbind] in H.
    apply rbind_Ok_inv in H as ([ev o2] & H1 & H). apply rbind_Ok_inv in H1 as (ev' & H1 & H2). inv H2.
    apply rbind_Ok_inv in H as (n & Hn & H). apply rbind_Ok_inv in H as (mp & Hm & H).
    apply rbind_Ok_inv in H as (s' & Hs & H). apply explicit_mapping_len in Hm.
    pose proof H1 as H1'. apply sub_new_Ok in H1' as (_ & Eev & _).
    assert (em_vocab e' = ev /\ em_storage e' = s' /\ em_meta e' = None /\ em_norms e' = norms) as (-> & -> & -> & ->).
    { unfold emb_new_with_maybe_norms in H. apply rbind_Ok_inv in H as (k & _ & H). apply rbind_Ok_inv in H as (u & _ & H).
      inv H. auto. }
    exists ix', mp. split; [exact H1|]. split; [rewrite Eev; reflexivity|]. split; [right; eauto|]. split.
    - rewrite Eg. apply Forall_forall. intros g Hg. apply in_map_iff in Hg as ([g' i] & <- & Hg). apply IO, G in Hg. apply Hg.
    - split; [exact Hs|]. split; [|auto]. rewrite Hm. rewrite Eev in Hn. unfold sub_vocab_len, sub_words_len in Hn.
      cbn [sv_ix sv_indices ix_bound explicit_ops] in Hn. unfold explicit_bound in Hn. cbn [rbind] in Hn.
      rewrite <- (proj1 (ci_len_NoDup ws) ND) in Hn. unfold add64 in Hn.
      destruct (lenN ws + ei_bound ix' <? two64) eqn:C; [inv Hn; lia|]. exfalso. lia.
  Qed.
End Parts.

(** What [Embeddings::new] asserts. *)
Definition consistent (pf : profile) {Md} (gemm : array2 f32 -> list (list f32) -> list (list f32))
  (e : embeddings Md vocab_wrap storage_wrap f32) : Prop :=
  v_vocab_len wrap_ops pf (em_vocab e) = Ok (fst (st_shape (swrap_ops gemm) (em_storage e))).

Definition explicit_room {S} (e : embeddings S (subword_vocab explicit_indexer) storage_wrap f32) : Prop :=
  lenN (ei_ngrams (sv_ix (em_vocab e))) * 32 <= isize_max.

Lemma explicit_emb_built pf T gemm order order' (e : emb T) s0 e' :
  any_order order ->
  emb_built pf T e s0 -> vocab_made pf (em_vocab e) -> vocab_usable (em_vocab e) -> consistent pf gemm e ->
  Forall (fun w => lenN w + 2 < two32) (v_words wrap_ops (em_vocab e)) ->
  emb_try_to_explicit (swrap_ops gemm) pf swrap_clone_from_mapping order order' e = Ok e' ->
  explicit_room e' ->
  emb_built pf T (emb_wrap VExplicit (fun s => s) e') (em_storage e').
Proof.
  intros O EB VM VU CO LW H RM. destruct EB as [VB SH _ HN].
  assert (forall I (B : bucket_ops I) ws mn mx ix (v : subword_vocab I) f b,
    words_ok ws -> mn < two32 -> mx < two32 -> sub_new (bk_ops B) pf ws mn mx ix = Ok v ->
    (forall g, ix_index (bk_ops B) ix g = Ok [f g]) -> (forall g, f g < b) -> (forall pf, ix_bound (bk_ops B) pf ix = Ok b) ->
    ix_scope (bk_ops B) = Substrings -> range_ok mn mx -> Forall (fun w => lenN w + 2 < two32) ws ->
    sub_vocab_len (bk_ops B) pf v = Ok (fst (st_shape (swrap_ops gemm) (em_storage e))) ->
    to_explicit_impl B (swrap_ops gemm) pf swrap_clone_from_mapping order order' v (em_storage e) (em_norms e) = Ok e' ->
    emb_built pf T (emb_wrap VExplicit (fun s => s) e') (em_storage e')) as GEN.
  { clear H VM VU CO LW VB. intros I B ws mn mx ix v f b WO Lmn Lmx BT one below bound scope RG LW CO H.
    destruct WO as [SO LO].
    assert (Forall (fun w => utf8_valid w = true) ws) as Vw by (eapply Forall_impl; [|exact SO]; intros w [U _]; exact U).
    assert (lenN ws + b < two64) as SM.
    { apply sub_new_Ok in BT as (_ & _ & b' & Bb & LB). rewrite bound in Bb. inv Bb. exact LB. }
    destruct (explicit_parts B (swrap_ops gemm) pf swrap_clone_from_mapping order order' ws mn mx ix v f b (em_storage e)
      (em_norms e) e' O BT one below SM scope RG Vw H) as (ix' & mp & SN & EI & XB & NG & CL & LM & EM & EN).
    constructor; cbn [emb_wrap em_vocab em_storage em_meta em_norms].
    - eapply vb_explicit; [split; eassumption|exact Lmn|exact Lmx|exact XB| |rewrite <- EI; exact RM|exact SN].
      eapply Forall_impl; [|exact NG]. intros g (w & Iw & Hg). apply ngram_str in Hg as [U L].
      split; [exact U|]. rewrite Forall_forall in LW. specialize (LW w Iw). rewrite !lenN_app in L.
      change (lenN default_bow) with 1 in L. change (lenN default_eow) with 1 in L. lia.
    - apply (clone_holds _ _ _ _ gemm SH CL).
      apply sub_new_Ok in BT as (ND & -> & b' & Bb & _). rewrite bound in Bb. inv Bb.
      unfold sub_vocab_len, sub_words_len in CO. cbn [sv_ix sv_indices] in CO. rewrite bound in CO. cbn [rbind] in CO.
      rewrite <- (proj1 (ci_len_NoDup ws) ND) in CO. unfold add64 in CO. destruct (lenN ws + b' <? two64) eqn:C; [|exfalso; lia].
      assert (lenN ws + b' = fst (st_shape (swrap_ops gemm) (em_storage e))) as CO2 by congruence. rewrite <- CO2. exact LM.
    - intros t Et. congruence.
    - intros ns Ens. apply HN. congruence. }
  unfold emb_try_to_explicit in H. unfold consistent in CO.
  inversion VB as [ws v WO SN EV|ws mn mx exp ix v WO L1 L2 IX SN EV|ws mn mx n ix v WO L1 L2 IX SN EV|ws mn mx ix v WO L1 L2 XB SG LG SN EV|mn mx nb nh seed bow eow ix v L1 L2 L3 L4 S1 S2 IX SN EV];
    rewrite <- EV in *; cbn [v_vocab_len wrap_ops v_words] in *; try discriminate H.
  - pose proof SN as SN'. apply sub_new_Ok in SN' as (_ & Ev & _).
    assert (ix_made _ hash_ops ix) as IM.
    { inversion VM as [|ws' mn' mx' ix' bow' eow' v' IM SN2 EV2| | |]. apply sub_new_Ok in SN2 as (_ & E2 & _). rewrite Ev in E2. inv E2. exact IM. }
    destruct (bucketed_hash _ IM) as (f & b & F1 & F2 & F3).
    destruct (VU mn mx default_bow default_eow) as (R & _ & _); [rewrite Ev; reflexivity|].
    eapply (GEN _ hash_bucket_ops ws mn mx ix v f b); eauto. rewrite Ev in LW. exact LW.
  - pose proof SN as SN'. apply sub_new_Ok in SN' as (_ & Ev & _).
    assert (ix_made _ ft_ops ix) as IM.
    { inversion VM as [| |ws' mn' mx' ix' bow' eow' v' IM SN2 EV2| |]. apply sub_new_Ok in SN2 as (_ & E2 & _). rewrite Ev in E2. inv E2. exact IM. }
    destruct (bucketed_ft _ IM) as (f & b & F1 & F2 & F3).
    destruct (VU mn mx default_bow default_eow) as (R & _ & _); [rewrite Ev; reflexivity|].
    eapply (GEN _ ft_bucket_ops ws mn mx ix v f b); eauto. rewrite Ev in LW. exact LW.
Qed.

Lemma explicit_storable pf T gemm order order' (e : emb T) s0 e' :
  toml_law T -> any_order order ->
  emb_built pf T e s0 -> vocab_made pf (em_vocab e) -> vocab_usable (em_vocab e) -> consistent pf gemm e ->
  Forall (fun w => lenN w + 2 < two32) (v_words wrap_ops (em_vocab e)) ->
  emb_try_to_explicit (swrap_ops gemm) pf swrap_clone_from_mapping order order' e = Ok e' ->
  explicit_room e' ->
  storable pf T (emb_wrap VExplicit (fun s => s) e').
Proof. intros TL. intros. apply built_storable; [exact TL|]. eapply explicit_emb_built; eauto. Qed.

(** ** Quantization *)

(** What is assumed of the quantizers that training gives: they are made by
    the constructor, and the arrays are consistent if the data fit in memory. *)
Definition trainer_sound (tr : trainer f32) : Prop :=
  trainer_fits tr /\
  forall ns bits it at_ a p, nd_ok a -> tr_train tr ns bits it at_ a = Ok p ->
  pq_ok p /\ a2_cols (tr_quantize tr p a) = pq_ql p.

Lemma quantize_ok tr ns bits it at_ normalize a q : trainer_sound tr -> nd_ok a ->
  quantize_using f32_ops tr ns bits it at_ normalize a = Ok q -> qa_ok q.
Proof.
  intros [TF TS] (W & L1 & L2 & D) H.
  destruct (quantize_shape f32_ops tr _ _ _ _ _ _ _ TF H) as (U & LN & RL & data & TD & TR & QC).
  assert (nd_ok (mkA2 (a2_cols a) data)) as OKD.
  { unfold training_data in TD. assert (lenN data = a2_nrows a /\ Forall (fun r => lenN r = a2_cols a) data) as [LD FD].
    { destruct normalize; destruct TD as [-> _]; [|split; [reflexivity|exact W]]. split; [apply lenN_map|].
      apply Forall_map. eapply Forall_impl; [|exact W]. intros r Lr. cbv beta. rewrite lenN_map. exact Lr. }
    unfold nd_ok, a2_nrows, a2_wf. cbn [a2_rows a2_cols]. rewrite LD. auto. }
  destruct (TS _ _ _ _ _ _ OKD TR) as [PQ EC]. pose proof (StorageFacts.pq_ok_pos _ PQ) as (P1 & _ & _ & _ & _ & P6).
  destruct (tf_codes tr TF _ _ _ _ _ _ TR) as [_ FC].
  unfold qa_ok. split; [exact PQ|]. rewrite LN. split.
  { unfold a2_wf. rewrite QC, EC. eapply Forall_impl; [|exact FC]. intros r [Lr _]. exact Lr. }
  split; [rewrite QC; exact EC|]. split; [exact L1|]. split.
  - revert D. unfold dims_ok. cbn [fold_left]. unfold nonzero. rewrite RL in P6.
    destruct (N.eqb_spec (a2_nrows a) 0), (N.eqb_spec (a2_cols a) 0), (N.eqb_spec (pq_ql (qa_pq q)) 0); nia.
  - intros nm E. assert (lenN nm = a2_nrows a) as LE.
    { unfold training_data in TD. destruct normalize; destruct TD as [_ TD]; rewrite E in TD; inv TD. apply lenN_map. }
    split; [exact LE|]. rewrite LE. revert D. unfold dims_ok. cbn [fold_left]. unfold nonzero.
    destruct (N.eqb_spec (a2_nrows a) 0), (N.eqb_spec (a2_cols a) 0); nia.
Qed.

Lemma quantized_storable pf T tr ns bits it at_ normalize (view : storage_wrap -> res (array2 f32)) (e : emb T) s0 a e' :
  toml_law T -> trainer_sound tr -> emb_built pf T e s0 ->
  view (em_storage e) = Ok a -> nd_ok a ->
  emb_quantize_using f32_ops view tr ns bits it at_ normalize e = Ok e' ->
  storable pf T (emb_wrap (fun v => v) SQuantized e').
Proof.
  intros TL TS EB V OK H. unfold emb_quantize_using in H. rewrite V in H. cbn [rbind] in H.
  apply rbind_Ok_inv in H as (q & Q & H). inv H. destruct EB as [VB _ HM HN].
  apply built_storable; [exact TL|]. constructor; cbn [emb_wrap em_vocab em_storage em_meta em_norms]; auto.
  constructor. eapply quantize_ok; eauto.
Qed.

(** ** The order of hash maps *)
Lemma selects_fun {A} (rows : list A) is rs rs' : selects rows is rs -> selects rows is rs' -> rs = rs'.
Proof.
  intros H. revert rs'. induction H as [|i r is rs E _ IH]; intros rs' H'; inv H'; [reflexivity|].
  f_equal; [congruence|]. apply IH. assumption.
Qed.

Lemma subword_result_fun {F} (o : fops F) cols rs r r' :
  subword_result o cols rs r -> subword_result o cols rs r' -> r = r'.
Proof.
  intros [[E ->]|[NE (v & n & (-> & Z1 & Z2) & ->)]] [[E' ->]|[NE' (v' & n' & (-> & Z1' & Z2') & ->)]]; try reflexivity; try contradiction.
  f_equal. destruct (fis_zero o _); [rewrite Z1, Z1'|rewrite Z2, Z2']; reflexivity.
Qed.

Lemma items_fun {Q : Type} {R} (P : Q -> Prop) (l l' : list (Q * bool * R)) :
  map (fun p => fst (fst p)) l = map (fun p => fst (fst p)) l' -> map snd l = map snd l' ->
  (forall q k r, In (q, k, r) l -> (k = true <-> P q)) -> (forall q k r, In (q, k, r) l' -> (k = true <-> P q)) -> l = l'.
Proof.
  revert l'. induction l as [|[[q k] r] l IH]; intros [|[[q' k'] r'] l'] E1 E2 H1 H2; try discriminate; [reflexivity|].
  cbn [map fst snd] in E1, E2. injection E1 as -> E1. injection E2 as -> E2. f_equal.
  - assert (k = true <-> k' = true) as KE.
    { rewrite (H1 q' k r' (or_introl eq_refl)), (H2 q' k' r' (or_introl eq_refl)). reflexivity. }
    destruct k, k'; try reflexivity; exfalso; destruct KE as [KE KE']; [discriminate (KE eq_refl)|discriminate (KE' eq_refl)].
  - apply IH; auto; intros; [eapply H1|eapply H2]; right; eassumption.
Qed.

Lemma converted_same {Md S S' F} (o : fops F) (SO : storage_ops F S) (SO' : storage_ops F S') pf {I} (ops : indexer_ops I)
  v s (md : option Md) norms cols rows e1 e2 w :
  converted o SO SO' pf ops v s md norms cols rows e1 -> converted o SO SO' pf ops v s md norms cols rows e2 ->
  sv_bow v = default_bow -> sv_eow v = default_eow -> utf8_valid w = true ->
  emb_embedding o (sub_ops explicit_ops) SO' pf e1 w = emb_embedding o (sub_ops explicit_ops) SO' pf e2 w.
Proof.
  intros (_ & _ & _ & _ & _ & _ & K1 & U1 & _) (_ & _ & _ & _ & _ & _ & K2 & U2 & _) Hb He V.
  destruct (in_dec str_eq_dec w (sv_words v)) as [I1|N1].
  - destruct (K1 w I1) as (r1 & A1 & B1). destruct (K2 w I1) as (r2 & A2 & B2). congruence.
  - destruct (U1 w Hb He V N1) as (l1 & i1 & r1 & q1 & G1 & O1 & X1 & S1 & _ & R1 & _ & E1).
    destruct (U2 w Hb He V N1) as (l2 & i2 & r2 & q2 & G2 & O2 & X2 & S2 & _ & R2 & _ & E2).
    rewrite E1, E2. f_equal.
    assert (map (fun p => fst (fst p)) l1 = map (fun p => fst (fst p)) l2) as EM by (eapply ngrams_of_fun; eassumption).
    assert (i1 = i2) as EI.
    { rewrite X1 in X2. injection X2 as X2. unfold idx_res in X2.
      destruct i1 as [|a i1], i2 as [|b i2]; try discriminate; [reflexivity|]. injection X2 as X2 X3.
      rewrite !N.add_0_l in X2. subst b. f_equal. clear -X3.
      revert i2 X3. induction i1 as [|x i1 IH]; intros [|y i2] X3; try discriminate; [reflexivity|].
      cbn [map] in X3. injection X3 as X3 X4. rewrite !N.add_0_l in X3. subst y. f_equal. apply IH, X4. }
    subst i2. pose proof (selects_fun _ _ _ _ S1 S2) as ES.
    assert (l1 = l2) as -> by (eapply (items_fun (fun q => occurs v (sw_str q))); eauto).
    eapply subword_result_fun; eassumption.
Qed.

Section Order.
  Context {Md S S' F : Type} (o : fops F) (SO : storage_ops F S) (SO' : storage_ops F S') (pf : profile).

  Lemma explicit_order clone o1 o2 o1' o2' (e : embeddings Md vocab_wrap S F) cols rows e1 e2 w :
    any_order o1 -> any_order o2 -> any_order o1' -> any_order o2' ->
    emb_made SO pf e cols rows -> vocab_usable (em_vocab e) ->
    Forall (fun w => utf8_valid w = true) (v_words wrap_ops (em_vocab e)) -> clones clone SO' (em_storage e) cols rows ->
    (forall mn mx bow eow, vocab_range (em_vocab e) = Some (mn, mx, bow, eow) -> bow = default_bow /\ eow = default_eow) ->
    emb_try_to_explicit SO' pf clone o1 o1' e = Ok e1 -> emb_try_to_explicit SO' pf clone o2 o2' e = Ok e2 ->
    utf8_valid w = true ->
    emb_embedding o (sub_ops explicit_ops) SO' pf e1 w = emb_embedding o (sub_ops explicit_ops) SO' pf e2 w.
  Proof.
    intros O1 O2 O1' O2' M U Vw C DB H1 H2 V. rewrite try_to_explicit_cases in H1, H2.
    destruct e as [md s v norms]. cbn [em_vocab em_meta em_storage em_norms] in *.
    destruct v as [v|v|v|v|v]; try discriminate H1; cbn [v_words wrap_ops vocab_range] in *;
      destruct (DB _ _ _ _ eq_refl) as [Hb He].
    - destruct (to_explicit_fasttext o SO SO' pf clone o1 o1' v s md norms cols rows O1 O1' M U Vw C) as (x1 & X1 & K1).
      destruct (to_explicit_fasttext o SO SO' pf clone o2 o2' v s md norms cols rows O2 O2' M U Vw C) as (x2 & X2 & K2).
      rewrite X1 in H1. rewrite X2 in H2. inv H1. inv H2. eapply converted_same; eauto.
    - destruct (to_explicit_bucket o SO SO' pf clone o1 o1' v s md norms cols rows O1 O1' M U Vw C) as (x1 & X1 & K1).
      destruct (to_explicit_bucket o SO SO' pf clone o2 o2' v s md norms cols rows O2 O2' M U Vw C) as (x2 & X2 & K2).
      rewrite X1 in H1. rewrite X2 in H2. inv H1. inv H2. eapply converted_same; eauto.
  Qed.
End Order.
