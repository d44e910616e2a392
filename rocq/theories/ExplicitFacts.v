(** * Conversion to explicit n-grams (C31, C32). *)
From Coq Require Import Lia ZifyBool ZifyNat ZifyN Sorting.Permutation.
From Verif Require Import Base BaseFacts Utf8 Utf8Facts F32 Subword Vocab Storage Embeddings FileSpec VocabFacts VocabSpec
  SubwordFacts IndexerFacts LookupFacts EmbSpec MatrixFacts EmbFacts BatchFacts.
Local Open Scope N_scope.

(** ** N-grams as a set *)
Lemma substring_scalar i n cs : forallb scalarb cs = true -> forallb scalarb (substring i n cs) = true.
Proof.
  intros H. unfold substring, takeN, dropN. rewrite forallb_forall in *. intros x Hx. apply H.
  assert (In x (skipn (N.to_nat i) cs)) as Hs.
  { rewrite <- (firstn_skipn (N.to_nat n)). apply in_or_app. left. exact Hx. }
  rewrite <- (firstn_skipn (N.to_nat i)). apply in_or_app. right. exact Hs.
Qed.

Lemma ngrams_of_in s mn mx items g : ngrams_of s mn mx items -> (In g (map sw_str items) <-> ngram_in s mn mx g).
Proof.
  intros (cs & ps & V & -> & (ND & P) & ->). rewrite map_map. cbn [sw_str]. rewrite in_map_iff. split.
  - intros ([i n] & E & H). apply P in H as [H1 H2]. exists cs, i, n. cbn [fst snd] in E. auto.
  - intros (cs' & i & n & V' & E & H1 & H2 & ->). apply utf8_encode_inj in E; auto. subst cs'.
    exists (i, n). split; [reflexivity|]. apply P. auto.
Qed.

Lemma ngrams_of_new s mn mx items q : ngrams_of s mn mx items -> In q items -> q = swcl_new (sw_str q).
Proof.
  intros (cs & ps & V & -> & (ND & P) & ->) H. apply in_map_iff in H as ([i n] & <- & H). apply P in H as [H1 H2].
  cbn [fst snd sw_str]. unfold swcl_new. rewrite utf8_decode_encode by (apply substring_scalar; auto). f_equal.
  unfold substring. rewrite lenN_takeN, lenN_dropN. lia.
Qed.

(** The n-grams the model enumerates. *)
Definition items_of (s : str) (mn mx : N) : list swcl :=
  match ngrams_collect s mn mx with Ok l => l | _ => [] end.

Lemma items_of_spec s mn mx : utf8_valid s = true -> range_ok mn mx ->
  ngrams_collect s mn mx = Ok (items_of s mn mx) /\ ngrams_of s mn mx (items_of s mn mx).
Proof.
  intros V R. destruct (ngrams_exact s mn mx V R) as (items & C & H). unfold items_of. rewrite C. auto.
Qed.

Lemma ngram_in_items s mn mx g : utf8_valid s = true -> range_ok mn mx ->
  (ngram_in s mn mx g <-> In g (map sw_str (items_of s mn mx))).
Proof. intros V R. destruct (items_of_spec s mn mx V R) as [_ H]. symmetry. apply ngrams_of_in. auto. Qed.

Lemma with_ngrams_collect {I} (ops : indexer_ops I) ix (F : swcl -> list N) s mn mx :
  (forall g, ix_index ops ix g = Ok (F g)) -> ix_scope ops = Substrings -> utf8_valid s = true -> range_ok mn mx ->
  subword_indices_with_ngrams ops s mn mx ix = Ok (map (fun q => (sw_str q, F q)) (items_of s mn mx)).
Proof.
  intros T S V R. destruct (items_of_spec s mn mx V R) as [C _].
  unfold ngrams_collect in C. apply rbind_Ok_inv in C as (g & E & C). apply drain_remaining in C as [RM L].
  unfold subword_indices_with_ngrams, ngi_new. rewrite E, S. cbn [rbind].
  rewrite (ngi_drain_ngrams ops ix (fun g => ex_intro _ (F g) (T g)) g (items_of s mn mx) (map F (items_of s mn mx))); auto.
  - f_equal. generalize (items_of s mn mx). intros l. induction l; cbn; congruence.
  - generalize (items_of s mn mx). intros l. induction l; cbn [map]; constructor; auto.
Qed.


Lemma sub_idx_collect {I} (ops : indexer_ops I) pf (F : swcl -> list N) b ws mn mx ix bow eow w :
  (forall g, ix_index ops ix g = Ok (F g)) -> (forall g, Forall (fun i => i < b) (F g)) ->
  ix_scope ops = Substrings -> NoDup ws -> lenN ws + b < two64 ->
  utf8_valid (bow ++ w ++ eow) = true -> range_ok mn mx -> ~ In w ws ->
  v_idx (sub_ops ops) pf (mkSub bow eow ix (create_indices ws) ws mn mx) w
  = Ok (idx_res (lenN ws) (flat_map F (items_of (bow ++ w ++ eow) mn mx))).
Proof.
  intros T FB S ND L V R NI. cbn [v_idx sub_ops]. unfold sub_idx. cbn [sv_indices].
  apply ci_get_None in NI. rewrite NI. unfold sub_subword_indices, str_subword_indices, bracket, sub_words_len.
  cbn [sv_bow sv_eow sv_min sv_max sv_ix sv_indices].
  rewrite (with_ngrams_collect ops ix F) by auto. cbn [rbind].
  replace (flat_map snd _) with (flat_map F (items_of (bow ++ w ++ eow) mn mx)).
  2: { generalize (items_of (bow ++ w ++ eow) mn mx). intros l. induction l; cbn; congruence. }
  replace (hm_len (create_indices ws)) with (lenN ws) by (apply ci_len_NoDup; auto).
  rewrite (rmap_add64 pf _ b) by (auto; rewrite Forall_flat_map; apply Forall_forall; auto). cbn [rbind].
  destruct (flat_map F _); reflexivity.
Qed.

(** ** Collecting the n-grams of the vocabulary *)
Lemma te_ngrams (f : swcl -> N) (qs : list swcl) : Forall (fun q => q = swcl_new (sw_str q)) qs -> forall m,
  NoDup (map fst m) ->
  exists m', rfold te_ngram (map (fun q => (sw_str q, [f q])) qs) m = Ok m' /\ NoDup (map fst m') /\
  forall g i, hm_get m' g = Some i <->
    hm_get m g = Some i \/ (hm_get m g = None /\ In g (map sw_str qs) /\ i = f (swcl_new g)).
Proof.
  induction 1 as [|q qs Hq F IH]; intros m ND.
  - exists m. split; [reflexivity|]. split; [auto|]. intros g i. cbn [map In]. tauto.
  - cbn [map rfold te_ngram]. destruct (hm_get m (sw_str q)) as [j|] eqn:E; cbn [rbind].
    + destruct (IH m ND) as (m' & R & ND' & G). exists m'. split; [auto|]. split; [auto|].
      intros g i. rewrite G. cbn [In]. split; [tauto|]. intros [H|(H & [K|K] & K')]; [tauto| |tauto]. congruence.
    + destruct (IH (hm_insert m (sw_str q) (f q)) (hm_insert_keys_NoDup _ _ _ ND)) as (m' & R & ND' & G).
      exists m'. split; [auto|]. split; [auto|]. intros g i. rewrite G. cbn [In].
      destruct (str_eq_dec (sw_str q) g) as [<-|NE].
      * rewrite hm_insert_get_same. split.
        -- intros [H|(H & _)]; [|discriminate]. inv H. right. split; [auto|]. split; [auto|]. congruence.
        -- intros [H|(_ & _ & ->)]; [congruence|]. left. congruence.
      * rewrite hm_insert_get_other by auto. tauto.
Qed.

Section Collect.
  Context {I : Type} (B : bucket_ops I) (pf : profile).
  Variables (mn mx : N) (ix : I) (bow eow : str) (f : swcl -> N) (ind : hmap N).
  Hypothesis one : forall g, ix_index (bk_ops B) ix g = Ok [f g].
  Hypothesis scope : ix_scope (bk_ops B) = Substrings.
  Hypothesis Vbow : utf8_valid bow = true.
  Hypothesis Veow : utf8_valid eow = true.
  Hypothesis range : range_ok mn mx.

  Lemma te_words ws0 ws : Forall (fun w => utf8_valid w = true) ws ->
    let v := mkSub bow eow ix ind ws0 mn mx in
    exists m, rfold (te_word B v) ws [] = Ok m /\ NoDup (map fst m) /\
    forall g i, hm_get m g = Some i <->
      (exists w, In w ws /\ ngram_in (bow ++ w ++ eow) mn mx g) /\ i = f (swcl_new g).
  Proof.
    intros V v. induction ws as [|w ws IH] using rev_ind.
    - exists []. split; [reflexivity|]. split; [constructor|]. intros g i. cbn. split; [discriminate|].
      intros ((w & [] & _) & _).
    - apply Forall_app in V as [V Vw]. inv Vw. destruct (IH V) as (m & R & ND & G). rewrite rfold_app, R. cbn [rbind rfold].
      unfold te_word, bracket, v. cbn [sv_bow sv_eow sv_min sv_max sv_ix].
      assert (utf8_valid (bow ++ w ++ eow) = true) as VS by (repeat apply utf8_valid_app; auto).
      rewrite (with_ngrams_collect (bk_ops B) ix (fun g => [f g])) by auto. cbn [rbind].
      destruct (items_of_spec _ _ _ VS range) as [_ NG].
      destruct (te_ngrams f (items_of (bow ++ w ++ eow) mn mx)) with (m := m) as (m' & R' & ND' & G'); [|auto|].
      { apply Forall_forall. intros q Hq. eapply ngrams_of_new; eauto. }
      exists m'. rewrite R'. split; [reflexivity|]. split; [auto|]. intros g i. rewrite G', (ngrams_of_in _ _ _ _ _ NG). split.
      + intros [H|(H & Hn & ->)].
        * apply G in H as ((w' & Hw & Hg) & ->). split; [|reflexivity]. exists w'. rewrite in_app_iff. auto.
        * split; [|reflexivity]. exists w. rewrite in_app_iff. cbn. auto.
      + intros ((w' & Hw & Hg) & ->). destruct (hm_get m g) as [j|] eqn:E.
        * left. apply G in E as [_ ->]. reflexivity.
        * right. split; [auto|]. split; [|auto]. apply in_app_iff in Hw as [Hw|[->|[]]]; [|auto].
          assert (hm_get m g = Some (f (swcl_new g))); [|congruence]. apply G. eauto.
  Qed.
End Collect.

(** ** The row mapping *)
Lemma explicit_mapping_exact pf wl l : forall m,
  (forall old new, In (old, new) l -> wl + new < lenN m /\ old + wl < two64) -> lenN m < two64 ->
  NoDup (map snd l) ->
  exists m', rfold (fun m '(old, new) => let* i := add64 pf wl new in let* x := add64 pf old wl in set_row m i x) l m = Ok m' /\
  lenN m' = lenN m /\
  (forall old new, In (old, new) l -> nthN m' (wl + new) = Some (old + wl)) /\
  (forall i, ~ In i (map (fun p => wl + snd p) l) -> nthN m' i = nthN m i).
Proof.
  induction l as [|[old new] l IH]; intros m H L ND.
  - exists m. split; [reflexivity|]. split; [auto|]. split; [intros ? ? []|auto].
  - cbn [rfold]. destruct (H old new) as [H1 H2]; [left; reflexivity|]. unfold add64 at 1 2.
    replace (wl + new <? two64) with true by lia. replace (old + wl <? two64) with true by lia. cbn [rbind].
    rewrite set_row_Ok by auto. cbn [rbind]. cbn [map snd] in ND. inv ND.
    set (m1 := set_nth (N.to_nat (wl + new)) (old + wl) m).
    assert (lenN m1 = lenN m) as L1 by (unfold m1, lenN; rewrite set_nth_length; reflexivity).
    destruct (IH m1) as (m' & R & L' & S1 & S2).
    { intros o n HI. rewrite L1. apply H. right; auto. }
    { rewrite L1. auto. }
    { auto. }
    exists m'. split; [exact R|]. split; [congruence|]. split.
    + intros o n [HI|HI]; [|auto]. inv HI. rewrite S2.
      * unfold m1. rewrite nthN_set_nth, N.eqb_refl. destruct (nthN_lt m (wl + n)) as [x ->]; [auto|reflexivity].
      * intros HI. apply in_map_iff in HI as ([o' n'] & E & HI). cbn [snd] in E.
        match goal with H : ~ In n _ |- _ => apply H end. apply in_map_iff. exists (o', n'). split; [cbn; lia|auto].
    + intros i NI. cbn [map In snd] in NI. rewrite S2 by tauto. unfold m1. rewrite nthN_set_nth.
      destruct (N.eqb_spec i (wl + new)); [exfalso; apply NI; auto|reflexivity].
Qed.

Lemma first_seen_bound l b : Forall (fun i => i < b) l -> lenN (first_seen l) <= b.
Proof.
  intros F. rewrite <- (rangeN_lenN b). unfold lenN. enough (length (first_seen l) <= length (rangeN b))%nat by lia.
  apply NoDup_incl_length; [apply first_seen_NoDup|]. intros i Hi. apply (proj1 (first_seen_In _ _)) in Hi.
  apply rangeN_In. rewrite Forall_forall in F. apply F. exact Hi.
Qed.

Lemma nwi_o2n tuples ix o2n : explicit_new_with_indices tuples = Ok (ix, o2n) ->
  NoDup (map fst o2n) /\ NoDup (map snd o2n) /\ ei_bound ix = lenN o2n.
Proof.
  intros H. unfold explicit_new_with_indices in H. apply rbind_Ok_inv in H as ([[o idx] ngs] & R & H). inv H.
  apply nwi_inv_reach in R. cbn in R. tauto.
Qed.

Lemma selects_nth {A} (rows : list A) is rs : selects rows is rs ->
  forall i k, nthN is i = Some k -> nthN rs i = nthN rows k.
Proof.
  intros SEL i k. rewrite (nthN_spec is), (nthN_spec rs). generalize (N.to_nat i) as n. clear i. revert k.
  induction SEL as [|a r is rs H SEL IH]; intros k [|n] E; cbn [nth_error] in *; try discriminate; [|auto].
  inv E. auto.
Qed.

(** ** The conversion *)
Section Convert.
  Context {Md I S S' F : Type} (B : bucket_ops I) (SO' : storage_ops F S').
  Variables (pf : profile) (clone : S -> list N -> res S').
  Variables (order : hmap N -> list (str * N)) (order' : nmap N -> list (N * N)).
  Variables (ws : list str) (mn mx : N) (ix : I) (bow eow : str) (v : subword_vocab I) (f : swcl -> N) (b : N).
  Variables (s : S) (cols : N) (rows : list (list F)) (norms : option (list F)).
  Hypothesis O : any_order order.
  Hypothesis O' : any_order order'.
  Hypothesis built : sub_new_with_boundaries (bk_ops B) pf ws mn mx ix bow eow = Ok v.
  Hypothesis one : forall g, ix_index (bk_ops B) ix g = Ok [f g].
  Hypothesis below : forall g, f g < b.
  Hypothesis bound : ix_bound (bk_ops B) pf ix = Ok b.
  Hypothesis scope : ix_scope (bk_ops B) = Substrings.
  Hypothesis Vbow : utf8_valid bow = true.
  Hypothesis Veow : utf8_valid eow = true.
  Hypothesis range : range_ok mn mx.
  Hypothesis Vws : Forall (fun w => utf8_valid w = true) ws.
  Hypothesis cl : clones clone SO' s cols rows.
  Hypothesis fits : lenN rows = lenN ws + b.

  Lemma convert : exists ix' s' rows',
    let ev := mkSub default_bow default_eow ix' (create_indices ws) ws mn mx in
    to_explicit_impl B SO' pf clone order order' v s norms
      = Ok (mkEmb None s' ev norms : embeddings Md (subword_vocab explicit_indexer) S' F) /\
    ix_made _ explicit_ops ix' /\
    sub_new_with_boundaries explicit_ops pf ws mn mx ix' default_bow default_eow = Ok ev /\
    st_matrix SO' s' cols rows' /\
    lenN rows' = lenN ws + ei_bound ix' /\ ei_bound ix' <= b /\
    (forall i, i < lenN ws -> nthN rows' i = nthN rows i) /\
    (forall g, (occurs v g /\ exists n, hm_get (ei_index ix') g = Some n /\ n < ei_bound ix' /\
                  nthN rows' (lenN ws + n) = nthN rows (lenN ws + f (swcl_new g))) \/
               (~ occurs v g /\ hm_get (ei_index ix') g = None)).
  Proof.
    pose proof built as Bt. apply sub_new_Ok in Bt as (ND & Ev & b' & Bb & L). rewrite bound in Bb. inv Bb.
    destruct (te_words B mn mx ix bow eow f (create_indices ws) one scope Vbow Veow range ws ws Vws) as (m & R & NDm & G).
    set (v := mkSub bow eow ix (create_indices ws) ws mn mx) in *.
    pose proof (O m) as P.
    assert (NoDup (map fst (order m))) as NDo by (eapply Permutation_NoDup; [apply Permutation_map, P|auto]).
    destruct (proj2 (explicit_numbering (order m)) NDo) as (ix' & o2n & E & Eg & Eb & Eo & Ei).
    destruct (nwi_o2n _ _ _ E) as (ND1 & ND2 & Lb). set (fs := first_seen (map snd (order m))) in *.
    assert (forall g i, In (g, i) (order m) <-> hm_get m g = Some i) as IO.
    { intros g i. split; intros H.
      - apply hm_get_NoDup; [auto|]. eapply Permutation_in; [apply Permutation_sym, P|auto].
      - eapply Permutation_in; [exact P|]. apply hm_get_In. auto. }
    assert (Forall (fun i => i < b') (map snd (order m))) as FB.
    { apply Forall_forall. intros i Hi. apply in_map_iff in Hi as ([g j] & <- & Hi). apply IO, G in Hi as [_ ->]. apply below. }
    pose proof (first_seen_bound _ _ FB) as Lfs. fold fs in Lfs.
    assert (sub_new explicit_ops pf ws mn mx ix' = Ok (mkSub default_bow default_eow ix' (create_indices ws) ws mn mx)) as Sn.
    { unfold sub_new. apply (sub_new_wb_intro explicit_ops pf) with (b := ei_bound ix'); [auto|reflexivity|lia]. }
    assert (sub_words_len (mkSub default_bow default_eow ix' (create_indices ws) ws mn mx) = lenN ws) as Wl.
    { unfold sub_words_len. cbn [sv_indices]. symmetry. apply ci_len_NoDup. auto. }
    assert (sub_vocab_len explicit_ops pf (mkSub default_bow default_eow ix' (create_indices ws) ws mn mx) = Ok (lenN ws + ei_bound ix')) as Vl.
    { unfold sub_vocab_len. rewrite Wl. cbn [ix_bound explicit_ops sv_ix]. unfold explicit_bound. cbn [rbind].
      unfold add64. replace (lenN ws + ei_bound ix' <? two64) with true by lia. reflexivity. }
    pose proof (O' o2n) as P'.
    assert (forall old new, In (old, new) (order' o2n) <-> nthN fs new = Some old) as IN.
    { intros old new. rewrite <- Eo. split; intros H.
      - apply nm_get_NoDup; [auto|]. eapply Permutation_in; [apply Permutation_sym, P'|auto].
      - eapply Permutation_in; [exact P'|]. apply nm_get_In. auto. }
    assert (forall old new, nthN fs new = Some old -> new < ei_bound ix' /\ old < b') as IB.
    { intros old new H. split; [apply nthN_Some_lt in H; lia|]. apply nthN_In, (proj1 (first_seen_In _ _)) in H.
      rewrite Forall_forall in FB. apply FB. auto. }
    destruct (explicit_mapping_exact pf (lenN ws) (order' o2n) (rangeN (lenN ws + ei_bound ix'))) as (mp & M1 & M2 & M3 & M4).
    { intros old new H. apply IN, IB in H. rewrite rangeN_lenN. lia. }
    { rewrite rangeN_lenN. lia. }
    { eapply Permutation_NoDup; [apply Permutation_map, P'|auto]. }
    rewrite rangeN_lenN in M2.
    assert (forall i, i < lenN ws -> nthN mp i = Some i) as MW.
    { intros i Hi. rewrite M4.
      - apply rangeN_nth. lia.
      - intros H. apply in_map_iff in H as (p & H & _). lia. }
    assert (forall n, n < ei_bound ix' -> exists old, nthN fs n = Some old /\ nthN mp (lenN ws + n) = Some (old + lenN ws)) as MN.
    { intros n Hn. destruct (nthN_lt fs n) as [old Ho]; [lia|]. exists old. split; [auto|]. apply M3, IN. auto. }
    destruct (selects_total rows mp) as [rs SEL].
    { apply Forall_forall. intros i Hi. apply In_nthN in Hi as [j Hj]. apply nthN_Some_lt in Hj as Lj.
      destruct (j <? lenN ws) eqn:C.
      - rewrite MW in Hj by lia. inv Hj. lia.
      - destruct (MN (j - lenN ws)) as (old & Ho & Hm); [lia|]. replace (lenN ws + (j - lenN ws)) with j in Hm by lia.
        rewrite Hm in Hj. inv Hj. apply IB in Ho. lia. }
    destruct (cl mp rs SEL) as (s' & C & MS).
    assert (forall i k, nthN mp i = Some k -> nthN rs i = nthN rows k) as NS.
    { intros i k Hk. eapply selects_nth; eauto. }
    apply selects_length in SEL as LS.
    exists ix', s', rs. cbn zeta.
    assert (lenN rs = lenN ws + ei_bound ix') as Lr by (unfold lenN in *; lia).
    split; [|split; [|split; [exact Sn|split; [exact MS|split; [exact Lr|split; [lia|split]]]]]].
    - unfold to_explicit_impl, sub_to_explicit. subst v. cbn [sv_words sv_min sv_max] in *. rewrite R. cbn [rbind]. rewrite E. cbn [rbind].
      rewrite Sn. cbn [rbind]. rewrite Vl. cbn [rbind]. rewrite Wl. unfold explicit_mapping. rewrite M1. cbn [rbind].
      rewrite C. cbn [rbind]. unfold emb_new_with_maybe_norms. cbn [v_vocab_len sub_ops]. rewrite Vl. cbn [rbind].
      rewrite (sm_shape _ _ _ _ MS). cbn [fst]. rewrite Lr, N.eqb_refl. reflexivity.
    - constructor. right. eauto.
    - intros i Hi. apply NS, MW. auto.
    - intros g. destruct (Ei g) as [(i & Hi & Hn)|(NI & Hn)].
      + left. apply IO, G in Hi as Hg. destruct Hg as [Oc ->]. split; [exact Oc|].
        assert (In (f (swcl_new g)) fs) as Hf.
        { unfold fs. apply (proj2 (first_seen_In _ _)). apply in_map_iff. exists (g, f (swcl_new g)). split; [reflexivity|]. apply IO. apply G. split; [exact Oc|reflexivity]. }
        apply In_nthN in Hf as [n Hf]. exists n. specialize (Hn n Hf). unfold explicit_index in Hn. cbn [sw_str swcl_new] in Hn.
        destruct (IB _ _ Hf) as [H1 _]. split; [destruct (hm_get (ei_index ix') g); congruence|]. split; [auto|].
        apply NS. destruct (MN n H1) as (old & Ho & Hm). rewrite Hf in Ho. inv Ho. rewrite Hm. f_equal. lia.
      + right. split.
        * intros Oc. apply NI. apply in_map_iff. exists (g, f (swcl_new g)). split; [reflexivity|]. apply IO, G. split; [exact Oc|reflexivity].
        * unfold explicit_index in Hn. cbn [sw_str swcl_new] in Hn. destruct (hm_get (ei_index ix') g); congruence.
  Qed.
End Convert.

Definition sub_res {F} (o : fops F) (cols : N) (rs : list (list F)) : option (list F) :=
  match rs with [] => None | _ => Some (fst (l2_normalize o (component_sums o cols rs))) end.

Lemma sum_of_idx {Md V S F} (o : fops F) (VO : vocab_ops V) (SO : storage_ops F S) pf (e : embeddings Md V S F) cols rows w n l rs :
  st_matrix SO (em_storage e) cols rows ->
  v_idx VO pf (em_vocab e) w = Ok (idx_res n l) ->
  selects rows (map (fun i => n + i) l) rs ->
  emb_embedding o VO SO pf e w
  = Ok (sub_res o cols rs).
Proof.
  intros M E SEL. unfold emb_embedding. rewrite E. cbn [rbind]. apply selects_length in SEL as L. rewrite map_length in L.
  destruct l as [|i l]; [destruct rs; [reflexivity|discriminate]|].
  destruct rs as [|r rs]; [discriminate|].
  unfold idx_res, sub_res. rewrite (sm_rows _ _ _ _ M _ _ SEL). cbn [rbind a2_cols a2_rows].
  rewrite sum_rows_components by (eapply selects_Forall; [exact SEL|apply (sm_cols _ _ _ _ M)]). reflexivity.
Qed.

Lemma subword_result_intro {F} (o : fops F) cols rs :
  subword_result o cols rs (sub_res o cols rs).
Proof.
  destruct rs as [|r rs]; [left; auto|]. right. split; [discriminate|].
  exists (fst (l2_normalize o (component_sums o cols (r :: rs)))), (snd (l2_normalize o (component_sums o cols (r :: rs)))).
  split; [apply l2_normalize_scaled|reflexivity].
Qed.

Section Lookups.
  Context {Md I S S' F : Type} (o : fops F) (B : bucket_ops I) (SO : storage_ops F S) (SO' : storage_ops F S').
  Variables (pf : profile).
  Variables (ws : list str) (mn mx : N) (ix : I) (f : swcl -> N) (b : N).
  Variables (s : S) (cols : N) (rows : list (list F)).
  Variables (ix' : explicit_indexer) (s' : S') (rows' : list (list F)) (md md' : option Md) (norms norms' : option (list F)).
  Let v := mkSub default_bow default_eow ix (create_indices ws) ws mn mx.
  Let v' := mkSub default_bow default_eow ix' (create_indices ws) ws mn mx.
  Hypothesis one : forall g, ix_index (bk_ops B) ix g = Ok [f g].
  Hypothesis below : forall g, f g < b.
  Hypothesis scope : ix_scope (bk_ops B) = Substrings.
  Hypothesis range : range_ok mn mx.
  Hypothesis ND : NoDup ws.
  Hypothesis small : lenN ws + b < two64.
  Hypothesis matrix : st_matrix SO s cols rows.
  Hypothesis fits : lenN rows = lenN ws + b.
  Hypothesis bound' : ei_bound ix' <= b.
  Hypothesis below' : forall g n, hm_get (ei_index ix') g = Some n -> n < ei_bound ix'.
  Hypothesis matrix' : st_matrix SO' s' cols rows'.
  Hypothesis fits' : lenN rows' = lenN ws + ei_bound ix'.
  Hypothesis moved : forall g,
    (occurs v g /\ exists n, hm_get (ei_index ix') g = Some n /\
       nthN rows' (lenN ws + n) = nthN rows (lenN ws + f (swcl_new g))) \/
    (~ occurs v g /\ hm_get (ei_index ix') g = None).

  Let row (q : swcl) : list F := nth (N.to_nat (lenN ws + f q)) rows [].
  Let keep (q : swcl) : bool := is_some (hm_get (ei_index ix') (sw_str q)).
  Let F' (q : swcl) : list N := match hm_get (ei_index ix') (sw_str q) with Some n => [n] | None => [] end.

  Lemma row_nth q : nthN rows (lenN ws + f q) = Some (row q).
  Proof.
    destruct (nthN_lt rows (lenN ws + f q)) as [r E]; [pose proof (below q); lia|]. rewrite E. unfold row.
    rewrite nthN_spec in E. symmetry. f_equal. apply nth_error_nth. auto.
  Qed.

  Lemma lookups w : utf8_valid w = true -> ~ In w ws ->
    let items := items_of (default_bow ++ w ++ default_eow) mn mx in
    ngrams_of (default_bow ++ w ++ default_eow) mn mx items /\
    (forall q, In q items -> (keep q = true <-> occurs v (sw_str q)) /\ nthN rows (lenN ws + f q) = Some (row q)) /\
    emb_embedding o (sub_ops (bk_ops B)) SO pf (mkEmb md s v norms) w
    = Ok (sub_res o cols (map row items)) /\
    emb_embedding o (sub_ops explicit_ops) SO' pf (mkEmb md' s' v' norms') w
    = Ok (sub_res o cols (map row (filter keep items))).
  Proof.
    intros V NI. cbn zeta. set (t := default_bow ++ w ++ default_eow).
    assert (utf8_valid t = true) as Vt by (unfold t; repeat apply utf8_valid_app; auto).
    destruct (items_of_spec t mn mx Vt range) as [_ NG]. split; [auto|].
    assert (forall q, In q (items_of t mn mx) -> q = swcl_new (sw_str q)) as NW by (intros; eapply ngrams_of_new; eauto).
    split; [|split].
    - intros q Hq. split; [|apply row_nth]. unfold keep.
      destruct (moved (sw_str q)) as [(Oc & n & E & _)|(Oc & E)]; rewrite E; cbn [is_some]; intuition discriminate.
    - apply (sum_of_idx o _ SO pf (mkEmb md s v norms) cols rows w (lenN ws) (flat_map (fun q => [f q]) (items_of t mn mx))).
      + exact matrix.
      + cbn [em_vocab]. unfold v. rewrite (sub_idx_collect (bk_ops B) pf (fun q => [f q]) b); auto.
      + generalize (items_of t mn mx). intros l. induction l as [|q l IH]; cbn [flat_map map app]; constructor; [apply row_nth|exact IH].
    - apply (sum_of_idx o _ SO' pf (mkEmb md' s' v' norms') cols rows' w (lenN ws) (flat_map F' (items_of t mn mx))).
      + exact matrix'.
      + cbn [em_vocab]. unfold v'. rewrite (sub_idx_collect explicit_ops pf F' (ei_bound ix')); auto; try lia; try reflexivity.
        * intros g. cbn [ix_index explicit_ops]. unfold explicit_index, F'. destruct (hm_get _ _); reflexivity.
        * intros g. unfold F'. destruct (hm_get _ _) eqn:E; repeat constructor. eauto.
        * eapply N.le_lt_trans; [|exact small]. apply N.add_le_mono_l. exact bound'.
      + revert NW. clear NG Vt. generalize (items_of t mn mx). intros l. induction l as [|q l IH]; intros NW; [constructor|].
        cbn [flat_map filter]. unfold F' at 1. unfold keep at 1.
        destruct (moved (sw_str q)) as [(Oc & n & E & R)|(Oc & E)]; rewrite E; cbn [is_some app map].
        * constructor; [|apply IH; intros; apply NW; right; auto]. rewrite R, <- (NW q) by (left; auto). apply row_nth.
        * apply IH; intros; apply NW; right; auto.
  Qed.
End Lookups.

(** ** Statements about wrapped vocabularies *)
Lemma bucketed_hash ix : ix_made _ hash_ops ix -> exists f b, (forall g, ix_index hash_ops ix g = Ok [f g]) /\
  (forall g, f g < b) /\ forall pf, ix_bound hash_ops pf ix = Ok b.
Proof.
  intros M. destruct (ix_made_total _ _ _ M) as (b & Bd & T).
  exists (fun g => N.land (fnv64 (swcl_hash_bytes g)) (hi_mask ix)), b.
  split; [reflexivity|]. split; [|auto]. intros g. destruct (T g) as (l & E & F). inv E. inv F. auto.
Qed.

Lemma bucketed_ft ix : ix_made _ ft_ops ix -> exists f b, (forall g, ix_index ft_ops ix g = Ok [f g]) /\
  (forall g, f g < b) /\ forall pf, ix_bound ft_ops pf ix = Ok b.
Proof.
  intros M. destruct (ix_made_total _ _ _ M) as (b & Bd & T).
  assert (forall g, ix_index ft_ops ix g = Ok [ft_hash (sw_str g) mod fi_buckets ix]) as E.
  { intros g. destruct (T g) as (l & E & _). cbn [ix_index ft_ops] in *. unfold ft_index in *.
    destruct (fi_buckets ix =? 0); [discriminate|reflexivity]. }
  exists (fun g => ft_hash (sw_str g) mod fi_buckets ix), b.
  split; [auto|]. split; [|auto]. intros g. destruct (T g) as (l & E' & F). rewrite E in E'. inv E'. inv F. auto.
Qed.

Section Wrapped.
  Context {Md S S' F : Type} (o : fops F) (SO : storage_ops F S) (SO' : storage_ops F S') (pf : profile).
  Variables (clone : S -> list N -> res S') (order : hmap N -> list (str * N)) (order' : nmap N -> list (N * N)).

  Lemma idx_res_0 n l : idx_res n l = idx_res 0 (map (fun i => n + i) l).
  Proof.
    destruct l as [|a l]; [reflexivity|]. unfold idx_res. cbn [map]. rewrite map_map. cbn [N.add]. reflexivity.
  Qed.

  Lemma convert_all {I} (B : bucket_ops I) f b (ws : list str) mn mx ix bow eow v s (md : option Md) norms cols rows :
    any_order order -> any_order order' ->
    sub_new_with_boundaries (bk_ops B) pf ws mn mx ix bow eow = Ok v ->
    (forall g, ix_index (bk_ops B) ix g = Ok [f g]) -> (forall g, f g < b) -> ix_bound (bk_ops B) pf ix = Ok b ->
    ix_scope (bk_ops B) = Substrings -> utf8_valid bow = true -> utf8_valid eow = true -> range_ok mn mx ->
    Forall (fun w => utf8_valid w = true) ws -> st_matrix SO s cols rows -> clones clone SO' s cols rows ->
    lenN rows = lenN ws + b ->
    exists e', to_explicit_impl B SO' pf clone order order' v s norms = Ok e' /\
    converted o SO SO' pf (bk_ops B) v s md norms cols rows e'.
  Proof.
    intros O O' built one below bound scope Vb Ve range Vws matrix cl fits.
    destruct (convert (Md := Md) B SO' pf clone order order' ws mn mx ix bow eow v f b s cols rows norms O O' built one below bound
      scope Vb Ve range Vws cl fits) as (ix' & s' & rows' & E & Mi & Sn & MS & LR & LE & RW & MV).
    set (ev := mkSub default_bow default_eow ix' (create_indices ws) ws mn mx) in *.
    exists (mkEmb None s' ev norms). split; [exact E|].
    pose proof built as Bt. apply sub_new_Ok in Bt as (ND & Ev & b' & Bb & L). rewrite bound in Bb. inv Bb.
    set (v := mkSub bow eow ix (create_indices ws) ws mn mx) in *.
    assert (forall w, In w ws -> exists r, emb_embedding o (sub_ops (bk_ops B)) SO pf (mkEmb md s v norms) w = Ok (Some r) /\
       emb_embedding o (sub_ops explicit_ops) SO' pf (mkEmb (@None Md) s' ev norms) w = Ok (Some r)) as KW.
    { intros w Hw. apply In_nthN in Hw as [i Hi]. apply nthN_Some_lt in Hi as Li. apply (ci_get_iff ws w i ND) in Hi as Gi.
      destruct (nthN_lt rows i) as [r Hr]; [lia|]. exists r. unfold emb_embedding. cbn [v_idx sub_ops em_vocab em_storage].
      unfold sub_idx. unfold v, ev. cbn [sv_indices]. rewrite Gi. cbn [rbind].
      rewrite (sm_row _ _ _ _ matrix i r Hr). rewrite (sm_row _ _ _ _ MS i r); [auto|]. rewrite RW by auto. auto. }
    assert (forall g n, hm_get (ei_index ix') g = Some n -> n < ei_bound ix') as B'.
    { intros g n Hn. destruct (MV g) as [(_ & n' & E' & H & _)|(_ & E')]; congruence. }
    assert (forall g, (occurs v g /\ exists n, hm_get (ei_index ix') g = Some n /\
       nthN rows' (lenN ws + n) = nthN rows (lenN ws + f (swcl_new g))) \/ (~ occurs v g /\ hm_get (ei_index ix') g = None)) as MV'.
    { intros g. destruct (MV g) as [(Oc & n & E' & _ & H)|H]; [left|right]; eauto. }
    assert (forall w, bow = default_bow -> eow = default_eow -> utf8_valid w = true -> ~ In w ws ->
      exists items is r r', ngrams_of (default_bow ++ w ++ default_eow) mn mx (map (fun p => fst (fst p)) items) /\
       (forall q k row, In (q, k, row) items -> (k = true <-> occurs v (sw_str q))) /\
       v_idx (sub_ops (bk_ops B)) pf v w = Ok (idx_res 0 is) /\ selects rows is (map snd items) /\
       subword_result o cols (map snd items) r /\
       subword_result o cols (map snd (filter (fun p => snd (fst p)) items)) r' /\
       emb_embedding o (sub_ops (bk_ops B)) SO pf (mkEmb md s v norms) w = Ok r /\
       emb_embedding o (sub_ops explicit_ops) SO' pf (mkEmb (@None Md) s' ev norms) w = Ok r' /\
       ((forall p, In p items -> snd (fst p) = true) -> r' = r)) as UW.
    { intros w Hb He Vw NI. unfold v in MV'. rewrite Hb, He in MV'.
      destruct (lookups (Md := Md) o B SO SO' pf ws mn mx ix f b' s cols rows ix' s' rows' md None norms norms
         one below scope range ND L matrix fits LE B' MS LR MV' w Vw NI) as (NG & KR & E1 & E2).
      set (items := items_of (default_bow ++ w ++ default_eow) mn mx) in *.
      set (keep := fun q => is_some (hm_get (ei_index ix') (sw_str q))) in *.
      set (row := fun q => nth (N.to_nat (lenN ws + f q)) rows []) in *.
      assert (map (fun p => fst (fst p)) (map (fun q => (q, keep q, row q)) items) = items) as MI by (rewrite map_map; apply map_id).
      assert (map snd (map (fun q => (q, keep q, row q)) items) = map row items) as MR by (rewrite map_map; reflexivity).
      assert (map snd (filter (fun p => snd (fst p)) (map (fun q => (q, keep q, row q)) items)) = map row (filter keep items)) as MF.
      { clear. induction items as [|q l IH]; [reflexivity|]. cbn [map filter fst snd]. destruct (keep q); cbn [map snd]; [f_equal|]; exact IH. }
      exists (map (fun q => (q, keep q, row q)) items), (map (fun q => lenN ws + f q) items),
        (sub_res o cols (map row items)), (sub_res o cols (map row (filter keep items))).
      rewrite MI, MR, MF. unfold v. rewrite Hb, He. split; [exact NG|]. split; [|split; [|split; [|split; [|split; [|split; [exact E1|split; [exact E2|]]]]]]].
      - intros q k r Hq. apply in_map_iff in Hq as (q' & Hq & Hi). inv Hq. apply KR. auto.
      - assert (utf8_valid (default_bow ++ w ++ default_eow) = true) as Vt by (repeat apply utf8_valid_app; auto).
        rewrite (sub_idx_collect (bk_ops B) pf (fun q => [f q]) b'); auto.
        fold items.
        rewrite idx_res_0. f_equal. f_equal. generalize items. intros l. induction l as [|q l IH]; [reflexivity|]. cbn [flat_map app map]. f_equal. exact IH.
      - clear -KR. induction items as [|q l IH]; [constructor|]. cbn [map]. constructor; [apply KR; left; auto|].
        apply IH. intros; apply KR; right; auto.
      - apply subword_result_intro.
      - apply subword_result_intro.
      - intros A. f_equal. f_equal.
        assert (forall q, In q items -> keep q = true) as A'.
        { intros q Hq. apply (A (q, keep q, row q)). apply in_map_iff. eauto. }
        clear -A'. induction items as [|q l IH]; [reflexivity|]. cbn [filter]. rewrite A' by (left; auto). f_equal.
        apply IH. intros; apply A'; right; auto. }
    unfold converted. cbn zeta. cbn [em_meta em_norms em_vocab]. subst v. cbn [sv_words sv_min sv_max sv_bow sv_eow] in *.
    split; [reflexivity|]. split; [reflexivity|]. split; [reflexivity|]. split; [reflexivity|]. split; [reflexivity|].
    split; [|split; [exact KW|split]].
    - exists rows'. split; [|split; [exact MS|]].
      + cbn [em_vocab emb_wrap]. eapply vm_explicit; eauto.
      + unfold emb_wrap. cbn [em_vocab em_storage em_norms em_meta]. unfold emb_new_with_maybe_norms.
        destruct (sub_vocab_len_exact explicit_ops pf ws mn mx ix' default_bow default_eow ev Sn) as (b2 & Bb & Vl). inv Bb.
        cbn [v_vocab_len wrap_ops]. rewrite Vl. cbn [rbind]. rewrite (sm_shape _ _ _ _ MS). cbn [fst].
        rewrite LR, N.eqb_refl. reflexivity.
    - intros w Hb He Vw NI. destruct (UW w Hb He Vw NI) as (items & is & r & r' & U). exists items, is, r, r'. tauto.
    - intros w Hb He Vw All. destruct (in_dec str_eq_dec w ws) as [HI|NI].
      + destruct (KW w HI) as (r & E1 & E2). congruence.
      + destruct (UW w Hb He Vw NI) as (items & is & r & r' & NG & Oc & _ & _ & _ & _ & E1 & E2 & Same).
        rewrite E1, E2. f_equal. apply Same. intros [[q k] rw] Hq. cbn [fst snd]. apply (Oc q k rw Hq).
        apply All. eapply ngrams_of_in; [exact NG|]. rewrite map_map. apply in_map_iff. exists (q, k, rw). auto.
  Qed.

  Lemma to_explicit_bucket (v : subword_vocab hash_indexer) s (md : option Md) norms cols rows :
    any_order order -> any_order order' ->
    emb_made SO pf (mkEmb md s (VBucket v) norms) cols rows -> vocab_usable (VBucket v) ->
    Forall (fun w => utf8_valid w = true) (sv_words v) -> clones clone SO' s cols rows ->
    exists e', emb_to_explicit hash_bucket_ops SO' pf clone order order' (mkEmb md s v norms) = Ok e' /\
    converted o SO SO' pf hash_ops v s md norms cols rows e'.
  Proof.
    intros O O' M U Vw C. pose proof (emb_made_len SO pf _ cols rows M) as VL. destruct M as (MV & MS & _).
    cbn [em_vocab em_storage] in *. inv MV.
    match goal with H : ix_made _ _ ix |- _ => destruct (bucketed_hash _ H) as (f & b & F1 & F2 & F3) end.
    match goal with H : sub_new_with_boundaries _ _ _ _ _ _ _ _ = _ |- _ => rename H into Bt end.
    destruct (sub_vocab_len_exact _ _ _ _ _ _ _ _ _ Bt) as (b2 & Bb & Vl). rewrite F3 in Bb. inv Bb.
    cbn [v_vocab_len wrap_ops] in VL. rewrite Vl in VL. assert (lenN rows = lenN ws + b2) as LR by congruence.
    pose proof Bt as Bt'. apply sub_new_Ok in Bt' as (_ & Ev & _).
    destruct (U mn mx bow eow) as (R & V1 & V2); [rewrite Ev; reflexivity|].
    assert (sv_words v = ws) as EW by (rewrite Ev; reflexivity). rewrite EW in Vw.
    destruct (convert_all hash_bucket_ops f b2 ws mn mx ix bow eow v s md norms cols rows) as (e' & E & K); auto.
    exists e'. split; [exact E|exact K].
  Qed.

  Lemma to_explicit_fasttext (v : subword_vocab ft_indexer) s (md : option Md) norms cols rows :
    any_order order -> any_order order' ->
    emb_made SO pf (mkEmb md s (VFastText v) norms) cols rows -> vocab_usable (VFastText v) ->
    Forall (fun w => utf8_valid w = true) (sv_words v) -> clones clone SO' s cols rows ->
    exists e', emb_to_explicit ft_bucket_ops SO' pf clone order order' (mkEmb md s v norms) = Ok e' /\
    converted o SO SO' pf ft_ops v s md norms cols rows e'.
  Proof.
    intros O O' M U Vw C. pose proof (emb_made_len SO pf _ cols rows M) as VL. destruct M as (MV & MS & _).
    cbn [em_vocab em_storage] in *. inv MV.
    match goal with H : ix_made _ _ ix |- _ => destruct (bucketed_ft _ H) as (f & b & F1 & F2 & F3) end.
    match goal with H : sub_new_with_boundaries _ _ _ _ _ _ _ _ = _ |- _ => rename H into Bt end.
    destruct (sub_vocab_len_exact _ _ _ _ _ _ _ _ _ Bt) as (b2 & Bb & Vl). rewrite F3 in Bb. inv Bb.
    cbn [v_vocab_len wrap_ops] in VL. rewrite Vl in VL. assert (lenN rows = lenN ws + b2) as LR by congruence.
    pose proof Bt as Bt'. apply sub_new_Ok in Bt' as (_ & Ev & _).
    destruct (U mn mx bow eow) as (R & V1 & V2); [rewrite Ev; reflexivity|].
    assert (sv_words v = ws) as EW by (rewrite Ev; reflexivity). rewrite EW in Vw.
    destruct (convert_all ft_bucket_ops f b2 ws mn mx ix bow eow v s md norms cols rows) as (e' & E & K); auto.
    exists e'. split; [exact E|exact K].
  Qed.

  (** [try_to_explicit] converts wrapped bucketed vocabularies in the same
      way and refuses the others. *)
  Lemma try_to_explicit_cases (e : embeddings Md vocab_wrap S F) :
    emb_try_to_explicit SO' pf clone order order' e
    = match em_vocab e with
      | VBucket v => emb_to_explicit hash_bucket_ops SO' pf clone order order' (mkEmb (em_meta e) (em_storage e) v (em_norms e))
      | VFastText v => emb_to_explicit ft_bucket_ops SO' pf clone order order' (mkEmb (em_meta e) (em_storage e) v (em_norms e))
      | _ => Err EConversion
      end.
  Proof. unfold emb_try_to_explicit. destruct (em_vocab e); reflexivity. Qed.

  Lemma try_to_explicit_iff (e : embeddings Md vocab_wrap S F) cols rows :
    any_order order -> any_order order' -> emb_made SO pf e cols rows -> vocab_usable (em_vocab e) ->
    Forall (fun w => utf8_valid w = true) (v_words wrap_ops (em_vocab e)) -> clones clone SO' (em_storage e) cols rows ->
    (vocab_bucketed (em_vocab e) <-> exists e', emb_try_to_explicit SO' pf clone order order' e = Ok e') /\
    (~ vocab_bucketed (em_vocab e) -> emb_try_to_explicit SO' pf clone order order' e = Err EConversion).
  Proof.
    intros O O' M U Vw C. rewrite try_to_explicit_cases. destruct e as [md s v norms]. cbn [em_vocab em_meta em_storage em_norms] in *.
    destruct v as [v|v|v|v|v]; cbn [vocab_bucketed v_words wrap_ops] in *; (split; [|tauto]); split; try tauto;
      try (intros (e' & E); discriminate); intros _.
    - destruct (to_explicit_fasttext v s md norms cols rows O O' M U Vw C) as (e' & E & _). eauto.
    - destruct (to_explicit_bucket v s md norms cols rows O O' M U Vw C) as (e' & E & _). eauto.
  Qed.
End Wrapped.
