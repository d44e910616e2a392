(** * Exactly when the conversion to explicit n-grams returns. *)
From Verif Require Import Base BaseFacts Utf8 Utf8Facts F32 Subword Vocab Storage Embeddings FileSpec VocabSpec EmbSpec
  VocabFacts SubwordFacts LookupFacts MatrixFacts EmbFacts ExplicitFacts LookupExactSpec LookupExact EmbExact.
From Coq Require Import Lia ZifyBool ZifyNat ZifyN Permutation.
Local Open Scope N_scope.

Section Exact.
  Context {Md S S' F : Type} (o : fops F) (SO : storage_ops F S) (SO' : storage_ops F S') (pf : profile).
  Variables (clone : S -> list N -> res S') (order : hmap N -> list (str * N)) (order' : nmap N -> list (N * N)).
  Hypothesis O : any_order order.
  Hypothesis O' : any_order order'.

  (** The first word panics. *)
  Lemma convert_bad {I} (B : bucket_ops I) v s norms w ws : sv_words v = w :: ws -> ~ range_ok (sv_min v) (sv_max v) ->
    to_explicit_impl B SO' pf clone order order' v s norms = (Panic PAssert : res (embeddings Md _ S' F)).
  Proof.
    intros W R. unfold to_explicit_impl, sub_to_explicit. rewrite W. cbn [rfold]. unfold te_word at 1, subword_indices_with_ngrams, ngi_new.
    rewrite ngrams_new_panics by auto. reflexivity.
  Qed.

  (** No words: the result is empty. *)
  Lemma convert_none {I} (B : bucket_ops I) v s norms cols rows : sv_words v = [] -> clones clone SO' s cols rows ->
    exists s', to_explicit_impl B SO' pf clone order order' v s norms
      = Ok (mkEmb None s' (mkSub default_bow default_eow (mkExIx [] [] 0) [] [] (sv_min v) (sv_max v)) norms
            : embeddings Md _ S' F) /\
    st_matrix SO' s' cols [].
  Proof.
    intros W C. destruct (C [] []) as (s' & E & M); [constructor|]. exists s'. split; [|exact M].
    unfold to_explicit_impl, sub_to_explicit. rewrite W. cbn [rfold rbind].
    pose proof (Permutation_nil (O [])) as ->. unfold explicit_new_with_indices. cbn [rfold rbind].
    set (ev := mkSub default_bow default_eow (mkExIx [] [] 0) [] [] (sv_min v) (sv_max v)).
    assert (sub_new explicit_ops pf [] (sv_min v) (sv_max v) (mkExIx [] [] (lenN (@nil (N * N)))) = Ok ev) as -> by reflexivity.
    assert (sub_vocab_len explicit_ops pf ev = Ok 0) as V by (destruct pf; reflexivity).
    cbn [rbind]. rewrite V. cbn [rbind]. rewrite (Permutation_nil (O' [])). unfold explicit_mapping. cbn [rfold rbind].
    change (rangeN 0) with (@nil N). rewrite E. cbn [rbind]. unfold emb_new_with_maybe_norms. cbn [v_vocab_len sub_ops].
    rewrite V. cbn [rbind].
    rewrite (sm_shape _ _ _ _ M). reflexivity.
  Qed.

  (** The vector of any string that is not a word after the conversion,
      whatever the boundaries were: the n-grams of the string between the
      default boundaries that occur in a word between the old ones. *)
  Definition explicit_lookups {I} (ops : indexer_ops I) (v : subword_vocab I) cols rows
      (e' : embeddings Md (subword_vocab explicit_indexer) S' F) : Prop :=
    forall w, utf8_valid w = true -> ~ In w (sv_words v) ->
    exists items r, ngrams_of (default_bow ++ w ++ default_eow) (sv_min v) (sv_max v) (map (fun p => fst (fst p)) items) /\
    (forall q k row, In (q, k, row) items -> (k = true <-> occurs v (sw_str q)) /\
       exists i, ix_index ops (sv_ix v) q = Ok [i] /\ nthN rows (lenN (sv_words v) + i) = Some row) /\
    subword_result o cols (map snd (filter (fun p => snd (fst p)) items)) r /\
    emb_embedding o (sub_ops explicit_ops) SO' pf e' w = Ok r.

  Lemma convert_lookups {I} (B : bucket_ops I) f b (ws : list str) mn mx ix bow eow v s norms cols rows :
    sub_new_with_boundaries (bk_ops B) pf ws mn mx ix bow eow = Ok v ->
    (forall g, ix_index (bk_ops B) ix g = Ok [f g]) -> (forall g, f g < b) -> ix_bound (bk_ops B) pf ix = Ok b ->
    ix_scope (bk_ops B) = Substrings -> utf8_valid bow = true -> utf8_valid eow = true -> range_ok mn mx ->
    Forall (fun w => utf8_valid w = true) ws -> clones clone SO' s cols rows ->
    lenN rows = lenN ws + b ->
    exists e', to_explicit_impl B SO' pf clone order order' v s norms = Ok e' /\
    explicit_lookups (bk_ops B) v cols rows e'.
  Proof.
    intros built one below bound scope Vb Ve range Vws cl fits.
    destruct (convert (Md := Md) B SO' pf clone order order' ws mn mx ix bow eow v f b s cols rows norms O O' built one below bound
      scope Vb Ve range Vws cl fits) as (ix' & s' & rows' & E & Mi & Sn & MS & LR & LE & RW & MV).
    set (ev := mkSub default_bow default_eow ix' (create_indices ws) ws mn mx) in *.
    exists (mkEmb None s' ev norms). split; [exact E|].
    pose proof built as Bt. apply sub_new_Ok in Bt as (ND & Ev & b' & Bb & L). rewrite bound in Bb. inv Bb.
    set (v := mkSub bow eow ix (create_indices ws) ws mn mx) in *.
    set (row := fun q => nth (N.to_nat (lenN ws + f q)) rows []).
    set (keep := fun q => is_some (hm_get (ei_index ix') (sw_str q))).
    set (F' := fun q => match hm_get (ei_index ix') (sw_str q) with Some n => [n] | None => [] end).
    assert (forall q, nthN rows (lenN ws + f q) = Some (row q)) as RN.
    { intros q. destruct (nthN_lt rows (lenN ws + f q)) as [r Hr]; [pose proof (below q); lia|]. rewrite Hr. unfold row.
      rewrite nthN_spec in Hr. symmetry. f_equal. apply nth_error_nth. auto. }
    intros w Vw NI. change (sv_words v) with ws in *. change (sv_min v) with mn. change (sv_max v) with mx. change (sv_ix v) with ix.
    set (t := default_bow ++ w ++ default_eow).
    assert (utf8_valid t = true) as Vt by (unfold t; repeat apply utf8_valid_app; auto).
    destruct (items_of_spec t mn mx Vt range) as [_ NG].
    assert (forall q, In q (items_of t mn mx) -> q = swcl_new (sw_str q)) as NW by (intros; eapply ngrams_of_new; eauto).
    set (items := items_of t mn mx) in *.
    exists (map (fun q => (q, keep q, row q)) items), (sub_res o cols (map row (filter keep items))).
    assert (map (fun p => fst (fst p)) (map (fun q => (q, keep q, row q)) items) = items) as -> by (rewrite map_map; apply map_id).
    assert (map snd (filter (fun p => snd (fst p)) (map (fun q => (q, keep q, row q)) items)) = map row (filter keep items)) as ->.
    { clear. induction items as [|q l IH]; [reflexivity|]. cbn [map filter fst snd]. destruct (keep q); cbn [map snd]; [f_equal|]; exact IH. }
    split; [exact NG|]. split; [|split; [apply subword_result_intro|]].
    - intros q k r Hq. apply in_map_iff in Hq as (q' & Hq & Hi). inv Hq. split; [|eauto]. unfold keep.
      destruct (MV (sw_str q)) as [(Oc & n & E' & _)|(Oc & E')]; rewrite E'; cbn [is_some]; intuition discriminate.
    - apply (sum_of_idx o _ SO' pf (mkEmb None s' ev norms) cols rows' w (lenN ws) (flat_map F' items)).
      + exact MS.
      + cbn [em_vocab]. unfold ev. unfold items, t. rewrite (sub_idx_collect explicit_ops pf F' (ei_bound ix')); auto; try lia; try reflexivity.
        * intros g. cbn [ix_index explicit_ops]. unfold explicit_index, F'. destruct (hm_get _ _); reflexivity.
        * intros g. unfold F'. destruct (hm_get _ _) eqn:E'; repeat constructor.
          destruct (MV (sw_str g)) as [(_ & n' & E2 & H & _)|(_ & E2)]; congruence.
        * eapply N.le_lt_trans; [|exact L]. apply N.add_le_mono_l. exact LE.
      + revert NW. clear NG Vt. generalize items. intros l. induction l as [|q l IH]; intros NW; [constructor|].
        cbn [flat_map filter]. unfold F' at 1. unfold keep at 1.
        destruct (MV (sw_str q)) as [(Oc & n & E' & _ & R)|(Oc & E')]; rewrite E'; cbn [is_some app map].
        * constructor; [|apply IH; intros; apply NW; right; auto]. rewrite R, <- (NW q) by (left; auto). apply RN.
        * apply IH; intros; apply NW; right; auto.
  Qed.

  Lemma try_to_explicit_outcome (e : embeddings Md vocab_wrap S F) cols rows :
    emb_made SO pf e cols rows -> bounds_utf8 (em_vocab e) ->
    Forall (fun w => utf8_valid w = true) (v_words wrap_ops (em_vocab e)) -> clones clone SO' (em_storage e) cols rows ->
    (~ vocab_bucketed (em_vocab e) -> emb_try_to_explicit SO' pf clone order order' e = Err EConversion) /\
    forall mn mx bow eow, vocab_bucketed (em_vocab e) -> vocab_range (em_vocab e) = Some (mn, mx, bow, eow) ->
    (v_words wrap_ops (em_vocab e) <> [] -> ~ range_ok mn mx ->
     emb_try_to_explicit SO' pf clone order order' e = Panic PAssert) /\
    (v_words wrap_ops (em_vocab e) <> [] -> range_ok mn mx ->
     exists e', emb_try_to_explicit SO' pf clone order order' e = Ok e' /\ sv_words (em_vocab e') = v_words wrap_ops (em_vocab e)) /\
    (v_words wrap_ops (em_vocab e) = [] ->
     exists e', emb_try_to_explicit SO' pf clone order order' e = Ok e' /\ sv_words (em_vocab e') = [] /\
     ei_ngrams (sv_ix (em_vocab e')) = [] /\ st_matrix SO' (em_storage e') cols [] /\ em_norms e' = em_norms e /\
     sv_min (em_vocab e') = mn /\ sv_max (em_vocab e') = mx).
  Proof.
    intros M BU Vw C. split.
    { intros NB. rewrite (try_to_explicit_cases SO'). destruct e as [md s v norms]. cbn [em_vocab] in *.
      destruct v; cbn in NB; try reflexivity; tauto. }
    intros mn mx bow eow BK VR. rewrite (try_to_explicit_cases SO').
    destruct e as [md s v norms]. cbn [em_vocab em_meta em_storage em_norms] in *. unfold emb_to_explicit. cbn [em_vocab em_storage em_norms].
    assert (range_ok mn mx -> vocab_usable v) as US.
    { intros R mn' mx' bow' eow' E. rewrite VR in E. inv E. split; [auto|]. eapply BU; eauto. }
    destruct v as [v|v|v|v|v]; cbn in BK; try tauto; cbn [vocab_range] in VR; inv VR; cbn [v_words wrap_ops] in *; (split; [|split]).
    - intros W R. destruct (sv_words v) as [|w ws] eqn:E; [congruence|]. eapply convert_bad; eauto.
    - intros W R. destruct (to_explicit_fasttext o SO SO' pf clone order order' v s md norms cols rows O O' M (US R) Vw C) as (e' & E & K).
      exists e'. split; [exact E|]. apply K.
    - intros W. destruct (convert_none ft_bucket_ops v s norms cols rows W C) as (s' & E & MS). eexists. split; [exact E|].
      cbn [em_vocab em_storage em_norms sv_words sv_ix ei_ngrams sv_min sv_max]. auto 7.
    - intros W R. destruct (sv_words v) as [|w ws] eqn:E; [congruence|]. eapply convert_bad; eauto.
    - intros W R. destruct (to_explicit_bucket o SO SO' pf clone order order' v s md norms cols rows O O' M (US R) Vw C) as (e' & E & K).
      exists e'. split; [exact E|]. apply K.
    - intros W. destruct (convert_none hash_bucket_ops v s norms cols rows W C) as (s' & E & MS). eexists. split; [exact E|].
      cbn [em_vocab em_storage em_norms sv_words sv_ix ei_ngrams sv_min sv_max]. auto 7.
  Qed.

  Lemma bucket_lookups (v : subword_vocab hash_indexer) s (md : option Md) norms cols rows :
    emb_made SO pf (mkEmb md s (VBucket v) norms) cols rows -> vocab_usable (VBucket v) ->
    Forall (fun w => utf8_valid w = true) (sv_words v) -> clones clone SO' s cols rows ->
    exists e', emb_to_explicit hash_bucket_ops SO' pf clone order order' (mkEmb md s v norms) = Ok e' /\
    forall w, utf8_valid w = true -> ~ In w (sv_words v) ->
    exists items r, ngrams_of (default_bow ++ w ++ default_eow) (sv_min v) (sv_max v) (map (fun p => fst (fst p)) items) /\
    (forall q k row, In (q, k, row) items -> (k = true <-> occurs v (sw_str q)) /\
       exists i, hash_index (sv_ix v) q = Ok [i] /\ nthN rows (lenN (sv_words v) + i) = Some row) /\
    subword_result o cols (map snd (filter (fun p => snd (fst p)) items)) r /\
    emb_embedding o (sub_ops explicit_ops) SO' pf e' w = Ok r.
  Proof.
    intros M U Vw C. pose proof (emb_made_len SO pf _ cols rows M) as VL. destruct M as (MV & MS & _).
    cbn [em_vocab em_storage] in *. inv MV.
    match goal with H : ix_made _ _ ix |- _ => destruct (bucketed_hash _ H) as (f & b & F1 & F2 & F3) end.
    match goal with H : sub_new_with_boundaries _ _ _ _ _ _ _ _ = _ |- _ => rename H into Bt end.
    destruct (sub_vocab_len_exact _ _ _ _ _ _ _ _ _ Bt) as (b2 & Bb & Vl). rewrite F3 in Bb. inv Bb.
    cbn [v_vocab_len wrap_ops] in VL. rewrite Vl in VL. assert (lenN rows = lenN ws + b2) as LR by congruence.
    pose proof Bt as Bt'. apply sub_new_Ok in Bt' as (_ & Ev & _).
    destruct (U mn mx bow eow) as (R & V1 & V2); [rewrite Ev; reflexivity|].
    assert (sv_words v = ws) as EW by (rewrite Ev; reflexivity). rewrite EW in Vw.
    destruct (convert_lookups hash_bucket_ops f b2 ws mn mx ix bow eow v s norms cols rows) as (e' & E & K); auto.
    exists e'. split; [exact E|exact K].
  Qed.

  Lemma fasttext_lookups (v : subword_vocab ft_indexer) s (md : option Md) norms cols rows :
    emb_made SO pf (mkEmb md s (VFastText v) norms) cols rows -> vocab_usable (VFastText v) ->
    Forall (fun w => utf8_valid w = true) (sv_words v) -> clones clone SO' s cols rows ->
    exists e', emb_to_explicit ft_bucket_ops SO' pf clone order order' (mkEmb md s v norms) = Ok e' /\
    forall w, utf8_valid w = true -> ~ In w (sv_words v) ->
    exists items r, ngrams_of (default_bow ++ w ++ default_eow) (sv_min v) (sv_max v) (map (fun p => fst (fst p)) items) /\
    (forall q k row, In (q, k, row) items -> (k = true <-> occurs v (sw_str q)) /\
       exists i, ft_index (sv_ix v) q = Ok [i] /\ nthN rows (lenN (sv_words v) + i) = Some row) /\
    subword_result o cols (map snd (filter (fun p => snd (fst p)) items)) r /\
    emb_embedding o (sub_ops explicit_ops) SO' pf e' w = Ok r.
  Proof.
    intros M U Vw C. pose proof (emb_made_len SO pf _ cols rows M) as VL. destruct M as (MV & MS & _).
    cbn [em_vocab em_storage] in *. inv MV.
    match goal with H : ix_made _ _ ix |- _ => destruct (bucketed_ft _ H) as (f & b & F1 & F2 & F3) end.
    match goal with H : sub_new_with_boundaries _ _ _ _ _ _ _ _ = _ |- _ => rename H into Bt end.
    destruct (sub_vocab_len_exact _ _ _ _ _ _ _ _ _ Bt) as (b2 & Bb & Vl). rewrite F3 in Bb. inv Bb.
    cbn [v_vocab_len wrap_ops] in VL. rewrite Vl in VL. assert (lenN rows = lenN ws + b2) as LR by congruence.
    pose proof Bt as Bt'. apply sub_new_Ok in Bt' as (_ & Ev & _).
    destruct (U mn mx bow eow) as (R & V1 & V2); [rewrite Ev; reflexivity|].
    assert (sv_words v = ws) as EW by (rewrite Ev; reflexivity). rewrite EW in Vw.
    destruct (convert_lookups ft_bucket_ops f b2 ws mn mx ix bow eow v s norms cols rows) as (e' & E & K); auto.
    exists e'. split; [exact E|exact K].
  Qed.
End Exact.
