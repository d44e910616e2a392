(** * Exactly when lookups of embeddings panic. *)
From Verif Require Import Base BaseFacts Utf8 F32 ChunkIO Subword Vocab Storage Embeddings FileSpec VocabSpec EmbSpec
  VocabFacts LookupFacts MatrixFacts EmbFacts BatchFacts LookupExactSpec LookupExact.
From Coq Require Import Lia Permutation.
Local Open Scope N_scope.

Lemma vocab_range_panics pf v w : vocab_made pf v -> unusable_lookup v w -> v_idx wrap_ops pf v w = Panic PAssert.
Proof.
  intros M [NI (mn & mx & bow & eow & E & R)]. destruct M; cbn [vocab_range] in E; [discriminate|..];
    (match goal with H : sub_new_with_boundaries _ _ _ _ _ _ _ _ = Ok _ |- _ =>
       pose proof H as H'; apply sub_new_Ok in H' as (_ & Ev & _); rewrite Ev in E, NI; cbn in E, NI; inv E;
       eapply sub_lookup_range; [exact H|exact R|exact NI] end).
Qed.

Lemma unusable_dec v w : unusable_lookup v w \/ In w (v_words wrap_ops v) \/
  forall mn mx bow eow, vocab_range v = Some (mn, mx, bow, eow) -> range_ok mn mx.
Proof.
  destruct (in_dec str_eq_dec w (v_words wrap_ops v)) as [HI|NI]; [auto|].
  destruct (vocab_range v) as [[[[mn mx] bow] eow]|] eqn:E.
  - destruct (range_ok_dec mn mx) as [R|R]; [right; right; intros; congruence|].
    left. split; [auto|]. exists mn, mx, bow, eow. auto.
  - right. right. discriminate.
Qed.

Section Emb.
  Context {Md S F : Type} (o : fops F) (SO : storage_ops F S) (pf : profile).
  Variables (e : embeddings Md vocab_wrap S F) (cols : N) (rows : list (list F)).
  Hypothesis made : emb_made SO pf e cols rows.
  Hypothesis bounds : bounds_utf8 (em_vocab e).

  Let MV : vocab_made pf (em_vocab e). Proof. apply made. Qed.
  Let MS : st_matrix SO (em_storage e) cols rows. Proof. apply made. Qed.

  (** The three outcomes of a lookup. *)
  Lemma emb_outcome w : utf8_valid w = true ->
    (unusable_lookup (em_vocab e) w /\ v_idx wrap_ops pf (em_vocab e) w = Panic PAssert /\
     emb_embedding o wrap_ops SO pf e w = Panic PAssert /\ emb_with_norm o wrap_ops SO pf e w = Panic PAssert) \/
    (~ unusable_lookup (em_vocab e) w /\ exists i r, nthN (v_words wrap_ops (em_vocab e)) i = Some w /\
     v_idx wrap_ops pf (em_vocab e) w = Ok (Some (Word i)) /\ nthN rows i = Some r /\ lenN r = cols /\
     emb_embedding o wrap_ops SO pf e w = Ok (Some r)) \/
    (~ unusable_lookup (em_vocab e) w /\ vocab_usable (em_vocab e)).
  Proof.
    intros V. destruct (unusable_dec (em_vocab e) w) as [B|[HI|U]].
    - left. pose proof (vocab_range_panics pf _ _ MV B) as E. split; [auto|]. split; [auto|].
      unfold emb_embedding, emb_with_norm. rewrite E. auto.
    - right. left. split; [intros [NI _]; auto|]. apply In_nthN in HI as [i HI].
      destruct (known_word o SO pf e cols rows made w i HI) as (r & R & E).
      destruct (words_bijection pf (em_vocab e) w i MV) as (B & _).
      exists i, r. split; [auto|]. split; [apply B; auto|]. split; [auto|]. split; [|auto].
      pose proof (sm_cols _ _ _ _ MS) as C. rewrite Forall_forall in C. apply C. eapply nthN_In; eauto.
    - right. right. split.
      + intros [_ (mn & mx & bow & eow & E & R)]. apply R. eapply U; eauto.
      + intros mn mx bow eow E. split; [eapply U; eauto|]. eapply bounds; eauto.
  Qed.

  Lemma emb_into_agrees w target : utf8_valid w = true -> lenN target = cols ->
    emb_embedding_into o wrap_ops SO pf e w target
    = let* r := emb_embedding o wrap_ops SO pf e w in
      Ok (match r with Some v => (v, true) | None => (target, false) end).
  Proof.
    intros V L. destruct (emb_outcome w V) as [(_ & E1 & E2 & _)|[(_ & i & r & _ & E1 & R & LR & E2)|[_ U]]].
    - unfold emb_embedding_into. rewrite (emb_dims_cols SO pf e cols rows made), L, N.eqb_refl, E1, E2. reflexivity.
    - unfold emb_embedding_into. rewrite (emb_dims_cols SO pf e cols rows made), L, N.eqb_refl, E1, E2.
      cbn [rassert rbind]. rewrite (sm_row _ _ _ _ MS i r R). cbn [rbind]. rewrite LR, N.eqb_refl. reflexivity.
    - apply (into_agrees o SO pf e cols rows made U); auto.
  Qed.

  Lemma lookup_total_iff w : utf8_valid w = true ->
    (unusable_lookup (em_vocab e) w -> emb_embedding o wrap_ops SO pf e w = Panic PAssert) /\
    (~ unusable_lookup (em_vocab e) w -> exists r, emb_embedding o wrap_ops SO pf e w = Ok r).
  Proof.
    intros V. destruct (emb_outcome w V) as [(B & _ & E & _)|[(B & i & r & _ & _ & _ & _ & E)|[B U]]].
    - split; [auto|tauto].
    - split; [tauto|eauto].
    - split; [tauto|]. intros _.
      destruct (lookup_cases o SO pf e cols rows made U w V)
        as [(i & r & _ & _ & _ & _ & ->)|[(is & rs & v & n & _ & _ & _ & _ & _ & -> & _)|(_ & -> & _)]]; eauto.
  Qed.

  (** [embedding] and [embedding_into]. *)
  Lemma lookup_panics_exact w p : utf8_valid w = true ->
    (emb_embedding o wrap_ops SO pf e w = Panic p <-> p = PAssert /\ unusable_lookup (em_vocab e) w) /\
    (forall target, emb_embedding_into o wrap_ops SO pf e w target = Panic p <->
       p = PAssert /\ (lenN target <> cols \/ unusable_lookup (em_vocab e) w)) /\
    (forall x, emb_embedding o wrap_ops SO pf e w <> Err x) /\
    (forall target x, emb_embedding_into o wrap_ops SO pf e w target <> Err x).
  Proof.
    intros V. destruct (lookup_total_iff w V) as [B G].
    assert (unusable_lookup (em_vocab e) w \/ ~ unusable_lookup (em_vocab e) w) as D.
    { destruct (emb_outcome w V) as [(D & _)|[(D & _)|[D _]]]; auto. }
    destruct D as [D|D].
    - specialize (B D). rewrite B. split; [split; [intros H; inv H; auto|intros [-> _]; reflexivity]|].
      assert (forall target, emb_embedding_into o wrap_ops SO pf e w target = Panic PAssert) as IT.
      { intros target. destruct (N.eq_dec (lenN target) cols) as [L|L].
        - rewrite emb_into_agrees, B by auto. reflexivity.
        - apply (into_wrong o SO pf e cols rows made w target L). }
      split; [|split; [discriminate|intros; rewrite IT; discriminate]].
      intros target. rewrite IT. split; [intros H; inv H; auto|intros [-> _]; reflexivity].
    - destruct (G D) as [r E]. rewrite E. split; [split; [discriminate|tauto]|].
      split; [|split; [discriminate|]]; intros target; [|intros x];
        (destruct (N.eq_dec (lenN target) cols) as [L|L];
         [rewrite emb_into_agrees, E by auto|rewrite (into_wrong o SO pf e cols rows made w target L)]); cbn [rbind].
      + split; [discriminate|tauto].
      + split; [intros H; inv H; auto|intros [-> _]; reflexivity].
      + discriminate.
      + discriminate.
  Qed.

  (** [embedding_with_norm]. *)
  Lemma with_norm_panics_exact w p : utf8_valid w = true ->
    (forall ns, em_norms e = Some ns -> lenN ns = v_words_len wrap_ops (em_vocab e)) ->
    (emb_with_norm o wrap_ops SO pf e w = Panic p <-> p = PAssert /\ unusable_lookup (em_vocab e) w) /\
    (forall x, emb_with_norm o wrap_ops SO pf e w <> Err x).
  Proof.
    intros V LN. destruct (emb_outcome w V) as [(B & _ & _ & E)|[(B & i & r & HI & _)|[B U]]].
    - rewrite E. split; [|discriminate]. split; [intros H; inv H; auto|intros [-> _]; reflexivity].
    - destruct (with_norm_known o SO pf e cols rows w i made LN HI) as (r' & n & _ & _ & _ & ->).
      split; [|discriminate]. split; [discriminate|tauto].
    - assert (exists r, emb_with_norm o wrap_ops SO pf e w = Ok r) as [r ->]; [|split; [split; [discriminate|tauto]|discriminate]].
      destruct (lookup_cases o SO pf e cols rows made U w V)
        as [(i & r & E & _)|[(is & rs & v & n & _ & _ & _ & _ & _ & _ & ->)|(_ & _ & ->)]]; eauto.
      apply (words_bijection pf (em_vocab e) w i MV) in E.
      destruct (with_norm_known o SO pf e cols rows w i made LN E) as (r' & n & _ & _ & _ & ->). eauto.
  Qed.

  (** Batches, for every iteration order of the hash map. *)
  Section Batch.
    Variables (words : list str) (out0 : list (list F)).
    Hypothesis valid : Forall (fun w => utf8_valid w = true) words.
    Hypothesis len0 : lenN out0 = lenN words.
    Hypothesis wf0 : Forall (fun r => lenN r = cols) out0.

    Let agrees : forall w target, In w words -> lenN target = cols ->
      emb_embedding_into o wrap_ops SO pf e w target
      = let* r := emb_embedding o wrap_ops SO pf e w in
        Ok (match r with Some v => (v, true) | None => (target, false) end).
    Proof. intros w target HI L. apply emb_into_agrees; auto. rewrite Forall_forall in valid. auto. Qed.

    Definition looked w := match emb_embedding o wrap_ops SO pf e w with Ok r => r | _ => None end.

    Lemma looked_or w : In w words ->
      unusable_lookup (em_vocab e) w /\ emb_embedding o wrap_ops SO pf e w = Panic PAssert \/
      ~ unusable_lookup (em_vocab e) w /\ looks o SO pf e looked w.
    Proof.
      intros HI. rewrite Forall_forall in valid. specialize (valid w HI). destruct (lookup_total_iff w valid) as [B G].
      assert (unusable_lookup (em_vocab e) w \/ ~ unusable_lookup (em_vocab e) w) as D.
      { destruct (emb_outcome w valid) as [(D & _)|[(D & _)|[D _]]]; auto. }
      destruct D as [D|D]; [left; auto|]. right. split; [auto|]. destruct (G D) as [r E].
      unfold looks, looked. rewrite E. reflexivity.
    Qed.

    Lemma first_unusable (ps : list (str * list N)) : (forall w is, In (w, is) ps -> In w words) ->
      (forall w is, In (w, is) ps -> ~ unusable_lookup (em_vocab e) w) \/
      exists ps1 w is ps2, ps = ps1 ++ (w, is) :: ps2 /\ unusable_lookup (em_vocab e) w /\
      forall w' is', In (w', is') ps1 -> ~ unusable_lookup (em_vocab e) w'.
    Proof.
      induction ps as [|[w is] ps IH]; intros HP; [left; intros ? ? []|].
      destruct (looked_or w) as [[D _]|[D _]]; [eapply HP; left; reflexivity| |].
      - right. exists [], w, is, ps. split; [reflexivity|]. split; [auto|]. intros ? ? [].
      - destruct IH as [A|(ps1 & w1 & is1 & ps2 & -> & D1 & A)]; [intros; eapply HP; right; eauto| |].
        + left. intros w' is' [H|H]; [inv H; auto|eauto].
        + right. exists ((w, is) :: ps1), w1, is1, ps2. split; [reflexivity|]. split; [auto|].
          intros w' is' [H|H]; [inv H; auto|eauto].
    Qed.

    Lemma batch_into_panics order : any_order order ->
      (Exists (unusable_lookup (em_vocab e)) words ->
       emb_batch_into o wrap_ops SO pf order e words (mkA2 cols out0) = Panic PAssert) /\
      (Forall (fun w => ~ unusable_lookup (em_vocab e) w) words ->
       exists out found, emb_batch_into o wrap_ops SO pf order e words (mkA2 cols out0) = Ok (out, found) /\
       lenN out = lenN words /\ lenN found = lenN words /\
       forall i w, nthN words i = Some w ->
         (exists v, emb_embedding o wrap_ops SO pf e w = Ok (Some v) /\ nthN out i = Some v /\ nthN found i = Some true) \/
         (emb_embedding o wrap_ops SO pf e w = Ok None /\ nthN out i = nthN out0 i /\ nthN found i = Some false)).
    Proof.
      intros O. split.
      - intros X. apply Exists_exists in X as (w & HI & B).
        unfold emb_batch_into, a2_nrows. cbn [a2_rows a2_cols].
        rewrite len0, N.eqb_refl, (emb_dims_cols SO pf e cols rows made), N.eqb_refl. cbn [rassert rbind].
        set (ps := order (word_indices words)). pose proof (O (word_indices words)) as P. fold ps in P.
        assert (forall w is, In (w, is) ps -> In w words /\ is = positions w words) as HP.
        { intros w' is' H. apply word_indices_In. eapply Permutation_in; [apply Permutation_sym; exact P|exact H]. }
        destruct (first_unusable ps) as [A|(ps1 & w1 & is1 & ps2 & E & D1 & A)].
        + intros w' is' H. apply HP in H. tauto.
        + exfalso. apply (A w (positions w words)); [|auto]. eapply Permutation_in; [exact P|]. apply word_indices_In. auto.
        + rewrite E in *. eapply (batch_fold_panic o SO pf e cols words out0 agrees len0 wf0 looked).
          * eapply Permutation_NoDup; [apply Permutation_map; exact P|apply word_indices_NoDup].
          * exact HP.
          * intros w' is' H. destruct (looked_or w') as [[D _]|[_ D]].
            -- destruct (HP w' is') as [? _]; [apply in_or_app; auto|auto].
            -- destruct (A w' is' H D).
            -- exact D.
          * destruct (looked_or w1) as [[_ D]|[D _]]; [|exact D|tauto].
            destruct (HP w1 is1) as [? _]; [apply in_or_app; right; left; reflexivity|auto].
          * apply (inv_start o SO pf e cols words out0 agrees len0).
      - intros A. rewrite Forall_forall in A.
        assert (forall w, In w words -> looks o SO pf e looked w) as LK.
        { intros w HI. destruct (looked_or w HI) as [[D _]|[_ D]]; [destruct (A w HI D)|exact D]. }
        do 2 eexists. split; [apply (batch_into_exact o SO pf e cols rows made words out0 agrees len0 wf0 looked order O LK)|].
        split; [unfold lenN in *; rewrite zip_with_length; lia|]. split; [apply lenN_map|].
        intros i w H. assert (looks o SO pf e looked w) as LW by (apply LK; eapply nthN_In; eauto). unfold looks in LW. rewrite LW.
        rewrite zip_with_nthN, nthN_map, H. cbn [option_map]. destruct (nthN_lt out0 i) as [row R].
        { apply nthN_Some_lt in H. lia. }
        rewrite R. unfold resolve. destruct (looked w) as [v|]; [left; exists v|right]; auto.
    Qed.
  End Batch.
End Emb.

Section BatchZero.
  Context {Md S F : Type} (o : fops F) (SO : storage_ops F S) (pf : profile).

  Lemma batch_panics order (e : embeddings Md vocab_wrap S F) cols rows words : any_order order ->
    emb_made SO pf e cols rows -> bounds_utf8 (em_vocab e) -> Forall (fun w => utf8_valid w = true) words ->
    (isize_max < lenN words \/ isize_max < cols \/ isize_max < 4 * lenN words * cols ->
     emb_batch o wrap_ops SO pf order e words = Panic PCapacity) /\
    (lenN words <= isize_max -> cols <= isize_max -> 4 * lenN words * cols <= isize_max ->
     Exists (unusable_lookup (em_vocab e)) words -> emb_batch o wrap_ops SO pf order e words = Panic PAssert) /\
    (lenN words <= isize_max -> cols <= isize_max -> 4 * lenN words * cols <= isize_max ->
     Forall (fun w => ~ unusable_lookup (em_vocab e) w) words ->
     exists out found, emb_batch o wrap_ops SO pf order e words = Ok (out, found) /\
     lenN out = lenN words /\ lenN found = lenN words /\
     forall i w, nthN words i = Some w ->
       (exists v, emb_embedding o wrap_ops SO pf e w = Ok (Some v) /\ nthN out i = Some v /\ nthN found i = Some true) \/
       (emb_embedding o wrap_ops SO pf e w = Ok None /\ nthN out i = Some (repeat (fzero o) (N.to_nat cols)) /\
        nthN found i = Some false)).
  Proof.
    intros O M B V. unfold emb_batch. rewrite (emb_dims_cols SO pf e cols rows M).
    split.
    { intros Z. replace (zeros_fit _ _ _) with false; [reflexivity|]. symmetry. apply not_true_is_false.
      rewrite zeros_fit_spec. lia. }
    destruct (batch_into_panics o SO pf e cols rows M B words (map (fun _ => vzeros o cols) words) V) with (order := order)
      as [P1 P2].
    - apply lenN_map.
    - apply Forall_forall. intros r Hr. apply in_map_iff in Hr as (w & <- & _). unfold vzeros. rewrite lenN_repeat. lia.
    - auto.
    - split; intros Z1 Z2 Z3; rewrite (proj2 (zeros_fit_spec _ _)) by auto; cbn [rassert rbind]; [exact P1|].
      intros A. destruct (P2 A) as (out & found & E & L1 & L2 & H).
      exists out, found. split; [auto|]. split; [auto|]. split; [auto|]. intros i w Hw.
      destruct (H i w Hw) as [H1|(H1 & H2 & H3)]; [left; auto|right]. split; [auto|]. split; [|auto].
      rewrite H2, nthN_map, Hw. reflexivity.
  Qed.
End BatchZero.
