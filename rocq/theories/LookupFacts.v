(** * Facts about vocabulary lookups. *)
From Coq Require Import Lia ZifyBool ZifyNat ZifyN.
From Verif Require Import Base BaseFacts Utf8 Utf8Facts Subword Vocab FileSpec VocabFacts VocabSpec
  SubwordFacts IndexerFacts.
Local Open Scope N_scope.

Lemma drain_remaining fuel g l : ngrams_drain fuel g = Ok l -> remaining g l /\ (length l < fuel)%nat.
Proof.
  revert g l. induction fuel as [|fuel IH]; intros g l H; [discriminate|]. cbn [ngrams_drain] in H.
  apply rbind_Ok_inv in H as ([[x|] g'] & E & H).
  - apply rbind_Ok_inv in H as (l' & E' & H). inv H. apply IH in E' as [R L]. split; [econstructor; eauto|cbn; lia].
  - inv H. split; [econstructor; eauto|cbn; lia].
Qed.

Section Lookup.
  Context {I : Type} (ops : indexer_ops I) (ix : I).
  Hypothesis total : forall g, exists l, ix_index ops ix g = Ok l.

  Lemma answers_exist qs : exists is, answers ops ix qs is.
  Proof.
    induction qs as [|q qs [is IH]]; [exists []; constructor|].
    destruct (total q) as [l H]. exists (l :: is). constructor; auto.
  Qed.

  Lemma ngi_drain_ngrams g l is fuel : remaining g l -> answers ops ix l is -> (length l < fuel)%nat ->
    ngi_drain ops fuel (mkNgi None g ix) = Ok (combine (map sw_str l) is).
  Proof.
    intros R. revert is fuel. induction R as [g g' E|g x g' l E R IH]; intros is fuel A F;
      (destruct fuel as [|fuel]; [cbn in F; lia|]); cbn [ngi_drain ngi_next ni_string ni_ngrams ni_ix];
      rewrite E; cbn [rbind]; inv A; [reflexivity|].
    rewrite H1. cbn [rbind]. rewrite (IH l'); [reflexivity|auto|cbn in F; lia].
  Qed.

  Lemma indices_with_ngrams s mn mx : utf8_valid s = true -> range_ok mn mx ->
    exists qs is, queried ops s mn mx qs /\ answers ops ix qs is /\
    subword_indices_with_ngrams ops s mn mx ix = Ok (combine (map sw_str qs) is).
  Proof.
    intros V R. destruct (ngrams_exact s mn mx V R) as (items & C & NG).
    unfold ngrams_collect in C. apply rbind_Ok_inv in C as (g & E & C). apply drain_remaining in C as [RM L].
    unfold subword_indices_with_ngrams, ngi_new. rewrite E. cbn [rbind].
    destruct (ix_scope ops) eqn:S.
    - destruct (answers_exist items) as [is A]. exists items, is. split; [|split; [auto|]].
      + exists items. rewrite S. auto.
      + apply ngi_drain_ngrams; auto.
    - destruct (answers_exist items) as [is A]. destruct (total (swcl_new s)) as [l0 H0].
      exists (swcl_new s :: items), (l0 :: is). split; [|split; [constructor; auto|]].
      + exists items. rewrite S. auto.
      + cbn [ngi_drain ngi_next ni_string ni_ngrams ni_ix]. rewrite H0. cbn [rbind].
        rewrite (ngi_drain_ngrams g items is); auto.
  Qed.

  Lemma answers_length qs is : answers ops ix qs is -> length qs = length is.
  Proof. intros A. induction A; cbn; auto. Qed.

  Lemma combine_snd {A B} (a : list A) (b : list B) : length a = length b -> map snd (combine a b) = b.
  Proof. revert b. induction a as [|x a IH]; intros [|y b] H; cbn in *; try discriminate; auto. f_equal. auto. Qed.

  Lemma str_indices s mn mx : utf8_valid s = true -> range_ok mn mx ->
    exists qs is, queried ops s mn mx qs /\ answers ops ix qs is /\
    subword_indices_with_ngrams ops s mn mx ix = Ok (combine (map sw_str qs) is) /\
    str_subword_indices ops s mn mx ix = Ok (concat is).
  Proof.
    intros V R. destruct (indices_with_ngrams s mn mx V R) as (qs & is & Q & A & E).
    exists qs, is. split; [auto|]. split; [auto|]. split; [auto|].
    unfold str_subword_indices. rewrite E. cbn [rbind]. f_equal.
    rewrite flat_map_concat_map. f_equal. apply combine_snd. rewrite map_length. apply answers_length. auto.
  Qed.
End Lookup.

Lemma sub_new_Ok {I} (ops : indexer_ops I) pf ws mn mx ix bow eow v :
  sub_new_with_boundaries ops pf ws mn mx ix bow eow = Ok v ->
  NoDup ws /\ v = mkSub bow eow ix (create_indices ws) ws mn mx /\
  exists b, ix_bound ops pf ix = Ok b /\ lenN ws + b < two64.
Proof.
  intros H. unfold sub_new_with_boundaries in H. apply rbind_Ok_inv in H as (u & E1 & H).
  apply rbind_Ok_inv in H as (b & E2 & H). apply rbind_Ok_inv in H as (u' & E3 & H). inv H.
  apply rassert_Ok in E1, E3. split; [apply ci_len_NoDup; lia|]. split; [reflexivity|].
  exists b. split; [auto|]. lia.
Qed.

Lemma sub_new_iff {I} (ops : indexer_ops I) pf ws mn mx ix bow eow b :
  ix_bound ops pf ix = Ok b -> lenN ws + b < two64 ->
  ((exists v, sub_new_with_boundaries ops pf ws mn mx ix bow eow = Ok v) <-> NoDup ws) /\
  (~ NoDup ws -> sub_new_with_boundaries ops pf ws mn mx ix bow eow = Panic PDuplicateWords).
Proof.
  intros B L.
  assert (NoDup ws -> exists v, sub_new_with_boundaries ops pf ws mn mx ix bow eow = Ok v) as F.
  { intros ND. apply ci_len_NoDup in ND. unfold sub_new_with_boundaries. rewrite <- ND, N.eqb_refl, B.
    cbn [rassert rbind]. replace (lenN ws + b <? two64) with true by lia. cbn [rassert rbind]. eauto. }
  split; [split; [|exact F]|].
  - intros (v & H). apply sub_new_Ok in H. tauto.
  - intros ND. unfold sub_new_with_boundaries.
    destruct (N.eqb_spec (lenN ws) (hm_len (create_indices ws))) as [E|]; [|reflexivity].
    exfalso. apply ND, ci_len_NoDup. auto.
Qed.

Lemma simple_new_iff ws :
  ((exists v, simple_new ws = Ok v) <-> NoDup ws) /\ (~ NoDup ws -> simple_new ws = Panic PDuplicateWords).
Proof.
  split; [split|].
  - intros (v & H). apply simple_new_Ok in H. tauto.
  - intros H. rewrite simple_new_NoDup by auto. eauto.
  - apply simple_new_dup.
Qed.

(** Words and indices of every vocabulary. *)
Lemma words_bijection pf v w i : vocab_made pf v ->
  (v_idx wrap_ops pf v w = Ok (Some (Word i)) <-> nthN (v_words wrap_ops v) i = Some w) /\
  v_words_len wrap_ops v = lenN (v_words wrap_ops v) /\ NoDup (v_words wrap_ops v).
Proof.
  assert (forall I (ops : indexer_ops I) ws mn mx ix bow eow sv,
    sub_new_with_boundaries ops pf ws mn mx ix bow eow = Ok sv ->
    (sub_idx ops pf sv w = Ok (Some (Word i)) <-> nthN (sv_words sv) i = Some w) /\
    sub_words_len sv = lenN (sv_words sv) /\ NoDup (sv_words sv)) as S.
  { intros I ops ws mn mx ix bow eow sv H. apply sub_new_Ok in H as (ND & -> & _).
    unfold sub_idx, sub_words_len. cbn [sv_indices sv_words].
    split; [|split; [symmetry; apply ci_len_NoDup; auto|auto]].
    rewrite <- (ci_get_iff ws w i ND). destruct (hm_get (create_indices ws) w) as [j|] eqn:E.
    - split; intros H; inv H; reflexivity.
    - split; [|discriminate]. intros H. apply rbind_Ok_inv in H as (x & _ & H). destruct x; inv H. }
  intros M. destruct M as [ws v H|ws mn mx ix bow eow v M H|ws mn mx ix bow eow v M H
    |ws mn mx ix bow eow v M H|ws mn mx ix bow eow v M H]; [|eapply S; eassumption..].
  apply simple_new_Ok in H as [ND ->]. cbn [v_idx wrap_ops simple_ops v_words v_words_len sm_indices sm_words].
  split; [|split; [symmetry; apply ci_len_NoDup; auto|auto]].
  rewrite <- (ci_get_iff ws w i ND). destruct (hm_get (create_indices ws) w); cbn [option_map];
    split; intros H; inv H; reflexivity.
Qed.

Lemma simple_unknown pf ws v w : simple_new ws = Ok v -> ~ In w ws -> v_idx simple_ops pf v w = Ok None.
Proof.
  intros H NI. apply simple_new_Ok in H as [ND ->]. cbn [v_idx simple_ops sm_indices].
  apply ci_get_None in NI. rewrite NI. reflexivity.
Qed.

Lemma rmap_add64 pf n b l : Forall (fun i => i < b) l -> n + b < two64 ->
  rmap (fun i => add64 pf i n) l = Ok (map (fun i => n + i) l).
Proof.
  intros F L. apply rmap_pure. intros i Hi. rewrite Forall_forall in F. apply F in Hi.
  unfold add64. replace (i + n <? two64) with true by lia. f_equal. lia.
Qed.

Lemma answers_bound I (ops : indexer_ops I) ix b qs is : ix_total ops ix b -> answers ops ix qs is ->
  Forall (Forall (fun i => i < b)) is.
Proof.
  intros [_ T] A. induction A as [|q l qs is H A IH]; constructor; auto.
  destruct (T q) as (l' & E & F). congruence.
Qed.

Lemma Forall_concat {A} (P : A -> Prop) ll : Forall (Forall P) ll -> Forall P (concat ll).
Proof. induction 1; cbn; [constructor|]. apply Forall_app. auto. Qed.

Section SubLookup.
  Context {I : Type} (ops : indexer_ops I) (pf : profile).
  Variables (ws : list str) (mn mx : N) (ix : I) (bow eow : str) (v : subword_vocab I).
  Hypothesis made : ix_made I ops ix.
  Hypothesis built : sub_new_with_boundaries ops pf ws mn mx ix bow eow = Ok v.
  Hypothesis Vbow : utf8_valid bow = true.
  Hypothesis Veow : utf8_valid eow = true.

  (** What the indexer answers for [w], and the two ways in which the
      vocabulary returns it. *)
  Lemma sub_indices_exact w : range_ok mn mx -> utf8_valid w = true ->
    exists qs is, queried ops (bow ++ w ++ eow) mn mx qs /\ answers ops ix qs is /\
    Forall (fun i => exists b, ix_bound ops pf ix = Ok b /\ i < b) (concat is) /\
    sub_subword_indices ops pf v w
      = Ok (match concat is with [] => None | _ => Some (map (fun i => lenN ws + i) (concat is)) end) /\
    sub_ngram_indices ops pf v w
      = Ok (match qs with [] => None
            | _ => Some (combine (map sw_str qs) (map (map (fun i => lenN ws + i)) is)) end).
  Proof.
    intros R V. pose proof built as B. apply sub_new_Ok in B as (ND & -> & b & B & L).
    destruct (ix_made_total _ _ _ made) as [b' T]. pose proof (proj1 T pf) as B'. rewrite B in B'. inv B'.
    assert (utf8_valid (bow ++ w ++ eow) = true) as VS by (repeat apply utf8_valid_app; auto).
    assert (forall g, exists l, ix_index ops ix g = Ok l) as T'.
    { intros g. destruct (proj2 T g) as (l & E & _). eauto. }
    destruct (str_indices ops ix T' _ mn mx VS R) as (qs & is & Q & A & E1 & E2).
    pose proof (answers_bound _ _ _ _ _ _ T A) as F.
    exists qs, is. split; [auto|]. split; [auto|]. split; [|split].
    - apply Forall_concat in F. eapply Forall_impl; [|exact F]. eauto.
    - unfold sub_subword_indices, bracket, sub_words_len. cbn [sv_bow sv_eow sv_min sv_max sv_ix sv_indices].
      rewrite E2. cbn [rbind]. replace (hm_len (create_indices ws)) with (lenN ws) by (apply ci_len_NoDup; auto).
      rewrite (rmap_add64 pf _ b') by (auto using Forall_concat). cbn [rbind].
      destruct (concat is) eqn:C; reflexivity.
    - unfold sub_ngram_indices, bracket, sub_words_len. cbn [sv_bow sv_eow sv_min sv_max sv_ix sv_indices].
      rewrite E1. cbn [rbind]. replace (hm_len (create_indices ws)) with (lenN ws) by (apply ci_len_NoDup; auto).
      match goal with |- context [rmap ?f _] => set (fm := f) end.
      assert (rmap fm (combine (map sw_str qs) is)
        = Ok (combine (map sw_str qs) (map (map (fun i => lenN ws + i)) is))) as RM.
      { clear E1 E2 Q. revert F. induction A as [|q l qs is H A IH]; intros F; [reflexivity|]. inv F.
        cbn [map combine rmap]. unfold fm at 1. rewrite (rmap_add64 pf _ b') by auto. cbn [rbind].
        rewrite IH by auto. reflexivity. }
      rewrite RM. cbn [rbind]. destruct qs as [|q qs]; [inv A; reflexivity|]. inv A. reflexivity.
  Qed.

  Lemma sub_lookup_unknown w : range_ok mn mx -> utf8_valid w = true -> ~ In w ws ->
    exists qs is, queried ops (bow ++ w ++ eow) mn mx qs /\ answers ops ix qs is /\
    v_idx (sub_ops ops) pf v w
      = Ok (match concat is with [] => None | _ => Some (Subwords (map (fun i => lenN ws + i) (concat is))) end).
  Proof.
    intros R V NI. destruct (sub_indices_exact w R V) as (qs & is & Q & A & _ & E & _).
    exists qs, is. split; [auto|]. split; [auto|]. cbn [v_idx sub_ops]. unfold sub_idx.
    pose proof built as B. apply sub_new_Ok in B as (ND & Ev & _). rewrite Ev at 1. cbn [sv_indices].
    apply ci_get_None in NI. rewrite NI, E. cbn [rbind]. destruct (concat is); reflexivity.
  Qed.

  Lemma sub_lookup_range w : ~ range_ok mn mx -> ~ In w ws -> v_idx (sub_ops ops) pf v w = Panic PAssert.
  Proof.
    intros R NI. cbn [v_idx sub_ops]. unfold sub_idx.
    pose proof built as B. apply sub_new_Ok in B as (ND & Ev & _). subst v. cbn [sv_indices].
    apply ci_get_None in NI. rewrite NI. unfold sub_subword_indices, str_subword_indices, subword_indices_with_ngrams, ngi_new.
    cbn [sv_min sv_max]. rewrite ngrams_new_panics by auto. reflexivity.
  Qed.

  Lemma sub_vocab_len_exact : exists b, ix_bound ops pf ix = Ok b /\ v_vocab_len (sub_ops ops) pf v = Ok (lenN ws + b).
  Proof.
    pose proof built as B. apply sub_new_Ok in B as (ND & -> & b & B & L). exists b. split; [auto|].
    cbn [v_vocab_len sub_ops]. unfold sub_vocab_len, sub_words_len. cbn [sv_ix sv_indices]. rewrite B. cbn [rbind].
    replace (hm_len (create_indices ws)) with (lenN ws) by (apply ci_len_NoDup; auto).
    unfold add64. replace (lenN ws + b <? two64) with true by lia. reflexivity.
  Qed.

  Lemma sub_lookup_bounds w r : range_ok mn mx -> utf8_valid w = true ->
    v_idx (sub_ops ops) pf v w = Ok r ->
    exists n, v_vocab_len (sub_ops ops) pf v = Ok n /\
    match r with
    | None => True
    | Some (Word i) => i < lenN ws
    | Some (Subwords l) => l <> [] /\ Forall (fun i => lenN ws <= i < n) l
    end.
  Proof.
    intros R V H. destruct sub_vocab_len_exact as (b & B & VL). exists (lenN ws + b). split; [auto|].
    destruct (in_dec str_eq_dec w ws) as [HI|NI].
    - cbn [v_idx sub_ops] in H. unfold sub_idx in H. pose proof built as B'. apply sub_new_Ok in B' as (ND & Ev & _).
      rewrite Ev in H at 1. cbn [sv_indices] in H. destruct (ci_get_In ws w HI) as [i E]. rewrite E in H. inv H.
      apply ci_get_Some, nthN_Some_lt in E. auto.
    - destruct (sub_indices_exact w R V) as (qs & is & Q & A & F & E & _).
      cbn [v_idx sub_ops] in H. unfold sub_idx in H. pose proof built as B'. apply sub_new_Ok in B' as (ND & Ev & _).
      rewrite Ev in H at 1. cbn [sv_indices] in H. apply ci_get_None in NI. rewrite NI, E in H. cbn [rbind] in H.
      destruct (concat is) as [|i0 l0] eqn:C; inv H; [exact Logic.I|]. cbn [option_map].
      split; [discriminate|]. apply Forall_forall. intros i Hi.
      change (In i (map (fun i => lenN ws + i) (i0 :: l0))) in Hi. apply in_map_iff in Hi as (j & <- & Hj).
      rewrite Forall_forall in F. apply F in Hj as (b' & B' & L'). rewrite B in B'. inv B'. lia.
  Qed.
End SubLookup.

(** Every lookup of every usable vocabulary succeeds, within bounds. *)
Lemma lookup_in_bounds pf v w : vocab_made pf v -> vocab_usable v -> utf8_valid w = true ->
  exists r n, v_idx wrap_ops pf v w = Ok r /\ v_vocab_len wrap_ops pf v = Ok n /\
  v_words_len wrap_ops v <= n /\
  match r with
  | None => True
  | Some (Word i) => i < v_words_len wrap_ops v
  | Some (Subwords l) => l <> [] /\ Forall (fun i => v_words_len wrap_ops v <= i < n) l
  end.
Proof.
  assert (forall I (ops : indexer_ops I) ws mn mx ix bow eow sv, ix_made I ops ix ->
    sub_new_with_boundaries ops pf ws mn mx ix bow eow = Ok sv ->
    range_ok mn mx /\ utf8_valid bow = true /\ utf8_valid eow = true -> utf8_valid w = true ->
    exists r n, v_idx (sub_ops ops) pf sv w = Ok r /\ v_vocab_len (sub_ops ops) pf sv = Ok n /\
    v_words_len (sub_ops ops) sv <= n /\
    match r with
    | None => True
    | Some (Word i) => i < v_words_len (sub_ops ops) sv
    | Some (Subwords l) => l <> [] /\ Forall (fun i => v_words_len (sub_ops ops) sv <= i < n) l
    end) as S.
  { intros I ops ws mn mx ix bow eow sv M B (R & V1 & V2) V.
    assert (v_words_len (sub_ops ops) sv = lenN ws) as ->.
    { pose proof B as B'. apply sub_new_Ok in B' as (ND & -> & _). cbn [v_words_len sub_ops]. unfold sub_words_len.
      cbn [sv_indices]. symmetry. apply ci_len_NoDup. auto. }
    assert (exists r, v_idx (sub_ops ops) pf sv w = Ok r) as [r E].
    { destruct (in_dec str_eq_dec w ws) as [HI|NI].
      - cbn [v_idx sub_ops]. unfold sub_idx. pose proof B as B'. apply sub_new_Ok in B' as (ND & Ev & _).
        rewrite Ev. cbn [sv_indices]. destruct (ci_get_In ws w HI) as [i E]. rewrite E. eauto.
      - destruct (sub_lookup_unknown ops pf ws mn mx ix bow eow sv M B V1 V2 w R V NI) as (qs & is & _ & _ & E). eauto. }
    destruct (sub_vocab_len_exact ops pf ws mn mx ix bow eow sv B) as (b & _ & VL).
    destruct (sub_lookup_bounds ops pf ws mn mx ix bow eow sv M B V1 V2 w r R V E) as (n & VL' & H).
    rewrite VL in VL'. inv VL'. exists r, (lenN ws + b). split; [auto|]. split; [auto|]. split; [lia|auto]. }
  intros M U V. destruct M as [ws v H|ws mn mx ix bow eow v M H|ws mn mx ix bow eow v M H
    |ws mn mx ix bow eow v M H|ws mn mx ix bow eow v M H].
  - apply simple_new_Ok in H as [ND ->]. cbn [v_idx wrap_ops simple_ops v_words_len v_vocab_len sm_indices].
    do 2 eexists. split; [reflexivity|]. split; [reflexivity|]. split; [lia|].
    destruct (hm_get (create_indices ws) w) as [i|] eqn:E; cbn [option_map]; [|exact Logic.I].
    apply ci_get_Some, nthN_Some_lt in E. apply ci_len_NoDup in ND. lia.
  - eapply S; [eassumption..| |auto]. apply U. apply sub_new_Ok in H as (_ & -> & _). reflexivity.
  - eapply S; [eassumption..| |auto]. apply U. apply sub_new_Ok in H as (_ & -> & _). reflexivity.
  - eapply S; [eassumption..| |auto]. apply U. apply sub_new_Ok in H as (_ & -> & _). reflexivity.
  - eapply S; [eassumption..| |auto]. apply U. apply sub_new_Ok in H as (_ & -> & _). reflexivity.
Qed.
