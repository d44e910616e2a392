(** * Exactly when lookups panic. *)
From Coq Require Import Lia ZifyBool ZifyNat ZifyN.
From Verif Require Import Base BaseFacts Utf8 Utf8Facts Subword Vocab FileSpec VocabFacts VocabSpec
  SubwordFacts IndexerFacts LookupFacts LookupExactSpec.
Local Open Scope N_scope.

(** In release builds additions never panic. *)
Lemma rmap_add64_release n l : exists l', rmap (fun i => add64 Release i n) l = Ok l'.
Proof.
  induction l as [|i l [l' IH]]; [exists []; reflexivity|]. cbn [rmap]. rewrite IH. unfold add64.
  destruct (i + n <? two64); cbn [rbind]; eauto.
Qed.

Lemma queried_some s mn mx items : range_ok mn mx -> ngrams_of s mn mx items ->
  items <> [] <-> exists g, ngram_in s mn mx g.
Proof.
  intros R (cs & ps & V & -> & [ND P] & ->). split.
  - intros NE. destruct ps as [|[i n] ps]; [destruct (NE eq_refl)|].
    exists (utf8_encode (substring i n cs)), cs, i, n.
    destruct (proj1 (P i n) (or_introl eq_refl)) as [A B]. auto.
  - intros (g & cs' & i & n & V' & E & A & B & _). apply utf8_encode_inj in E; auto. subst cs'.
    assert (In (i, n) ps) as HI by (apply P; auto). destruct ps; [destruct HI|discriminate].
Qed.

Section Sub.
  Context {I : Type} (ops : indexer_ops I) (pf : profile).
  Variables (ws : list str) (mn mx : N) (ix : I) (bow eow : str) (v : subword_vocab I).
  Hypothesis built : sub_new_with_boundaries ops pf ws mn mx ix bow eow = Ok v.
  Hypothesis Vbow : utf8_valid bow = true.
  Hypothesis Veow : utf8_valid eow = true.

  Lemma sub_range_panics w : ~ range_ok mn mx ->
    sub_subword_indices ops pf v w = Panic PAssert /\ sub_ngram_indices ops pf v w = Panic PAssert.
  Proof.
    intros R. pose proof built as B. apply sub_new_Ok in B as (ND & -> & _).
    unfold sub_subword_indices, sub_ngram_indices, str_subword_indices, subword_indices_with_ngrams, ngi_new.
    cbn [sv_min sv_max]. rewrite ngrams_new_panics by auto. auto.
  Qed.

  (** An indexer that answers everything: lookups answer in release builds. *)
  Lemma sub_total_release w : pf = Release -> (forall g, exists l, ix_index ops ix g = Ok l) ->
    range_ok mn mx -> utf8_valid w = true ->
    (exists r, sub_subword_indices ops pf v w = Ok r) /\ (exists r, sub_ngram_indices ops pf v w = Ok r).
  Proof.
    intros -> T R V. pose proof built as B. apply sub_new_Ok in B as (ND & -> & _).
    assert (utf8_valid (bow ++ w ++ eow) = true) as VS by (repeat apply utf8_valid_app; auto).
    destruct (str_indices ops ix T _ mn mx VS R) as (qs & is & Q & A & E1 & E2). split.
    - unfold sub_subword_indices, bracket. cbn [sv_bow sv_eow sv_min sv_max sv_ix]. rewrite E2. cbn [rbind].
      match goal with |- context [add64 Release _ ?n] => destruct (rmap_add64_release n (concat is)) as [l' E] end.
      rewrite E. cbn [rbind]. destruct l'; eauto.
    - unfold sub_ngram_indices, bracket. cbn [sv_bow sv_eow sv_min sv_max sv_ix]. rewrite E1. cbn [rbind].
      match goal with |- context [rmap ?f _] => set (fm := f) end.
      assert (forall l, exists l', rmap fm l = Ok l') as RM.
      { induction l as [|[g l] ll [l' IH]]; [exists []; reflexivity|]. cbn [rmap]. rewrite IH. unfold fm.
        match goal with |- context [add64 Release _ ?n] => destruct (rmap_add64_release n l) as [l1 E] end.
        rewrite E. cbn [rbind]. eauto. }
      destruct (RM (combine (map sw_str qs) is)) as [l' ->]. cbn [rbind]. destruct l'; eauto.
  Qed.
End Sub.

Lemma ft_zero_indices s mn mx : utf8_valid s = true -> range_ok mn mx ->
  exists items, ngrams_of s mn mx items /\
  subword_indices_with_ngrams ft_ops s mn mx (mkFtIx 0) = match items with [] => Ok [] | _ => Panic PDivByZero end.
Proof.
  intros V R. destruct (ngrams_exact s mn mx V R) as (items & C & NG). exists items. split; [auto|].
  unfold ngrams_collect in C. apply rbind_Ok_inv in C as (g & E & C). apply drain_remaining in C as [RM L].
  unfold subword_indices_with_ngrams, ngi_new. rewrite E. cbn [rbind ix_scope ft_ops].
  destruct RM as [g g' E'|g x g' l E' R']; cbn [ngi_drain ngi_next ni_string ni_ngrams ni_ix]; rewrite E'; reflexivity.
Qed.

(** Indexers that answer, as far as lookups are concerned. *)
Definition ix_answers {I} (ops : indexer_ops I) (pf : profile) (ix : I) : Prop :=
  ix_made I ops ix \/ (pf = Release /\ forall g, exists l, ix_index ops ix g = Ok l).

Lemma hash_answers pf exp ix b : hash_indexer_new exp = Ok ix -> ix_bound hash_ops pf ix = Ok b ->
  ix_answers hash_ops pf ix.
Proof.
  intros H B. destruct (N.eq_dec exp 64) as [->|NE]; [|left; econstructor; eauto]. right.
  unfold hash_indexer_new in H. inv H. cbn [ix_index hash_ops] in *. unfold hash_index.
  split; [|eauto]. destruct pf; [|reflexivity]. discriminate.
Qed.

Lemma sub_answers I (ops : indexer_ops I) pf ws mn mx ix bow eow v w : ix_answers ops pf ix ->
  sub_new_with_boundaries ops pf ws mn mx ix bow eow = Ok v ->
  utf8_valid bow = true -> utf8_valid eow = true -> range_ok mn mx -> utf8_valid w = true ->
  (exists r, sub_subword_indices ops pf v w = Ok r) /\ (exists r, sub_ngram_indices ops pf v w = Ok r).
Proof.
  intros [M|[-> T]] B V1 V2 R V.
  - destruct (sub_indices_exact ops pf ws mn mx ix bow eow v M B V1 V2 w R V) as (qs & is & _ & _ & _ & E1 & E2). eauto.
  - eapply sub_total_release; eauto.
Qed.

(** One vocabulary: both methods panic for the same reasons. *)
Section One.
  Context {I : Type} (ops : indexer_ops I) (pf : profile).
  Variables (ws : list str) (mn mx : N) (ix : I) (bow eow : str) (v : subword_vocab I) (w : str).
  Variable why : panic -> Prop.
  Hypothesis built : sub_new_with_boundaries ops pf ws mn mx ix bow eow = Ok v.

  Definition outcome {A} (r : res A) : Prop :=
    (forall p, r = Panic p <-> why p) /\ (forall e, r <> Err e).

  Lemma outcome_Ok A (a : A) : (forall p, ~ why p) -> outcome (Ok a).
  Proof. intros N. split; [|discriminate]. intros p. split; [discriminate|]. intros W. destruct (N p W). Qed.

  Lemma outcome_Panic A q : (forall p, why p <-> p = q) -> outcome (@Panic A q).
  Proof. intros N. split; [|discriminate]. intros p. rewrite N. split; [intros H; inv H; auto|intros ->; auto]. Qed.

  Lemma sub_idx_outcome : outcome (sub_subword_indices ops pf v w) ->
    (forall p, v_idx (sub_ops ops) pf v w = Panic p <-> ~ In w (v_words (sub_ops ops) v) /\ why p) /\
    (forall e, v_idx (sub_ops ops) pf v w <> Err e).
  Proof.
    intros [O1 O2]. pose proof built as B. apply sub_new_Ok in B as (ND & Ev & _).
    assert (v_words (sub_ops ops) v = ws) as -> by (rewrite Ev; reflexivity).
    cbn [v_idx sub_ops]. unfold sub_idx.
    assert (sv_indices v = create_indices ws) as -> by (rewrite Ev; reflexivity).
    destruct (in_dec str_eq_dec w ws) as [HI|NI].
    - destruct (ci_get_In ws w HI) as [i E]. rewrite E. split; [|discriminate].
      intros p. split; [discriminate|]. intros [NI _]. destruct (NI HI).
    - pose proof NI as NI'. apply ci_get_None in NI'. rewrite NI'.
      destruct (sub_subword_indices ops pf v w) as [r|e|q]; cbn [rbind].
      + split; [|discriminate]. intros p. split; [discriminate|]. intros [_ W]. apply O1 in W. discriminate.
      + destruct (O2 e eq_refl).
      + split; [|discriminate]. intros p. rewrite <- O1. split; [intros H; inv H; auto|intros [_ H]; inv H; auto].
  Qed.
End One.

Lemma range_ok_dec mn mx : range_ok mn mx \/ ~ range_ok mn mx.
Proof. unfold range_ok. lia. Qed.

Lemma lookup_panics pf v w : vocab_accepted pf v -> bounds_utf8 v -> utf8_valid w = true ->
  (forall p, v_idx wrap_ops pf v w = Panic p <-> ~ In w (v_words wrap_ops v) /\ subwords_panic v w p) /\
  (forall e, v_idx wrap_ops pf v w <> Err e) /\
  (forall r, subword_indices_of pf v w = Some r ->
     (forall p, r = Panic p <-> subwords_panic v w p) /\ (forall e, r <> Err e)) /\
  (forall r, ngram_indices_of pf v w = Some r ->
     (forall p, r = Panic p <-> subwords_panic v w p) /\ (forall e, r <> Err e)).
Proof.
  intros A U V.
  assert (forall I (ops : indexer_ops I) ws mn mx ix bow eow sv,
    sub_new_with_boundaries ops pf ws mn mx ix bow eow = Ok sv ->
    vocab_range v = Some (sv_min sv, sv_max sv, sv_bow sv, sv_eow sv) ->
    (ix_answers ops pf ix /\ ~ no_buckets v) \/
    (no_buckets v /\ forall s, utf8_valid s = true -> range_ok mn mx -> exists items, ngrams_of s mn mx items /\
       subword_indices_with_ngrams ops s mn mx ix = match items with [] => Ok [] | _ => Panic PDivByZero end) ->
    outcome (subwords_panic v w) (sub_subword_indices ops pf sv w) /\
    outcome (subwords_panic v w) (sub_ngram_indices ops pf sv w)) as S.
  { intros I ops ws mn mx ix bow eow sv B VR K.
    destruct (U _ _ _ _ VR) as [V1 V2]. pose proof B as B'. apply sub_new_Ok in B' as (ND & Ev & _).
    assert (vocab_range v = Some (mn, mx, bow, eow)) as VR' by (rewrite VR, Ev; reflexivity). clear VR.
    rewrite Ev in V1, V2. cbn [sv_bow sv_eow] in V1, V2.
    destruct (range_ok_dec mn mx) as [R|R].
    - destruct K as [[K NB]|[NB K]].
      + destruct (sub_answers I ops pf ws mn mx ix bow eow sv w K B V1 V2 R V) as [[r1 ->] [r2 ->]].
        assert (forall p, ~ subwords_panic v w p) as NP.
        { intros p (mn' & mx' & bow' & eow' & E' & D). rewrite VR' in E'. inv E'. destruct D as [[_ D]|(_ & _ & D & _)]; auto. }
        split; apply outcome_Ok; auto.
      + assert (utf8_valid (bow ++ w ++ eow) = true) as VS by (repeat apply utf8_valid_app; auto).
        destruct (K _ VS R) as (items & NG & E).
        pose proof (queried_some _ _ _ _ R NG) as QS.
        unfold sub_subword_indices, sub_ngram_indices, str_subword_indices, bracket. rewrite Ev.
        cbn [sv_bow sv_eow sv_min sv_max sv_ix]. rewrite E. destruct items as [|x items]; cbn [rbind flat_map rmap].
        * assert (forall p, ~ subwords_panic v w p) as NP.
          { intros p (mn' & mx' & bow' & eow' & E' & D). rewrite VR' in E'. inv E'.
            destruct D as [[_ D]|(_ & _ & _ & D)]; [auto|]. apply QS in D. congruence. }
          split; apply outcome_Ok; auto.
        * assert (forall p, subwords_panic v w p <-> p = PDivByZero) as P.
          { intros p. split.
            - intros (mn' & mx' & bow' & eow' & E' & D). rewrite VR' in E'. inv E'.
              destruct D as [[_ D]|(D & _)]; [destruct (D R)|auto].
            - intros ->. exists mn, mx, bow, eow. split; [auto|]. right. repeat split; try apply R; auto.
              apply QS. discriminate. }
          split; apply outcome_Panic; auto.
    - destruct (sub_range_panics ops pf ws mn mx ix bow eow sv B w R) as [-> ->].
      assert (forall p, subwords_panic v w p <-> p = PAssert) as P.
      { intros p. split.
        - intros (mn' & mx' & bow' & eow' & E' & D). rewrite VR' in E'. inv E'.
          destruct D as [[D _]|(_ & D & _)]; [auto|destruct (R D)].
        - intros ->. exists mn, mx, bow, eow. auto. }
      split; apply outcome_Panic; auto. }
  assert (forall I (ops : indexer_ops I) ws mn mx ix bow eow sv,
    sub_new_with_boundaries ops pf ws mn mx ix bow eow = Ok sv ->
    outcome (subwords_panic v w) (sub_subword_indices ops pf sv w) /\
    outcome (subwords_panic v w) (sub_ngram_indices ops pf sv w) ->
    (forall p, v_idx (sub_ops ops) pf sv w = Panic p <-> ~ In w (v_words (sub_ops ops) sv) /\ subwords_panic v w p) /\
    (forall e, v_idx (sub_ops ops) pf sv w <> Err e) /\
    (forall r, Some (sub_subword_indices ops pf sv w) = Some r ->
       (forall p, r = Panic p <-> subwords_panic v w p) /\ (forall e, r <> Err e)) /\
    (forall r, Some (sub_ngram_indices ops pf sv w) = Some r ->
       (forall p, r = Panic p <-> subwords_panic v w p) /\ (forall e, r <> Err e))) as F.
  { intros I ops ws mn mx ix bow eow sv B [O1 O2].
    destruct (sub_idx_outcome ops pf ws mn mx ix bow eow sv w _ B O1) as [A1 A2].
    split; [auto|]. split; [auto|]. split; intros r E; inv E; [apply O1|apply O2]. }
  destruct A as [ws sv B|exp ws mn mx ix bow eow sv H B|n ws mn mx ix bow eow sv H B|ws mn mx ix bow eow sv H B
    |nb nh seed ws mn mx ix bow eow sv H B].
  - cbn [v_idx wrap_ops simple_ops subword_indices_of ngram_indices_of]. split; [|split; [discriminate|split; discriminate]].
    intros p. split; [discriminate|]. intros [_ (mn & mx & bow & eow & E & _)]. discriminate.
  - eapply F; [exact B|]. eapply S; [exact B|reflexivity|]. left. split; [|intros (? & D & _); discriminate].
    apply sub_new_Ok in B as (_ & _ & b & B & _). eapply hash_answers; eauto.
  - eapply F; [exact B|]. eapply S; [exact B|reflexivity|]. destruct (N.eq_dec n 0) as [->|NE].
    + right. split.
      * exists sv. split; [auto|]. apply sub_new_Ok in B as (_ & -> & _). exact H.
      * unfold ft_indexer_new in H. inv H. intros s. apply ft_zero_indices.
    + left. split; [left; econstructor; eauto|]. intros (sv' & D & D'). inv D.
      apply sub_new_Ok in B as (_ & -> & _). cbn [sv_ix] in D'.
      destruct (ft_index_bound n ix pf (swcl_new []) H NE) as (i & E & _). rewrite (ft_new_zero _ _ D') in E. discriminate.
  - eapply F; [exact B|]. eapply S; [exact B|reflexivity|]. left. split; [|intros (? & D & _); discriminate].
    left. constructor; auto.
  - eapply F; [exact B|]. eapply S; [exact B|reflexivity|]. left. split; [|intros (? & D & _); discriminate].
    left. econstructor; eauto.
Qed.

(** ** Bucket counts: what every argument of the constructors gives. *)
Lemma hash_counts exp :
  (64 < exp -> hash_indexer_new exp = Panic PAssert) /\
  (exp <= 64 -> exists ix, hash_indexer_new exp = Ok ix /\
     (forall g, ix_index hash_ops ix g = Ok [fnv64 (swcl_hash_bytes g) mod 2 ^ exp]) /\
     (exp < 64 -> forall pf, ix_bound hash_ops pf ix = Ok (2 ^ exp)) /\
     (exp = 64 -> ix_bound hash_ops Debug ix = Panic PArithOverflow /\ ix_bound hash_ops Release ix = Ok 0)).
Proof.
  split; intros L.
  - unfold hash_indexer_new. replace (exp <=? 64) with false by lia. reflexivity.
  - destruct (N.eq_dec exp 64) as [->|NE].
    + eexists. split; [reflexivity|]. split; [|split; [lia|intros _; split; reflexivity]].
      intros g. cbn [ix_index hash_ops]. unfold hash_index.
      match goal with |- context [N.land _ ?b] => change b with (N.ones 64) end. rewrite N.land_ones. reflexivity.
    + assert (exists ix, hash_indexer_new exp = Ok ix) as [ix H].
      { unfold hash_indexer_new. replace (exp <=? 64) with true by lia. eexists. reflexivity. }
      exists ix. split; [auto|]. split; [|split; [|lia]].
      * intros g. destruct (hash_index_bound exp ix Debug g H NE) as (i & E & _ & _ & ->). exact E.
      * intros _ pf. destruct (hash_index_bound exp ix pf (swcl_new []) H NE) as (i & _ & B & _). exact B.
Qed.

Lemma ft_counts n :
  (2 ^ 31 <= n -> ft_indexer_new n = Panic PAssert) /\
  (n < 2 ^ 31 -> exists ix, ft_indexer_new n = Ok ix /\ (forall pf, ix_bound ft_ops pf ix = Ok n) /\
     (n = 0 -> forall g, ix_index ft_ops ix g = Panic PDivByZero) /\
     (n <> 0 -> forall g, ix_index ft_ops ix g = Ok [ft_hash (sw_str g) mod n])).
Proof.
  split; intros L.
  - unfold ft_indexer_new. replace (n <=? i32_max) with false by (unfold i32_max; lia). reflexivity.
  - assert (exists ix, ft_indexer_new n = Ok ix) as [ix H].
    { unfold ft_indexer_new. replace (n <=? i32_max) with true by (unfold i32_max; lia). eexists. reflexivity. }
    exists ix. split; [auto|]. destruct (N.eq_dec n 0) as [->|NE].
    + inv H. split; [reflexivity|]. split; [reflexivity|]. lia.
    + split; [|split; [lia|]].
      * intros pf. destruct (ft_index_bound n ix pf (swcl_new []) H NE) as (i & _ & B & _). exact B.
      * intros _ g. destruct (ft_index_bound n ix Debug g H NE) as (i & E & _ & _ & ->). exact E.
Qed.

Lemma floret_counts nb nh seed :
  (nb = 0 \/ nh = 0 \/ 4 < nh -> floret_indexer_new nb nh seed = Panic PAssert) /\
  (nb <> 0 -> 0 < nh <= 4 -> exists ix, floret_indexer_new nb nh seed = Ok ix /\
     (forall pf, ix_bound floret_ops pf ix = Ok nb) /\
     (forall g, exists l, ix_index floret_ops ix g = Ok l /\ lenN l = nh /\
        forall k, k < nh -> nthN l k = Some (murmur3_x64_128 (sw_str g) seed / 2 ^ (32 * k) mod 2 ^ 32 mod nb))).
Proof.
  unfold floret_indexer_new. split.
  - intros H. destruct ((0 <? nh) && (nh <=? 4)) eqn:B; cbn [rassert rbind]; [|reflexivity].
    replace (nb =? 0) with true by lia. reflexivity.
  - intros NB L. assert (exists ix, floret_indexer_new nb nh seed = Ok ix) as [ix H].
    { unfold floret_indexer_new. replace ((0 <? nh) && (nh <=? 4)) with true by lia. replace (nb =? 0) with false by lia.
      eexists. reflexivity. }
    pose proof H as H'. unfold floret_indexer_new in H'. exists ix. split; [auto|]. split.
    + replace ((0 <? nh) && (nh <=? 4)) with true in H' by lia. replace (nb =? 0) with false in H' by lia.
      cbn in H'. inv H'. reflexivity.
    + intros g. destruct (floret_index_exact nb nh seed ix g H) as (l & E & L1 & _ & L2). eauto.
Qed.

(** ** Size hints of new n-gram iterators *)
Lemma rangeN_NoDup n : NoDup (rangeN n).
Proof. unfold rangeN. apply FinFun.Injective_map_NoDup; [intros a b H; lia|apply seq_NoDup]. Qed.

Lemma positions_count len mn mx ps : range_ok mn mx -> ngram_positions len mn mx ps ->
  lenN ps <= (mx - mn + 1) * len /\ (lenN ps = (mx - mn + 1) * len <-> len = 0 \/ mx = 1).
Proof.
  intros [R1 R2] PP. pose proof (positions_NoDup _ _ _ _ PP) as ND. destruct PP as [_ P].
  set (all := list_prod (rangeN len) (map (fun k => mn + k) (rangeN (mx - mn + 1)))).
  assert (lenN all = (mx - mn + 1) * len) as LA.
  { unfold all, lenN. rewrite prod_length, map_length. fold (lenN (rangeN len)).
    rewrite Nat2N.inj_mul. fold (lenN (rangeN len)) (lenN (rangeN (mx - mn + 1))). rewrite !rangeN_lenN. lia. }
  assert (forall i n, mn <= n <= mx -> i < len -> In (i, n) all) as IA.
  { intros i n Hn Hi. apply in_prod; [apply rangeN_In; auto|]. apply in_map_iff. exists (n - mn).
    split; [lia|]. apply rangeN_In. lia. }
  assert (incl ps all) as IN.
  { intros [i n] H. apply P in H as [A B]. apply IA; lia. }
  pose proof (NoDup_incl_length ND IN) as LE. split; [unfold lenN in *; lia|]. rewrite <- LA. split.
  - intros E. destruct (N.eq_dec len 0); [auto|]. destruct (N.eq_dec mx 1); [auto|]. exfalso.
    assert (NoDup ((len - 1, mx) :: ps)) as ND'.
    { constructor; [|auto]. intros H. apply P in H. lia. }
    assert (incl ((len - 1, mx) :: ps) all) as IN'.
    { intros x [<-|H]; [apply IA; lia|auto]. }
    pose proof (NoDup_incl_length ND' IN') as LE'. cbn [length] in LE'. unfold lenN in E. lia.
  - intros C. assert (NoDup (map (fun i => (i, 1)) (rangeN len))) as ND1.
    { apply FinFun.Injective_map_NoDup; [intros a b H; inv H; auto|apply rangeN_NoDup]. }
    assert (incl (map (fun i => (i, 1)) (rangeN len)) ps) as IN1.
    { intros x H. apply in_map_iff in H as (i & <- & H). apply rangeN_In in H. apply P. lia. }
    pose proof (NoDup_incl_length ND1 IN1) as LE1. rewrite map_length in LE1.
    assert (lenN (rangeN len) = len) as LR by apply rangeN_lenN.
    rewrite LA. unfold lenN in *. destruct C as [->| ->]; nia.
Qed.

Lemma hint_exact pf cs mn mx g l : forallb scalarb cs = true -> mx < two64 ->
  ngrams_new (utf8_encode cs) mn mx = Ok g -> remaining g l ->
  lenN l <= (mx - mn + 1) * lenN cs /\
  (lenN l = (mx - mn + 1) * lenN cs <-> cs = [] \/ mx = 1) /\
  ngrams_size_hint pf g =
    (if (mx - mn + 1) * lenN cs <? two64 then Ok ((mx - mn + 1) * lenN cs, Some ((mx - mn + 1) * lenN cs))
     else match pf with
          | Debug => Panic PArithOverflow
          | Release => Ok ((mx - mn + 1) * lenN cs mod two64, Some ((mx - mn + 1) * lenN cs mod two64))
          end).
Proof.
  intros V MX E RM.
  assert (range_ok mn mx) as R.
  { destruct (range_ok_dec mn mx) as [R|R]; [auto|]. rewrite ngrams_new_panics in E by auto. discriminate. }
  assert (utf8_valid (utf8_encode cs) = true) as VE by (apply utf8_valid_iff; eauto).
  destruct (ngrams_exact (utf8_encode cs) mn mx VE R) as (items & C & cs' & ps & V' & EQ & P & EI).
  apply utf8_encode_inj in EQ; auto. subst cs'.
  unfold ngrams_collect in C. rewrite E in C. cbn [rbind] in C. apply drain_remaining in C as [RM' _].
  rewrite (remaining_fun _ _ _ RM RM').
  assert (lenN items = lenN ps) as -> by (rewrite EI; apply lenN_map).
  destruct (positions_count _ _ _ _ R P) as [L1 L2]. split; [auto|]. split.
  - rewrite L2. split; (intros [A|A]; [left|auto]); [destruct cs; [auto|discriminate]|subst; reflexivity].
  - unfold ngrams_new in E. destruct R as [R1 R2]. replace (mn =? 0) with false in E by lia.
    replace (mn <=? mx) with true in E by lia. cbn [negb rassert rbind] in E. rewrite char_indices_encode in E by auto.
    inv E. unfold ngrams_size_hint. cbn [ng_max ng_min ng_offs].
    assert (lenN (map fst (offsets_from 0 cs)) = lenN cs) as ->.
    { rewrite lenN_map. unfold lenN. rewrite offsets_len. reflexivity. }
    unfold add64. replace (mx - mn + 1 <? two64) with true by lia. cbn [rbind]. unfold mul64.
    destruct ((mx - mn + 1) * lenN cs <? two64); cbn [rbind]; [reflexivity|]. destruct pf; reflexivity.
Qed.
