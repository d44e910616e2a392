(** * Facts about the indexers. *)
From Coq Require Import Lia ZifyBool ZifyNat ZifyN Permutation.
From Verif Require Import Base BaseFacts Utf8 Utf8Facts Subword Vocab FileSpec VocabFacts VocabSpec.
Local Open Scope N_scope.

(** ** Bounds *)
Lemma hash_index_bound exp ix pf g : hash_indexer_new exp = Ok ix -> exp <> 64 ->
  exists i, ix_index hash_ops ix g = Ok [i] /\ ix_bound hash_ops pf ix = Ok (2 ^ exp) /\ i < 2 ^ exp
  /\ i = fnv64 (swcl_hash_bytes g) mod 2 ^ exp.
Proof.
  intros H NE. unfold hash_indexer_new, rassert in H. destruct (N.leb_spec exp 64) as [L|]; [|discriminate].
  cbn [rbind] in H. inv H. replace (exp =? 64) with false by lia.
  cbn [ix_index hash_ops ix_bound]. unfold hash_index, hash_bound. cbn [hi_exp hi_mask].
  assert (2 ^ exp < two64) as LT.
  { change two64 with (2 ^ 64). apply N.pow_lt_mono_r; lia. }
  replace (2 ^ exp <? two64) with true by lia.
  replace (2 ^ exp - 1) with (N.ones exp) by (rewrite N.ones_equiv; lia). rewrite N.land_ones.
  eexists. split; [reflexivity|]. split; [reflexivity|]. split; [|reflexivity].
  apply N.mod_lt. apply N.pow_nonzero. lia.
Qed.

Lemma ft_index_bound n ix pf g : ft_indexer_new n = Ok ix -> n <> 0 ->
  exists i, ix_index ft_ops ix g = Ok [i] /\ ix_bound ft_ops pf ix = Ok n /\ i < n
  /\ i = ft_hash (sw_str g) mod n.
Proof.
  intros H NE. unfold ft_indexer_new, rassert in H. destruct (N.leb_spec n i32_max) as [L|]; [|discriminate].
  cbn [rbind] in H. inv H. rewrite N.mod_small by (unfold i32_max, two32 in *; lia).
  cbn [ix_index ft_ops ix_bound]. unfold ft_index, ft_bound. cbn [fi_buckets].
  replace (n =? 0) with false by lia.
  eexists. split; [reflexivity|]. split; [reflexivity|]. split; [|reflexivity]. apply N.mod_lt. auto.
Qed.

Lemma ft_new_zero ix g : ft_indexer_new 0 = Ok ix -> ix_index ft_ops ix g = Panic PDivByZero.
Proof. intros H. inv H. reflexivity. Qed.

(** ** floret *)
Lemma floret_index_exact nb nh seed ix g : floret_indexer_new nb nh seed = Ok ix ->
  exists l, ix_index floret_ops ix g = Ok l /\ lenN l = nh /\ Forall (fun i => i < nb) l /\
  forall k, k < nh -> nthN l k = Some (murmur3_x64_128 (sw_str g) seed / 2 ^ (32 * k) mod 2 ^ 32 mod nb).
Proof.
  intros H. unfold floret_indexer_new, rassert in H.
  destruct ((0 <? nh) && (nh <=? 4)) eqn:B1; [|discriminate]. cbn [rbind] in H.
  destruct (N.eqb_spec nb 0) as [|NZ]; [discriminate|]. cbn [negb rbind] in H. inv H.
  set (h := murmur3_x64_128 (sw_str g) seed).
  exists (map (fun k => h / 2 ^ (32 * k) mod 2 ^ 32 mod nb) (rangeN nh)). split; [|split; [|split]].
  - cbn [ix_index floret_ops]. unfold floret_index. cbn [fl_seed fl_buckets fl_hashes]. fold h.
    apply rmap_pure. intros k Hk. apply rangeN_In in Hk.
    replace (nb =? 0) with false by lia.
    assert (k = 0 \/ k = 1 \/ k = 2 \/ k = 3) as K by lia.
    assert (index [floret_part h 0; floret_part h 1; floret_part h 2; floret_part h 3] k = Ok (floret_part h k)) as ->
      by (destruct K as [-> | [-> | [-> | ->]]]; reflexivity).
    cbn [rbind]. unfold floret_part. rewrite N.shiftr_div_pow2. reflexivity.
  - rewrite lenN_map, rangeN_lenN. reflexivity.
  - apply Forall_forall. intros x Hx. apply in_map_iff in Hx as (k & <- & _). apply N.mod_lt. auto.
  - intros k Hk. rewrite nthN_map, rangeN_nth by auto. reflexivity.
Qed.

(** ** fastText hash *)
Lemma ft_ascii s : Forall (fun b => bN b < 128) s -> ft_hash s = fnv1a32 s.
Proof.
  unfold ft_hash, fnv1a32. generalize 2166136261 as h. induction s as [|b s IH]; intros h H; [reflexivity|].
  inv H. cbn [fold_left]. rewrite IH by auto. f_equal.
  unfold ft_hash_step, sign_extend8. replace (bN b <? 128) with true by lia. reflexivity.
Qed.

Lemma lxor_mod_pow2 a b n : (0 <= n)%Z -> (Z.lxor a b mod 2 ^ n = Z.lxor (a mod 2 ^ n) (b mod 2 ^ n))%Z.
Proof.
  intros Hn. apply Z.bits_inj'. intros k Hk. rewrite Z.lxor_spec, !Z.testbit_mod_pow2, Z.lxor_spec by lia.
  destruct (k <? n)%Z; reflexivity.
Qed.

Lemma N2Z_lxor a b : Z.of_N (N.lxor a b) = Z.lxor (Z.of_N a) (Z.of_N b).
Proof. destruct a, b; reflexivity. Qed.

Lemma ft_signed s : Z.of_N (ft_hash s) = fasttext32 s.
Proof.
  unfold ft_hash, fasttext32. change 2166136261%Z with (Z.of_N 2166136261).
  assert (2166136261 < two32) as H by (vm_compute; reflexivity).
  revert H. generalize 2166136261 as h. induction s as [|b s IH]; intros h H; [reflexivity|].
  cbn [fold_left]. rewrite IH.
  - f_equal. unfold ft_hash_step. rewrite N2Z.inj_mod, N2Z.inj_mul, N2Z_lxor.
    change (Z.of_N two32) with (2 ^ 32)%Z. change (Z.of_N 16777619) with 16777619%Z.
    rewrite Z.mul_mod by lia. rewrite lxor_mod_pow2 by lia.
    symmetry. rewrite Z.mul_mod by lia. rewrite lxor_mod_pow2 by lia.
    f_equal. f_equal. f_equal.
    unfold sign_extend8, as_i8. pose proof (bN_lt b).
    destruct (N.ltb_spec (bN b) 128); [reflexivity|].
    rewrite N2Z.inj_add. change (Z.of_N (two32 - 256)) with (2 ^ 32 - 256)%Z.
    replace (Z.of_N (bN b) + (2 ^ 32 - 256))%Z with (Z.of_N (bN b) - 256 + 1 * 2 ^ 32)%Z by lia.
    rewrite Z.mod_add by lia. reflexivity.
  - unfold ft_hash_step. apply N.mod_lt. discriminate.
Qed.

(** ** Explicit indexer *)
Lemma existsb_eqb_In b l : existsb (N.eqb b) l = true <-> In b l.
Proof.
  rewrite existsb_exists. split.
  - intros (x & H & E). apply N.eqb_eq in E. subst. auto.
  - intros H. exists b. split; [auto|apply N.eqb_refl].
Qed.

Lemma first_seen_snoc l b : first_seen (l ++ [b]) =
  if existsb (N.eqb b) (first_seen l) then first_seen l else first_seen l ++ [b].
Proof. unfold first_seen. rewrite fold_left_app. reflexivity. Qed.

Lemma first_seen_In l b : In b (first_seen l) <-> In b l.
Proof.
  induction l as [|a l IH] using rev_ind; [reflexivity|].
  rewrite first_seen_snoc. destruct (existsb (N.eqb a) (first_seen l)) eqn:E.
  - apply existsb_eqb_In in E. rewrite in_app_iff, IH. cbn [In]. split; [auto|].
    intros [H|[-> | []]]; [auto|]. apply IH. auto.
  - rewrite !in_app_iff, IH. reflexivity.
Qed.

Lemma first_seen_NoDup l : NoDup (first_seen l).
Proof.
  induction l as [|a l IH] using rev_ind; [constructor|].
  rewrite first_seen_snoc. destruct (existsb (N.eqb a) (first_seen l)) eqn:E; [auto|].
  apply NoDup_Add with (a := a) (l := first_seen l); [rewrite <- (app_nil_r (first_seen l)) at 1; apply Add_app|].
  split; [auto|]. intros H. apply existsb_eqb_In in H. congruence.
Qed.

(** The state of the loop after some n-grams. *)
Definition nwi_spec (tuples : list (str * N)) (st : nwi_state) : Prop :=
  let '(o2n, idx, ngs) := st in
  ngs = map fst tuples /\
  lenN o2n = lenN (first_seen (map snd tuples)) /\
  (forall b n, nm_get o2n b = Some n <-> nthN (first_seen (map snd tuples)) n = Some b) /\
  (forall g n, hm_get idx g = Some n <-> exists b, In (g, b) tuples /\ nthN (first_seen (map snd tuples)) n = Some b).

Lemma nthN_snoc {A} (l : list A) a n x :
  nthN (l ++ [a]) n = Some x <-> nthN l n = Some x \/ (n = lenN l /\ x = a).
Proof.
  destruct (N.lt_trichotomy n (lenN l)) as [H|[->|H]].
  - rewrite nthN_app1 by auto. split; [auto|]. intros [E|[E _]]; [auto|lia].
  - rewrite nthN_app2, N.sub_diag by lia. change (nthN [a] 0) with (Some a). split.
    + intros E. inv E. auto.
    + intros [E|[_ ->]]; [|reflexivity]. apply nthN_Some_lt in E. lia.
  - split.
    + intros E. apply nthN_Some_lt in E. rewrite lenN_app, lenN_cons, lenN_nil in E. lia.
    + intros [E|[E _]]; [apply nthN_Some_lt in E|]; lia.
Qed.

Lemma nwi_reach_spec tuples : NoDup (map fst tuples) ->
  exists st, rfold nwi_step tuples ([], [], []) = Ok st /\ nwi_spec tuples st.
Proof.
  induction tuples as [|[g b] tuples IH] using rev_ind; intros ND.
  - exists ([], [], []). split; [reflexivity|]. cbn. repeat split; try discriminate.
    + intros H. apply nthN_In in H. destruct H.
    + intros (b & [] & _).
  - rewrite map_app in ND. cbn [map fst] in ND. apply NoDup_remove in ND. rewrite app_nil_r in ND. destruct ND as [ND NI].
    destruct (IH ND) as ([[o2n idx] ngs] & R & S1 & S2 & S3 & S4).
    rewrite rfold_app, R. cbn [rbind rfold nwi_step].
    assert (hm_get idx g = None) as NG.
    { destruct (hm_get idx g) eqn:E; [|reflexivity]. apply S4 in E as (b' & E & _).
      exfalso. apply NI. apply (in_map fst) in E. exact E. }
    rewrite NG.
    assert (forall g' n, g' <> g -> hm_get (hm_insert idx g n) g' = hm_get idx g') as INS
      by (intros; apply hm_insert_get_other; auto).
    pose proof (first_seen_NoDup (map snd tuples)) as FN.
    unfold nwi_spec. rewrite !map_app. cbn [map fst snd]. rewrite first_seen_snoc.
    destruct (nm_get o2n b) as [i|] eqn:E.
    + apply S3 in E as E'. assert (existsb (N.eqb b) (first_seen (map snd tuples)) = true) as ->
        by (apply existsb_eqb_In; eapply nthN_In; eauto).
      cbn [rbind]. eexists. split; [reflexivity|]. split; [rewrite S1; reflexivity|]. split; [auto|]. split; [auto|].
      intros g' n. destruct (str_eq_dec g' g) as [->|NE].
      * rewrite hm_insert_get_same. split.
        -- intros H; inv H. exists b. rewrite in_app_iff. split; [right; left; reflexivity|auto].
        -- intros (b' & H1 & H2). apply in_app_iff in H1 as [H1|[H1|[]]].
           ++ exfalso. apply NI. apply (in_map fst) in H1. exact H1.
           ++ inv H1. f_equal. eapply NoDup_nthN; eauto.
      * rewrite INS by auto. rewrite S4. split; intros (b' & H1 & H2); exists b'; (split; [|auto]).
        -- apply in_app_iff. auto.
        -- apply in_app_iff in H1 as [H1|[H1|[]]]; [auto|inv H1; congruence].
    + assert (existsb (N.eqb b) (first_seen (map snd tuples)) = false) as EX.
      { destruct (existsb _ _) eqn:X; [|reflexivity]. apply existsb_eqb_In in X. apply In_nthN in X as [n X].
        apply S3 in X. congruence. }
      rewrite EX. cbn [rbind]. eexists. split; [reflexivity|]. split; [rewrite S1; reflexivity|].
      split; [rewrite lenN_cons, lenN_app, lenN_cons, lenN_nil, S2; lia|]. split.
      * intros b' n. cbn [nm_get]. rewrite nthN_snoc, <- S3. destruct (N.eqb_spec b' b) as [->|NE].
        -- rewrite E. split; [intros H; inv H; right; split; [auto|reflexivity]|].
           intros [H|[-> _]]; [discriminate|]. f_equal. auto.
        -- split; [auto|]. intros [H|[_ H]]; [auto|congruence].
      * intros g' n. destruct (str_eq_dec g' g) as [->|NE].
        -- rewrite hm_insert_get_same. split.
           ++ intros H; inv H. exists b. rewrite in_app_iff. split; [right; left; reflexivity|].
              apply nthN_snoc. right. auto.
           ++ intros (b' & H1 & H2). apply in_app_iff in H1 as [H1|[H1|[]]].
              ** exfalso. apply NI. apply (in_map fst) in H1. exact H1.
              ** inv H1. apply nthN_snoc in H2 as [H2|[H2 _]]; [|subst; f_equal; auto].
                 apply S3 in H2. congruence.
        -- rewrite INS by auto. rewrite S4. split.
           ++ intros (b' & H1 & H2); exists b'. split; [apply in_app_iff; auto|]. apply nthN_snoc. auto.
           ++ intros (b' & H1 & H2). apply in_app_iff in H1 as [H1|[H1|[]]]; [|inv H1; congruence].
              exists b'. split; [auto|]. apply nthN_snoc in H2 as [H2|[_ ->]]; [auto|].
              exfalso. assert (In b (map snd tuples)) as HI by (apply (in_map snd) in H1; exact H1).
              apply first_seen_In, existsb_eqb_In in HI. congruence.
Qed.

Lemma nwi_dup tuples : ~ NoDup (map fst tuples) -> rfold nwi_step tuples ([], [], []) = Panic PDuplicateNGrams.
Proof.
  induction tuples as [|[g b] tuples IH] using rev_ind; intros ND; [exfalso; apply ND; constructor|].
  rewrite rfold_app. destruct (ListDec.NoDup_dec str_eq_dec (map fst tuples)) as [ND'|ND'].
  - destruct (nwi_reach_spec tuples ND') as ([[o2n idx] ngs] & R & S1 & S2 & S3 & S4). rewrite R.
    cbn [rbind rfold nwi_step].
    assert (In g (map fst tuples)) as HI.
    { destruct (in_dec str_eq_dec g (map fst tuples)); [auto|]. exfalso. apply ND. rewrite map_app. cbn [map fst].
      apply (NoDup_Add (a := g) (l := map fst tuples)); [rewrite <- (app_nil_r (map fst tuples)) at 1; apply Add_app|auto]. }
    apply in_map_iff in HI as ([g' b'] & E & HI). cbn [fst] in E. subst g'.
    assert (exists n, hm_get idx g = Some n) as [n E].
    { assert (In b' (first_seen (map snd tuples))) as F by (apply first_seen_In; apply (in_map snd) in HI; exact HI).
      apply In_nthN in F as [n F]. exists n. apply S4. eauto. }
    rewrite E. destruct (nm_get o2n b); reflexivity.
  - rewrite IH by auto. reflexivity.
Qed.

(** The complete specification of [new_with_indices]. *)
Lemma explicit_numbering tuples :
  (~ NoDup (map fst tuples) -> explicit_new_with_indices tuples = Panic PDuplicateNGrams) /\
  (NoDup (map fst tuples) -> exists ix o2n,
     explicit_new_with_indices tuples = Ok (ix, o2n) /\
     ei_ngrams ix = map fst tuples /\
     ei_bound ix = lenN (first_seen (map snd tuples)) /\
     (forall old new, nm_get o2n old = Some new <-> nthN (first_seen (map snd tuples)) new = Some old) /\
     (forall g, (exists b, In (g, b) tuples /\ forall new, nthN (first_seen (map snd tuples)) new = Some b ->
                   explicit_index ix (swcl_new g) = Ok [new])
                \/ (~ In g (map fst tuples) /\ explicit_index ix (swcl_new g) = Ok []))).
Proof.
  split.
  - intros H. unfold explicit_new_with_indices. rewrite nwi_dup by auto. reflexivity.
  - intros H. destruct (nwi_reach_spec tuples H) as ([[o2n idx] ngs] & R & S1 & S2 & S3 & S4).
    exists (mkExIx ngs idx (lenN o2n)), o2n. unfold explicit_new_with_indices. rewrite R. cbn [rbind ei_ngrams ei_bound].
    split; [reflexivity|]. split; [auto|]. split; [auto|]. split; [auto|].
    intros g. unfold explicit_index. cbn [ei_index swcl_new sw_str].
    destruct (in_dec str_eq_dec g (map fst tuples)) as [HI|NI].
    + left. apply in_map_iff in HI as ([g' b] & E & HI). cbn [fst] in E. subst g'. exists b. split; [auto|].
      intros new F. replace (hm_get idx g) with (Some new); [reflexivity|]. symmetry. apply S4. eauto.
    + right. split; [auto|]. destruct (hm_get idx g) eqn:E; [|reflexivity].
      exfalso. apply S4 in E as (b & E & _). apply NI. apply (in_map fst) in E. exact E.
Qed.

(** Dense, and shared iff given the same index. *)
Lemma first_seen_share (tuples : list (str * N)) g1 g2 b1 b2 n1 n2 :
  In (g1, b1) tuples -> In (g2, b2) tuples ->
  nthN (first_seen (map snd tuples)) n1 = Some b1 -> nthN (first_seen (map snd tuples)) n2 = Some b2 ->
  (n1 = n2 <-> b1 = b2).
Proof.
  intros _ _ H1 H2. split; intros E; subst; [congruence|].
  eapply NoDup_nthN; eauto using first_seen_NoDup.
Qed.

(** The first appearance of a number: everything before it is numbered lower. *)
Lemma explicit_new_exact ngs :
  (~ NoDup ngs -> explicit_new ngs = Panic PDuplicateNGrams) /\
  (NoDup ngs -> exists ix, explicit_new ngs = Ok ix /\ ei_ngrams ix = ngs /\ ei_bound ix = lenN ngs /\
     forall g, (forall i, nthN ngs i = Some g -> explicit_index ix (swcl_new g) = Ok [i]) /\
               (~ In g ngs -> explicit_index ix (swcl_new g) = Ok [])).
Proof.
  rewrite explicit_new_create. split; intros H.
  - destruct (N.eqb_spec (hm_len (create_indices ngs)) (lenN ngs)) as [E|]; [|reflexivity].
    exfalso. apply H. apply ci_len_NoDup. auto.
  - pose proof H as H'. apply ci_len_NoDup in H'. rewrite H', N.eqb_refl.
    eexists. split; [reflexivity|]. cbn [ei_ngrams ei_bound]. split; [reflexivity|]. split; [reflexivity|].
    intros g. unfold explicit_index. cbn [ei_index swcl_new sw_str]. split.
    + intros i Hi. apply ci_get_iff in Hi; [|auto]. rewrite Hi. reflexivity.
    + intros NI. apply ci_get_None in NI. rewrite NI. reflexivity.
Qed.

(** ** All indexers *)
Definition ix_total {I} (ops : indexer_ops I) (ix : I) (b : N) : Prop :=
  (forall pf, ix_bound ops pf ix = Ok b) /\
  forall g, exists l, ix_index ops ix g = Ok l /\ Forall (fun i => i < b) l.

Lemma ix_made_total I (ops : indexer_ops I) ix : ix_made I ops ix -> exists b, ix_total ops ix b.
Proof.
  intros H. destruct H as [exp ix NE H|n ix NE H|nb nh seed ix H|ix H].
  - exists (2 ^ exp). split.
    + intros pf. destruct (hash_index_bound exp ix pf (swcl_new []) H NE) as (i & _ & B & _). exact B.
    + intros g. destruct (hash_index_bound exp ix Debug g H NE) as (i & E & _ & L & _). eauto.
  - exists n. split.
    + intros pf. destruct (ft_index_bound n ix pf (swcl_new []) H NE) as (i & _ & B & _). exact B.
    + intros g. destruct (ft_index_bound n ix Debug g H NE) as (i & E & _ & L & _). eauto.
  - exists nb. split.
    + intros pf. unfold floret_indexer_new in H. rinv H. rinv H1. inv H2. reflexivity.
    + intros g. destruct (floret_index_exact nb nh seed ix g H) as (l & E & _ & L & _). eauto.
  - exists (ei_bound ix). split; [reflexivity|]. intros g.
    destruct (explicit_built_facts ix H) as (_ & _ & _ & _ & L & _).
    cbn [ix_index explicit_ops]. unfold explicit_index. destruct (hm_get (ei_index ix) (sw_str g)) eqn:E; eauto.
Qed.
