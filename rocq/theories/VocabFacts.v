(** * Vocabularies: word indices and codecs. *)
From Verif Require Import Base BaseFacts Utf8 Utf8Facts Stream StreamFacts F32 ChunkIO ChunkFacts Subword Vocab FileSpec.
Local Open Scope N_scope.

(** ** [create_indices] *)
Lemma enumerate_from_app {A} n (a b : list A) :
  enumerate_from n (a ++ b) = enumerate_from n a ++ enumerate_from (n + lenN a) b.
Proof.
  revert n; induction a as [|x a IH]; intros n; cbn [enumerate_from app].
  - rewrite lenN_nil, N.add_0_r. reflexivity.
  - rewrite IH, lenN_cons. do 3 f_equal. lia.
Qed.
Lemma enumerate_snoc {A} (l : list A) a : enumerate (l ++ [a]) = enumerate l ++ [(lenN l, a)].
Proof. unfold enumerate. rewrite enumerate_from_app. cbn [enumerate_from]. rewrite N.add_0_l. reflexivity. Qed.
Lemma enumerate_In {A} (l : list A) i a : In (i, a) (enumerate l) <-> nthN l i = Some a.
Proof.
  induction l as [|x l IH] using rev_ind.
  - cbn. split; [tauto|]. rewrite nthN_spec. destruct (N.to_nat i); discriminate.
  - rewrite enumerate_snoc, in_app_iff, IH. cbn [In]. split.
    + intros [H|[H|[]]]; [rewrite nthN_app1; auto; eapply nthN_Some_lt; eauto|].
      inv H. rewrite nthN_app2, N.sub_diag by lia. reflexivity.
    + intros H. destruct (N.lt_ge_cases i (lenN l)) as [L|L].
      * rewrite nthN_app1 in H by auto. auto.
      * pose proof (nthN_Some_lt _ _ _ H) as L'. rewrite lenN_app, lenN_cons, lenN_nil in L'.
        right; left. assert (i = lenN l) by lia. subst. rewrite nthN_app2, N.sub_diag in H by lia.
        change (nthN [x] 0) with (Some x) in H. inv H. reflexivity.
Qed.
Lemma enumerate_snd {A} (l : list A) : map snd (enumerate l) = l.
Proof.
  unfold enumerate. generalize 0. induction l; intros n; cbn [enumerate_from map snd]; [reflexivity|].
  rewrite IHl. reflexivity.
Qed.

Lemma create_indices_snoc ws w : create_indices (ws ++ [w]) = hm_insert (create_indices ws) w (lenN ws).
Proof. unfold create_indices. rewrite enumerate_snoc, fold_left_app. reflexivity. Qed.

Lemma ci_keys_NoDup ws : NoDup (map fst (create_indices ws)).
Proof.
  induction ws as [|w ws IH] using rev_ind; [constructor|].
  rewrite create_indices_snoc. apply hm_insert_keys_NoDup, IH.
Qed.
Lemma ci_get_Some ws w i : hm_get (create_indices ws) w = Some i -> nthN ws i = Some w.
Proof.
  induction ws as [|x ws IH] using rev_ind; [discriminate|].
  rewrite create_indices_snoc. destruct (str_eq_dec x w) as [->|NE].
  - rewrite hm_insert_get_same. intros H; inv H. rewrite nthN_app2, N.sub_diag by lia. reflexivity.
  - rewrite hm_insert_get_other by auto. intros H. apply IH in H. rewrite nthN_app1; auto.
    eapply nthN_Some_lt; eauto.
Qed.
Lemma ci_get_In ws w : In w ws -> exists i, hm_get (create_indices ws) w = Some i.
Proof.
  induction ws as [|x ws IH] using rev_ind; intros H; [destruct H|].
  rewrite create_indices_snoc. destruct (str_eq_dec x w) as [->|NE].
  - rewrite hm_insert_get_same. eauto.
  - rewrite hm_insert_get_other by auto. apply IH. rewrite in_app_iff in H. cbn in H. tauto.
Qed.
Lemma ci_get_None ws w : hm_get (create_indices ws) w = None <-> ~ In w ws.
Proof.
  split.
  - intros H I. apply ci_get_In in I as [i I]. congruence.
  - intros H. destruct (hm_get (create_indices ws) w) eqn:E; [|reflexivity].
    exfalso. apply H. apply ci_get_Some in E. eapply nthN_In; eauto.
Qed.
Lemma NoDup_nthN {A} (l : list A) i j a : NoDup l -> nthN l i = Some a -> nthN l j = Some a -> i = j.
Proof.
  intros ND Hi Hj. pose proof (nthN_Some_lt _ _ _ Hi) as Li. rewrite nthN_spec in *.
  rewrite NoDup_nth_error in ND. unfold lenN in Li.
  assert (N.to_nat i = N.to_nat j) as E; [|lia]. apply ND; [lia|congruence].
Qed.
Lemma ci_get_iff ws w i : NoDup ws -> (hm_get (create_indices ws) w = Some i <-> nthN ws i = Some w).
Proof.
  intros ND. split; [apply ci_get_Some|]. intros H.
  destruct (ci_get_In ws w) as [j Hj]; [eapply nthN_In; eauto|].
  rewrite Hj. f_equal. apply ci_get_Some in Hj. eapply NoDup_nthN; eauto.
Qed.
Lemma ci_len_le ws : (length (create_indices ws) <= length ws)%nat.
Proof.
  induction ws as [|w ws IH] using rev_ind; [auto|]. rewrite create_indices_snoc, app_length.
  unfold hm_insert. cbn [length]. pose proof (hm_remove_length_le (create_indices ws) w). lia.
Qed.
Lemma ci_len_NoDup ws : NoDup ws <-> lenN ws = hm_len (create_indices ws).
Proof.
  induction ws as [|w ws IH] using rev_ind.
  - split; [reflexivity|constructor].
  - rewrite create_indices_snoc. unfold hm_len, lenN in *. rewrite app_length. unfold hm_insert. cbn [length].
    pose proof (hm_remove_length_le (create_indices ws) w) as L1. pose proof (ci_len_le ws) as L2. split.
    + intros ND. apply NoDup_remove in ND. rewrite app_nil_r in ND. destruct ND as [ND NI].
      rewrite hm_remove_absent by (apply ci_get_None; auto). apply IH in ND. lia.
    + intros E. destruct (hm_get (create_indices ws) w) eqn:G.
      * exfalso. assert (length (hm_remove (create_indices ws) w) < length (create_indices ws))%nat; [|lia].
        clear -G. induction (create_indices ws) as [|[k v] m IHm]; cbn in *; [discriminate|].
        destruct (str_eqb w k).
        -- pose proof (hm_remove_length_le m w). lia.
        -- cbn [length]. apply IHm in G. lia.
      * rewrite hm_remove_absent in E by auto. apply ci_get_None in G.
        assert (NoDup ws) as ND by (apply IH; lia).
        rewrite <- (rev_involutive (ws ++ [w])). apply NoDup_rev. rewrite rev_app_distr. cbn [rev app].
        constructor; [rewrite <- in_rev; auto|apply NoDup_rev; auto].
Qed.

(** ** Constructors *)
Lemma rassert_Ok b p u : rassert b p = Ok u -> b = true.
Proof. unfold rassert. destruct b; [auto|discriminate]. Qed.
Ltac rinv H := match type of H with
  | rbind _ _ = Ok _ => let a := fresh "a" in let H1 := fresh "H" in let H2 := fresh "H" in
      apply rbind_Ok_inv in H as (a & H1 & H2)
  end.

Lemma simple_new_Ok ws v : simple_new ws = Ok v -> NoDup ws /\ v = mkSimple (create_indices ws) ws.
Proof.
  unfold simple_new. intros H. rinv H. apply rassert_Ok, N.eqb_eq, ci_len_NoDup in H0. inv H1. auto.
Qed.
Lemma simple_new_NoDup ws : NoDup ws -> simple_new ws = Ok (mkSimple (create_indices ws) ws).
Proof.
  intros H. unfold simple_new. apply ci_len_NoDup in H. rewrite H, N.eqb_refl. reflexivity.
Qed.
Lemma simple_new_dup ws : ~ NoDup ws -> simple_new ws = Panic PDuplicateWords.
Proof.
  intros H. unfold simple_new. destruct (N.eqb_spec (lenN ws) (hm_len (create_indices ws))) as [E|E]; [|reflexivity].
  apply ci_len_NoDup in E. tauto.
Qed.

Section SubNew.
  Context {I : Type} (ops : indexer_ops I) (pf : profile).
  Lemma sub_new_wb_Ok ws mn mx ix bow eow v :
    sub_new_with_boundaries ops pf ws mn mx ix bow eow = Ok v ->
    NoDup ws /\ v = mkSub bow eow ix (create_indices ws) ws mn mx /\
    exists b, ix_bound ops pf ix = Ok b /\ lenN ws + b < two64.
  Proof.
    unfold sub_new_with_boundaries. intros H. rinv H. apply rassert_Ok, N.eqb_eq, ci_len_NoDup in H0.
    rinv H1. rinv H2. apply rassert_Ok, N.ltb_lt in H1. inv H3. eauto.
  Qed.
  Lemma sub_new_wb_intro ws mn mx ix bow eow b :
    NoDup ws -> ix_bound ops pf ix = Ok b -> lenN ws + b < two64 ->
    sub_new_with_boundaries ops pf ws mn mx ix bow eow
    = Ok (mkSub bow eow ix (create_indices ws) ws mn mx).
  Proof.
    intros ND B L. unfold sub_new_with_boundaries. apply ci_len_NoDup in ND.
    rewrite ND, N.eqb_refl, <- ND, B. cbn [rassert rbind]. destruct (N.ltb_spec (lenN ws + b) two64); [reflexivity|lia].
  Qed.
End SubNew.

(** ** Codecs *)

Record chunk_codec {A} (id : chunk_id) (w : writer unit) (m : reader A) (body : bytesf)
       (len : N -> N) (a : A) : Prop := {
  cc_id : id <> CHeader;
  cc_emits : emits w (framed (chunk_num id) body);
  cc_reads : reads m (framed (chunk_num id) body) a;
  cc_len : forall pos, lenN (framed (chunk_num id) body pos) = len pos
}.

Lemma items_len_flat l : items_len l = lenN (flat_map string_bytes l).
Proof.
  unfold items_len. assert (forall a, fold_left (fun a w => a + (lenN w + 4)) l a
    = a + lenN (flat_map string_bytes l)) as H; [|rewrite H; lia].
  induction l as [|s l IH]; intros a; cbn [fold_left flat_map].
  - rewrite lenN_nil. lia.
  - rewrite IH. unfold string_bytes. rewrite !lenN_app, le_bytes_lenN. lia.
Qed.

Ltac emits_chain := repeat (first
  [ apply emits_u32 | apply emits_u64 | apply emits_bytes | apply emits_u8
  | eapply emits_seq ]).

Lemma words_ok_64 ws : words_ok ws -> lenN ws < two64.
Proof. intros [_ H]. unfold isize_max, two64 in *. lia. Qed.

(** Simple vocabulary. *)
Definition simple_body (ws : list str) : list byte :=
  le_bytes 8 (lenN ws) ++ flat_map string_bytes ws.

Lemma simple_codec ws v :
  words_ok ws -> simple_new ws = Ok v ->
  chunk_codec CSimpleVocab (write_simple v) read_simple (fconst (simple_body ws))
    (simple_chunk_len v) v /\
  short read_simple (framed 1 (fconst (simple_body ws))).
Proof.
  intros W E. pose proof (words_ok_64 ws W) as L64. destruct W as [W L].
  pose proof (simple_new_Ok _ _ E) as [ND Ev].
  destruct (items_codec ws _ W eq_refl L) as (IE & IR & IS).
  split; [split|].
  - discriminate.
  - unfold write_simple.
    eapply emits_ext; [|eapply emits_seq; [apply emits_u32|
      apply (emits_wpos _ (fconst (le_bytes 8 (lenN (simple_body ws)) ++ simple_body ws)))]].
    + reflexivity.
    + intros p. eexists. split.
      * eapply emits_seq; [apply emits_u64|]. eapply emits_seq; [apply emits_u64|].
        rewrite Ev. cbn [sm_words]. apply IE.
      * rewrite Ev. unfold fseq, fconst, simple_chunk_len, simple_body. cbn [sm_words].
        rewrite items_len_flat, lenN_app, le_bytes_lenN. do 2 f_equal. lia.
  - unfold read_simple. apply reads_framed; [discriminate|].
    eapply reads_ext; [|eapply reads_bind; [apply (reads_u64 (lenN ws)), L64|]].
    2:{ cbv beta. eapply reads_bind; [exact IR|]. cbv beta. rewrite E. apply reads_ret. }
    layout.
  - intros pos. rewrite framed_len. unfold fconst, simple_body, simple_chunk_len.
    rewrite Ev. cbn [sm_words]. rewrite items_len_flat, lenN_app, le_bytes_lenN. lia.
  - unfold read_simple. apply (short_framed CSimpleVocab); [discriminate|].
    eapply short_ext; [|eapply short_bind; [apply (reads_u64 (lenN ws)), L64|apply short_u64|]].
    2:{ cbv beta. eapply short_bind; [exact IR|exact IS|]. cbv beta. rewrite E. apply short_ret. }
    layout.
Qed.

(** Bucketed vocabularies. *)
Definition bucket_body (ws : list str) (mn mx buckets : N) : list byte :=
  le_bytes 8 (lenN ws) ++ le_bytes 4 mn ++ le_bytes 4 mx ++ le_bytes 4 buckets
  ++ flat_map string_bytes ws.

Lemma bucket_codec {I} (B : bucket_ops I) pf id ws mn mx n ix v :
  id <> CHeader ->
  words_ok ws -> mn < two32 -> mx < two32 -> n < two32 ->
  bk_new B n = Ok ix -> bk_buckets B ix = n ->
  sub_new (bk_ops B) pf ws mn mx ix = Ok v ->
  chunk_codec id (write_bucketed B id v) (read_bucketed B pf id) (fconst (bucket_body ws mn mx n))
    (fun _ => bucket_chunk_len v) v /\
  short (read_bucketed B pf id) (framed (chunk_num id) (fconst (bucket_body ws mn mx n))).
Proof.
  intros Hid W Lmn Lmx Ln Hn Hb E. pose proof (words_ok_64 ws W) as L64. destruct W as [W L].
  pose proof E as E'. apply sub_new_wb_Ok in E' as (ND & Ev & _).
  destruct (items_codec ws _ W eq_refl L) as (IE & IR & IS).
  assert (bucket_chunk_len v = 12 + lenN (bucket_body ws mn mx n)) as EL.
  { unfold bucket_chunk_len, bucket_body. rewrite Ev. cbn [sv_words].
    rewrite items_len_flat, !lenN_app, !le_bytes_lenN. lia. }
  split; [split|].
  - exact Hid.
  - unfold write_bucketed. apply emits_framed_const; [lia|]. rewrite Ev.
    cbn [sv_words sv_min sv_max sv_ix]. rewrite Hb.
    eapply emits_ext; [|emits_chain; apply IE]. layout.
  - unfold read_bucketed. apply reads_framed; [auto|].
    eapply reads_ext; [|eapply reads_bind; [apply (reads_u64 (lenN ws)), L64|]].
    2:{ cbv beta. eapply reads_bind; [apply (reads_u32 mn), Lmn|]. cbv beta.
        eapply reads_bind; [apply (reads_u32 mx), Lmx|]. cbv beta.
        eapply reads_bind; [apply (reads_u32 n), Ln|]. cbv beta.
        eapply reads_bind; [exact IR|]. cbv beta.
        eapply reads_lift; [exact Hn|]. cbv beta. rewrite E. apply reads_ret. }
    layout.
  - intros pos. rewrite framed_len. unfold fconst. symmetry. exact EL.
  - unfold read_bucketed. apply short_framed; [auto|].
    eapply short_ext; [|eapply short_bind; [apply (reads_u64 (lenN ws)), L64|apply short_u64|]].
    2:{ cbv beta. eapply short_bind; [apply (reads_u32 mn), Lmn|apply short_u32|]. cbv beta.
        eapply short_bind; [apply (reads_u32 mx), Lmx|apply short_u32|]. cbv beta.
        eapply short_bind; [apply (reads_u32 n), Ln|apply short_u32|]. cbv beta.
        eapply short_bind; [exact IR|exact IS|]. cbv beta.
        eapply short_lift; [exact Hn|]. cbv beta. rewrite E. apply short_ret. }
    layout.
Qed.

Lemma hash_new_buckets n ix : bk_new hash_bucket_ops n = Ok ix -> bk_buckets hash_bucket_ops ix = n /\ n <= 64.
Proof.
  cbn. unfold hash_indexer_new. intros H. rinv H. apply rassert_Ok, N.leb_le in H0. inv H1. auto.
Qed.
Lemma ft_new_buckets n ix : bk_new ft_bucket_ops n = Ok ix -> bk_buckets ft_bucket_ops ix = n /\ n <= i32_max.
Proof.
  cbn. unfold ft_indexer_new. intros H. rinv H. apply rassert_Ok, N.leb_le in H0. inv H1. cbn.
  split; [|auto]. apply N.mod_small. unfold i32_max, two32 in *. lia.
Qed.

(** Floret vocabulary. *)
Definition floret_body (mn mx buckets hashes seed : N) (bow eow : str) : list byte :=
  le_bytes 4 mn ++ le_bytes 4 mx ++ le_bytes 8 buckets ++ le_bytes 4 hashes ++ le_bytes 4 seed
  ++ string_bytes bow ++ string_bytes eow.

Lemma floret_codec pf mn mx nb nh seed bow eow ix v :
  mn < two32 -> mx < two32 -> nb < two64 -> seed < two32 -> str_ok bow -> str_ok eow ->
  floret_indexer_new nb nh seed = Ok ix ->
  sub_new_with_boundaries floret_ops pf [] mn mx ix bow eow = Ok v ->
  chunk_codec CFloretSubwordVocab (write_floret v) (read_floret pf)
    (fconst (floret_body mn mx nb nh seed bow eow)) (fun _ => floret_chunk_len v) v /\
  short (read_floret pf) (framed 9 (fconst (floret_body mn mx nb nh seed bow eow))).
Proof.
  intros Lmn Lmx Lnb Lseed Hbow Heow Hix E.
  pose proof E as E'. apply sub_new_wb_Ok in E' as (_ & Ev & _).
  assert (1 <= nh <= 4 /\ ix = mkFloretIx nb seed nh) as [Lnh Eix].
  { unfold floret_indexer_new in Hix. rinv Hix. apply rassert_Ok in H. rinv H0. inv H2.
    apply andb_true_iff in H as [X1 X2]. apply N.ltb_lt in X1. apply N.leb_le in X2. split; [lia|auto]. }
  destruct (string_codec bow Hbow) as (BE & BR & BS).
  destruct (string_codec eow Heow) as (EE & ER & ES).
  assert (floret_chunk_len v = 12 + lenN (floret_body mn mx nb nh seed bow eow)) as EL.
  { unfold floret_chunk_len, floret_body, string_bytes. rewrite Ev. cbn [sv_bow sv_eow].
    rewrite !lenN_app, !le_bytes_lenN. lia. }
  assert (nh < two32) as Lnh' by (unfold two32; lia).
  assert (negb ((1 <=? nh) && (nh <=? 4)) = false) as Cnh.
  { destruct (N.leb_spec 1 nh), (N.leb_spec nh 4); try lia; reflexivity. }
  split; [split|].
  - discriminate.
  - unfold write_floret. apply (emits_framed_const (chunk_num CFloretSubwordVocab)); [lia|]. rewrite Ev, Eix.
    cbn [sv_bow sv_eow sv_min sv_max sv_ix fl_buckets fl_seed fl_hashes].
    eapply emits_ext; [|eapply emits_seq; [apply emits_u32|eapply emits_seq; [apply emits_u32|
      eapply emits_seq; [apply emits_u64|eapply emits_seq; [apply emits_u32|eapply emits_seq; [apply emits_u32|
        eapply emits_seq; [exact BE|exact EE]]]]]]]. layout.
  - unfold read_floret. apply reads_framed; [discriminate|].
    eapply reads_ext; [|eapply reads_bind; [apply (reads_u32 mn), Lmn|]].
    2:{ cbv beta. eapply reads_bind; [apply (reads_u32 mx), Lmx|]. cbv beta.
        eapply reads_bind; [apply (reads_u64 nb), Lnb|]. cbv beta.
        eapply reads_bind; [apply (reads_u32 nh), Lnh'|]. cbv beta. rewrite Cnh.
        eapply reads_bind; [apply (reads_u32 seed), Lseed|]. cbv beta.
        eapply reads_bind; [exact BR|]. cbv beta. eapply reads_bind; [exact ER|]. cbv beta.
        eapply reads_lift; [exact Hix|]. cbv beta. rewrite E. apply reads_ret. }
    layout.
  - intros pos. rewrite framed_len. unfold fconst. symmetry. exact EL.
  - unfold read_floret. apply (short_framed CFloretSubwordVocab); [discriminate|].
    eapply short_ext; [|eapply short_bind; [apply (reads_u32 mn), Lmn|apply short_u32|]].
    2:{ cbv beta. eapply short_bind; [apply (reads_u32 mx), Lmx|apply short_u32|]. cbv beta.
        eapply short_bind; [apply (reads_u64 nb), Lnb|apply short_u64|]. cbv beta.
        eapply short_bind; [apply (reads_u32 nh), Lnh'|apply short_u32|]. cbv beta. rewrite Cnh.
        eapply short_bind; [apply (reads_u32 seed), Lseed|apply short_u32|]. cbv beta.
        eapply short_bind; [exact BR|exact BS|]. cbv beta. eapply short_bind; [exact ER|exact ES|]. cbv beta.
        eapply short_lift; [exact Hix|]. cbv beta. rewrite E. apply short_ret. }
    layout.
Qed.

(** Explicit vocabulary. *)

(** State invariant of [new_with_indices]. *)
Definition nwi_inv (st : nwi_state) : Prop :=
  let '(o2n, idx, ngs) := st in
  (forall k i, In (k, i) o2n -> i < lenN o2n) /\
  NoDup ngs /\
  (forall g, In g ngs <-> hm_get idx g <> None) /\
  (forall g i, hm_get idx g = Some i -> exists k, In (k, i) o2n) /\
  NoDup (map fst o2n) /\ NoDup (map snd o2n) /\ lenN o2n <= lenN ngs.

Definition retuple (idx : hmap N) (ngs : list str) : list (str * N) :=
  map (fun g => (g, match hm_get idx g with Some i => i | None => 0 end)) ngs.

Lemma nwi_step_inv st p st' : nwi_inv st -> nwi_step st p = Ok st' -> nwi_inv st'.
Proof.
  destruct st as [[o2n idx] ngs]. destruct p as [g b]. cbn [nwi_inv nwi_step].
  intros (I1 & I2 & I3 & I4 & I5 & I6 & I7) H.
  assert (hm_get idx g = None) as NG by (destruct (nm_get o2n b), (hm_get idx g); congruence).
  assert (~ In g ngs) as NI by (rewrite I3; tauto).
  rewrite NG in H.
  assert (forall x i, hm_get (hm_insert idx g i) x = if str_eqb g x then Some i else hm_get idx x) as G.
  { intros x i. destruct (str_eqb g x) eqn:E.
    - apply str_eqb_eq in E; subst. apply hm_insert_get_same.
    - apply str_eqb_neq in E. apply hm_insert_get_other; auto. }
  assert (NoDup (ngs ++ [g])) as ND'.
  { rewrite <- (rev_involutive (ngs ++ [g])). apply NoDup_rev. rewrite rev_app_distr. cbn [rev app].
    constructor; [rewrite <- in_rev; auto|apply NoDup_rev; auto]. }
  assert (forall x i, In x (ngs ++ [g]) <-> hm_get (hm_insert idx g i) x <> None) as I3'.
  { intros x i. rewrite in_app_iff, I3, G. cbn [In]. destruct (str_eqb g x) eqn:E.
    - apply str_eqb_eq in E. split; [discriminate|auto].
    - apply str_eqb_neq in E. tauto. }
  destruct (nm_get o2n b) as [i|] eqn:Nb; inv H.
  - cbn [nwi_inv]. repeat split; auto; try apply I3'.
    + intros x j. rewrite G. destruct (str_eqb g x); [|apply I4]. intros E; inv E.
      exists b. apply nm_get_In; auto.
    + rewrite lenN_app. lia.
  - cbn [nwi_inv]. rewrite lenN_cons. repeat split; auto; try apply I3'.
    + intros k j [E|E]; [inv E; lia|]. apply I1 in E. lia.
    + intros x j. rewrite G. destruct (str_eqb g x).
      * intros E; inv E. exists b. left; auto.
      * intros E. apply I4 in E as [k E]. exists k. right; auto.
    + cbn [map fst]. constructor; auto. apply nm_get_None; auto.
    + cbn [map snd]. constructor; auto. intros E. apply in_map_iff in E as ([k j] & E1 & E2).
      cbn in E1. subst. apply I1 in E2. lia.
    + rewrite lenN_app, lenN_cons, lenN_nil. lia.
Qed.

Lemma nwi_init_inv : nwi_inv ([], [], []).
Proof.
  cbn. repeat split; try constructor; try tauto; try discriminate; try lia.
Qed.

Lemma rfold_inv {A B} (P : B -> Prop) (f : B -> A -> res B) l b b' :
  (forall b a b', P b -> f b a = Ok b' -> P b') -> P b -> rfold f l b = Ok b' -> P b'.
Proof.
  intros H. revert b; induction l; cbn [rfold]; intros b Hb E.
  - inv E. auto.
  - rinv E. eauto.
Qed.

Lemma nwi_inv_reach tuples st : rfold nwi_step tuples ([], [], []) = Ok st -> nwi_inv st.
Proof. apply rfold_inv; [apply nwi_step_inv|apply nwi_init_inv]. Qed.

Lemma nm_get_dup (o2n : nmap N) i :
  nm_get (map (fun p : N * N => (snd p, snd p)) o2n) i
  = if existsb (N.eqb i) (map snd o2n) then Some i else None.
Proof.
  induction o2n as [|[k j] m IH]; cbn [map nm_get existsb snd]; [reflexivity|].
  destruct (N.eqb_spec i j); cbn [orb]; [congruence|exact IH].
Qed.

Lemma retuple_renumber tuples o2n idx ngs :
  rfold nwi_step tuples ([], [], []) = Ok (o2n, idx, ngs) ->
  rfold nwi_step (retuple idx ngs) ([], [], [])
  = Ok (map (fun p => (snd p, snd p)) o2n, idx, ngs).
Proof.
  revert o2n idx ngs. induction tuples as [|[g b] tuples IH] using rev_ind; intros o2n idx ngs E.
  - cbn in E. inv E. reflexivity.
  - rewrite rfold_app in E. rinv E. destruct a as [[o2n0 idx0] ngs0].
    pose proof (nwi_inv_reach _ _ H) as (I1 & I2 & I3 & I4 & I5 & I6 & I7).
    specialize (IH _ _ _ H). cbn [rfold] in H0. rinv H0. inv H2. cbn [nwi_step] in H1.
    assert (hm_get idx0 g = None) as NG by (destruct (nm_get o2n0 b), (hm_get idx0 g); congruence).
    rewrite NG in H1. assert (~ In g ngs0) as NI by (rewrite I3; tauto).
    assert (forall i, retuple (hm_insert idx0 g i) (ngs0 ++ [g]) = retuple idx0 ngs0 ++ [(g, i)]) as R.
    { intros i. unfold retuple. rewrite map_app. cbn [map]. rewrite hm_insert_get_same. f_equal.
      apply map_ext_in. intros x Hx. rewrite hm_insert_get_other; [reflexivity|]. intros ->. tauto. }
    destruct (nm_get o2n0 b) as [i|] eqn:Nb; inv H1.
    + rewrite R, rfold_app, IH. cbn [rbind rfold nwi_step]. rewrite NG, nm_get_dup.
      replace (existsb (N.eqb i) (map snd o2n)) with true; [reflexivity|].
      symmetry. apply existsb_exists. exists i. split; [|apply N.eqb_refl].
      apply nm_get_In in Nb. apply in_map_iff. exists (b, i). auto.
    + rewrite R, rfold_app, IH. cbn [rbind rfold nwi_step]. rewrite NG, nm_get_dup.
      replace (existsb (N.eqb (lenN o2n0)) (map snd o2n0)) with false; [rewrite lenN_map; reflexivity|].
      symmetry. destruct (existsb _ _) eqn:X; [|reflexivity].
      apply existsb_exists in X as (j & J1 & J2). apply N.eqb_eq in J2. subst.
      apply in_map_iff in J1 as ([k j] & J1 & J2). cbn in J1. subst. apply I1 in J2. lia.
Qed.

(** An indexer obtained from either constructor. *)
Lemma explicit_new_create ngs : explicit_new ngs =
  if hm_len (create_indices ngs) =? lenN ngs
  then Ok (mkExIx ngs (create_indices ngs) (hm_len (create_indices ngs))) else Panic PDuplicateNGrams.
Proof. unfold explicit_new, create_indices, rassert. destruct (_ =? _); reflexivity. Qed.

Lemma explicit_new_nwi ngs ix : explicit_new ngs = Ok ix ->
  NoDup ngs /\ ix = mkExIx ngs (create_indices ngs) (lenN ngs) /\
  explicit_new_with_indices (map (fun p => (snd p, fst p)) (enumerate ngs))
  = Ok (ix, rev (map (fun i => (i, i)) (rangeN (lenN ngs)))).
Proof.
  rewrite explicit_new_create. destruct (N.eqb_spec (hm_len (create_indices ngs)) (lenN ngs)) as [E|]; [|discriminate].
  intros H; inv H. symmetry in E. pose proof E as E'. apply ci_len_NoDup in E'.
  split; [auto|]. rewrite E at 1 2. split; [reflexivity|].
  rewrite <- E. clear E.
  enough (rfold nwi_step (map (fun p => (snd p, fst p)) (enumerate ngs)) ([], [], [])
     = Ok (rev (map (fun i => (i, i)) (rangeN (lenN ngs))), create_indices ngs, ngs)) as R.
  { unfold explicit_new_with_indices. rewrite R. cbn [rbind]. rewrite lenN_rev, lenN_map, rangeN_lenN. reflexivity. }
  induction ngs as [|g ngs IH] using rev_ind; [reflexivity|].
  apply NoDup_remove in E'. rewrite app_nil_r in E'. destruct E' as [ND NI].
  rewrite enumerate_snoc, map_app, rfold_app, IH by auto. cbn [map rbind rfold nwi_step snd fst].
  replace (nm_get (rev (map (fun i => (i, i)) (rangeN (lenN ngs)))) (lenN ngs)) with (@None N).
  2:{ symmetry. apply nm_get_None. rewrite map_rev, map_map, <- in_rev. cbn [fst]. rewrite map_id, rangeN_In. lia. }
  replace (hm_get (create_indices ngs) g) with (@None N) by (symmetry; apply ci_get_None; auto).
  cbn [rbind]. rewrite lenN_rev, lenN_map, rangeN_lenN, create_indices_snoc.
  rewrite lenN_app, lenN_cons, lenN_nil. replace (lenN ngs + (1 + 0)) with (N.succ (lenN ngs)) by lia.
  rewrite rangeN_succ, map_app, rev_app_distr. reflexivity.
Qed.

Lemma explicit_built_nwi ix : explicit_built ix ->
  exists tuples o2n, explicit_new_with_indices tuples = Ok (ix, o2n).
Proof.
  intros [[ngs H]|H]; [|exact H]. apply explicit_new_nwi in H as (_ & _ & H). eauto.
Qed.

Lemma explicit_built_facts ix : explicit_built ix ->
  exists o2n, explicit_new_with_indices (retuple (ei_index ix) (ei_ngrams ix)) = Ok (ix, o2n) /\
  NoDup (ei_ngrams ix) /\
  (forall g, In g (ei_ngrams ix) <-> exists i, hm_get (ei_index ix) g = Some i) /\
  (forall g i, hm_get (ei_index ix) g = Some i -> i < ei_bound ix) /\
  ei_bound ix <= lenN (ei_ngrams ix).
Proof.
  intros H. apply explicit_built_nwi in H as (tuples & o2n & H).
  unfold explicit_new_with_indices in H. rinv H. destruct a as [[o2n0 idx] ngs]. inv H1.
  pose proof (retuple_renumber _ _ _ _ H0) as R. pose proof (nwi_inv_reach _ _ H0) as (I1 & I2 & I3 & I4 & _ & _ & I7).
  cbn [ei_ngrams ei_index ei_bound]. eexists. split; [|split; [|split; [|split]]].
  - unfold explicit_new_with_indices. rewrite R. cbn [rbind]. rewrite lenN_map. reflexivity.
  - auto.
  - intros g. rewrite I3. destruct (hm_get idx g); split; try congruence; eauto. intros [? ?]; discriminate.
  - intros g i Hg. apply I4 in Hg as [k Hk]. eauto.
  - auto.
Qed.

Definition ngram_bytes (p : str * N) : list byte := string_bytes (fst p) ++ le_bytes 8 (snd p).
Definition explicit_body (ws : list str) (mn mx : N) (ngs : list (str * N)) : list byte :=
  le_bytes 8 (lenN ws) ++ le_bytes 8 (lenN ngs) ++ le_bytes 4 mn ++ le_bytes 4 mx
  ++ flat_map string_bytes ws ++ flat_map ngram_bytes ngs.

Lemma ngram_item_codec g i : str_ok g -> i < two64 ->
  reads read_ngram_item (fconst (ngram_bytes (g, i))) (g, i) /\
  short read_ngram_item (fconst (ngram_bytes (g, i))).
Proof.
  intros [V L] Hi. split.
  - unfold read_ngram_item. eapply reads_ext; [|eapply reads_bind; [apply (reads_u32 (lenN g)), L|]].
    2:{ cbv beta. eapply reads_bind; [apply reads_exact|]. cbv beta. rewrite V.
        eapply reads_bind; [apply (reads_u64 i), Hi|]. cbv beta. apply reads_ret. }
    unfold ngram_bytes, string_bytes. cbn [fst snd]. layout.
  - unfold read_ngram_item. eapply short_ext; [|eapply short_bind; [apply (reads_u32 (lenN g)), L|apply short_u32|]].
    2:{ cbv beta. eapply short_bind; [apply reads_exact|apply short_exact|]. cbv beta. rewrite V.
        eapply short_bind; [apply (reads_u64 i), Hi|apply short_u64|]. cbv beta. apply short_ret. }
    unfold ngram_bytes, string_bytes. cbn [fst snd]. layout.
Qed.

Lemma explicit_ngrams_len l idx :
  fold_left (fun a g => a + (lenN g + 4 + 8)) l 0 = lenN (flat_map ngram_bytes (retuple idx l)).
Proof.
  assert (forall a, fold_left (fun a g => a + (lenN g + 4 + 8)) l a
    = a + lenN (flat_map ngram_bytes (retuple idx l))) as H; [|rewrite H; lia].
  induction l as [|s l IH]; intros a; cbn [fold_left flat_map retuple map].
  - rewrite lenN_nil. lia.
  - rewrite IH. unfold ngram_bytes at 2, string_bytes. rewrite !lenN_app, !le_bytes_lenN. cbn [fst].
    fold (retuple idx l). lia.
Qed.

Lemma explicit_codec pf ws mn mx ix v :
  words_ok ws -> mn < two32 -> mx < two32 ->
  explicit_built ix -> Forall str_ok (ei_ngrams ix) -> lenN (ei_ngrams ix) * 32 <= isize_max ->
  sub_new explicit_ops pf ws mn mx ix = Ok v ->
  let body := explicit_body ws mn mx (retuple (ei_index ix) (ei_ngrams ix)) in
  chunk_codec CExplicitSubwordVocab (write_explicit v) (read_explicit pf) (fconst body)
    (fun _ => explicit_chunk_len v) v /\
  short (read_explicit pf) (framed 8 (fconst body)).
Proof.
  intros W Lmn Lmx Hix HG LG E body. pose proof (words_ok_64 ws W) as L64. destruct W as [W L].
  pose proof E as E'. apply sub_new_wb_Ok in E' as (ND & Ev & _).
  destruct (explicit_built_facts ix Hix) as (o2n & R & NDg & KG & BG & LB).
  destruct (items_codec ws _ W eq_refl L) as (IE & IR & IS).
  assert (lenN (ei_ngrams ix) < two64) as LG64 by (unfold isize_max, two64 in *; lia).
  set (ngs := retuple (ei_index ix) (ei_ngrams ix)) in *.
  assert (lenN ngs = lenN (ei_ngrams ix)) as Lngs by apply lenN_map.
  assert (forall p, In p ngs -> str_ok (fst p) /\ snd p < two64) as HN.
  { intros [g i] Hp. apply in_map_iff in Hp as (g' & Eg & Ig). inv Eg. cbn [fst snd].
    rewrite Forall_forall in HG. split; [auto|]. apply KG in Ig as [i Hi]. rewrite Hi.
    apply BG in Hi. lia. }
  assert (explicit_chunk_len v = 12 + lenN body) as EL.
  { unfold explicit_chunk_len, body, explicit_body. rewrite Ev. cbn [sv_words sv_ix].
    rewrite items_len_flat, (explicit_ngrams_len _ (ei_index ix)). fold ngs.
    rewrite !lenN_app, !le_bytes_lenN. lia. }
  assert (reads (read_ngrams_with_indices (lenN ngs)) (fconst (flat_map ngram_bytes ngs)) ngs) as NR.
  { unfold read_ngrams_with_indices. apply reads_reserve; [lia|]. apply reads_repeat_const.
    intros [g i] Hp. destruct (HN _ Hp). apply ngram_item_codec; auto. }
  assert (short (read_ngrams_with_indices (lenN ngs)) (fconst (flat_map ngram_bytes ngs))) as NS.
  { unfold read_ngrams_with_indices. apply short_reserve; [lia|]. apply short_repeat_const;
    intros [g i] Hp; destruct (HN _ Hp); apply ngram_item_codec; auto. }
  assert (emits (write_ngrams_with_indices ix) (fconst (flat_map ngram_bytes ngs))) as NE.
  { unfold write_ngrams_with_indices. subst ngs. unfold retuple.
    eapply emits_ext; [|apply (emits_for_each_const _ _
      (fun g => ngram_bytes (g, match hm_get (ei_index ix) g with Some i => i | None => 0 end)))].
    - intros pos. unfold fconst. rewrite !flat_map_concat_map, map_map. reflexivity.
    - intros g Hg. apply KG in Hg as [i Hi]. rewrite Hi.
      eapply emits_lift_ok; [unfold explicit_index; cbn [sw_str swcl_new]; rewrite Hi; reflexivity|].
      cbv beta iota. eapply emits_ext; [|emits_chain]. unfold ngram_bytes, string_bytes. layout. }
  assert (lenN ngs < two64) as Ln64 by lia.
  split; [split|].
  - discriminate.
  - unfold write_explicit. apply (emits_framed_const (chunk_num CExplicitSubwordVocab)); [lia|]. rewrite Ev.
    cbn [sv_words sv_min sv_max sv_ix].
    eapply emits_ext; [|eapply emits_seq; [apply emits_u64|eapply emits_seq; [apply emits_u64|
      eapply emits_seq; [apply emits_u32|eapply emits_seq; [apply emits_u32|
        eapply emits_seq; [exact IE|exact NE]]]]]].
    unfold body, explicit_body. rewrite Lngs. layout.
  - unfold read_explicit. apply reads_framed; [discriminate|].
    eapply reads_ext; [|eapply reads_bind; [apply (reads_u64 (lenN ws)), L64|]].
    2:{ cbv beta. eapply reads_bind; [apply (reads_u64 (lenN ngs)), Ln64|]. cbv beta.
        eapply reads_bind; [apply (reads_u32 mn), Lmn|]. cbv beta.
        eapply reads_bind; [apply (reads_u32 mx), Lmx|]. cbv beta.
        eapply reads_bind; [exact IR|]. cbv beta. eapply reads_bind; [exact NR|]. cbv beta.
        eapply reads_lift; [exact R|]. cbv beta. cbn [fst]. rewrite E. apply reads_ret. }
    unfold body, explicit_body. layout.
  - intros pos. rewrite framed_len. unfold fconst. symmetry. exact EL.
  - unfold read_explicit. apply (short_framed CExplicitSubwordVocab); [discriminate|].
    eapply short_ext; [|eapply short_bind; [apply (reads_u64 (lenN ws)), L64|apply short_u64|]].
    2:{ cbv beta. eapply short_bind; [apply (reads_u64 (lenN ngs)), Ln64|apply short_u64|]. cbv beta.
        eapply short_bind; [apply (reads_u32 mn), Lmn|apply short_u32|]. cbv beta.
        eapply short_bind; [apply (reads_u32 mx), Lmx|apply short_u32|]. cbv beta.
        eapply short_bind; [exact IR|exact IS|]. cbv beta. eapply short_bind; [exact NR|exact NS|]. cbv beta.
        eapply short_lift; [exact R|]. cbv beta. cbn [fst]. rewrite E. apply short_ret. }
    unfold body, explicit_body. layout.
Qed.
