(** * Reading files in other formats that were cut (C129). *)
From Coq Require Import Strings.String.
From Verif Require Import Base BaseFacts Utf8 Utf8Facts Stream StreamFacts F32 ChunkIO ChunkFacts Subword Vocab VocabFacts Storage StorageFacts
  Embeddings TextIO FastText FileSpec VocabSpec EmbSpec TextSpec TextFacts TextThms TextAccept BinaryThms FloretThms LossyFacts FastTextSpec FastTextFacts FastTextThms
  Messages MessageSpec CompatMessages CompatErasure CompatTexts CompatCut CompatFastText SurviveThms.
Local Open Scope N_scope.

(** ** A cut header *)
Lemma dec_fuel_first fuel n acc : n <> 0 -> n < 10 ^ N.of_nat fuel ->
  exists d r, dec_fuel fuel n acc = digit d :: r /\ 0 < d < 10.
Proof.
  revert n acc. induction fuel as [|fuel IH]; intros n acc NZ H; [change (10 ^ N.of_nat 0) with 1 in H; lia|].
  cbn [dec_fuel]. pose proof (N.div_mod n 10 ltac:(discriminate)) as DM. assert (n mod 10 < 10) as M by (apply N.mod_lt; discriminate).
  destruct (N.eqb_spec (n / 10) 0) as [Z|Z].
  - exists (n mod 10). eexists. split; [reflexivity|]. lia.
  - apply IH; [exact Z|]. apply N.div_lt_upper_bound; [discriminate|]. rewrite Nat2N.inj_succ, N.pow_succ_r' in H. exact H.
Qed.
Lemma dec_print_first n : n <> 0 -> exists d r, dec_print n = digit d :: r /\ 0 < d < 10.
Proof.
  intros NZ. apply dec_fuel_first; [exact NZ|].
  assert (n < 2 ^ N.of_nat (N.size_nat n)) as L.
  { destruct n as [|p]; [reflexivity|]. cbn [N.size_nat]. pose proof (N.size_gt (Npos p)) as G. cbn [N.size] in G.
    replace (N.of_nat (Pos.size_nat p)) with (Npos (Pos.size p)); [exact G|].
    clear. induction p; cbn [Pos.size Pos.size_nat]; rewrite ?Nat2N.inj_succ, <- ?IHp; try lia; reflexivity. }
  assert (2 ^ N.of_nat (N.size_nat n) <= 10 ^ N.of_nat (N.size_nat n)) by (apply N.pow_le_mono_l; lia).
  rewrite Nat2N.inj_succ, N.pow_succ_r'. lia.
Qed.
Lemma digits_text_inj a b : Forall (fun d => d < 10) a -> Forall (fun d => d < 10) b -> digits_text a = digits_text b -> a = b.
Proof.
  revert b. induction a as [|x a IH]; intros [|y b] Fa Fb E; try discriminate; [reflexivity|]. apply Forall_cons_iff in Fa as [? Fa], Fb as [? Fb].
  cbn [digits_text map] in E. injection E as E1 E2. apply (f_equal bN) in E1. rewrite !bN_Nb_small in E1 by lia. f_equal; [lia|]. apply IH; auto.
Qed.
(** The beginning of a number is a smaller number, but not zero. *)
Lemma number_prefix n p q m : dec_print n = p ++ q -> numeral p m -> n <> 0 -> m <> 0 /\ m <= n.
Proof.
  intros E (ds & NE & F & -> & [-> | ->]) NZ.
  - destruct (dec_print_digits n) as (es & _ & Fe & V & Et). rewrite Et in E.
    assert (exists fs, es = ds ++ fs) as (fs & Ef).
    { exists (map (fun b => bN b - 48) q). assert (forall l, Forall (fun d => d < 10) l -> map (fun b => bN b - 48) (digits_text l) = l) as INV.
      { clear. induction 1 as [|x l H F IH]; [reflexivity|]. cbn [digits_text map]. rewrite bN_Nb_small by lia. f_equal; [lia|exact IH]. }
      rewrite <- (INV es Fe), <- (INV ds F), E at 1. apply map_app. }
    assert (digits_value ds <= n) as LE.
    { rewrite <- V, Ef, digits_value_app. assert (1 <= 10 ^ lenN fs) by (apply (N.pow_le_mono_r 10 0); lia). nia. }
    split; [|exact LE]. destruct ds as [|d ds]; [congruence|]. destruct (dec_print_first n NZ) as (d' & r & E1 & D). rewrite Et, Ef in E1. cbn [app digits_text map] in E1.
    injection E1 as E1 _. apply Forall_cons_iff in F as [Fd _]. apply (f_equal bN) in E1. unfold digit in E1. rewrite !bN_Nb_small in E1 by lia.
    cbn [digits_value]. assert (1 <= 10 ^ lenN ds) by (apply (N.pow_le_mono_r 10 0); lia). nia.
  - exfalso. assert (In x2b (dec_print n)) as I by (rewrite E; left; reflexivity). apply dec_print_range in I. change (bN x2b) with 43 in I. lia.
Qed.
Lemma number_cut d p pos : ~ In d p -> (exists s', read_number d (mkStream p pos) = (Err EFormat, s')) \/
  exists m p0, read_number d (mkStream p pos) = (Ok m, mkStream [] (pos + lenN p)) /\ p = p0 ++ match p with [] => [] | _ => [last p x00] end /\ numeral p0 m /\ m < two64.
Proof.
  intros NI. unfold read_number, read_string, bind. rewrite read_until_miss by exact NI. destruct (utf8_valid (removelast p)); [|left; eexists; reflexivity].
  unfold ret. destruct (dec_parse (removelast p)) as [m|] eqn:E; [|left; eexists; reflexivity].
  right. apply dec_parse_spec in E as [E L]. exists m, (removelast p). split; [reflexivity|]. split; [|auto].
  destruct p as [|b p]; [reflexivity|]. apply app_removelast_last. discriminate.
Qed.
Lemma header_cut {A} (k : N -> N -> reader A) n d i : n < two64 -> d < two64 -> d <> 0 ->
  (forall d' p, d' <= d -> d' <> 0 -> exists er s', k n d' (mkStream [] p) = (Err er, s')) -> i < lenN (dims_bytes n d) ->
  exists er s', (x <- read_number x20 ;; y <- read_number x0a ;; k x y) (mkStream (takeN i (dims_bytes n d)) 0) = (Err er, s').
Proof.
  intros Ln Ld NZ K Hi. assert (forall p, exists s', read_number x0a (mkStream [] p) = (Err EFormat, s')) as NIL.
  { intros p. unfold read_number, read_string, bind. rewrite read_until_miss by (intros []). eexists. reflexivity. }
  assert (forall b m, ~ 48 <= bN b <= 57 -> ~ In b (dec_print m)) as ND by (intros b m H I; apply H; exact (dec_print_range _ _ I)).
  assert (forall {X} j (l : list X) x, In x (takeN j l) -> In x l) as SUB.
  { intros X j l x I. rewrite <- (takeN_dropN j l). apply in_or_app. auto. }
  unfold dims_bytes in *. rewrite !lenN_app, !lenN_cons, !lenN_nil in Hi. destruct (N.le_gt_cases i (lenN (dec_print n))) as [L|L].
  - rewrite takeN_app_le by exact L.
    destruct (number_cut x20 (takeN i (dec_print n)) 0) as [(s' & E)|(m & p0 & E & _)].
    + intros I. exact (ND x20 n ltac:(change (bN x20) with 32; lia) (SUB _ _ _ _ I)).
    + exists EFormat, s'. unfold bind at 1. rewrite E. reflexivity.
    + unfold bind at 1. rewrite E. destruct (NIL (0 + lenN (takeN i (dec_print n)))) as (s' & E'). exists EFormat, s'. unfold bind. rewrite E'. reflexivity.
  - rewrite takeN_app_ge by lia. replace (takeN (i - lenN (dec_print n)) ([x20] ++ dec_print d ++ [x0a])) with (x20 :: takeN (i - lenN (dec_print n) - 1) (dec_print d)).
    2:{ change ([x20] ++ dec_print d ++ [x0a]) with ([x20] ++ (dec_print d ++ [x0a])). rewrite takeN_app_ge by (rewrite lenN_cons, lenN_nil; lia).
        rewrite lenN_cons, lenN_nil, N.add_0_r, takeN_app_le by lia. reflexivity. }
    set (g := takeN _ (dec_print d)). unfold bind at 1. rewrite (proj1 (read_number_field x20 (dec_print n) g 0 (ND x20 n ltac:(change (bN x20) with 32; lia))) n (dec_print_numeral n) Ln).
    destruct (number_cut x0a g (0 + lenN (dec_print n) + 1)) as [(s' & E)|(m & p0 & E & G & NU & L')].
    + intros I. exact (ND x0a d ltac:(change (bN x0a) with 10; lia) (SUB _ _ _ _ I)).
    + exists EFormat, s'. unfold bind. rewrite E. reflexivity.
    + unfold bind. rewrite E.
      destruct (number_prefix d p0 (match g with [] => [] | _ => [last g x00] end ++ dropN (i - lenN (dec_print n) - 1) (dec_print d)) m) as [M1 M2]; auto.
      rewrite app_assoc, <- G. symmetry. apply takeN_dropN.
Qed.

(** ** word2vec *)
Lemma binary_items_prefix lossy d data l rest : binary_items lossy d data l rest -> exists x, data = x ++ rest /\ forall r, binary_items lossy d (x ++ r) l r.
Proof.
  induction 1 as [rest|name s w v r l rest NI D T L B (x & -> & IH)]; [exists []; split; [reflexivity|intros r; constructor]|].
  exists (name ++ x20 :: f32s_bytes v ++ x). split; [rewrite <- app_assoc; cbn [app]; rewrite <- app_assoc; reflexivity|].
  intros r. rewrite <- app_assoc. cbn [app]. rewrite <- app_assoc. econstructor; eauto.
Qed.
Lemma binary_fits_less n d d' : binary_fits n d -> d' <= d -> d' <> 0 -> binary_fits n d'.
Proof.
  intros [[H1 H2] H3] L NZ. split; [|exact H3]. cbn [fold_left] in *. unfold dims_ok. cbn [fold_left].
  assert (nonzero d' <= nonzero d) by (unfold nonzero; destruct (N.eqb_spec d' 0), (N.eqb_spec d 0); lia).
  assert (1 * n * d' <= 1 * n * d) by (apply N.mul_le_mono_l; exact L). split; [|lia].
  etransitivity; [|exact H1]. apply N.mul_le_mono_l. assumption.
Qed.
Lemma entries_missing lossy n d p : n <> 0 -> d <> 0 -> exists er s', repeat_m n (read_w2v_entry d lossy) (mkStream [] p) = (Err er, s').
Proof.
  intros NZ DZ. rewrite repeat_m_nat. destruct (N.to_nat n) as [|m] eqn:E; [lia|]. cbn [repeat_nat]. unfold bind at 1, read_w2v_entry, bind at 1.
  assert (read_string x20 lossy (mkStream [] p) = (Ok [], mkStream [] (p + 0))) as ->.
  { unfold read_string, bind. rewrite read_until_miss by (intros []). cbn [removelast]. destruct lossy; reflexivity. }
  destruct (short_f32s (repeat f32_zero (N.to_nat d)) d) with (pos := p + 0) (p := @nil byte) (q := f32s_bytes (repeat f32_zero (N.to_nat d))) (b := false) as (er & s' & H).
  - unfold lenN. rewrite repeat_length. lia.
  - reflexivity.
  - intros X. apply (f_equal lenN) in X. rewrite f32s_bytes_lenN, lenN_nil in X. unfold lenN in X. rewrite repeat_length in X. lia.
  - exists er, s'. unfold bind at 1. rewrite H. reflexivity.
Qed.

Lemma newline_moved l : [x0a] ++ flat_map binary_entry l =
  flat_map (fun it => fst it ++ x20 :: f32s_bytes (snd it)) (map (fun it => (x0a :: fst it, snd it)) l) ++ [x0a].
Proof.
  induction l as [|[w v] l IH]; [reflexivity|]. cbn [map flat_map fst snd]. rewrite <- app_assoc, <- IH. unfold binary_entry at 1. cbn [fst snd app].
  repeat (rewrite <- app_assoc; cbn [app]). reflexivity.
Qed.

Section Binary.
  Context {Md S : Type} (SO : storage_ops f32 S) (pf : profile).
  Variables (e : embeddings Md vocab_wrap S f32) (cols : N) (rows : list (list f32)).
  Hypothesis made : emb_made SO pf e cols rows.
  Hypothesis norms : norms_fit e.
  Hypothesis binary_words : Forall binary_word (v_words wrap_ops (em_vocab e)).
  Notation result := (embeddings Md simple_vocab (array2 f32) f32).

  (** Only the last newline is not needed. *)
  Lemma w2v_truncated un lossy base : binary_fits (v_words_len wrap_ops (em_vocab e)) cols -> cols < two64 -> cols <> 0 ->
    v_words_len wrap_ops (em_vocab e) <> 0 ->
    exists out, run_writer (write_word2vec wrap_ops SO un e) base = Ok out /\
    (forall i, i + 1 < lenN out -> exists er, run_reader (read_word2vec (Md := Md) pf lossy) (takeN i out) = Err er) /\
    exists e' : result, run_reader (read_word2vec pf lossy) out = Ok e' /\ run_reader (read_word2vec pf lossy) (takeN (lenN out - 1) out) = Ok e'.
  Proof.
    intros F Lc NC NW. destruct (emits_binary SO pf e cols rows made norms un) as (l & O & E). eexists.
    split; [apply (emits_run _ _ base E)|]. unfold fconst. destruct (output_words SO pf e cols rows made un l O) as [ND L]. rewrite <- L in *.
    pose proof (output_width SO pf e cols rows made un l O) as OW.
    assert (lenN l < two64) as B1 by (destruct F as [_ F]; unfold isize_max, two64 in *; lia).
    assert (Forall binary_word (map fst l)) as BW by (rewrite (proj1 O); exact binary_words).
    assert (binary_items lossy cols ([] ++ flat_map binary_entry l) l (match l with [] => [] | _ => [x0a] end)) as B by (eapply binary_entries; eauto).
    destruct l as [|[w v] l]; [rewrite lenN_nil in NW; congruence|]. cbn [app] in B.
    set (its := (w, v) :: map (fun it => (x0a :: fst it, snd it)) l).
    assert (flat_map binary_entry ((w, v) :: l) = w2v_bytes its ++ [x0a]) as EB.
    { unfold its, w2v_bytes. cbn [flat_map]. unfold binary_entry at 1. cbn [fst snd]. rewrite <- !app_assoc. f_equal. cbn [app]. f_equal. rewrite <- app_assoc. f_equal. apply newline_moved. }
    assert (lenN its = lenN ((w, v) :: l)) as LI by (unfold its; rewrite !lenN_cons, lenN_map; reflexivity).
    set (n := lenN ((w, v) :: l)) in *.
    assert (Forall (fun it => ~ In x20 (fst it) /\ (lossy = false -> utf8_valid (fst it) = true) /\ lenN (snd it) = cols) its) as FI.
    { unfold its. apply Forall_cons_iff in OW as [O1 OW]. cbn [map fst] in BW. apply Forall_cons_iff in BW as [B2 BW]. constructor.
      - cbn [fst snd] in *. destruct B2 as [NS T]. split; [exact NS|]. split; [intros _; exact (proj1 (trims_valid _ _ T))|exact O1].
      - clear - OW BW. induction l as [|[w' v'] l IH]; [constructor|]. cbn [map fst snd] in *. apply Forall_cons_iff in OW as [O1 OW], BW as [[NS T] BW].
        constructor; [|apply IH; auto]. cbn [fst snd] in *. split; [intros [K|K]; [discriminate|auto]|]. split; [|exact O1].
        intros _. exact (proj1 (trims_valid _ _ (trims_newline _ T))). }
    assert (lenN (dims_bytes n cols ++ flat_map binary_entry ((w, v) :: l)) = lenN (dims_bytes n cols) + lenN (w2v_bytes its) + 1) as LO
      by (rewrite EB, !lenN_app, lenN_cons, lenN_nil; lia).
    split.
    - intros i Hi. rewrite LO in Hi. destruct (N.lt_ge_cases i (lenN (dims_bytes n cols))) as [H|H].
      + rewrite takeN_app_le by lia.
        destruct (header_cut (fun n d => alloc_zeros [n; d] 4 ;;; reserve n 24 ;;; es <- repeat_m n (read_w2v_entry d lossy) ;; v <- lift (simple_new (map fst es)) ;;
          lift (emb_new_with_maybe_norms simple_ops (nd_ops f32) pf (@None Md) v (mkA2 d (map snd es)) None)) n cols i) as (er & s' & X); auto.
        * intros d' p D1 D2. destruct (binary_fits_less n cols d' F D1 D2) as [F1 F2]. destruct (entries_missing lossy n d' p NW D2) as (er & s' & X).
          exists er, s'. unfold bind at 1. rewrite alloc_zeros_ok by exact F1. unfold bind at 1. rewrite reserve_ok by exact F2. unfold bind at 1. rewrite X. reflexivity.
        * exists er. unfold run_reader, read_word2vec, bind at 1, read_word2vec_raw. rewrite X. reflexivity.
      + rewrite EB, app_assoc, takeN_app_le by (rewrite lenN_app; lia).
        destruct (w2v_cut false pf Md lossy (dims_bytes n cols ++ w2v_bytes its) n cols its (header_dims n cols _ B1 Lc) F NC LI FI (i - lenN (dims_bytes n cols))) as (er & _ & X); [lia|].
        replace (lenN (dims_bytes n cols ++ w2v_bytes its) - lenN (w2v_bytes its) + (i - lenN (dims_bytes n cols))) with i in X by (rewrite lenN_app; lia).
        exists (kind er). unfold run_reader.
        pose proof (same_word2vec pf (Md := Md) lossy (mkStream (takeN i (dims_bytes n cols ++ w2v_bytes its)) 0)) as SM. rewrite X in SM. rewrite <- SM. reflexivity.
    - replace (takeN (lenN (dims_bytes n cols ++ flat_map binary_entry ((w, v) :: l)) - 1) (dims_bytes n cols ++ flat_map binary_entry ((w, v) :: l)))
        with (dims_bytes n cols ++ w2v_bytes its) by (rewrite LO, EB, app_assoc, takeN_app_ge by (rewrite lenN_app; lia); rewrite lenN_app;
          replace (_ - _) with 0 by lia; change (takeN 0 [x0a]) with (@nil byte); rewrite app_nil_r; reflexivity).
      assert (forall tail, binary_items lossy cols (w2v_bytes its ++ tail) ((w, v) :: l) tail) as BI.
      { rewrite EB in B. apply binary_items_prefix in B as (x & EX & B). apply app_inj_tail in EX as [-> _]. exact B. }
      assert (forall tail, exists (r : result) p, read_word2vec_raw pf lossy (mkStream (dims_bytes n cols ++ w2v_bytes its ++ tail) 0) = (Ok r, mkStream tail p) /\ raw_result r cols ((w, v) :: l)) as RB.
      { intros tail. exact (read_binary_items (Md := Md) pf lossy _ _ _ _ _ _ (header_dims n cols _ B1 Lc) (BI tail) eq_refl ND F). }
      destruct (RB [x0a]) as (r1 & p1 & R1 & RR1). destruct (RB []) as (r2 & p2 & R2 & RR2). rewrite app_nil_r in R2.
      assert (r1 = r2) as <-.
      { destruct RR1 as (V1 & S1 & N1 & M1), RR2 as (V2 & S2 & N2 & M2).
        assert (em_vocab r1 = em_vocab r2) as EV by congruence. assert (em_storage r1 = em_storage r2) as ES by congruence.
        assert (em_norms r1 = em_norms r2) as EN by congruence. assert (em_meta r1 = em_meta r2) as EM by congruence.
        clear - EV ES EN EM. destruct r1, r2. cbn in *. congruence. }
      destruct (raw_then_normalized pf cols r1 _ RR1) as (e'' & N1 & N2). exists e''. rewrite EB. unfold run_reader, read_word2vec, bind. rewrite R1, R2. split; exact N1.
  Qed.
End Binary.

(** ** fastText *)
Section FastTextCut.
  Context (pf : profile) (T : toml_ops) (config_table : ft_config -> option (toml_table T)) {S : Type} (SO : storage_ops f32 S).
  Variables (e : embeddings (toml_table T) (subword_vocab ft_indexer) S f32) (cols : N) (rows : list (list f32)).

  Lemma ft_truncated lossy base : ft_emb_made SO pf e cols rows ->
    lenN (sv_words (em_vocab e)) < two32 -> cols < two32 -> sv_min (em_vocab e) < two32 -> sv_max (em_vocab e) < two32 ->
    dims_ok [lenN rows; cols] 4 -> Forall (fun w => ~ In x00 w) (sv_words (em_vocab e)) ->
    exists out, run_writer (write_fasttext pf T SO e) base = Ok out /\
    forall i, i < lenN out -> exists er, run_reader (read_fasttext pf T config_table lossy) (takeN i out) = Err er.
  Proof.
    intros Mk LW LC Lmn Lmx D NZ. pose proof Mk as (M & V & U & Mx & _).
    destruct (ft_rows_count pf SO e cols rows Mk) as [LR SW].
    destruct (ft_bucket_small pf _ M) as (BZ & B & LB & ND).
    set (rows1 := ft_written_rows f32_ops pf e rows).
    set (f := ft_written e cols rows1). set (c := ft_written_config e cols).
    exists (ft_bytes f). split; [apply ft_writes_exact; auto|].
    assert (lenN rows1 = lenN rows) as L1 by apply (ft_written_unaveraged f32_ops pf SO e cols rows Mk).
    assert (ft_fields_ok f) as O.
    { unfold ft_fields_ok. cbn [f ft_written ff_magic ff_version ff_numbers ff_threshold ff_nwords ff_nlabels ff_tokens ff_prune ff_entries ff_quant]. rewrite lenN_map.
      assert (fi_buckets (sv_ix (em_vocab e)) < two32) by (unfold i32_max, two32 in *; lia).
      split; [repeat (constructor; [first [assumption|reflexivity]|]); constructor|]. split; [reflexivity|]. split; [reflexivity|].
      split; [repeat (constructor; [first [assumption|reflexivity]|]); constructor|]. split; [reflexivity|]. split; [reflexivity|]. split; [|reflexivity].
      apply Forall_map. eapply Forall_impl; [|exact NZ]. cbn beta. intros w Hw. repeat split; auto. }
    assert (ft_config_is f c) as C by (split; reflexivity).
    assert (ft_supported f) as Sp.
    { split; [reflexivity|]. split; [cbn; lia|]. split; [eauto|]. split; [reflexivity|]. split; [cbn; lia|]. cbn [f ft_written ff_entries]. apply Forall_map. apply Forall_forall. reflexivity. }
    assert (ft_words lossy f (sv_words (em_vocab e))) as W.
    { unfold ft_words. cbn [f ft_written ff_entries]. unfold vocab_utf8 in V. clear -V. induction V as [|w ws Vw V IH]; cbn [map]; constructor; auto. cbn [fst].
      unfold decodes. destruct lossy; [symmetry; apply from_utf8_lossy_id; exact Vw|auto]. }
    assert (ft_matrix_ok (ff_matrix f)) as MO.
    { unfold ft_matrix_ok. cbn [f ft_written ff_matrix a2_rows a2_cols]. rewrite L1. split; [apply (ft_written_wf f32_ops pf SO e cols rows Mk)|].
      split; [rewrite LR; exact LB|]. split; [unfold two32, two64 in *; lia|exact D]. }
    intros i Hi. destruct (ft_cut pf T config_table (fun _ => []) false lossy f c (sv_words (em_vocab e)) O Sp C W ND B ltac:(discriminate) MO 0 i Hi) as (er & _ & X).
    exists (kind er). unfold run_reader. pose proof (same_fasttext pf T config_table (fun _ => []) lossy (mkStream (takeN i (ft_bytes f)) 0)) as SM.
    rewrite X in SM. rewrite <- SM. reflexivity.
  Qed.
End FastTextCut.

(** ** Text with dimensions *)
Definition spaced (ps : list str) : str := flat_map (fun p => p ++ [x20]) ps.
Definition whole (p : str) : Prop := p <> [] /\ Forall (fun b => ~ blank b) p.
Lemma fields_space s fs : has_fields s fs -> has_fields (x20 :: s) fs.
Proof.
  intros H. assert (blank x20) as B by (left; reflexivity). destruct H as [s F|pre f r fs F N1 N2 N3 H]; [constructor; auto|].
  change (x20 :: pre ++ f ++ r) with ((x20 :: pre) ++ f ++ r). constructor; auto.
Qed.
Lemma spaced_fields ps s fs : Forall whole ps -> has_fields s fs -> has_fields (spaced ps ++ s) (ps ++ fs).
Proof.
  intros F H. induction F as [|p ps [N1 N2] F IH]; [exact H|]. unfold spaced in *. cbn [flat_map app]. rewrite <- !app_assoc. cbn [app].
  change (p ++ x20 :: flat_map (fun p => p ++ [x20]) ps ++ s) with ([] ++ p ++ x20 :: flat_map (fun p => p ++ [x20]) ps ++ s).
  constructor; auto; [|apply fields_space, IH]. intros b r' [= <- _]. left. reflexivity.
Qed.
Lemma whole_one s fs : Forall (fun b => ~ blank b) s -> has_fields s fs -> lenN fs <= 1 /\ (s <> [] -> fs = [s]).
Proof.
  intros N H. assert (s <> [] -> fs = [s]) as K.
  { intros NE. rewrite <- (fields_exact s fs H). apply fields_exact. rewrite <- (app_nil_r s) at 1. change (s ++ []) with ([] ++ s ++ []).
    constructor; auto; [discriminate|]. constructor. constructor. }
  split; [|exact K]. destruct s as [|b s]; [|rewrite K by discriminate; reflexivity].
  assert (fs = []) as ->; [|apply N.le_0_l]. rewrite <- (fields_exact [] fs H). reflexivity.
Qed.
Lemma Forall_takeN {A} (Q : A -> Prop) n l : Forall Q l -> Forall Q (takeN n l).
Proof. rewrite <- (takeN_dropN n l) at 1. intros H. apply Forall_app in H. apply H. Qed.
Lemma spaced_cut ps j fs : Forall whole ps -> has_fields (takeN j (spaced ps)) fs -> lenN fs <= lenN ps.
Proof.
  intros F. revert j fs. induction F as [|p ps [N1 N2] F IH]; intros j fs H.
  - assert (takeN j (spaced []) = []) as X by (unfold takeN; apply firstn_nil). rewrite X in H. rewrite <- (fields_exact _ _ H). apply N.le_0_l.
  - rewrite lenN_cons. unfold spaced in *. cbn [flat_map] in H. rewrite <- app_assoc in H. destruct (N.le_gt_cases j (lenN p)) as [L|L].
    + rewrite takeN_app_le in H by exact L. destruct (whole_one _ _ (Forall_takeN _ _ _ N2) H). lia.
    + rewrite takeN_app_ge in H by lia. cbn [app] in H.
      replace (takeN (j - lenN p) (x20 :: flat_map (fun p => p ++ [x20]) ps)) with (x20 :: takeN (j - lenN p - 1) (flat_map (fun p => p ++ [x20]) ps)) in H.
      2:{ change (x20 :: flat_map (fun p => p ++ [x20]) ps) with ([x20] ++ flat_map (fun p => p ++ [x20]) ps). rewrite takeN_app_ge by (rewrite lenN_cons, lenN_nil; lia).
          rewrite lenN_cons, lenN_nil, N.add_0_r. reflexivity. }
      destruct (has_fields_exist (takeN (j - lenN p - 1) (flat_map (fun p => p ++ [x20]) ps))) as (gs & G). pose proof (IH _ _ G) as LE.
      assert (has_fields (p ++ x20 :: takeN (j - lenN p - 1) (flat_map (fun p => p ++ [x20]) ps)) (p :: gs)) as H'.
      { pose proof (spaced_fields [p] _ _ (Forall_cons p (conj N1 N2) (Forall_nil _)) G) as X. unfold spaced in X. cbn [flat_map] in X. rewrite app_nil_r, <- app_assoc in X. exact X. }
      rewrite <- (fields_exact _ _ H), (fields_exact _ _ H'), lenN_cons. lia.
Qed.

Section TextCut.
  Context (P : ftext_ops) (law : ftext_law P).
  Notation line_of := (line_of P).
  Lemma join_last ps z : join [x20] (ps ++ [z]) = spaced ps ++ z.
  Proof.
    induction ps as [|p ps IH]; [reflexivity|]. unfold spaced in *. cbn [flat_map]. rewrite <- !app_assoc, <- IH. cbn [app]. destruct ps; reflexivity.
  Qed.
  Lemma line_last w v0 x : line_of (w, v0 ++ [x]) = spaced (w :: map (ft_print P) v0) ++ ft_print P x.
  Proof. unfold TextThms.line_of. cbn [fst snd]. rewrite map_app. cbn [map]. rewrite join_last. unfold spaced. cbn [flat_map]. rewrite <- !app_assoc. reflexivity. Qed.
  Lemma wholes w v0 : text_word w -> Forall whole (w :: map (ft_print P) v0).
  Proof.
    intros (N1 & N2 & _). constructor; [split; assumption|]. apply Forall_map, Forall_forall. intros x _. pose proof (printed_field P law x) as F.
    split; [apply F|apply field_nonblank, F].
  Qed.

  (** A cut line has fewer numbers, or only the last one is different. *)
  Lemma line_cut lossy w v0 x j it : text_word w -> Forall (fun y => f32_is_nan y = false) v0 -> j <= lenN (line_of (w, v0 ++ [x])) ->
    line_item P lossy (takeN j (line_of (w, v0 ++ [x]))) it -> lenN (snd it) <> lenN v0 + 1 \/
    lenN (line_of (w, v0 ++ [x])) < j + lenN (ft_print P x) /\ exists y, it = (w, v0 ++ [y]).
  Proof.
    intros W NN J (s & ps & D & H & F2). assert (length ps = length (snd it)) as LP by (clear - F2; induction F2; cbn [length]; congruence). set (pre := spaced (w :: map (ft_print P) v0)) in *.
    assert (lenN pre = lenN w + 1 + lenN (spaced (map (ft_print P) v0))) as LPRE by (unfold pre, spaced; cbn [flat_map]; rewrite !lenN_app, lenN_cons, lenN_nil; lia).
    rewrite line_last in *. fold pre in D, J |- *. rewrite lenN_app in *. destruct (N.le_gt_cases j (lenN pre)) as [L|L].
    - left. rewrite takeN_app_le in D by exact L. assert (lenN (fst it :: ps) <= lenN (w :: map (ft_print P) v0)) as LE.
      + destruct (N.le_gt_cases j (lenN w)) as [LW|LW].
        * assert (Forall (fun b => ~ blank b) s) as NB.
          { assert (takeN j pre = takeN j w) as E by (unfold pre, spaced; cbn [flat_map]; rewrite <- app_assoc, takeN_app_le by exact LW; reflexivity).
            rewrite E in D. assert (Forall (fun b => ~ blank b) (takeN j w)) as NW by (apply Forall_takeN, W). rewrite Forall_forall in *. intros b I K.
            apply (NW b); [|exact K]. unfold decodes in D. destruct lossy; [|destruct D as [-> _]; exact I]. rewrite D in I.
            apply lossy_in; [|exact I]. repeat (destruct K as [<-|K]; [reflexivity|]). destruct K. }
          destruct (whole_one s _ NB H) as [X _]. rewrite !lenN_cons in *. lia.
        * assert (s = takeN j pre) as ->; [|exact (spaced_cut _ _ _ (wholes w v0 W) H)].
          assert (utf8_valid (takeN j pre) = true) as VAL.
          { unfold pre, spaced. cbn [flat_map]. rewrite <- app_assoc, takeN_app_ge by lia. apply utf8_valid_app; [apply W|]. apply ascii_valid. intros b I.
            assert (In b ([x20] ++ flat_map (fun p => p ++ [x20]) (map (ft_print P) v0))) as I' by (rewrite <- (takeN_dropN (j - lenN w)); apply in_or_app; left; exact I).
            destruct I' as [<-|I']; [reflexivity|]. apply in_flat_map in I' as (p & Ip & I'). apply in_map_iff in Ip as (y & <- & _).
            apply in_app_or in I' as [I'|[<-|[]]]; [|reflexivity]. destruct (printed_field P law y) as [_ FA]. rewrite Forall_forall in FA. specialize (FA b I'). cbn in FA. lia. }
          unfold decodes in D. destruct lossy; [rewrite from_utf8_lossy_id in D by exact VAL; exact D|apply D].
      + rewrite !lenN_cons, lenN_map in LE. unfold lenN in *. lia.
    - destruct (N.eq_dec (lenN (snd it)) (lenN v0 + 1)) as [E|]; [|left; assumption]. right. split; [lia|].
      rewrite takeN_app_ge in D by lia. set (q := takeN (j - lenN pre) (ft_print P x)) in *.
      pose proof (printed_field P law x) as [XN XF].
      assert (Forall (fun b => 33 <= bN b <= 126) q) as QF by (apply Forall_takeN; exact XF).
      assert (q <> []) as QN by (intros K; apply (f_equal lenN) in K; unfold q in K; rewrite lenN_takeN, lenN_nil in K; lia).
      assert (TextThms.field q) as FQ by (split; assumption).
      assert (s = pre ++ q) as ->.
      { assert (utf8_valid (pre ++ q) = true) as VAL.
        { unfold pre, spaced. cbn [flat_map]. rewrite <- !app_assoc. apply utf8_valid_app; [apply W|]. apply ascii_valid. intros b [<-|I]; [reflexivity|].
          cbn [app] in I. apply in_app_or in I as [I|I]; [|rewrite Forall_forall in QF; specialize (QF b I); cbn in QF; lia].
          apply in_flat_map in I as (p & Ip & I'). apply in_map_iff in Ip as (y & <- & _).
          apply in_app_or in I' as [I'|[<-|[]]]; [|reflexivity]. destruct (printed_field P law y) as [_ FA]. rewrite Forall_forall in FA. specialize (FA b I'). cbn in FA. lia. }
        unfold decodes in D. destruct lossy; [rewrite from_utf8_lossy_id in D by exact VAL; exact D|apply D]. }
      assert (has_fields (pre ++ q) ((w :: map (ft_print P) v0) ++ [q])) as H'.
      { apply spaced_fields; [apply wholes; exact W|]. rewrite <- (app_nil_r q) at 1. change (q ++ []) with ([] ++ q ++ []).
        constructor; auto; [apply field_nonblank; exact FQ|discriminate|constructor; constructor]. }
      pose proof (fields_exact _ _ H) as EQ. rewrite (fields_exact _ _ H') in EQ. cbn [app] in EQ. injection EQ as EW EP.
      destruct it as [w' v']. cbn [fst snd] in *. subst w' ps. clearbody q. clear - F2 NN law.
      assert (exists y, v' = v0 ++ [y]) as (y & ->); [|eauto].
      revert v' F2. induction NN as [|z v0 Hz NN IH]; intros v' F2; cbn [map app] in F2.
      + inversion F2 as [|? y ? l' H1 H2]; subst. inversion H2; subst. exists y. reflexivity.
      + inversion F2 as [|? y ? l' H1 H2]; subst. destruct (IH _ H2) as (u & ->). destruct (law z) as [(t & E & K & _) _]. rewrite E in H1. injection H1 as <-.
        rewrite (K Hz). exists u. reflexivity.
  Qed.

  (** A cut file that has as many lines lacks something of the last one. *)
  Lemma items_cut lossy l j items : Forall text_word (map fst l) -> nan_free l -> j < lenN (text_file P l) ->
    text_items P lossy (takeN j (text_file P l)) items -> lenN items = lenN l ->
    exists l0 it j' it', l = l0 ++ [it] /\ items = l0 ++ [it'] /\ j' <= lenN (line_of it) /\ line_item P lossy (takeN j' (line_of it)) it' /\
    lenN (text_file P l) + j' = j + lenN (line_of it) + 1.
  Proof.
    revert j items. induction l as [|[w v] l IH]; intros j items W NN J T L; [change (lenN (text_file P [])) with 0 in J; lia|].
    cbn [map fst] in W. apply Forall_cons_iff in W as [W1 W], NN as [NN1 NN]. cbn [text_file flat_map fst snd] in *. fold (text_file P l) in *.
    rewrite text_line_of_eq, <- app_assoc in *. cbn [app] in *. pose proof (line_of_newline P law (w, v) W1) as NL.
    assert (lenN (line_of (w, v) ++ x0a :: text_file P l) = lenN (line_of (w, v)) + 1 + lenN (text_file P l)) as LT by (rewrite lenN_app, lenN_cons; lia).
    rewrite LT in *. destruct (N.le_gt_cases j (lenN (line_of (w, v)))) as [H|H].
    - rewrite takeN_app_le in T by exact H. destruct T as (ls & LS & F2).
      assert (~ In x0a (takeN j (line_of (w, v)))) as NI by (intros K; apply NL; rewrite <- (takeN_dropN j); apply in_or_app; auto).
      inversion LS as [E|x NE NX E|x r ls' NX LS' E]; subst.
      + inversion F2; subst. rewrite lenN_nil, lenN_cons in L. lia.
      + inversion F2 as [|? it' ? its H1 H2]; subst. inversion H2; subst. destruct l; [|rewrite !lenN_cons, lenN_nil in L; lia].
        exists [], (w, v), j, it'. split; [reflexivity|]. split; [reflexivity|]. split; [exact H|]. split; [exact H1|]. cbn [text_file flat_map]. rewrite lenN_nil. lia.
      + exfalso. apply NI. rewrite <- E. apply in_or_app. right. left. reflexivity.
    - assert (takeN j (line_of (w, v) ++ x0a :: text_file P l) = line_of (w, v) ++ x0a :: takeN (j - lenN (line_of (w, v)) - 1) (text_file P l)) as ET.
      { rewrite takeN_app_ge by lia. f_equal. change (x0a :: text_file P l) with ([x0a] ++ text_file P l). rewrite takeN_app_ge by (rewrite lenN_cons, lenN_nil; lia).
        rewrite lenN_cons, lenN_nil, N.add_0_r. reflexivity. }
      rewrite ET in T. destruct T as (ls & LS & F2). destruct (lines_exist (takeN (j - lenN (line_of (w, v)) - 1) (text_file P l))) as (ls' & LS').
      assert (ls = line_of (w, v) :: ls') as -> by (eapply lines_unique; [exact LS|constructor; assumption]).
      inversion F2 as [|? it' ? its H1 H2]; subst. rewrite !lenN_cons in L.
      assert (it' = (w, v)) as ->.
      { pose proof (line_of_item P law lossy (w, v) W1 NN1) as H3. apply text_line_item in H1, H3. congruence. }
      destruct (IH (j - lenN (line_of (w, v)) - 1) its W NN) as (l0 & it & j' & it' & E1 & E2 & A1 & A2 & A3); [lia|exists ls'; auto|lia|].
      exists ((w, v) :: l0), it, j', it'. rewrite E1, E2. split; [reflexivity|]. split; [reflexivity|]. split; [exact A1|]. split; [exact A2|]. rewrite <- E1. lia.
  Qed.
End TextCut.

Section TextDims.
  Context (P : ftext_ops) (law : ftext_law P) {Md S : Type} (SO : storage_ops f32 S) (pf : profile).
  Variables (e : embeddings Md vocab_wrap S f32) (cols : N) (rows : list (list f32)).
  Hypothesis made : emb_made SO pf e cols rows.
  Hypothesis norms : norms_fit e.
  Hypothesis text_words : Forall text_word (v_words wrap_ops (em_vocab e)).
  Notation result := (embeddings Md simple_vocab (array2 f32) f32).

  (** A cut file is refused, unless it was cut in or after the last number. *)
  Lemma dims_truncated un lossy base : dims_fit (v_words_len wrap_ops (em_vocab e)) cols -> cols < two64 -> cols <> 0 ->
    v_words_len wrap_ops (em_vocab e) <> 0 ->
    exists l out, output_items un e rows l /\ run_writer (write_text_dims P wrap_ops SO un e) base = Ok out /\
    (nan_free l -> forall i, i < lenN out ->
      (exists er, run_reader (read_text_dims_raw (Md := Md) P pf lossy) (takeN i out) = Err er) \/
      exists l0 w v x y (e' : result), l = l0 ++ [(w, v ++ [x])] /\ lenN out <= i + lenN (ft_print P x) /\
      run_reader (read_text_dims_raw P pf lossy) (takeN i out) = Ok e' /\ raw_result e' cols (l0 ++ [(w, v ++ [y])])).
  Proof.
    intros F Lc NC NW. destruct (emits_text_dims P SO pf e cols rows made norms un) as (l & O & E). exists l. eexists. split; [exact O|].
    split; [apply (emits_run _ _ base E)|]. unfold fconst. destruct (output_words SO pf e cols rows made un l O) as [ND L]. rewrite <- L in *.
    pose proof (output_width SO pf e cols rows made un l O) as OW. intros NN i Hi.
    assert (lenN l < two64) as B1 by (destruct F as [F _]; unfold isize_max, two64 in *; lia).
    assert (Forall text_word (map fst l)) as TW by (rewrite (proj1 O); exact text_words).
    rewrite lenN_app in Hi. destruct (N.lt_ge_cases i (lenN (dims_bytes (lenN l) cols))) as [H|H].
    { left. rewrite takeN_app_le by lia.
      destruct (header_cut (fun n d => read_embeds (Md := Md) P pf (Some (n, d)) lossy) (lenN l) cols i) as (er & s' & X); auto.
      - intros d' p D1 D2. destruct (read_embeds_header P pf (Md := Md) (lenN l) d' lossy (mkStream [] p) []) as [X _]; [reflexivity| | |].
        + destruct F as [F1 F2]. split; [exact F1|]. assert (lenN l * d' <= lenN l * cols) by (apply N.mul_le_mono_l; exact D1). lia.
        + exists []. split; constructor.
        + destruct X as (s' & X); [rewrite lenN_nil; congruence|]. eauto.
      - exists er. unfold run_reader, read_text_dims_raw. rewrite X. reflexivity. }
    rewrite takeN_app_ge by exact H. set (j := i - lenN (dims_bytes (lenN l) cols)).
    assert (header_line (dims_bytes (lenN l) cols ++ takeN j (text_file P l)) (lenN l) cols (takeN j (text_file P l))) as HL by (apply header_dims; assumption).
    destruct (text_dims_outcomes P pf (Md := Md) lossy _ _ _ _ HL F) as [NOI OK].
    destruct (read_lines_cases P lossy (mkStream (takeN j (text_file P l)) 0) eq_refl) as [(items & T)|(NI & _)]; [|left; eauto].
    cbn [s_rest] in T. destruct (OK items T) as (K1 & _ & K3 & _ & K5).
    destruct (N.eq_dec (lenN items) (lenN l)) as [EL|]; [|left; eauto].
    destruct (items_cut P law lossy l j items TW NN) as (l0 & [w v] & j' & it' & E1 & E2 & A1 & A2 & A3); [lia|exact T|exact EL|].
    assert (exists v0 x, v = v0 ++ [x]) as (v0 & x & EV).
    { rewrite E1 in OW. apply Forall_app in OW as [_ OW]. apply Forall_cons_iff in OW as [OW _]. cbn [snd] in OW.
      destruct (exists_last (l := v)) as (v0 & x & ->); [intros ->; rewrite lenN_nil in OW; congruence|eauto]. }
    subst v. rewrite E1 in TW, NN, OW. rewrite map_app in TW. apply Forall_app in TW as [_ TW], NN as [_ NN], OW as [OW0 OW].
    cbn [map fst] in TW. apply Forall_cons_iff in TW as [TW _], NN as [NN _], OW as [OW _]. cbn [snd] in NN, OW. rewrite lenN_app, lenN_cons, lenN_nil in OW.
    apply Forall_app in NN as [NN _].
    assert (lenN (flat_map snd l0) = lenN l0 * cols) as FL.
    { clear - OW0. induction OW0 as [|it l0 H F IH]; [reflexivity|]. cbn [flat_map]. rewrite lenN_app, lenN_cons, IH, H. lia. }
    assert (lenN l = lenN l0 + 1) as LL by (rewrite E1, lenN_app, lenN_cons, lenN_nil; lia).
    assert (lenN (flat_map snd items) = lenN l0 * cols + lenN (snd it')) as FI by (rewrite E2, flat_map_app, lenN_app, FL; cbn [flat_map]; rewrite app_nil_r; reflexivity).
    destruct (line_cut P law lossy w v0 x j' it' TW NN A1 A2) as [NE|(LE & y & EI)].
    { left. destruct (K3 EL NW) as (er & X & _); [rewrite FI, LL; nia|eauto]. }
    right. subst it'. exists l0, w, v0, x, y. assert (map fst items = map fst l) as EW by (rewrite E1, E2, !map_app; reflexivity).
    cbn [snd] in FI. rewrite lenN_app, lenN_cons, lenN_nil in FI.
    destruct (K5 EL NW) as (e' & R & TC); [rewrite FI, LL; nia|rewrite EW; exact ND|]. exists e'. split; [exact E1|]. split; [rewrite lenN_app; lia|]. split; [exact R|].
    assert (Forall (fun it => lenN (snd it) = cols) items) as WI.
    { rewrite E2. apply Forall_app. split; [exact OW0|]. constructor; [|constructor]. cbn [snd]. rewrite lenN_app, lenN_cons, lenN_nil. exact OW. }
    pose proof (proj2 (contents_lines e' items cols TC) WI) as ER. rewrite E2 in *.
    destruct TC as (C1 & _ & _ & _ & _ & C2 & _ & C3 & C4). split; [exact C1|]. split; [|auto].
    clear - C2 ER. destruct (em_storage e') as [c r]. cbn [a2_cols a2_rows] in *. subst. reflexivity.
  Qed.
End TextDims.

(** ** floret *)
Lemma cut_at (c : byte) f g r t : ~ In c f -> ~ In c g -> f ++ c :: r = g ++ c :: t -> f = g /\ r = t.
Proof.
  revert g. induction f as [|a f IH]; intros [|b g] Nf Ng E; cbn [app] in E.
  - injection E as E. auto.
  - injection E as E _. exfalso. apply Ng. left. congruence.
  - injection E as E _. exfalso. apply Nf. left. congruence.
  - injection E as -> E. destruct (IH g) as [-> ->]; auto; intros K; [apply Nf|apply Ng]; right; exact K.
Qed.
Lemma numeral_unique f n m : numeral f n -> numeral f m -> n < two64 -> m < two64 -> n = m.
Proof.
  intros H1 H2 L1 L2. assert (dec_parse f = Some n) as E1 by (apply dec_parse_spec; auto). assert (dec_parse f = Some m) as E2 by (apply dec_parse_spec; auto). congruence.
Qed.
Lemma floret_head_unique data nb dims mn mx nh seed bow eow rest nb' dims' mn' mx' nh' seed' bow' eow' rest' :
  floret_head data nb dims mn mx nh seed bow eow rest -> floret_head data nb' dims' mn' mx' nh' seed' bow' eow' rest' ->
  nb = nb' /\ dims = dims' /\ rest = rest'.
Proof.
  intros (f1 & f2 & f3 & f4 & f5 & f6 & A1 & A2 & A3 & A4 & A5 & A6 & FA & B1 & _ & B3 & _ & E) (g1 & g2 & g3 & g4 & g5 & g6 & C1 & C2 & C3 & C4 & C5 & C6 & FC & D1 & _ & D3 & _ & E').
  rewrite E in E'. assert (forall s n, numeral s n -> ~ In x20 s) as NS.
  { intros s n H. apply (numeral_not_in s n x20 H). change (bN x20) with 32. lia. }
  apply cut_at in E' as [<- E']; [|eauto..]. apply cut_at in E' as [<- E']; [|eauto..]. apply cut_at in E' as [<- E']; [|eauto..].
  apply cut_at in E' as [<- E']; [|eauto..]. apply cut_at in E' as [<- E']; [|eauto..]. apply cut_at in E' as [<- E']; [|eauto..].
  apply cut_at in E' as [<- E']; [|assumption..]. apply cut_at in E' as [<- E']; [|assumption..].
  repeat match goal with H : Forall _ (_ :: _) |- _ => apply Forall_cons_iff in H as [? H] end.
  split; [eapply numeral_unique; eassumption|]. split; [eapply numeral_unique; eassumption|exact E'].
Qed.

Section FloretCut.
  Context (P : ftext_ops) (law : ftext_law P) (pf : profile) {Md : Type}.
  Variable e : embeddings Md (subword_vocab floret_indexer) (array2 f32) f32.
  Variables (ws : list str) (mn mx nb nh seed : N) (ix : floret_indexer) (bow eow : str).
  Hypothesis new_ix : floret_indexer_new nb nh seed = Ok ix.
  Hypothesis new_vocab : sub_new_with_boundaries floret_ops pf ws mn mx ix bow eow = Ok (em_vocab e).
  Hypothesis new_emb : emb_new_with_maybe_norms (sub_ops floret_ops) (nd_ops f32) pf (em_meta e) (em_vocab e) (em_storage e) (em_norms e) = Ok e.
  Hypothesis storage_wf : a2_wf (em_storage e).
  Hypothesis fits : Forall (fun n => n < two32) [mn; mx; seed].
  Hypothesis bow_ok : ~ In x20 bow /\ utf8_valid bow = true.
  Hypothesis eow_ok : ~ In x0a eow /\ utf8_valid eow = true.
  Hypothesis cols_pos : a2_cols (em_storage e) <> 0.
  Hypothesis capacity : nb * a2_cols (em_storage e) * 4 <= isize_max.
  Notation buckets := (dropN (lenN ws) (a2_rows (em_storage e))).
  Hypothesis no_nan : Forall (Forall (fun x => f32_is_nan x = false)) buckets.

  Lemma floret_truncated base : exists out, run_writer (write_floret_text P pf e) base = Ok out /\
    forall i (e' : embeddings Md (subword_vocab floret_indexer) (array2 f32) f32), i < lenN out ->
    run_reader (read_floret_text P pf) (takeN i out) = Ok e' -> exists rows v x y, buckets = rows ++ [v ++ [x]] /\
    lenN out <= i + lenN (ft_print P x) /\ em_storage e' = mkA2 (a2_cols (em_storage e)) (rows ++ [v ++ [y]]).
  Proof.
    eexists. split; [apply (emits_run _ _ base (emits_floret P pf e ws mn mx nb nh seed ix bow eow new_ix new_vocab new_emb))|]. unfold fconst.
    destruct (floret_ix nb nh seed ix new_ix) as (_ & NB & NH). destruct (floret_vocab_len pf e ws mn mx nb nh seed ix bow eow new_ix new_vocab new_emb) as (_ & _ & ER).
    destruct (floret_vocab pf e ws mn mx nb nh seed ix bow eow new_ix new_vocab) as (_ & _ & LT).
    unfold enumerate. rewrite numbered_bytes. change (subword_rows e ws) with buckets in *. set (l := numbered 0 buckets).
    intros i e' Hi R. destruct (floret_head_exists P pf _ _ R) as (nb' & dims' & mn' & mx' & nh' & seed' & bow' & eow' & rest' & H').
    set (out := floret_head_bytes e mn mx nb nh seed bow eow ++ text_file P l) in *.
    assert (floret_head out nb (a2_cols (em_storage e)) mn mx nh seed bow eow (text_file P l)) as H.
    { repeat match goal with H : Forall (fun n : N => n < two32) (_ :: _) |- _ => apply Forall_cons_iff in H as [? H] end.
      assert (nb < two64 /\ a2_cols (em_storage e) < two64) as [LB LC] by (split; [lia|]; unfold isize_max, two64 in *; nia).
      assert (forall n, n < two32 -> n < two64) as T by (unfold two32, two64; lia). assert (nh < two32) as LH by (unfold two32; lia).
      exists (dec_print nb), (dec_print (a2_cols (em_storage e))), (dec_print mn), (dec_print mx), (dec_print nh), (dec_print seed).
      repeat (split; [apply dec_print_numeral|]). split; [repeat constructor; auto|]. split; [apply bow_ok|]. split; [apply bow_ok|]. split; [apply eow_ok|]. split; [apply eow_ok|].
      unfold out, floret_head_bytes. repeat (rewrite <- app_assoc; cbn [app]). reflexivity. }
    assert (floret_head out nb' dims' mn' mx' nh' seed' bow' eow' (rest' ++ dropN i out)) as H2.
    { destruct H' as (g1 & g2 & g3 & g4 & g5 & g6 & C1 & C2 & C3 & C4 & C5 & C6 & FC & D1 & D2 & D3 & D4 & E). exists g1, g2, g3, g4, g5, g6.
      repeat (split; [assumption|]). rewrite <- (takeN_dropN i out) at 1. rewrite E. repeat (rewrite <- app_assoc; cbn [app]). reflexivity. }
    destruct (floret_head_unique _ _ _ _ _ _ _ _ _ _ _ _ _ _ _ _ _ _ _ H H2) as (<- & <- & ET).
    destruct (floret_accepted P pf (Md := Md) _ _ _ _ _ _ _ _ _ _ _ H' R) as (rows' & _ & FR & LR & RES & _).
    assert (lenN (dropN i out) = lenN out - i) as LD by apply lenN_dropN.
    set (j := lenN rest'). assert (rest' = takeN j (text_file P l)) as EJ by (unfold j; rewrite ET, takeN_app_le, takeN_all by lia; reflexivity).
    assert (lenN (text_file P l) = j + (lenN out - i)) as LJ by (unfold j; rewrite ET, lenN_app, LD; reflexivity).
    assert (map snd l = buckets) as SL.
    { unfold l, numbered. rewrite map_map. generalize 0. clear. induction buckets as [|r rs IH]; intros n; [reflexivity|]. cbn [enumerate_from map]. f_equal. apply IH. }
    assert (lenN l = nb) as LL.
    { rewrite <- (lenN_map snd l), SL, lenN_dropN. unfold a2_nrows in ER. lia. }
    assert (exists items, text_items P false rest' items /\ map snd items = rows' /\ Forall (fun it => lenN (snd it) = a2_cols (em_storage e)) items) as (items & TI & SI & WI).
    { destruct FR as (ls & LS & F2). clear - LS F2. assert (exists items, Forall2 (line_item P false) ls items /\ map snd items = rows' /\ Forall (fun it => lenN (snd it) = a2_cols (em_storage e)) items) as (items & X & Y).
      { clear LS. induction F2 as [|l v ls rows (f & ps & V & HF & FP & L) F2 (items & X1 & X2 & X3)]; [exists []; repeat constructor|].
        exists ((f, v) :: items). split; [|split; [cbn [map snd]; f_equal; exact X2|constructor; assumption]]. constructor; [|exact X1].
        exists l, ps. split; [split; auto|]. split; assumption. }
      exists items. split; [exists ls; auto|exact Y]. }
    rewrite EJ in TI. assert (nan_free l) as NN.
    { unfold nan_free. apply (proj1 (Forall_map snd (Forall (fun x => f32_is_nan x = false)) l)). rewrite SL. exact no_nan. }
    destruct (items_cut P law false l j items (numbered_words 0 buckets) NN) as (l0 & [w v] & j' & it' & E1 & E2 & A1 & A2 & A3); [lia|exact TI|rewrite LL, <- LR, <- SI, lenN_map; reflexivity|].
    assert (Forall (fun it => lenN (snd it) = a2_cols (em_storage e)) l) as WL.
    { apply (proj1 (Forall_map snd (fun r => lenN r = a2_cols (em_storage e)) l)). rewrite SL. apply Forall_forall. intros r HR. pose proof storage_wf as W. unfold a2_wf in W. rewrite Forall_forall in W. apply W.
      rewrite <- (takeN_dropN (lenN ws) (a2_rows (em_storage e))). apply in_or_app. right. exact HR. }
    rewrite E1 in WL, NN. rewrite E2 in WI. apply Forall_app in WL as [_ WL], NN as [_ NN], WI as [_ WI]. apply Forall_cons_iff in WL as [WL _], NN as [NN _], WI as [WI _]. cbn [snd] in WL, NN.
    assert (text_word w) as TW.
    { pose proof (numbered_words 0 buckets) as X. fold l in X. rewrite E1, map_app in X. apply Forall_app in X as [_ X]. apply Forall_cons_iff in X as [X _]. exact X. }
    destruct (exists_last (l := v)) as (v0 & x & ->); [intros ->; rewrite lenN_nil in WL; congruence|]. rewrite lenN_app, lenN_cons, lenN_nil in WL. apply Forall_app in NN as [NN _].
    destruct (line_cut P law false w v0 x j' it' TW NN A1 A2) as [NE|(LE & y & ->)]; [exfalso; lia|].
    exists (map snd l0), v0, x, y. split; [rewrite <- SL, E1, map_app; reflexivity|]. split; [lia|].
    destruct RES as (_ & _ & _ & _ & _ & _ & _ & ES & _). rewrite ES, <- SI, E2, map_app. reflexivity.
  Qed.
End FloretCut.

(** ** Text *)
Section Text.
  Context (P : ftext_ops) (law : ftext_law P).
  (** What is read from a cut file: the complete lines, and a cut one. *)
  Lemma lines_cut lossy l j items : Forall text_word (map fst l) -> nan_free l -> text_items P lossy (takeN j (text_file P l)) items ->
    exists l0 l1, l = l0 ++ l1 /\ (items = l0 \/ exists it l2 j' it', l1 = it :: l2 /\ items = l0 ++ [it'] /\ j' <= lenN (line_of P it) /\ line_item P lossy (takeN j' (line_of P it)) it').
  Proof.
    revert j items. induction l as [|[w v] l IH]; intros j items W NN T.
    { exists [], []. split; [reflexivity|]. left. assert (takeN j (text_file P []) = []) as X by (unfold takeN; apply firstn_nil). rewrite X in T.
      destruct T as (ls & LS & F2). inversion LS; subst; [inversion F2; reflexivity|contradiction|destruct l; discriminate]. }
    cbn [map fst] in W. apply Forall_cons_iff in W as [W1 W], NN as [NN1 NN]. cbn [text_file flat_map fst snd] in T. fold (text_file P l) in T.
    rewrite text_line_of_eq, <- app_assoc in T. cbn [app] in T. pose proof (line_of_newline P law (w, v) W1) as NL.
    destruct (N.le_gt_cases j (lenN (line_of P (w, v)))) as [H|H].
    - rewrite takeN_app_le in T by exact H. destruct T as (ls & LS & F2). exists [], ((w, v) :: l). split; [reflexivity|].
      assert (~ In x0a (takeN j (line_of P (w, v)))) as NI by (intros K; apply NL; rewrite <- (takeN_dropN j); apply in_or_app; auto).
      inversion LS as [E|x NE NX E|x r ls' NX LS' E]; subst.
      + left. inversion F2. reflexivity.
      + right. inversion F2 as [|? it' ? its H1 H2]; subst. inversion H2; subst. exists (w, v), l, j, it'. auto.
      + exfalso. apply NI. rewrite <- E. apply in_or_app. right. left. reflexivity.
    - assert (takeN j (line_of P (w, v) ++ x0a :: text_file P l) = line_of P (w, v) ++ x0a :: takeN (j - lenN (line_of P (w, v)) - 1) (text_file P l)) as ET.
      { rewrite takeN_app_ge by lia. f_equal. change (x0a :: text_file P l) with ([x0a] ++ text_file P l). rewrite takeN_app_ge by (rewrite lenN_cons, lenN_nil; lia).
        rewrite lenN_cons, lenN_nil, N.add_0_r. reflexivity. }
      rewrite ET in T. destruct T as (ls & LS & F2). destruct (lines_exist (takeN (j - lenN (line_of P (w, v)) - 1) (text_file P l))) as (ls' & LS').
      assert (ls = line_of P (w, v) :: ls') as -> by (eapply lines_unique; [exact LS|constructor; assumption]).
      inversion F2 as [|? it' ? its H1 H2]; subst.
      assert (it' = (w, v)) as ->.
      { pose proof (line_of_item P law lossy (w, v) W1 NN1) as H3. apply text_line_item in H1, H3. congruence. }
      destruct (IH (j - lenN (line_of P (w, v)) - 1) its W NN) as (l0 & l1 & E1 & E2); [exists ls'; auto|].
      exists ((w, v) :: l0), l1. split; [rewrite E1; reflexivity|]. destruct E2 as [->|(it & l2 & j' & it' & -> & -> & A)]; [left; reflexivity|].
      right. exists it, l2, j', it'. auto.
  Qed.
End Text.
Section TextPlain.
  Context (P : ftext_ops) (law : ftext_law P) {Md S : Type} (SO : storage_ops f32 S) (pf : profile).
  Variables (e : embeddings Md vocab_wrap S f32) (cols : N) (rows : list (list f32)).
  Hypothesis made : emb_made SO pf e cols rows.
  Hypothesis norms : norms_fit e.
  Hypothesis text_words : Forall text_word (v_words wrap_ops (em_vocab e)).
  Notation result := (embeddings Md simple_vocab (array2 f32) f32).

  (** All words that were read but the last one are the first words of the
      embeddings, and if the vectors have as many components as before, they
      have them but for the last component of the last vector. *)
  Lemma text_truncated un lossy base : cols <> 0 ->
    exists l out, output_items un e rows l /\ run_writer (write_text P wrap_ops SO un e) base = Ok out /\
    (nan_free l -> forall i (e' : result), run_reader (read_text_raw P pf lossy) (takeN i out) = Ok e' ->
      exists l0 l1, l = l0 ++ l1 /\ (text_contents e' l0 (a2_cols (em_storage e')) \/
      exists w v l2 it', l1 = (w, v) :: l2 /\ text_contents e' (l0 ++ [it']) (a2_cols (em_storage e')) /\
      (lenN (snd it') = cols -> exists v0 x y, v = v0 ++ [x] /\ it' = (w, v0 ++ [y])))).
  Proof.
    intros NC. destruct (emits_text P SO pf e cols rows made norms un) as (l & O & E). exists l. eexists. split; [exact O|].
    split; [apply (emits_run _ _ base E)|]. unfold fconst. pose proof (output_width SO pf e cols rows made un l O) as OW. intros NN i e' R.
    assert (Forall text_word (map fst l)) as TW by (rewrite (proj1 O); exact text_words).
    destruct (text_accepted P pf lossy _ e' R) as (items & T & TC & _).
    destruct (lines_cut P law lossy l i items TW NN T) as (l0 & l1 & EL & [->|([w v] & l2 & j' & it' & -> & -> & A1 & A2)]); exists l0; eexists; (split; [exact EL|]); [left; exact TC|].
    right. exists w, v, l2, it'. split; [reflexivity|]. split; [exact TC|]. intros LI.
    rewrite EL in TW, NN, OW. rewrite map_app in TW. apply Forall_app in TW as [_ TW], NN as [_ NN], OW as [_ OW]. cbn [map fst] in TW.
    apply Forall_cons_iff in TW as [TW _], NN as [NN _], OW as [OW _]. cbn [snd] in NN, OW.
    destruct (exists_last (l := v)) as (v0 & x & ->); [intros ->; rewrite lenN_nil in OW; congruence|]. rewrite lenN_app, lenN_cons, lenN_nil in OW. apply Forall_app in NN as [NN _].
    destruct (line_cut P law lossy w v0 x j' it' TW NN A1 A2) as [NE|(_ & y & ->)]; [exfalso; lia|]. exists v0, x, y. auto.
  Qed.
End TextPlain.
