(** * What the metadata of fastText models say (C116). *)
From Coq Require Import ZArith String.
From Verif Require HashThms.
From Verif Require Import Base BaseFacts Utf8 Stream StreamFacts F32 ChunkIO Subword Vocab VocabFacts Storage Embeddings TextIO ReadFacts TextAccept LookupFacts FastText
  FastTextSpec FastTextFacts FastTextThms FileSpec FastTextMeta.
Local Open Scope N_scope.

(** ** Statement *)

(** The number in [n] bytes from offset [off] of a file. *)
Definition field (data : list byte) (off n : N) : N := le_value (takeN n (dropN off data)).
(** Where a file has the numbers of a table. *)
Definition number_keys : list (string * N) :=
  [("dims", 8); ("window_size", 12); ("epoch", 16); ("min_count", 20); ("neg", 24); ("word_ngrams", 28);
   ("bucket", 40); ("min_n", 44); ("max_n", 48); ("lr_update_rate", 52)]%string.
Definition loss_names : list (N * string) := [(1, "HierarchicalSoftmax"); (2, "NegativeSampling"); (3, "Softmax")]%string.
Definition model_names : list (N * string) := [(1, "Cbow"); (2, "SkipGram"); (3, "Supervised")]%string.
(** The keys of a table, ascending. *)
Definition sorted_keys : list string :=
  ["bucket"; "dims"; "epoch"; "loss"; "lr_update_rate"; "max_n"; "min_count"; "min_n"; "model"; "neg"; "sampling_threshold"; "window_size"; "word_ngrams"]%string.

(** The table says what the file [data] says. *)
Definition meta_is (data : list byte) (t : ttable) : Prop :=
  map fst t = map key sorted_keys /\
  (forall k off, In (k, off) number_keys -> t_get t (key k) = Some (TInteger (Z.of_N (field data off 4)))) /\
  (exists x, In (field data 32 4, x) loss_names /\ t_get t (key "loss"%string) = Some (TString (key x))) /\
  (exists x, In (field data 36 4, x) model_names /\ t_get t (key "model"%string) = Some (TString (key x))) /\
  t_get t (key "sampling_threshold"%string) = Some (TFloat (field data 56 8)).

(** ** Proof *)
Lemma u32s_len l : lenN (u32s_bytes l) = 4 * lenN l.
Proof. induction l as [|n l IH]; [reflexivity|]. unfold u32s_bytes in *. cbn [flat_map]. rewrite lenN_app, le_bytes_lenN, IH, lenN_cons. lia. Qed.
Lemma u32s_field l1 n l2 rest : n < two32 -> field (u32s_bytes (l1 ++ n :: l2) ++ rest) (4 * lenN l1) 4 = n.
Proof.
  intros L. unfold field, u32s_bytes. rewrite flat_map_app, <- app_assoc. fold (u32s_bytes l1). rewrite <- u32s_len, dropN_app.
  cbn [flat_map]. rewrite <- app_assoc. change 4 with (lenN (le_bytes 4 n)) at 1. rewrite takeN_app. apply le_value_bytes. exact L.
Qed.
Lemma u32s_nth l i n rest : nth_error l i = Some n -> Forall (fun n => n < two32) l -> field (u32s_bytes l ++ rest) (4 * N.of_nat i) 4 = n.
Proof.
  intros H F. apply nth_error_split in H as (l1 & l2 & -> & <-). replace (N.of_nat (length l1)) with (lenN l1) by reflexivity.
  apply u32s_field. apply Forall_app in F as [_ F]. inversion F; auto.
Qed.
Lemma u32s_inj l l' : lenN l = lenN l' -> Forall (fun n => n < two32) l -> Forall (fun n => n < two32) l' -> u32s_bytes l = u32s_bytes l' -> l = l'.
Proof.
  intros L F F' E. apply nth_ext with (d := 0) (d' := 0); [unfold lenN in L; lia|]. intros i Hi.
  assert (i < length l')%nat as Hi' by (unfold lenN in L; lia).
  rewrite <- (u32s_nth l i (nth i l 0) []), <- (u32s_nth l' i (nth i l' 0) []), E; auto using nth_error_nth'.
Qed.
Lemma u64_field pre n rest : n < two64 -> field (pre ++ le_bytes 8 n ++ rest) (lenN pre) 8 = n.
Proof.
  intros L. unfold field. rewrite dropN_app. change 8 with (lenN (le_bytes 8 n)) at 1. rewrite takeN_app. apply le_value_bytes. exact L.
Qed.

Definition the_table (c : ft_config) : ttable := match ft_config_table c with Some t => t | None => [] end.
Lemma table_get c : let t := the_table c in
  map fst t = map key sorted_keys /\
  t_get t (key "dims") = Some (t_u32 (fc_dims c)) /\ t_get t (key "window_size") = Some (t_u32 (fc_window c)) /\
  t_get t (key "epoch") = Some (t_u32 (fc_epoch c)) /\ t_get t (key "min_count") = Some (t_u32 (fc_min_count c)) /\
  t_get t (key "neg") = Some (t_u32 (fc_neg c)) /\ t_get t (key "word_ngrams") = Some (t_u32 (fc_word_ngrams c)) /\
  t_get t (key "loss") = Some (t_loss (fc_loss c)) /\ t_get t (key "model") = Some (t_model (fc_model c)) /\
  t_get t (key "bucket") = Some (t_u32 (fc_bucket c)) /\ t_get t (key "min_n") = Some (t_u32 (fc_min_n c)) /\
  t_get t (key "max_n") = Some (t_u32 (fc_max_n c)) /\ t_get t (key "lr_update_rate") = Some (t_u32 (fc_lr c)) /\
  t_get t (key "sampling_threshold") = Some (TFloat (fc_threshold c)).
Proof. destruct c. repeat split; vm_compute; reflexivity. Qed.

(** The bytes of a configuration in a file. *)
Definition has_config (data : list byte) (c : ft_config) : Prop :=
  Forall (fun n => n < two32) (config_numbers c) /\ fc_threshold c < two64 /\
  exists mg ver rest, mg < two32 /\ ver < two32 /\ data = u32s_bytes (mg :: ver :: config_numbers c) ++ le_bytes 8 (fc_threshold c) ++ rest.

Lemma has_config_meta data c : has_config data c -> meta_is data (the_table c).
Proof.
  intros (F & LT & mg & ver & rest & Lm & Lv & ->).
  destruct (table_get c) as (T0 & T1 & T2 & T3 & T4 & T5 & T6 & T7 & T8 & T9 & T10 & T11 & T12 & T13).
  destruct c as [dims window epoch mc neg wn lo mo bu mn mx lr th]. unfold config_numbers in *. cbn [fc_dims fc_window fc_epoch fc_min_count fc_neg fc_word_ngrams fc_loss fc_model fc_bucket fc_min_n fc_max_n fc_lr fc_threshold] in *.
  set (lo_n := match lo with HierarchicalSoftmax => 1 | NegativeSampling => 2 | Softmax => 3 end) in *.
  set (mo_n := match mo with Cbow => 1 | SkipGram => 2 | Supervised => 3 end) in *.
  set (r := le_bytes 8 th ++ rest).
  set (l := _ :: _ :: _). assert (Forall (fun n => n < two32) l) as F2 by (constructor; [exact Lm|constructor; [exact Lv|exact F]]).
  split; [exact T0|]. split; [|split; [|split]].
  - intros k off HI. unfold number_keys in HI. cbn [In] in HI.
    repeat match type of HI with _ \/ _ => destruct HI as [HI|HI] end; [..|contradiction]; injection HI as <- <-.
    + rewrite T1. unfold t_u32. do 3 f_equal. symmetry. apply (u32s_nth _ 2%nat); [reflexivity|exact F2].
    + rewrite T2. unfold t_u32. do 3 f_equal. symmetry. apply (u32s_nth _ 3%nat); [reflexivity|exact F2].
    + rewrite T3. unfold t_u32. do 3 f_equal. symmetry. apply (u32s_nth _ 4%nat); [reflexivity|exact F2].
    + rewrite T4. unfold t_u32. do 3 f_equal. symmetry. apply (u32s_nth _ 5%nat); [reflexivity|exact F2].
    + rewrite T5. unfold t_u32. do 3 f_equal. symmetry. apply (u32s_nth _ 6%nat); [reflexivity|exact F2].
    + rewrite T6. unfold t_u32. do 3 f_equal. symmetry. apply (u32s_nth _ 7%nat); [reflexivity|exact F2].
    + rewrite T9. unfold t_u32. do 3 f_equal. symmetry. apply (u32s_nth _ 10%nat); [reflexivity|exact F2].
    + rewrite T10. unfold t_u32. do 3 f_equal. symmetry. apply (u32s_nth _ 11%nat); [reflexivity|exact F2].
    + rewrite T11. unfold t_u32. do 3 f_equal. symmetry. apply (u32s_nth _ 12%nat); [reflexivity|exact F2].
    + rewrite T12. unfold t_u32. do 3 f_equal. symmetry. apply (u32s_nth _ 13%nat); [reflexivity|exact F2].
  - rewrite T7. replace (field (u32s_bytes l ++ r) 32 4) with lo_n by (symmetry; apply (u32s_nth _ 8%nat); [reflexivity|exact F2]). unfold lo_n. clear.
    destruct lo; eexists; (split; [|reflexivity]); cbn; auto.
  - rewrite T8. replace (field (u32s_bytes l ++ r) 36 4) with mo_n by (symmetry; apply (u32s_nth _ 9%nat); [reflexivity|exact F2]). unfold mo_n. clear.
    destruct mo; eexists; (split; [|reflexivity]); cbn; auto.
  - rewrite T13. unfold r, l. pose proof (u64_field (u32s_bytes [mg; ver; dims; window; epoch; mc; neg; wn; lo_n; mo_n; bu; mn; mx; lr]) th rest LT) as U.
    rewrite u32s_len in U. change (4 * lenN [mg; ver; dims; window; epoch; mc; neg; wn; lo_n; mo_n; bu; mn; mx; lr]) with 56 in U. rewrite U. reflexivity.
Qed.

Lemma t_u32_inj a b : t_u32 a = t_u32 b -> a = b.
Proof. unfold t_u32. intros H. injection H as H. lia. Qed.
Lemma table_inj c1 c2 : the_table c1 = the_table c2 -> c1 = c2.
Proof.
  intros H. pose proof (table_get c1) as G1. pose proof (table_get c2) as G2. cbv zeta in *. rewrite H in G1.
  destruct G1 as (_ & A1 & A2 & A3 & A4 & A5 & A6 & A7 & A8 & A9 & A10 & A11 & A12 & A13).
  destruct G2 as (_ & B1 & B2 & B3 & B4 & B5 & B6 & B7 & B8 & B9 & B10 & B11 & B12 & B13).
  destruct c1 as [d1 w1 e1 m1 n1 g1 l1 o1 b1 i1 x1 r1 t1], c2 as [d2 w2 e2 m2 n2 g2 l2 o2 b2 i2 x2 r2 t2]. cbn [fc_dims fc_window fc_epoch fc_min_count fc_neg fc_word_ngrams fc_loss fc_model fc_bucket fc_min_n fc_max_n fc_lr fc_threshold] in *.
  repeat match goal with
  | A : ?x = Some (t_u32 ?a), B : ?x = Some (t_u32 ?b) |- _ => assert (a = b) by (apply t_u32_inj; congruence); clear A B
  end.
  rewrite A7 in B7. rewrite A8 in B8. rewrite A13 in B13. injection B13 as B13.
  assert (l1 = l2) as EL by (destruct l1, l2; (reflexivity || discriminate B7)).
  assert (o1 = o2) as EM by (destruct o1, o2; (reflexivity || discriminate B8)).
  subst. reflexivity.
Qed.

Lemma config_bytes_inj c c' : Forall (fun n => n < two32) (config_numbers c) -> fc_threshold c < two64 ->
  Forall (fun n => n < two32) (config_numbers c') -> fc_threshold c' < two64 ->
  u32s_bytes (config_numbers c) ++ le_bytes 8 (fc_threshold c) = u32s_bytes (config_numbers c') ++ le_bytes 8 (fc_threshold c') -> c = c'.
Proof.
  intros F L F' L' HE.
  assert (u32s_bytes (config_numbers c) = u32s_bytes (config_numbers c') /\ le_bytes 8 (fc_threshold c) = le_bytes 8 (fc_threshold c')) as [E1 E2].
  { apply HashThms.app_eq_length; [exact HE|]. apply Nat2N.inj. change (lenN (u32s_bytes (config_numbers c)) = lenN (u32s_bytes (config_numbers c'))). rewrite !u32s_len. reflexivity. }
  apply u32s_inj in E1; [|reflexivity|auto|auto]. apply (f_equal le_value) in E2. rewrite !le_value_bytes in E2 by assumption.
  destruct c as [? ? ? ? ? ? lo mo ? ? ? ? ?], c' as [? ? ? ? ? ? lo' mo' ? ? ? ? ?]. unfold config_numbers in E1. cbn in E1, E2. injection E1 as -> -> -> -> -> -> E3 E4 -> -> -> ->. subst.
  replace lo' with lo by (destruct lo, lo'; (reflexivity || discriminate E3)). replace mo' with mo by (destruct mo, mo'; (reflexivity || discriminate E4)). reflexivity.
Qed.
Lemma config_bytes_at mg ver c rest : takeN 56 (dropN 8 (u32s_bytes (mg :: ver :: config_numbers c) ++ le_bytes 8 (fc_threshold c) ++ rest)) =
  u32s_bytes (config_numbers c) ++ le_bytes 8 (fc_threshold c).
Proof.
  change (mg :: ver :: config_numbers c) with ([mg; ver] ++ config_numbers c). unfold u32s_bytes. rewrite flat_map_app. fold (u32s_bytes [mg; ver]) (u32s_bytes (config_numbers c)).
  rewrite <- app_assoc. replace 8 with (lenN (u32s_bytes [mg; ver])) at 1 by (rewrite u32s_len; reflexivity). rewrite dropN_app, app_assoc.
  replace 56 with (lenN (u32s_bytes (config_numbers c) ++ le_bytes 8 (fc_threshold c))) by (rewrite lenN_app, u32s_len, le_bytes_lenN; reflexivity). apply takeN_app.
Qed.

Section Meta.
  Variables (print : ttable -> str) (parse : str -> option ttable) (pf : profile).

  Lemma read_meta lossy data e : run_reader (read_fasttext pf (toml_of print parse) ft_config_table lossy) data = Ok e ->
    exists c, has_config data c /\ em_meta e = Some (the_table c) /\
    sv_min (em_vocab e) = fc_min_n c /\ sv_max (em_vocab e) = fc_max_n c /\ fi_buckets (sv_ix (em_vocab e)) = fc_bucket c.
  Proof.
    intros H. apply run_reader_Ok in H as (s' & H). rewrite read_fasttext_eq in H.
    minv H as mg E1. destruct (N.eqb_spec mg ft_magic) as [->|]; [|discriminate H]. cbn [negb] in H.
    minv H as ver E2. destruct (N.ltb_spec ft_version ver) as [|LV]; [discriminate H|].
    minv H as c E3. minv H as v E4. unfold ft_after in H. minv H as q E5. destruct (N.eqb_spec q 1) as [|NQ]; [discriminate H|].
    minv H as a E6. apply lift_inv in H as [H ->].
    apply read_u32_inv in E1 as (E1 & L1 & _), E2 as (E2 & L2 & _). apply read_config_inv in E3 as (E3 & FC & LT). cbn [s_rest] in E1.
    exists c. split.
    { split; [exact FC|]. split; [exact LT|]. exists ft_magic, ver. eexists. split; [exact L1|]. split; [exact L2|]. rewrite E1, E2, E3. unfold u32s_bytes. cbn [flat_map]. rewrite <- !app_assoc. reflexivity. }
    unfold ft_finish in H. apply rbind_Ok_inv in H as (a1 & _ & H). apply rbind_Ok_inv in H as (an & _ & H). apply rbind_Ok_inv in H as (n & _ & H).
    destruct (negb _); [discriminate H|]. cbn [ft_config_table] in H. unfold emb_new, emb_new_with_maybe_norms in H.
    apply rbind_Ok_inv in H as (u & _ & H). apply rbind_Ok_inv in H as (m & _ & H). apply rbind_Ok_inv in H as (u' & _ & H). injection H as <-. cbn [em_meta em_vocab].
    split; [reflexivity|].
    unfold read_ft_vocab in E4. minv E4 as size F1. minv E4 as nw F2. minv E4 as nl F3.
    destruct (N.ltb_spec 0 nl) as [|NL]; [discriminate E4|]. minv E4 as tok F4. minv E4 as pr F5.
    destruct (N.leb_spec pr isize_max) as [|PR]; [discriminate E4|]. minv E4 as u1 F6. minv E4 as ws F7. minv E4 as ix F8. apply lift_inv in E4 as [E4 _].
    apply lift_inv in F8 as [F8 _]. destruct (N.le_gt_cases (fc_bucket c) i32_max) as [B|G]; [|rewrite ft_indexer_big in F8 by auto; discriminate].
    rewrite (ft_indexer_ok _ B) in F8. injection F8 as <-. apply sub_new_Ok in E4 as (_ & E4 & _). rewrite E4. auto.
  Qed.

  (** The metadata say what the file says. *)
  Lemma meta_read lossy data e : run_reader (read_fasttext pf (toml_of print parse) ft_config_table lossy) data = Ok e ->
    exists t, em_meta e = Some t /\ meta_is data t.
  Proof. intros H. apply read_meta in H as (c & HC & M & _). exists (the_table c). split; [exact M|]. apply has_config_meta, HC. Qed.

  (** Different configurations have different metadata. *)
  Lemma meta_inj lossy data e lossy' data' e' : run_reader (read_fasttext pf (toml_of print parse) ft_config_table lossy) data = Ok e ->
    run_reader (read_fasttext pf (toml_of print parse) ft_config_table lossy') data' = Ok e' ->
    em_meta e = em_meta e' <-> takeN 56 (dropN 8 data) = takeN 56 (dropN 8 data').
  Proof.
    intros H H'. apply read_meta in H as (c & (F & L & mg & ver & rest & _ & _ & E) & M & _). apply read_meta in H' as (c' & (F' & L' & mg' & ver' & rest' & _ & _ & E') & M' & _).
    rewrite M, M', E, E', !config_bytes_at. split; [intros HE; assert (the_table c = the_table c') as HT by congruence; apply table_inj in HT; subst; reflexivity|].
    intros HE. do 2 f_equal. apply config_bytes_inj; auto.
  Qed.

  (** The vocabulary agrees with the metadata. *)
  Lemma meta_vocab lossy data e : run_reader (read_fasttext pf (toml_of print parse) ft_config_table lossy) data = Ok e ->
    exists t, em_meta e = Some t /\ t_get t (key "min_n"%string) = Some (TInteger (Z.of_N (sv_min (em_vocab e)))) /\
    t_get t (key "max_n"%string) = Some (TInteger (Z.of_N (sv_max (em_vocab e)))) /\
    t_get t (key "bucket"%string) = Some (TInteger (Z.of_N (fi_buckets (sv_ix (em_vocab e))))).
  Proof.
    intros H. apply read_meta in H as (c & HC & M & E1 & E2 & E3). exists (the_table c). split; [exact M|]. rewrite E1, E2, E3.
    destruct (table_get c) as (T0 & T1 & T2 & T3 & T4 & T5 & T6 & T7 & T8 & T9 & T10 & T11 & _). auto.
  Qed.

  (** Writing keeps the number of columns, the number of buckets and the
      n-gram lengths; the metadata of the embeddings are not written. *)
  Definition rewritten_numbers (cols buckets min_n max_n : N) : list (string * N) :=
    [("dims", cols); ("window_size", 0); ("epoch", 0); ("min_count", 0); ("neg", 0); ("word_ngrams", 1);
     ("bucket", buckets); ("min_n", min_n); ("max_n", max_n); ("lr_update_rate", 0)]%string.
  Lemma meta_rewritten (S : Type) (SO : storage_ops f32 S) (e : embeddings ttable (subword_vocab ft_indexer) S f32) (cols : N) (rows : list (list f32)) lossy base rest out e' :
    ft_emb_made SO pf e cols rows -> sv_min (em_vocab e) < two32 -> sv_max (em_vocab e) < two32 ->
    run_writer (write_fasttext pf (toml_of print parse) SO e) base = Ok out ->
    run_reader (read_fasttext pf (toml_of print parse) ft_config_table lossy) (out ++ rest) = Ok e' ->
    exists t, em_meta e' = Some t /\ map fst t = map key sorted_keys /\
    (forall k n, In (k, n) (rewritten_numbers cols (fi_buckets (sv_ix (em_vocab e))) (sv_min (em_vocab e)) (sv_max (em_vocab e))) ->
       t_get t (key k) = Some (TInteger (Z.of_N n))) /\
    t_get t (key "loss"%string) = Some (TString (key "HierarchicalSoftmax"%string)) /\ t_get t (key "model"%string) = Some (TString (key "Cbow"%string)) /\
    t_get t (key "sampling_threshold"%string) = Some (TFloat 0).
  Proof.
    intros Mk Ln Lx W R.
    destruct (N.lt_ge_cases (lenN (sv_words (em_vocab e))) two32) as [LW|LW]; [|rewrite (ft_write_overflow pf (toml_of print parse) SO e cols rows Mk) in W by auto; discriminate W].
    destruct (N.lt_ge_cases cols two32) as [LC|LC]; [|rewrite (ft_write_overflow pf (toml_of print parse) SO e cols rows Mk) in W by auto; discriminate W].
    assert (Ok out = Ok (ft_bytes (ft_written e cols (ft_written_rows f32_ops pf e rows)))) as EO
      by (rewrite <- W; apply (ft_writes_exact pf (toml_of print parse) SO e cols rows Mk); auto).
    injection EO as EO. pose proof Mk as (M & _). destruct (ft_bucket_small pf _ M) as (_ & B & _).
    assert (fi_buckets (sv_ix (em_vocab e)) < two32) as LB by (unfold i32_max, two32 in *; lia).
    apply read_meta in R as (c & HC & EM & _). exists (the_table c). split; [exact EM|].
    set (c' := mkFtCfg cols 0 0 0 0 1 HierarchicalSoftmax Cbow (fi_buckets (sv_ix (em_vocab e))) (sv_min (em_vocab e)) (sv_max (em_vocab e)) 0 0).
    assert (has_config (out ++ rest) c') as HC'.
    { split; [unfold config_numbers, c'; cbn [fc_dims fc_window fc_epoch fc_min_count fc_neg fc_word_ngrams fc_loss fc_model fc_bucket fc_min_n fc_max_n fc_lr];
        repeat (constructor; [first [assumption|reflexivity]|]); constructor|].
      split; [reflexivity|]. exists 793712314, 12. eexists. split; [reflexivity|]. split; [reflexivity|]. rewrite EO. unfold ft_bytes. rewrite <- !app_assoc. reflexivity. }
    assert (c = c') as ->.
    { destruct HC as (F & L & mg & ver & r & _ & _ & E1), HC' as (F' & L' & mg' & ver' & r' & _ & _ & E2). rewrite E1 in E2.
      apply (f_equal (fun d => takeN 56 (dropN 8 d))) in E2. rewrite !config_bytes_at in E2. apply config_bytes_inj; auto. }
    destruct (table_get c') as (T0 & T1 & T2 & T3 & T4 & T5 & T6 & T7 & T8 & T9 & T10 & T11 & T12 & T13).
    split; [exact T0|]. split; [|auto]. intros k n HI. unfold rewritten_numbers in HI. cbn [In] in HI.
    repeat match type of HI with _ \/ _ => destruct HI as [HI|HI] end; [..|contradiction]; injection HI as <- <-; assumption.
  Qed.
End Meta.
