(** * Reading and writing fastText files (C45, C46). *)
From Verif Require Import Base BaseFacts Utf8 Utf8Facts Stream StreamFacts F32 ChunkIO Subword SubwordFacts IndexerFacts Vocab VocabFacts Storage Embeddings
  TextIO FastText VocabSpec EmbSpec TextSpec FileSpec FastTextSpec ChunkFacts StorageFacts ReadFacts LookupFacts EmbFacts MatrixFacts BatchFacts
  TextFacts TextThms BinaryThms LossyFacts TextAccept FloretThms FastTextFacts.
Local Open Scope N_scope.

(** ** Pieces *)
Lemma eat_u32 n r p : n < two32 -> read_u32 (mkStream (le_bytes 4 n ++ r) p) = (Ok n, mkStream r (p + 4)).
Proof. intros L. pose proof (reads_u32 n L p r false) as H. unfold fconst in H. rewrite le_bytes_lenN in H. exact H. Qed.
Lemma eat_u64 n r p : n < two64 -> read_u64 (mkStream (le_bytes 8 n ++ r) p) = (Ok n, mkStream r (p + 8)).
Proof. intros L. pose proof (reads_u64 n L p r false) as H. unfold fconst in H. rewrite le_bytes_lenN in H. exact H. Qed.
Lemma eat_u8 n r p : n < 256 -> read_u8 (mkStream (le_bytes 1 n ++ r) p) = (Ok n, mkStream r (p + 1)).
Proof.
  intros L. unfold read_u8, bind. rewrite read_exact_app by apply le_bytes_lenN. unfold ret.
  rewrite le_value_bytes_mod. change (256 ^ N.of_nat 1) with 256. rewrite N.mod_small by exact L. reflexivity.
Qed.
Lemma read_u8_inv s n s' : read_u8 s = (Ok n, s') -> s_rest s = le_bytes 1 n ++ s_rest s' /\ n < 256.
Proof.
  unfold read_u8. intros H. minv H as a E0. apply ret_inv in H as [<- <-].
  apply read_exact_inv in E0 as (E & L & P). destruct (le_bytes_of 1 a L) as [E2 L2].
  rewrite E. split; [f_equal; exact E2|exact L2].
Qed.
(** If the first step fails, so does everything. *)
Lemma bind_fst_Err {S A B} (m : M S A) (k : A -> M S B) s e : fst (m s) = Err e -> fst (bind m k s) = Err e.
Proof. unfold bind. destruct (m s) as [[|e'|] s']; cbn [fst]; intros H; congruence. Qed.
Lemma bind_step {S A B} (m : M S A) (k : A -> M S B) s a s' : m s = (Ok a, s') -> bind m k s = k a s'.
Proof. unfold bind. intros ->. reflexivity. Qed.

Ltac eat :=
  match goal with
  | |- context [bind read_u32 ?k (mkStream (le_bytes 4 ?n ++ ?r) ?p)] =>
      rewrite (bind_step read_u32 k _ n (mkStream r (p + 4))) by (apply eat_u32; assumption)
  | |- context [bind read_u64 ?k (mkStream (le_bytes 8 ?n ++ ?r) ?p)] =>
      rewrite (bind_step read_u64 k _ n (mkStream r (p + 8))) by (apply eat_u64; assumption)
  | |- context [bind read_u8 ?k (mkStream (le_bytes 1 ?n ++ ?r) ?p)] =>
      rewrite (bind_step read_u8 k _ n (mkStream r (p + 1))) by (apply eat_u8; assumption)
  end; cbv beta.

(** ** Configurations *)
Lemma read_loss_exact n r p : n < two32 ->
  read_loss (mkStream (le_bytes 4 n ++ r) p)
  = (match n with 1 => Ok HierarchicalSoftmax | 2 => Ok NegativeSampling | 3 => Ok Softmax | _ => Err EFormat end, mkStream r (p + 4)).
Proof.
  intros L. unfold read_loss. rewrite (bind_step _ _ _ _ _ (eat_u32 n r p L)).
  destruct n as [|[[q|q|]|[q|q|]|]]; reflexivity.
Qed.
Lemma read_model_exact n r p : n < two32 ->
  read_model (mkStream (le_bytes 4 n ++ r) p)
  = (match n with 1 => Ok Cbow | 2 => Ok SkipGram | 3 => Ok Supervised | _ => Err EFormat end, mkStream r (p + 4)).
Proof.
  intros L. unfold read_model. rewrite (bind_step _ _ _ _ _ (eat_u32 n r p L)).
  destruct n as [|[[q|q|]|[q|q|]|]]; reflexivity.
Qed.
Lemma list_12 (l : list N) : lenN l = 12 -> exists a b c d e f g h i j k m, l = [a; b; c; d; e; f; g; h; i; j; k; m].
Proof.
  unfold lenN. intros L. assert (length l = 12%nat) as L' by lia. clear L.
  do 12 (destruct l as [|? l]; [discriminate|]). destruct l; [|discriminate]. do 12 eexists. reflexivity.
Qed.
Lemma config_some f : lenN (ff_numbers f) = 12 ->
  (exists c, ft_config_is f c) <->
  (exists l m, nthN (ff_numbers f) 6 = Some l /\ nthN (ff_numbers f) 7 = Some m /\ 1 <= l <= 3 /\ 1 <= m <= 3).
Proof.
  intros L. unfold ft_config_is. split.
  - intros (c & <- & _). cbn [config_numbers]. do 2 eexists. split; [reflexivity|]. split; [reflexivity|].
    destruct (fc_loss c), (fc_model c); lia.
  - destruct (list_12 _ L) as (a & b & c & d & e & g & h & i & j & k & m & n & ->).
    intros (l & mo & E1 & E2 & B1 & B2). unfold nthN in E1, E2. cbn in E1, E2. inv E1. inv E2.
    exists (mkFtCfg a b c d e g (if l =? 1 then HierarchicalSoftmax else if l =? 2 then NegativeSampling else Softmax)
                    (if mo =? 1 then Cbow else if mo =? 2 then SkipGram else Supervised) j k m n (ff_threshold f)).
    split; [|reflexivity]. unfold config_numbers. cbn [fc_dims fc_window fc_epoch fc_min_count fc_neg fc_word_ngrams fc_loss fc_model fc_bucket fc_min_n fc_max_n fc_lr].
    assert (l = 1 \/ l = 2 \/ l = 3) as [-> | [-> | ->]] by lia; assert (mo = 1 \/ mo = 2 \/ mo = 3) as [-> | [-> | ->]] by lia; reflexivity.
Qed.

Lemma config_known f c r p : Forall (fun n => n < two32) (ff_numbers f) -> ff_threshold f < two64 -> ft_config_is f c ->
  exists p', read_config (mkStream (u32s_bytes (ff_numbers f) ++ le_bytes 8 (ff_threshold f) ++ r) p) = (Ok c, mkStream r p').
Proof.
  intros F L (E1 & E2). rewrite <- E1 in *. rewrite <- E2 in *. clear E1 E2. unfold u32s_bytes, config_numbers. cbn [flat_map]. rewrite <- !app_assoc, app_nil_l.
  unfold config_numbers in F.
  repeat match goal with H : Forall _ (_ :: _) |- _ => apply Forall_cons_iff in H as [? H] end.
  unfold read_config. eexists.
  do 6 eat.
  destruct c as [c1 c2 c3 c4 c5 c6 lo mo c9 c10 c11 c12 c13]. cbn [fc_dims fc_window fc_epoch fc_min_count fc_neg fc_word_ngrams fc_loss fc_model fc_bucket fc_min_n fc_max_n fc_lr fc_threshold] in *.
  unfold bind at 1. rewrite read_loss_exact by assumption. destruct lo.
  all: unfold bind at 1; rewrite read_model_exact by assumption; destruct mo.
  all: do 4 eat.
  all: eat; reflexivity.
Qed.
Lemma config_unknown f r p : Forall (fun n => n < two32) (ff_numbers f) -> lenN (ff_numbers f) = 12 -> ~ (exists c, ft_config_is f c) ->
  fst (read_config (mkStream (u32s_bytes (ff_numbers f) ++ le_bytes 8 (ff_threshold f) ++ r) p)) = Err EFormat.
Proof.
  intros F L NC. rewrite (config_some f L) in NC.
  destruct (list_12 _ L) as (a & b & c & d & e & g & lo & mo & j & k & m & n & E). rewrite E in *.
  unfold u32s_bytes. cbn [flat_map]. rewrite <- !app_assoc, app_nil_l.
  repeat match goal with H : Forall _ (_ :: _) |- _ => apply Forall_cons_iff in H as [? H] end.
  unfold read_config. do 6 eat.
  assert (forall l, match l with 1 | 2 | 3 => True | _ => False end -> 1 <= l <= 3) as R.
  { intros l. destruct l as [|[[q|q|]|[q|q|]|]]; intros []; lia. }
  unfold bind at 1. rewrite read_loss_exact by assumption.
  destruct (match lo with 1 | 2 | 3 => true | _ => false end) eqn:El.
  - assert (1 <= lo <= 3) as B1 by (apply R; destruct lo as [|[[q|q|]|[q|q|]|]]; cbn in El; try discriminate; exact Logic.I).
    assert (~ 1 <= mo <= 3) as B2 by (intros B2; apply NC; exists lo, mo; repeat split; lia).
    assert (exists x, match lo with 1 => Ok HierarchicalSoftmax | 2 => Ok NegativeSampling | 3 => Ok Softmax | _ => Err EFormat end = Ok x) as [x ->].
    { destruct lo as [|[[q|q|]|[q|q|]|]]; cbn in El; try discriminate; eexists; reflexivity. }
    apply bind_fst_Err. rewrite read_model_exact by assumption. cbn [fst].
    destruct mo as [|[[q|q|]|[q|q|]|]]; try reflexivity; exfalso; apply B2; lia.
  - assert (match lo with 1 => Ok HierarchicalSoftmax | 2 => Ok NegativeSampling | 3 => Ok Softmax | _ => Err EFormat end = Err EFormat) as ->.
    { destruct lo as [|[[q|q|]|[q|q|]|]]; cbn in El; try discriminate; reflexivity. }
    reflexivity.
Qed.

Lemma read_config_inv s c s' : read_config s = (Ok c, s') ->
  s_rest s = u32s_bytes (config_numbers c) ++ le_bytes 8 (fc_threshold c) ++ s_rest s' /\
  Forall (fun n => n < two32) (config_numbers c) /\ fc_threshold c < two64.
Proof.
  unfold read_config. intros H. minv H as d1 E1. minv H as d2 E2. minv H as d3 E3. minv H as d4 E4. minv H as d5 E5. minv H as d6 E6.
  minv H as lo E7. minv H as mo E8. minv H as d9 E9. minv H as d10 E10. minv H as d11 E11. minv H as d12 E12. minv H as th E13.
  apply ret_inv in H as [<- <-].
  assert (forall s lo s', read_loss s = (Ok lo, s') -> s_rest s = le_bytes 4 (loss_num lo) ++ s_rest s' /\ loss_num lo < two32) as HL.
  { clear. intros s lo s' H. unfold read_loss in H. minv H as n E. apply read_u32_inv in E as (E & L & _).
    destruct n as [|[[q|q|]|[q|q|]|]]; try discriminate H; apply ret_inv in H as [<- <-]; auto. }
  assert (forall s lo s', read_model s = (Ok lo, s') -> s_rest s = le_bytes 4 (model_num lo) ++ s_rest s' /\ model_num lo < two32) as HM.
  { clear. intros s lo s' H. unfold read_model in H. minv H as n E. apply read_u32_inv in E as (E & L & _).
    destruct n as [|[[q|q|]|[q|q|]|]]; try discriminate H; apply ret_inv in H as [<- <-]; auto. }
  apply HL in E7 as [E7 ?]. apply HM in E8 as [E8 ?].
  apply read_u32_inv in E1 as (E1 & ? & _), E2 as (E2 & ? & _), E3 as (E3 & ? & _), E4 as (E4 & ? & _), E5 as (E5 & ? & _), E6 as (E6 & ? & _),
    E9 as (E9 & ? & _), E10 as (E10 & ? & _), E11 as (E11 & ? & _), E12 as (E12 & ? & _).
  apply read_u64_inv in E13 as (E13 & ? & _).
  unfold config_numbers, u32s_bytes. cbn [fc_dims fc_window fc_epoch fc_min_count fc_neg fc_word_ngrams fc_loss fc_model fc_bucket fc_min_n fc_max_n fc_lr fc_threshold flat_map].
  split; [|split; [repeat constructor; auto|auto]].
  rewrite E1, E2, E3, E4, E5, E6, E7, E8, E9, E10, E11, E12, E13. rewrite <- !app_assoc, app_nil_l. reflexivity.
Qed.

(** ** Entries *)
Lemma string_hit d lossy name w r p : ~ In d name -> decodes lossy name w ->
  read_string d lossy (mkStream (name ++ d :: r) p) = (Ok w, mkStream r (p + lenN (name ++ [d]))).
Proof.
  intros NI D. unfold read_string, bind. rewrite read_until_hit by exact NI. rewrite removelast_last. unfold decodes in D. destruct lossy.
  - subst w. reflexivity.
  - destruct D as [-> ->]. reflexivity.
Qed.
Lemma string_undecodable d name r p : ~ In d name -> utf8_valid name = false ->
  fst (read_string d false (mkStream (name ++ d :: r) p)) = Err EFormat.
Proof. intros NI D. unfold read_string, bind. rewrite read_until_hit by exact NI. rewrite removelast_last, D. reflexivity. Qed.

Lemma ft_entry_read lossy name freq w r p : ft_entry_ok (name, freq, 0) -> decodes lossy name w ->
  exists p', read_ft_entry lossy (mkStream (ft_entry_bytes (name, freq, 0) ++ r) p) = (Ok w, mkStream r p').
Proof.
  intros (NI & L & K) D. unfold read_ft_entry, ft_entry_bytes. rewrite <- app_assoc. cbn [app]. rewrite <- app_assoc. eexists.
  rewrite (bind_step _ _ _ _ _ (string_hit x00 lossy name w _ p NI D)).
  rewrite (bind_step _ _ _ _ _ (eat_u64 _ _ _ L)). rewrite (bind_step _ _ _ _ _ (eat_u8 _ _ _ K)). reflexivity.
Qed.
Lemma decide_decodes lossy name : (exists w, decodes lossy name w) \/ (lossy = false /\ utf8_valid name = false).
Proof. unfold decodes. destruct lossy; [eauto|]. destruct (utf8_valid name); eauto. Qed.
(** Anything that is not a word, or cannot be decoded, is rejected. *)
Definition entry_bad (lossy : bool) (it : list byte * N * N) : Prop :=
  snd it <> 0 \/ (lossy = false /\ utf8_valid (fst (fst it)) = false).
Lemma ft_entry_rejected lossy it r p : ft_entry_ok it -> entry_bad lossy it ->
  fst (read_ft_entry lossy (mkStream (ft_entry_bytes it ++ r) p)) = Err EFormat.
Proof.
  destruct it as [[name freq] kind]. intros (NI & L & K) B. unfold read_ft_entry, ft_entry_bytes. rewrite <- app_assoc. cbn [app]. rewrite <- app_assoc.
  destruct (decide_decodes lossy name) as [(w & D)|(E & V)].
  - rewrite (bind_step _ _ _ _ _ (string_hit x00 lossy name w _ p NI D)).
    rewrite (bind_step _ _ _ _ _ (eat_u64 _ _ _ L)). rewrite (bind_step _ _ _ _ _ (eat_u8 _ _ _ K)).
    destruct B as [B|[-> B]]; cbn [fst snd] in B.
    + apply N.eqb_neq in B. rewrite B. reflexivity.
    + unfold decodes in D. destruct D as [_ D]. congruence.
  - subst lossy. apply bind_fst_Err. apply string_undecodable; auto.
Qed.

Lemma ft_entries_read lossy its ws r : Forall ft_entry_ok its -> Forall (fun it => snd it = 0) its ->
  Forall2 (fun it w => decodes lossy (fst (fst it)) w) its ws -> forall p,
  exists p', repeat_m (lenN its) (read_ft_entry lossy) (mkStream (flat_map ft_entry_bytes its ++ r) p) = (Ok ws, mkStream r p').
Proof.
  intros F K D. assert (forall p, exists p', repeat_nat (length its) (read_ft_entry lossy) (mkStream (flat_map ft_entry_bytes its ++ r) p) = (Ok ws, mkStream r p')) as G.
  { induction D as [|it w its ws D1 D IH]; intros p; [exists p; reflexivity|]. inv F. inv K. cbn [length repeat_nat flat_map]. rewrite <- app_assoc.
    destruct it as [[name freq] kind]. cbn [snd fst] in *. subst kind.
    destruct (ft_entry_read lossy name freq w (flat_map ft_entry_bytes its ++ r) p) as (p1 & E1); auto.
    rewrite (bind_step _ _ _ _ _ E1). destruct (IH ltac:(assumption) ltac:(assumption) p1) as (p2 & E2). rewrite (bind_step _ _ _ _ _ E2). eexists. reflexivity. }
  intros p. rewrite repeat_m_nat. replace (N.to_nat (lenN its)) with (length its) by (unfold lenN; lia). apply G.
Qed.
Lemma ft_entries_rejected lossy its r : Forall ft_entry_ok its -> Exists (entry_bad lossy) its -> forall p,
  fst (repeat_m (lenN its) (read_ft_entry lossy) (mkStream (flat_map ft_entry_bytes its ++ r) p)) = Err EFormat.
Proof.
  intros F B p. rewrite repeat_m_nat. replace (N.to_nat (lenN its)) with (length its) by (unfold lenN; lia).
  revert p. induction its as [|it its IH]; intros p; [inv B|]. inv F. cbn [length repeat_nat flat_map]. rewrite <- app_assoc.
  destruct it as [[name freq] kind].
  assert (entry_bad lossy (name, freq, kind) \/ (kind = 0 /\ (exists w, decodes lossy name w))) as [Bad|[-> (w & D)]].
  { destruct (N.eq_dec kind 0) as [->|]; [|left; left; auto]. destruct (decide_decodes lossy name) as [D|D]; [auto|left; right; auto]. }
  - apply bind_fst_Err. apply ft_entry_rejected; auto.
  - destruct (ft_entry_read lossy name freq w (flat_map ft_entry_bytes its ++ r) p) as (p1 & E1); auto.
    rewrite (bind_step _ _ _ _ _ E1). apply bind_fst_Err. apply IH; auto. apply Exists_cons in B as [Bad|B]; [|auto].
    exfalso. destruct Bad as [Bad|[-> Bad]]; cbn [fst snd] in Bad; [auto|]. unfold decodes in D. destruct D. congruence.
Qed.
Lemma ft_entry_inv lossy s w s' : read_ft_entry lossy s = (Ok w, s') -> exists name freq,
  s_rest s = ft_entry_bytes (name, freq, 0) ++ s_rest s' /\ ft_entry_ok (name, freq, 0) /\ decodes lossy name w.
Proof.
  unfold read_ft_entry. intros H. minv H as w' E1. minv H as freq E2. minv H as kind E3.
  destruct (N.eqb_spec kind 0) as [->|]; [|discriminate H]. cbn [negb] in H. apply ret_inv in H as [<- <-].
  apply read_u8_inv in E3 as [E3 _]. apply read_u64_inv in E2 as (E2 & L & _).
  apply read_string_inv in E1 as [(name & E1 & NI & D)|[E1 _]].
  - exists name, freq. split; [|repeat split; auto; lia]. rewrite E1, E2, E3. unfold ft_entry_bytes. rewrite <- app_assoc. cbn [app]. rewrite <- app_assoc. reflexivity.
  - exfalso. rewrite E1 in E2. apply (f_equal lenN) in E2. rewrite lenN_app, le_bytes_lenN, lenN_nil in E2. lia.
Qed.
Lemma ft_entries_inv lossy n s ws s' : repeat_m n (read_ft_entry lossy) s = (Ok ws, s') -> exists its,
  s_rest s = flat_map ft_entry_bytes its ++ s_rest s' /\ lenN its = n /\ Forall ft_entry_ok its /\ Forall (fun it => snd it = 0) its /\
  Forall2 (fun it w => decodes lossy (fst (fst it)) w) its ws.
Proof.
  intros H. rewrite repeat_m_nat in H.
  assert (forall k s ws, repeat_nat k (read_ft_entry lossy) s = (Ok ws, s') -> exists its,
    s_rest s = flat_map ft_entry_bytes its ++ s_rest s' /\ length its = k /\ Forall ft_entry_ok its /\ Forall (fun it => snd it = 0) its /\
    Forall2 (fun it w => decodes lossy (fst (fst it)) w) its ws) as G.
  { clear H s ws. induction k as [|k IH]; intros s ws H; cbn [repeat_nat] in H.
    - apply ret_inv in H as [<- <-]. exists []. repeat split; constructor.
    - minv H as w E1. minv H as l E2. apply ret_inv in H as [<- <-]. apply ft_entry_inv in E1 as (name & freq & E1 & O & D).
      apply IH in E2 as (its & E2 & L & O2 & K2 & D2). exists ((name, freq, 0) :: its).
      split; [cbn [flat_map]; rewrite E1, E2, <- app_assoc; reflexivity|]. split; [cbn [length]; lia|]. repeat split; constructor; auto. }
  apply G in H as (its & E & L & O & K & D). exists its. split; [auto|]. split; [unfold lenN; lia|]. auto.
Qed.

Lemma entries_dec lossy (its : list (list byte * N * N)) :
  (Forall (fun it => snd it = 0) its /\ exists ws, Forall2 (fun it w => decodes lossy (fst (fst it)) w) its ws) \/ Exists (entry_bad lossy) its.
Proof.
  induction its as [|[[name freq] kind] its [[K (ws & D)]|E]]; [left; split; [constructor|exists []; constructor]| |right; right; auto].
  destruct (N.eq_dec kind 0) as [->|NK]; [|right; left; left; exact NK].
  destruct (decide_decodes lossy name) as [(w & D1)|[-> D1]]; [|right; left; right; auto].
  left. split; [constructor; auto|]. exists (w :: ws). constructor; auto.
Qed.
Lemma config_dec f : lenN (ff_numbers f) = 12 -> (exists c, ft_config_is f c) \/ ~ (exists c, ft_config_is f c).
Proof.
  intros L. rewrite (config_some f L). destruct (list_12 _ L) as (a & b & c & d & e & g & lo & mo & j & k & m & n & ->).
  assert (1 <= lo <= 3 /\ 1 <= mo <= 3 \/ ~ (1 <= lo <= 3 /\ 1 <= mo <= 3)) as [B|B] by lia.
  - left. exists lo, mo. repeat split; tauto.
  - right. intros (l & o & E1 & E2 & B1 & B2). unfold nthN in E1, E2. cbn in E1, E2. inv E1. inv E2. tauto.
Qed.

Lemma range_dec mn mx : range_ok mn mx \/ ~ range_ok mn mx.
Proof. unfold range_ok. lia. Qed.

(** ** Files *)
Section ReadFile.
  Context (pf : profile) (T : toml_ops) (config_table : ft_config -> option (toml_table T)).
  Notation fte := (embeddings (toml_table T) (subword_vocab ft_indexer) (array2 f32) f32).

  (** What follows the vocabulary. *)
  Definition ft_finish (c : ft_config) (v : subword_vocab ft_indexer) (a0 : array2 f32) : res fte :=
    let* a1 := add_subword_embeddings f32_ops pf v a0 in
    let* an := normalize_words f32_ops (sub_words_len v) a1 in
    let* n := add64 pf (sub_words_len v) (fc_bucket c) in
    if negb (a2_nrows (fst an) =? n) then Err EMatrixShape else
    match config_table c with
    | None => Err EFormat
    | Some t => emb_new (sub_ops ft_ops) (nd_ops f32) pf (Some t) v (fst an) (snd an)
    end.
  Definition ft_after (c : ft_config) (v : subword_vocab ft_indexer) : reader fte :=
    q <- read_u8 ;;
    if q =? 1 then fail EFormat else
    a0 <- read_ft_matrix ;;
    lift (ft_finish c v a0).

  Lemma read_fasttext_eq lossy s :
    read_fasttext pf T config_table lossy s =
    (m <- read_u32 ;;
     if negb (m =? ft_magic) then fail EFormat else
     ver <- read_u32 ;;
     if ft_version <? ver then fail EFormat else
     c <- read_config ;;
     v <- read_ft_vocab pf c lossy ;;
     ft_after c v) s.
  Proof.
    unfold read_fasttext. apply bind_ext; [reflexivity|]. intros m s1 _. destruct (negb _); [reflexivity|].
    apply bind_ext; [reflexivity|]. intros ver s2 _. destruct (_ <? _); [reflexivity|].
    apply bind_ext; [reflexivity|]. intros c s3 _. apply bind_ext; [reflexivity|]. intros v s4 _. unfold ft_after.
    apply bind_ext; [reflexivity|]. intros q s5 _. destruct (q =? 1); [reflexivity|].
    apply bind_ext; [reflexivity|]. intros a0 s6 _. unfold ft_finish, lift, bind.
    destruct (add_subword_embeddings f32_ops pf v a0) as [a1| |]; cbn [rbind]; [|reflexivity|reflexivity].
    destruct (normalize_words f32_ops (sub_words_len v) a1) as [an| |]; cbn [rbind]; [|reflexivity|reflexivity].
    destruct (add64 pf (sub_words_len v) (fc_bucket c)) as [n| |]; cbn [rbind]; [|reflexivity|reflexivity].
    destruct (negb _); [reflexivity|]. destruct (config_table c); reflexivity.
  Qed.

  Definition ft_matrix_bytes (a : array2 f32) : list byte :=
    le_bytes 8 (lenN (a2_rows a)) ++ le_bytes 8 (a2_cols a) ++ f32s_bytes (concat (a2_rows a)).
  Lemma ft_matrix_read a r p : ft_matrix_ok a ->
    exists p', read_ft_matrix (mkStream (ft_matrix_bytes a ++ r) p) = (Ok a, mkStream r p').
  Proof.
    intros (W & L1 & L2 & D). unfold read_ft_matrix, ft_matrix_bytes. rewrite <- !app_assoc. do 2 eat.
    rewrite (bind_step _ _ _ _ _ (alloc_zeros_ok _ _ _ D)).
    assert (lenN (a2_rows a) * a2_cols a = lenN (concat (a2_rows a))) as E by (rewrite (concat_lenN (a2_cols a)) by exact W; lia).
    pose proof (reads_f32s (concat (a2_rows a)) _ E (p + 8 + 8) r false) as R. unfold fconst in R.
    rewrite (bind_step _ _ _ _ _ R). eexists. unfold ret. rewrite unflattenN_concat by auto. destruct a; reflexivity.
  Qed.
  Lemma ft_matrix_inv s a s' : read_ft_matrix s = (Ok a, s') -> ft_matrix_ok a /\ s_rest s = ft_matrix_bytes a ++ s_rest s'.
  Proof.
    unfold read_ft_matrix. intros H. minv H as m E1. minv H as n E2. minv H as u E3. minv H as data E4. apply ret_inv in H as [<- <-].
    apply read_u64_inv in E1 as (E1 & L1 & _). apply read_u64_inv in E2 as (E2 & L2 & _). apply alloc_inv in E3 as [D ->].
    apply read_f32s_inv in E4 as (E4 & L & _). destruct (unflattenN_spec _ _ _ L) as (F & C & LN).
    split; [repeat split; cbn [a2_rows a2_cols]; rewrite ?LN; auto; apply D|].
    unfold ft_matrix_bytes. cbn [a2_rows a2_cols]. rewrite LN, C, E1, E2, E4, <- !app_assoc. reflexivity.
  Qed.

  Definition ft_head (f : ft_file) : list byte :=
    u32s_bytes [lenN (ff_entries f); ff_nwords f; ff_nlabels f] ++ le_bytes 8 (ff_tokens f) ++ le_bytes 8 (ff_prune f).
  Lemma ft_bytes_eq f r : ft_bytes f ++ r =
    le_bytes 4 (ff_magic f) ++ le_bytes 4 (ff_version f) ++ u32s_bytes (ff_numbers f) ++ le_bytes 8 (ff_threshold f) ++
    ft_head f ++ flat_map ft_entry_bytes (ff_entries f) ++ le_bytes 1 (ff_quant f) ++ ft_matrix_bytes (ff_matrix f) ++ r.
  Proof. unfold ft_bytes, ft_head, ft_matrix_bytes, u32s_bytes. cbn [flat_map]. rewrite <- !app_assoc. reflexivity. Qed.

  (** The vocabulary of a supported model. *)
  Lemma ft_vocab_read lossy f c ws r p : ft_fields_ok f -> ff_nlabels f = 0 -> 2 ^ 63 <= ff_prune f ->
    Forall (fun it => snd it = 0) (ff_entries f) -> ft_words lossy f ws -> exists p',
    read_ft_vocab pf c lossy (mkStream (ft_head f ++ flat_map ft_entry_bytes (ff_entries f) ++ r) p) =
    (ix <- lift (ft_indexer_new (fc_bucket c)) ;; lift (sub_new ft_ops pf ws (fc_min_n c) (fc_max_n c) ix)) (mkStream r p').
  Proof.
    intros (_ & _ & _ & F & L1 & L2 & FE & _) NL PR K W. unfold read_ft_vocab, ft_head, u32s_bytes. cbn [flat_map]. rewrite app_nil_r, <- !app_assoc.
    repeat match goal with H : Forall (fun n : N => n < _) (_ :: _) |- _ => apply Forall_cons_iff in H as [? H] end.
    do 3 eat. destruct (N.ltb_spec 0 (ff_nlabels f)) as [NL'|_]; [lia|]. do 2 eat.
    destruct (N.leb_spec (ff_prune f) isize_max) as [C|C]; [unfold isize_max in C; lia|].
    assert (lenN (ff_entries f) * 24 <= isize_max) as RS by (unfold isize_max, two32 in *; lia).
    rewrite (bind_step _ _ _ _ _ (reserve_ok _ _ _ RS)).
    match goal with |- context [mkStream (flat_map _ _ ++ _) ?q] => destruct (ft_entries_read lossy _ _ r FE K W q) as (p' & E) end.
    rewrite (bind_step _ _ _ _ _ E). eexists. reflexivity.
  Qed.
  (** Labels, pruned models, entries that are not words. *)
  Lemma ft_vocab_rejected lossy f c r p : ft_fields_ok f ->
    ff_nlabels f <> 0 \/ ff_prune f < 2 ^ 63 \/ Exists (entry_bad lossy) (ff_entries f) ->
    fst (read_ft_vocab pf c lossy (mkStream (ft_head f ++ flat_map ft_entry_bytes (ff_entries f) ++ r) p)) = Err EFormat.
  Proof.
    intros (_ & _ & _ & F & L1 & L2 & FE & _) B. unfold read_ft_vocab, ft_head, u32s_bytes. cbn [flat_map]. rewrite app_nil_r, <- !app_assoc.
    repeat match goal with H : Forall (fun n : N => n < _) (_ :: _) |- _ => apply Forall_cons_iff in H as [? H] end.
    do 3 eat. destruct (N.ltb_spec 0 (ff_nlabels f)) as [NL|NL]; [reflexivity|]. do 2 eat.
    destruct (N.leb_spec (ff_prune f) isize_max) as [C|C]; [reflexivity|].
    destruct B as [B|[B|B]]; [lia|unfold isize_max in C; lia|].
    assert (lenN (ff_entries f) * 24 <= isize_max) as RS by (unfold isize_max, two32 in *; lia).
    rewrite (bind_step _ _ _ _ _ (reserve_ok _ _ _ RS)).
    apply bind_fst_Err. apply ft_entries_rejected; auto.
  Qed.

  (** C46: unsupported models are errors. *)
  Lemma ft_unsupported lossy f rest : ft_fields_ok f -> ~ ft_supported f \/ ~ (exists ws, ft_words lossy f ws) ->
    run_reader (read_fasttext pf T config_table lossy) (ft_bytes f ++ rest) = Err EFormat.
  Proof.
    intros O NS. unfold run_reader. rewrite read_fasttext_eq, ft_bytes_eq.
    pose proof O as (F & LN & LT & _).
    repeat match goal with H : Forall (fun n : N => n < _) (_ :: _) |- _ => apply Forall_cons_iff in H as [? H] end.
    eat. unfold ft_magic. destruct (N.eqb_spec (ff_magic f) 793712314) as [EM|]; [|reflexivity]. cbn [negb].
    eat. unfold ft_version. destruct (N.ltb_spec 12 (ff_version f)) as [|LV]; [reflexivity|].
    destruct (config_dec f LN) as [(c & C)|NC]; [|apply bind_fst_Err; apply config_unknown; auto].
    match goal with |- context [mkStream (_ ++ _ ++ ?r) ?q] => destruct (config_known f c r q F LT C) as (p' & E) end.
    rewrite (bind_step _ _ _ _ _ E). apply bind_fst_Err. apply ft_vocab_rejected; [auto|].
    destruct (N.eq_dec (ff_nlabels f) 0) as [NL|]; [|auto]. destruct (N.lt_ge_cases (ff_prune f) (2 ^ 63)) as [|PR]; [auto|].
    right; right. destruct (entries_dec lossy (ff_entries f)) as [[K D]|]; [|auto]. exfalso. destruct NS as [NS|NS].
    - apply NS. unfold ft_supported. eauto 10.
    - apply NS. exact D.
  Qed.

  (** A supported model up to its vocabulary. *)
  Lemma ft_start lossy f c ws rest : ft_fields_ok f -> ft_supported f -> ft_config_is f c -> ft_words lossy f ws -> exists p,
    read_fasttext pf T config_table lossy (mkStream (ft_bytes f ++ rest) 0) =
    (v <- lift (let* ix := ft_indexer_new (fc_bucket c) in sub_new ft_ops pf ws (fc_min_n c) (fc_max_n c) ix) ;; ft_after c v)
      (mkStream (le_bytes 1 (ff_quant f) ++ ft_matrix_bytes (ff_matrix f) ++ rest) p).
  Proof.
    intros O (EM & LV & _ & NL & PR & K) C W. rewrite read_fasttext_eq, ft_bytes_eq.
    pose proof O as (F & LN & LT & _).
    repeat match goal with H : Forall (fun n : N => n < _) (_ :: _) |- _ => apply Forall_cons_iff in H as [? H] end.
    eat. unfold ft_magic. destruct (N.eqb_spec (ff_magic f) 793712314) as [_|]; [|contradiction]. cbn [negb].
    eat. unfold ft_version. destruct (N.ltb_spec 12 (ff_version f)) as [|_]; [lia|].
    match goal with |- context [mkStream (_ ++ _ ++ ?r) ?q] => destruct (config_known f c r q F LT C) as (p1 & E1) end.
    rewrite (bind_step _ _ _ _ _ E1).
    destruct (ft_vocab_read lossy f c ws (le_bytes 1 (ff_quant f) ++ ft_matrix_bytes (ff_matrix f) ++ rest) p1 O NL PR K W) as (p2 & E2).
    exists p2. unfold bind at 1. rewrite E2. unfold bind, lift.
    destruct (ft_indexer_new (fc_bucket c)); cbn [rbind]; [|reflexivity|reflexivity]. reflexivity.
  Qed.

  Lemma ft_indexer_ok n : n <= i32_max -> ft_indexer_new n = Ok (mkFtIx n).
  Proof.
    intros L. unfold ft_indexer_new. rewrite (proj2 (N.leb_le _ _) L). cbn [rassert rbind].
    rewrite N.mod_small by (unfold i32_max, two32 in *; lia). reflexivity.
  Qed.
  Lemma ft_indexer_big n : i32_max < n -> ft_indexer_new n = Panic PAssert.
  Proof. intros L. unfold ft_indexer_new. rewrite (proj2 (N.leb_gt _ _) L). reflexivity. Qed.
  Lemma ft_config_bounds f c : ft_fields_ok f -> ft_config_is f c -> fc_bucket c < two32 /\ fc_min_n c < two32 /\ fc_max_n c < two32.
  Proof.
    intros (F & _) (E & _). apply Forall_cons_iff in F as [_ F]. apply Forall_cons_iff in F as [_ F]. rewrite <- E in F. unfold config_numbers in F.
    repeat match goal with H : Forall (fun n : N => n < _) (_ :: _) |- _ => apply Forall_cons_iff in H as [? H] end. auto.
  Qed.
  Lemma ft_words_small lossy f ws : ft_fields_ok f -> ft_words lossy f ws -> lenN ws = lenN (ff_entries f) /\ lenN ws < two32.
  Proof.
    intros (_ & _ & _ & F & _) W. apply Forall_cons_iff in F as [L _].
    assert (lenN ws = lenN (ff_entries f)) as E by (unfold lenN; clear -W; induction W; cbn [length]; lia). rewrite E. auto.
  Qed.
  Lemma ft_words_valid lossy f ws : ft_words lossy f ws -> Forall (fun w => utf8_valid w = true) ws.
  Proof.
    unfold ft_words. induction 1 as [|it w its ws D W IH]; constructor; auto. unfold decodes in D. destruct lossy.
    - subst w. apply from_utf8_lossy_valid.
    - destruct D as [-> D]. exact D.
  Qed.

  Definition ft_vocab_of (c : ft_config) (ws : list str) : subword_vocab ft_indexer :=
    mkSub default_bow default_eow (mkFtIx (fc_bucket c)) (create_indices ws) ws (fc_min_n c) (fc_max_n c).
  Lemma ft_words_len c ws : NoDup ws -> sub_words_len (ft_vocab_of c ws) = lenN ws.
  Proof. intros ND. unfold sub_words_len. cbn [ft_vocab_of sv_indices]. symmetry. apply ci_len_NoDup. exact ND. Qed.
  Lemma ft_sub_new c ws : lenN ws < two32 -> fc_bucket c <= i32_max ->
    (NoDup ws -> sub_new ft_ops pf ws (fc_min_n c) (fc_max_n c) (mkFtIx (fc_bucket c)) = Ok (ft_vocab_of c ws)) /\
    (~ NoDup ws -> sub_new ft_ops pf ws (fc_min_n c) (fc_max_n c) (mkFtIx (fc_bucket c)) = Panic PDuplicateWords).
  Proof.
    intros L B. assert (ix_bound ft_ops pf (mkFtIx (fc_bucket c)) = Ok (fc_bucket c)) as E by reflexivity.
    assert (lenN ws + fc_bucket c < two64) as L2 by (unfold two32, two64, i32_max in *; lia).
    unfold sub_new. destruct (sub_new_iff ft_ops pf ws (fc_min_n c) (fc_max_n c) (mkFtIx (fc_bucket c)) default_bow default_eow _ E L2) as [H1 H2].
    split; [|exact H2]. intros ND. destruct (proj2 H1 ND) as (v & Ev). rewrite Ev. f_equal. apply sub_new_Ok in Ev as (_ & -> & _). reflexivity.
  Qed.
  Lemma ft_vocab_made c ws : lenN ws < two32 -> fc_bucket c <= i32_max -> fc_bucket c <> 0 -> NoDup ws -> ft_made pf (ft_vocab_of c ws).
  Proof.
    intros L B NZ ND. exists ws, (fc_min_n c), (fc_max_n c), (fc_bucket c), (mkFtIx (fc_bucket c)), default_bow, default_eow.
    split; [auto|]. split; [apply ft_indexer_ok; auto|]. apply (proj1 (ft_sub_new c ws L B) ND).
  Qed.

  Lemma sub_subwords_range c ws w : ~ range_ok (fc_min_n c) (fc_max_n c) -> sub_subword_indices ft_ops pf (ft_vocab_of c ws) w = Panic PAssert.
  Proof.
    intros R. unfold sub_subword_indices, str_subword_indices, subword_indices_with_ngrams, ngi_new. cbn [ft_vocab_of sv_min sv_max].
    rewrite ngrams_new_panics by auto. reflexivity.
  Qed.

  (** Row counts never change. *)
  Lemma step_shape v a iw a' : add_subwords_step f32_ops pf v a iw = Ok a' -> lenN (a2_rows a') = lenN (a2_rows a) /\ a2_cols a' = a2_cols a.
  Proof.
    destruct iw as [i w]. unfold add_subwords_step. intros H. apply rbind_Ok_inv in H as (r & _ & H). destruct r as [is|]; [|inv H; auto].
    apply rbind_Ok_inv in H as (own & _ & H). apply rbind_Ok_inv in H as (sum & _ & H). apply rbind_Ok_inv in H as (rows & H1 & H). inv H.
    unfold set_row in H1. apply rbind_Ok_inv in H1 as (x & _ & H1). inv H1. cbn [a2_rows a2_cols]. unfold lenN. rewrite set_nth_length. auto.
  Qed.
  Lemma add_subwords_shape v a a' : add_subword_embeddings f32_ops pf v a = Ok a' -> lenN (a2_rows a') = lenN (a2_rows a) /\ a2_cols a' = a2_cols a.
  Proof.
    unfold add_subword_embeddings. generalize (enumerate (sv_words v)). intros l. revert a. induction l as [|iw l IH]; intros a H; cbn [rfold] in H; [inv H; auto|].
    apply rbind_Ok_inv in H as (a1 & H1 & H). apply step_shape in H1 as [L C]. apply IH in H as [L2 C2]. split; congruence.
  Qed.

  (** The result, given the vocabulary and the matrix. *)
  Lemma ft_finish_exact f c ws : lenN ws < two32 -> fc_bucket c <= i32_max -> fc_bucket c <> 0 -> NoDup ws ->
    Forall (fun w => utf8_valid w = true) ws -> (ws <> [] -> range_ok (fc_min_n c) (fc_max_n c)) -> ft_matrix_ok (ff_matrix f) ->
    lenN ws + fc_bucket c <= lenN (a2_rows (ff_matrix f)) ->
    (lenN (a2_rows (ff_matrix f)) <> lenN ws + fc_bucket c -> ft_finish c (ft_vocab_of c ws) (ff_matrix f) = Err EMatrixShape) /\
    (lenN (a2_rows (ff_matrix f)) = lenN ws + fc_bucket c ->
       (config_table c = None -> ft_finish c (ft_vocab_of c ws) (ff_matrix f) = Err EFormat) /\
       (config_table c <> None -> exists e, ft_finish c (ft_vocab_of c ws) (ff_matrix f) = Ok e /\ ft_result T config_table pf f c ws (ft_subs pf (ft_vocab_of c ws)) e)).
  Proof.
    intros L B NZ ND V R MO LR. pose proof (ft_vocab_made c ws L B NZ ND) as M. 
    assert (sub_words_len (ft_vocab_of c ws) = lenN ws) as SW by (apply ft_words_len; exact ND). set (v := ft_vocab_of c ws) in *.
    assert (exists rows, add_subword_embeddings f32_ops pf v (ff_matrix f) = Ok (mkA2 (a2_cols (ff_matrix f)) rows) /\
            subwords_are v (ft_subs pf v) /\ averaged f32_ops v (ft_subs pf v) (a2_rows (ff_matrix f)) rows) as (rows & EA & SA & AV).
    { assert (ws = [] \/ ws <> []) as [EW|EW] by (destruct ws; [left; reflexivity|right; discriminate]).
      - exists (a2_rows (ff_matrix f)). split; [|split].
        + unfold add_subword_embeddings, v. cbn [ft_vocab_of sv_words]. rewrite EW. unfold enumerate. cbn [enumerate_from rfold]. destruct (ff_matrix f); reflexivity.
        + intros w H. cbn [v ft_vocab_of sv_words] in H. rewrite EW in H. destruct H.
        + split; [reflexivity|]. split; [reflexivity|]. intros i w H. cbn [v ft_vocab_of sv_words] in H. rewrite EW in H. destruct i; discriminate.
      - assert (vocab_usable (VFastText v)) as U.
        { intros mn mx bow eow E. cbn in E. inv E. split; [apply R; exact EW|]. split; reflexivity. }
        destruct (add_subwords_exact f32_ops pf v M U V (ff_matrix f)) as (rows & E & A); [apply MO|exact LR|].
        exists rows. split; [auto|]. split; [|auto]. apply ft_subs_are; auto. }
    assert (lenN rows = lenN (a2_rows (ff_matrix f))) as ER by apply AV.
    destruct (normalize_words_exact f32_ops (sub_words_len v) (mkA2 (a2_cols (ff_matrix f)) rows)) as (rows' & ns & EN & FN).
    { cbn [a2_rows]. lia. }
    assert (lenN rows' = lenN (a2_rows (ff_matrix f))) as ER' by (destruct FN as (FN & _); cbn [a2_rows] in FN; congruence).
    assert (add64 pf (sub_words_len v) (fc_bucket c) = Ok (lenN ws + fc_bucket c)) as E64
      by (rewrite SW; apply add64_ok; unfold two32, two64, i32_max in *; lia).
    unfold ft_finish. rewrite EA. cbn [rbind]. rewrite EN. cbn [rbind]. rewrite E64. cbn [rbind fst snd a2_nrows].
    unfold a2_nrows. cbn [a2_rows]. rewrite ER'. split.
    - intros NE. apply N.eqb_neq in NE. rewrite NE. reflexivity.
    - intros EQ. rewrite EQ, N.eqb_refl. cbn [negb]. split; [intros ->; reflexivity|].
      intros NN. destruct (config_table c) as [t|] eqn:ET; [|congruence].
      exists (mkEmb (Some t) (mkA2 (a2_cols (ff_matrix f)) rows') v (Some ns)). split.
      + unfold emb_new, emb_new_with_maybe_norms. cbn [v_words_len v_vocab_len sub_ops].
        assert (lenN ns = sub_words_len v) as -> by apply FN. rewrite N.eqb_refl. cbn [rassert rbind].
        rewrite (ft_vocab_len pf v M). cbn [rbind st_shape nd_ops fst]. unfold a2_nrows. cbn [fst a2_rows]. rewrite ER', EQ.
        change (lenN (sv_words v) + fi_buckets (sv_ix v)) with (lenN ws + fc_bucket c). rewrite N.eqb_refl. reflexivity.
      + rewrite SW in FN. unfold ft_result. cbn [em_vocab em_storage em_norms em_meta a2_rows a2_cols]. split; [apply (proj1 (ft_sub_new c ws L B) ND)|].
        split; [exact SA|].
        split; [|repeat split; auto; congruence]. exists rows, ns. split; [exact AV|]. split; [exact FN|reflexivity].
  Qed.

  (** *** Too few rows *)

  Lemma rfold_rows_dec (f : list f32 -> list f32 -> list f32) (rows : list (list f32)) is : forall acc,
    (Forall (fun i => i < lenN rows) is -> exists x, rfold (fun acc j => let* x := index rows j in Ok (f acc x)) is acc = Ok x) /\
    (~ Forall (fun i => i < lenN rows) is -> rfold (fun acc j => let* x := index rows j in Ok (f acc x)) is acc = Panic PIndexOutOfBounds).
  Proof.
    induction is as [|i is IH]; intros acc; cbn [rfold]; [split; [eauto|intros H; destruct H; constructor]|].
    unfold index at 1 3. destruct (N.lt_ge_cases i (lenN rows)) as [L|L].
    - destruct (nthN_lt _ _ L) as [r ->]. cbn [rbind]. destruct (IH (f acc r)) as [H1 H2]. split; intros H.
      + apply H1. inv H; auto.
      + apply H2. intros K. apply H. constructor; auto.
    - rewrite (proj2 (nthN_None _ _) L). cbn [rbind]. split; [intros H; inv H; lia|reflexivity].
  Qed.

  (** Rows that are missing. *)
  Definition row_missing (k : N) (i : N) (subs : list N) : Prop := subs <> [] /\ (k <= i \/ exists j, In j subs /\ k <= j).

  Lemma N_le_dec x y : {x <= y} + {~ x <= y}.
  Proof. destruct (N.leb x y) eqn:E; [left; apply N.leb_le; exact E|right; apply N.leb_nle; exact E]. Qed.
  Lemma row_missing_dec k i subs : {row_missing k i subs} + {~ row_missing k i subs}.
  Proof.
    unfold row_missing. destruct subs as [|j js]; [right; tauto|]. destruct (N_le_dec k i); [left; split; [discriminate|auto]|].
    destruct (Exists_dec (fun j => k <= j) (j :: js) (fun j => N_le_dec k j)) as [X|X].
    - left. split; [discriminate|]. right. apply Exists_exists in X. exact X.
    - right. intros [_ [K|K]]; [contradiction|]. apply X, Exists_exists. exact K.
  Qed.

  Lemma step_dec v a i w is : sub_subword_indices ft_ops pf v w = Ok (match is with [] => None | _ => Some is end) ->
    (row_missing (lenN (a2_rows a)) i is -> add_subwords_step f32_ops pf v a (i, w) = Panic PIndexOutOfBounds) /\
    (~ row_missing (lenN (a2_rows a)) i is -> exists a', add_subwords_step f32_ops pf v a (i, w) = Ok a' /\ lenN (a2_rows a') = lenN (a2_rows a)).
  Proof.
    intros E. unfold add_subwords_step. rewrite E. cbn [rbind]. destruct is as [|j is].
    - split; [intros [H _]; contradiction|eauto].
    - set (js := j :: is). assert (js <> []) as NE by discriminate. clearbody js. unfold a2_row.
      destruct (N.lt_ge_cases i (lenN (a2_rows a))) as [L|L].
      + destruct (nthN_lt _ _ L) as [own Eo]. unfold index at 1 3. rewrite Eo. cbn [rbind].
        destruct (rfold_rows_dec (vadd f32_ops) (a2_rows a) js own) as [H1 H2]. unfold vec in *. split.
        * intros [_ [K|(j' & In_ & K)]]; [lia|]. rewrite H2; [reflexivity|]. rewrite Forall_forall. intros F. apply F in In_. lia.
        * intros NM. destruct H1 as [x ->].
          { apply Forall_forall. intros j' In_. destruct (N.lt_ge_cases j' (lenN (a2_rows a))); auto. destruct NM. split; eauto. }
          cbn [rbind]. rewrite set_row_Ok by auto. cbn [rbind]. eexists. split; [reflexivity|]. cbn [a2_rows]. unfold lenN. rewrite set_nth_length. reflexivity.
      + unfold index at 1. rewrite (proj2 (nthN_None _ _) L). cbn [rbind]. split; [reflexivity|]. intros H. destruct H. split; auto.
  Qed.

  Lemma steps_dec v subs k l : (forall i w, In (i, w) l -> sub_subword_indices ft_ops pf v w = Ok (match subs w with [] => None | _ => Some (subs w) end)) ->
    forall a, lenN (a2_rows a) = k ->
    ((exists i w, In (i, w) l /\ row_missing k i (subs w)) -> rfold (add_subwords_step f32_ops pf v) l a = Panic PIndexOutOfBounds) /\
    ((forall i w, In (i, w) l -> ~ row_missing k i (subs w)) ->
       exists a', rfold (add_subwords_step f32_ops pf v) l a = Ok a' /\ lenN (a2_rows a') = k).
  Proof.
    induction l as [|[i w] l IH]; intros E a La; cbn [rfold].
    - split; [intros (i & w & [] & _)|eauto].
    - destruct (step_dec v a i w (subs w)) as [H1 H2]; [eapply E; left; reflexivity|]. rewrite La in H1, H2.
      assert (row_missing k i (subs w) \/ ~ row_missing k i (subs w)) as [D|D].
      { destruct (row_missing_dec k i (subs w)); auto. }
      + rewrite H1 by auto. cbn [rbind]. split; [reflexivity|]. intros H. destruct (H i w); [left; reflexivity|auto].
      + destruct (H2 D) as (a' & -> & La'). cbn [rbind]. destruct (IH (fun i w H => E i w (or_intror H)) a') as [I1 I2]; [congruence|]. split.
        * intros (i' & w' & [EQ|In_] & K); [inv EQ; contradiction|]. apply I1. eauto.
        * intros H. apply I2. intros. apply H. right. auto.
  Qed.

  Lemma ft_finish_few f c ws : lenN ws < two32 -> fc_bucket c <= i32_max -> fc_bucket c <> 0 -> NoDup ws ->
    Forall (fun w => utf8_valid w = true) ws -> (ws <> [] -> range_ok (fc_min_n c) (fc_max_n c)) ->
    lenN (a2_rows (ff_matrix f)) < lenN ws + fc_bucket c ->
    let subs := ft_subs pf (ft_vocab_of c ws) in let k := lenN (a2_rows (ff_matrix f)) in
    (rows_missing ws subs k -> ft_finish c (ft_vocab_of c ws) (ff_matrix f) = Panic PIndexOutOfBounds) /\
    (~ rows_missing ws subs k -> ft_finish c (ft_vocab_of c ws) (ff_matrix f) = Err EMatrixShape).
  Proof.
    intros L B NZ ND V R LR subs k. pose proof (ft_vocab_made c ws L B NZ ND) as M.
    assert (sub_words_len (ft_vocab_of c ws) = lenN ws) as SW by (apply ft_words_len; exact ND). set (v := ft_vocab_of c ws) in *.
    assert (forall i w, In (i, w) (enumerate ws) -> sub_subword_indices ft_ops pf v w = Ok (match subs w with [] => None | _ => Some (subs w) end)) as E.
    { intros i w In_. apply enumerate_In, nthN_In in In_. assert (ws <> []) as NE by (destruct ws; [destruct In_|discriminate]).
      apply (subs_index pf v M); [|rewrite Forall_forall in V; auto].
      intros mn mx bow eow EV. cbn in EV. inv EV. split; [apply R; exact NE|]. split; reflexivity. }
    assert (add64 pf (sub_words_len v) (fc_bucket c) = Ok (lenN ws + fc_bucket c)) as E64
      by (rewrite SW; apply add64_ok; unfold two32, two64, i32_max in *; lia).
    destruct (steps_dec v subs k (enumerate ws) E (ff_matrix f) eq_refl) as [H1 H2].
    unfold ft_finish, add_subword_embeddings. cbn [v ft_vocab_of sv_words]. fold v.
    assert ((exists i w, In (i, w) (enumerate ws) /\ row_missing k i (subs w)) \/ (forall i w, In (i, w) (enumerate ws) -> ~ row_missing k i (subs w))) as D.
    { clear -H1 H2. destruct (rfold (add_subwords_step f32_ops pf v) (enumerate ws) (ff_matrix f)) eqn:ER.
      - right. intros i w In_ K. discriminate H1. eauto.
      - right. intros i w In_ K. discriminate H1. eauto.
      - destruct (Exists_dec (fun iw => row_missing k (fst iw) (subs (snd iw))) (enumerate ws)) as [X|X].
        + intros [i w]. apply row_missing_dec.
        + left. apply Exists_exists in X as ([i w] & In_ & K). eauto.
        + right. intros i w In_ K. apply X, Exists_exists. exists (i, w). auto. }
    destruct D as [D|D].
    - rewrite H1 by auto. cbn [rbind]. split; [reflexivity|]. intros NM. destruct NM. destruct D as (i & w & In_ & NE & [K|(j & Ij & K)]).
      + left. apply enumerate_In, nthN_Some_lt in In_. lia.
      + right. apply enumerate_In, nthN_In in In_. eauto.
    - destruct (H2 D) as (a' & -> & La'). cbn [rbind]. unfold normalize_words. rewrite SW. unfold a2_nrows. rewrite La'.
      destruct (N.leb_spec (lenN ws) k) as [LE|LE]; cbn [rassert rbind].
      + split.
        * intros [K|(w & j & In_ & Ij & K)]; [lia|]. apply In_nthN in In_ as [i In_]. destruct (D i w); [apply enumerate_In; exact In_|].
          split; [intros X; rewrite X in Ij; destruct Ij|eauto].
        * intros _. unfold l2_normalize_array. rewrite SW in E64. rewrite E64. cbn [rbind fst snd a2_rows].
          unfold vec. match goal with |- context [lenN ?l =? _] => assert (lenN l = k) as -> end.
          { rewrite lenN_app, !lenN_map, lenN_takeN, lenN_dropN. unfold vec. lia. }
          rewrite (proj2 (N.eqb_neq _ _)) by (unfold k; lia). reflexivity.
      + split; [reflexivity|]. intros NM. destruct NM. left. exact LE.
  Qed.

  (** C46: what is read. *)
  Lemma ft_loads lossy f c ws rest : ft_fields_ok f -> ft_supported f -> ft_config_is f c -> ft_words lossy f ws ->
    ft_matrix_ok (ff_matrix f) -> fc_bucket c <> 0 -> fc_bucket c <= i32_max -> NoDup ws -> (ws <> [] -> range_ok (fc_min_n c) (fc_max_n c)) ->
    config_table c <> None ->
    (ff_quant f = 1 -> run_reader (read_fasttext pf T config_table lossy) (ft_bytes f ++ rest) = Err EFormat) /\
    (ff_quant f <> 1 -> lenN (a2_rows (ff_matrix f)) <> lenN ws + fc_bucket c ->
       ~ rows_missing ws (ft_subs pf (ft_vocab_of c ws)) (lenN (a2_rows (ff_matrix f))) ->
       run_reader (read_fasttext pf T config_table lossy) (ft_bytes f ++ rest) = Err EMatrixShape) /\
    (ff_quant f <> 1 -> rows_missing ws (ft_subs pf (ft_vocab_of c ws)) (lenN (a2_rows (ff_matrix f))) ->
       run_reader (read_fasttext pf T config_table lossy) (ft_bytes f ++ rest) = Panic PIndexOutOfBounds) /\
    (ff_quant f <> 1 -> lenN (a2_rows (ff_matrix f)) = lenN ws + fc_bucket c -> exists e,
       run_reader (read_fasttext pf T config_table lossy) (ft_bytes f ++ rest) = Ok e /\
       ft_result T config_table pf f c ws (ft_subs pf (ft_vocab_of c ws)) e).
  Proof.
    intros O S C W MO NZ B ND R NN. unfold run_reader. destruct (ft_start lossy f c ws rest O S C W) as (p & E).
    destruct (ft_words_small _ _ _ O W) as [_ L].
    assert (ff_quant f < 256) as LQ by apply O.
    rewrite E, (ft_indexer_ok _ B). cbn [rbind]. rewrite (proj1 (ft_sub_new c ws L B) ND).
    unfold bind at 1 2 3 4. unfold lift at 1 2 3 4. unfold ft_after. eat. unfold fail.
    destruct (N.eqb_spec (ff_quant f) 1) as [Q|Q]; [split; [reflexivity|]; repeat split; intros; contradiction|].
    destruct (ft_matrix_read (ff_matrix f) rest (p + 1) MO) as (p2 & E2). rewrite (bind_step _ _ _ _ _ E2). unfold lift. cbn [fst].
    split; [contradiction|]. pose proof (ft_words_valid _ _ _ W) as V.
    destruct (N.lt_ge_cases (lenN (a2_rows (ff_matrix f))) (lenN ws + fc_bucket c)) as [LT|LE].
    - destruct (ft_finish_few f c ws L B NZ ND V R LT) as [H1 H2]. split; [intros _ _; exact H2|]. split; [intros _; exact H1|intros; lia].
    - destruct (ft_finish_exact f c ws L B NZ ND V R MO LE) as [H1 H2].
      split; [intros _ NE _; apply H1; exact NE|]. split; [|intros _ EQ; apply (proj2 (H2 EQ)); exact NN].
      intros _ [K|(w & j & In_ & Ij & K)]; [lia|]. exfalso. pose proof In_ as In_'. rewrite Forall_forall in V. apply V in In_'.
      assert (vocab_usable (VFastText (ft_vocab_of c ws))) as U.
      { intros mn mx bow eow EV. cbn in EV. inv EV. split; [apply R; destruct ws; [destruct In_|discriminate]|]. split; reflexivity. }
      destruct (subs_index pf _ (ft_vocab_made c ws L B NZ ND) U w In_') as (_ & F & _). rewrite Forall_forall in F. apply F in Ij.
      cbn [ft_vocab_of sv_words sv_ix fi_buckets] in Ij. lia.
  Qed.

  Lemma ft_outcomes lossy f c ws rest : ft_fields_ok f -> ft_supported f -> ft_config_is f c -> ft_words lossy f ws ->
    ft_matrix_ok (ff_matrix f) -> fc_bucket c <> 0 -> fc_bucket c <= i32_max -> NoDup ws -> (ws <> [] -> range_ok (fc_min_n c) (fc_max_n c)) ->
    config_table c <> None ->
    exists v subs, sub_new ft_ops pf ws (fc_min_n c) (fc_max_n c) (mkFtIx (fc_bucket c)) = Ok v /\ subwords_are v subs /\
    let r := run_reader (read_fasttext pf T config_table lossy) (ft_bytes f ++ rest) in let k := lenN (a2_rows (ff_matrix f)) in
    (ff_quant f = 1 -> r = Err EFormat) /\
    (ff_quant f <> 1 -> rows_missing ws subs k -> r = Panic PIndexOutOfBounds) /\
    (ff_quant f <> 1 -> k <> lenN ws + fc_bucket c -> ~ rows_missing ws subs k -> r = Err EMatrixShape) /\
    (ff_quant f <> 1 -> k = lenN ws + fc_bucket c -> exists e, r = Ok e /\ em_vocab e = v /\ ft_result T config_table pf f c ws subs e).
  Proof.
    intros O S C W MO NZ B ND R NN. destruct (ft_loads lossy f c ws rest O S C W MO NZ B ND R NN) as (H1 & H2 & H3 & H4).
    destruct (ft_words_small _ _ _ O W) as [_ L].
    exists (ft_vocab_of c ws), (ft_subs pf (ft_vocab_of c ws)). split; [apply (proj1 (ft_sub_new c ws L B) ND)|]. split.
    - intros w In_. pose proof (ft_words_valid _ _ _ W) as V. rewrite Forall_forall in V.
      apply subs_index; [apply ft_vocab_made; auto| |apply V; exact In_].
      intros mn mx bow eow EV. cbn in EV. inv EV. cbn [ft_vocab_of sv_words] in In_. split; [apply R; destruct ws; [destruct In_|discriminate]|]. split; reflexivity.
    - cbv zeta. split; [exact H1|]. split; [exact H3|]. split; [exact H2|]. intros Q EQ. destruct (H4 Q EQ) as (e & E & RE). exists e. split; [exact E|]. split; [|exact RE].
      destruct RE as (RE & _). rewrite (proj1 (ft_sub_new c ws L B) ND) in RE. congruence.
  Qed.

  (** The lossy reader accepts more, and agrees on what the strict one accepts. *)
  Lemma ft_relaxes : relaxes (read_fasttext pf T config_table false) (read_fasttext pf T config_table true).
  Proof.
    assert (relaxes (read_ft_entry false) (read_ft_entry true)) as EN.
    { unfold read_ft_entry. apply relaxes_bind; [apply relaxes_string|]. intros. apply relaxes_refl. }
    assert (forall c, relaxes (read_ft_vocab pf c false) (read_ft_vocab pf c true)) as V.
    { intros c. unfold read_ft_vocab. do 3 (apply relaxes_bind; [apply relaxes_refl|intros]).
      match goal with |- context [if ?b then _ else _] => destruct b end; [apply relaxes_refl|]. do 2 (apply relaxes_bind; [apply relaxes_refl|intros]).
      match goal with |- context [if ?b then _ else _] => destruct b end; [apply relaxes_refl|]. apply relaxes_bind; [apply relaxes_refl|intros].
      apply relaxes_bind; [apply relaxes_repeat; exact EN|]. intros. apply relaxes_refl. }
    unfold read_fasttext. apply relaxes_bind; [apply relaxes_refl|intros].
    match goal with |- context [if ?b then _ else _] => destruct b end; [apply relaxes_refl|]. apply relaxes_bind; [apply relaxes_refl|intros].
    match goal with |- context [if ?b then _ else _] => destruct b end; [apply relaxes_refl|]. apply relaxes_bind; [apply relaxes_refl|intros].
    apply relaxes_bind; [apply V|]. intros. apply relaxes_refl.
  Qed.

  (** Models on which the reader panics. *)
  Lemma ft_load_panics lossy f c ws rest : ft_fields_ok f -> ft_supported f -> ft_config_is f c -> ft_words lossy f ws ->
    (i32_max < fc_bucket c -> run_reader (read_fasttext pf T config_table lossy) (ft_bytes f ++ rest) = Panic PAssert) /\
    (fc_bucket c <= i32_max -> ~ NoDup ws -> run_reader (read_fasttext pf T config_table lossy) (ft_bytes f ++ rest) = Panic PDuplicateWords) /\
    (fc_bucket c <= i32_max -> NoDup ws -> ws <> [] -> ~ range_ok (fc_min_n c) (fc_max_n c) -> ff_quant f <> 1 -> ft_matrix_ok (ff_matrix f) ->
       run_reader (read_fasttext pf T config_table lossy) (ft_bytes f ++ rest) = Panic PAssert).
  Proof.
    intros O S C W. unfold run_reader. destruct (ft_start lossy f c ws rest O S C W) as (p & E). rewrite E. clear E.
    destruct (ft_words_small _ _ _ O W) as [_ L]. assert (ff_quant f < 256) as LQ by apply O. split; [|split].
    - intros B. rewrite ft_indexer_big by exact B. reflexivity.
    - intros B ND. rewrite (ft_indexer_ok _ B). cbn [rbind]. rewrite (proj2 (ft_sub_new c ws L B) ND). reflexivity.
    - intros B ND NE NR Q MO. rewrite (ft_indexer_ok _ B). cbn [rbind]. rewrite (proj1 (ft_sub_new c ws L B) ND).
      unfold bind at 1. unfold lift at 1. unfold ft_after. eat.
      destruct (N.eqb_spec (ff_quant f) 1) as [|_]; [contradiction|].
      destruct (ft_matrix_read (ff_matrix f) rest (p + 1) MO) as (p2 & E2). rewrite (bind_step _ _ _ _ _ E2). unfold lift. cbn [fst].
      unfold ft_finish, add_subword_embeddings. cbn [ft_vocab_of sv_words]. destruct ws as [|w ws]; [contradiction|].
      unfold enumerate. cbn [enumerate_from rfold add_subwords_step].
      rewrite (sub_subwords_range c (w :: ws) w NR). reflexivity.
  Qed.

  (** C46: what an accepted file looks like. *)
  Lemma ft_accepted lossy data e : run_reader (read_fasttext pf T config_table lossy) data = Ok e ->
    exists f c ws rest, data = ft_bytes f ++ rest /\ ft_fields_ok f /\ ft_supported f /\ ft_config_is f c /\ ft_words lossy f ws /\
    ft_matrix_ok (ff_matrix f) /\ ff_quant f <> 1 /\ NoDup ws /\ fc_bucket c <= i32_max /\ (ws <> [] -> range_ok (fc_min_n c) (fc_max_n c)) /\
    lenN (a2_rows (ff_matrix f)) = lenN ws + fc_bucket c /\ (fc_bucket c <> 0 -> exists subs, ft_result T config_table pf f c ws subs e).
  Proof.
    intros H. apply run_reader_Ok in H as (s' & H). rewrite read_fasttext_eq in H.
    minv H as mg E1. destruct (N.eqb_spec mg ft_magic) as [->|]; [|discriminate H]. cbn [negb] in H.
    minv H as ver E2. destruct (N.ltb_spec ft_version ver) as [|LV]; [discriminate H|].
    minv H as c E3. minv H as v E4. unfold ft_after in H. minv H as q E5. destruct (N.eqb_spec q 1) as [|NQ]; [discriminate H|].
    minv H as a E6. apply lift_inv in H as [H ->].
    unfold read_ft_vocab in E4. minv E4 as size F1. minv E4 as nw F2. minv E4 as nl F3.
    destruct (N.ltb_spec 0 nl) as [|NL]; [discriminate E4|]. minv E4 as tok F4. minv E4 as pr F5.
    destruct (N.leb_spec pr isize_max) as [|PR]; [discriminate E4|]. minv E4 as u F6. minv E4 as ws F7. minv E4 as ix F8. apply lift_inv in E4 as [E4 ->].
    apply lift_inv in F8 as [F8 <-]. apply reserve_inv in F6 as [_ ->]. apply ft_entries_inv in F7 as (its & F7 & LI & OI & KI & DI).
    apply read_u32_inv in E1 as (E1 & L1 & _), E2 as (E2 & L2 & _), F1 as (F1 & L3 & _), F2 as (F2 & L4 & _), F3 as (F3 & L5 & _).
    apply read_u64_inv in F4 as (F4 & L6 & _), F5 as (F5 & L7 & _). apply read_config_inv in E3 as (E3 & FC & LT).
    apply read_u8_inv in E5 as [E5 LQ]. apply ft_matrix_inv in E6 as [MO E6]. cbn [s_rest] in E1.
    set (f := mkFtFile ft_magic ver (config_numbers c) (fc_threshold c) nw nl tok pr its q a).
    assert (ft_fields_ok f) as O.
    { unfold ft_fields_ok. cbn [f ff_magic ff_version ff_numbers ff_threshold ff_nwords ff_nlabels ff_tokens ff_prune ff_entries ff_quant].
      split; [constructor; auto|]. split; [reflexivity|]. split; [auto|]. split; [repeat constructor; auto; rewrite LI; auto|]. auto. }
    assert (ft_config_is f c) as C by (split; reflexivity).
    assert (nl = 0) as NL0 by lia.
    assert (ft_supported f) as S.
    { split; [reflexivity|]. split; [exact LV|]. split; [eauto|]. split; [exact NL0|]. split; [|exact KI]. cbn [f ff_prune]. unfold isize_max in PR. lia. }
    assert (ft_words lossy f ws) as W by exact DI.
    destruct (ft_words_small _ _ _ O W) as [_ LW].
    assert (fc_bucket c <= i32_max) as B.
    { destruct (N.le_gt_cases (fc_bucket c) i32_max) as [|G]; [auto|]. rewrite ft_indexer_big in F8 by auto. discriminate. }
    rewrite (ft_indexer_ok _ B) in F8. inv F8.
    assert (NoDup ws) as ND by (apply sub_new_Ok in E4; tauto).
    rewrite (proj1 (ft_sub_new c ws LW B) ND) in E4. inv E4.
    assert (ws <> [] -> range_ok (fc_min_n c) (fc_max_n c)) as R.
    { intros NE. destruct (range_dec (fc_min_n c) (fc_max_n c)) as [|NR]; [auto|]. exfalso.
      unfold ft_finish, add_subword_embeddings in H. cbn [ft_vocab_of sv_words] in H. destruct ws as [|w ws]; [contradiction|].
      unfold enumerate in H. cbn [enumerate_from rfold add_subwords_step] in H. rewrite (sub_subwords_range c (w :: ws) w NR) in H. discriminate. }
    assert (lenN (a2_rows a) = lenN ws + fc_bucket c) as LR.
    { unfold ft_finish in H. apply rbind_Ok_inv in H as (a1 & H1 & H). apply rbind_Ok_inv in H as ([a2 ns] & H2 & H). apply rbind_Ok_inv in H as (n & H3 & H).
      apply add_subwords_shape in H1 as [LA _]. cbn [fst snd] in H.
      rewrite (ft_words_len c ws ND) in *. rewrite add64_ok in H3 by (unfold two32, two64, i32_max in *; lia). inv H3.
      unfold normalize_words in H2. apply rbind_Ok_inv in H2 as (u1 & H2 & H3). cbn [l2_normalize_array] in H3. injection H3 as <- _.
      destruct (N.eqb_spec (a2_nrows (mkA2 (a2_cols a1) (map fst (map (l2_normalize f32_ops) (takeN (lenN ws) (a2_rows a1))) ++ dropN (lenN ws) (a2_rows a1)))) (lenN ws + fc_bucket c)) as [EN|]; [|discriminate H].
      unfold a2_nrows in EN. cbn [a2_rows] in EN. rewrite lenN_app, !lenN_map, <- lenN_app, takeN_dropN in EN. etransitivity; [symmetry; exact LA|exact EN]. }
    exists f, c, ws, (s_rest s'). split; [|repeat (split; [assumption|])].
    - rewrite ft_bytes_eq. unfold ft_head, u32s_bytes. cbn [f ff_magic ff_version ff_numbers ff_threshold ff_nwords ff_nlabels ff_tokens ff_prune ff_entries ff_quant ff_matrix flat_map].
      rewrite E2, E3, F1, F2, F3, F4, F5, F7, E5, E6. rewrite app_nil_r, <- !app_assoc. reflexivity.
    - intros NZ. destruct (ft_finish_exact f c ws LW B NZ ND (ft_words_valid _ _ _ W) R MO ltac:(cbn [f ff_matrix]; lia)) as [_ H2].
      destruct (H2 LR) as [H3 H4]. cbn [f ff_matrix] in H3, H4.
      destruct (config_table c) eqn:ET; [|rewrite H3 in H by auto; discriminate].
      destruct H4 as (e' & E' & RR); [discriminate|]. rewrite E' in H. inv H. eexists. exact RR.
  Qed.
End ReadFile.

(** ** Writing *)
(** ** Writing to a device without a limit *)
Definition puts (w : writer unit) (f : bytesf) : Prop :=
  forall k, k_cap k = None -> w k = (Ok tt, push (f (k_pos k)) k).
Lemma emits_puts w f : emits w f -> puts w f.
Proof. intros H k C. rewrite H by (unfold sink_ok; rewrite C; exact I). unfold write_bytes. rewrite C. reflexivity. Qed.
Lemma puts_ext w f g : (forall pos, f pos = g pos) -> puts w f -> puts w g.
Proof. intros E H k C. rewrite (H k C), E. reflexivity. Qed.
Lemma puts_seq w1 w2 f g : puts w1 f -> puts w2 g -> puts (w1 ;;; w2) (fseq f g).
Proof.
  intros H1 H2 k C. unfold bind. rewrite (H1 k C), H2 by exact C. unfold fseq. rewrite k_pos_push, push_push. reflexivity.
Qed.
Lemma puts_lift_ok {A} (r : res A) a (w : A -> writer unit) f : r = Ok a -> puts (w a) f -> puts (bind (lift r) w) f.
Proof. intros -> H k C. exact (H k C). Qed.
Lemma puts_for_each_const {A} (l : list A) (w : A -> writer unit) (f : A -> list byte) :
  (forall a, In a l -> puts (w a) (fconst (f a))) -> puts (for_each l w) (fconst (flat_map f l)).
Proof.
  induction l as [|a l IH]; intros H; cbn [for_each flat_map].
  - intros k C. unfold fconst. rewrite push_nil. reflexivity.
  - eapply puts_ext; [|apply puts_seq; [apply H; left; reflexivity|apply IH; intros; apply H; right; assumption]]. intros pos. reflexivity.
Qed.
Lemma puts_run w f base : puts w f -> run_writer w base = Ok (f base).
Proof. intros H. unfold run_writer. rewrite H by reflexivity. cbn. unfold k_pos. cbn. rewrite N.add_0_r. reflexivity. Qed.
Lemma puts_entry_type : puts write_entry_type (fconst (le_bytes 1 0)).
Proof. intros k C. unfold write_entry_type, as_read, write_u8, write_bytes. rewrite C. reflexivity. Qed.

Section WriteFile.
  Context (pf : profile) (T : toml_ops) {S : Type} (SO : storage_ops f32 S).
  Variables (e : embeddings (toml_table T) (subword_vocab ft_indexer) S f32) (cols : N) (rows : list (list f32)).
  Hypothesis made : ft_emb_made SO pf e cols rows.

  Lemma ft_rows_bytes : flat_map f32s_bytes (ft_word_rows f32_ops pf e rows) ++ flat_map f32s_bytes (dropN (lenN (sv_words (em_vocab e))) rows)
    = f32s_bytes (concat (ft_written_rows f32_ops pf e rows)).
  Proof. rewrite f32s_bytes_concat. unfold ft_written_rows. rewrite flat_map_app. reflexivity. Qed.

  Lemma emits_ft_matrix : emits (write_ft_matrix pf T SO e) (fconst (ft_matrix_bytes (mkA2 cols (ft_written_rows f32_ops pf e rows)))).
  Proof.
    destruct (ft_rows_count pf SO e cols rows made) as [LR SW]. pose proof made as (M & V & U & Mx & _).
    unfold write_ft_matrix. rewrite (sm_shape _ _ _ _ Mx). cbn [fst snd].
    eapply emits_ext; [|apply emits_seq; [apply emits_u64|apply emits_seq; [apply emits_u64|
      apply emits_lift_ok with (a := ft_items f32_ops e rows); [apply (ft_items_exact f32_ops pf SO e cols rows made)|apply emits_seq]]]].
    2:{ apply (emits_for_each_const _ _ (fun it => f32s_bytes match ft_word_vector f32_ops pf SO (em_vocab e) (em_storage e) (fst it) (snd it) with Ok r => r | _ => [] end)).
        intros [w en] HI. destruct (ft_item_row f32_ops pf SO e cols rows made w en HI) as (i & _ & _ & _ & _ & E). cbn [fst snd].
        eapply emits_lift_ok; [exact E|]. rewrite E. apply emits_f32s. }
    2:{ eapply emits_lift_ok; [apply (ft_vocab_len pf _ M)|]. rewrite SW.
        replace (lenN (sv_words (em_vocab e)) + fi_buckets (sv_ix (em_vocab e)) - lenN (sv_words (em_vocab e))) with (fi_buckets (sv_ix (em_vocab e))) by lia.
        apply (emits_for_each_const _ _ (fun i => f32s_bytes (nth (N.to_nat (lenN (sv_words (em_vocab e)) + i)) rows []))).
        intros i HI. apply rangeN_In in HI. destruct (nthN_lt rows (lenN (sv_words (em_vocab e)) + i)) as [r E]; [lia|].
        eapply emits_lift_ok; [apply (sm_row _ _ _ _ Mx _ _ E)|]. rewrite nthN_spec in E. rewrite (nth_error_nth _ _ _ E). apply emits_f32s. }
    intros pos. unfold fseq, fconst, ft_matrix_bytes. cbn [a2_rows a2_cols].
    assert (lenN (ft_written_rows f32_ops pf e rows) = lenN rows) as -> by (apply (ft_written_unaveraged f32_ops pf SO e cols rows made)).
    f_equal. f_equal. rewrite <- ft_rows_bytes. f_equal.
    - pose proof (ft_word_rows_exact f32_ops pf SO e cols rows made) as E. apply rmap_Ok_inv in E. induction E as [|it r its rs E1 E IH]; [reflexivity|].
      cbn [flat_map]. rewrite E1. f_equal. exact IH.
    - rewrite <- (rows_from [] rows _ _ LR). generalize (rangeN (fi_buckets (sv_ix (em_vocab e)))). intros l.
      induction l as [|i l IH]; [reflexivity|]. cbn [flat_map map]. f_equal. exact IH.
  Qed.

  Lemma puts_ft_vocab : lenN (sv_words (em_vocab e)) < two32 -> puts (write_ft_vocab (em_vocab e))
    (fconst (ft_head (ft_written e cols rows) ++ flat_map ft_entry_bytes (ff_entries (ft_written e cols rows)))).
  Proof.
    intros L. destruct (ft_rows_count pf SO e cols rows made) as [LR SW]. unfold write_ft_vocab. rewrite SW, (proj2 (N.ltb_lt _ _) L).
    eapply puts_lift_ok; [reflexivity|].
    eapply puts_ext; [|apply puts_seq; [apply emits_puts, emits_u32|apply puts_seq; [apply emits_puts, emits_u32|apply puts_seq; [apply emits_puts, emits_u32|apply puts_seq; [apply emits_puts, emits_u64|apply puts_seq; [apply emits_puts, emits_u64|]]]]]].
    2:{ apply (puts_for_each_const _ _ (fun w => ft_entry_bytes (w, 0, 0))). intros w _.
        eapply puts_ext; [|apply puts_seq; [apply emits_puts, emits_bytes|apply puts_seq; [apply emits_puts, emits_u8|apply puts_seq; [apply emits_puts, emits_u64|apply puts_entry_type]]]].
        intros pos. unfold fseq, fconst, ft_entry_bytes. reflexivity. }
    intros pos. unfold fseq, fconst, ft_head, u32s_bytes, ft_written. cbn [ff_entries ff_nwords ff_nlabels ff_tokens ff_prune flat_map].
    rewrite lenN_map, app_nil_r, <- !app_assoc.
    assert (flat_map ft_entry_bytes (map (fun w => (w, 0, 0)) (sv_words (em_vocab e))) = flat_map (fun w => ft_entry_bytes (w, 0, 0)) (sv_words (em_vocab e))) as ->.
    { generalize (sv_words (em_vocab e)). intros l. induction l as [|w l IH]; [reflexivity|]. cbn [map flat_map]. f_equal. exact IH. }
    change (2 ^ 64 - 1) with (two64 - 1). reflexivity.
  Qed.

  (** C45: what is written. *)
  Lemma ft_writes_exact base : lenN (sv_words (em_vocab e)) < two32 -> cols < two32 ->
    run_writer (write_fasttext pf T SO e) base = Ok (ft_bytes (ft_written e cols (ft_written_rows f32_ops pf e rows))).
  Proof.
    intros LW LC. pose proof made as (M & V & U & Mx & _).
    destruct (ft_bucket_small pf _ M) as (_ & B & _).
    set (f := ft_written e cols (ft_written_rows f32_ops pf e rows)).
    assert (puts (write_fasttext pf T SO e) (fconst (ft_bytes f ++ []))) as E.
    2:{ rewrite app_nil_r in E. exact (puts_run _ _ base E). }
    unfold write_fasttext. rewrite (sm_shape _ _ _ _ Mx). cbn [snd].
    assert (fi_buckets (sv_ix (em_vocab e)) <? two32 = true) as -> by (apply N.ltb_lt; unfold i32_max, two32 in *; lia).
    eapply puts_lift_ok; [reflexivity|]. rewrite (proj2 (N.ltb_lt _ _) LC). eapply puts_lift_ok; [reflexivity|]. cbv zeta.
    eapply puts_ext; [|apply puts_seq; [apply emits_puts, emits_u32|apply puts_seq; [apply emits_puts, emits_u32|apply puts_seq; [|apply puts_seq; [apply puts_ft_vocab; exact LW|apply puts_seq; [apply emits_puts, emits_u8|apply emits_puts, emits_ft_matrix]]]]]].
    2:{ unfold write_config. repeat (first [apply puts_seq; [apply emits_puts, emits_u32|]]). apply emits_puts, emits_u64. }
    intros pos. rewrite ft_bytes_eq, app_nil_r. unfold fseq, fconst, u32s_bytes.
    cbn [f ft_written ff_magic ff_version ff_numbers ff_threshold ff_entries ff_quant ff_matrix flat_map
         fc_dims fc_window fc_epoch fc_min_count fc_neg fc_word_ngrams fc_loss fc_model fc_bucket fc_min_n fc_max_n fc_lr fc_threshold loss_num model_num].
    rewrite <- !app_assoc. reflexivity.
  Qed.
  Lemma ft_writes base : lenN (sv_words (em_vocab e)) < two32 -> cols < two32 ->
    exists subs rows', subwords_are (em_vocab e) subs /\ unaveraged f32_ops (em_vocab e) subs (ft_norm f32_ops e) rows rows' /\
    Forall (fun r => lenN r = cols) rows' /\
    run_writer (write_fasttext pf T SO e) base = Ok (ft_bytes (ft_written e cols rows')).
  Proof.
    intros LW LC. pose proof made as (M & V & U & Mx & _).
    exists (ft_subs pf (em_vocab e)), (ft_written_rows f32_ops pf e rows).
    split; [apply ft_subs_are; auto|]. split; [apply (ft_written_unaveraged f32_ops pf SO e cols rows made)|].
    split; [apply (ft_written_wf f32_ops pf SO e cols rows made)|]. apply ft_writes_exact; auto.
  Qed.
  (** Too many words or columns are an error. *)
  Lemma ft_write_overflow base : two32 <= lenN (sv_words (em_vocab e)) \/ two32 <= cols ->
    run_writer (write_fasttext pf T SO e) base = Err EOverflow.
  Proof.
    intros H. pose proof made as (M & V & U & Mx & _). destruct (ft_bucket_small pf _ M) as (_ & B & _).
    destruct (ft_rows_count pf SO e cols rows made) as [LR SW].
    unfold run_writer, write_fasttext. rewrite (sm_shape _ _ _ _ Mx). cbn [snd].
    assert (fi_buckets (sv_ix (em_vocab e)) <? two32 = true) as -> by (apply N.ltb_lt; unfold i32_max, two32 in *; lia).
    unfold bind at 1. unfold lift at 1. destruct (N.ltb_spec cols two32) as [LC|LC]; [|reflexivity].
    destruct H as [H|H]; [|lia]. unfold bind at 1, lift at 1. unfold write_ft_vocab. rewrite SW.
    destruct (N.ltb_spec (lenN (sv_words (em_vocab e))) two32) as [|_]; [lia|]. reflexivity.
  Qed.
End WriteFile.

(** ** Round trip *)
Section RoundTrip.
  Context (pf : profile) (T : toml_ops) (config_table : ft_config -> option (toml_table T)) {S : Type} (SO : storage_ops f32 S).
  Variables (e : embeddings (toml_table T) (subword_vocab ft_indexer) S f32) (cols : N) (rows : list (list f32)).

  Definition ft_written_config {Md F} (e : embeddings Md (subword_vocab ft_indexer) S F) (cols : N) : ft_config :=
    mkFtCfg cols 0 0 0 0 1 HierarchicalSoftmax Cbow (fi_buckets (sv_ix (em_vocab e))) (sv_min (em_vocab e)) (sv_max (em_vocab e)) 0 0.

  (** C45 *)
  Lemma ft_round_trip lossy base rest : ft_emb_made SO pf e cols rows ->
    lenN (sv_words (em_vocab e)) < two32 -> cols < two32 -> sv_min (em_vocab e) < two32 -> sv_max (em_vocab e) < two32 ->
    dims_ok [lenN rows; cols] 4 -> Forall (fun w => ~ In x00 w) (sv_words (em_vocab e)) ->
    sv_bow (em_vocab e) = default_bow -> sv_eow (em_vocab e) = default_eow -> (forall c, config_table c <> None) ->
    exists subs rows1 rows2 out e' ns, run_writer (write_fasttext pf T SO e) base = Ok out /\
    run_reader (read_fasttext pf T config_table lossy) (out ++ rest) = Ok e' /\
    em_vocab e' = em_vocab e /\ a2_cols (em_storage e') = cols /\
    subwords_are (em_vocab e) subs /\ unaveraged f32_ops (em_vocab e) subs (ft_norm f32_ops e) rows rows1 /\
    averaged f32_ops (em_vocab e) subs rows1 rows2 /\
    first_normalized f32_ops (lenN (sv_words (em_vocab e))) rows2 (a2_rows (em_storage e')) ns /\ em_norms e' = Some ns.
  Proof.
    intros Mk LW LC Lmn Lmx D NZ Eb Ee CT. pose proof Mk as (M & V & U & Mx & _).
    destruct (ft_rows_count pf SO e cols rows Mk) as [LR SW].
    destruct (ft_bucket_small pf _ M) as (BZ & B & LB & ND).
    set (rows1 := ft_written_rows f32_ops pf e rows).
    set (f := ft_written e cols rows1). set (c := ft_written_config e cols).
    assert (run_writer (write_fasttext pf T SO e) base = Ok (ft_bytes f)) as EW by (apply ft_writes_exact; auto).
    assert (lenN rows1 = lenN rows) as L1 by apply (ft_written_unaveraged f32_ops pf SO e cols rows Mk).
    assert (ft_fields_ok f) as O.
    { unfold ft_fields_ok. cbn [f ft_written ff_magic ff_version ff_numbers ff_threshold ff_nwords ff_nlabels ff_tokens ff_prune ff_entries ff_quant]. rewrite lenN_map.
      assert (fi_buckets (sv_ix (em_vocab e)) < two32) by (unfold i32_max, two32 in *; lia).
      split; [repeat (constructor; [first [assumption|reflexivity]|]); constructor|]. split; [reflexivity|]. split; [reflexivity|].
      split; [repeat (constructor; [first [assumption|reflexivity]|]); constructor|]. split; [reflexivity|]. split; [reflexivity|]. split; [|reflexivity].
      apply Forall_map. eapply Forall_impl; [|exact NZ]. cbn beta. intros w Hw. repeat split; auto. }
    assert (ft_config_is f c) as C by (split; reflexivity).
    assert (ft_supported f) as Sp.
    { split; [reflexivity|]. split; [cbn; lia|]. split; [eauto|]. split; [reflexivity|]. split; [cbn; lia|]. cbn [f ft_written ff_entries]. apply Forall_map. apply Forall_forall. reflexivity. }
    assert (ft_words lossy f (sv_words (em_vocab e))) as W.
    { unfold ft_words. cbn [f ft_written ff_entries]. unfold vocab_utf8 in V. clear -V. induction V as [|w ws Vw V IH]; cbn [map]; constructor; auto. cbn [fst].
      unfold decodes. destruct lossy; [symmetry; apply from_utf8_lossy_id; exact Vw|auto]. }
    assert (ft_matrix_ok (ff_matrix f)) as MO.
    { unfold ft_matrix_ok. cbn [f ft_written ff_matrix a2_rows a2_cols]. rewrite L1. split; [apply (ft_written_wf f32_ops pf SO e cols rows Mk)|].
      split; [rewrite LR; exact LB|]. split; [unfold two32, two64 in *; lia|exact D]. }
    assert (em_vocab e = ft_vocab_of c (sv_words (em_vocab e))) as EV.
    { destruct M as (ws & mn & mx & n & ix & bow & eow & _ & _ & Bv). apply sub_new_Ok in Bv as (_ & Ev & _).
      unfold ft_vocab_of, c, ft_written_config. cbn [fc_bucket fc_min_n fc_max_n]. rewrite Ev in *. cbn [sv_bow sv_eow sv_words sv_ix sv_min sv_max] in *. subst. destruct ix; reflexivity. }
    destruct (ft_loads pf T config_table lossy f c (sv_words (em_vocab e)) rest O Sp C W MO) as (_ & _ & _ & H); auto.
    { intros _. destruct (U (sv_min (em_vocab e)) (sv_max (em_vocab e)) (sv_bow (em_vocab e)) (sv_eow (em_vocab e)) eq_refl) as (R & _). exact R. }
    destruct H as (e' & E' & (RV & RS & (rows2 & ns & A1 & A2 & A3) & RC & _)); [discriminate|cbn [f ft_written ff_matrix a2_rows]; rewrite L1; exact LR|].
    rewrite <- EV in *.
    assert (em_vocab e' = em_vocab e) as EE.
    { destruct (ft_sub_new pf T config_table c (sv_words (em_vocab e)) LW B) as [H1 _]. rewrite H1 in RV by exact ND. rewrite <- EV in RV. congruence. }
    rewrite EE in *. exists (ft_subs pf (em_vocab e)), rows1, rows2, (ft_bytes f), e', ns.
    split; [exact EW|]. split; [exact E'|]. split; [exact EE|]. split; [exact RC|]. split; [exact RS|].
    split; [apply (ft_written_unaveraged f32_ops pf SO e cols rows Mk)|]. auto.
  Qed.
End RoundTrip.
