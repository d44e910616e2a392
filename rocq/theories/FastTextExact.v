(** * Every outcome of the fastText reader. *)
From Verif Require Import Base BaseFacts Utf8 Utf8Facts Stream StreamFacts F32 ChunkIO Subword SubwordFacts IndexerFacts Vocab VocabFacts Storage Embeddings
  TextIO FastText VocabSpec EmbSpec TextSpec FileSpec FastTextSpec ChunkFacts StorageFacts ReadFacts LookupFacts EmbFacts MatrixFacts BatchFacts
  TextFacts TextThms BinaryThms LossyFacts TextAccept FloretThms FastTextFacts FastTextThms LookupExactSpec LookupExact TextExactSpec TextExact FastTextExactSpec.
Local Open Scope N_scope.

(** ** Numbers *)
Definition num_reader (w : nat) : reader N := bs <- read_exact (N.of_nat w) ;; ret (le_value bs).

Lemma num_read w n r p : n < 256 ^ N.of_nat w -> num_reader w (mkStream (le_bytes w n ++ r) p) = (Ok n, mkStream r (p + N.of_nat w)).
Proof.
  intros L. unfold num_reader, bind. rewrite read_exact_app by apply le_bytes_lenN. unfold ret.
  rewrite le_value_bytes by exact L. reflexivity.
Qed.
Lemma num_short w data p : lenN data < N.of_nat w -> num_reader w (mkStream data p) = (Err ERead, mkStream [] (p + lenN data)).
Proof. intros L. unfold num_reader, bind. rewrite read_exact_short by exact L. reflexivity. Qed.
Lemma num_cases w data : lenN data < N.of_nat w \/ exists n r, data = le_bytes w n ++ r /\ n < 256 ^ N.of_nat w.
Proof.
  destruct (N.lt_ge_cases (lenN data) (N.of_nat w)) as [L|L]; [auto|right].
  assert (lenN (takeN (N.of_nat w) data) = N.of_nat w) as LT by (rewrite lenN_takeN; lia).
  destruct (le_bytes_of w _ LT) as [E B]. exists (le_value (takeN (N.of_nat w) data)), (dropN (N.of_nat w) data).
  split; [|exact B]. rewrite <- E. symmetry. apply takeN_dropN.
Qed.

Lemma fields_cons_inv w (ok : N -> Prop) fs data n ns rest : fields_of ((w, ok) :: fs) data (n :: ns) rest ->
  exists data', data = le_bytes w n ++ data' /\ n < 256 ^ N.of_nat w /\ ok n /\ fields_of fs data' ns rest.
Proof. intros H. inversion H; subst. eauto 6. Qed.
Lemma fields_nil_inv data rest ns : fields_of [] data ns rest -> data = rest /\ ns = [].
Proof. intros H. inversion H; subst. auto. Qed.
Lemma fields_cons_inv' w (ok : N -> Prop) fs data l rest : fields_of ((w, ok) :: fs) data l rest ->
  exists n ns data', l = n :: ns /\ data = le_bytes w n ++ data' /\ n < 256 ^ N.of_nat w /\ ok n /\ fields_of fs data' ns rest.
Proof. intros H. inversion H; subst. do 3 eexists. eauto 6. Qed.
Lemma fields_cases fs : Forall (fun f : num_field => forall n, snd f n \/ ~ snd f n) fs -> forall data,
  (exists ns rest, fields_of fs data ns rest) \/ exists er, bad_field fs data er.
Proof.
  induction 1 as [|[w ok] fs D F IH]; intros data; [left; do 2 eexists; constructor|]. cbn [snd] in D.
  destruct (num_cases w data) as [L|(n & r & -> & L)]; [right; eexists; constructor; exact L|].
  destruct (D n) as [O|O]; [|right; eexists; apply bf_value; auto].
  destruct (IH r) as [(ns & rest & H)|(er & H)]; [left; do 2 eexists; constructor; eauto|right; eexists; eapply bf_later; eauto].
Qed.

(** Steps of a reader on a bad field. *)
Lemma bad_step {B} w (ok : N -> Prop) fs data er (k : N -> reader B) p : bad_field ((w, ok) :: fs) data er ->
  (forall n s, n < 256 ^ N.of_nat w -> ~ ok n -> fst (k n s) = Err EFormat) ->
  (forall n data' p', n < 256 ^ N.of_nat w -> ok n -> bad_field fs data' er -> fst (k n (mkStream data' p')) = Err er) ->
  fst (bind (num_reader w) k (mkStream data p)) = Err er.
Proof.
  intros H K1 K2. inversion H; subst.
  - unfold bind. rewrite num_short by assumption. reflexivity.
  - rewrite (bind_step _ _ _ _ _ (num_read w n data0 p ltac:(assumption))). auto.
  - rewrite (bind_step _ _ _ _ _ (num_read w n data0 p ltac:(assumption))). auto.
Qed.
Lemma bad_nil data er : ~ bad_field [] data er.
Proof. intros H. inversion H. Qed.
Lemma bind_assoc {S A B C} (m : M S A) (f : A -> M S B) (k : B -> M S C) s : bind (bind m f) k s = bind m (fun a => bind (f a) k) s.
Proof. unfold bind. destruct (m s) as [[| |] s']; reflexivity. Qed.

Ltac fields_decidable := repeat (apply Forall_cons; [intros ?; cbn [snd]; unfold any_value; solve [left; exact I | lia]|]); apply Forall_nil.

(** ** Words *)
Ltac num_eat := match goal with |- context [bind read_u8 ?k (mkStream (le_bytes _ ?n ++ ?r) ?p)] => rewrite (bind_step read_u8 k _ _ _ (num_read 1 n r p ltac:(assumption)))
  | |- context [bind read_u32 ?k (mkStream (le_bytes _ ?n ++ ?r) ?p)] => rewrite (bind_step read_u32 k _ _ _ (num_read 4 n r p ltac:(assumption)))
  | |- context [bind read_u64 ?k (mkStream (le_bytes _ ?n ++ ?r) ?p)] => rewrite (bind_step read_u64 k _ _ _ (num_read 8 n r p ltac:(assumption))) end.
Ltac field H := let d := fresh "d" in let L := fresh "L" in let O := fresh "O" in
  first [apply fields_cons_inv in H as (d & -> & L & O & H) | let n := fresh "n" in let ns := fresh "ns" in apply fields_cons_inv' in H as (n & ns & d & -> & -> & L & O & H)].

Lemma ft_word_run lossy data w r ns r' p : text_of x00 lossy data w r -> fields_of ft_entry_fields r ns r' ->
  exists p', read_ft_entry lossy (mkStream data p) = (Ok w, mkStream r' p').
Proof.
  intros T H. destruct (text_exact x00 lossy data w r p T) as (p1 & E). unfold ft_entry_fields in H. do 2 field H. apply fields_nil_inv in H as [-> ->].
  unfold read_ft_entry. rewrite (bind_step _ _ _ _ _ E). do 2 num_eat. rewrite O0. eexists. reflexivity.
Qed.
Lemma ft_word_bad lossy data w r er p : text_of x00 lossy data w r -> bad_field ft_entry_fields r er ->
  fst (read_ft_entry lossy (mkStream data p)) = Err er.
Proof.
  intros T H. destruct (text_exact x00 lossy data w r p T) as (p1 & E).
  unfold read_ft_entry. rewrite (bind_step _ _ _ _ _ E). change read_u64 with (num_reader 8). change read_u8 with (num_reader 1).
  eapply bad_step; [exact H|intros n s _ K; destruct K; exact I|]. clear H. intros n d p' _ _ H.
  eapply bad_step; [exact H| |intros n' d' p'' _ _ H'; destruct (bad_nil _ _ H')]. cbn beta. intros n' s _ K.
  apply N.eqb_neq in K. rewrite K. reflexivity.
Qed.
Lemma repeat_succ {A} n (m : reader A) s : repeat_m (1 + n) m s = (x <- m ;; l <- repeat_m n m ;; ret (x :: l)) s.
Proof.
  rewrite repeat_m_nat. replace (N.to_nat (1 + n)) with (Datatypes.S (N.to_nat n)) by lia. cbn [repeat_nat].
  apply bind_ext; [reflexivity|]. intros a s' _. unfold bind. rewrite <- repeat_m_nat. reflexivity.
Qed.
Lemma ft_words_run lossy n data ws rest : ft_words_of lossy n data ws rest -> forall p, exists p',
  repeat_m n (read_ft_entry lossy) (mkStream data p) = (Ok ws, mkStream rest p').
Proof.
  induction 1 as [rest|n data w r ns r' ws rest T F H IH]; intros p; [eexists; reflexivity|]. rewrite repeat_succ.
  destruct (ft_word_run lossy data w r ns r' p T F) as (p1 & E). rewrite (bind_step _ _ _ _ _ E).
  destruct (IH p1) as (p2 & E2). rewrite (bind_step _ _ _ _ _ E2). eexists. reflexivity.
Qed.
Lemma bad_ft_word_run lossy n data er : bad_ft_word lossy n data er -> forall p,
  fst (repeat_m n (read_ft_entry lossy) (mkStream data p)) = Err er.
Proof.
  induction 1 as [n data r H|n data w r er T H|n data w r ns r' er T F H IH]; intros p; rewrite repeat_succ.
  - apply bind_fst_Err. destruct (no_text_exact x00 lossy data r p H) as (p1 & E). unfold read_ft_entry. apply bind_fst_Err. rewrite E. reflexivity.
  - apply bind_fst_Err. eapply ft_word_bad; eauto.
  - destruct (ft_word_run lossy data w r ns r' p T F) as (p1 & E). rewrite (bind_step _ _ _ _ _ E). apply bind_fst_Err. apply IH.
Qed.
Lemma ft_words_total lossy n : forall data, (exists ws rest, ft_words_of lossy n data ws rest) \/ exists er, bad_ft_word lossy n data er.
Proof.
  induction n as [|n IH] using N.peano_ind; intros data; [left; do 2 eexists; constructor|]. rewrite <- N.add_1_l.
  destruct (text_cases x00 lossy data) as [(s & r & T & V)|(r & T)]; [|right; eexists; eapply bw_word; eauto].
  destruct (fields_cases ft_entry_fields) with (data := r) as [(ns & r' & F)|(er & F)].
  { fields_decidable. }
  - destruct (IH r') as [(ws & rest & H)|(er & H)]; [left; do 2 eexists; econstructor; eauto|right; eexists; eapply bw_later; eauto].
  - right. eexists. eapply bw_field; eauto.
Qed.
Lemma ft_words_of_valid lossy n data ws rest : ft_words_of lossy n data ws rest -> lenN ws = n /\ Forall (fun w => utf8_valid w = true) ws.
Proof.
  induction 1 as [|n data w r ns r' ws rest T F H [IH1 IH2]]; [split; [reflexivity|constructor]|]. rewrite lenN_cons, IH1. split; [lia|].
  constructor; [|exact IH2]. destruct T as (f & _ & D). unfold decodes in D. destruct lossy; [subst w; apply from_utf8_lossy_valid|destruct D as [-> D]; exact D].
Qed.

(** ** Header *)
Section Reader.
  Context (pf : profile) (T : toml_ops) (config_table : ft_config -> option (toml_table T)).
  Notation fte := (embeddings (toml_table T) (subword_vocab ft_indexer) (array2 f32) f32).

  Definition ft_tail lossy (c : ft_config) (size : N) : reader fte :=
    words <- repeat_m size (read_ft_entry lossy) ;;
    v <- lift (let* ix := ft_indexer_new (fc_bucket c) in sub_new ft_ops pf words (fc_min_n c) (fc_max_n c) ix) ;;
    ft_after pf T config_table c v.

  Lemma head_bounds data c size rest : ft_head_of data c size rest -> size < two32 /\ fc_bucket c < two32.
  Proof.
    intros (mg & ver & nw & nl & tok & pr & H). unfold config_numbers in H. cbn [app] in H. unfold ft_head_fields in H. do 20 field H. auto.
  Qed.
  Lemma ft_head_run lossy data c size rest : ft_head_of data c size rest -> exists p,
    read_fasttext pf T config_table lossy (mkStream data 0) = ft_tail lossy c size (mkStream rest p).
  Proof.
    intros HH. destruct (head_bounds _ _ _ _ HH) as [LS LB]. destruct HH as (mg & ver & nw & nl & tok & pr & H).
    unfold config_numbers in H. cbn [app] in H. unfold ft_head_fields in H. do 20 field H. apply fields_nil_inv in H as [-> _].
    rewrite read_fasttext_eq. num_eat. unfold ft_magic. rewrite O, N.eqb_refl. cbn [negb]. num_eat. unfold ft_version.
    destruct (N.ltb_spec 12 ver); [lia|]. unfold read_config. repeat first [rewrite bind_assoc | num_eat].
    unfold read_loss. repeat first [rewrite bind_assoc | num_eat].
    match goal with |- context [bind (match ?n with _ => _ end) ?k ?s] => assert (bind (match n with 1 => ret HierarchicalSoftmax | 2 => ret NegativeSampling | 3 => ret Softmax | _ => fail EFormat end) k s = k (fc_loss c) s) as -> by (destruct (fc_loss c); reflexivity) end.
    cbn beta. unfold read_model. repeat first [rewrite bind_assoc | num_eat].
    match goal with |- context [bind (match ?n with _ => _ end) ?k ?s] => assert (bind (match n with 1 => ret Cbow | 2 => ret SkipGram | 3 => ret Supervised | _ => fail EFormat end) k s = k (fc_model c) s) as -> by (destruct (fc_model c); reflexivity) end.
    cbn beta. repeat first [rewrite bind_assoc | num_eat].
    match goal with |- context [bind (ret ?c0) ?k ?s] => change (bind (ret c0) k s) with (k c0 s); replace c0 with c by (destruct c; reflexivity) end.
    unfold read_ft_vocab. repeat first [rewrite bind_assoc | num_eat].
    match goal with |- context [0 <? ?x] => replace x with 0 by auto end. change (0 <? 0) with false. cbn match.
    repeat first [rewrite bind_assoc | num_eat].
    match goal with |- context [?x <=? isize_max] => destruct (N.leb_spec x isize_max) as [X|_]; [unfold isize_max in X; lia|] end.
    repeat first [rewrite bind_assoc | num_eat].
    match goal with |- context [reserve size 24] => rewrite (bind_step _ _ _ _ _ (reserve_ok size 24 _ ltac:(unfold two32, isize_max in *; lia))) end.
    eexists. rewrite bind_assoc. unfold ft_tail. apply bind_ext; [reflexivity|]. intros words s' _. unfold bind, lift.
    destruct (ft_indexer_new (fc_bucket c)); reflexivity.
  Qed.

  Lemma ft_head_total data : (exists c size rest, ft_head_of data c size rest) \/ exists er, bad_field ft_head_fields data er.
  Proof.
    destruct (fields_cases ft_head_fields) with (data := data) as [(ns & rest & F)|B]; [fields_decidable| |auto].
    left. pose proof F as H. unfold ft_head_fields in H. do 20 (apply fields_cons_inv' in H as (?n & ?l & ?d & ?E & _ & _ & ?O & H)).
    apply fields_nil_inv in H as [_ ?]. subst.
    match goal with F : fields_of _ _ [?m; ?ver; ?a; ?b; ?c; ?d; ?e; ?f; ?g; ?h; ?i; ?j; ?k; ?l; ?t; ?size; ?nw; ?nl; ?tok; ?pr] _ |- _ =>
      exists (mkFtCfg a b c d e f (if g =? 1 then HierarchicalSoftmax else if g =? 2 then NegativeSampling else Softmax)
                (if h =? 1 then Cbow else if h =? 2 then SkipGram else Supervised) i j k l t), size, rest, m, ver, nw, nl, tok, pr;
      assert (g = 1 \/ g = 2 \/ g = 3) as EG by lia; assert (h = 1 \/ h = 2 \/ h = 3) as EH by lia end.
    unfold config_numbers. cbn [app fc_dims fc_window fc_epoch fc_min_count fc_neg fc_word_ngrams fc_loss fc_model fc_bucket fc_min_n fc_max_n fc_lr fc_threshold].
    destruct EG as [-> |[-> | ->]], EH as [-> |[-> | ->]]; exact F.
  Qed.

  Ltac bad H := eapply bad_step; [exact H|cbn beta; try (let K := fresh in intros ? ? _ K; destruct K; exact I)|clear H; cbn beta; intros ?n ?d ?p _ ?O H].
  Lemma ft_head_bad lossy data er : bad_field ft_head_fields data er -> fst (read_fasttext pf T config_table lossy (mkStream data 0)) = Err er.
  Proof.
    intros H. rewrite read_fasttext_eq. unfold ft_head_fields in H. unfold read_config, read_loss, read_model, read_ft_vocab.
    change read_u32 with (num_reader 4). change read_u64 with (num_reader 8).
    bad H; [intros n s _ K; apply N.eqb_neq in K; unfold ft_magic; rewrite K; reflexivity|].
    unfold ft_magic. rewrite O, N.eqb_refl. cbn [negb].
    bad H; [intros n' s _ K; unfold ft_version; destruct (N.ltb_spec 12 n'); [reflexivity|lia]|].
    unfold ft_version. destruct (N.ltb_spec 12 n0); [lia|].
    do 6 (rewrite bind_assoc; bad H).
    rewrite !bind_assoc. bad H.
    { intros l s _ K. apply bind_fst_Err. destruct l as [|[[q|q|]|[q|q|]|]]; try reflexivity; lia. }
    match goal with |- fst (bind (match ?n with _ => _ end) ?k ?s) = _ => assert (exists l, bind (match n with 1 => ret HierarchicalSoftmax | 2 => ret NegativeSampling | 3 => ret Softmax | _ => fail EFormat end) k s = k l s) as [l ->]
      by (assert (n = 1 \/ n = 2 \/ n = 3) as [-> |[-> | ->]] by lia; eexists; reflexivity) end.
    rewrite !bind_assoc. bad H.
    { intros l' s _ K. apply bind_fst_Err. destruct l' as [|[[q|q|]|[q|q|]|]]; try reflexivity; lia. }
    match goal with |- fst (bind (match ?n with _ => _ end) ?k ?s) = _ => assert (exists l, bind (match n with 1 => ret Cbow | 2 => ret SkipGram | 3 => ret Supervised | _ => fail EFormat end) k s = k l s) as [l' ->]
      by (assert (n = 1 \/ n = 2 \/ n = 3) as [-> |[-> | ->]] by lia; eexists; reflexivity) end.
    do 5 (rewrite bind_assoc; bad H).
    match goal with |- fst (bind (ret ?c0) ?k ?s) = _ => change (bind (ret c0) k s) with (k c0 s) end. cbn beta.
    do 2 (rewrite bind_assoc; bad H). rewrite bind_assoc. bad H.
    { intros n' s _ K. destruct (N.ltb_spec 0 n'); [reflexivity|lia]. }
    match goal with |- context [0 <? ?x] => destruct (N.ltb_spec 0 x); [lia|] end.
    rewrite bind_assoc. bad H. rewrite bind_assoc. bad H; [|destruct (bad_nil _ _ H)].
    intros n' s _ K. destruct (N.leb_spec n' isize_max) as [|X]; [reflexivity|]. destruct K. unfold isize_max in X. lia.
  Qed.

  (** ** Subwords *)
  Lemma answers_fun {I} (ops : indexer_ops I) ix qs is is' : answers ops ix qs is -> answers ops ix qs is' -> is = is'.
  Proof. intros A. revert is'. induction A as [|q l qs is E A IH]; intros is' A'; inv A'; [reflexivity|]. f_equal; [congruence|auto]. Qed.
  Lemma subwords_of_fun v w is is' : subwords_of v w is -> subwords_of v w is' -> is = is'.
  Proof.
    intros (qs & iss & (items & Q & ->) & A & ->) (qs' & iss' & (items' & Q' & ->) & A' & ->).
    rewrite (ngrams_of_fun _ _ _ _ _ Q Q') in A. rewrite (answers_fun _ _ _ _ _ A A'). reflexivity.
  Qed.
  Lemma subwords_agree v subs subs' : subwords_are v subs -> subwords_are v subs' -> forall w, In w (sv_words v) -> subs w = subs' w.
  Proof. intros H H' w I. eapply subwords_of_fun; eauto. Qed.
  Lemma averaged_ext v subs subs' rows rows' : (forall w, In w (sv_words v) -> subs w = subs' w) ->
    averaged f32_ops v subs rows rows' -> averaged f32_ops v subs' rows rows'.
  Proof.
    intros E (L & O & W). split; [exact L|]. split; [exact O|]. intros i w H. destruct (W i w H) as (own & rs & W1 & W2 & W3). exists own, rs.
    rewrite <- E by (eapply nthN_In; eauto). auto.
  Qed.
  Lemma rows_missing_ext ws subs subs' k : (forall w, In w ws -> subs w = subs' w) -> rows_missing ws subs k -> rows_missing ws subs' k.
  Proof. intros E [L|(w & j & I & J & L)]; [left; auto|right]. exists w, j. rewrite <- E by auto. auto. Qed.
  Lemma rows_missing_dec ws subs k : rows_missing ws subs k \/ ~ rows_missing ws subs k.
  Proof.
    destruct (N.lt_ge_cases k (lenN ws)) as [L|L]; [left; left; exact L|].
    destruct (Exists_dec (fun w => Exists (fun j => k <= j) (subs w)) ws) as [X|X].
    { intros w. apply Exists_dec. intros j. apply N_le_dec. }
    - left. right. apply Exists_exists in X as (w & I & X). apply Exists_exists in X as (j & J & X). eauto.
    - right. intros [K|(w & j & I & J & K)]; [lia|]. apply X, Exists_exists. exists w. split; [auto|]. apply Exists_exists. eauto.
  Qed.
  Lemma contents_ext a c ws subs subs' e : (forall w, In w (sv_words (em_vocab e)) -> subs w = subs' w) -> subwords_are (em_vocab e) subs' ->
    ft_contents T config_table pf a c ws subs e -> ft_contents T config_table pf a c ws subs' e.
  Proof.
    intros E SA (H1 & H2 & (rows & ns & H3 & H4 & H5) & H6). split; [exact H1|]. split; [exact SA|]. split; [|exact H6].
    exists rows, ns. split; [eapply averaged_ext; eauto|auto].
  Qed.
  Lemma contents_fun a c ws subs subs' e e' : lenN ws <= lenN (a2_rows a) ->
    ft_contents T config_table pf a c ws subs e -> ft_contents T config_table pf a c ws subs' e' -> e = e'.
  Proof.
    intros L H H'. assert (em_vocab e' = em_vocab e) as EV by (destruct H as (E & _), H' as (E' & _); congruence).
    destruct H as (H1 & H2 & (rows & ns & H3 & H4 & H5) & H6 & H7 & _), H' as (H1' & H2' & (rows' & ns' & H3' & H4' & H5') & H6' & H7' & _).
    rewrite EV in *. assert (rows' = rows) as ->.
    { eapply word_rows_fun; [|exact H3]. eapply averaged_ext; [|exact H3']. apply subwords_agree; auto. }
    destruct (first_normalized_fun f32_ops (lenN ws) rows _ _ _ _ H4 H4') as [E1 E2]; [destruct H3 as (-> & _); exact L|].
    destruct e as [m [cols rs] v n], e' as [m' [cols' rs'] v' n']. cbn [em_vocab em_storage em_norms em_meta a2_rows a2_cols] in *. congruence.
  Qed.

  (** ** After the matrix *)
  Section Finish.
    Variables (c : ft_config) (ws : list str) (a : array2 f32).
    Hypothesis few : lenN ws < two32.
    Hypothesis buckets : fc_bucket c <= i32_max.
    Hypothesis nodup : NoDup ws.
    Hypothesis valid : Forall (fun w => utf8_valid w = true) ws.
    Hypothesis matrix : ft_matrix_ok a.
    Notation v := (ft_vocab_of c ws).

    Lemma no_bucket_indices w : fc_bucket c = 0 -> range_ok (fc_min_n c) (fc_max_n c) -> utf8_valid w = true ->
      ((exists g, ngram_in (default_bow ++ w ++ default_eow) (fc_min_n c) (fc_max_n c) g) /\ sub_subword_indices ft_ops pf v w = Panic PDivByZero /\
         (forall is, ~ subwords_of v w is)) \/
      (~ (exists g, ngram_in (default_bow ++ w ++ default_eow) (fc_min_n c) (fc_max_n c) g) /\ sub_subword_indices ft_ops pf v w = Ok None /\
         subwords_of v w []).
    Proof.
      intros Z R V. assert (utf8_valid (default_bow ++ w ++ default_eow) = true) as VS by (repeat apply utf8_valid_app; auto; reflexivity).
      destruct (ft_zero_indices _ _ _ VS R) as (items & NG & E). pose proof (queried_some _ _ _ _ R NG) as QS.
      unfold sub_subword_indices, str_subword_indices, bracket. cbn [ft_vocab_of sv_bow sv_eow sv_min sv_max sv_ix]. rewrite Z, E.
      destruct items as [|x items]; cbn [rbind flat_map rmap].
      - right. split; [intros G; apply QS in G; congruence|]. split; [reflexivity|]. exists [], []. split; [exists []; auto|]. split; [constructor|reflexivity].
      - left. split; [apply QS; discriminate|]. split; [reflexivity|]. intros is (qs & iss & (items' & NG' & ->) & A & _).
        cbn [ft_vocab_of sv_bow sv_eow sv_min sv_max sv_ix] in NG', A. rewrite (ngrams_of_fun _ _ _ _ _ NG' NG) in A. inv A.
        rewrite Z in *. discriminate.
    Qed.
    Lemma no_bucket_fold l b : fc_bucket c = 0 -> range_ok (fc_min_n c) (fc_max_n c) -> (forall i w, In (i, w) l -> utf8_valid w = true) ->
      ((exists i w g, In (i, w) l /\ ngram_in (default_bow ++ w ++ default_eow) (fc_min_n c) (fc_max_n c) g) ->
         rfold (add_subwords_step f32_ops pf v) l b = Panic PDivByZero) /\
      ((forall i w g, In (i, w) l -> ~ ngram_in (default_bow ++ w ++ default_eow) (fc_min_n c) (fc_max_n c) g) ->
         rfold (add_subwords_step f32_ops pf v) l b = Ok b).
    Proof.
      intros Z R. revert b. induction l as [|[i w] l IH]; intros b V; cbn [rfold].
      - split; [intros (i & w & g & [] & _)|reflexivity].
      - destruct (IH b) as [I1 I2]; [intros; eapply V; right; eauto|]. unfold add_subwords_step at 1 3.
        destruct (no_bucket_indices w Z R) as [(G & -> & _)|(G & -> & _)]; [eapply V; left; reflexivity| |]; cbn [rbind].
        + split; [reflexivity|]. destruct G as (g & G). intros N. destruct (N i w g (or_introl eq_refl) G).
        + split.
          * intros (i' & w' & g & [E|I] & H); [inv E; destruct G; eauto|]. apply I1. eauto.
          * intros N. apply I2. intros i' w' g I. eapply N. right. exact I.
    Qed.

    Lemma finish_range : ws <> [] -> ~ range_ok (fc_min_n c) (fc_max_n c) -> ft_finish pf T config_table c v a = Panic PAssert.
    Proof.
      intros NE NR. unfold ft_finish, add_subword_embeddings. cbn [ft_vocab_of sv_words]. destruct ws as [|w l]; [contradiction|].
      unfold enumerate. cbn [enumerate_from rfold add_subwords_step]. rewrite (sub_subwords_range pf c (w :: l) w NR). reflexivity.
    Qed.
    Lemma valid_in i w : In (i, w) (enumerate ws) -> utf8_valid w = true.
    Proof. intros I. apply enumerate_In, nthN_In in I. rewrite Forall_forall in valid. auto. Qed.
    Lemma finish_no_bucket w g : range_ok (fc_min_n c) (fc_max_n c) -> fc_bucket c = 0 -> In w ws ->
      ngram_in (default_bow ++ w ++ default_eow) (fc_min_n c) (fc_max_n c) g -> ft_finish pf T config_table c v a = Panic PDivByZero.
    Proof.
      intros R Z I G. unfold ft_finish, add_subword_embeddings. apply In_nthN in I as [i I]. cbn [ft_vocab_of sv_words].
      rewrite (proj1 (no_bucket_fold (enumerate ws) a Z R valid_in)); [reflexivity|]. exists i, w, g. split; [apply enumerate_In; exact I|exact G].
    Qed.

    (** Without buckets and n-grams nothing is averaged. *)
    Lemma finish_plain : fc_bucket c = 0 -> add_subword_embeddings f32_ops pf v a = Ok a -> subwords_are v (fun _ => []) ->
      let k := lenN (a2_rows a) in
      (k < lenN ws -> ft_finish pf T config_table c v a = Panic PIndexOutOfBounds) /\
      (lenN ws < k -> ft_finish pf T config_table c v a = Err EMatrixShape) /\
      (k = lenN ws -> config_table c = None -> ft_finish pf T config_table c v a = Err EFormat) /\
      (k = lenN ws -> config_table c <> None -> exists e, ft_finish pf T config_table c v a = Ok e /\ ft_contents T config_table pf a c ws (fun _ => []) e).
    Proof.
      intros Z EA SA k. pose proof (ft_words_len c ws nodup) as SW. unfold ft_finish. rewrite EA. cbn [rbind].
      destruct (N.lt_ge_cases k (lenN ws)) as [L|L].
      - split; [|repeat split; intros; lia]. intros _. unfold normalize_words. rewrite SW. unfold a2_nrows. fold k.
        destruct (N.leb_spec (lenN ws) k); [lia|]. reflexivity.
      - split; [lia|]. destruct (normalize_words_exact f32_ops (sub_words_len v) a) as (rows' & ns & EN & FN); [rewrite SW; exact L|].
        rewrite EN. cbn [rbind fst snd]. rewrite SW, Z. rewrite add64_ok by (unfold two32, two64 in *; lia). cbn [rbind]. unfold a2_nrows. cbn [a2_rows].
        assert (lenN rows' = k) as ER by apply FN. unfold vec in *. rewrite ER.
        destruct (N.eqb_spec k (lenN ws + 0)) as [E|E]; cbn [negb]; [|split; [reflexivity|split; intros; lia]].
        split; [lia|]. split; [intros _ ->; reflexivity|]. intros _ NN. destruct (config_table c) as [t|] eqn:ET; [|congruence].
        exists (mkEmb (Some t) (mkA2 (a2_cols a) rows') v (Some ns)). split.
        + unfold emb_new, emb_new_with_maybe_norms. cbn [v_words_len v_vocab_len sub_ops].
          assert (lenN ns = sub_words_len v) as -> by apply FN. rewrite N.eqb_refl. cbn [rassert rbind].
          unfold sub_vocab_len. rewrite SW. cbn [ft_vocab_of sv_ix ix_bound ft_ops]. unfold ft_bound. cbn [rbind fi_buckets]. rewrite Z.
          rewrite add64_ok by (unfold two32, two64 in *; lia). cbn [rbind st_shape nd_ops fst]. unfold a2_nrows. cbn [fst a2_rows]. unfold vec in *. rewrite ER, E.
          rewrite N.eqb_refl. reflexivity.
        + rewrite SW in FN. unfold ft_contents. cbn [em_vocab em_storage em_norms em_meta a2_rows a2_cols].
          split; [apply (proj1 (ft_sub_new pf T config_table c ws few buckets) nodup)|]. split; [exact SA|]. split; [|repeat split; auto; congruence].
          exists (a2_rows a), ns. split; [|split; [exact FN|reflexivity]]. split; [reflexivity|]. split; [reflexivity|].
          intros i w H. cbn [ft_vocab_of sv_words] in H. destruct (nthN_lt (a2_rows a) i) as [own Eo]; [apply nthN_Some_lt in H; unfold k in *; lia|].
          exists own, []. split; [exact Eo|]. split; [constructor|exact Eo].
    Qed.

    Definition dummy : ft_file := mkFtFile 0 0 [] 0 0 0 0 0 [] 0 a.

    Lemma finish_subs subs : (ws <> [] -> range_ok (fc_min_n c) (fc_max_n c)) -> subwords_are v subs ->
      let k := lenN (a2_rows a) in
      (rows_missing ws subs k -> ft_finish pf T config_table c v a = Panic PIndexOutOfBounds) /\
      (~ rows_missing ws subs k -> k <> lenN ws + fc_bucket c -> ft_finish pf T config_table c v a = Err EMatrixShape) /\
      (k = lenN ws + fc_bucket c -> config_table c = None -> ft_finish pf T config_table c v a = Err EFormat) /\
      (k = lenN ws + fc_bucket c -> config_table c <> None -> exists e, ft_finish pf T config_table c v a = Ok e /\ ft_contents T config_table pf a c ws subs e).
    Proof.
      intros R SA k. destruct (N.eq_dec (fc_bucket c) 0) as [Z|NZ].
      - assert (forall w, In w ws -> subs w = [] /\ ~ (exists g, ngram_in (default_bow ++ w ++ default_eow) (fc_min_n c) (fc_max_n c) g)) as SE.
        { intros w I. rewrite Forall_forall in valid. assert (ws <> []) as NE by (intros ->; destruct I).
          destruct (no_bucket_indices w Z (R NE) (valid w I)) as [(_ & _ & N)|(G & _ & S)]; [destruct (N (subs w)); apply SA; exact I|].
          split; [|exact G]. eapply subwords_of_fun; [apply SA; exact I|exact S]. }
        assert (add_subword_embeddings f32_ops pf v a = Ok a) as EA.
        { unfold add_subword_embeddings. cbn [ft_vocab_of sv_words].
          assert (ws = [] \/ ws <> []) as [E|E] by (destruct ws; [left; reflexivity|right; discriminate]); [rewrite E; reflexivity|].
          apply (no_bucket_fold (enumerate ws) a Z (R E) valid_in). intros i w g I G. apply enumerate_In, nthN_In in I. destruct (SE w I) as [_ K]. eauto. }
        assert (subwords_are v (fun _ => [])) as SA'.
        { intros w I. cbn beta. rewrite <- (proj1 (SE w I)). apply SA. exact I. }
        destruct (finish_plain Z EA SA') as (F1 & F2 & F3 & F4). rewrite Z, N.add_0_r. split; [|split; [|split]].
        + intros [L|(w & j & I & J & _)]; [apply F1; exact L|]. rewrite (proj1 (SE w I)) in J. destruct J.
        + intros NM NE. apply F2. assert (~ k < lenN ws) by (intros X; apply NM; left; exact X). unfold k in *. lia.
        + exact F3.
        + intros E NN. destruct (F4 E NN) as (e & E1 & C). exists e. split; [exact E1|].
          assert (em_vocab e = v) as EV by (destruct C as (C & _); rewrite (proj1 (ft_sub_new pf T config_table c ws few buckets) nodup) in C; congruence).
          eapply contents_ext; [| |exact C]; rewrite EV; [intros w I; symmetry; apply SE; exact I|exact SA].
      - pose proof (ft_vocab_made pf T config_table c ws few buckets NZ nodup) as M.
        assert (subwords_are v (ft_subs pf v)) as SA'.
        { intros w I. apply subs_index; [exact M| |rewrite Forall_forall in valid; auto].
          intros mn mx bow eow EV. cbn in EV. inv EV. cbn [ft_vocab_of sv_words] in I. split; [apply R; destruct ws; [destruct I|discriminate]|]. split; reflexivity. }
        assert (forall w, In w ws -> subs w = ft_subs pf v w) as AG by (apply (subwords_agree v subs _ SA SA')).
        assert (forall w j, In w ws -> In j (ft_subs pf v w) -> j < lenN ws + fc_bucket c) as BD.
        { intros w j I J. assert (vocab_usable (VFastText v)) as U.
          { intros mn mx bow eow EV. cbn in EV. inv EV. split; [apply R; destruct ws; [destruct I|discriminate]|]. split; reflexivity. }
          rewrite Forall_forall in valid. destruct (subs_index pf _ M U w (valid w I)) as (_ & F & _). rewrite Forall_forall in F. apply F in J. apply J. }
        destruct (N.lt_ge_cases k (lenN ws + fc_bucket c)) as [L|L].
        + destruct (ft_finish_few pf T config_table dummy c ws few buckets NZ nodup valid R L) as [F1 F2]. cbn [dummy ff_matrix] in F1, F2. fold k in F1, F2.
          split; [|split; [|split; intros; lia]].
          * intros X. apply F1. eapply rows_missing_ext; [|exact X]. exact AG.
          * intros X _. apply F2. intros Y. apply X. eapply rows_missing_ext; [|exact Y]. intros. symmetry. auto.
        + destruct (ft_finish_exact pf T config_table dummy c ws few buckets NZ nodup valid R matrix L) as [F1 F2]. cbn [dummy ff_matrix] in F1, F2. fold k in F1, F2.
          split; [|split; [|split]].
          * intros [X|(w & j & I & J & X)]; [unfold k in *; lia|]. rewrite AG in J by exact I. apply BD in J; [|exact I]. unfold k in *. lia.
          * intros _. exact F1.
          * intros E. apply F2. exact E.
          * intros E NN. destruct (proj2 (F2 E) NN) as (e & E1 & C). exists e. split; [exact E1|].
            assert (em_vocab e = v) as EV by (destruct C as (C & _); rewrite (proj1 (ft_sub_new pf T config_table c ws few buckets) nodup) in C; congruence).
            eapply contents_ext; [| |exact C]; rewrite EV; [intros; symmetry; apply AG; auto|exact SA].
    Qed.

    Lemma finish_run o : ft_matrix_outcome pf T config_table c ws a o -> ft_finish pf T config_table c v a = o.
    Proof.
      assert (forall v', sub_new ft_ops pf ws (fc_min_n c) (fc_max_n c) (mkFtIx (fc_bucket c)) = Ok v' -> v' = v) as SN.
      { intros v' H. rewrite (proj1 (ft_sub_new pf T config_table c ws few buckets) nodup) in H. congruence. }
      intros H. destruct H as [NE NR|w g R Z I G|v' subs R E SA X|v' subs R E SA X NE|v' subs R E SA X NN|subs e R X C].
      - apply finish_range; auto.
      - eapply finish_no_bucket; eauto.
      - apply SN in E. subst v'. apply (finish_subs subs R SA). exact X.
      - apply SN in E. subst v'. apply (finish_subs subs R SA); auto.
      - apply SN in E. subst v'. apply (finish_subs subs R SA); auto.
      - pose proof C as (E & SA & _ & _ & _ & NN). apply SN in E. rewrite E in SA. destruct (finish_subs subs R SA) as (_ & _ & _ & F).
        destruct (F X NN) as (e' & -> & C'). f_equal. eapply contents_fun; eauto. lia.
    Qed.
    Lemma ngram_dec : fc_bucket c = 0 -> range_ok (fc_min_n c) (fc_max_n c) ->
      (exists w g, In w ws /\ ngram_in (default_bow ++ w ++ default_eow) (fc_min_n c) (fc_max_n c) g) \/ subwords_are v (fun _ => []).
    Proof.
      intros Z R. enough ((exists w g, In w ws /\ ngram_in (default_bow ++ w ++ default_eow) (fc_min_n c) (fc_max_n c) g) \/
        forall w, In w ws -> subwords_of v w []) as [H|H]; [left; exact H|right; exact H|].
      assert (forall l, incl l ws -> (exists w g, In w l /\ ngram_in (default_bow ++ w ++ default_eow) (fc_min_n c) (fc_max_n c) g) \/
        forall w, In w l -> subwords_of v w []) as H; [|destruct (H ws (incl_refl ws)); auto].
      induction l as [|w l IH]; intros I; [right; intros w []|]. rewrite Forall_forall in valid.
      destruct (no_bucket_indices w Z R) as [((g & G) & _)|(_ & _ & S)]; [apply valid, I; left; reflexivity|left; exists w, g; split; [left; reflexivity|exact G]|].
      destruct IH as [(w' & g & J & G)|H]; [intros x J; apply I; right; exact J|left; exists w', g; split; [right; exact J|exact G]|].
      right. intros x [<-|J]; auto.
    Qed.
    Lemma finish_total : exists o, ft_matrix_outcome pf T config_table c ws a o.
    Proof.
      pose proof (proj1 (ft_sub_new pf T config_table c ws few buckets) nodup) as SN.
      assert (forall subs, (ws <> [] -> range_ok (fc_min_n c) (fc_max_n c)) -> subwords_are v subs -> exists o, ft_matrix_outcome pf T config_table c ws a o) as ST.
      { intros subs R SA. destruct (N.eq_dec (lenN (a2_rows a)) (lenN ws + fc_bucket c)) as [E|E].
        - destruct (config_table c) eqn:ET; [|eexists; eapply fm_config; eauto].
          destruct (finish_subs subs R SA) as (_ & _ & _ & F). destruct (F E) as (e & _ & C); [congruence|]. eexists. eapply fm_done; eauto.
        - destruct (rows_missing_dec ws subs (lenN (a2_rows a))); eexists; [eapply fm_missing; eauto|eapply fm_shape; eauto]. }
      assert (ws = [] \/ ws <> []) as [E|NE] by (destruct ws; [left; reflexivity|right; discriminate]).
      { apply (ST (fun _ => [])); [intros; contradiction|]. intros w I. cbn [ft_vocab_of sv_words] in I. rewrite E in I. destruct I. }
      destruct (range_dec (fc_min_n c) (fc_max_n c)) as [R|NR]; [|eexists; apply fm_range; auto].
      destruct (N.eq_dec (fc_bucket c) 0) as [Z|NZ].
      - destruct (ngram_dec Z R) as [(w & g & I & G)|SA]; [eexists; eapply fm_buckets; eauto|]. eapply ST; eauto.
      - apply (ST (ft_subs pf v)); [auto|]. intros w I. apply subs_index; [apply (ft_vocab_made pf T config_table); auto| |rewrite Forall_forall in valid; auto].
        intros mn mx bow eow EV. cbn in EV. inv EV. split; [exact R|]. split; reflexivity.
    Qed.
  End Finish.

  (** ** The reader *)
  Definition ft_rest c ws : reader fte := 
    v <- lift (let* ix := ft_indexer_new (fc_bucket c) in sub_new ft_ops pf ws (fc_min_n c) (fc_max_n c) ix) ;; ft_after pf T config_table c v.
  Lemma words_run lossy data c size rest ws r : ft_head_of data c size rest -> ft_words_of lossy size rest ws r -> exists p,
    read_fasttext pf T config_table lossy (mkStream data 0) = ft_rest c ws (mkStream r p) /\ lenN ws < two32 /\ Forall (fun w => utf8_valid w = true) ws.
  Proof.
    intros H W. destruct (ft_head_run lossy _ _ _ _ H) as (p & ->). destruct (head_bounds _ _ _ _ H) as [LS _].
    destruct (ft_words_of_valid _ _ _ _ _ W) as [L V]. destruct (ft_words_run _ _ _ _ _ W p) as (p' & E). unfold ft_tail.
    rewrite (bind_step _ _ _ _ _ E). exists p'. split; [reflexivity|]. split; [lia|exact V].
  Qed.
  Lemma vocab_run lossy data c size rest ws r : ft_head_of data c size rest -> ft_words_of lossy size rest ws r -> fc_bucket c < 2 ^ 31 -> NoDup ws -> exists p,
    read_fasttext pf T config_table lossy (mkStream data 0) = ft_after pf T config_table c (ft_vocab_of c ws) (mkStream r p).
  Proof.
    intros H W B ND. destruct (words_run _ _ _ _ _ _ _ H W) as (p & -> & L & V). exists p. unfold ft_rest.
    assert (fc_bucket c <= i32_max) as B' by (unfold i32_max; lia).
    rewrite (ft_indexer_ok _ B'). cbn [rbind]. rewrite (proj1 (ft_sub_new pf T config_table c ws L B') ND). reflexivity.
  Qed.
  Lemma quant_run lossy data c size rest ws r q r' : ft_head_of data c size rest -> ft_words_of lossy size rest ws r -> fc_bucket c < 2 ^ 31 -> NoDup ws ->
    fields_of ft_quant_fields r q r' -> exists p,
    read_fasttext pf T config_table lossy (mkStream data 0) =
    (a0 <- read_ft_matrix ;; lift (ft_finish pf T config_table c (ft_vocab_of c ws) a0)) (mkStream r' p).
  Proof.
    intros H W B ND Q. destruct (vocab_run _ _ _ _ _ _ _ H W B ND) as (p & ->). unfold ft_quant_fields in Q. field Q.
    apply fields_nil_inv in Q as [-> ->]. unfold ft_after. num_eat. apply N.eqb_neq in O. rewrite O. eauto.
  Qed.
  Lemma shape_run r m n r' p : fields_of ft_shape_fields r [m; n] r' -> exists p',
    read_ft_matrix (mkStream r p) = (alloc_zeros [m; n] 4 ;;; data <- read_f32s (m * n) ;; ret (mkA2 n (unflattenN m n data))) (mkStream r' p') /\
    m < two64 /\ n < two64.
  Proof.
    intros H. unfold ft_shape_fields in H. do 2 field H. apply fields_nil_inv in H as [-> _]. unfold read_ft_matrix. do 2 num_eat. eauto.
  Qed.

  Lemma ft_run lossy data o : ft_outcome pf T config_table lossy data o -> run_reader (read_fasttext pf T config_table lossy) data = o.
  Proof.
    unfold run_reader. intros H. destruct H as [er H|c size rest er H W|c size rest ws r H W B|c size rest ws r H W B ND|c size rest ws r er H W B ND Q
      |c size rest ws r q r' er H W B ND Q S|c size rest ws r q r' m n r'' H W B ND Q S D|c size rest ws r q r' m n r'' H W B ND Q S D L
      |c size rest ws r q r' m n rows tail o H W B ND Q S D L F O].
    - apply ft_head_bad. exact H.
    - destruct (ft_head_run lossy _ _ _ _ H) as (p & ->). unfold ft_tail. apply bind_fst_Err. apply bad_ft_word_run. exact W.
    - destruct (words_run _ _ _ _ _ _ _ H W) as (p & -> & _). unfold ft_rest. rewrite ft_indexer_big by (unfold i32_max; lia). reflexivity.
    - destruct (words_run _ _ _ _ _ _ _ H W) as (p & -> & L & V). unfold ft_rest. assert (fc_bucket c <= i32_max) as B' by (unfold i32_max; lia).
      rewrite (ft_indexer_ok _ B'). cbn [rbind]. rewrite (proj2 (ft_sub_new pf T config_table c ws L B') ND). reflexivity.
    - destruct (vocab_run _ _ _ _ _ _ _ H W B ND) as (p & ->). unfold ft_after. change read_u8 with (num_reader 1).
      eapply bad_step; [exact Q|cbn beta; intros n s _ K|intros n d p' _ _ K; destruct (bad_nil _ _ K)].
      destruct (N.eqb_spec n 1); [reflexivity|contradiction].
    - destruct (quant_run _ _ _ _ _ _ _ _ _ H W B ND Q) as (p & ->). apply bind_fst_Err. unfold read_ft_matrix. change read_u64 with (num_reader 8).
      eapply bad_step; [exact S|cbn beta; intros n s _ K; destruct K; exact I|cbn beta; intros n d p' _ _ S']. clear S.
      eapply bad_step; [exact S'|cbn beta; intros n' s _ K; destruct K; exact I|cbn beta; intros n' d' p'' _ _ K; destruct (bad_nil _ _ K)].
    - destruct (quant_run _ _ _ _ _ _ _ _ _ H W B ND Q) as (p & ->). destruct (shape_run _ _ _ _ p S) as (p' & E & _). unfold bind at 1. rewrite E.
      unfold alloc_zeros, bind. destruct (_ && _)%bool eqn:X; [|reflexivity]. destruct D. apply andb_prop in X as [X1 X2]. apply N.leb_le in X1, X2. split; assumption.
    - destruct (quant_run _ _ _ _ _ _ _ _ _ H W B ND Q) as (p & ->). destruct (shape_run _ _ _ _ p S) as (p' & E & _). unfold bind at 1. rewrite E.
      rewrite (bind_step _ _ _ _ _ (alloc_zeros_ok _ _ _ D)). unfold read_f32s, bind. rewrite read_exact_short by lia. reflexivity.
    - destruct (quant_run _ _ _ _ _ _ _ _ _ H W B ND Q) as (p & ->). destruct (shape_run _ _ _ _ p S) as (p' & E & Lm & Ln). unfold bind at 1. rewrite E.
      rewrite (bind_step _ _ _ _ _ (alloc_zeros_ok _ _ _ D)).
      assert (m * n = lenN (concat rows)) as EL by (rewrite (concat_lenN n) by exact F; lia).
      pose proof (reads_f32s (concat rows) _ EL p' tail false) as RF. unfold fconst in RF. rewrite (bind_step _ _ _ _ _ RF). unfold ret, lift. cbn [fst].
      rewrite unflattenN_concat by auto.
      destruct (words_run _ _ _ _ _ _ _ H W) as (_ & _ & LW & V).
      assert (ft_matrix_ok (mkA2 n rows)) as MO by (repeat split; cbn [a2_rows a2_cols]; rewrite ?L; auto; apply D).
      apply finish_run; auto. unfold i32_max. lia.
  Qed.

  Lemma ft_total lossy data : exists o, ft_outcome pf T config_table lossy data o.
  Proof.
    destruct (ft_head_total data) as [(c & size & rest & H)|(er & H)]; [|eexists; apply fto_head; exact H].
    destruct (ft_words_total lossy size rest) as [(ws & r & W)|(er & W)]; [|eexists; eapply fto_word; eauto].
    destruct (N.lt_ge_cases (fc_bucket c) (2 ^ 31)) as [B|B]; [|eexists; eapply fto_many_buckets; eauto].
    destruct (words_nodup ws) as [ND|ND]; [|eexists; eapply fto_duplicate; eauto].
    destruct (fields_cases ft_quant_fields) with (data := r) as [(q & r' & Q)|(er & Q)].
    { apply Forall_cons; [|constructor]. intros n. cbn [snd]. lia. }
    2: eexists; eapply fto_quant; eauto.
    destruct (fields_cases ft_shape_fields) with (data := r') as [(l & r'' & S)|(er & S)]; [fields_decidable| |eexists; eapply fto_shape; eauto].
    assert (exists m n, l = [m; n]) as (m & n & ->).
    { pose proof S as S'. unfold ft_shape_fields in S'. do 2 (apply fields_cons_inv' in S' as (?n & ?l & ?d & -> & _ & _ & _ & S')). apply fields_nil_inv in S' as [_ ->]. eauto. }
    assert (dims_ok [m; n] 4 \/ ~ dims_ok [m; n] 4) as [D|D] by (unfold dims_ok; lia); [|eexists; eapply fto_large; eauto].
    destruct (N.lt_ge_cases (lenN r'') (m * n * 4)) as [L|L]; [eexists; eapply fto_short; eauto|].
    destruct (f32s_split (m * n) r'' L) as (x & tail & -> & LX). destruct (unflattenN_spec m n x LX) as (F & C & LN).
    destruct (words_run _ _ _ _ _ _ _ H W) as (_ & _ & LW & V).
    destruct (shape_run _ _ _ _ 0 S) as (_ & _ & Lm & Ln).
    destruct (finish_total c ws (mkA2 n (unflattenN m n x))) as (o & O); auto.
    { unfold i32_max. lia. }
    { repeat split; cbn [a2_rows a2_cols]; rewrite ?LN; auto; apply D. }
    exists o. eapply fto_matrix; eauto. rewrite C. exact S.
  Qed.

  (** C87 *)
  Theorem ft_exact lossy data o : run_reader (read_fasttext pf T config_table lossy) data = o <-> ft_outcome pf T config_table lossy data o.
  Proof.
    split; [|apply ft_run]. intros E. destruct (ft_total lossy data) as (o' & O). rewrite (ft_run _ _ _ O) in E. congruence.
  Qed.
End Reader.
