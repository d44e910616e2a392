(** * What the errors say about fastText files. *)
From Coq Require Import Strings.String.
From Verif Require Import Base BaseFacts Utf8 Utf8Facts Stream StreamFacts F32 ChunkIO ChunkFacts Subword Vocab VocabFacts Storage StorageFacts
  Embeddings TextIO FastText FileSpec VocabSpec EmbSpec TextSpec TextFacts TextThms FloretThms FastTextSpec FastTextThms
  Messages MessageSpec MessageThms MessageWrong CompatMessages CompatErasure CompatTexts CompatLines CompatCut.
Local Open Scope N_scope.
Local Open Scope d_scope.

(** ** The fields of a file *)
Definition ft_config_fields : list field :=
  [rd 4 "Cannot read number of dimensions"; rd 4 "Cannot read window size"; rd 4 "Cannot read number of epochs";
   rd 4 "Cannot read minimum count"; rd 4 "Cannot read negative samples"; rd 4 "Cannot read word n-gram length";
   rd 4 "Cannot read loss type"; rd 4 "Cannot read model type"; rd 4 "Cannot read number of buckets";
   rd 4 "Cannot read minimum subword length"; rd 4 "Cannot read maximum subword length";
   rd 4 "Cannot read LR update rate"; rd 8 "Cannot read sampling threshold"].
Definition ft_head_fields : list field :=
  [rd 4 "Cannot read vocabulary size"; rd 4 "Cannot read number of words"; rd 4 "Cannot read number of labels";
   rd 8 "Cannot read number of tokens"; rd 8 "Cannot read pruned vocabulary size"].
(** Where a word is cut, the text is about its frequency or about UTF-8. *)
Definition ft_entry_fields (b lossy : bool) (it : list byte * N * N) : list field :=
  word_fields b lossy (fst (fst it)) "Cannot read word frequency" ++ [rd 8 "Cannot read word frequency"; rd 1 "Cannot read entry type"].
Definition ft_matrix_fields (a : array2 f32) : list field :=
  [rd 8 "Cannot read number of embedding matrix rows"; rd 8 "Cannot read number of embedding matrix columns";
   rd (4 * (lenN (a2_rows a) * a2_cols a)) "Cannot read embeddings"].
Definition ft_fields (b lossy : bool) (f : ft_file) : list field :=
  [rd 4 "Cannot fastText read magic"; rd 4 "Cannot read fastText version"] ++ ft_config_fields ++ ft_head_fields
  ++ flat_map (ft_entry_fields b lossy) (ff_entries f)
  ++ rd 1 "Cannot read quantization information" :: ft_matrix_fields (ff_matrix f).

Ltac econs := match goal with |- eats ?b ?d (?x ++ ?y) (?f :: ?fs) ?a => change (f :: fs) with ([f] ++ fs) end.
Ltac ccons := match goal with |- cuts ?b ?d (?x ++ ?y) (?f :: ?fs) => change (f :: fs) with ([f] ++ fs) end.
Ltac eint := first [apply eats_u32; assumption|apply eats_u64; assumption|apply eats_u8; assumption].

Lemma eats_loss b l : eats b read_loss_t (le_bytes 4 (loss_num l)) [rd 4 "Cannot read loss type"] l.
Proof.
  unfold read_loss_t. rewrite <- (app_nil_r (le_bytes 4 _)). econs. eapply eats_bind; [apply eats_u32; destruct l; reflexivity|].
  destruct l; apply eats_ret.
Qed.
Lemma eats_model b l : eats b read_model_t (le_bytes 4 (model_num l)) [rd 4 "Cannot read model type"] l.
Proof.
  unfold read_model_t. rewrite <- (app_nil_r (le_bytes 4 _)). econs. eapply eats_bind; [apply eats_u32; destruct l; reflexivity|].
  destruct l; apply eats_ret.
Qed.
Lemma eats_config b f c : Forall (fun n => n < two32) (ff_numbers f) -> ff_threshold f < two64 -> ft_config_is f c ->
  eats b read_config_t (u32s_bytes (ff_numbers f) ++ le_bytes 8 (ff_threshold f)) ft_config_fields c.
Proof.
  intros F L (E1 & E2). rewrite <- E1 in *. rewrite <- E2 in *. clear E1 E2. unfold u32s_bytes, config_numbers in *. cbn [flat_map]. rewrite <- !app_assoc, app_nil_l.
  repeat match goal with H : Forall _ (_ :: _) |- _ => apply Forall_cons_iff in H as [? H] end.
  destruct c as [c1 c2 c3 c4 c5 c6 lo mo c9 c10 c11 c12 c13].
  cbn [fc_dims fc_window fc_epoch fc_min_count fc_neg fc_word_ngrams fc_loss fc_model fc_bucket fc_min_n fc_max_n fc_lr fc_threshold] in *.
  unfold read_config_t, ft_config_fields.
  do 6 (econs; eapply eats_bind; [eint|]). econs. eapply eats_bind; [apply eats_loss|]. econs. eapply eats_bind; [apply eats_model|].
  do 4 (econs; eapply eats_bind; [eint|]). rewrite <- (app_nil_r (le_bytes 8 _)). econs. eapply eats_bind; [eint|]. apply eats_ret.
Qed.
Lemma eats_entry b lossy name freq w : ft_entry_ok (name, freq, 0) -> decodes lossy name w ->
  eats b (read_ft_entry_t lossy) (ft_entry_bytes (name, freq, 0)) (ft_entry_fields b lossy (name, freq, 0)) w.
Proof.
  intros (NI & L & K) DC. unfold read_ft_entry_t, ft_entry_bytes, ft_entry_fields. cbn [fst snd].
  apply (eats_word b x00 lossy name w); auto.
  - intros v pos. destruct (short_u64 freq pos [] (le_bytes 8 freq) b eq_refl) as (e & s' & E).
    + intros X. apply (f_equal lenN) in X. rewrite le_bytes_lenN, lenN_nil in X. discriminate.
    + exists s'. unfold dbind, io. rewrite E. reflexivity.
  - econs. eapply eats_bind; [eint|]. rewrite <- (app_nil_r (le_bytes 1 _)). econs. eapply eats_bind; [eint|]. apply eats_ret.
Qed.
Lemma eats_entries b lossy its ws : Forall ft_entry_ok its -> Forall (fun it => snd it = 0) its ->
  Forall2 (fun it w => decodes lossy (fst (fst it)) w) its ws ->
  eats b (drepeat (lenN its) (read_ft_entry_t lossy)) (flat_map ft_entry_bytes its) (flat_map (ft_entry_fields b lossy) its) ws.
Proof.
  intros F K H. apply eats_repeat. induction H as [|[[name freq] kind] w its ws D H IH]; [constructor|].
  apply Forall_cons_iff in F as [F1 F], K as [K1 K]. cbn [fst snd] in *. subst kind. constructor; [|auto]. apply eats_entry; auto.
Qed.

Section Texts.
  Context (pf : profile) (T : toml_ops) (config_table : ft_config -> option (toml_table T)) (table_error : ft_config -> str).
  Notation fte := (embeddings (toml_table T) (subword_vocab ft_indexer) (array2 f32) f32).
  Notation reads_t := (read_fasttext_t pf T config_table table_error).

  (** A file that was cut: the text names the field, except for words. *)
  Lemma ft_cut b lossy f c ws : ft_fields_ok f -> ft_supported f -> ft_config_is f c -> ft_words lossy f ws -> NoDup ws -> fc_bucket c <= i32_max ->
    ff_quant f <> 1 -> ft_matrix_ok (ff_matrix f) ->
    forall pos i, i < lenN (ft_bytes f) -> exists e, missing (ft_fields b lossy f) i = Some e /\
    fst (reads_t lossy (mkBroken (takeN i (ft_bytes f)) pos b)) = MErr e.
  Proof.
    intros O (EM & LV & _ & NL & PR & K) C W ND BK Q (WF & M1 & M2 & MD). change (cuts b (reads_t lossy) (ft_bytes f) (ft_fields b lossy f)).
    pose proof O as (F & LN & LT & F2 & L1 & L2 & FE & LQ). pose proof (ft_words_small lossy f ws O W) as [_ LW].
    repeat match goal with H : Forall (fun n : N => n < _) (_ :: _) |- _ => apply Forall_cons_iff in H as [? H] end.
    rewrite <- (app_nil_r (ft_bytes f)), ft_bytes_eq, app_nil_r. unfold read_fasttext_t, ft_fields. cbn [app]. ccons. eapply cuts_bind; [eint|].
    unfold ft_magic. destruct (N.eqb_spec (ff_magic f) 793712314) as [_|]; [|contradiction]. cbn [negb]. ccons. eapply cuts_bind; [eint|].
    unfold ft_version. destruct (N.ltb_spec 12 (ff_version f)) as [|_]; [lia|].
    rewrite (app_assoc (u32s_bytes (ff_numbers f))). eapply cuts_bind; [apply (eats_config b f c); assumption|].
    assert (eats b (read_ft_vocab_t pf c lossy) (ft_head f ++ flat_map ft_entry_bytes (ff_entries f)) (ft_head_fields ++ flat_map (ft_entry_fields b lossy) (ff_entries f))
              (ft_vocab_of c ws)) as EV.
    { unfold read_ft_vocab_t, ft_head, u32s_bytes, ft_head_fields. cbn [flat_map app]. rewrite app_nil_r, <- !app_assoc.
      do 3 (econs; eapply eats_bind; [eint|]). destruct (N.ltb_spec 0 (ff_nlabels f)) as [NL'|_]; [lia|].
      do 2 (econs; eapply eats_bind; [eint|]). destruct (N.leb_spec (ff_prune f) isize_max) as [X|X]; [unfold isize_max in X; lia|].
      assert (lenN (ff_entries f) * 24 <= isize_max) as RS by (unfold isize_max, two32 in *; lia).
      eapply eats_pure; [exact (build_ok _ _ (fun s => reserve_ok _ _ s RS))|].
      rewrite <- (app_nil_r (flat_map ft_entry_bytes _)), <- (app_nil_r (flat_map (ft_entry_fields b lossy) _)).
      eapply eats_bind; [apply (eats_entries b lossy (ff_entries f) ws); assumption|].
      eapply eats_pure; [intros s; unfold build, io, lift; rewrite (ft_indexer_ok _ BK); reflexivity|].
      split; [reflexivity| |intros pos i Hi; rewrite lenN_nil in Hi; lia].
      intros pos tail. unfold build, io, lift. rewrite (proj1 (ft_sub_new pf T config_table c ws LW BK) ND). rewrite lenN_nil, N.add_0_r. reflexivity. }
    rewrite (app_assoc (ft_head f)), (app_assoc ft_head_fields). eapply cuts_bind; [exact EV|].
    ccons. eapply cuts_bind; [eint|]. destruct (N.eqb_spec (ff_quant f) 1); [contradiction|].
    apply (cuts_last b read_ft_matrix_t _ _ _ (ff_matrix f)). unfold read_ft_matrix_t, ft_matrix_fields, ft_matrix_bytes.
    do 2 (econs; eapply eats_bind; [eint|]). eapply eats_pure; [exact (build_ok _ _ (fun s => alloc_zeros_ok _ _ s MD))|].
    rewrite <- (app_nil_r (f32s_bytes _)). econs. eapply eats_bind.
    - apply eats_f32s. rewrite (concat_lenN (a2_cols (ff_matrix f))) by exact WF. reflexivity.
    - rewrite unflattenN_concat by auto. destruct (ff_matrix f). apply eats_ret.
  Qed.

  (** ** Wrong contents *)
  Definition ft_fails lossy f rest e : Prop := fst (reads_t lossy (mkStream (ft_bytes f ++ rest) 0)) = MErr e.
  Lemma fst_err {A B} (d : D A) (k : A -> D B) s e : fst (d s) = MErr e -> fst (dbind d k s) = MErr e.
  Proof. unfold dbind. destruct (d s) as [[]]; cbn [fst]; congruence. Qed.
  Lemma full_u32 {B} w (k : N -> D B) n r p : n < two32 -> dbind (io read_u32 w) k (mkStream (le_bytes 4 n ++ r) p) = k n (mkStream r (p + 4)).
  Proof. intros H. pose proof (ea_full _ _ _ _ _ (eats_u32 false n w H) p r) as E. rewrite le_bytes_lenN in E. exact (dbind_ok _ _ _ _ _ E). Qed.

  Lemma ft_wrong_start lossy f rest : ft_fields_ok f ->
    (ff_magic f <> 793712314 -> exists e, ft_fails lossy f rest e /\
       display e = txt "Invalid file format Expected 793712314 as magic, got: " ++ dec_print (ff_magic f)) /\
    (ff_magic f = 793712314 -> 12 < ff_version f -> exists e, ft_fails lossy f rest e /\
       display e = txt "Invalid file format Expected 12 as version, got: " ++ dec_print (ff_version f)).
  Proof.
    intros (F & _). repeat match goal with H : Forall (fun n : N => n < _) (_ :: _) |- _ => apply Forall_cons_iff in H as [? H] end.
    unfold ft_fails. rewrite ft_bytes_eq. unfold read_fasttext_t. rewrite full_u32 by assumption. unfold ft_magic.
    destruct (N.eqb_spec (ff_magic f) 793712314) as [EM|EM]; cbn [negb]; (split; [intros X; try contradiction|intros X; try contradiction]).
    - rewrite full_u32 by assumption. intros V. unfold ft_version. destruct (N.ltb_spec 12 (ff_version f)) as [_|]; [|lia]. eexists. split; reflexivity.
    - eexists. split; reflexivity.
  Qed.

  (** The loss function and the type of the model. *)
  Lemma config_wrong f r p l m : Forall (fun n => n < two32) (ff_numbers f) -> lenN (ff_numbers f) = 12 ->
    nthN (ff_numbers f) 6 = Some l -> nthN (ff_numbers f) 7 = Some m ->
    (~ 1 <= l <= 3 -> fst (read_config_t (mkStream (u32s_bytes (ff_numbers f) ++ r) p)) = MErr (MFormat (txt "Unknown loss: " ++ dec_print l))) /\
    (1 <= l <= 3 -> ~ 1 <= m <= 3 -> fst (read_config_t (mkStream (u32s_bytes (ff_numbers f) ++ r) p)) = MErr (MFormat (txt "Unknown model: " ++ dec_print m))).
  Proof.
    intros F L. destruct (list_12 _ L) as (x1 & x2 & x3 & x4 & x5 & x6 & x7 & x8 & x9 & x10 & x11 & x12 & E). rewrite E in *.
    intros E6 E7. unfold nthN in E6, E7. cbn in E6, E7. injection E6 as ->. injection E7 as ->. repeat match goal with H : Forall _ (_ :: _) |- _ => apply Forall_cons_iff in H as [? H] end.
    unfold u32s_bytes. cbn [flat_map]. rewrite <- !app_assoc, app_nil_l. unfold read_config_t.
    do 6 (rewrite full_u32 by assumption). split.
    - intros NL. apply fst_err. unfold read_loss_t. rewrite full_u32 by assumption. destruct l as [|[[q|q|]|[q|q|]|]]; try reflexivity; exfalso; apply NL; lia.
    - intros KL NM. assert (read_loss_t (mkStream (le_bytes 4 l ++ le_bytes 4 m ++ le_bytes 4 x9 ++ le_bytes 4 x10 ++ le_bytes 4 x11 ++ le_bytes 4 x12 ++ r) (p + 4 + 4 + 4 + 4 + 4 + 4)) =
        (MOk (if l =? 1 then HierarchicalSoftmax else if l =? 2 then NegativeSampling else Softmax),
         mkStream (le_bytes 4 m ++ le_bytes 4 x9 ++ le_bytes 4 x10 ++ le_bytes 4 x11 ++ le_bytes 4 x12 ++ r) (p + 4 + 4 + 4 + 4 + 4 + 4 + 4))) as R.
      { unfold read_loss_t. rewrite full_u32 by assumption. assert (l = 1 \/ l = 2 \/ l = 3) as [-> | [-> | ->]] by lia; reflexivity. }
      rewrite (dbind_ok _ _ _ _ _ R). apply fst_err. unfold read_model_t. rewrite full_u32 by assumption.
      destruct m as [|[[q|q|]|[q|q|]|]]; try reflexivity; exfalso; apply NM; lia.
  Qed.
  (** After the first two numbers. *)
  Lemma ft_to_config lossy f rest : ft_fields_ok f -> ff_magic f = 793712314 -> ff_version f <= 12 -> exists k : ft_config -> D fte,
    reads_t lossy (mkStream (ft_bytes f ++ rest) 0) = dbind read_config_t k (mkStream (u32s_bytes (ff_numbers f) ++ le_bytes 8 (ff_threshold f) ++
      ft_head f ++ flat_map ft_entry_bytes (ff_entries f) ++ le_bytes 1 (ff_quant f) ++ ft_matrix_bytes (ff_matrix f) ++ rest) 8) /\
    forall c, exists k2 : subword_vocab ft_indexer -> D fte, k c = dbind (read_ft_vocab_t pf c lossy) k2 /\
    forall v, exists k3, k2 v = dbind (io read_u8 "Cannot read quantization information") k3 /\
    k3 1 = dfail (MFormat (txt "Quantized fastText models are not supported")).
  Proof.
    intros (F & _) EM LV. repeat match goal with H : Forall (fun n : N => n < _) (_ :: _) |- _ => apply Forall_cons_iff in H as [? H] end.
    rewrite ft_bytes_eq. unfold read_fasttext_t. rewrite full_u32 by assumption. unfold ft_magic. rewrite EM, N.eqb_refl. cbn [negb].
    rewrite full_u32 by assumption. unfold ft_version. destruct (N.ltb_spec 12 (ff_version f)) as [|_]; [lia|].
    eexists. split; [reflexivity|]. intros c. eexists. split; [reflexivity|]. intros v. eexists. split; reflexivity.
  Qed.
  Lemma ft_wrong_config lossy f rest l m : ft_fields_ok f -> ff_magic f = 793712314 -> ff_version f <= 12 ->
    nthN (ff_numbers f) 6 = Some l -> nthN (ff_numbers f) 7 = Some m ->
    (~ 1 <= l <= 3 -> exists e, ft_fails lossy f rest e /\ display e = txt "Invalid file format Unknown loss: " ++ dec_print l) /\
    (1 <= l <= 3 -> ~ 1 <= m <= 3 -> exists e, ft_fails lossy f rest e /\ display e = txt "Invalid file format Unknown model: " ++ dec_print m).
  Proof.
    intros O EM LV E6 E7. destruct (ft_to_config lossy f rest O EM LV) as (k & R & _). pose proof O as (F & LN & _).
    apply Forall_cons_iff in F as [_ F]. apply Forall_cons_iff in F as [_ F].
    match type of R with _ = dbind _ _ (mkStream (_ ++ ?r) ?p) => destruct (config_wrong f r p l m F LN E6 E7) as [W1 W2] end.
    unfold ft_fails. rewrite R. split; [intros N1|intros N1 N2]; (eexists; split; [apply fst_err; auto|reflexivity]).
  Qed.

  (** Entries. *)
  Lemma repeat_bad {A} (d : D A) (n1 n2 : nat) s as1 s1 e : (fix rep (k : nat) : D (list A) :=
    match k with O => dret [] | Datatypes.S k' => a <- d ;; l <- rep k' ;; dret (a :: l) end) n1 s = (MOk as1, s1) ->
    fst (d s1) = MErr e -> fst (drepeat (N.of_nat (n1 + Datatypes.S n2)) d s) = MErr e.
  Proof.
    intros H1 H2. rewrite drepeat_rep, Nat2N.id. set (rep := fix rep (k : nat) : D (list A) := _) in *. revert s as1 H1.
    induction n1 as [|n1 IH]; intros s as1 H1.
    - cbn in H1. unfold dret in H1. injection H1 as <- <-.
      change (rep (0 + Datatypes.S n2)%nat) with (a <- d ;; l <- rep n2 ;; dret (a :: l)). apply fst_err, H2.
    - change (rep (Datatypes.S n1)) with (a <- d ;; l <- rep n1 ;; dret (a :: l)) in H1.
      change (rep (Datatypes.S n1 + Datatypes.S n2)%nat) with (a <- d ;; l <- rep (n1 + Datatypes.S n2)%nat ;; dret (a :: l)).
      unfold dbind at 1. unfold dbind at 1 in H1. destruct (d s) as [[a| |] s2]; try discriminate.
      unfold dbind in H1. destruct (rep n1 s2) as [[l1| |] s3] eqn:ER; try discriminate. unfold dret in H1. injection H1 as _ ->.
      apply fst_err. exact (IH s2 l1 ER).
  Qed.
  Definition entry_error (lossy : bool) (it : list byte * N * N) (e : emsg) : Prop :=
    (lossy = false /\ utf8_valid (fst (fst it)) = false /\ points_at (txt "Token contains invalid UTF-8: ") (fst (fst it)) e) \/
    ((exists w, decodes lossy (fst (fst it)) w) /\ snd it <> 0 /\ display e = txt "Invalid file format Non-word entry").
  Lemma entry_wrong lossy it r p : ft_entry_ok it -> entry_bad lossy it ->
    exists e, fst (read_ft_entry_t lossy (mkStream (ft_entry_bytes it ++ r) p)) = MErr e /\ entry_error lossy it e.
  Proof.
    destruct it as [[name freq] kind]. intros (NI & L & K) B. unfold read_ft_entry_t, ft_entry_bytes. rewrite <- app_assoc. cbn [app]. rewrite <- app_assoc.
    unfold entry_error. cbn [fst snd]. destruct (decide_decodes lossy name) as [(w & D)|(-> & V)].
    - assert (kind <> 0) as NK by (destruct B as [B|[-> B]]; cbn [fst snd] in B; [exact B|destruct D; congruence]).
      assert (forall r, read_string_t x00 lossy (mkStream (name ++ x00 :: r) p) = (MOk w, mkStream r (p + lenN (name ++ [x00])))) as RS.
      { intros q. rewrite string_at by exact NI. unfold token, decodes in *. destruct lossy; [subst w; reflexivity|]. destruct D as [-> ->]. reflexivity. }
      rewrite (dbind_ok _ _ _ _ _ (RS _)). rewrite (dbind_ok _ _ _ _ _ (ea_full _ _ _ _ _ (eats_u64 false freq _ L) _ _)).
      rewrite (dbind_ok _ _ _ _ _ (ea_full _ _ _ _ _ (eats_u8 false kind _ K) _ _)). apply N.eqb_neq in NK as NK'. rewrite NK'. cbn [negb].
      eexists. split; [reflexivity|]. right. split; [eauto|]. split; [exact NK|reflexivity].
    - unfold dbind at 1. rewrite string_at by exact NI. unfold token. rewrite V. eexists. split; [reflexivity|]. left. repeat split; auto. apply points, V.
  Qed.
  Lemma ft_wrong_vocab lossy f c rest : ft_fields_ok f -> ff_magic f = 793712314 -> ff_version f <= 12 -> ft_config_is f c ->
    (ff_nlabels f <> 0 -> exists e, ft_fails lossy f rest e /\ display e = txt "Invalid file format fastText prediction models are not supported") /\
    (ff_nlabels f = 0 -> ff_prune f < 2 ^ 63 -> exists e, ft_fails lossy f rest e /\ display e = txt "Invalid file format Pruned vocabularies are not supported") /\
    (ff_nlabels f = 0 -> 2 ^ 63 <= ff_prune f -> forall its1 it its2, ff_entries f = its1 ++ it :: its2 ->
       Forall (fun it => snd it = 0 /\ exists w, decodes lossy (fst (fst it)) w) its1 -> entry_bad lossy it ->
       exists e, ft_fails lossy f rest e /\ entry_error lossy it e) /\
    (ff_nlabels f = 0 -> 2 ^ 63 <= ff_prune f -> Forall (fun it => snd it = 0) (ff_entries f) -> ff_quant f = 1 ->
       forall ws, ft_words lossy f ws -> NoDup ws -> fc_bucket c <= i32_max ->
       exists e, ft_fails lossy f rest e /\ display e = txt "Invalid file format Quantized fastText models are not supported").
  Proof.
    intros O EM LV C. destruct (ft_to_config lossy f rest O EM LV) as (k & R & K). pose proof O as (F & LN & LT & F2 & L1 & L2 & FE & LQ).
    apply Forall_cons_iff in F as [_ F]. apply Forall_cons_iff in F as [_ F]. rewrite app_assoc in R.
    rewrite (dbind_ok _ _ _ _ _ (ea_full _ _ _ _ _ (eats_config false f c F LT C) _ _)) in R.
    unfold ft_fails. rewrite R. destruct (K c) as (k2 & -> & K2).
    match goal with |- context [mkBroken _ ?q _] => generalize q end. intros p.
    repeat match goal with H : Forall (fun n : N => n < _) (_ :: _) |- _ => apply Forall_cons_iff in H as [? H] end.
    set (tail := le_bytes 1 (ff_quant f) ++ ft_matrix_bytes (ff_matrix f) ++ rest).
    assert (forall e, fst (read_ft_vocab_t pf c lossy (mkStream (ft_head f ++ flat_map ft_entry_bytes (ff_entries f) ++ tail) p)) = MErr e ->
      fst (dbind (read_ft_vocab_t pf c lossy) k2 (mkStream (ft_head f ++ flat_map ft_entry_bytes (ff_entries f) ++ tail) p)) = MErr e) as FE1
      by (intros; apply fst_err; assumption).
    assert (lenN (ff_entries f) * 24 <= isize_max) as RS by (unfold isize_max, two32 in *; lia).
    assert (read_ft_vocab_t pf c lossy (mkStream (ft_head f ++ flat_map ft_entry_bytes (ff_entries f) ++ tail) p) =
      (if 0 <? ff_nlabels f then dfail (MFormat (txt "fastText prediction models are not supported")) else
       if ff_prune f <=? isize_max then fun s => (MErr (MFormat (txt "Pruned vocabularies are not supported")), mkStream (flat_map ft_entry_bytes (ff_entries f) ++ tail) (p + 28)) else
       fun s => dbind (drepeat (lenN (ff_entries f)) (read_ft_entry_t lossy)) (fun words => ix <- build (lift (ft_indexer_new (fc_bucket c))) ;;
         build (lift (sub_new ft_ops pf words (fc_min_n c) (fc_max_n c) ix))) (mkStream (flat_map ft_entry_bytes (ff_entries f) ++ tail) (p + 28)))
      (mkStream (le_bytes 8 (ff_tokens f) ++ le_bytes 8 (ff_prune f) ++ flat_map ft_entry_bytes (ff_entries f) ++ tail) (p + 12))) as RV.
    { unfold read_ft_vocab_t, ft_head, u32s_bytes. cbn [flat_map]. rewrite app_nil_r, <- !app_assoc. do 3 (rewrite full_u32 by assumption).
      replace (p + 4 + 4 + 4) with (p + 12) by lia. destruct (0 <? ff_nlabels f); [reflexivity|].
      rewrite (dbind_ok _ _ _ _ _ (ea_full _ _ _ _ _ (eats_u64 false _ _ L1) _ _)), (dbind_ok _ _ _ _ _ (ea_full _ _ _ _ _ (eats_u64 false _ _ L2) _ _)).
      rewrite !le_bytes_lenN. replace (p + 12 + N.of_nat 8 + N.of_nat 8) with (p + 28) by lia. destruct (ff_prune f <=? isize_max); [reflexivity|].
      rewrite (dbind_ok _ _ _ _ _ (build_ok _ _ (fun s => reserve_ok _ _ s RS) _)). reflexivity. }
    split; [|split; [|split]].
    - intros NL. eexists. split; [apply FE1; rewrite RV; destruct (N.ltb_spec 0 (ff_nlabels f)); [reflexivity|lia]|reflexivity].
    - intros NL PR. eexists. split; [apply FE1; rewrite RV; destruct (N.ltb_spec 0 (ff_nlabels f)); [lia|];
      destruct (N.leb_spec (ff_prune f) isize_max); [reflexivity|unfold isize_max in *; lia]|reflexivity].
    - intros NL PR its1 it its2 EQ G B. rewrite EQ in FE. apply Forall_app in FE as [FE2 FE3]. apply Forall_cons_iff in FE3 as [FE3 FE4].
      assert (forall q r, exists ws q', (fix rep (k : nat) : D (list str) := match k with O => dret [] | Datatypes.S k' => a <- read_ft_entry_t lossy ;; l <- rep k' ;; dret (a :: l) end)
        (length its1) (mkStream (flat_map ft_entry_bytes its1 ++ r) q) = (MOk ws, mkStream r q')) as RP.
      { clear - FE2 G. induction its1 as [|[[name freq] kind] its1 IH]; intros q r; [exists [], q; reflexivity|].
        apply Forall_cons_iff in FE2 as [E1 FE2], G as [[G1 (w & G2)] G]. cbn [fst snd] in *. subst kind. cbn [length flat_map]. rewrite <- app_assoc.
        destruct (ft_entry_read lossy name freq w (flat_map ft_entry_bytes its1 ++ r) q E1 G2) as (q1 & X).
        assert (same (read_ft_entry_t lossy) (read_ft_entry lossy)) as SM.
        { unfold read_ft_entry_t, read_ft_entry. apply same_bind; [apply same_string_t|intros v]. same_all. }
        rewrite (dbind_ok _ _ _ _ _ (same_Ok _ _ _ _ _ SM X)). destruct (IH FE2 G q1 r) as (ws & q' & Y). rewrite (dbind_ok _ _ _ _ _ Y).
        do 2 eexists. reflexivity. }
      destruct (RP (p + 28) (ft_entry_bytes it ++ flat_map ft_entry_bytes its2 ++ tail)) as (ws & q' & X).
      destruct (entry_wrong lossy it (flat_map ft_entry_bytes its2 ++ tail) q' FE3 B) as (e & E & EE).
      exists e. split; [apply FE1; rewrite RV|exact EE]. destruct (N.ltb_spec 0 (ff_nlabels f)); [lia|].
      destruct (N.leb_spec (ff_prune f) isize_max); [unfold isize_max in *; lia|]. apply fst_err.
      rewrite EQ, flat_map_app. cbn [flat_map]. rewrite <- !app_assoc. replace (lenN (its1 ++ it :: its2)) with (N.of_nat (length its1 + Datatypes.S (length its2))).
      2:{ unfold lenN. rewrite app_length. cbn [length]. reflexivity. }
      exact (repeat_bad _ _ _ _ _ _ _ X E).
    - intros NL PR K0 EQ ws W ND BK. pose proof (ft_words_small lossy f ws O W) as [_ LW].
      destruct (ft_vocab_read pf T config_table lossy f c ws tail p O NL PR K0 W) as (p' & E).
      assert (read_ft_vocab pf c lossy (mkStream (ft_head f ++ flat_map ft_entry_bytes (ff_entries f) ++ tail) p) = (Ok (ft_vocab_of c ws), mkStream tail p')) as E2.
      { rewrite E. unfold Stream.bind, lift. rewrite (ft_indexer_ok _ BK), (proj1 (ft_sub_new pf T config_table c ws LW BK) ND). reflexivity. }
      rewrite (dbind_ok _ _ _ _ _ (same_Ok _ _ _ _ _ (same_ft_vocab pf c lossy) E2)). destruct (K2 (ft_vocab_of c ws)) as (k3 & -> & K3).
      unfold tail. rewrite (dbind_ok _ _ _ _ _ (ea_full _ _ _ _ _ (eats_u8 false _ _ LQ) _ _)), EQ, K3. eexists. split; reflexivity.
  Qed.
End Texts.
