(** * What the errors say when a device fails in a header or a line, and about
    fastText matrices and metadata. *)
From Coq Require Import Strings.String.
From Verif Require Import Base BaseFacts Utf8 Utf8Facts Stream StreamFacts F32 ChunkIO ChunkFacts Subword Vocab VocabFacts Storage StorageFacts
  Embeddings TextIO FastText FileSpec VocabSpec EmbSpec TextSpec TextFacts TextThms FloretThms FastTextSpec FastTextThms
  Messages MessageSpec MessageThms MessageWrong CompatMessages CompatErasure CompatTexts CompatLines CompatCut CompatFastText.
Local Open Scope N_scope.
Local Open Scope d_scope.

(** ** Headers *)
Definition str_fld (f : list byte) : field := rd (lenN f + 1) "Cannot read string".
Lemma string_device d lossy f pos : ~ In d f -> exists s', read_string_t d lossy (mkBroken f pos true) = (MErr (MRead (txt "Cannot read string")), s').
Proof. intros H. unfold read_string_t, dbind, io. rewrite read_until_broken by exact H. eauto. Qed.
Lemma eats_string d f : ~ In d f -> utf8_valid f = true -> eats true (read_string_t d false) (f ++ [d]) [str_fld f] f.
Proof.
  intros NI V. split.
  - unfold str_fld, rd. cbn [fields_len field_len]. rewrite lenN_app. change (lenN [d]) with 1. lia.
  - intros pos tail. rewrite <- app_assoc. cbn [app]. rewrite string_at by exact NI. unfold token. rewrite V. reflexivity.
  - intros pos i H. rewrite lenN_app in H. change (lenN [d]) with 1 in H. unfold str_fld, rd. cbn [missing]. destruct (N.ltb_spec i (lenN f + 1)); [|lia].
    rewrite takeN_app_le by lia. edestruct (string_device d false (takeN i f) pos) as (s' & E); [|eauto]. intros X. apply NI. exact (in_takeN _ _ _ X).
Qed.
Lemma eats_number d f n : numeral f n -> n < two64 -> ~ 43 <= bN d <= 57 -> eats true (read_number_t d) (f ++ [d]) [str_fld f] n.
Proof.
  intros H L D. assert (~ In d f) as NI by (intros I; apply D; exact (numeral_range _ _ _ H I)).
  unfold read_number_t. rewrite <- (app_nil_r (f ++ [d])). change [str_fld f] with ([str_fld f] ++ []).
  eapply eats_bind; [apply eats_string; [exact NI|exact (numeral_valid _ _ H)]|]. rewrite (proj2 (dec_parse_spec f n)) by auto. apply eats_ret.
Qed.
Definition same_text (e0 : emsg) (f : field) : Prop := match f with Fld _ e => e = e0 | Pad _ => True end.
Lemma missing_same e0 fs i e : Forall (same_text e0) fs -> missing fs i = Some e -> e = e0.
Proof.
  intros H. revert i. induction H as [|[n x|n] fs S H IH]; intros i; cbn [missing]; [discriminate| |].
  - destruct (i <? n); [|apply IH]. intros E. injection E as <-. exact S.
  - apply IH.
Qed.
Lemma cuts_text {A} (d : D A) bs fs rest i : cuts true d bs fs -> Forall (same_text (MRead (txt "Cannot read string"))) fs -> i < lenN bs ->
  fst (d (mkBroken (takeN i (bs ++ rest)) 0 true)) = MErr (MRead (txt "Cannot read string")).
Proof.
  intros C F H. rewrite takeN_app_le by lia. destruct (C 0 i H) as (e & M & E). rewrite E. rewrite (missing_same _ _ _ _ F M). reflexivity.
Qed.
Lemma cuts_ret {A B} b (d : D A) (k : A -> D B) bs fs : cuts b d bs fs -> cuts b (dbind d k) bs fs.
Proof.
  intros C pos i H. destruct (C pos i H) as (e & M & E). exists e. split; [exact M|]. unfold dbind. destruct (d _) as [x s']. cbn [fst] in E. subst x. reflexivity.
Qed.

Section Device.
  Context (P : ftext_ops) (pf : profile) (Md : Type).
  (** Where a device fails in the header, the text says that no string could be read. *)
  Lemma header_device lossy data n d rest i : header_line data n d rest -> i < lenN data - lenN rest ->
    exists e, display e = txt "Cannot read string" /\
    fst (read_text_dims_t (Md := Md) P pf lossy (mkBroken (takeN i data) 0 true)) = MErr e /\
    fst (read_text_dims_raw_t (Md := Md) P pf lossy (mkBroken (takeN i data) 0 true)) = MErr e /\
    fst (read_word2vec_t (Md := Md) pf lossy (mkBroken (takeN i data) 0 true)) = MErr e.
  Proof.
    intros (f & g & N1 & N2 & L1 & L2 & ->) H. exists (MRead (txt "Cannot read string")). split; [reflexivity|].
    replace (f ++ x20 :: g ++ x0a :: rest) with (((f ++ [x20]) ++ (g ++ [x0a])) ++ rest) in * by (rewrite <- !app_assoc; reflexivity).
    rewrite lenN_app in H. replace (_ + lenN rest - lenN rest) with (lenN ((f ++ [x20]) ++ (g ++ [x0a]))) in H by lia.
    assert (forall A (k : N -> N -> D A), cuts true (dbind (read_number_t x20) (fun n => dbind (read_number_t x0a) (k n))) ((f ++ [x20]) ++ (g ++ [x0a])) ([str_fld f] ++ [str_fld g])) as C.
    { intros A k. eapply cuts_bind; [apply eats_number; [exact N1|exact L1|change (bN x20) with 32; lia]|].
      eapply cuts_last. apply eats_number; [exact N2|exact L2|change (bN x0a) with 10; lia]. }
    assert (Forall (same_text (MRead (txt "Cannot read string"))) ([str_fld f] ++ [str_fld g])) as F by (repeat constructor).
    split; [|split]; (eapply cuts_text; [|exact F|exact H]).
    - unfold read_text_dims_t, read_text_dims_raw_t. apply cuts_ret, C.
    - unfold read_text_dims_raw_t. apply C.
    - unfold read_word2vec_t, read_word2vec_raw_t. apply cuts_ret, C.
  Qed.
  Lemma floret_header_device data nb dims mn mx nh seed bow eow rest i : floret_head data nb dims mn mx nh seed bow eow rest ->
    i < lenN data - lenN rest ->
    exists e, display e = txt "Cannot read string" /\ fst (read_floret_text_t (Md := Md) P pf (mkBroken (takeN i data) 0 true)) = MErr e.
  Proof.
    intros (f1 & f2 & f3 & f4 & f5 & f6 & N1 & N2 & N3 & N4 & N5 & N6 & L & B1 & B2 & E1 & E2 & ->) H.
    exists (MRead (txt "Cannot read string")). split; [reflexivity|]. repeat match goal with H : Forall _ (_ :: _) |- _ => inv H end.
    match goal with |- context [takeN i ?x] => replace x with (((f1 ++ [x20]) ++ (f2 ++ [x20]) ++ (f3 ++ [x20]) ++ (f4 ++ [x20]) ++ (f5 ++ [x20]) ++ (f6 ++ [x20])
      ++ (bow ++ [x20]) ++ (eow ++ [x0a])) ++ rest) in * by (rewrite <- !app_assoc; reflexivity) end.
    rewrite lenN_app in H. match type of H with _ < ?x + _ - _ => replace (x + lenN rest - lenN rest) with x in H by lia end.
    eapply cuts_text; [|shelve|exact H]. Unshelve. 2: exact ([str_fld f1] ++ [str_fld f2] ++ [str_fld f3] ++ [str_fld f4] ++ [str_fld f5] ++ [str_fld f6] ++ [str_fld bow] ++ [str_fld eow]).
    2: repeat constructor.
    assert (~ 43 <= bN x20 <= 57) as SP by (change (bN x20) with 32; lia). unfold read_floret_text_t.
    do 6 (eapply cuts_bind; [apply eats_number; eassumption|]). eapply cuts_bind; [apply eats_string; assumption|].
    eapply cuts_last. apply eats_string; assumption.
  Qed.

  (** ** Lines *)
  Definition ended (ls : list (list byte)) : list byte := flat_map (fun l => l ++ [x0a]) ls.
  Lemma lines_device lossy ls part : Forall (fun l => ~ In x0a l /\ exists it, line_item P lossy l it) ls -> ~ In x0a part ->
    forall fuel p, (length (ended ls ++ part) < fuel)%nat ->
    exists s', text_lines_t P fuel lossy (mkBroken (ended ls ++ part) p true) = (MErr (MRead (txt "Cannot read line from embedding file")), s').
  Proof.
    intros G NP. induction G as [|l ls (NI & it & IT) G IH]; intros fuel p L; (destruct fuel as [|fuel]; [lia|]); cbn [text_lines_t].
    - cbn [ended flat_map app]. unfold dbind at 1, io. rewrite read_until_broken by exact NP. eauto.
    - cbn [ended flat_map] in *. fold (ended ls) in *. rewrite <- !app_assoc in *. cbn [app] in *. unfold dbind at 1, io. rewrite read_until_hit by exact NI.
      destruct (l ++ [x0a]) as [|b t] eqn:EB; [destruct l; discriminate|]. rewrite <- EB, strip_nl_hit.
      apply text_line_item in IT. assert (forall s, text_line_t P lossy l s = (MOk it, s)) as TL.
      { intros s. apply (same_Ok _ _ s it s (same_text_line P lossy l)). unfold lift. rewrite IT. reflexivity. }
      rewrite (dbind_ok _ _ _ _ _ (TL _)). rewrite app_length in L. cbn [length] in L.
      destruct (IH fuel (p + lenN (l ++ [x0a])) ltac:(lia)) as (s' & E). exists s'. exact (dbind_err _ _ _ _ _ E).
  Qed.
  Lemma text_device lossy ls part : Forall (fun l => ~ In x0a l /\ exists it, line_item P lossy l it) ls -> ~ In x0a part ->
    exists e, display e = txt "Cannot read line from embedding file" /\
    fst (read_text_t (Md := Md) P pf lossy (mkBroken (ended ls ++ part) 0 true)) = MErr e /\
    (forall data n d, header_line data n d (ended ls ++ part) -> dims_fit n d ->
     fst (read_text_dims_t (Md := Md) P pf lossy (mkBroken data 0 true)) = MErr e).
  Proof.
    intros G NP. exists (MRead (txt "Cannot read line from embedding file")). split; [reflexivity|].
    pose proof (fun p => lines_device lossy ls part G NP (Datatypes.S (length (ended ls ++ part))) p (Nat.lt_succ_diag_r _)) as K. split.
    - destruct (K 0) as (s' & E). unfold read_text_t, read_embeds_t. cbn [build].
      erewrite dbind_err; [reflexivity|]. rewrite (dbind_ok _ _ _ tt (mkBroken (ended ls ++ part) 0 true) eq_refl). eapply dbind_err. exact E.
    - intros data n d (f & g & N1 & N2 & L1 & L2 & ->) [F1 F2].
      destruct (eats_number x20 f n N1 L1) as [_ E1 _]; [change (bN x20) with 32; lia|].
      destruct (eats_number x0a g d N2 L2) as [_ E2 _]; [change (bN x0a) with 10; lia|].
      replace (f ++ x20 :: g ++ x0a :: ended ls ++ part) with ((f ++ [x20]) ++ (g ++ [x0a]) ++ ended ls ++ part) by (rewrite <- !app_assoc; reflexivity).
      unfold read_text_dims_t, read_text_dims_raw_t.
      match goal with |- context [mkBroken _ ?p true] => specialize (E1 p ((g ++ [x0a]) ++ ended ls ++ part)); match type of E1 with _ = (_, mkBroken _ ?q _) => specialize (E2 q (ended ls ++ part)) end end.
      match type of E2 with _ = (_, mkBroken _ ?q _) => destruct (K q) as (s' & E) end.
      erewrite dbind_err; [reflexivity|]. rewrite (dbind_ok _ _ _ _ _ E1), (dbind_ok _ _ _ _ _ E2). unfold read_embeds_t.
      erewrite dbind_ok; [eapply dbind_err; exact E|]. assert (mul64 pf n d = Ok (n * d)) as M.
      { unfold mul64. destruct (N.ltb_spec (n * d) two64); [reflexivity|unfold isize_max, two64 in *; lia]. }
      unfold build, io, Stream.bind. cbv beta iota. rewrite reserve_ok by exact F1. unfold lift. rewrite M. cbv beta iota. rewrite reserve_ok by exact F2. reflexivity.
  Qed.
  Lemma rows_device dims ls part : dims <> 0 -> Forall (fun l => ~ In x0a l /\ exists v, floret_row P dims l v) ls -> ~ In x0a part ->
    forall fuel p, (length (ended ls ++ part) < fuel)%nat ->
    exists s', floret_lines_t P fuel dims (mkBroken (ended ls ++ part) p true) = (MErr (MRead (txt "Cannot read line")), s').
  Proof.
    intros D0 G NP. induction G as [|l ls (NI & it & IT) G IH]; intros fuel p L; (destruct fuel as [|fuel]; [lia|]); cbn [floret_lines_t].
    - cbn [ended flat_map app]. unfold dbind at 1, io. rewrite read_until_broken by exact NP. eauto.
    - cbn [ended flat_map] in *. fold (ended ls) in *. rewrite <- !app_assoc in *. cbn [app] in *. unfold dbind at 1, io. rewrite read_until_hit by exact NI.
      destruct (l ++ [x0a]) as [|b t] eqn:EB; [destruct l; discriminate|]. rewrite <- EB.
      apply (floret_line_row P dims l it D0) in IT. assert (forall s, floret_line_t P dims (strip_crlf (l ++ [x0a])) s = (MOk it, s)) as TL.
      { intros s. rewrite strip_row. apply (same_Ok _ _ s it s (same_floret_line P dims l)). unfold lift. rewrite IT. reflexivity. }
      rewrite (dbind_ok _ _ _ _ _ (TL _)). rewrite app_length in L. cbn [length] in L.
      destruct (IH fuel (p + lenN (l ++ [x0a])) ltac:(lia)) as (s' & E). exists s'. exact (dbind_err _ _ _ _ _ E).
  Qed.
  Lemma floret_device data nb dims mn mx nh seed bow eow ls part : floret_head data nb dims mn mx nh seed bow eow (ended ls ++ part) ->
    params_ok nb dims mn mx nh -> nb * dims * 4 <= isize_max -> Forall (fun l => ~ In x0a l /\ exists v, floret_row P dims l v) ls -> ~ In x0a part ->
    exists e, display e = txt "Cannot read line" /\ fst (read_floret_text_t (Md := Md) P pf (mkBroken data 0 true)) = MErr e.
  Proof.
    intros (f1 & f2 & f3 & f4 & f5 & f6 & N1 & N2 & N3 & N4 & N5 & N6 & L & B1 & B2 & E1 & E2 & ->) PO C G NP.
    exists (MRead (txt "Cannot read line")). split; [reflexivity|]. repeat match goal with H : Forall _ (_ :: _) |- _ => inv H end.
    assert (~ 43 <= bN x20 <= 57) as SP by (change (bN x20) with 32; lia). pose proof PO as (_ & D0 & _).
    pose proof (fun p => rows_device dims ls part D0 G NP (Datatypes.S (length (ended ls ++ part))) p (Nat.lt_succ_diag_r _)) as K.
    match goal with |- context [mkBroken ?x _ _] => replace x with ((f1 ++ [x20]) ++ (f2 ++ [x20]) ++ (f3 ++ [x20]) ++ (f4 ++ [x20]) ++ (f5 ++ [x20]) ++ (f6 ++ [x20])
      ++ (bow ++ [x20]) ++ (eow ++ [x0a]) ++ ended ls ++ part) by (rewrite <- !app_assoc; reflexivity) end.
    unfold read_floret_text_t.
    do 6 (erewrite dbind_ok; [|eapply ea_full, eats_number; eassumption]).
    do 2 (erewrite dbind_ok; [|eapply ea_full, eats_string; eassumption]).
    match goal with |- fst (_ (mkBroken _ ?q _)) = _ => destruct (K q) as (s' & E) end.
    match goal with |- fst (_ ?s) = _ => pose proof (floret_to_rows P pf (Md := Md) nb dims mn mx nh seed bow eow s PO C) as R end.
    unfold floret_tail_t in R. rewrite R. erewrite dbind_err; [reflexivity|exact E].
  Qed.
End Device.

(** ** fastText matrices and metadata *)
Definition plain {A} (d : D A) : Prop := forall s e s', d s = (MErr e, s') -> forall c x, e <> MContext c x.
Lemma plain_bind {A B} (d : D A) (k : A -> D B) : plain d -> (forall a, plain (k a)) -> plain (dbind d k).
Proof. intros H K s e s'. unfold dbind. destruct (d s) as [[a|x|p] t] eqn:E; intros X; [exact (K a _ _ _ X)|injection X as <- <-; exact (H _ _ _ E)|discriminate]. Qed.
Lemma plain_io {A} (m : reader A) what : plain (io m what).
Proof. intros s e s'. unfold io. destruct (m s) as [[a|x|p] t]; intros X; inv X. discriminate. Qed.
Lemma plain_ret {A} (a : A) : plain (dret a).
Proof. discriminate. Qed.
Lemma plain_fail {A} e : (forall c x, e <> MContext c x) -> plain (A := A) (dfail e).
Proof. intros H s e' s' X. inv X. exact H. Qed.
Lemma plain_if {A} (b : bool) (d1 d2 : D A) : plain d1 -> plain d2 -> plain (if b then d1 else d2).
Proof. destruct b; auto. Qed.
Lemma plain_repeat {A} n (m : D A) : plain m -> plain (drepeat n m).
Proof.
  intros H. destruct n as [|p]; [apply plain_ret|]. cbn [drepeat]. induction p as [p IH|p IH|]; cbn [drepeat_pos]; repeat (apply plain_bind; [assumption|intros]); apply plain_ret.
Qed.
Ltac plains := repeat first [apply plain_if|apply plain_io|apply plain_ret|apply plain_fail; discriminate|apply plain_repeat|apply plain_bind; [|intros]].
Lemma plain_string d lossy : plain (read_string_t d lossy).
Proof. unfold read_string_t, token. plains. Qed.
Lemma plain_loss : plain read_loss_t.
Proof. unfold read_loss_t. apply plain_bind; [plains|]. intros n. destruct n as [|[[]|[]|]]; plains. Qed.
Lemma plain_model : plain read_model_t.
Proof. unfold read_model_t. apply plain_bind; [plains|]. intros n. destruct n as [|[[]|[]|]]; plains. Qed.
Section Matrix.
  Context (pf : profile) (T : toml_ops) (config_table : ft_config -> option (toml_table T)) (table_error : ft_config -> str).
  Lemma plain_fasttext lossy : plain (read_fasttext_t pf T config_table table_error lossy).
  Proof.
    unfold read_fasttext_t, read_config_t, read_ft_vocab_t, read_ft_entry_t, read_ft_matrix_t, build.
    repeat first [apply plain_loss|apply plain_model|apply plain_string|apply plain_if|apply plain_io|apply plain_ret|apply plain_fail; discriminate
      |apply plain_repeat|apply plain_bind; [|intros]|destruct (config_table _)].
  Qed.
  (** A matrix with another number of rows. *)
  Lemma ft_wrong_rows lossy f c ws rest : ft_fields_ok f -> ft_supported f -> ft_config_is f c -> ft_words lossy f ws ->
    ft_matrix_ok (ff_matrix f) -> fc_bucket c <> 0 -> fc_bucket c <= i32_max -> NoDup ws -> (ws <> [] -> range_ok (fc_min_n c) (fc_max_n c)) ->
    config_table c <> None ->
    exists v subs, sub_new ft_ops pf ws (fc_min_n c) (fc_max_n c) (mkFtIx (fc_bucket c)) = Ok v /\ subwords_are v subs /\
    (ff_quant f <> 1 -> lenN (a2_rows (ff_matrix f)) <> lenN ws + fc_bucket c -> ~ rows_missing ws subs (lenN (a2_rows (ff_matrix f))) ->
     exists e, ft_fails pf T config_table table_error lossy f rest e /\ display e = txt "Cannot construct matrix with the given shape").
  Proof.
    intros O S C W MO NZ B ND R NN. destruct (ft_outcomes pf T config_table lossy f c ws rest O S C W MO NZ B ND R NN) as (v & subs & H1 & H2 & _ & _ & H3 & _).
    exists v, subs. split; [exact H1|]. split; [exact H2|]. intros Q K M. specialize (H3 Q K M). unfold run_reader in H3.
    destruct (read_fasttext pf T config_table lossy (mkStream (ft_bytes f ++ rest) 0)) as [r s'] eqn:E. cbn [fst] in H3. subst r.
    destruct (same_Err _ _ _ _ _ (same_fasttext pf T config_table table_error lossy) E) as (x & X & KX). exists x. unfold ft_fails. rewrite X.
    split; [reflexivity|]. pose proof (plain_fasttext lossy _ _ _ X) as PL. destruct x; try discriminate KX; [|reflexivity]. exfalso. eapply PL. reflexivity.
  Qed.
End Matrix.

(** The configuration as metadata. *)
Definition config_toml : toml_ops := mkToml ft_config (fun _ => []) (fun _ => None).
Definition config_itself (c : ft_config) : option (toml_table config_toml) := Some c.
Lemma dbind_inv {A B} (d : D A) (k : A -> D B) s b s' : dbind d k s = (MOk b, s') -> exists a s1, d s = (MOk a, s1) /\ k a s1 = (MOk b, s').
Proof. unfold dbind. destruct (d s) as [[a|e|p] s1]; intros H; try discriminate. eauto. Qed.
Lemma no_table pf T ct te te' lossy s e s' : read_fasttext_t pf config_toml config_itself te' lossy s = (MOk e, s') ->
  forall c, em_meta e = Some c -> ct c = None ->
  fst (read_fasttext_t pf T ct te lossy s) = MErr (MFormat (txt "Cannot serialize model metadata to TOML: " ++ te c)).
Proof.
  unfold read_fasttext_t. intros H c M N1.
  apply dbind_inv in H as (x1 & s1 & E1 & H). rewrite (dbind_ok _ _ _ _ _ E1). destruct (negb (x1 =? ft_magic)); [discriminate H|].
  apply dbind_inv in H as (x2 & s2 & E2 & H). rewrite (dbind_ok _ _ _ _ _ E2). destruct (ft_version <? x2); [discriminate H|].
  do 2 (apply dbind_inv in H as (? & ? & E & H); rewrite (dbind_ok _ _ _ _ _ E); clear E).
  apply dbind_inv in H as (q & s3 & E & H); rewrite (dbind_ok _ _ _ _ _ E); clear E. destruct (q =? 1); [discriminate H|].
  do 4 (apply dbind_inv in H as (? & ? & E & H); rewrite (dbind_ok _ _ _ _ _ E); clear E).
  match type of H with context [negb ?b] => destruct (negb b) end; [discriminate H|]. unfold config_itself in H.
  match type of H with build (lift (emb_new _ _ _ (Some ?c') _ _ _)) _ = _ => assert (c' = c) as -> end.
  { unfold build, io, lift in H. match type of H with context [emb_new ?a ?b ?p ?m ?v ?x ?n] => destruct (emb_new a b p m v x n) as [e'|e'|e'] eqn:EE end; try discriminate H.
    injection H as <- <-. unfold emb_new, emb_new_with_maybe_norms in EE. do 3 (apply rbind_Ok_inv in EE as (? & _ & EE)). injection EE as <-. cbn [em_meta] in M. congruence. }
  rewrite N1. reflexivity.
Qed.
Lemma ft_no_metadata (pf : profile) (T : toml_ops) (config_table : ft_config -> option (toml_table T)) (table_error : ft_config -> str) lossy f c ws rest :
  ft_fields_ok f -> ft_supported f -> ft_config_is f c -> ft_words lossy f ws ->
  ft_matrix_ok (ff_matrix f) -> fc_bucket c <> 0 -> fc_bucket c <= i32_max -> NoDup ws -> (ws <> [] -> range_ok (fc_min_n c) (fc_max_n c)) ->
  ff_quant f <> 1 -> lenN (a2_rows (ff_matrix f)) = lenN ws + fc_bucket c -> config_table c = None ->
  exists e, ft_fails pf T config_table table_error lossy f rest e /\
  display e = txt "Invalid file format Cannot serialize model metadata to TOML: " ++ table_error c.
Proof.
  intros O S C W MO NZ B ND R Q K NN.
  destruct (ft_loads pf config_toml config_itself lossy f c ws rest O S C W MO NZ B ND R ltac:(discriminate)) as (_ & _ & _ & H).
  destruct (H Q K) as (e & E & RE). unfold run_reader in E.
  destruct (read_fasttext pf config_toml config_itself lossy (mkStream (ft_bytes f ++ rest) 0)) as [r s'] eqn:X. cbn [fst] in E. subst r.
  apply (same_Ok _ _ _ _ _ (same_fasttext pf config_toml config_itself (fun _ => []) lossy)) in X.
  eexists. split; [eapply (no_table pf T config_table table_error _ lossy _ e s' X c); [|exact NN]|reflexivity]. exact (proj1 (proj2 (proj2 (proj2 (proj2 RE))))).
Qed.
