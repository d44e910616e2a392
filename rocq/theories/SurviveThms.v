(** * What survives writing and reading (stated in P_Convert.v).

    The round trips (FileThms.v, TextThms.v, BinaryThms.v) hold under
    conditions on the embeddings.  Here the conditions are shown to be
    necessary, and the writers are shown not to enforce them. *)
From Verif Require Import Base BaseFacts Utf8 Utf8Facts Stream StreamFacts F32 ChunkIO Subword Vocab Storage Embeddings TextIO FileSpec VocabSpec
  ChunkFacts VocabFacts StorageFacts FileFacts ReadFacts FileThms FileExact LookupFacts EmbSpec EmbFacts TextSpec TextFacts TextThms BinaryThms LossyFacts
  FloretThms TextExactSpec TextExact FastText FastTextSpec FastTextFacts FastTextThms FastTextExactSpec FastTextExact RewriteThms.
Local Open Scope N_scope.

(** ** finalfusion files *)

(** Without a limit on the device, [w] succeeds. *)
Definition works {A} (w : writer A) : Prop :=
  forall base out, exists a more, w (mkSink base out None) = (Ok a, mkSink base (out ++ more) None).

Lemma works_ret {A} (a : A) : works (ret a).
Proof. intros base out. exists a, []. rewrite app_nil_r. reflexivity. Qed.
Lemma works_wposition : works wposition.
Proof. intros base out. exists (base + lenN out), []. rewrite app_nil_r. reflexivity. Qed.
Lemma works_write_bytes bs : works (write_bytes bs).
Proof. intros base out. exists tt, bs. reflexivity. Qed.
Lemma works_bind {A B} (m : writer A) (k : A -> writer B) : works m -> (forall a, works (k a)) -> works (bind m k).
Proof.
  intros HM HK base out. destruct (HM base out) as (a & more & E). destruct (HK a base (out ++ more)) as (b & more' & E').
  exists b, (more ++ more'). unfold bind. rewrite E, E', app_assoc. reflexivity.
Qed.
Lemma works_for_each {A} (l : list A) (f : A -> writer unit) : (forall a, works (f a)) -> works (for_each l f).
Proof.
  intros H. induction l as [|a l IH]; cbn [for_each]; [apply works_ret|].
  apply works_bind; [apply H|intros _; exact IH].
Qed.

Ltac wk :=
  repeat (match goal with
  | |- works (bind _ _) => apply works_bind; [|intros ?]
  | |- works (ret _) => apply works_ret
  | |- works wposition => apply works_wposition
  | |- works (write_bytes _) => apply works_write_bytes
  | |- works (write_u8 _) => apply works_write_bytes
  | |- works (write_u32 _) => apply works_write_bytes
  | |- works (write_u64 _) => apply works_write_bytes
  | |- works (for_each _ _) => apply works_for_each; intros ?
  | |- works (match ?x with _ => _ end) => destruct x
  end).

Lemma works_f32s l : works (write_f32s l).
Proof. unfold write_f32s. wk. Qed.
Lemma works_items l : works (write_items l).
Proof. unfold write_items, write_string. wk. Qed.

Definition in_memory (s : storage_wrap) : Prop :=
  match s with SNdArray _ | SQuantized _ => True | _ => False end.
Definition not_explicit (v : vocab_wrap) : Prop :=
  match v with VExplicit _ => False | _ => True end.

Lemma works_storage s : in_memory s -> works (write_storage_wrap s).
Proof.
  destruct s; intros []; cbn [write_storage_wrap]; unfold write_ndarray, write_quantized; wk; apply works_f32s.
Qed.
Lemma works_vocab v : not_explicit v -> works (write_vocab_wrap v).
Proof.
  destruct v; intros []; cbn [write_vocab_wrap]; unfold write_bucketed, write_floret, write_simple, write_string; wk; apply works_items.
Qed.

Lemma file_writes T (e : emb T) base : in_memory (em_storage e) -> not_explicit (em_vocab e) ->
  exists bytes, run_writer (write_file T e) base = Ok bytes.
Proof.
  intros HS HV. assert (works (write_file T e)) as W.
  { unfold write_file, write_embeddings, write_header, write_metadata, write_norms.
    repeat (match goal with
    | |- works (ck_write vwrap_chunk _) => apply works_vocab; exact HV
    | |- works (ck_write swrap_chunk _) => apply works_storage; exact HS
    | |- works (write_f32s _) => apply works_f32s
    | _ => progress wk
    end). }
  destruct (W base []) as (a & more & E). exists ([] ++ more). unfold run_writer. rewrite E. reflexivity.
Qed.

(** Exactly the constructible embeddings are found again. *)
Lemma file_survives pf T (e : emb T) base bytes : toml_law T ->
  (forall t, em_meta e = Some t -> lenN (toml_print T t) <= isize_max) ->
  run_writer (write_file T e) base = Ok bytes ->
  (exists s', read_file pf T (mkStream bytes base) = (Ok e, s')) <-> emb_built pf T e (em_storage e).
Proof.
  intros TL HM HW. split.
  - intros (s' & H). eapply read_file_built; eauto.
  - intros EB. destruct (file_round_trip pf T e (em_storage e) base TL EB) as (bytes' & HW' & HR).
    destruct (HR [] (fun _ => not_norms_nil)) as (s' & E). rewrite HW in HW'. injection HW' as <-.
    rewrite app_nil_r, loaded_self in E. eauto.
Qed.

Lemma vocab_built_words pf v : vocab_built pf v -> Forall str_ok (v_words wrap_ops v).
Proof.
  intros H. destruct H as [ws v [W _] E|ws mn mx exp ix v [W _] _ _ _ E|ws mn mx n ix v [W _] _ _ _ E|ws mn mx ix v [W _] _ _ _ _ _ E|mn mx nb nh seed bow eow ix v _ _ _ _ _ _ _ E].
  - apply simple_new_Ok in E as [_ ->]. exact W.
  - apply sub_new_Ok in E as (_ & -> & _). exact W.
  - apply sub_new_Ok in E as (_ & -> & _). exact W.
  - apply sub_new_Ok in E as (_ & -> & _). exact W.
  - apply sub_new_Ok in E as (_ & -> & _). constructor.
Qed.

(** A word whose length does not fit the length field is written, but the
    embeddings are not found again. *)
Lemma file_long_word pf T (e : emb T) base : toml_law T ->
  (forall t, em_meta e = Some t -> lenN (toml_print T t) <= isize_max) ->
  in_memory (em_storage e) -> not_explicit (em_vocab e) ->
  Exists (fun w => two32 <= lenN w) (v_words wrap_ops (em_vocab e)) ->
  exists bytes, run_writer (write_file T e) base = Ok bytes /\
  forall s', read_file pf T (mkStream bytes base) <> (Ok e, s').
Proof.
  intros TL HM HS HV HL. destruct (file_writes T e base HS HV) as (bytes & HW). exists bytes. split; [exact HW|].
  intros s' H. destruct (proj1 (file_survives pf T e base bytes TL HM HW) (ex_intro _ _ H)) as [VB _ _ _].
  apply vocab_built_words in VB. rewrite Exists_exists in HL. destruct HL as (w & I & L).
  rewrite Forall_forall in VB. destruct (VB w I) as [_ K]. lia.
Qed.

(** ** Text files *)

(** Whatever is read, is such that it can be written. *)
Lemma read_text_words P lossy data items : text_items P lossy data items -> Forall text_word (map fst items).
Proof.
  intros T. pose proof (words_valid P lossy data items T) as V. destruct T as (ls & _ & F). revert V.
  induction F as [|l it ls items (s & ps & _ & HF & _) F IH]; intros V; [constructor|]. inversion V; subst. cbn [map].
  constructor; [|apply IH; assumption]. inversion HF; subst. split; [assumption|split; assumption].
Qed.

Lemma Forall2_diag {A} (R : A -> A -> Prop) l : Forall2 R l l -> Forall (fun x => R x x) l.
Proof. induction l; intros H; inversion H; subst; constructor; auto. Qed.

Section TextSurvives.
  Context (P : ftext_ops) (law : ftext_law P) (pf : profile) {Md : Type}.

  (** The number is found again. *)
  Definition kept (x : f32) : Prop := ft_parse P (ft_print P x) = Some x.
  Definition all_kept (l : list (str * list f32)) : Prop := Forall (fun it => Forall kept (snd it)) l.

  Lemma kept_number x : f32_is_nan x = false -> kept x.
  Proof. intros H. destruct (law x) as [(y & E & K & _) _]. unfold kept. rewrite E, (K H). reflexivity. Qed.

  Lemma text_file_lines l : Forall text_word (map fst l) -> lines (text_file P l) (map (line_of P) l).
  Proof.
    induction l as [|[w v] l IH]; intros W; [constructor|]. inversion W; subst. cbn [text_file flat_map map fst snd].
    rewrite text_line_of_eq, <- app_assoc. constructor; [apply line_of_newline; auto|]. apply IH. auto.
  Qed.
  Lemma text_file_kept lossy l : Forall text_word (map fst l) -> all_kept l -> text_items P lossy (text_file P l) l.
  Proof.
    intros W K. exists (map (line_of P) l). split; [apply text_file_lines; exact W|].
    induction K as [|it l K KL IH]; [constructor|]. inversion W; subst. cbn [map]. constructor; [|apply IH; assumption].
    exists (line_of P it), (map (ft_print P) (snd it)). assert (utf8_valid (line_of P it) = true) as V by (apply line_of_valid; assumption).
    split; [|split].
    - unfold decodes. destruct lossy; [rewrite from_utf8_lossy_id by exact V; reflexivity|auto].
    - apply line_of_fields; assumption.
    - clear - K. induction K; constructor; auto.
  Qed.
  Lemma text_file_back lossy l items : Forall text_word (map fst l) -> text_items P lossy (text_file P l) items ->
    Forall2 (fun it it' => fst it' = fst it /\ Forall2 (fun x y => ft_parse P (ft_print P x) = Some y) (snd it) (snd it')) l items.
  Proof.
    intros W (ls & L & F). apply (lines_unique _ _ (text_file_lines l W)) in L. subst ls. clear - law W F.
    revert items F. induction l as [|it l IH]; intros items F; cbn [map] in F; inversion F; subst; [constructor|]. inversion W; subst.
    constructor; [|apply IH; assumption]. match goal with H : line_item _ _ _ _ |- _ => destruct H as (s & ps & D & HF & PS) end.
    assert (utf8_valid (line_of P it) = true) as V by (apply line_of_valid; assumption).
    assert (s = line_of P it) as ->.
    { unfold decodes in D. destruct lossy; [rewrite from_utf8_lossy_id in D by exact V; exact D|apply D]. }
    assert (fst it :: map (ft_print P) (snd it) = fst y :: ps) as E.
    { rewrite <- (fields_exact _ _ HF). symmetry. apply fields_exact. apply line_of_fields; assumption. }
    injection E as E1 <-. split; [auto|]. clear - PS. revert PS. generalize (snd y) as ys. generalize (snd it) as xs.
    induction xs as [|x xs IH]; intros ys F; cbn [map] in F; inversion F; subst; constructor; auto.
  Qed.

  (** [read_embeds] finds exactly the words and numbers that are kept. *)
  Lemma embeds_survive shape lossy l cols pos : NoDup (map fst l) -> Forall (fun it => lenN (snd it) = cols) l ->
    shape_agrees shape (lenN l) cols -> shape_fits shape ->
    (exists (e' : embeddings Md simple_vocab (array2 f32) f32) s', read_embeds P pf shape lossy (mkStream (text_file P l) pos) = (Ok e', s') /\ raw_result e' cols l) <->
    l <> [] /\ Forall text_word (map fst l) /\ all_kept l.
  Proof.
    intros ND LC A F. split.
    - intros (e' & s' & R & SN & ST & _). apply read_embeds_inv in R as (items & d & T & NE & _ & L & _ & SN' & C & CC & LR & FR & _).
      cbn [s_rest] in T. assert (map fst items = map fst l) as WE.
      { apply simple_new_Ok in SN as [_ SN]. apply simple_new_Ok in SN' as [_ SN']. rewrite SN in SN'.
        apply (f_equal sm_words) in SN'. symmetry. exact SN'. }
      pose proof (read_text_words _ _ _ _ T) as W. rewrite WE in W.
      split; [intros ->; destruct items; [congruence|discriminate]|]. split; [exact W|].
      pose proof (text_file_back lossy l items W T) as B.
      assert (map snd l = map snd items) as SE.
      { rewrite ST in CC, LR, FR, C. cbn [a2_rows a2_cols] in CC, LR, FR, C. subst d.
        eapply equal_lines; [|exact FR|exact LR|exact CC]. clear - B LC. revert LC. induction B as [|it it' l items (_ & H) B IH]; intros LC; [constructor|].
        inversion LC; subst. constructor; [|apply IH; assumption]. symmetry. unfold lenN. f_equal. clear - H. induction H; cbn; congruence. }
      clear - B SE. unfold all_kept. revert SE. induction B as [|it it' l items (_ & H) B IH]; intros SE; [constructor|].
      cbn [map] in SE. injection SE as E SE. constructor; [|apply IH; exact SE]. rewrite <- E in H.
      exact (Forall2_diag _ _ H).
    - intros (NE & W & K). destruct (read_embeds_items P pf (Md := Md) shape lossy (mkStream (text_file P l) pos) l cols) as (v & SV & E); auto.
      + apply text_file_kept; assumption.
      + rewrite flat_map_snd. rewrite (concat_lenN cols) by (apply Forall_map; exact LC). rewrite lenN_map. reflexivity.
      + do 2 eexists. split; [exact E|]. split; [exact SV|]. cbn [em_storage em_norms em_meta]. split; [|auto]. f_equal. rewrite flat_map_snd.
        apply unflattenN_concat; [rewrite lenN_map; reflexivity|]. apply Forall_map. exact LC.
  Qed.
End TextSurvives.

(** ** Words of word2vec files *)

Lemma trims_self s w : trims s w -> trims w w.
Proof.
  intros (a & cs & b & _ & SC & -> & _ & _ & H1 & H2). exists [], cs, []. rewrite app_nil_r. cbn [app].
  split; [reflexivity|]. split; [|repeat split; auto].
  rewrite !forallb_app in SC. apply andb_prop in SC as [_ SC]. apply andb_prop in SC as [SC _]. exact SC.
Qed.
Lemma trims_in s w b : trims s w -> In b w -> In b s.
Proof.
  intros (a & cs & c & -> & _ & -> & _) I. unfold utf8_encode in *. rewrite !flat_map_app. apply in_or_app. right. apply in_or_app. left. exact I.
Qed.
Lemma read_binary_words lossy d data l rest : binary_items lossy d data l rest -> Forall binary_word (map fst l).
Proof.
  induction 1 as [|name s w v r l rest NI D T _ _ IH]; [constructor|]. cbn [map fst]. constructor; [|exact IH].
  split; [|eapply trims_self; exact T]. intros I. apply NI. apply (trims_in _ _ _ T) in I.
  unfold decodes in D. destruct lossy; [subst s; apply lossy_in in I; [exact I|reflexivity]|destruct D as [-> _]; exact I].
Qed.

Section WriterSurvives.
  Context (P : ftext_ops) (law : ftext_law P) {Md S : Type} (SO : storage_ops f32 S) (pf : profile).
  Variables (e : embeddings Md vocab_wrap S f32) (cols : N) (rows : list (list f32)).
  Hypothesis made : emb_made SO pf e cols rows.
  Hypothesis norms : norms_fit e.

  Lemma text_survives un lossy base : exists l out, output_items un e rows l /\ run_writer (write_text P wrap_ops SO un e) base = Ok out /\
    ((exists e' : embeddings Md simple_vocab (array2 f32) f32, run_reader (read_text_raw P pf lossy) out = Ok e' /\ raw_result e' cols l) <->
     v_words wrap_ops (em_vocab e) <> [] /\ Forall text_word (v_words wrap_ops (em_vocab e)) /\ all_kept P l).
  Proof.
    destruct (emits_text P SO pf e cols rows made norms un) as (l & O & E). exists l. eexists. split; [exact O|].
    split; [apply (emits_run _ _ base E)|]. unfold fconst.
    destruct (output_words SO pf e cols rows made un l O) as [ND L].
    pose proof (embeds_survive P law pf (Md := Md) None lossy l cols 0 ND (output_width SO pf e cols rows made un l O) I I) as H.
    rewrite <- (proj1 O). split.
    - intros (e' & R & RR). unfold run_reader, read_text_raw in R.
      destruct (read_embeds P pf None lossy (mkStream (text_file P l) 0)) as [r s'] eqn:ER. cbn [fst] in R. subst r.
      destruct (proj1 H) as (H1 & H2 & H3); [eauto|]. split; [destruct l; [congruence|discriminate]|auto].
    - intros (H1 & H2 & H3). destruct (proj2 H) as (e' & s' & R & RR); [split; [intros ->; apply H1; reflexivity|auto]|].
      exists e'. split; [|exact RR]. unfold run_reader, read_text_raw. rewrite R. reflexivity.
  Qed.

  Lemma text_dims_survives un lossy base : dims_fit (v_words_len wrap_ops (em_vocab e)) cols -> cols < two64 ->
    exists l out, output_items un e rows l /\ run_writer (write_text_dims P wrap_ops SO un e) base = Ok out /\
    ((exists e' : embeddings Md simple_vocab (array2 f32) f32, run_reader (read_text_dims_raw P pf lossy) out = Ok e' /\ raw_result e' cols l) <->
     v_words wrap_ops (em_vocab e) <> [] /\ Forall text_word (v_words wrap_ops (em_vocab e)) /\ all_kept P l).
  Proof.
    intros DF B2. destruct (emits_text_dims P SO pf e cols rows made norms un) as (l & O & E). exists l. eexists. split; [exact O|].
    split; [apply (emits_run _ _ base E)|]. unfold fconst.
    destruct (output_words SO pf e cols rows made un l O) as [ND L]. rewrite <- L in *.
    assert (lenN l < two64) as B1 by (destruct DF as [D1 _]; unfold isize_max, two64 in *; lia).
    destruct (reads_dims (lenN l) cols B1 B2 (fun n d => read_embeds (Md := Md) P pf (Some (n, d)) lossy) (text_file P l) 0) as (pos & EQ).
    pose proof (embeds_survive P law pf (Md := Md) (Some (lenN l, cols)) lossy l cols pos ND (output_width SO pf e cols rows made un l O) (conj eq_refl eq_refl) DF) as H.
    unfold run_reader, read_text_dims_raw. rewrite EQ, <- (proj1 O). split.
    - intros (e' & R & RR).
      destruct (read_embeds P pf (Some (lenN l, cols)) lossy (mkStream (text_file P l) pos)) as [r s'] eqn:ER. cbn [fst] in R. subst r.
      destruct (proj1 H) as (H1 & H2 & H3); [eauto|]. split; [destruct l; [congruence|discriminate]|auto].
    - intros (H1 & H2 & H3). destruct (proj2 H) as (e' & s' & R & RR); [split; [intros ->; apply H1; reflexivity|auto]|].
      exists e'. split; [|exact RR]. rewrite R. reflexivity.
  Qed.

  Lemma binary_survives un lossy base : binary_fits (v_words_len wrap_ops (em_vocab e)) cols -> cols <> 0 -> cols < two64 ->
    exists l out, output_items un e rows l /\ run_writer (write_word2vec wrap_ops SO un e) base = Ok out /\
    ((exists e' : embeddings Md simple_vocab (array2 f32) f32, run_reader (read_word2vec_raw pf lossy) out = Ok e' /\ raw_result e' cols l) <->
     Forall binary_word (v_words wrap_ops (em_vocab e))).
  Proof.
    intros F C0 Lc. destruct (emits_binary SO pf e cols rows made norms un) as (l & O & E). exists l. eexists. split; [exact O|].
    split; [apply (emits_run _ _ base E)|]. split.
    - intros (e' & R & RR). unfold run_reader in R. destruct (read_word2vec_raw pf lossy _) as [r s'] eqn:ER in R. cbn [fst] in R. subst r.
      pose proof RR as (SN & ST & _). rewrite <- (proj1 O). destruct l as [|it l]; [constructor|].
      apply read_binary_inv in ER as (n & d & rest & l' & _ & B & _ & _ & SN' & ST' & _).
      + apply simple_new_Ok in SN as [_ SN]. apply simple_new_Ok in SN' as [_ SN']. rewrite SN in SN'. injection SN' as _ WE.
        change (map fst (it :: l)) with (fst it :: map fst l). rewrite WE. eapply read_binary_words. exact B.
      + rewrite ST. unfold a2_nrows. cbn [a2_rows map]. rewrite lenN_cons. lia.
      + rewrite ST. exact C0.
    - intros W. destruct (binary_round_trip SO pf e cols rows made norms W un lossy base F Lc) as (l' & out' & O' & E' & R & _).
      assert (l' = l) as -> by (symmetry; eapply output_items_fun; eauto). rewrite (emits_run _ _ base E) in E'.
      assert (out' = fconst (dims_bytes (v_words_len wrap_ops (em_vocab e)) cols ++ flat_map binary_entry l) base) as -> by congruence. exact R.
  Qed.
End WriterSurvives.

(** ** floret files *)
Lemma numeral_word i : text_word (dec_print i).
Proof.
  destruct (dec_print_numeral i) as (ds & DN & DF & _ & DT). split; [|split].
  - intros K. rewrite K in DT. destruct ds; [contradiction|]. destruct DT; discriminate.
  - apply Forall_forall. intros b Hb. apply dec_print_range in Hb. apply printable_nonblank. lia.
  - eapply numeral_valid, dec_print_numeral.
Qed.

Section FloretRows.
  Context (P : ftext_ops) (law : ftext_law P).
  Definition numbered n (rows : list (list f32)) : list (str * list f32) := map (fun '(i, v) => (dec_print i, v)) (enumerate_from n rows).
  Lemma numbered_words n rows : Forall text_word (map fst (numbered n rows)).
  Proof. revert n. induction rows as [|r rows IH]; intros n; constructor; [apply numeral_word|apply IH]. Qed.
  Lemma numbered_bytes rows : forall n, flat_map (fun '(i, v) => floret_row_bytes P i v) (enumerate_from n rows) = text_file P (numbered n rows).
  Proof.
    induction rows as [|r rows IH]; intros n; [reflexivity|]. unfold text_file, numbered in *. cbn [enumerate_from flat_map map fst snd]. rewrite IH.
    rewrite text_line_of_eq. unfold floret_row_bytes, line_of. cbn [fst snd]. rewrite <- !app_assoc. cbn [app]. reflexivity.
  Qed.
  Lemma floret_rows_kept rows dims n : Forall (fun r => lenN r = dims) rows ->
    (floret_rows P dims (text_file P (numbered n rows)) rows <-> Forall (Forall (kept P)) rows).
  Proof.
    intros W. split.
    - intros (ls & L & F). apply (lines_unique _ _ (text_file_lines P law _ (numbered_words n rows))) in L. subst ls. revert n F.
      induction rows as [|r rows IH]; intros n F; [constructor|]. unfold numbered in F. cbn [enumerate_from map] in F. inversion W; subst. inversion F; subst. clear F.
      constructor; [|eapply IH; eauto]. clear IH. match goal with H : floret_row _ _ _ _ |- _ => destruct H as (f & ps & _ & HF & PS & _) end.
      pose proof (fields_exact _ _ (line_of_fields P law (dec_print n, r) (numeral_word n))) as E. rewrite (fields_exact _ _ HF) in E. cbn [fst snd] in E.
      injection E as _ ->. clear - PS. apply (Forall2_diag (fun x y => ft_parse P (ft_print P x) = Some y)). revert PS. generalize r at 2 4. 
      induction r as [|x xs IH]; intros ys F; cbn [map] in F; inversion F; subst; constructor; auto.
    - intros K. exists (map (line_of P) (numbered n rows)). split; [apply text_file_lines; [exact law|apply numbered_words]|].
      revert n. induction K as [|r rows K KL IH]; intros n; [constructor|]. inversion W; subst. unfold numbered. cbn [enumerate_from map]. constructor; [|apply IH; assumption].
      exists (dec_print n), (map (ft_print P) r). split; [apply (line_of_valid P law (dec_print n, r)), numeral_word|].
      split; [apply (line_of_fields P law (dec_print n, r)), numeral_word|]. split; [|reflexivity]. clear - K. induction K; constructor; auto.
  Qed.
End FloretRows.

Section FloretSurvives.
  Context (P : ftext_ops) (law : ftext_law P) (pf : profile) {Md : Type}.
  Variable e : embeddings Md (subword_vocab floret_indexer) (array2 f32) f32.
  Variables (ws : list str) (mn mx nb nh seed : N) (ix : floret_indexer) (bow eow : str).
  Hypothesis new_ix : floret_indexer_new nb nh seed = Ok ix.
  Hypothesis new_vocab : sub_new_with_boundaries floret_ops pf ws mn mx ix bow eow = Ok (em_vocab e).
  Hypothesis new_emb : emb_new_with_maybe_norms (sub_ops floret_ops) (nd_ops f32) pf (em_meta e) (em_vocab e) (em_storage e) (em_norms e) = Ok e.
  Hypothesis storage_wf : a2_wf (em_storage e).
  Hypothesis capacity : nb * a2_cols (em_storage e) * 4 <= isize_max.

  Lemma floret_survives base : exists out, run_writer (write_floret_text P pf e) base = Ok out /\
    let rows := dropN (lenN ws) (a2_rows (em_storage e)) in
    ((exists e' : embeddings Md (subword_vocab floret_indexer) (array2 f32) f32, run_reader (read_floret_text P pf) out = Ok e' /\
       floret_result e' nb (a2_cols (em_storage e)) mn mx nh seed bow eow rows) <->
     a2_cols (em_storage e) <> 0 /\ mn <= mx /\ mx < two32 /\ seed < two32 /\ ~ In x20 bow /\ utf8_valid bow = true /\ ~ In x0a eow /\ utf8_valid eow = true /\
     Forall (Forall (kept P)) rows).
  Proof.
    eexists. split; [apply (emits_run _ _ base (emits_floret P pf e ws mn mx nb nh seed ix bow eow new_ix new_vocab new_emb))|]. unfold fconst. cbv zeta.
    destruct (floret_ix nb nh seed ix new_ix) as (_ & NB & NH). destruct (floret_vocab pf e ws mn mx nb nh seed ix bow eow new_ix new_vocab) as (_ & _ & LT).
    destruct (floret_vocab_len pf e ws mn mx nb nh seed ix bow eow new_ix new_vocab new_emb) as (_ & _ & ER).
    assert (nb < two64 /\ a2_cols (em_storage e) < two64) as [LB LC] by (split; [lia|]; unfold isize_max, two64 in *; nia).
    assert (forall n, n < two32 -> n < two64) as T by (unfold two32, two64; lia). assert (nh < two32) as LH by (unfold two32; lia).
    unfold enumerate, subword_rows. rewrite numbered_bytes. set (rows := dropN (lenN ws) (a2_rows (em_storage e))).
    assert (Forall (fun r => lenN r = a2_cols (em_storage e)) rows) as W.
    { apply Forall_forall. intros r HR. pose proof storage_wf as SW. unfold a2_wf in SW. rewrite Forall_forall in SW. apply SW.
      rewrite <- (takeN_dropN (lenN ws) (a2_rows (em_storage e))). apply in_or_app. right. exact HR. }
    assert (mn < two32 -> mx < two32 -> seed < two32 -> ~ In x20 bow -> utf8_valid bow = true -> ~ In x0a eow -> utf8_valid eow = true ->
      floret_head (floret_head_bytes e mn mx nb nh seed bow eow ++ text_file P (numbered 0 rows)) nb (a2_cols (em_storage e)) mn mx nh seed bow eow (text_file P (numbered 0 rows))) as HEAD.
    { intros L1 L2 L3 B1 B2 E1 E2. exists (dec_print nb), (dec_print (a2_cols (em_storage e))), (dec_print mn), (dec_print mx), (dec_print nh), (dec_print seed).
      repeat (split; [apply dec_print_numeral|]). split; [repeat constructor; auto|]. repeat (split; [assumption|]).
      unfold floret_head_bytes. repeat (rewrite <- app_assoc; cbn [app]). reflexivity. }
    split.
    - intros (e' & R & RES).
      destruct (floret_head_exists P pf _ e' R) as (nb' & dims' & mn' & mx' & nh' & seed' & bow' & eow' & rest & H).
      destruct (floret_accepted P pf _ _ _ _ _ _ _ _ _ _ e' H R) as (rows' & (_ & D0 & RG & _) & _ & _ & RES' & _).
      destruct RES as (_ & _ & M1 & M2 & B1 & B2 & IX & ST & _). destruct RES' as (_ & _ & M1' & M2' & B1' & B2' & IX' & ST' & _).
      assert (mn = mn' mod two32) as Emn by congruence. assert (mx = mx' mod two32) as Emx by congruence.
      assert (bow' = bow) as -> by congruence. assert (eow' = eow) as -> by congruence.
      assert (seed = seed' mod two32) as Es by congruence. assert (dims' = a2_cols (em_storage e)) as -> by congruence.
      assert (mn < two32) as L1 by (rewrite Emn; apply N.mod_lt; discriminate). assert (mx < two32) as L2 by (rewrite Emx; apply N.mod_lt; discriminate).
      assert (seed < two32) as L3 by (rewrite Es; apply N.mod_lt; discriminate).
      destruct H as (f1 & f2 & f3 & f4 & f5 & f6 & _ & _ & _ & _ & _ & _ & _ & NI1 & V1 & NI2 & V2 & _).
      split; [exact D0|]. split; [rewrite Emn, Emx; exact RG|]. repeat (split; [assumption|]).
      specialize (HEAD L1 L2 L3 NI1 V1 NI2 V2). destruct (floret_accepted P pf _ _ _ _ _ _ _ _ _ _ e' HEAD R) as (rows'' & _ & RR & _ & RES'' & _).
      destruct RES'' as (_ & _ & _ & _ & _ & _ & _ & ST'' & _). rewrite ST in ST''. injection ST'' as <-.
      apply (floret_rows_kept P law rows _ 0 W). exact RR.
    - intros (D0 & RG & L2 & L3 & NI1 & V1 & NI2 & V2 & K). assert (mn < two32) as L1 by lia. specialize (HEAD L1 L2 L3 NI1 V1 NI2 V2).
      destruct (floret_read_exact P pf (Md := Md) _ _ _ _ _ _ _ _ _ _ rows HEAD) as (e' & E & R).
      + unfold params_ok. rewrite !N.mod_small by auto. auto.
      + exact capacity.
      + apply floret_rows_kept; assumption.
      + unfold rows. rewrite lenN_dropN. unfold a2_nrows in ER. lia.
      + exists e'. split; [exact E|]. rewrite !N.mod_small in R by auto. exact R.
  Qed.
End FloretSurvives.

(** ** fastText files *)
Lemma text_of_delimiter d lossy data w r : bN d < 128 -> text_of d lossy data w r -> ~ In d w.
Proof.
  intros A (f & F & D) I. assert (~ In d f) as NI.
  { inversion F; subst; auto. intros K. match goal with H : ~ In d (_ ++ _) |- _ => apply H end. apply in_or_app. left. exact K. }
  apply NI. unfold decodes in D. destruct lossy; [subst w; apply lossy_in in I; assumption|destruct D as [-> _]; exact I].
Qed.
Lemma ft_words_no_nul lossy n data ws rest : ft_words_of lossy n data ws rest -> Forall (fun w => ~ In x00 w) ws.
Proof.
  induction 1 as [|n data w r ns r' ws rest T _ _ IH]; constructor; [|exact IH]. eapply text_of_delimiter; [|exact T]. reflexivity.
Qed.
Lemma ft_head_range data c size rest : ft_head_of data c size rest -> fc_min_n c < two32 /\ fc_max_n c < two32.
Proof.
  intros (mg & ver & nw & nl & tok & pr & H). unfold config_numbers in H. cbn [app] in H. unfold ft_head_fields in H. do 20 field H. auto.
Qed.

Section FastTextSurvives.
  Context (pf : profile) (T : toml_ops) (config_table : ft_config -> option (toml_table T)) {S : Type} (SO : storage_ops f32 S).
  Variables (e : embeddings (toml_table T) (subword_vocab ft_indexer) S f32) (cols : N) (rows : list (list f32)).

  Lemma ft_vocab_survives lossy base rest : ft_emb_made SO pf e cols rows ->
    lenN (sv_words (em_vocab e)) < two32 -> cols < two32 -> dims_ok [lenN rows; cols] 4 -> (forall c, config_table c <> None) ->
    exists out, run_writer (write_fasttext pf T SO e) base = Ok out /\
    ((exists e', run_reader (read_fasttext pf T config_table lossy) (out ++ rest) = Ok e' /\ em_vocab e' = em_vocab e) <->
     Forall (fun w => ~ In x00 w) (sv_words (em_vocab e)) /\ sv_bow (em_vocab e) = default_bow /\ sv_eow (em_vocab e) = default_eow /\
     sv_min (em_vocab e) < two32 /\ sv_max (em_vocab e) < two32).
  Proof.
    intros Mk LW LC D CT. destruct (ft_writes pf T SO e cols rows Mk base LW LC) as (subs & rows1 & _ & _ & _ & EW).
    eexists. split; [exact EW|]. split.
    - intros (e' & R & EV). apply ft_exact in R. inversion R as [| | | | | | | |c size r0 ws r q r' m n rws tail o HD WS _ _ _ _ _ _ _ MO EO]; subst.
      inversion MO as [| | | | |subs' e'' _ _ (SN & _)]; subst. apply sub_new_Ok in SN as (_ & SN & _). rewrite EV in SN. rewrite SN.
      cbn [sv_words sv_bow sv_eow sv_min sv_max]. split; [eapply ft_words_no_nul; exact WS|]. split; [reflexivity|]. split; [reflexivity|]. eapply ft_head_range; exact HD.
    - intros (NZ & Eb & Ee & Lmn & Lmx).
      destruct (ft_round_trip pf T config_table SO e cols rows lossy base rest Mk LW LC Lmn Lmx D NZ Eb Ee CT) as (subs' & rows1' & rows2 & out' & e' & ns & EW' & R & EV & _).
      rewrite EW in EW'. injection EW' as <-. eauto.
  Qed.
End FastTextSurvives.
