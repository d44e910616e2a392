(** * The readers of other formats without texts. *)
From Coq Require Import Strings.String.
From Verif Require Import Base BaseFacts Utf8 Utf8Facts Stream StreamFacts F32 ChunkIO Subword Vocab VocabFacts Storage
  Embeddings TextIO FastText FileSpec VocabSpec SubwordFacts LookupFacts Messages MessageSpec MessageThms CompatMessages.
Local Open Scope N_scope.

Lemma io_u8 : io_only read_u8. Proof. apply io_bind_ret, io_read_exact. Qed.
Lemma io_until d : io_only (read_until d).
Proof. intros s e s'. unfold read_until. destruct (split_until _ _). destruct (_ && _); congruence. Qed.

Lemma nr_bind2 {A B} (m : res A) (f : A -> res B) : (forall e, m <> Err e) -> (forall a, m = Ok a -> forall e, f a <> Err e) ->
  forall e, rbind m f <> Err e.
Proof. intros H K e. destruct m; cbn [rbind]; try congruence; [apply K; reflexivity|]. exfalso. exact (H _ eq_refl). Qed.
Lemma nr_add64 pf a b : forall e, add64 pf a b <> Err e.
Proof. intros e. unfold add64. destruct (_ <? _); [|destruct pf]; discriminate. Qed.
Lemma nr_div64 a b : forall e, div64 a b <> Err e.
Proof. intros e. unfold div64. destruct (_ =? _); discriminate. Qed.
Lemma nr_emb_maybe {Md V S F} (VO : vocab_ops V) (SO : storage_ops F S) pf md v s ns :
  (forall e, v_vocab_len VO pf v <> Err e) -> forall e, @emb_new_with_maybe_norms Md V S F VO SO pf md v s ns <> Err e.
Proof. intros H e. unfold emb_new_with_maybe_norms. apply nr_bind; [exact H|]. intros n. apply nr_bind; [apply nr_assert|discriminate]. Qed.
Lemma nr_simple_len pf v : forall e, v_vocab_len simple_ops pf v <> Err e.
Proof. discriminate. Qed.
Lemma nr_sub_len {I} (ops : indexer_ops I) pf v : (forall ix e, ix_bound ops pf ix <> Err e) ->
  forall e, v_vocab_len (sub_ops ops) pf v <> Err e.
Proof.
  intros H. cbn [v_vocab_len sub_ops]. unfold sub_vocab_len. apply nr_bind; [apply H|]. intros b. apply nr_add64.
Qed.
Lemma nr_normalize_all {Md F} (o : fops F) pf e0 : forall e, @normalize_all Md F o pf e0 <> Err e.
Proof.
  intros e. unfold normalize_all. destruct (l2_normalize_array _ _) as [rows ns]. unfold emb_new. revert e. apply nr_bind; [apply nr_assert|].
  intros _. apply nr_emb_maybe, nr_simple_len.
Qed.

Ltac same_more := first
  [ apply same_io; first [apply io_u8|apply io_until]
  | apply same_build; apply ne_lift; first [apply nr_add64|apply nr_div64|apply nr_normalize_all|apply nr_emb_maybe, nr_simple_len] ].
Ltac same_all := repeat first [same_step | same_more | apply same_if].

Lemma same_token lossy bs : same (token lossy bs) (if lossy then ret (from_utf8_lossy bs) else if utf8_valid bs then ret bs else fail EFormat).
Proof. unfold token. same_all. Qed.
Lemma same_string_t d lossy : same (read_string_t d lossy) (read_string d lossy).
Proof. unfold read_string_t, read_string. apply same_bind; [same_more|]. intros buf. apply same_token. Qed.
Lemma same_number_t d : same (read_number_t d) (read_number d).
Proof.
  unfold read_number_t, read_number. apply same_bind; [apply same_string_t|]. intros s. destruct (dec_parse s); same_all.
Qed.
Lemma same_shape_vec {F} r c (data : list F) : same (from_shape_vec_t r c data) (lift (from_shape_vec r c data)).
Proof. unfold from_shape_vec_t, from_shape_vec. intros s. destruct (_ =? _); reflexivity. Qed.

Lemma same_lift_bind {A B} (d : D A) (r : res A) (k : A -> D B) (h : A -> res B) : same d (lift r) ->
  (forall a, same (k a) (lift (h a))) -> same (dbind d k) (lift (rbind r h)).
Proof.
  intros H K. apply (same_ext _ (dbind d k) _ (Stream.bind (lift r) (fun a => lift (h a)))); [reflexivity| |apply same_bind; auto].
  intros s. unfold lift, Stream.bind. destruct r; reflexivity.
Qed.
Lemma same_lift_ret {A} (a : A) : same (dret a) (lift (Ok a)).
Proof. intros s. reflexivity. Qed.
Lemma same_lift_fail {A} e : same (@dfail A e) (lift (Err (kind e))).
Proof. intros s. reflexivity. Qed.
Lemma same_lift_token lossy bs : same (token lossy bs)
  (lift (if lossy then Ok (from_utf8_lossy bs) else if utf8_valid bs then Ok bs else Err EFormat)).
Proof. unfold token. intros s. destruct lossy; [reflexivity|]. destruct (utf8_valid bs); reflexivity. Qed.

Section Lines.
  Context (P : ftext_ops).
  Lemma same_floats ps : same (parse_floats_t P ps) (lift (parse_floats P ps)).
  Proof.
    unfold parse_floats. induction ps as [|p ps IH]; cbn [parse_floats_t rmap]; [apply same_lift_ret|].
    destruct (ft_parse P p) as [x|]; cbn [rbind]; [|exact (same_lift_fail _)].
    apply same_lift_bind; [exact IH|]. intros xs. apply same_lift_ret.
  Qed.
  Lemma same_text_line lossy buf : same (text_line_t P lossy buf) (lift (text_line P lossy buf)).
  Proof.
    unfold text_line_t, text_line. apply same_lift_bind; [apply same_lift_token|]. intros line.
    destruct (fields line) as [|w ps]; [exact (same_lift_fail _)|]. apply same_lift_bind; [apply same_floats|].
    intros xs. apply same_lift_ret.
  Qed.
  Lemma same_floret_line dims buf : same (floret_line_t P dims buf) (lift (floret_line P dims buf)).
  Proof.
    unfold floret_line_t, floret_line. destruct (utf8_valid buf); [|exact (same_lift_fail _)].
    apply same_lift_bind; [apply same_floats|]. intros xs. destruct (_ =? _); [apply same_lift_ret|exact (same_lift_fail _)].
  Qed.

  Lemma split_until_shorter d l x y : split_until d l = (x, y) -> x <> [] -> (length y < length l)%nat.
  Proof.
    revert x y. induction l as [|b l IH]; intros x y; cbn [split_until]; [intros [= <- <-]; tauto|].
    destruct (byte_eqb b d); [intros [= <- <-] _; cbn; lia|]. destruct (split_until d l) as [x' y'] eqn:E. intros [= <- <-] _.
    destruct x' as [|c x']; [|specialize (IH _ _ eq_refl ltac:(discriminate)); cbn; lia].
    destruct l as [|c l]; cbn [split_until] in E; [inv E; cbn; lia|].
    destruct (byte_eqb c d); [discriminate|]. destruct (split_until d l). discriminate.
  Qed.
  Lemma until_shorter d s x s' : read_until d s = (Ok x, s') -> x <> [] -> (length (s_rest s') < length (s_rest s))%nat.
  Proof.
    unfold read_until. destruct (split_until d (s_rest s)) as [a b] eqn:E. destruct (_ && _); [discriminate|]. intros [= <- <-] H.
    exact (split_until_shorter _ _ _ _ E H).
  Qed.
  Lemma text_line_stream lossy buf s : snd (text_line_t P lossy buf s) = s.
  Proof. pose proof (same_text_line lossy buf s) as H. unfold lift in H. congruence. Qed.
  Lemma floret_line_stream dims buf s : snd (floret_line_t P dims buf s) = s.
  Proof. pose proof (same_floret_line dims buf s) as H. unfold lift in H. congruence. Qed.

  Definition same_at {A} (d : D A) (m : reader A) s : Prop := (forget (fst (d s)), snd (d s)) = m s.
  Lemma same_at_bind {A B} (d : D A) m (k : A -> D B) (h : A -> reader B) s : same d m ->
    (forall a s', d s = (MOk a, s') -> same_at (k a) (h a) s') -> same_at (dbind d k) (Stream.bind m h) s.
  Proof.
    intros H K. specialize (H s). unfold same_at, dbind, Stream.bind. rewrite <- H.
    destruct (d s) as [[a|e|p] s']; cbn [fst snd forget]; auto. apply K. reflexivity.
  Qed.
  Lemma same_at_bind2 {A B} (d : D A) m (k : A -> D B) (h : A -> reader B) s : same_at d m s ->
    (forall a s', d s = (MOk a, s') -> same_at (k a) (h a) s') -> same_at (dbind d k) (Stream.bind m h) s.
  Proof.
    intros H K. unfold same_at in H. unfold same_at, dbind, Stream.bind. rewrite <- H.
    destruct (d s) as [[a|e|p] s']; cbn [fst snd forget]; auto. apply K. reflexivity.
  Qed.
  Lemma io_until_ok d what s x s' : io (read_until d) what s = (MOk x, s') -> read_until d s = (Ok x, s').
  Proof. unfold io. destruct (read_until d s) as [[a|e|p] t]; congruence. Qed.

  Lemma same_text_lines lossy fuel : forall s, (length (s_rest s) < fuel)%nat ->
    same_at (text_lines_t P fuel lossy) (text_lines P fuel lossy) s.
  Proof.
    induction fuel as [|fuel IH]; intros s L; [lia|]. cbn [text_lines_t text_lines].
    apply same_at_bind; [apply same_io, io_until|]. intros buf s1 E. apply io_until_ok in E.
    destruct buf as [|b buf]; [reflexivity|]. pose proof (until_shorter _ _ _ _ E ltac:(discriminate)) as Sh.
    apply same_at_bind; [apply same_text_line|]. intros wx s2 E2.
    pose proof (text_line_stream lossy (strip_nl (b :: buf)) s1) as X. rewrite E2 in X. cbn [snd] in X. subst s2.
    apply same_at_bind2; [apply IH; lia|]. intros r s3 _. reflexivity.
  Qed.
  Lemma same_read_lines lossy : same (read_lines_t P lossy) (read_lines P lossy).
  Proof. intros s. unfold read_lines_t, read_lines. apply same_text_lines. lia. Qed.
  Lemma same_floret_lines_at dims fuel : forall s, (length (s_rest s) < fuel)%nat ->
    same_at (floret_lines_t P fuel dims) (floret_lines P fuel dims) s.
  Proof.
    induction fuel as [|fuel IH]; intros s L; [lia|]. cbn [floret_lines_t floret_lines].
    apply same_at_bind; [apply same_io, io_until|]. intros buf s1 E. apply io_until_ok in E.
    destruct buf as [|b buf]; [reflexivity|]. pose proof (until_shorter _ _ _ _ E ltac:(discriminate)) as Sh.
    apply same_at_bind; [apply same_floret_line|]. intros wx s2 E2.
    pose proof (floret_line_stream dims (strip_crlf (b :: buf)) s1) as X. rewrite E2 in X. cbn [snd] in X. subst s2.
    apply same_at_bind2; [apply IH; lia|]. intros r s3 _. reflexivity.
  Qed.
  Lemma same_floret_lines dims : same (read_floret_lines_t P dims) (read_floret_lines P dims).
  Proof. intros s. unfold read_floret_lines_t, read_floret_lines. apply same_floret_lines_at. lia. Qed.

  Context (pf : profile) {Md : Type}.
  Lemma same_text_shape sh nw nd : same (text_shape_t sh nw nd) (lift (text_shape sh nw nd)).
  Proof.
    unfold text_shape_t, text_shape. destruct sh as [[n d]|].
    - destruct (negb (nw =? n)); [exact (same_lift_fail _)|]. apply same_lift_bind; [apply same_build, ne_lift, nr_div64|].
      intros q. destruct (negb (q =? d)); [exact (same_lift_fail _)|apply same_lift_ret].
    - apply same_lift_bind; [apply same_build, ne_lift, nr_div64|]. intros q. apply same_lift_ret.
  Qed.
  Lemma same_embeds sh lossy : same (@read_embeds_t P pf Md sh lossy) (read_embeds P pf sh lossy).
  Proof.
    unfold read_embeds_t, read_embeds. apply same_bind; [|intros _].
    { apply same_build. destruct sh as [[n d]|]; [|discriminate]. intros s e s'. unfold Stream.bind, lift.
      destruct (reserve n 24 s) as [[u|e1|p] s1] eqn:E1; [|exfalso; exact (ne_reserve _ _ _ _ _ E1)|discriminate].
      destruct (mul64 pf n d) as [c|e1|p] eqn:E2; [|exfalso; exact (nr_mul64 _ _ _ _ E2)|discriminate]. apply ne_reserve. }
    apply same_bind; [apply same_read_lines|]. intros [ws data].
    apply same_bind; [apply same_text_shape|]. intros shp. apply same_bind; [apply same_shape_vec|]. intros a. same_all.
  Qed.
  Lemma same_read_text lossy : same (@read_text_t P pf Md lossy) (read_text P pf lossy).
  Proof. unfold read_text_t, read_text, read_text_raw. apply same_bind; [apply same_embeds|]. intros e. same_all. Qed.
  Lemma same_text_dims_raw lossy : same (@read_text_dims_raw_t P pf Md lossy) (read_text_dims_raw P pf lossy).
  Proof.
    unfold read_text_dims_raw_t, read_text_dims_raw. apply same_bind; [apply same_number_t|]. intros n.
    apply same_bind; [apply same_number_t|]. intros d. apply same_embeds.
  Qed.
  Lemma same_text_dims lossy : same (@read_text_dims_t P pf Md lossy) (read_text_dims P pf lossy).
  Proof. unfold read_text_dims_t, read_text_dims. apply same_bind; [apply same_text_dims_raw|]. intros e. same_all. Qed.
  Lemma same_word2vec_raw lossy : same (@read_word2vec_raw_t pf Md lossy) (read_word2vec_raw pf lossy).
  Proof.
    unfold read_word2vec_raw_t, read_word2vec_raw. apply same_bind; [apply same_number_t|]. intros n.
    apply same_bind; [apply same_number_t|]. intros d. apply same_bind; [same_all|]. intros _. apply same_bind; [same_all|]. intros _.
    apply same_bind; [|intros es; same_all]. apply same_repeat. unfold read_w2v_entry_t, read_w2v_entry.
    apply same_bind; [apply same_string_t|]. intros w. same_all.
  Qed.
  Lemma same_word2vec lossy : same (@read_word2vec_t pf Md lossy) (read_word2vec pf lossy).
  Proof. unfold read_word2vec_t, read_word2vec. apply same_bind; [apply same_word2vec_raw|]. intros e. same_all. Qed.
  Lemma same_floret_text : same (@read_floret_text_t P pf Md) (read_floret_text P pf).
  Proof.
    unfold read_floret_text_t, read_floret_text. do 6 (apply same_bind; [apply same_number_t|let x := fresh in intros x]).
    do 2 (apply same_bind; [apply same_string_t|intros ?]). do 4 (apply same_if; [exact (same_fail _)|]).
    apply same_bind; [same_all|intros ?]. apply same_bind; [same_all|intros _]. apply same_bind; [apply same_floret_lines|intros data].
    apply same_bind; [apply same_shape_vec|intros arr]. apply same_bind; [same_all|intros ix].
    apply same_bind; [apply same_build, ne_lift, nr_sub_wb; discriminate|intros v].
    apply same_build, ne_lift, nr_emb_maybe, nr_sub_len. discriminate.
  Qed.
End Lines.

(** fastText. *)
Lemma same_loss : same read_loss_t read_loss.
Proof.
  unfold read_loss_t, read_loss. apply same_bind; [same_all|]. intros n.
  destruct n as [|[[p|p|]|[p|p|]|]]; first [apply same_ret|exact (same_fail _)].
Qed.
Lemma same_model : same read_model_t read_model.
Proof.
  unfold read_model_t, read_model. apply same_bind; [same_all|]. intros n.
  destruct n as [|[[p|p|]|[p|p|]|]]; first [apply same_ret|exact (same_fail _)].
Qed.
Lemma same_config : same read_config_t read_config.
Proof.
  unfold read_config_t, read_config. do 6 (apply same_bind; [same_all|intros ?]). apply same_bind; [apply same_loss|intros ?].
  apply same_bind; [apply same_model|intros ?]. same_all.
Qed.
Lemma nr_ft_new n : forall e, ft_indexer_new n <> Err e.
Proof. intros e. unfold ft_indexer_new. apply nr_bind; [apply nr_assert|discriminate]. Qed.
Lemma same_ft_vocab pf c lossy : same (read_ft_vocab_t pf c lossy) (read_ft_vocab pf c lossy).
Proof.
  unfold read_ft_vocab_t, read_ft_vocab. do 3 (apply same_bind; [same_all|intros ?]). apply same_if; [exact (same_fail _)|].
  do 2 (apply same_bind; [same_all|intros ?]). apply same_if; [exact (same_fail _)|]. apply same_bind; [same_all|intros _].
  apply same_bind.
  - apply same_repeat. unfold read_ft_entry_t, read_ft_entry. apply same_bind; [apply same_string_t|intros w]. same_all.
  - intros ws. apply same_bind; [apply same_build, ne_lift, nr_ft_new|intros ix]. apply same_build, ne_lift, nr_sub_wb. discriminate.
Qed.
Lemma nr_index {A} (l : list A) i : forall e, index l i <> Err e.
Proof. intros e. unfold index. destruct (nthN _ _); discriminate. Qed.
Lemma nr_rmap {A B} (f : A -> res B) l : (forall a e, f a <> Err e) -> forall e, rmap f l <> Err e.
Proof.
  intros H. induction l as [|a l IH]; cbn [rmap]; [discriminate|]. apply nr_bind; [apply H|]. intros b.
  apply nr_bind; [exact IH|discriminate].
Qed.
Lemma nr_drain {I} (ops : indexer_ops I) ix g l fuel : (forall q e, ix_index ops ix q <> Err e) -> remaining g l -> (length l < fuel)%nat ->
  forall e, ngi_drain ops fuel (mkNgi None g ix) <> Err e.
Proof.
  intros H R. revert fuel. induction R as [g g' E|g x g' l E R IH]; intros fuel F e;
    (destruct fuel as [|fuel]; [cbn in F; lia|]); cbn [ngi_drain ngi_next ni_string ni_ngrams ni_ix]; rewrite E; cbn [rbind]; [discriminate|].
  destruct (ix_index ops ix x) as [is|e'|p] eqn:X; cbn [rbind]; [|exfalso; exact (H _ _ X)|discriminate].
  apply nr_bind; [|discriminate]. apply IH. cbn in F. lia.
Qed.
Lemma nr_ft_subwords pf v w : forall e, sub_subword_indices ft_ops pf v w <> Err e.
Proof.
  unfold sub_subword_indices. apply nr_bind.
  - unfold str_subword_indices. apply nr_bind; [|discriminate]. unfold subword_indices_with_ngrams, ngi_new.
    set (s := bracket v w). assert (range_ok (sv_min v) (sv_max v) \/ ~ range_ok (sv_min v) (sv_max v)) as [R|R] by (unfold range_ok; lia).
    2:{ rewrite ngrams_new_panics by exact R. discriminate. }
    destruct (utf8_valid s) eqn:V.
    + destruct (ngrams_exact s _ _ V R) as (items & C & _). unfold ngrams_collect in C. apply rbind_Ok_inv in C as (g & E & C).
      apply drain_remaining in C as [RM L]. rewrite E. cbn [rbind ix_scope ft_ops]. apply (nr_drain ft_ops _ g items); [|exact RM|lia].
      intros q e. cbn [ix_index ft_ops]. unfold ft_index. destruct (_ =? _); discriminate.
    + intros e. unfold ngrams_new. destruct (rassert _ _) eqn:R1; [cbn [rbind]|exfalso; exact (nr_assert _ _ _ R1)|discriminate].
      destruct (rassert (_ <=? _) _) eqn:R2; [cbn [rbind]|exfalso; exact (nr_assert _ _ _ R2)|discriminate]. unfold utf8_valid, utf8_decode in V.
      destruct (char_indices s); [discriminate V|discriminate].
  - intros l. apply nr_bind; [apply nr_rmap; intros; apply nr_add64|]. intros [|x l']; discriminate.
Qed.
Lemma nr_add_subwords pf v a : forall e, add_subword_embeddings f32_ops pf v a <> Err e.
Proof.
  unfold add_subword_embeddings. apply nr_rfold. intros b [i w]. unfold add_subwords_step.
  apply nr_bind; [apply nr_ft_subwords|]. intros [is|]; [|discriminate]. apply nr_bind; [apply nr_index|]. intros own.
  apply nr_bind.
  - apply nr_rfold. intros acc j. apply nr_bind; [apply nr_index|discriminate].
  - intros sum. apply nr_bind; [|discriminate]. unfold set_row. apply nr_bind; [apply nr_index|discriminate].
Qed.
Lemma nr_normalize_words {F} (o : fops F) n a : forall e, normalize_words o n a <> Err e.
Proof.
  unfold normalize_words. apply nr_bind; [apply nr_assert|]. intros _ e. destruct (l2_normalize_array _ _). discriminate.
Qed.
Lemma same_fasttext pf T ct te lossy : same (read_fasttext_t pf T ct te lossy) (read_fasttext pf T ct lossy).
Proof.
  unfold read_fasttext_t, read_fasttext. apply same_bind; [same_all|intros m]. apply same_if; [exact (same_fail _)|].
  apply same_bind; [same_all|intros ver]. apply same_if; [exact (same_fail _)|].
  apply same_bind; [apply same_config|intros c]. apply same_bind; [apply same_ft_vocab|intros v].
  apply same_bind; [same_all|intros q]. apply same_if; [exact (same_fail _)|].
  apply same_bind; [unfold read_ft_matrix_t, read_ft_matrix; same_all|intros a0].
  apply same_bind; [apply same_build, ne_lift, nr_add_subwords|intros a1].
  apply same_bind; [apply same_build, ne_lift, nr_normalize_words|intros an].
  apply same_bind; [same_all|intros n]. apply same_if; [exact (same_fail _)|].
  destruct (ct c) as [t|]; [|exact (same_fail _)]. apply same_build, ne_lift. unfold emb_new. apply nr_bind; [apply nr_assert|].
  intros _. apply nr_emb_maybe, nr_sub_len. discriminate.
Qed.

(** All readers together. *)
Theorem compat_erasure (P : ftext_ops) (pf : profile) (Md : Type) (T : toml_ops) (ct : ft_config -> option (toml_table T))
  (te : ft_config -> str) (lossy : bool) :
  same (@read_text_t P pf Md lossy) (read_text P pf lossy) /\
  same (@read_text_dims_t P pf Md lossy) (read_text_dims P pf lossy) /\
  same (@read_word2vec_t pf Md lossy) (read_word2vec pf lossy) /\
  same (@read_floret_text_t P pf Md) (read_floret_text P pf) /\
  same (read_fasttext_t pf T ct te lossy) (read_fasttext pf T ct lossy).
Proof.
  split; [apply same_read_text|]. split; [apply same_text_dims|]. split; [apply same_word2vec|].
  split; [apply same_floret_text|apply same_fasttext].
Qed.
