(** * Lossy readers (C49). *)
From Verif Require Import Base BaseFacts Utf8 Utf8Facts Stream StreamFacts F32 ChunkIO Subword Vocab Storage Embeddings TextIO FileSpec VocabSpec
  ChunkFacts VocabFacts StorageFacts ReadFacts LookupFacts EmbSpec MatrixFacts EmbFacts BatchFacts TextSpec TextFacts BrokenFacts TextThms BinaryThms.
Local Open Scope N_scope.

(** ** Lossy conversion distributes over ASCII bytes *)
Definition step_width (x : ustep) : nat := match x with UChar _ w => w | UBad w => w end.

Lemma ascii_not_cont b : bN b < 128 -> is_cont b = false.
Proof. unfold is_cont. intros H. lia. Qed.
Lemma ascii_not_second3 x b : bN b < 128 -> second3 x (bN b) = false.
Proof. unfold second3. intros H. repeat match goal with |- context [if ?c then _ else _] => destruct c end; lia. Qed.
Lemma ascii_not_second4 x b : bN b < 128 -> second4 x (bN b) = false.
Proof. unfold second4. intros H. repeat match goal with |- context [if ?c then _ else _] => destruct c end; lia. Qed.

Lemma step_ascii l b r : l <> [] -> bN b < 128 -> utf8_step (l ++ b :: r) = utf8_step l.
Proof.
  intros NE H. pose proof (ascii_not_cont b H) as C. pose proof (fun x => ascii_not_second3 x b H) as C3. pose proof (fun x => ascii_not_second4 x b H) as C4.
  destruct l as [|b0 l]; [contradiction|]. unfold utf8_step. cbn [app].
  destruct l as [|b1 l]; [cbn [app]; rewrite C, C3, C4; reflexivity|].
  destruct l as [|b2 l]; [cbn [app]; rewrite C; reflexivity|].
  destruct l as [|b3 l]; [cbn [app]; rewrite C; reflexivity|]. reflexivity.
Qed.
Lemma step_width_le l : l <> [] -> (1 <= step_width (utf8_step l) <= length l)%nat.
Proof.
  destruct l as [|b0 l]; [contradiction|]. intros _. unfold utf8_step.
  repeat match goal with
  | |- context [match ?l with [] => _ | _ => _ end] => is_var l; destruct l
  | |- context [if ?c then _ else _] => destruct c
  end; cbn [step_width length]; lia.
Qed.
Lemma step_bad_width l w : utf8_step l = UBad w -> (w <= 3)%nat.
Proof.
  destruct l as [|b0 l]; cbn [utf8_step]; [intros E; inv E; lia|].
  repeat match goal with
  | |- context [match ?l with [] => _ | _ => _ end] => is_var l; destruct l
  | |- context [if ?c then _ else _] => destruct c
  end; intros E; inv E; lia.
Qed.

Lemma lossy_fuel n : forall m bs, (length bs <= n)%nat -> (length bs <= m)%nat -> from_utf8_lossy_fuel n bs = from_utf8_lossy_fuel m bs.
Proof.
  induction n as [|n IH]; intros m bs L1 L2.
  - destruct bs; [|cbn in L1; lia]. destruct m; reflexivity.
  - destruct bs as [|b bs]; [destruct m; reflexivity|]. destruct m as [|m]; [cbn in L2; lia|]. cbn [from_utf8_lossy_fuel].
    pose proof (step_width_le (b :: bs) ltac:(discriminate)) as W.
    destruct (utf8_step (b :: bs)) as [c w|w] eqn:E; cbn [step_width] in W; rewrite (IH m); auto; rewrite skipn_length; lia.
Qed.
Lemma lossy_unfold bs : bs <> [] -> from_utf8_lossy bs =
  match utf8_step bs with
  | UChar _ w => firstn w bs ++ from_utf8_lossy (skipn w bs)
  | UBad w => replacement ++ from_utf8_lossy (skipn w bs)
  end.
Proof.
  intros NE. destruct bs as [|b bs]; [contradiction|]. unfold from_utf8_lossy at 1. cbn [length from_utf8_lossy_fuel].
  pose proof (step_width_le (b :: bs) NE) as W. unfold from_utf8_lossy.
  destruct (utf8_step (b :: bs)) as [c w|w] eqn:E; cbn [step_width] in W; f_equal; apply lossy_fuel; rewrite skipn_length; cbn [length] in *; lia.
Qed.
Lemma lossy_ascii b r : bN b < 128 -> from_utf8_lossy (b :: r) = b :: from_utf8_lossy r.
Proof.
  intros H. rewrite lossy_unfold by discriminate. unfold utf8_step. destruct (N.ltb_spec (bN b) 128); [|lia]. reflexivity.
Qed.
Lemma lossy_app l b r : bN b < 128 -> from_utf8_lossy (l ++ b :: r) = from_utf8_lossy l ++ b :: from_utf8_lossy r.
Proof.
  intros H. remember (length l) as n eqn:E. assert (length l <= n)%nat as L by lia. clear E. revert l L.
  induction n as [|n IH]; intros l L.
  - destruct l; [|cbn in L; lia]. apply lossy_ascii. exact H.
  - destruct l as [|c l]; [apply lossy_ascii; exact H|]. assert (c :: l <> []) as NE by discriminate. rewrite (lossy_unfold ((c :: l) ++ b :: r)) by discriminate.
    rewrite step_ascii by auto. rewrite (lossy_unfold (c :: l)) by exact NE.
    pose proof (step_width_le (c :: l) NE) as W. destruct (utf8_step (c :: l)) as [x w|w]; cbn [step_width] in W.
    all: rewrite skipn_app, ?firstn_app; replace (w - length (c :: l))%nat with 0%nat by lia; cbn [skipn firstn]; rewrite ?app_nil_r, IH, <- app_assoc by (rewrite skipn_length; cbn [length] in *; lia); reflexivity.
Qed.
Lemma lossy_length l : (length l <= length (from_utf8_lossy l))%nat.
Proof.
  remember (length l) as n eqn:E. assert (length l <= n)%nat as L by lia. rewrite E. clear E. revert l L.
  induction n as [|n IH]; intros l L.
  - destruct l; [|cbn in L; lia]. cbn. lia.
  - destruct l as [|c l]; [cbn; lia|]. assert (c :: l <> []) as NE by discriminate. rewrite lossy_unfold by exact NE.
    pose proof (step_width_le (c :: l) NE) as W. destruct (utf8_step (c :: l)) as [x w|w] eqn:ES; cbn [step_width] in W; rewrite app_length.
    + specialize (IH (skipn w (c :: l))). rewrite skipn_length in IH. rewrite firstn_length. lia.
    + specialize (IH (skipn w (c :: l))). rewrite skipn_length in IH. apply step_bad_width in ES. cbn [replacement length] in *. lia.
Qed.
Lemma valid_iff_lossy l : utf8_valid l = true <-> from_utf8_lossy l = l.
Proof. split; [apply from_utf8_lossy_id|]. intros <-. apply from_utf8_lossy_valid. Qed.
Lemma valid_split l b r : bN b < 128 -> utf8_valid (l ++ b :: r) = true <-> utf8_valid l = true /\ utf8_valid r = true.
Proof.
  intros H. rewrite !valid_iff_lossy, lossy_app by exact H. split.
  - intros E. assert (length (from_utf8_lossy l) = length l) as EL.
    { apply (f_equal (@length byte)) in E. rewrite !app_length in E. cbn [length] in E. pose proof (lossy_length l). pose proof (lossy_length r). lia. }
    assert (from_utf8_lossy l = l) as E1.
    { apply (f_equal (firstn (length l))) in E. rewrite firstn_app, EL, Nat.sub_diag in E. cbn [firstn] in E.
      rewrite app_nil_r, firstn_all2 in E by lia. rewrite E, firstn_app, Nat.sub_diag, firstn_all. apply app_nil_r. }
    split; [exact E1|]. rewrite E1 in E. apply app_inv_head in E. injection E. auto.
  - intros [-> ->]. reflexivity.
Qed.
Lemma blank_ascii b : blank b -> bN b < 128.
Proof. intros H. repeat (destruct H as [<-|H]; [reflexivity|]). destruct H. Qed.
Lemma fields_valid s fs : has_fields s fs -> utf8_valid s = true -> Forall (fun f => utf8_valid f = true) fs.
Proof.
  induction 1 as [s F|pre f r fs F1 N0 F2 B H IH]; intros V; [constructor|].
  assert (utf8_valid (f ++ r) = true) as V1.
  { clear - F1 V. induction F1 as [|b pre HB F IH]; [exact V|]. apply IH. apply (valid_split [] b) in V as [_ V]; [exact V|apply blank_ascii; exact HB]. }
  destruct r as [|b r].
  - rewrite app_nil_r in V1. constructor; auto.
  - pose proof (blank_ascii b (B b r eq_refl)) as A. apply valid_split in V1 as [Vf Vr]; [|exact A]. constructor; auto. apply IH.
    apply (valid_split [] b r A). auto.
Qed.

Lemma lossy_in b l : bN b < 128 -> In b (from_utf8_lossy l) -> In b l.
Proof.
  intros A. remember (length l) as n eqn:E. assert (length l <= n)%nat as L by lia. clear E. revert l L.
  induction n as [|n IH]; intros l L I; [destruct l; [exact I|cbn in L; lia]|].
  destruct l as [|c l]; [exact I|]. assert (c :: l <> []) as NE by discriminate. rewrite lossy_unfold in I by exact NE.
  pose proof (step_width_le (c :: l) NE) as W.
  assert (forall w, (1 <= w <= length (c :: l))%nat -> In b (from_utf8_lossy (skipn w (c :: l))) -> In b (c :: l)) as R.
  { intros w Hw K. rewrite <- (firstn_skipn w (c :: l)). apply in_or_app. right. apply IH; [rewrite skipn_length; cbn [length] in *; lia|exact K]. }
  destruct (utf8_step (c :: l)) as [x w|w]; cbn [step_width] in W; apply in_app_or in I as [I|I].
  - rewrite <- (firstn_skipn w (c :: l)). apply in_or_app. auto.
  - eapply R; eauto.
  - repeat (destruct I as [<-|I]; [cbn in A; lia|]). destruct I.
  - eapply R; eauto.
Qed.

(** ** Lines *)
Lemma lossy_lines data ls : lines data ls -> lines (from_utf8_lossy data) (map from_utf8_lossy ls).
Proof.
  assert (forall l, ~ In x0a l -> ~ In x0a (from_utf8_lossy l)) as K by (intros l NI I; apply NI; apply lossy_in; [reflexivity|exact I]).
  induction 1 as [|l N0 NI|l r ls NI H IH]; cbn [map].
  - constructor.
  - constructor; auto. intros E. apply N0. pose proof (lossy_length l) as L. rewrite E in L. destruct l; [reflexivity|cbn in L; lia].
  - rewrite lossy_app by reflexivity. constructor; auto.
Qed.
Lemma lines_valid data ls : lines data ls -> utf8_valid data = true <-> Forall (fun l => utf8_valid l = true) ls.
Proof.
  induction 1 as [|l N0 NI|l r ls NI H IH]; [split; auto|split; [auto|intros F; inv F; auto]|].
  rewrite valid_split by reflexivity. rewrite Forall_cons_iff, IH. reflexivity.
Qed.

Section LossyText.
  Context (P : ftext_ops) (pf : profile) {Md : Type}.

  Lemma line_item_lossy l it : line_item P true l it <-> line_item P false (from_utf8_lossy l) it.
  Proof.
    unfold line_item, decodes. split; intros (s & ps & D & H).
    - exists s, ps. split; [|exact H]. rewrite D. split; [reflexivity|apply from_utf8_lossy_valid].
    - exists s, ps. split; [|exact H]. apply D.
  Qed.
  Lemma text_line_lossy l : text_line P true l = text_line P false (from_utf8_lossy l).
  Proof. unfold text_line. rewrite from_utf8_lossy_valid. reflexivity. Qed.
  Lemma text_line_valid lossy l : utf8_valid l = true -> text_line P lossy l = text_line P false l.
  Proof. intros V. unfold text_line. rewrite V. destruct lossy; [rewrite from_utf8_lossy_id by exact V|]; reflexivity. Qed.
  Lemma text_items_lossy data items : text_items P true data items <-> text_items P false (from_utf8_lossy data) items.
  Proof.
    split; intros (ls & L & F).
    - exists (map from_utf8_lossy ls). split; [apply lossy_lines; exact L|]. clear L. induction F; constructor; auto. apply line_item_lossy. auto.
    - destruct (lines_exist data) as (ls' & L'). pose proof (lines_unique _ _ (lossy_lines _ _ L') _ L) as E. exists ls'. split; [exact L'|].
      clear - F E. subst ls. revert items F. induction ls' as [|l ls IH]; intros items F; cbn [map] in F; inv F; constructor; auto. apply line_item_lossy. auto.
  Qed.
  Lemma line_words_valid lossy l it : line_item P lossy l it -> utf8_valid (fst it) = true.
  Proof.
    intros (s & ps & D & H & _). assert (utf8_valid s = true) as V.
    { unfold decodes in D. destruct lossy; [rewrite D; apply from_utf8_lossy_valid|]. destruct D as [-> V]. exact V. }
    pose proof (fields_valid _ _ H V) as F. inv F. auto.
  Qed.
  Lemma words_valid lossy data items : text_items P lossy data items -> Forall (fun w => utf8_valid w = true) (map fst items).
  Proof. intros (ls & _ & F). apply Forall_map. induction F; constructor; auto. eapply line_words_valid; eauto. Qed.

  Lemma rmap_text_line lossy ls : (exists its, rmap (text_line P lossy) ls = Ok its) \/ rmap (text_line P lossy) ls = Err EFormat.
  Proof.
    induction ls as [|l ls IH]; [left; exists []; reflexivity|]. cbn [rmap].
    destruct (text_line_cases P lossy l) as [(it & ->)| ->]; cbn [rbind]; [|right; reflexivity]. destruct IH as [(its & ->)| ->]; cbn [rbind]; eauto.
  Qed.

  (** The result, not the remaining stream, of a reader depends on the items only. *)
  Lemma read_embeds_fst shape lossy lossy' s s' : s_broken s = false -> s_broken s' = false ->
    (forall items, text_items P lossy (s_rest s) items <-> text_items P lossy' (s_rest s') items) ->
    fst (read_embeds (Md := Md) P pf shape lossy s) = fst (read_embeds (Md := Md) P pf shape lossy' s').
  Proof.
    intros BR BR' H. unfold read_embeds.
    set (pre := fun s : stream => match shape with Some (n, dims) => reserve n 24 ;;; c <- lift (mul64 pf n dims) ;; reserve c 4 | None => ret tt end s).
    assert ((exists r, forall s, pre s = (Panic r, s) \/ False) \/ (exists r, forall s, pre s = (Err r, s)) \/ forall s, pre s = (Ok tt, s)) as C.
    { unfold pre. destruct shape as [[n d]|]; [|right; right; reflexivity]. unfold bind, reserve, lift.
      destruct (n * 24 <=? isize_max); [|left; eexists; intros; left; reflexivity]. destruct (mul64 pf n d) as [c|er|pa]; [|right; left; eexists; reflexivity|left; eexists; intros; left; reflexivity].
      destruct (c * 4 <=? isize_max); [right; right; reflexivity|left; eexists; intros; left; reflexivity]. }
    destruct C as [(r & C)|[(r & C)|C]].
    - destruct (C s) as [Cs|[]], (C s') as [Cs'|[]]. unfold bind. fold (pre s). fold (pre s'). rewrite Cs, Cs'. reflexivity.
    - unfold bind. fold (pre s). fold (pre s'). rewrite !C. reflexivity.
    - unfold bind. fold (pre s). fold (pre s'). rewrite !C.
      destruct (read_lines_cases P lossy s BR) as [(items & T)|(N0 & s3 & E)].
      + rewrite (read_lines_items P lossy s items BR T). apply H in T. rewrite (read_lines_items P lossy' s' items BR' T).
        unfold lift. destruct (text_shape _ _ _) as [[n d]| |]; [|reflexivity..]. cbn [fst snd]. destruct (from_shape_vec n d _); [|reflexivity..]. destruct (simple_new _); reflexivity.
      + rewrite E. destruct (read_lines_cases P lossy' s' BR') as [(items & T)|(_ & s4 & E4)]; [exfalso; apply H in T; eapply N0; eauto|]. rewrite E4. reflexivity.
  Qed.

  (** C49: the lossy reader treats the data like the strict reader treats the
      data with replacement characters. *)
  Lemma lossy_is_strict shape data p p' :
    fst (read_embeds (Md := Md) P pf shape true (mkStream data p)) = fst (read_embeds (Md := Md) P pf shape false (mkStream (from_utf8_lossy data) p')).
  Proof. apply read_embeds_fst; [reflexivity..|]. cbn [s_rest]. intros items. apply text_items_lossy. Qed.
  (** C49: and they agree on well-formed data. *)
  Lemma lossy_agrees shape data p : utf8_valid data = true ->
    fst (read_embeds (Md := Md) P pf shape true (mkStream data p)) = fst (read_embeds (Md := Md) P pf shape false (mkStream data p)).
  Proof. intros V. rewrite (lossy_is_strict shape data p p), from_utf8_lossy_id by exact V. reflexivity. Qed.

  (** Ill-formed data is an error for the strict reader. *)
  Lemma strict_rejects shape data p e s' : read_embeds (Md := Md) P pf shape false (mkStream data p) = (Ok e, s') -> utf8_valid data = true.
  Proof.
    intros H. apply read_embeds_inv in H as (items & d & (ls & L & F) & _). cbn [s_rest] in L. apply (lines_valid _ _ L).
    clear L. induction F as [|l it ls items H F IH]; constructor; auto. destruct H as (s & ps & [_ V] & _). exact V.
  Qed.
  Lemma embeds_words_valid shape lossy s e s' : read_embeds (Md := Md) P pf shape lossy s = (Ok e, s') ->
    Forall (fun w => utf8_valid w = true) (v_words simple_ops (em_vocab e)).
  Proof.
    intros H. apply read_embeds_inv in H as (items & d & T & _ & _ & _ & _ & V & _). apply simple_new_Ok in V as [_ ->]. cbn [v_words simple_ops sm_words].
    eapply words_valid; eauto.
  Qed.
End LossyText.

(** ** Readers with a strict and a lossy version: they do the same unless the
    strict one reports a malformed file. *)
Definition relaxes {A} (strict lossy : reader A) : Prop :=
  forall s, strict s = lossy s \/ exists s', strict s = (Err EFormat, s').

Lemma relaxes_refl {A} (m : reader A) : relaxes m m.
Proof. intros s. auto. Qed.
Lemma relaxes_bind {A B} (m m' : reader A) (k k' : A -> reader B) :
  relaxes m m' -> (forall a, relaxes (k a) (k' a)) -> relaxes (bind m k) (bind m' k').
Proof.
  intros H K s. unfold bind. destruct (H s) as [E|[s' E]]; rewrite E; [|eauto]. destruct (m' s) as [[a|er|pa] s1]; auto. apply K.
Qed.
Lemma relaxes_repeat {A} n (m m' : reader A) : relaxes m m' -> relaxes (repeat_m n m) (repeat_m n m').
Proof.
  intros H s. rewrite !repeat_m_nat. revert s. generalize (N.to_nat n). clear n. induction n as [|n IH]; intros s; [left; reflexivity|]. cbn [repeat_nat].
  apply relaxes_bind; [exact H|]. intros a. apply relaxes_bind; [exact IH|]. intros l. apply relaxes_refl.
Qed.
Lemma relaxes_string d : relaxes (read_string d false) (read_string d true).
Proof.
  unfold read_string. apply relaxes_bind; [apply relaxes_refl|]. intros buf s. cbv zeta. destruct (utf8_valid (removelast buf)) eqn:V; [|right; eexists; reflexivity].
  left. rewrite from_utf8_lossy_id by exact V. reflexivity.
Qed.
Lemma lossy_string_total d s : s_broken s = false -> exists w s', read_string d true s = (Ok w, s') /\ utf8_valid w = true.
Proof.
  intros BR. unfold read_string, bind, read_until. destruct (split_until d (s_rest s)) as [a r]. rewrite BR. cbn [andb]. do 2 eexists. split; [reflexivity|]. apply from_utf8_lossy_valid.
Qed.
Lemma string_valid d lossy s w s' : read_string d lossy s = (Ok w, s') -> utf8_valid w = true.
Proof.
  unfold read_string. intros H. apply bind_Ok_inv in H as (buf & s1 & _ & H). cbv zeta in H. destruct lossy.
  - injection H as <- _. apply from_utf8_lossy_valid.
  - destruct (utf8_valid (removelast buf)) eqn:V; [|discriminate]. injection H as <- _. exact V.
Qed.

Section LossyBinary.
  Context (pf : profile) {Md : Type}.
  Lemma word2vec_raw_relaxes : relaxes (read_word2vec_raw (Md := Md) pf false) (read_word2vec_raw pf true).
  Proof.
    unfold read_word2vec_raw. repeat (apply relaxes_bind; [solve [apply relaxes_refl]|intros]).
    apply relaxes_bind; [|intros; apply relaxes_refl]. apply relaxes_repeat. unfold read_w2v_entry. apply relaxes_bind; [apply relaxes_string|]. intros w. apply relaxes_refl.
  Qed.
  Lemma word2vec_relaxes : relaxes (read_word2vec (Md := Md) pf false) (read_word2vec pf true).
  Proof. unfold read_word2vec. apply relaxes_bind; [apply word2vec_raw_relaxes|]. intros e. apply relaxes_refl. Qed.

  Lemma binary_items_lossy d data l rest : binary_items true d data l rest -> exists data', binary_items false d data' l rest.
  Proof.
    induction 1 as [rest|name s w v r l rest NI D T L H (data' & IH)]; [exists rest; constructor|]. exists (from_utf8_lossy name ++ x20 :: f32s_bytes v ++ data').
    constructor 2 with (s := s); auto.
    - intros K. apply NI. apply lossy_in; [reflexivity|exact K].
    - cbn in D. subst s. split; [reflexivity|apply from_utf8_lossy_valid].
  Qed.

  Lemma binary_words_valid lossy d data l rest : binary_items lossy d data l rest -> Forall (fun w => utf8_valid w = true) (map fst l).
  Proof. induction 1; cbn [map fst]; constructor; auto. eapply trims_valid; eauto. Qed.

  Lemma repeat_Forall {A} (Q : A -> Prop) n (m : reader A) : (forall s a s', m s = (Ok a, s') -> Q a) ->
    forall s l s', repeat_m n m s = (Ok l, s') -> Forall Q l.
  Proof.
    intros H s l s'. rewrite repeat_m_nat. revert s l. generalize (N.to_nat n). clear n. induction n as [|n IH]; intros s l E; cbn [repeat_nat] in E.
    - injection E as <- _. constructor.
    - apply bind_Ok_inv in E as (a & s1 & E1 & E). apply bind_Ok_inv in E as (l1 & s2 & E2 & E). injection E as <- <-. constructor; eauto.
  Qed.
  (** All words are valid, whatever was in the file. *)
  Lemma word2vec_words_valid lossy s e s' : read_word2vec_raw (Md := Md) pf lossy s = (Ok e, s') ->
    Forall (fun w => utf8_valid w = true) (v_words simple_ops (em_vocab e)).
  Proof.
    intros H. unfold read_word2vec_raw in H. apply bind_Ok_inv in H as (n & s1 & H0 & H). apply bind_Ok_inv in H as (d & s2 & H1 & H).
    apply bind_Ok_inv in H as (u & s3 & H2 & H). apply bind_Ok_inv in H as (u' & s4 & H3 & H). apply bind_Ok_inv in H as (l & s5 & H4 & H).
    apply bind_Ok_inv in H as (v & s6 & H5 & H). unfold lift in H5, H. injection H5 as H5 <-.
    assert (em_vocab e = v) as ->.
    { rewrite (simple_emb pf (map fst l) v) in H by (auto; unfold a2_nrows; cbn [a2_rows]; rewrite !lenN_map; reflexivity). injection H as <- _. reflexivity. }
    apply simple_new_Ok in H5 as [_ ->]. cbn [v_words simple_ops sm_words]. apply Forall_map. eapply repeat_Forall; [|exact H4].
    intros s0 [w x] s0' E. unfold read_w2v_entry in E. apply bind_Ok_inv in E as (t & s7 & E1 & E). apply bind_Ok_inv in E as (y & s8 & _ & E). injection E as <- _ _.
    cbn [fst]. apply string_valid in E1. eapply trims_valid. apply trims_trim. exact E1.
  Qed.
End LossyBinary.

(** ** Complete text readers *)
Definition text_reader {Md} (P : ftext_ops) (pf : profile) (raw : bool) (lossy : bool) : reader (embeddings Md simple_vocab (array2 f32) f32) :=
  if raw then read_text_raw P pf lossy else read_text P pf lossy.
Definition text_dims_reader {Md} (P : ftext_ops) (pf : profile) (raw : bool) (lossy : bool) : reader (embeddings Md simple_vocab (array2 f32) f32) :=
  if raw then read_text_dims_raw P pf lossy else read_text_dims P pf lossy.
Section LossyReaders.
  Context (P : ftext_ops) (pf : profile) {Md : Type}.

  Lemma fst_bind_lift {A B} (m m' : reader A) (k : A -> res B) s s' : fst (m s) = fst (m' s') ->
    fst (bind m (fun a => lift (k a)) s) = fst (bind m' (fun a => lift (k a)) s').
  Proof. unfold bind, lift. destruct (m s) as [x t], (m' s') as [x' t']. cbn [fst]. intros <-. destruct x; reflexivity. Qed.

  Lemma text_lossy_is_strict raw data : run_reader (text_reader (Md := Md) P pf raw true) data = run_reader (text_reader (Md := Md) P pf raw false) (from_utf8_lossy data).
  Proof.
    unfold run_reader, text_reader. destruct raw; [|unfold read_text; apply fst_bind_lift]; apply lossy_is_strict.
  Qed.
  Lemma text_lossy_agrees raw data : utf8_valid data = true -> run_reader (text_reader (Md := Md) P pf raw true) data = run_reader (text_reader (Md := Md) P pf raw false) data.
  Proof. intros V. rewrite text_lossy_is_strict, from_utf8_lossy_id by exact V. reflexivity. Qed.

  Lemma dims_lossy_is_strict raw data n d rest : header_line data n d rest ->
    exists data', header_line data' n d (from_utf8_lossy rest) /\ run_reader (text_dims_reader (Md := Md) P pf raw true) data = run_reader (text_dims_reader (Md := Md) P pf raw false) data'.
  Proof.
    intros H. destruct H as (f & g & F & G & Ln & Ld & E). exists (f ++ x20 :: g ++ x0a :: from_utf8_lossy rest).
    assert (header_line (f ++ x20 :: g ++ x0a :: from_utf8_lossy rest) n d (from_utf8_lossy rest)) as H' by (exists f, g; auto 10).
    assert (header_line data n d rest) as H by (exists f, g; auto 10). split; [exact H'|].
    assert (fst (read_text_dims_raw (Md := Md) P pf true (mkStream data 0)) = fst (read_text_dims_raw (Md := Md) P pf false (mkStream (f ++ x20 :: g ++ x0a :: from_utf8_lossy rest) 0))) as K.
    { unfold read_text_dims_raw. destruct (header_read data n d rest H (fun n d => read_embeds (Md := Md) P pf (Some (n, d)) true) 0) as (p1 & ->).
      destruct (header_read _ n d _ H' (fun n d => read_embeds (Md := Md) P pf (Some (n, d)) false) 0) as (p2 & ->). apply lossy_is_strict. }
    unfold run_reader, text_dims_reader. destruct raw; [exact K|]. unfold read_text_dims. apply fst_bind_lift. exact K.
  Qed.
  Lemma dims_lossy_agrees raw data : utf8_valid data = true -> run_reader (text_dims_reader (Md := Md) P pf raw true) data = run_reader (text_dims_reader (Md := Md) P pf raw false) data.
  Proof.
    intros V. assert (fst (read_text_dims_raw (Md := Md) P pf true (mkStream data 0)) = fst (read_text_dims_raw (Md := Md) P pf false (mkStream data 0))) as K.
    { unfold read_text_dims_raw, bind. destruct (read_number x20 (mkStream data 0)) as [[n|er|pa] s1] eqn:E1; try reflexivity.
      destruct (read_number x0a s1) as [[d|er|pa] s2] eqn:E2; try reflexivity. 
      assert (s_broken s2 = false) as BR.
      { pose proof (number_keeps x0a s1) as K2. rewrite E2 in K2. pose proof (number_keeps x20 (mkStream data 0)) as K1. rewrite E1 in K1. cbn [snd s_broken] in *. congruence. }
      destruct s2 as [rest p2 b2]. cbn [s_broken] in BR. subst b2. apply lossy_agrees.
      assert (forall dl s n s', bN dl < 128 -> read_number dl s = (Ok n, s') -> utf8_valid (s_rest s) = true -> utf8_valid (s_rest s') = true) as G.
      { intros dl s m s' A E VS. apply read_number_inv in E as [(f & E & _)|[-> _]]; [|reflexivity]. rewrite E in VS. apply valid_split in VS; [apply VS|exact A]. }
      apply G in E2; [exact E2|reflexivity|]. apply G in E1; [exact E1|reflexivity|exact V]. }
    unfold run_reader, text_dims_reader. destruct raw; [exact K|]. unfold read_text_dims. apply fst_bind_lift. exact K.
  Qed.
  Lemma normalize_all_words {F} (o : fops F) (e e' : embeddings Md simple_vocab (array2 F) F) : normalize_all o pf e = Ok e' -> em_vocab e' = em_vocab e.
  Proof.
    unfold normalize_all. destruct (l2_normalize_array o (a2_rows (em_storage e))) as [rows ns]. unfold emb_new, emb_new_with_maybe_norms. intros H.
    repeat (apply rbind_Ok_inv in H as (? & _ & H)). injection H as <-. reflexivity.
  Qed.
  Lemma text_readers_words_valid raw lossy data e :
    run_reader (text_reader (Md := Md) P pf raw lossy) data = Ok e \/ run_reader (text_dims_reader (Md := Md) P pf raw lossy) data = Ok e ->
    Forall (fun w => utf8_valid w = true) (v_words simple_ops (em_vocab e)).
  Proof.
    assert (forall (m : reader (embeddings Md simple_vocab (array2 f32) f32)), (forall s e s', m s = (Ok e, s') -> Forall (fun w => utf8_valid w = true) (v_words simple_ops (em_vocab e))) ->
      forall s e s', bind m (fun e => lift (normalize_all f32_ops pf e)) s = (Ok e, s') -> Forall (fun w => utf8_valid w = true) (v_words simple_ops (em_vocab e))) as K.
    { intros m H s e0 s' E. apply bind_Ok_inv in E as (e1 & s1 & E1 & E). unfold lift in E. injection E as E _. apply normalize_all_words in E. rewrite E. eauto. }
    assert (forall l s (e : embeddings Md simple_vocab (array2 f32) f32) s', read_text_dims_raw P pf l s = (Ok e, s') -> Forall (fun w => utf8_valid w = true) (v_words simple_ops (em_vocab e))) as D.
    { intros l s e0 s' E. unfold read_text_dims_raw in E. apply bind_Ok_inv in E as (n & s1 & _ & E). apply bind_Ok_inv in E as (d & s2 & _ & E). eapply embeds_words_valid; exact E. }
    unfold run_reader, text_reader, text_dims_reader. intros [H|H].
    - destruct raw.
      + destruct (read_text_raw P pf lossy (mkStream data 0)) as [x s'] eqn:E. cbn [fst] in H. subst x. eapply (embeds_words_valid P pf None); exact E.
      + destruct (read_text P pf lossy (mkStream data 0)) as [x s'] eqn:E. cbn [fst] in H. subst x. eapply K; [|exact E]. intros s e0 s0 E0. eapply (embeds_words_valid P pf None); exact E0.
    - destruct raw.
      + destruct (read_text_dims_raw P pf lossy (mkStream data 0)) as [x s'] eqn:E. cbn [fst] in H. subst x. eapply D; exact E.
      + destruct (read_text_dims P pf lossy (mkStream data 0)) as [x s'] eqn:E. cbn [fst] in H. subst x. eapply K; [|exact E]. apply D.
  Qed.
End LossyReaders.
