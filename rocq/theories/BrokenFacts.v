(** * The readers of other formats notice a broken device. *)
From Verif Require Import Base BaseFacts Utf8 Stream StreamFacts F32 ChunkIO ChunkFacts Subword Vocab Storage Embeddings TextIO TextSpec TextFacts FastText.
Local Open Scope N_scope.

Lemma complete_until d : complete (read_until d).
Proof.
  intros p pos a s' H. destruct (byte_in_dec d p) as [I|I].
  - destruct (first_split d p I) as (f & r & -> & NI). rewrite read_until_hit in H by exact NI. inv H. split; [reflexivity|].
    intros q b. rewrite <- app_assoc. cbn [app s_rest s_pos]. rewrite read_until_hit by exact NI. reflexivity.
  - rewrite read_until_broken in H by exact I. discriminate.
Qed.
Lemma complete_alloc shape size : complete (alloc_zeros shape size).
Proof. intros p pos a s' H. unfold alloc_zeros in *. destruct (_ && _)%bool; [|discriminate]. inv H. cbn [s_rest s_pos s_broken]. auto. Qed.

Ltac complete_step := first
  [ apply complete_bind; [|intros ?] | apply complete_repeat
  | apply complete_u32 | apply complete_u64 | apply complete_u8 | apply complete_exact | apply complete_until | apply complete_reserve | apply complete_alloc
  | apply complete_pure | apply complete_fail | apply complete_ret
  | match goal with |- complete (match ?x with _ => _ end) => destruct x end
  | assumption ].
Ltac completes := repeat (cbv zeta; complete_step).

Lemma complete_string d lossy : complete (read_string d lossy). Proof. unfold read_string. completes. Qed.
Lemma complete_number d : complete (read_number d). Proof. unfold read_number. apply complete_bind; [apply complete_string|intros ?]. completes. Qed.
Lemma complete_f32s n : complete (read_f32s n). Proof. unfold read_f32s. completes. Qed.
Lemma complete_entry d lossy : complete (read_w2v_entry d lossy).
Proof. unfold read_w2v_entry. apply complete_bind; [apply complete_string|intros ?]. apply complete_bind; [apply complete_f32s|intros ?]. completes. Qed.
Lemma complete_word2vec_raw pf {Md} lossy : complete (read_word2vec_raw (Md := Md) pf lossy).
Proof.
  unfold read_word2vec_raw. apply complete_bind; [apply complete_number|intros n]. apply complete_bind; [apply complete_number|intros d].
  completes; apply complete_entry.
Qed.
Lemma complete_word2vec pf {Md} lossy : complete (read_word2vec (Md := Md) pf lossy).
Proof. unfold read_word2vec. apply complete_bind; [apply complete_word2vec_raw|]. intros. completes. Qed.

(** Text is read to the end. *)
Definition never_ok {A} (m : reader A) : Prop := forall p pos a s', m (mkBroken p pos true) <> (Ok a, s').
Lemma never_first {A B} (m : reader A) (k : A -> reader B) : never_ok m -> never_ok (bind m k).
Proof. intros H p pos a s' E. apply bind_Ok_inv in E as (x & s1 & E & _). eapply H; exact E. Qed.
Lemma never_later {A B} (m : reader A) (k : A -> reader B) : complete m -> (forall a, never_ok (k a)) -> never_ok (bind m k).
Proof.
  intros C H p pos a s' E. apply bind_Ok_inv in E as (x & s1 & E1 & E). destruct (C _ _ _ _ E1) as [BR _]. destruct s1 as [p1 pos1 b1]. cbn [s_broken] in BR. subst b1.
  eapply H; exact E.
Qed.
Lemma never_complete {A} (m : reader A) : never_ok m -> complete m.
Proof. intros H p pos a s' E. exfalso. eapply H; exact E. Qed.
Lemma never_fail {A} e : never_ok (A := A) (fail e). Proof. intros p pos a s' H. discriminate. Qed.

Section Text.
  Context (P : ftext_ops) (pf : profile).
  Lemma never_lines lossy : never_ok (read_lines P lossy).
  Proof. intros p pos a s' E. destruct (read_lines_broken P lossy (mkBroken p pos true) eq_refl) as (e & s1 & K & _). congruence. Qed.
  Lemma never_embeds {Md} shape lossy : never_ok (read_embeds (Md := Md) P pf shape lossy).
  Proof.
    unfold read_embeds. repeat first [apply never_first; apply never_lines | apply never_later; [completes|intros ?] | match goal with |- never_ok (match ?x with _ => _ end) => destruct x end].
  Qed.
  Lemma never_text_raw {Md} lossy : never_ok (read_text_raw (Md := Md) P pf lossy). Proof. apply never_embeds. Qed.
  Lemma never_text {Md} lossy : never_ok (read_text (Md := Md) P pf lossy). Proof. apply never_first, never_text_raw. Qed.
  Lemma never_text_dims_raw {Md} lossy : never_ok (read_text_dims_raw (Md := Md) P pf lossy).
  Proof. unfold read_text_dims_raw. apply never_later; [apply complete_number|intros n]. apply never_later; [apply complete_number|intros d]. apply never_embeds. Qed.
  Lemma never_text_dims {Md} lossy : never_ok (read_text_dims (Md := Md) P pf lossy). Proof. apply never_first, never_text_dims_raw. Qed.

  Lemma floret_lines_broken dims : forall fuel, never_ok (floret_lines P fuel dims).
  Proof.
    induction fuel as [|fuel IH]; [apply never_fail|]. cbn [floret_lines]. intros p pos a s' E. apply bind_Ok_inv in E as (buf & s1 & E1 & E).
    destruct (byte_in_dec x0a p) as [I|I]; [|rewrite read_until_broken in E1 by exact I; discriminate].
    destruct (first_split x0a p I) as (l & r & -> & NI). rewrite read_until_hit in E1 by exact NI. inv E1.
    destruct (l ++ [x0a]) as [|b t] eqn:EB; [destruct l; discriminate|]. revert E. apply never_later; [completes|intros xs]. apply never_first. exact IH.
  Qed.
  Lemma never_floret {Md} : never_ok (read_floret_text (Md := Md) P pf).
  Proof.
    unfold read_floret_text. repeat first [apply never_first; intros ? ? ? ?; apply floret_lines_broken | apply never_fail
      | apply never_later; [first [apply complete_number | apply complete_string | completes]|intros ?] | progress cbv zeta
      | match goal with |- never_ok (match ?x with _ => _ end) => destruct x end].
  Qed.
End Text.

Section Ft.
  Context (pf : profile) (T : toml_ops) (config_table : ft_config -> option (toml_table T)).
  Lemma complete_config : complete read_config. Proof. unfold read_config, read_loss, read_model. completes. Qed.
  Lemma complete_ft_entry lossy : complete (read_ft_entry lossy). Proof. unfold read_ft_entry. apply complete_bind; [apply complete_string|intros ?]. completes. Qed.
  Lemma complete_ft_vocab c lossy : complete (read_ft_vocab pf c lossy). Proof. unfold read_ft_vocab. completes. all: apply complete_ft_entry. Qed.
  Lemma complete_ft_matrix : complete read_ft_matrix. Proof. unfold read_ft_matrix. completes. Qed.
  Lemma complete_fasttext lossy : complete (read_fasttext pf T config_table lossy).
  Proof.
    unfold read_fasttext. repeat (cbv zeta; first [apply complete_bind; [first [apply complete_config | apply complete_ft_vocab | apply complete_ft_matrix | apply complete_u32 | apply complete_u8 | apply complete_pure]|intros ?] | complete_step]).
  Qed.
End Ft.

(** What is read from a broken device is read from the data alone. *)
Lemma complete_prefix {A} (m : reader A) s a s' : complete m -> m s = (Ok a, s') ->
  exists s0, m (mkStream (s_rest s) (s_pos s)) = (Ok a, s0) /\ s_rest s0 = s_rest s' /\ s_pos s0 = s_pos s'.
Proof.
  intros C H. destruct s as [p pos [|]].
  - destruct (C _ _ _ _ H) as [B E]. specialize (E [] false). rewrite !app_nil_r in E. eexists. split; [exact E|]. auto.
  - eauto.
Qed.
Lemma number_keeps d s : s_broken (snd (read_number d s)) = s_broken s.
Proof.
  unfold read_number, read_string, read_until, bind. destruct (split_until d (s_rest s)) as [x y]. destruct (s_broken s && _)%bool; [reflexivity|].
  destruct (utf8_valid _); [|reflexivity]. cbn [ret]. destruct (dec_parse _); reflexivity.
Qed.
