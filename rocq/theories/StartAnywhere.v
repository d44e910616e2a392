(** * The readers of other formats do not depend on where a file starts (C131). *)
From Verif Require Import Base BaseFacts Utf8 Stream StreamFacts F32 ChunkIO Subword Vocab Storage Embeddings TextIO FastText AppendOther.
Local Open Scope N_scope.

(** The same device with the same bytes left, [k] bytes further on. *)
Definition moved (s : stream) (k : N) : stream := mkBroken (s_rest s) (s_pos s + k) (s_broken s).
(** The result is the same and the reader stops [k] bytes further on. *)
Definition anywhere {A} (m : reader A) : Prop := forall s k, m (moved s k) = (fst (m s), moved (snd (m s)) k).

Lemma any_bind {A B} (m : reader A) (f : A -> reader B) : anywhere m -> (forall a, anywhere (f a)) -> anywhere (bind m f).
Proof. intros H K s k. unfold bind. rewrite H. destruct (m s) as [[a|e|p] s1]; cbn [fst snd]; [apply K|reflexivity..]. Qed.
Lemma any_lift {A} (r : res A) : anywhere (lift r). Proof. intros s k. reflexivity. Qed.
Lemma any_ret {A} (a : A) : anywhere (ret a). Proof. intros s k. reflexivity. Qed.
Lemma any_fail {A} e : anywhere (A := A) (fail e). Proof. intros s k. reflexivity. Qed.
Lemma any_reserve n size : anywhere (reserve n size).
Proof. intros s k. unfold reserve. destruct (n * size <=? isize_max); reflexivity. Qed.
Lemma any_alloc dims size : anywhere (alloc_zeros dims size).
Proof. intros s k. unfold alloc_zeros. destruct (_ && _)%bool; reflexivity. Qed.
Lemma moved_add rest p n b k : mkBroken rest (p + k + n) b = moved (mkBroken rest (p + n) b) k.
Proof. unfold moved. cbn [s_rest s_pos s_broken]. f_equal. lia. Qed.
Lemma any_exact n : anywhere (read_exact n).
Proof. intros s k. unfold read_exact, moved at 1 2 3 4 5 6 7 8. cbn [s_rest s_pos s_broken]. destruct (n <=? lenN (s_rest s)); cbn [fst snd]; rewrite moved_add; reflexivity. Qed.
Lemma any_until d : anywhere (read_until d).
Proof.
  intros s k. unfold read_until. change (s_rest (moved s k)) with (s_rest s). change (s_broken (moved s k)) with (s_broken s). change (s_pos (moved s k)) with (s_pos s + k).
  destruct (split_until d (s_rest s)) as [x y]. cbn [fst snd]. rewrite moved_add. reflexivity.
Qed.
Lemma any_repeat {A} n (m : reader A) : anywhere m -> anywhere (repeat_m n m).
Proof.
  intros H. destruct n as [|p]; [apply any_ret|]. cbn [repeat_m]. induction p as [p IH|p IH|]; cbn [repeat_pos].
  - apply any_bind; [exact H|intros a]. apply any_bind; [exact IH|intros b]. apply any_bind; [exact IH|intros c]. apply any_ret.
  - apply any_bind; [exact IH|intros b]. apply any_bind; [exact IH|intros c]. apply any_ret.
  - apply any_bind; [exact H|intros a]. apply any_ret.
Qed.
Ltac any_step := first
  [ apply any_bind; [|intros ?] | apply any_repeat | apply any_exact | apply any_until | apply any_reserve | apply any_alloc | apply any_lift | apply any_ret | apply any_fail
  | match goal with |- anywhere (match ?x with _ => _ end) => destruct x end | assumption ].
Ltac anys := repeat (cbv zeta; any_step).
Lemma any_u8 : anywhere read_u8. Proof. unfold read_u8. anys. Qed.
Lemma any_u32 : anywhere read_u32. Proof. unfold read_u32. anys. Qed.
Lemma any_u64 : anywhere read_u64. Proof. unfold read_u64. anys. Qed.
Lemma any_f32s n : anywhere (read_f32s n). Proof. unfold read_f32s. anys. Qed.
Lemma any_string d lossy : anywhere (read_string d lossy). Proof. unfold read_string. anys. Qed.
Lemma any_number d : anywhere (read_number d). Proof. unfold read_number. apply any_bind; [apply any_string|intros ?]. anys. Qed.
Ltac any_step ::= first
  [ assumption | apply any_u8 | apply any_u32 | apply any_u64 | apply any_f32s | apply any_string | apply any_number
  | apply any_bind; [|intros ?] | apply any_repeat | apply any_exact | apply any_until | apply any_reserve | apply any_alloc | apply any_lift | apply any_ret | apply any_fail
  | match goal with |- anywhere (match ?x with _ => _ end) => destruct x end | assumption ].

Section Text.
  Context (P : ftext_ops) (pf : profile) {Md : Type}.
  Lemma any_text_lines lossy fuel : anywhere (text_lines P fuel lossy).
  Proof. induction fuel as [|fuel IH]; cbn [text_lines]; anys. Qed.
  Lemma any_lines lossy : anywhere (read_lines P lossy).
  Proof. intros s k. unfold read_lines. change (s_rest (moved s k)) with (s_rest s). apply any_text_lines. Qed.
  Lemma any_embeds shape lossy : anywhere (read_embeds (Md := Md) P pf shape lossy).
  Proof. unfold read_embeds. pose proof (any_lines lossy). anys. Qed.
  Lemma any_text_raw lossy : anywhere (read_text_raw (Md := Md) P pf lossy). Proof. apply any_embeds. Qed.
  Lemma any_text lossy : anywhere (read_text (Md := Md) P pf lossy). Proof. unfold read_text. pose proof (any_text_raw lossy). anys. Qed.
  Lemma any_dims_raw lossy : anywhere (read_text_dims_raw (Md := Md) P pf lossy).
  Proof. unfold read_text_dims_raw. do 2 (apply any_bind; [apply any_number|intros ?]). apply any_embeds. Qed.
  Lemma any_dims lossy : anywhere (read_text_dims (Md := Md) P pf lossy). Proof. unfold read_text_dims. pose proof (any_dims_raw lossy). anys. Qed.
  Lemma any_word2vec_raw lossy : anywhere (read_word2vec_raw (Md := Md) pf lossy). Proof. unfold read_word2vec_raw, read_w2v_entry. anys. Qed.
  Lemma any_word2vec lossy : anywhere (read_word2vec (Md := Md) pf lossy). Proof. unfold read_word2vec. pose proof (any_word2vec_raw lossy). anys. Qed.
  Lemma any_floret_lines dims fuel : anywhere (floret_lines P fuel dims).
  Proof. induction fuel as [|fuel IH]; cbn [floret_lines]; anys. Qed.
  Lemma any_read_floret_lines dims : anywhere (read_floret_lines P dims).
  Proof. intros s k. unfold read_floret_lines. change (s_rest (moved s k)) with (s_rest s). apply any_floret_lines. Qed.
  Lemma any_floret : anywhere (read_floret_text (Md := Md) P pf).
  Proof. unfold read_floret_text. repeat first [apply any_read_floret_lines | progress cbv zeta | any_step]. Qed.
  Lemma texts_anywhere lossy : anywhere (read_text_raw (Md := Md) P pf lossy) /\ anywhere (read_text (Md := Md) P pf lossy) /\
    anywhere (read_text_dims_raw (Md := Md) P pf lossy) /\ anywhere (read_text_dims (Md := Md) P pf lossy).
  Proof. split; [apply any_text_raw|]. split; [apply any_text|]. split; [apply any_dims_raw|apply any_dims]. Qed.
  Lemma word2vec_anywhere lossy : anywhere (read_word2vec_raw (Md := Md) pf lossy) /\ anywhere (read_word2vec (Md := Md) pf lossy).
  Proof. split; [apply any_word2vec_raw|apply any_word2vec]. Qed.
End Text.

Section Ft.
  Context (pf : profile) (T : toml_ops) (config_table : ft_config -> option (toml_table T)).
  Lemma any_fasttext lossy : anywhere (read_fasttext pf T config_table lossy).
  Proof. unfold read_fasttext, read_config, read_loss, read_model, read_ft_vocab, read_ft_entry, read_ft_matrix. anys. Qed.

  (** fastText files one after the other. *)
  Lemma ft_files lossy ds es : Forall2 (fun d e => exists p, read_fasttext pf T config_table lossy (mkStream d 0) = (Ok e, mkStream [] p)) ds es ->
    forall z k, exists p, repeat_m (lenN ds) (read_fasttext pf T config_table lossy) (mkStream (concat ds ++ z) k) = (Ok es, mkStream z p).
  Proof.
    intros H z. unfold lenN. setoid_rewrite repeat_m_nat. rewrite Nat2N.id. induction H as [|d e ds es (p & R) H IH]; intros k; cbn [length repeat_nat concat app].
    { exists k. reflexivity. }
    rewrite <- app_assoc. destruct (ft_position pf T config_table lossy d e _ R (concat ds ++ z)) as (p1 & R1). cbn [s_rest app] in R1.
    pose proof (any_fasttext lossy (mkStream (d ++ concat ds ++ z) 0) k) as R2. rewrite R1 in R2. unfold moved in R2. cbn [s_rest s_pos s_broken fst snd] in R2.
    rewrite N.add_0_l in R2. unfold bind. rewrite R2. destruct (IH (p1 + k)) as (p2 & R3). rewrite R3. exists p2. reflexivity.
  Qed.
End Ft.
