(** * What the errors of other formats say. *)
From Coq Require Import Strings.String.
From Verif Require Import Base BaseFacts Utf8 Utf8Facts Stream StreamFacts F32 ChunkIO Subword Vocab VocabFacts Storage
  Embeddings TextIO FastText FileSpec VocabSpec EmbSpec TextSpec TextFacts FloretThms FastTextSpec Messages MessageSpec MessageThms MessageWrong
  CompatMessages CompatErasure.
Local Open Scope N_scope.

Lemma same_Ok {A} (d : D A) m s a s' : same d m -> m s = (Ok a, s') -> d s = (MOk a, s').
Proof.
  intros H E. specialize (H s). rewrite E in H. destruct (d s) as [x t]. cbn [fst snd] in H. injection H as H ->.
  apply forget_Ok in H. subst x. reflexivity.
Qed.
Lemma same_Panic {A} (d : D A) m s p s' : same d m -> m s = (Panic p, s') -> d s = (MPanic p, s').
Proof.
  intros H E. specialize (H s). rewrite E in H. destruct (d s) as [x t]. cbn [fst snd] in H. injection H as H ->.
  apply forget_Panic in H. subst x. reflexivity.
Qed.
Lemma same_Err {A} (d : D A) m s e s' : same d m -> m s = (Err e, s') -> exists x, d s = (MErr x, s') /\ kind x = e.
Proof.
  intros H E. specialize (H s). rewrite E in H. destruct (d s) as [[a|x|p] t]; cbn [fst snd forget] in H; try discriminate.
  injection H as H ->. eauto.
Qed.

(** ** Numbers *)

(** Some digits at the start, after at most one plus sign, are a number that
    does not fit. *)
Definition too_large (f : str) : Prop :=
  exists sign ds t, (sign = [] \/ sign = [x2b]) /\ f = sign ++ digits_text ds ++ t /\
  Forall (fun d => d < 10) ds /\ two64 <= digits_value ds.
Definition number_reason (f r : str) : Prop :=
  (f = [] /\ r = txt "cannot parse integer from empty string") \/
  (too_large f /\ r = txt "number too large to fit in target type") \/
  (f <> [] /\ ~ too_large f /\ r = txt "invalid digit found in string").

Lemma digits_error_none s : forall acc, digits_error s acc = None <-> exists n, dec_digits s acc = Some n.
Proof.
  induction s as [|b s IH]; intros acc; cbn [digits_error dec_digits]; [split; eauto|].
  destruct (digit_value b) as [d|]; [|split; [discriminate|intros [n H]; discriminate]]. cbv zeta.
  destruct (_ <? _); [apply IH|split; [discriminate|intros [n H]; discriminate]].
Qed.
Lemma digits_error_big s : forall acc, acc < two64 -> (digits_error s acc = Some IPosOverflow <->
  exists ds t, s = digits_text ds ++ t /\ Forall (fun d => d < 10) ds /\ two64 <= acc * 10 ^ lenN ds + digits_value ds).
Proof.
  induction s as [|b s IH]; intros acc L; cbn [digits_error].
  - split; [discriminate|]. intros ([|d ds] & t & E & _ & B); [|discriminate]. cbn [digits_value] in B. rewrite lenN_nil in B. lia.
  - destruct (digit_value b) as [d|] eqn:E.
    + apply digit_value_spec in E as [-> Ld]. cbv zeta. destruct (N.ltb_spec (acc * 10 + d) two64) as [L2|L2].
      * rewrite (IH _ L2). split.
        -- intros (ds & t & -> & F & B). exists (d :: ds), t. split; [reflexivity|]. split; [constructor; auto|].
           cbn [digits_value]. rewrite lenN_cons, N.pow_add_r, N.pow_1_r. nia.
        -- intros ([|d' ds] & t & X & F & B).
           { cbn [digits_value] in B. rewrite lenN_nil in B. lia. }
           cbn [digits_text map app] in X. injection X as X ->. apply Forall_cons_iff in F as [Ld' F].
           apply (f_equal bN) in X. rewrite !bN_Nb in X by lia. assert (d' = d) as -> by lia.
           exists ds, t. split; [reflexivity|]. split; [exact F|]. cbn [digits_value] in B. rewrite lenN_cons, N.pow_add_r, N.pow_1_r in B. nia.
      * split; [intros _|reflexivity]. exists [d], s. split; [reflexivity|]. split; [constructor; auto|].
        cbn [digits_value]. change (lenN [d]) with 1. rewrite lenN_nil, N.pow_1_r, N.pow_0_r. lia.
    + split; [discriminate|]. intros ([|d ds] & t & X & F & B).
      { cbn [digits_value] in B. rewrite lenN_nil in B. lia. }
      cbn [digits_text map app] in X. injection X as -> _. apply Forall_cons_iff in F as [Ld _].
      rewrite (proj2 (digit_value_spec _ d)) in E by auto. discriminate.
Qed.
Lemma digit_no_plus d : d < 10 -> Nb (48 + d) <> x2b.
Proof. intros L E. apply (f_equal bN) in E. rewrite bN_Nb in E by lia. change (bN x2b) with 43 in E. lia. Qed.
Lemma number_error_big f : number_error f = Some IPosOverflow <-> too_large f.
Proof.
  unfold number_error, too_large. destruct f as [|b f].
  - split; [discriminate|]. intros (sign & [|d ds] & t & S & E & _ & B); [cbn in B; unfold two64 in B; lia|]. destruct S as [->| ->]; discriminate.
  - destruct (byte_eqb b x2b) eqn:Eb.
    + apply byte_eqb_eq in Eb. subst b. destruct f as [|c f].
      * split; [discriminate|]. intros (sign & [|d ds] & t & S & E & F & B); [cbn in B; unfold two64 in B; lia|].
        destruct S as [->| ->]; cbn in E; [|discriminate]. injection E as E _. apply Forall_cons_iff in F as [L _]. destruct (digit_no_plus d L). auto.
      * rewrite (digits_error_big (c :: f) 0) by (unfold two64; lia). split.
        -- intros (ds & t & E & F & B). exists [x2b], ds, t. split; [auto|]. split; [rewrite E; reflexivity|]. split; [auto|lia].
        -- intros (sign & ds & t & S & E & F & B). destruct S as [->| ->].
           ++ destruct ds as [|d ds]; [cbn in B; unfold two64 in B; lia|]. cbn in E. injection E as E _. apply Forall_cons_iff in F as [L _]. destruct (digit_no_plus d L). auto.
           ++ cbn [app] in E. injection E as E. exists ds, t. split; [exact E|]. split; [auto|lia].
    + rewrite (digits_error_big (b :: f) 0) by (unfold two64; lia). split.
      * intros (ds & t & E & F & B). exists [], ds, t. split; [auto|]. split; [exact E|]. split; [auto|lia].
      * intros (sign & ds & t & S & E & F & B). destruct S as [->| ->].
        -- exists ds, t. split; [exact E|]. split; [auto|lia].
        -- cbn [app] in E. injection E as -> _. rewrite byte_eqb_refl in Eb. discriminate.
Qed.
Lemma number_error_some f : dec_parse f = None -> exists e, number_error f = Some e.
Proof.
  unfold dec_parse, number_error. destruct f as [|b f]; [eauto|]. destruct (byte_eqb b x2b).
  - destruct f as [|c f]; [eauto|]. intros H. destruct (digits_error (c :: f) 0) eqn:E; [eauto|].
    apply digits_error_none in E as [n E]. congruence.
  - intros H. destruct (digits_error (b :: f) 0) eqn:E; [eauto|]. apply digits_error_none in E as [n E]. congruence.
Qed.
Lemma number_error_empty f : number_error f = Some IEmpty -> f = [].
Proof.
  assert (forall s acc, digits_error s acc <> Some IEmpty) as X.
  { intros s. induction s as [|b s IH]; intros acc; cbn [digits_error]; [discriminate|]. destruct (digit_value b); [|discriminate]. cbv zeta.
    destruct (_ <? _); [apply IH|discriminate]. }
  unfold number_error. destruct f as [|b f]; [reflexivity|]. destruct (byte_eqb b x2b); [destruct f as [|c f]; [discriminate|]|]; intros H; destruct (X _ _ H).
Qed.
Lemma number_reason_ok f : dec_parse f = None -> number_reason f (number_error_text f).
Proof.
  intros H. destruct (number_error_some f H) as [e E]. unfold number_error_text. rewrite E. unfold number_reason.
  destruct f as [|b f]; [left; inv E; auto|]. right. destruct e.
  - apply number_error_empty in E. discriminate.
  - right. split; [discriminate|]. split; [|reflexivity]. intros B. apply number_error_big in B. congruence.
  - left. split; [apply number_error_big; exact E|reflexivity].
Qed.

Definition is_number (f : str) : Prop := exists n, numeral f n /\ n < two64.
Definition number_text (f r : str) : str := txt "Invalid file format Cannot parse shape component '" ++ f ++ txt "': " ++ r.
Lemma not_number f : ~ is_number f -> dec_parse f = None.
Proof. intros H. destruct (dec_parse f) as [n|] eqn:E; [|reflexivity]. exfalso. apply H. exists n. apply dec_parse_spec, E. Qed.

Lemma string_at d lossy f rest pos b : ~ In d f -> read_string_t d lossy (mkBroken (f ++ d :: rest) pos b) = token lossy f (mkBroken rest (pos + lenN (f ++ [d])) b).
Proof. intros H. unfold read_string_t, dbind, io. rewrite read_until_hit by exact H. rewrite removelast_last. reflexivity. Qed.
Lemma bad_number d f rest pos b : ~ In d f -> ~ is_number f ->
  exists e s', read_number_t d (mkBroken (f ++ d :: rest) pos b) = (MErr e, s') /\
  (utf8_valid f = false /\ points_at (txt "Token contains invalid UTF-8: ") f e \/
   utf8_valid f = true /\ exists r, number_reason f r /\ display e = number_text f r).
Proof.
  intros NI NN. unfold read_number_t, dbind. rewrite string_at by exact NI. unfold token. destruct (utf8_valid f) eqn:V.
  - unfold dret. rewrite (not_number f NN). do 2 eexists. split; [reflexivity|]. right. split; [reflexivity|].
    exists (number_error_text f). split; [apply number_reason_ok, not_number, NN|reflexivity].
  - do 2 eexists. split; [reflexivity|]. left. split; [reflexivity|]. apply points, V.
Qed.
(** At the end of the data the text shows all but the last byte. *)
Lemma bad_number_end d f x pos : ~ In d (f ++ [x]) -> utf8_valid f = true -> ~ is_number f ->
  exists e s' r, read_number_t d (mkStream (f ++ [x]) pos) = (MErr e, s') /\ number_reason f r /\ display e = number_text f r.
Proof.
  intros NI V NN. unfold read_number_t, read_string_t, dbind, io. rewrite read_until_miss by exact NI. rewrite removelast_last.
  unfold token. rewrite V. unfold dret. rewrite (not_number f NN). do 3 eexists. split; [reflexivity|].
  split; [apply number_reason_ok, not_number, NN|reflexivity].
Qed.

Lemma app_tail_eq {A} (a b c d : list A) : a ++ b = c ++ d -> length b = length d -> a = c /\ b = d.
Proof.
  intros E L. assert (length a = length c) as LA by (apply (f_equal (@length A)) in E; rewrite !app_length in E; lia).
  revert c E LA. induction a as [|x a IH]; intros [|y c] E LA; cbn in *; try discriminate; auto. injection E as -> E. destruct (IH c E) as [-> ->]; [lia|auto].
Qed.
Definition last_bytes (n : nat) (s : str) : str := skipn (length s - n) s.
Lemma last_bytes_app n a b : (n <= length b)%nat -> last_bytes n (a ++ b) = last_bytes n b.
Proof.
  intros L. unfold last_bytes. rewrite app_length, skipn_app. replace (length a + length b - n - length a)%nat with (length b - n)%nat by lia.
  rewrite skipn_all2 by lia. reflexivity.
Qed.
(** The text determines the field. *)
Lemma number_text_inj f g r q : number_reason f r -> number_reason g q -> number_text f r = number_text g q -> f = g.
Proof.
  intros HF HG E. unfold number_text in E. apply app_inv_head in E. rewrite !app_assoc in E.
  assert (r = q) as ->.
  { apply (f_equal (last_bytes 12)) in E. destruct HF as [(_ & ->)|[(_ & ->)|(_ & _ & ->)]]; destruct HG as [(_ & ->)|[(_ & ->)|(_ & _ & ->)]]; try reflexivity;
      exfalso; rewrite !last_bytes_app in E by (vm_compute; repeat constructor); vm_compute in E; discriminate E. }
  apply app_inv_tail in E. apply app_inv_tail in E. exact E.
Qed.
