(** * The texts for files that were cut. *)
From Coq Require Import Strings.String.
From Verif Require Import Base BaseFacts Utf8 Stream F32 ChunkIO Subword Vocab Storage Embeddings FileSpec Messages MessageSpec.
Local Open Scope N_scope.

Definition known_field (f : field) : Prop :=
  match f with Fld _ e => exists w, In w cut_texts /\ display e = txt w | Pad _ => True end.
Lemma known_missing fs i err : Forall known_field fs -> missing fs i = Some err -> exists w, In w cut_texts /\ display err = txt w.
Proof.
  intros F. revert i. induction F as [|[n e|n] fs K F IH]; intros i H; cbn [missing] in H; [discriminate| |eauto].
  destruct (i <? n); [inv H; exact K|eauto].
Qed.
Lemma known_rd n w : existsb (String.eqb w) cut_texts = true -> known_field (rd n w).
Proof.
  intros H. apply existsb_exists in H as (x & I & E). apply String.eqb_eq in E. subst x. exists w. split; [exact I|reflexivity].
Qed.
Ltac known := repeat first [apply Forall_nil | apply Forall_app; split | apply Forall_cons |
  exact I | apply known_rd; reflexivity ].
Lemma known_strings words : Forall known_field (flat_map string_fields words).
Proof. induction words; cbn [flat_map]; [constructor|]. apply Forall_app. split; [unfold string_fields; known|assumption]. Qed.
Lemma known_ngrams words : Forall known_field (flat_map ngram_fields words).
Proof. induction words; cbn [flat_map]; [constructor|]. apply Forall_app. split; [unfold ngram_fields; known|assumption]. Qed.
Lemma known_marker w s : existsb (String.eqb w) cut_texts = true -> Forall known_field (marker_fields w s).
Proof.
  intros H. apply existsb_exists in H as (x & I & E). apply String.eqb_eq in E. subst x.
  repeat constructor; exists w; (split; [exact I|reflexivity]).
Qed.
Ltac known' := repeat first [apply known_marker; reflexivity | apply known_strings | apply known_ngrams | apply Forall_nil |
  apply Forall_app; split | apply Forall_cons | exact I | apply known_rd; reflexivity ].
Lemma known_vocab v : Forall known_field (vocab_fields v).
Proof.
  destruct v; cbn [vocab_fields]; unfold simple_fields, bucket_fields, explicit_fields, floret_fields;
    known'.
Qed.
Lemma known_storage s pos : Forall known_field (storage_fields s pos).
Proof.
  destruct s; cbn [storage_fields]; unfold nd_fields, qa_fields; known; destruct (is_some _); known.
Qed.
Lemma known_skip fs : Forall known_field fs -> Forall known_field (skip_last fs).
Proof.
  intros F. induction F as [|f fs K F IH]; cbn [skip_last]; [constructor|]. destruct fs; constructor; auto. exact I.
Qed.
Lemma known_front {T} (e : emb T) : Forall known_field (front_fields e).
Proof.
  unfold front_fields. rewrite !Forall_app. split; [|split; [destruct (em_meta e); unfold metadata_fields; known|apply known_vocab]].
  unfold header_fields. apply Forall_app. split; [known|].
  apply Forall_forall. intros x H. apply repeat_spec in H. subst x. apply known_rd. reflexivity.
Qed.
Lemma cut_known {T : toml_ops} (e : emb T) s0 base i err :
  missing (main_fields e s0 base) i = Some err \/ missing (mapped_fields e s0 base) i = Some err ->
  exists w, In w cut_texts /\ display err = txt w.
Proof.
  intros [H|H]; eapply known_missing in H; try exact H; apply Forall_app; (split; [apply known_front|]);
    [|apply known_skip]; apply known_storage.
Qed.
(** Markers are named, not their lengths. *)
Lemma cut_marker v i err : let fs := vocab_fields (VFloret v) in
  missing fs i = Some err -> 36 <= i ->
  display err = txt (if i <? 40 + lenN (sv_bow v) then "Cannot read begin of word marker" else "Cannot read end of word marker").
Proof.
  intros fs M L. unfold fs, vocab_fields, floret_fields, marker_fields, rd in M. cbn [app missing] in M. clear fs.
  replace (i - 4 - 8 - 4 - 4 - 8 - 4 - 4) with (i - 36) in M by lia.
  do 7 match type of M with (if ?a <? ?b then _ else _) = _ => destruct (N.ltb_spec a b) as [X|_]; [lia|] end.
  destruct (N.ltb_spec (i - 36) 4) as [X|X].
  { injection M as <-. destruct (N.ltb_spec i (40 + lenN (sv_bow v))); [reflexivity|lia]. }
  destruct (N.ltb_spec (i - 36 - 4) (lenN (sv_bow v))) as [Y|Y].
  { injection M as <-. destruct (N.ltb_spec i (40 + lenN (sv_bow v))); [reflexivity|lia]. }
  destruct (N.ltb_spec i (40 + lenN (sv_bow v))); [lia|].
  repeat match type of M with (if ?c then _ else _) = _ => destruct c; [injection M as <-; reflexivity|] end. discriminate.
Qed.
