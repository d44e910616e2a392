(** * fastText files in [f32] (C97). *)
From Coq Require Import Reals Lra.
From Verif Require Import Base BaseFacts Utf8 Stream F32 ChunkIO Subword Vocab Storage Embeddings TextIO FastText FileSpec VocabSpec EmbSpec EmbFacts MatrixFacts LookupFacts VocabFacts
  F32RoundSpec SumSpec TripSpec FastTextSpec FastTextFacts FastTextReal FastTextThms FtRound.
Local Open Scope R_scope.

Lemma selects_Forall {A} (P : A -> Prop) rows is rs : Forall P rows -> selects rows is rs -> Forall P rs.
Proof. intros F. unfold selects. induction 1 as [|i r is rs E S IH]; constructor; [|exact IH]. rewrite Forall_forall in F. apply F. eapply nthN_In, E. Qed.
Lemma selects_one {A} (rows : list A) is rs rs' : selects rows is rs -> selects rows is rs' -> rs' = rs.
Proof. intros S. revert rs'. unfold selects in *. induction S as [|i r is rs E S IH]; intros rs' S'; inversion S'; subst; [reflexivity|]. f_equal; [congruence|auto]. Qed.

Lemma mean_f32 cols own rs r n : lenN own = cols -> Forall (fun r => lenN r = cols) rs -> (cols <= 4194304)%N -> plain_mean cols own rs ->
  scaled_by_length f32_ops (mean_row f32_ops own rs) r n -> near_mean cols own rs r n.
Proof. intros L LR C (F & K & TB & B & CO) SC. apply (mean_near cols own rs r n L LR C K F TB B CO SC). Qed.
Lemma word_f32 cols d n rs d' n' : lenN d = cols -> Forall (fun r => lenN r = cols) rs -> (cols <= 4194304)%N -> plain_ft_word d n rs ->
  scaled_by_length f32_ops (mean_row f32_ops (unmean_row f32_ops d n rs) rs) d' n' -> near_ft_word cols d n rs d' n'.
Proof.
  intros L LR C (F & K & TB & s & V & S0 & B & CO) SC. destruct (unmean_mean_near cols d n s rs d' n' L LR C K F V S0 TB B CO SC) as (nv & H).
  exists s, nv. split; [exact V|exact H].
Qed.

(** Reading. *)
Lemma ft_read_f32 pf (T : toml_ops) (config_table : ft_config -> option (toml_table T)) lossy data e :
  run_reader (read_fasttext pf T config_table lossy) data = Ok e ->
  exists f c ws rest, data = ft_bytes f ++ rest /\ ft_config_is f c /\ ft_words lossy f ws /\
  (fc_bucket c <> 0%N -> exists subs ns, sv_words (em_vocab e) = ws /\ subwords_are (em_vocab e) subs /\ em_norms e = Some ns /\
   forall i w own rs, nthN ws i = Some w -> nthN (a2_rows (ff_matrix f)) i = Some own -> selects (a2_rows (ff_matrix f)) (subs w) rs ->
   (a2_cols (ff_matrix f) <= 4194304)%N -> plain_mean (a2_cols (ff_matrix f)) own rs ->
   exists r n, nthN (a2_rows (em_storage e)) i = Some r /\ nthN ns i = Some n /\ near_mean (a2_cols (ff_matrix f)) own rs r n).
Proof.
  intros H. destruct (ft_accepted _ _ _ _ _ _ H) as (f & c & ws & rest & E & FO & Sp & CI & W & (WF & _) & NQ & ND & BB & RG & LRW & HR).
  exists f, c, ws, rest. split; [exact E|]. split; [exact CI|]. split; [exact W|]. intros NZ. destruct (HR NZ) as (subs & SN & SA & (rows & ns & (_ & _ & AV) & (_ & _ & _ & FN) & EN) & _).
  assert (sv_words (em_vocab e) = ws) as EW by (apply sub_new_Ok in SN as (_ & -> & _); reflexivity).
  exists subs, ns. split; [exact EW|]. split; [exact SA|]. split; [exact EN|]. intros i w own rs Ew Eo Sel C PM. rewrite EW in AV.
  destruct (AV i w Ew) as (own' & rs' & Eo' & Sel' & Er). rewrite Eo in Eo'. injection Eo' as <-. apply (selects_one _ _ _ _ Sel) in Sel'. subst rs'.
  destruct (FN i _ (nthN_Some_lt _ _ _ Ew) Er) as (r & n & E1 & E2 & SC). exists r, n. split; [exact E1|]. split; [exact E2|].
  apply mean_f32; [|eapply selects_Forall; [exact WF|exact Sel]|exact C|exact PM|exact SC].
  unfold a2_wf in WF. rewrite Forall_forall in WF. apply WF. eapply nthN_In, Eo.
Qed.

(** Writing and reading. *)
Lemma ft_trip_f32 pf (T : toml_ops) (config_table : ft_config -> option (toml_table T)) S (SO : storage_ops f32 S)
  (e : embeddings (toml_table T) (subword_vocab ft_indexer) S f32) cols rows lossy base rest : ft_emb_made SO pf e cols rows ->
  (lenN (sv_words (em_vocab e)) < two32)%N -> (cols <= 4194304)%N -> (sv_min (em_vocab e) < two32)%N -> (sv_max (em_vocab e) < two32)%N ->
  dims_ok [lenN rows; cols] 4 -> Forall (fun w => ~ In x00 w) (sv_words (em_vocab e)) ->
  sv_bow (em_vocab e) = default_bow -> sv_eow (em_vocab e) = default_eow -> (forall c, config_table c <> None) ->
  exists subs out e' ns, run_writer (write_fasttext pf T SO e) base = Ok out /\
  run_reader (read_fasttext pf T config_table lossy) (out ++ rest) = Ok e' /\
  em_vocab e' = em_vocab e /\ a2_cols (em_storage e') = cols /\ em_norms e' = Some ns /\ lenN ns = lenN (sv_words (em_vocab e)) /\
  lenN (a2_rows (em_storage e')) = lenN rows /\ subwords_are (em_vocab e) subs /\
  (forall i, (lenN (sv_words (em_vocab e)) <= i)%N -> nthN (a2_rows (em_storage e')) i = nthN rows i) /\
  (forall i w, nthN (sv_words (em_vocab e)) i = Some w -> exists d rs, nthN rows i = Some d /\ selects rows (subs w) rs /\
   (plain_ft_word d (ft_norm f32_ops e i) rs ->
    exists d' n', nthN (a2_rows (em_storage e')) i = Some d' /\ nthN ns i = Some n' /\ near_ft_word cols d (ft_norm f32_ops e i) rs d' n')).
Proof.
  intros Mk LW LC Lmn Lmx D NZ Eb Ee CT.
  destruct (ft_round_trip pf T config_table SO e cols rows lossy base rest Mk LW ltac:(unfold two32; lia) Lmn Lmx D NZ Eb Ee CT)
    as (subs & rows1 & rows2 & out & e' & ns & EW & ER & EV & EC & SA & (L1 & S1 & W1) & (L2 & S2 & W2) & (L3 & LN & S3 & W3) & EN).
  destruct Mk as (_ & _ & _ & Mx & _). pose proof (sm_cols _ _ _ _ Mx) as WF.
  exists subs, out, e', ns. repeat (split; [first [eassumption|congruence]|]).
  split; [intros i Li; rewrite S3, S2, S1 by exact Li; reflexivity|].
  intros i w Ew. destruct (W1 i w Ew) as (d & rs & E1 & Sel1 & E1'). destruct (W2 i w Ew) as (own2 & rs2 & E2 & Sel2 & E2').
  assert (rs2 = rs) as ->.
  { eapply selects_above; [exact S1| |exact Sel1|exact Sel2].
    destruct (SA w (nthN_In _ _ _ Ew)) as (qs & iss & _ & _ & ->). apply Forall_map, Forall_forall. intros; lia. }
  rewrite E1' in E2. injection E2 as <-. exists d, rs. split; [exact E1|]. split; [exact Sel1|]. intros PW.
  destruct (W3 i _ (nthN_Some_lt _ _ _ Ew) E2') as (d' & n' & Ed & En & SC). exists d', n'. split; [exact Ed|]. split; [exact En|].
  apply word_f32; [|eapply selects_Forall; [exact WF|exact Sel1]|exact LC|exact PW|exact SC].
  rewrite Forall_forall in WF. apply WF. eapply nthN_In, E1.
Qed.
