(** * Every writer on a device that fills up (stated in P_Fault.v).

    [file_write_fails] (FileThms.v) says this of finalfusion files of
    constructible embeddings; here it is shown for the writers of all formats,
    for all embeddings. *)
From Verif Require Import Base BaseFacts Utf8 Stream StreamFacts F32 ChunkIO Subword
  Vocab Storage Embeddings FileSpec TextIO FastText Endian.
Local Open Scope N_scope.

(** On a device with room for [cap] bytes, [w] behaves as without a limit if
    what it writes fits; otherwise it stops with the error of the device,
    having written the first [cap] bytes. *)
Definition fills_up {A} (w : writer A) : Prop :=
  forall base cap, exists r bytes,
  w (mkSink base [] None) = (r, mkSink base bytes None) /\
  w (mkSink base [] (Some cap))
  = if lenN bytes <=? cap then (r, mkSink base bytes (Some cap))
    else (Err EWrite, mkSink base (takeN cap bytes) (Some cap)).

(** The same behind bytes that have been written before: [w] ends with [r]
    and adds [more]; [es] has, for each of these bytes, the error that is
    reported if it is the first byte that does not fit. *)
Definition reports {A} (w : writer A) (base : N) (out : list byte) (r : res A) (more : list byte) (es : list error) : Prop :=
  w (mkSink base out None) = (r, mkSink base (out ++ more) None) /\ lenN es = lenN more /\
  forall cap, lenN out <= cap ->
  w (mkSink base out (Some cap))
  = match nthN es (cap - lenN out) with
    | None => (r, mkSink base (out ++ more) (Some cap))
    | Some e => (Err e, mkSink base (takeN cap (out ++ more)) (Some cap))
    end.
(** The errors are among [E]. *)
Definition appends_with (E : error -> Prop) {A} (w : writer A) : Prop :=
  forall base out, exists r more es, reports w base out r more es /\ Forall E es.
Notation appends := (appends_with (eq EWrite)).
(** Failures of the device. *)
Definition io_error (e : error) : Prop := e = EWrite \/ e = ERead.
Definition io_failed {A} (x : res A) : Prop := x = Err EWrite \/ x = Err ERead.

Lemma appends_weaken (E E' : error -> Prop) {A} (w : writer A) : (forall e, E e -> E' e) -> appends_with E w -> appends_with E' w.
Proof. intros I H base out. destruct (H base out) as (r & more & es & R & F). exists r, more, es. split; [exact R|]. eapply Forall_impl; [apply I|exact F]. Qed.

Lemma appends_fills_up {A} (w : writer A) : appends w -> fills_up w.
Proof.
  intros H base cap. destruct (H base []) as (r & more & es & (E & L & C) & F). cbn [app] in E, C.
  exists r, more. split; [exact E|]. rewrite C by (rewrite lenN_nil; lia). rewrite lenN_nil, N.sub_0_r.
  destruct (nthN es cap) as [e|] eqn:X.
  - rewrite (proj2 (N.leb_gt _ _)) by (rewrite <- L; apply nthN_Some_lt in X; exact X).
    rewrite nthN_spec in X. apply nth_error_In in X. rewrite Forall_forall in F. rewrite <- (F _ X). reflexivity.
  - rewrite (proj2 (N.leb_le _ _)) by (rewrite <- L; apply nthN_None in X; exact X). reflexivity.
Qed.

Lemma reports_pure {A} (r : res A) base out : reports (fun s => (r, s)) base out r [] [].
Proof.
  unfold reports. rewrite app_nil_r. split; [reflexivity|]. split; [reflexivity|]. intros cap L. rewrite nthN_spec. destruct (N.to_nat _); reflexivity.
Qed.
Lemma appends_pure (E : error -> Prop) {A} (r : res A) : appends_with E (fun s => (r, s)).
Proof. intros base out. exists r, [], []. split; [apply reports_pure|constructor]. Qed.
Lemma appends_ret (E : error -> Prop) {A} (a : A) : appends_with E (ret a).
Proof. exact (appends_pure E (Ok a)). Qed.
Lemma appends_lift (E : error -> Prop) {A} (r : res A) : appends_with E (lift r).
Proof. exact (appends_pure E r). Qed.
Lemma appends_fail (E : error -> Prop) {A} e : appends_with E (@fail sink A e).
Proof. exact (appends_pure E (Err e)). Qed.

Lemma appends_wposition (E : error -> Prop) : appends_with E wposition.
Proof.
  intros base out. exists (Ok (base + lenN out)), [], []. split; [|constructor]. unfold reports. rewrite app_nil_r. split; [reflexivity|]. split; [reflexivity|].
  intros cap L. rewrite nthN_spec. destruct (N.to_nat _); reflexivity.
Qed.

Lemma takeN_app_past {A} n (a b : list A) : lenN a <= n -> takeN n (a ++ b) = a ++ takeN (n - lenN a) b.
Proof. intros L. apply takeN_app_ge. lia. Qed.
Lemma nthN_repeat {A} (x : A) (n : nat) i : nthN (repeat x n) i = if i <? N.of_nat n then Some x else None.
Proof.
  rewrite nthN_spec. destruct (N.ltb_spec i (N.of_nat n)) as [L|L].
  - rewrite nth_error_repeat by lia. reflexivity.
  - apply nth_error_None. rewrite repeat_length. lia.
Qed.
Lemma reports_bytes bs base out : reports (write_bytes bs) base out (Ok tt) bs (repeat EWrite (length bs)).
Proof.
  unfold reports. split; [reflexivity|]. split; [apply lenN_repeat|].
  intros cap L. rewrite nthN_repeat. change (N.of_nat (length bs)) with (lenN bs). unfold write_bytes, push. cbn [k_cap k_out k_base].
  destruct (N.leb_spec (lenN out + lenN bs) cap) as [Q|Q].
  - rewrite (proj2 (N.ltb_ge _ _)) by lia. reflexivity.
  - rewrite (proj2 (N.ltb_lt _ _)) by lia. rewrite takeN_app_past by exact L. reflexivity.
Qed.
Lemma reports_as_read {A} (w : writer A) base out a more es : reports w base out (Ok a) more es ->
  reports (as_read w) base out (Ok a) more (repeat ERead (length es)).
Proof.
  intros (E & L & C). unfold reports, as_read. rewrite E. split; [reflexivity|]. split; [rewrite lenN_repeat; exact L|].
  intros cap LC. rewrite (C cap LC), nthN_repeat. change (N.of_nat (length es)) with (lenN es). destruct (nthN es _) as [e|] eqn:X.
  - apply nthN_Some_lt in X. rewrite (proj2 (N.ltb_lt _ _) X). reflexivity.
  - apply nthN_None in X. rewrite (proj2 (N.ltb_ge _ _) X). reflexivity.
Qed.
Lemma appends_write_bytes bs : appends (write_bytes bs).
Proof. intros base out. do 3 eexists. split; [apply reports_bytes|]. apply Forall_forall. intros e H. apply repeat_spec in H. auto. Qed.
Lemma appends_as_read bs : appends_with io_error (as_read (write_bytes bs)).
Proof. intros base out. do 3 eexists. split; [apply reports_as_read, reports_bytes|]. apply Forall_forall. intros e H. apply repeat_spec in H. right. exact H. Qed.

Lemma reports_bind {A B} (m : writer A) (k : A -> writer B) base out a more es r more' es' :
  reports m base out (Ok a) more es -> reports (k a) base (out ++ more) r more' es' ->
  reports (bind m k) base out r (more ++ more') (es ++ es').
Proof.
  intros (E & L & C) (E' & L' & C'). rewrite <- app_assoc in E', C'. unfold reports, bind. rewrite E. split; [exact E'|]. split; [rewrite !lenN_app; lia|].
  intros cap LC. rewrite (C cap LC). destruct (nthN es (cap - lenN out)) as [e|] eqn:X.
  - pose proof (nthN_Some_lt _ _ _ X) as Q. rewrite nthN_app1 by exact Q. rewrite X.
    rewrite app_assoc, (takeN_app_le cap (out ++ more)) by (rewrite lenN_app; lia). reflexivity.
  - apply nthN_None in X. rewrite nthN_app2 by exact X. rewrite C' by (rewrite lenN_app; lia).
    rewrite lenN_app. replace (cap - (lenN out + lenN more)) with (cap - lenN out - lenN es) by lia. reflexivity.
Qed.
Lemma reports_stop {A B} (m : writer A) (k : A -> writer B) base out (r : res A) (r' : res B) more es :
  match r with Ok _ => False | Err e => r' = Err e | Panic p => r' = Panic p end ->
  reports m base out r more es -> reports (bind m k) base out r' more es.
Proof.
  intros S (E & L & C). unfold reports, bind. rewrite E. destruct r as [a|e|p]; [contradiction| |]; subst r'; (split; [reflexivity|]; split; [exact L|]);
    intros cap LC; rewrite (C cap LC); destruct (nthN es (cap - lenN out)); reflexivity.
Qed.
Lemma appends_bind (E : error -> Prop) {A B} (m : writer A) (k : A -> writer B) :
  appends_with E m -> (forall a, appends_with E (k a)) -> appends_with E (bind m k).
Proof.
  intros HM HK base out. destruct (HM base out) as (r & more & es & R & F). destruct r as [a|e|p].
  - destruct (HK a base (out ++ more)) as (r' & more' & es' & R' & F'). exists r', (more ++ more'), (es ++ es').
    split; [eapply reports_bind; eassumption|]. apply Forall_app. auto.
  - exists (Err e), more, es. split; [|exact F]. eapply reports_stop; [|exact R]. reflexivity.
  - exists (Panic p), more, es. split; [|exact F]. eapply reports_stop; [|exact R]. reflexivity.
Qed.

Lemma appends_for_each (E : error -> Prop) {A} (l : list A) (f : A -> writer unit) :
  (forall a, appends_with E (f a)) -> appends_with E (for_each l f).
Proof.
  intros H. induction l as [|a l IH]; cbn [for_each]; [apply appends_ret|].
  apply appends_bind; [apply H|intros _; exact IH].
Qed.

Ltac app :=
  repeat (match goal with
  | |- appends (bind _ _) => apply appends_bind; [|intros ?]
  | |- appends (ret _) => apply appends_ret
  | |- appends (lift _) => apply appends_lift
  | |- appends (fail _) => apply appends_fail
  | |- appends wposition => apply appends_wposition
  | |- appends (write_bytes _) => apply appends_write_bytes
  | |- appends (write_u8 _) => apply appends_write_bytes
  | |- appends (write_u32 _) => apply appends_write_bytes
  | |- appends (write_u64 _) => apply appends_write_bytes
  | |- appends (for_each _ _) => apply appends_for_each; intros ?
  | |- appends (let '(_, _) := ?x in _) => destruct x
  | |- appends (match ?x with _ => _ end) => destruct x
  | H : _ |- _ => apply H
  end).

Lemma appends_f32s l : appends (write_f32s l).
Proof. unfold write_f32s. app. Qed.
Lemma appends_items l : appends (write_items l).
Proof. unfold write_items, write_string. app. Qed.
Lemma appends_header l : appends (write_header l).
Proof. unfold write_header. app. Qed.
Lemma appends_metadata T t : appends (write_metadata T t).
Proof. unfold write_metadata. app. Qed.
Lemma appends_norms l : appends (write_norms l).
Proof. unfold write_norms. app. apply appends_f32s. Qed.

Lemma appends_ndarray a : appends (write_ndarray a).
Proof. unfold write_ndarray. app. apply appends_f32s. Qed.
Lemma appends_quantized q : appends (write_quantized q).
Proof. unfold write_quantized. app; apply appends_f32s. Qed.

Lemma appends_storage s : appends (write_storage_wrap s).
Proof.
  destruct s; cbn [write_storage_wrap].
  - apply appends_ndarray.
  - apply appends_quantized.
  - unfold write_mmap_ndarray. app; apply appends_ndarray.
  - unfold write_mmap_quantized. app. apply appends_quantized.
Qed.

Lemma appends_storage_view s : appends (write_storage_view_wrap s).
Proof.
  destruct s; cbn [write_storage_view_wrap].
  - apply appends_ndarray.
  - unfold write_mmap_ndarray. app; apply appends_ndarray.
Qed.

Lemma appends_vocab v : appends (write_vocab_wrap v).
Proof.
  destruct v; cbn [write_vocab_wrap];
    unfold write_explicit, write_ngrams_with_indices, write_bucketed, write_floret, write_simple, write_string; app;
    apply appends_items.
Qed.

Lemma appends_embeddings T {V S} (VC : chunk_ops V) (SC : chunk_ops S) e :
  appends (ck_write VC (em_vocab e)) -> appends (ck_write SC (em_storage e)) ->
  appends (write_embeddings T VC SC e).
Proof.
  intros HV HS. unfold write_embeddings. app;
    first [apply appends_header|apply appends_metadata|apply appends_norms].
Qed.

Lemma file_fills_up T (e : emb T) : fills_up (write_file T e).
Proof. apply appends_fills_up, appends_embeddings; [apply appends_vocab|apply appends_storage]. Qed.

Lemma text_fills_up P {Md V S} (VO : vocab_ops V) (SO : storage_ops f32 S) u
  (e : embeddings Md V S f32) : fills_up (write_text P VO SO u e).
Proof. apply appends_fills_up. unfold write_text. app. Qed.
Lemma text_dims_fills_up P {Md V S} (VO : vocab_ops V) (SO : storage_ops f32 S) u
  (e : embeddings Md V S f32) : fills_up (write_text_dims P VO SO u e).
Proof. apply appends_fills_up. unfold write_text_dims, write_text. app. Qed.
Lemma word2vec_fills_up {Md V S} (VO : vocab_ops V) (SO : storage_ops f32 S) u
  (e : embeddings Md V S f32) : fills_up (write_word2vec VO SO u e).
Proof. apply appends_fills_up. unfold write_word2vec. app. apply appends_f32s. Qed.

Lemma floret_fills_up P pf {Md} (e : embeddings Md (subword_vocab floret_indexer) (array2 f32) f32) :
  fills_up (write_floret_text P pf e).
Proof. apply appends_fills_up. unfold write_floret_text. app. Qed.

(** fastText files start with 92 bytes, followed by the words; the last byte
    of a word's entry is its type (/repo/src/compat/fasttext/io.rs, lines
    580-593). *)
Fixpoint entry_type_at (pos : N) (words : list str) (cap : N) : bool :=
  match words with
  | [] => false
  | w :: ws => (cap =? pos + lenN w + 9) || entry_type_at (pos + lenN w + 10) ws cap
  end.
Definition entry_errors (w : str) : list error := repeat EWrite (length w + 9) ++ [ERead].
Lemma reports_entries words : forall base out, exists more,
  reports (for_each words (fun w => write_bytes w ;;; write_u8 0 ;;; write_u64 0 ;;; write_entry_type)) base out (Ok tt) more (flat_map entry_errors words).
Proof.
  induction words as [|w ws IH]; intros base out; cbn [for_each flat_map].
  - exists []. apply (reports_pure (Ok tt)).
  - set (bs := w ++ le_bytes 1 0 ++ le_bytes 8 0 ++ le_bytes 1 0). destruct (IH base (out ++ bs)) as [more R]. exists (bs ++ more).
    eapply reports_bind; [|exact R]. unfold bs, entry_errors.
    replace (repeat EWrite (length w + 9) ++ [ERead]) with (repeat EWrite (length w) ++ (repeat EWrite 1 ++ (repeat EWrite 8 ++ repeat ERead 1))).
    2:{ rewrite (repeat_app EWrite (length w) 9), <- app_assoc. reflexivity. }
    eapply reports_bind; [apply reports_bytes|]. eapply reports_bind; [apply (reports_bytes (le_bytes 1 0))|]. eapply reports_bind; [apply (reports_bytes (le_bytes 8 0))|].
    apply (reports_as_read _ _ _ tt _ (repeat EWrite 1)). apply (reports_bytes (le_bytes 1 0)).
Qed.
Lemma entry_errors_at words : forall pos cap, pos <= cap -> cap - pos < lenN (flat_map entry_errors words) ->
  nthN (flat_map entry_errors words) (cap - pos) = Some (if entry_type_at pos words cap then ERead else EWrite).
Proof.
  induction words as [|w ws IH]; intros pos cap P L; cbn [flat_map entry_type_at] in *; [rewrite lenN_nil in L; lia|].
  assert (lenN (entry_errors w) = lenN w + 10) as LE.
  { unfold entry_errors. rewrite lenN_app, lenN_repeat. unfold lenN. cbn [length]. lia. }
  destruct (N.ltb_spec (cap - pos) (lenN w + 10)) as [Q|Q].
  - rewrite nthN_app1 by lia. assert (entry_type_at (pos + lenN w + 10) ws cap = false) as ->.
    { assert (cap < pos + lenN w + 10) as Q' by lia. clear - Q'. revert Q'. generalize (pos + lenN w + 10). induction ws as [|v ws IH]; intros p Q'; cbn [entry_type_at]; [reflexivity|].
      rewrite (proj2 (N.eqb_neq _ _)) by lia. apply IH. lia. }
    rewrite Bool.orb_false_r. unfold entry_errors. destruct (N.eqb_spec cap (pos + lenN w + 9)) as [->|NE].
    + replace (pos + lenN w + 9 - pos) with (lenN (repeat EWrite (length w + 9))) by (rewrite lenN_repeat; unfold lenN; lia).
      rewrite nthN_app2, N.sub_diag by lia. reflexivity.
    + rewrite nthN_app1 by (rewrite lenN_repeat; unfold lenN in *; lia). rewrite nthN_repeat, (proj2 (N.ltb_lt _ _)) by (unfold lenN in *; lia). reflexivity.
  - rewrite lenN_app in L. rewrite nthN_app2 by lia. rewrite LE. replace (cap - pos - (lenN w + 10)) with (cap - (pos + lenN w + 10)) by lia.
    rewrite IH by lia. rewrite (proj2 (N.eqb_neq cap _)) by lia. reflexivity.
Qed.
Lemma entry_type_before words : forall pos cap, cap < pos -> entry_type_at pos words cap = false.
Proof. induction words as [|w ws IH]; intros pos cap L; cbn [entry_type_at]; [reflexivity|]. rewrite (proj2 (N.eqb_neq _ _)) by lia. apply IH. lia. Qed.
Lemma entry_type_after words : forall pos cap, pos + lenN (flat_map entry_errors words) <= cap -> entry_type_at pos words cap = false.
Proof.
  induction words as [|w ws IH]; intros pos cap L; cbn [entry_type_at flat_map] in *; [reflexivity|].
  assert (lenN (entry_errors w) = lenN w + 10) as LE.
  { unfold entry_errors. rewrite lenN_app, lenN_repeat. unfold lenN. cbn [length]. lia. }
  rewrite lenN_app in L. rewrite (proj2 (N.eqb_neq _ _)) by lia. apply IH. lia.
Qed.

(** Everything else in the file is reported as a failure to write. *)
Lemma fasttext_fills_up pf T {S} (SO : storage_ops f32 S)
  (e : embeddings (toml_table T) (subword_vocab ft_indexer) S f32) : forall base cap, exists r bytes,
  write_fasttext pf T SO e (mkSink base [] None) = (r, mkSink base bytes None) /\
  write_fasttext pf T SO e (mkSink base [] (Some cap))
  = if lenN bytes <=? cap then (r, mkSink base bytes (Some cap))
    else (Err (if entry_type_at 92 (sv_words (em_vocab e)) cap then ERead else EWrite), mkSink base (takeN cap bytes) (Some cap)).
Proof.
  intros base cap.
  assert (exists r bytes es, reports (write_fasttext pf T SO e) base [] r bytes es /\
    ((Forall (eq EWrite) es /\ lenN es <= 92) \/ exists es2, Forall (eq EWrite) es2 /\ es = repeat EWrite 92 ++ flat_map entry_errors (sv_words (em_vocab e)) ++ es2)) as (r & bytes & es & (E & L & C) & X).
  2:{ exists r, bytes. split; [exact E|]. rewrite C by (rewrite lenN_nil; lia). rewrite lenN_nil, N.sub_0_r, <- L.
      destruct (nthN es cap) as [x|] eqn:Y.
      - pose proof (nthN_Some_lt _ _ _ Y) as Q. rewrite (proj2 (N.leb_gt _ _) Q). cbn [app]. do 3 f_equal. 
        destruct X as [[F L92]|(es2 & F & ->)].
        + rewrite entry_type_before by lia. rewrite nthN_spec in Y. apply nth_error_In in Y. rewrite Forall_forall in F. symmetry. apply F, Y.
        + destruct (N.ltb_spec cap 92) as [B|B].
          * rewrite entry_type_before by exact B. rewrite nthN_app1 in Y by exact B. rewrite nthN_repeat, (proj2 (N.ltb_lt _ _)) in Y by exact B. congruence.
          * rewrite nthN_app2 in Y by exact B. change (lenN (repeat EWrite 92)) with 92 in *.
            destruct (N.ltb_spec (cap - 92) (lenN (flat_map entry_errors (sv_words (em_vocab e))))) as [D|D].
            -- rewrite nthN_app1, entry_errors_at in Y by assumption. congruence.
            -- rewrite nthN_app2 in Y by exact D. rewrite entry_type_after by lia. rewrite nthN_spec in Y. apply nth_error_In in Y. rewrite Forall_forall in F. symmetry. apply F, Y.
      - apply nthN_None in Y. rewrite (proj2 (N.leb_le _ _) Y). reflexivity. }
  unfold write_fasttext.
  destruct (fi_buckets (sv_ix (em_vocab e)) <? two32); [|exists (Err EOverflow), [], []; split; [apply (reports_pure (Err EOverflow))|left; split; [constructor|rewrite lenN_nil; lia]]].
  destruct (snd (st_shape SO (em_storage e)) <? two32); [|exists (Err EOverflow), [], []; split; [apply (reports_pure (Err EOverflow))|left; split; [constructor|rewrite lenN_nil; lia]]].
  unfold bind at 1, lift at 1. unfold bind at 1, lift at 1. cbv zeta.
  set (c := mkFtCfg _ _ _ _ _ _ _ _ _ _ _ _ _).
  assert (forall base out, exists more, reports (write_config c) base out (Ok tt) more (repeat EWrite 56)) as WC.
  { intros b o. eexists. unfold write_config. change (repeat EWrite 56) with (repeat EWrite 4 ++ repeat EWrite 4 ++ repeat EWrite 4 ++ repeat EWrite 4 ++ repeat EWrite 4 ++ repeat EWrite 4 ++
      repeat EWrite 4 ++ repeat EWrite 4 ++ repeat EWrite 4 ++ repeat EWrite 4 ++ repeat EWrite 4 ++ repeat EWrite 4 ++ repeat EWrite 8).
    repeat (eapply reports_bind; [apply (reports_bytes (le_bytes 4 _))|]). apply (reports_bytes (le_bytes 8 _)). }
  destruct (WC base ([] ++ le_bytes 4 ft_magic ++ le_bytes 4 ft_version)) as [mc RC].
  assert (forall {A} (k : writer A) r more es, reports k base (([] ++ le_bytes 4 ft_magic ++ le_bytes 4 ft_version) ++ mc) r more es ->
    reports (write_u32 ft_magic ;;; write_u32 ft_version ;;; write_config c ;;; k) base [] r (le_bytes 4 ft_magic ++ le_bytes 4 ft_version ++ mc ++ more) (repeat EWrite 4 ++ repeat EWrite 4 ++ repeat EWrite 56 ++ es)) as PRE.
  { intros A k r more es R. eapply reports_bind; [apply (reports_bytes (le_bytes 4 _))|]. eapply reports_bind; [apply (reports_bytes (le_bytes 4 _))|].
    rewrite <- app_assoc. eapply reports_bind; [exact RC|exact R]. }
  set (out1 := ([] ++ le_bytes 4 ft_magic ++ le_bytes 4 ft_version) ++ mc) in *.
  unfold write_ft_vocab. destruct (sub_words_len (em_vocab e) <? two32).
  2:{ do 3 eexists. split; [apply PRE; apply (reports_stop _ _ _ _ (Err EOverflow) (Err EOverflow)); [reflexivity|]; apply (reports_stop _ _ _ _ (Err EOverflow) (Err EOverflow)); [reflexivity|]; apply (reports_pure (Err EOverflow))|].
      left. split; [|vm_compute; discriminate]. apply Forall_forall. intros x I.
      rewrite !in_app_iff in I. destruct I as [I|[I|[I|I]]]; [apply repeat_spec in I; auto..|contradiction]. }
  set (n := sub_words_len (em_vocab e)).
  set (hd := le_bytes 4 n ++ le_bytes 4 n ++ le_bytes 4 0 ++ le_bytes 8 0 ++ le_bytes 8 (two64 - 1)).
  destruct (reports_entries (sv_words (em_vocab e)) base (out1 ++ hd)) as [me RE].
  assert (appends (write_u8 0 ;;; write_ft_matrix pf T SO e)) as AM by (unfold write_ft_matrix; app; apply appends_f32s).
  destruct (AM base (out1 ++ hd ++ me)) as (r & mm & es2 & RM & FM).
  exists r, (le_bytes 4 ft_magic ++ le_bytes 4 ft_version ++ mc ++ (hd ++ me) ++ mm), (repeat EWrite 4 ++ repeat EWrite 4 ++ repeat EWrite 56 ++ ((repeat EWrite 4 ++ repeat EWrite 4 ++ repeat EWrite 4 ++ repeat EWrite 8 ++ repeat EWrite 8) ++ flat_map entry_errors (sv_words (em_vocab e))) ++ es2).
  split.
  - apply PRE. eapply reports_bind; [|exact RM]. unfold bind at 1, lift at 1. unfold hd in *.
    rewrite <- !app_assoc. 
    eapply reports_bind; [apply (reports_bytes (le_bytes 4 _))|]. eapply reports_bind; [apply (reports_bytes (le_bytes 4 _))|]. eapply reports_bind; [apply (reports_bytes (le_bytes 4 _))|].
    eapply reports_bind; [apply (reports_bytes (le_bytes 8 _))|]. eapply reports_bind; [apply (reports_bytes (le_bytes 8 _))|]. rewrite <- !app_assoc. exact RE.
  - right. exists es2. split; [exact FM|]. rewrite <- !app_assoc. reflexivity.
Qed.
