(** * The fields of a file, as its writer and its readers name them. *)
From Coq Require Import Strings.String.
From Verif Require Import Base BaseFacts Utf8 Stream StreamFacts F32 ChunkIO ChunkFacts Subword Vocab VocabFacts Storage StorageFacts
  Embeddings EmbSpec FileSpec Messages MessageSpec MessageThms WriteMessages WriteSpec WriteTexts WriteRefuted.
Local Open Scope N_scope.

Lemma agree_flat {A} (f g : A -> list field) l : (forall a, Forall2 agree (f a) (g a)) -> Forall2 agree (flat_map f l) (flat_map g l).
Proof. intros H. induction l as [|a l IH]; cbn [flat_map]; [constructor|]. apply Forall2_app; auto. Qed.
Lemma agree_len ws rs : Forall2 agree ws rs -> fields_len ws = fields_len rs.
Proof.
  induction 1 as [|w r ws rs H HF IH]; [reflexivity|]. cbn [fields_len]. rewrite IH. f_equal.
  destruct w as [n e|n], r as [m e'|m]; cbn [agree field_len] in *; [exact H|apply H|destruct H..].
Qed.
Ltac ag := repeat (first [ apply Forall2_nil | (apply Forall2_cons; [first [reflexivity|(split; reflexivity)]|]) | (apply Forall2_app) | (apply agree_flat; intros ?) ]).

Lemma agree_vocab v : Forall2 agree (wvocab v) (vocab_fields v).
Proof.
  destruct v; unfold wvocab, vocab_fields, wbucket, simple_fields, bucket_fields, explicit_fields, floret_fields, wmarker, marker_fields; ag.
Qed.
Lemma agree_nd a pos : nd_ok a -> Forall2 agree (wnd a pos) (rd 4 "Cannot read storage chunk identifier" :: nd_fields a pos).
Proof.
  intros (W & _). unfold wnd, nd_fields. ag. constructor; [|constructor]. cbn [agree wd rd]. rewrite (nd_data_len a W). reflexivity.
Qed.
Lemma agree_qa q pos : qa_ok q -> Forall2 agree (wqa q pos) (rd 4 "Cannot read storage chunk identifier" :: qa_fields q pos).
Proof.
  intros (HP & W & WC & _ & _ & HN). pose proof HP as (PN & PP & CL & CW & _ & _ & _). destruct (cent_len _ CL CW) as [CE _].
  unfold wqa, qa_fields. cbv zeta.
  match goal with |- Forall2 _ (?a ++ ?b) (?c :: ?d ++ ?e) => change (Forall2 agree (a ++ b) ((c :: d) ++ e)) end.
  apply Forall2_app; [ag|]. apply Forall2_app; [|apply Forall2_app; [|apply Forall2_app]].
  - destruct (pq_proj (qa_pq q)) as [pr|] eqn:EP; cbn [is_some]; [|constructor]. constructor; [|constructor]. cbn [agree wd rd].
    destruct (PP _ eq_refl) as [PW _]. unfold pq_new in PN. rinv PN. rinv H0. apply rassert_Ok, andb_true_iff in H1 as [X1 X2].
    apply N.eqb_eq in X1, X2. fold (pq_rl (qa_pq q)) in X1, X2. rewrite (concat_lenN _ _ PW), X2. unfold a2_nrows in X1. rewrite X1. reflexivity.
  - constructor; [|constructor]. cbn [agree wd rd]. rewrite CE. lia.
  - destruct (qa_norms q) as [ns|] eqn:EN; cbn [is_some]; [|constructor]. constructor; [|constructor]. cbn [agree wd rd].
    destruct (HN _ eq_refl) as [-> _]. reflexivity.
  - constructor; [|constructor]. cbn [agree wd rd]. rewrite (concat_lenN _ _ W), WC. reflexivity.
Qed.
Lemma agree_storage s s0 pos : storage_holds s s0 -> Forall2 agree (wstorage s pos) (storage_fields s0 pos).
Proof.
  intros H. destruct H as [a H|q H|m a E H|m q E H]; cbn [wstorage storage_fields]; rewrite ?E; first [apply agree_nd, H|apply agree_qa, H].
Qed.
Lemma agree_header n : Forall2 agree (wheader n) (header_fields n).
Proof. unfold wheader, header_fields. ag. generalize (N.to_nat n). intros k. induction k as [|k IH]; cbn [repeat]; constructor; [reflexivity|exact IH]. Qed.

Section File.
  Context (pf : profile) (T : toml_ops) (te : str -> str) (e : emb T) (s0 : storage_wrap).
  Hypotheses (TL : toml_law T) (EB : emb_built pf T e s0).

  (** The two tables of a file. *)
  Lemma layout base : Forall2 agree (wfile e base) (main_fields e s0 base ++ last_fields e s0 base).
  Proof.
    pose proof EB as [_ HS _ _]. unfold wfile. cbv zeta. set (front := wheader _ ++ _ ++ _).
    assert (Forall2 agree front (front_fields e)) as HF.
    { unfold front, front_fields. apply Forall2_app; [apply agree_header|]. apply Forall2_app; [|apply agree_vocab].
      destruct (em_meta e); [unfold wmetadata, metadata_fields; ag|constructor]. }
    assert (Forall2 agree (front ++ wstorage (em_storage e) (base + fields_len front)) (main_fields e s0 base)) as HB.
    { unfold main_fields. apply Forall2_app; [exact HF|]. rewrite (agree_len _ _ HF). apply agree_storage, HS. }
    apply Forall2_app; [exact HB|]. unfold last_fields. rewrite <- (agree_len _ _ HB).
    destruct (em_norms e); [unfold wnorms, norms_fields; ag|constructor].
  Qed.

  Definition holds_byte (fs : list field) (n : nat) (c : N) : Prop :=
    exists f, nth_error fs n = Some f /\ fields_len (firstn n fs) <= c < fields_len (firstn n fs) + field_len f.
  Lemma missing_at fs c err : Forall (fun f => match f with Fld _ _ => True | Pad _ => False end) fs -> missing fs c = Some err ->
    exists n len, nth_error fs n = Some (Fld len err) /\ holds_byte fs n c.
  Proof.
    intros H. revert c. induction H as [|[m e'|m] fs H HF IH]; intros c; cbn [missing]; [discriminate| |destruct H].
    destruct (N.ltb_spec c m).
    - intros X. injection X as ->. exists 0%nat, m. split; [reflexivity|]. exists (Fld m err). split; [reflexivity|]. cbn [firstn fields_len field_len]. lia.
    - intros X. destruct (IH _ X) as (n & len & E & f & Ef & L). exists (S n), len. split; [exact E|]. exists f. split; [exact Ef|].
      cbn [firstn fields_len field_len]. lia.
  Qed.
  Lemma missing_here fs n c len err : nth_error fs n = Some (Fld len err) -> holds_byte fs n c -> missing fs c = Some err.
  Proof.
    intros E (f & Ef & L). rewrite E in Ef. injection Ef as <-. revert c fs E L. induction n as [|n IH]; intros c [|x fs] E L; try discriminate.
    - cbn in E. injection E as ->. cbn [firstn fields_len field_len missing] in *. destruct (N.ltb_spec c len); [reflexivity|lia].
    - cbn [nth_error] in E. cbn [firstn fields_len field_len] in L. cbn [missing]. destruct x as [m e'|m]; cbn [field_len] in L; [destruct (N.ltb_spec c m); [lia|]|];
        (apply IH; [exact E|cbn [field_len]; lia]).
  Qed.
  Lemma agree_nth ws rs n c : Forall2 agree ws rs -> holds_byte ws n c ->
    holds_byte rs n c /\ exists w r, nth_error ws n = Some w /\ nth_error rs n = Some r /\ agree w r.
  Proof.
    intros H. revert n c. induction H as [|w r ws rs H HF IH]; intros n c (f & E & L); [destruct n; discriminate|].
    assert (field_len w = field_len r) as EL.
    { destruct w as [k e'|k], r as [m e''|m]; cbn [agree field_len] in *; [exact H|apply H|destruct H..]. }
    destruct n as [|n].
    - cbn in E. injection E as <-. split; [|exists w, r; auto]. exists r. split; [reflexivity|]. cbn [firstn fields_len] in *. lia.
    - cbn [nth_error firstn fields_len] in *. destruct (IH n (c - field_len w)) as [(f' & E' & L') X]; [exists f; split; [exact E|lia]|].
      split; [|exact X]. exists f'. split; [exact E'|]. cbn [firstn fields_len]. lia.
  Qed.
  Lemma only_fields fs : write_only fs -> Forall (fun f => match f with Fld _ _ => True | Pad _ => False end) fs.
  Proof. apply Forall_impl. intros []; auto. Qed.

  (** A device that is full, and a reader of what is on it: both errors are
      about the same field. *)
  Theorem same_field base bytes b c : run_writer (write_file T e) base = Ok bytes -> c < lenN bytes ->
    exists n len werr k,
      nth_error (wfile e base) n = Some (Fld len werr) /\ holds_byte (wfile e base) n c /\
      tell_file T e (mkSink base [] (Some c)) = (MErr werr, k) /\ k_out k = takeN c bytes /\
      match nth_error (main_fields e s0 base) n with
      | Some (Fld len' rerr) => len' = len /\ holds_byte (main_fields e s0 base) n c /\
          exists s', read_file_d pf T te (mkBroken (k_out k) base b) = (MErr rerr, s')
      | Some (Pad len') => len' = len /\ werr = MWrite (txt "Cannot write padding")
      | None => exists ns s', read_file_d pf T te (mkBroken (k_out k) base b) = (MOk (loaded e s0 ns), s') /\
                (ns = None \/ em_norms e = Some [])
      end.
  Proof.
    intros R L. destruct (full_device T e base bytes R) as [_ H]. specialize (H c). destruct (N.leb_spec (lenN bytes) c); [lia|].
    destruct H as (werr & M & E). destruct (missing_at _ _ _ (only_fields _ (wfile_only e base)) M) as (n & len & En & Hn).
    exists n, len, werr. eexists. split; [exact En|]. split; [exact Hn|]. split; [exact E|]. split; [reflexivity|]. cbn [k_out].
    destruct (cut_read pf T te e s0 TL EB base bytes b c R) as [TOT C]; [lia|].
    destruct (agree_nth _ _ n c (layout base) Hn) as [(f & Ef & Lf) (w & r & Ew & Er & A)]. rewrite En in Ew. injection Ew as <-.
    destruct (nth_error (main_fields e s0 base) n) as [r'|] eqn:EM.
    - assert (n < length (main_fields e s0 base))%nat as Ln by (apply nth_error_Some; congruence).
      rewrite nth_error_app1, EM in Er, Ef by exact Ln. injection Er as <-. injection Ef as <-. rewrite firstn_app in Lf.
      replace (n - length (main_fields e s0 base))%nat with 0%nat in Lf by lia. cbn [firstn] in Lf. rewrite app_nil_r in Lf.
      destruct r' as [len' rerr|len']; cbn [agree] in A.
      + split; [auto|]. assert (holds_byte (main_fields e s0 base) n c) as HB by (eexists; split; [exact EM|exact Lf]).
        split; [exact HB|]. rewrite (missing_here _ _ _ _ _ EM HB) in C. exact C.
      + destruct A as [-> ->]. auto.
    - apply nth_error_None in EM. rewrite firstn_app, fields_len_app, firstn_all2 in Lf by exact EM.
      rewrite missing_full in C by lia. destruct C as (s' & C). do 2 eexists. split; [exact C|].
      destruct (missing (last_fields e s0 base) _) eqn:ML; [left; reflexivity|].
      unfold last_fields in *. destruct (em_norms e) as [[|x ns]|]; [right; reflexivity| |left; reflexivity]. exfalso.
      revert ML. unfold norms_fields, rd. cbn [missing]. rewrite lenN_cons. cbn [fields_len norms_fields rd field_len] in TOT. rewrite lenN_cons in TOT.
      repeat match goal with |- context [?a <? ?b] => destruct (N.ltb_spec a b); [discriminate|] end. lia.
  Qed.
End File.
