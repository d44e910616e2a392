(** * Reading and writing word2vec files (C44). *)
From Verif Require Import Base BaseFacts Utf8 Utf8Facts Stream StreamFacts F32 ChunkIO Subword Vocab Storage Embeddings TextIO FileSpec VocabSpec
  ChunkFacts VocabFacts StorageFacts ReadFacts LookupFacts EmbSpec MatrixFacts EmbFacts BatchFacts TextSpec TextFacts BrokenFacts TextThms.
Local Open Scope N_scope.

(** ** Trimming *)
Lemma drop_white a r : Forall (fun c => is_whitespace c = true) a -> drop_while is_whitespace (a ++ r) = drop_while is_whitespace r.
Proof. induction 1 as [|c a H F IH]; [reflexivity|]. cbn [app drop_while]. rewrite H. exact IH. Qed.
Lemma utf8_decode_all cs : forallb scalarb cs = true -> utf8_decode (utf8_encode cs) = Some cs.
Proof. intros H. apply utf8_decode_encode. exact H. Qed.
Lemma trims_exact s w : trims s w -> str_trim s = w.
Proof.
  intros (a & cs & b & -> & SC & -> & FA & FB & H1 & H2). rewrite (str_trim_utf8 _ (a ++ cs ++ b)) by (apply utf8_decode_all; exact SC).
  f_equal. rewrite drop_white by exact FA. destruct cs as [|c cs].
  - cbn [app]. rewrite <- (app_nil_r b), drop_white by exact FB. reflexivity.
  - rewrite (drop_while_id _ ((c :: cs) ++ b)) by (cbn [app]; eapply H1; reflexivity).
    rewrite rev_app_distr, drop_white by (apply Forall_rev; exact FB).
    rewrite drop_while_id; [apply rev_involutive|].
    destruct (rev (c :: cs)) as [|x r] eqn:E; [auto|]. apply (H2 x (rev r)).
    rewrite <- (rev_involutive (c :: cs)), E. reflexivity.
Qed.
Lemma white_prefix cs : exists a r, cs = a ++ r /\ Forall (fun c => is_whitespace c = true) a /\ r = drop_while is_whitespace cs /\
  (forall c r', r = c :: r' -> is_whitespace c = false).
Proof.
  induction cs as [|c cs (a & r & E & F & D & H)]; [exists [], []; repeat split; auto; discriminate|]. cbn [drop_while]. destruct (is_whitespace c) eqn:W.
  - exists (c :: a), r. rewrite E at 1. auto.
  - exists [], (c :: cs). repeat split; auto. intros c' r' K. inv K. exact W.
Qed.
Lemma trims_trim s : utf8_valid s = true -> trims s (str_trim s).
Proof.
  intros V. apply utf8_valid_iff in V as (cs & -> & SC). rewrite (str_trim_utf8 _ cs) by (apply utf8_decode_all; exact SC).
  destruct (white_prefix cs) as (a & r & E & FA & <- & H1). destruct (white_prefix (rev r)) as (b & q & E2 & FB & <- & H2).
  assert (r = rev q ++ rev b) as ER by (rewrite <- (rev_involutive r), E2; apply rev_app_distr).
  exists a, (rev q), (rev b). rewrite <- ER, <- E. repeat split; auto; [apply Forall_rev; exact FB| |].
  - intros c r' K. apply (H1 c (r' ++ rev b)). rewrite ER, K. reflexivity.
  - intros c r' K. apply (H2 c (rev r')). rewrite <- (rev_involutive q), K, rev_app_distr. reflexivity.
Qed.
Lemma trims_valid s w : trims s w -> utf8_valid s = true /\ utf8_valid w = true.
Proof.
  intros (a & cs & b & -> & SC & -> & _). rewrite !forallb_app in SC. apply andb_prop in SC as [SA SC]. apply andb_prop in SC as [SC SB]. split; apply utf8_valid_iff.
  - eexists. split; [reflexivity|]. rewrite !forallb_app, SA, SC, SB. reflexivity.
  - eauto.
Qed.
Lemma trims_newline w : trims w w -> trims (x0a :: w) w.
Proof.
  intros (a & cs & b & E & SC & E2 & FA & FB & H). exists (10 :: a), cs, b. split; [cbn [app]; rewrite E; reflexivity|]. split; [exact SC|].
  split; [exact E2|]. split; [constructor; auto|]. auto.
Qed.

(** ** Headers *)
Lemma numeral_not_in s n b : numeral s n -> ~ 43 <= bN b <= 57 -> ~ In b s.
Proof. intros H B K. apply B. eapply numeral_range; eauto. Qed.
Lemma header_read {A} data n d rest : header_line data n d rest -> forall (k : N -> N -> reader A) pos, exists pos',
  (x <- read_number x20 ;; y <- read_number x0a ;; k x y) (mkStream data pos) = k n d (mkStream rest pos').
Proof.
  intros (f & g & F & G & Ln & Ld & ->) k pos. eexists. unfold bind.
  assert (~ In x20 f) as NF by (eapply numeral_not_in; [exact F|change (bN x20) with 32; lia]).
  assert (~ In x0a g) as NG by (eapply numeral_not_in; [exact G|change (bN x0a) with 10; lia]).
  rewrite (proj1 (read_number_field x20 f _ pos NF) n F Ln).
  rewrite (proj1 (read_number_field x0a g _ _ NG) d G Ld). reflexivity.
Qed.
Lemma header_dims n d rest : n < two64 -> d < two64 -> header_line (dims_bytes n d ++ rest) n d rest.
Proof.
  intros Ln Ld. exists (dec_print n), (dec_print d). split; [apply dec_print_numeral|]. split; [apply dec_print_numeral|]. split; [exact Ln|]. split; [exact Ld|].
  unfold dims_bytes. rewrite <- !app_assoc. reflexivity.
Qed.
(** The header of an accepted file, if anything follows it. *)
Lemma read_number_inv d s n s' : read_number d s = (Ok n, s') ->
  (exists f, s_rest s = f ++ d :: s_rest s' /\ numeral f n /\ n < two64) \/ (s_rest s' = [] /\ ~ In d (s_rest s)).
Proof.
  intros H. apply complete_prefix in H as (s0 & H & <- & _); [|apply complete_number]. revert H.
  generalize (s_rest s) as data, (s_pos s) as p. clear s s'. rename s0 into s'. intros data p H. destruct (byte_in_dec d data) as [I|I].
  - left. destruct (first_split d data I) as (f & r & -> & NI). destruct (proj1 (proj2 (read_number_field d f r p NI)) _ _ H) as [F L].
    rewrite (proj1 (read_number_field d f r p NI) n F L) in H. injection H as <-. exists f. auto.
  - right. split; [|exact I]. unfold read_number, read_string in H. apply bind_Ok_inv in H as (x & s1 & H1 & H2). apply bind_Ok_inv in H1 as (y & s2 & H0 & H1).
    rewrite read_until_miss in H0 by exact I. injection H0 as <- <-.
    destruct (utf8_valid (removelast data)); [|discriminate]. injection H1 as <- <-. destruct (dec_parse _); [|discriminate]. injection H2 as _ <-. reflexivity.
Qed.
Lemma read_number_empty d p : read_number d (mkStream [] p) = (Err EFormat, mkStream [] (p + 0)).
Proof. reflexivity. Qed.

(** ** Entries *)
Lemma entry_exact lossy d name s w v r p : ~ In x20 name -> decodes lossy name s -> trims s w -> lenN v = d ->
  exists p', read_w2v_entry d lossy (mkStream (name ++ x20 :: f32s_bytes v ++ r) p) = (Ok (w, v), mkStream r p').
Proof.
  intros NI D T L. unfold read_w2v_entry, read_string, bind. rewrite read_until_hit by exact NI. rewrite removelast_last.
  assert ((if lossy then ret (from_utf8_lossy name) else if utf8_valid name then ret name else fail EFormat) = ret (S := stream) s) as ->.
  { unfold decodes in D. destruct lossy; [rewrite D; reflexivity|]. destruct D as [-> ->]. reflexivity. }
  unfold ret at 1. pose proof (reads_f32s v d (eq_sym L) (p + lenN (name ++ [x20])) r) as R. unfold fconst in R. rewrite R. rewrite (trims_exact _ _ T). eexists. reflexivity.
Qed.
Lemma entry_inv lossy d s w v s' : d <> 0 -> read_w2v_entry d lossy s = (Ok (w, v), s') ->
  exists name t, s_rest s = name ++ x20 :: f32s_bytes v ++ s_rest s' /\ ~ In x20 name /\ decodes lossy name t /\ trims t w /\ lenN v = d.
Proof.
  intros D0 H. apply complete_prefix in H as (s0 & H & <- & _); [|apply complete_entry]. revert H.
  generalize (s_rest s) as data, (s_pos s) as p. clear s s'. rename s0 into s'. intros data p H. unfold read_w2v_entry in H. apply bind_Ok_inv in H as (t & s1 & H0 & H). apply bind_Ok_inv in H as (v' & s2 & H1 & H).
  injection H as <- -> ->. apply read_f32s_inv in H1 as (R & L & _).
  unfold read_string in H0. apply bind_Ok_inv in H0 as (buf & s3 & H0 & H2).
  destruct (byte_in_dec x20 data) as [I|I].
  - destruct (first_split x20 data I) as (name & r & -> & NI). rewrite read_until_hit in H0 by exact NI. injection H0 as <- <-.
    rewrite removelast_last in H2. exists name, t.
    assert (decodes lossy name t /\ utf8_valid t = true /\ s1 = mkStream r (p + lenN (name ++ [x20]))) as (DC & VT & ->).
    { unfold decodes. destruct lossy; [injection H2 as <- <-; split; [reflexivity|split; [apply from_utf8_lossy_valid|reflexivity]]|].
      destruct (utf8_valid name) eqn:V; [|discriminate]. injection H2 as <- <-. auto. }
    cbn [s_rest] in R. rewrite <- R. split; [reflexivity|]. split; [exact NI|]. split; [exact DC|]. split; [apply trims_trim; exact VT|exact L].
  - exfalso. rewrite read_until_miss in H0 by exact I. injection H0 as <- <-.
    assert (s_rest s1 = []) as E by (destruct lossy; [injection H2 as _ <-; reflexivity|destruct (utf8_valid _); [injection H2 as _ <-; reflexivity|discriminate]]).
    rewrite E in R. symmetry in R. apply app_eq_nil in R as [R _]. apply (f_equal lenN) in R. rewrite f32s_bytes_lenN, lenN_nil in R. lia.
Qed.

Lemma entries_exact lossy d l : forall data rest p, binary_items lossy d data l rest ->
  exists p', repeat_m (lenN l) (read_w2v_entry d lossy) (mkStream data p) = (Ok l, mkStream rest p').
Proof.
  intros data rest p H. assert (forall p, exists p', repeat_nat (length l) (read_w2v_entry d lossy) (mkStream data p) = (Ok l, mkStream rest p')) as G.
  { clear p. induction H as [rest|name s w v r l rest NI D T L H IH]; intros p; [eexists; reflexivity|]. cbn [length repeat_nat]. unfold bind.
    destruct (entry_exact lossy d name s w v r p NI D T L) as (p1 & ->). destruct (IH p1) as (p2 & ->). eexists. reflexivity. }
  rewrite repeat_m_nat. replace (N.to_nat (lenN l)) with (length l) by (unfold lenN; lia). apply G.
Qed.
Lemma entries_inv lossy d n s l s' : d <> 0 -> repeat_m n (read_w2v_entry d lossy) s = (Ok l, s') ->
  lenN l = n /\ binary_items lossy d (s_rest s) l (s_rest s').
Proof.
  intros D0 H. rewrite repeat_m_nat in H.
  assert (forall k s l, repeat_nat k (read_w2v_entry d lossy) s = (Ok l, s') -> length l = k /\ binary_items lossy d (s_rest s) l (s_rest s')) as G.
  { clear H s l. induction k as [|k IH]; intros s l H; cbn [repeat_nat] in H.
    - injection H as <- <-. split; [reflexivity|constructor].
    - apply bind_Ok_inv in H as ([w v] & s1 & H0 & H). apply bind_Ok_inv in H as (l1 & s2 & H1 & H). injection H as <- <-.
      apply IH in H1 as [L B]. apply entry_inv in H0 as (name & t & -> & NI & DC & T & LV); [|exact D0]. split; [cbn; lia|]. econstructor; eauto. }
  apply G in H as [L B]. split; [unfold lenN; lia|exact B].
Qed.

(** ** [read_word2vec_binary_raw] *)
Section ReadBinary.
  Context (pf : profile) {Md : Type}.

  Lemma read_binary_items lossy data n d rest l tail : header_line data n d rest -> binary_items lossy d rest l tail -> lenN l = n ->
    NoDup (map fst l) -> binary_fits n d ->
    exists (e : embeddings Md simple_vocab (array2 f32) f32) p,
    read_word2vec_raw pf lossy (mkStream data 0) = (Ok e, mkStream tail p) /\ raw_result e d l.
  Proof.
    intros H B L ND [F1 F2]. unfold read_word2vec_raw.
    destruct (header_read data n d rest H (fun n d => alloc_zeros [n; d] 4 ;;; reserve n 24 ;;; es <- repeat_m n (read_w2v_entry d lossy) ;;
      v <- lift (simple_new (map fst es)) ;; lift (emb_new_with_maybe_norms (Md := Md) simple_ops (nd_ops f32) pf None v (mkA2 d (map snd es)) None)) 0) as (p0 & E).
    rewrite E. clear E. unfold bind. rewrite alloc_zeros_ok by exact F1. rewrite reserve_ok by exact F2. subst n.
    destruct (entries_exact lossy d l rest tail p0 B) as (p1 & ->). destruct (proj2 (proj1 (simple_new_iff (map fst l))) ND) as (v & E).
    unfold lift. rewrite E. rewrite (simple_emb pf (map fst l) v) by (auto; unfold a2_nrows; cbn [a2_rows]; rewrite !lenN_map; reflexivity).
    do 2 eexists. split; [reflexivity|]. repeat split; auto.
  Qed.
  Lemma read_binary_inv lossy data (e : embeddings Md simple_vocab (array2 f32) f32) s' :
    read_word2vec_raw pf lossy (mkStream data 0) = (Ok e, s') -> a2_nrows (em_storage e) <> 0 -> a2_cols (em_storage e) <> 0 ->
    exists n d rest l, header_line data n d rest /\ binary_items lossy d rest l (s_rest s') /\ lenN l = n /\ NoDup (map fst l) /\ raw_result e d l.
  Proof.
    intros H NR NC. unfold read_word2vec_raw in H. apply bind_Ok_inv in H as (n & s1 & H0 & H). apply bind_Ok_inv in H as (d & s2 & H1 & H).
    apply bind_Ok_inv in H as (u & s3 & H2 & H). apply bind_Ok_inv in H as (u' & s4 & H3 & H). apply bind_Ok_inv in H as (l & s5 & H4 & H).
    apply bind_Ok_inv in H as (v & s6 & H5 & H).
    assert (s3 = s2) as -> by (unfold alloc_zeros in H2; destruct (_ <=? _); [|discriminate]; destruct (_ <=? _); [|discriminate]; injection H2; auto).
    assert (s4 = s2) as -> by (unfold reserve in H3; destruct (_ <=? _); [|discriminate]; injection H3; auto).
    unfold lift in H5, H. injection H5 as H5 <-. destruct (simple_new_Ok _ _ H5) as [ND _].
    rewrite (simple_emb pf (map fst l) v) in H by (auto; unfold a2_nrows; cbn [a2_rows]; rewrite !lenN_map; reflexivity). injection H as <- <-.
    cbn [em_storage a2_cols a2_rows a2_nrows] in NR, NC. unfold a2_nrows in NR. cbn [a2_rows] in NR. rewrite lenN_map in NR.
    apply entries_inv in H4 as [L B]; [|exact NC]. exists n, d, (s_rest s2), l. split; [|split; [exact B|split; [exact L|split; [exact ND|repeat split; auto]]]].
    assert (s_rest s2 <> []) as NE.
    { intros K. rewrite K in B. inversion B; subst; [apply NR; reflexivity|]. destruct name; discriminate. }
    apply read_number_inv in H1 as [(g & E1 & G & Ld)|[K _]]; [|contradiction].
    apply read_number_inv in H0 as [(f & E0 & F & Ln)|[K _]].
    - cbn [s_rest] in E0. exists f, g. rewrite E1 in E0. auto.
    - rewrite K in E1. destruct g; discriminate.
  Qed.
End ReadBinary.

(** ** [write_word2vec_binary] *)
Section WriteBinary.
  Context {Md S : Type} (SO : storage_ops f32 S) (pf : profile).
  Variables (e : embeddings Md vocab_wrap S f32) (cols : N) (rows : list (list f32)).
  Hypothesis made : emb_made SO pf e cols rows.
  Hypothesis norms : norms_fit e.

  Definition binary_entry (it : str * list f32) : list byte := fst it ++ x20 :: f32s_bytes (snd it) ++ [x0a].
  Lemma emits_binary un : exists l, output_items un e rows l /\
    emits (write_word2vec wrap_ops SO un e) (fconst (dims_bytes (v_words_len wrap_ops (em_vocab e)) cols ++ flat_map binary_entry l)).
  Proof.
    destruct (output_exist SO pf e cols rows made norms un) as (l0 & E & O). eexists. split; [exact O|]. unfold write_word2vec.
    assert (flat_map binary_entry (map (fun '(w, en) => (w, output_vector un en)) l0) = flat_map (fun '(w, en) => binary_entry (w, output_vector un en)) l0) as ->.
    { clear. induction l0 as [|[w en] l0 IH]; [reflexivity|]. cbn [map flat_map fst snd]. f_equal. exact IH. }
    eapply emits_ext; [|apply emits_seq; [apply emits_bytes|apply emits_lift_ok with (a := l0); [exact E|]]].
    2:{ apply (emits_for_each_const l0 _ (fun '(w, en) => binary_entry (w, output_vector un en))). intros [w en] _. cbv beta iota.
        eapply emits_ext; [|apply emits_seq; [apply emits_bytes|apply emits_seq; [apply emits_f32s|apply emits_bytes]]].
        intros pos. unfold fseq, fconst, binary_entry. cbn [fst snd]. rewrite <- app_assoc. reflexivity. }
    intros pos. unfold fseq, fconst. rewrite (dims_line_eq SO pf e cols rows made). reflexivity.
  Qed.

  Hypothesis binary_words : Forall binary_word (v_words wrap_ops (em_vocab e)).

  Lemma binary_entries lossy l (pre : list byte) : Forall (fun it => lenN (snd it) = cols) l -> Forall binary_word (map fst l) -> pre = [] \/ pre = [x0a] ->
    binary_items lossy cols (pre ++ flat_map binary_entry l) l (match l with [] => pre | _ => [x0a] end).
  Proof.
    revert pre. induction l as [|[w v] l IH]; intros pre L W HP; [cbn [flat_map]; rewrite app_nil_r; constructor|]. inv L. inv W. cbn [fst snd] in *. match goal with H : binary_word w |- _ => destruct H as [NS T] end.
    replace (pre ++ flat_map binary_entry ((w, v) :: l)) with ((pre ++ w) ++ x20 :: f32s_bytes v ++ [x0a] ++ flat_map binary_entry l)
      by (cbn [flat_map binary_entry]; unfold binary_entry; cbn [fst snd]; rewrite <- !app_assoc; cbn [app]; rewrite <- !app_assoc; reflexivity).
    assert (trims (pre ++ w) w) as T' by (destruct HP as [-> | ->]; [exact T|apply trims_newline; exact T]).
    pose proof (proj1 (trims_valid _ _ T')) as V.
    replace [x0a] with (match l with [] => [x0a] | _ => [x0a] end) at 2 by (destruct l; reflexivity).
    apply bi_cons with (s := pre ++ w); auto.
    - intros K. apply in_app_or in K as [K|K]; [|auto]. destruct HP as [-> | ->]; [destruct K|destruct K as [K|[]]; discriminate].
    - unfold decodes. destruct lossy; [rewrite from_utf8_lossy_id by exact V; reflexivity|auto].
  Qed.

  (** C44 *)
  Lemma binary_round_trip un lossy base : binary_fits (v_words_len wrap_ops (em_vocab e)) cols -> cols < two64 ->
    exists l out, output_items un e rows l /\ run_writer (write_word2vec wrap_ops SO un e) base = Ok out /\
     (exists e' : embeddings Md simple_vocab (array2 f32) f32, run_reader (read_word2vec_raw pf lossy) out = Ok e' /\ raw_result e' cols l) /\
     (exists e' : embeddings Md simple_vocab (array2 f32) f32, run_reader (read_word2vec pf lossy) out = Ok e' /\ normalized_result f32_ops e' cols l).
  Proof.
    intros F Lc. destruct (emits_binary un) as (l & O & E). exists l. eexists. split; [exact O|].
    split; [apply (emits_run _ _ base E)|]. unfold fconst.
    destruct (output_words SO pf e cols rows made un l O) as [ND L]. rewrite <- L in *.
    pose proof (output_width SO pf e cols rows made un l O) as OW.
    assert (lenN l < two64) as B1 by (destruct F as [_ F]; unfold isize_max, two64 in *; lia).
    assert (Forall binary_word (map fst l)) as BW by (rewrite (proj1 O); exact binary_words).
    pose proof (binary_entries lossy l [] OW BW (or_introl eq_refl)) as B.
    destruct (read_binary_items (Md := Md) pf lossy _ _ _ _ l _ (header_dims (lenN l) cols _ B1 Lc) B eq_refl ND F) as (e' & p & R & RR). split.
    - exists e'. split; [|exact RR]. unfold run_reader. cbn [app] in R. rewrite R. reflexivity.
    - destruct (raw_then_normalized pf cols e' l RR) as (e'' & N1 & N2). exists e''. split; [|exact N2].
      unfold run_reader, read_word2vec, bind. cbn [app] in R. rewrite R. unfold lift. cbn [fst]. exact N1.
  Qed.
End WriteBinary.
