(** * What the texts of errors say about wrong contents. *)
From Coq Require Import Strings.String.
From Verif Require Import Base BaseFacts Utf8 Utf8Facts Stream StreamFacts F32 ChunkIO ChunkFacts Subword
  Vocab VocabFacts Storage StorageFacts Embeddings TextIO TextSpec TextFacts FileSpec Messages MessageSpec MessageThms.
Local Open Scope N_scope.
Local Open Scope d_scope.

(** ** Positions of invalid UTF-8 *)
Lemma valid_cons x r c w : utf8_step x = UChar c w -> x = encode_char c ++ r -> utf8_valid x = utf8_valid r.
Proof.
  intros H E. apply utf8_step_char in H as (SC & _ & _). subst x.
  destruct (utf8_valid r) eqn:V; [apply utf8_valid_app; [apply encode_char_valid, SC|exact V]|].
  destruct (utf8_valid (encode_char c ++ r)) eqn:X; [|reflexivity]. exfalso.
  apply utf8_valid_iff in X as ([|d cs] & E & F).
  - cbn in E. apply app_eq_nil in E as [E _]. exact (encode_char_nonempty c E).
  - cbn [forallb] in F. apply andb_true_iff in F as [F1 F2]. unfold utf8_encode in E. cbn [flat_map] in E.
    pose proof (utf8_step_encode c r SC) as S1. rewrite E, utf8_step_encode in S1 by exact F1. inv S1.
    apply app_inv_head in E. subst r.
    enough (utf8_valid (flat_map encode_char cs) = true) by congruence. apply utf8_valid_iff. exists cs. auto.
Qed.
Lemma valid_bad x w : utf8_step x = UBad w -> x <> [] -> utf8_valid x = false.
Proof.
  intros H N. destruct (utf8_valid x) eqn:X; [|reflexivity]. exfalso.
  apply utf8_valid_iff in X as ([|d cs] & E & F); [tauto|].
  cbn [forallb] in F. apply andb_true_iff in F as [F1 F2]. unfold utf8_encode in E. cbn [flat_map] in E.
  rewrite E, utf8_step_encode in H by exact F1. discriminate.
Qed.
Lemma step_app x t c w : utf8_step x = UChar c w -> utf8_step (x ++ t) = UChar c w.
Proof.
  intros H. apply utf8_step_char in H as (SC & -> & r & ->). rewrite <- app_assoc. apply utf8_step_encode, SC.
Qed.
Lemma valid_prefix p x : utf8_valid p = true -> utf8_valid (p ++ x) = utf8_valid x.
Proof.
  intros V. apply utf8_valid_iff in V as (cs & -> & F). induction cs as [|c cs IH]; [reflexivity|].
  cbn [forallb] in F. apply andb_true_iff in F as [F1 F2].
  unfold utf8_encode in *. cbn [flat_map]. rewrite <- app_assoc.
  rewrite (valid_cons _ (flat_map encode_char cs ++ x) c (char_width c)); [auto|apply utf8_step_encode, F1|reflexivity].
Qed.

Definition ends_inside (q : str) (w : nat) : bool :=
  match q with [] => false | b :: _ => (lenN q =? N.of_nat w) && (0xC2 <=? bN b) && (bN b <=? 0xF4) end.

Lemma utf8_error_split fuel bs i : (length bs < fuel)%nat ->
  exists p q, bs = p ++ q /\ utf8_valid p = true /\
  (q = [] /\ utf8_error_at fuel bs i = None \/
   q <> [] /\ exists w, utf8_step q = UBad w /\
     utf8_error_at fuel bs i = Some (i + lenN p, if ends_inside q w then None else Some (N.of_nat w))).
Proof.
  revert bs i. induction fuel as [|fuel IH]; intros bs i L; [lia|]. destruct bs as [|b bs].
  - exists [], []. split; [reflexivity|]. split; [reflexivity|]. left. split; reflexivity.
  - cbn [utf8_error_at]. destruct (utf8_step (b :: bs)) as [c w|w] eqn:E.
    + pose proof E as E'. apply utf8_step_char in E' as (SC & -> & r & Er).
      assert (skipn (char_width c) (b :: bs) = r) as ->.
      { rewrite Er. apply skipn_app_exact. apply encode_char_length. }
      pose proof (char_width_pos c) as W.
      assert (length r < fuel)%nat as Lr.
      { apply (f_equal (@length byte)) in Er. rewrite app_length, encode_char_length in Er. lia. }
      destruct (IH r (i + N.of_nat (char_width c)) Lr) as (p & q & -> & V & H).
      exists (encode_char c ++ p), q. split; [rewrite Er, app_assoc; reflexivity|].
      split; [apply utf8_valid_app; [apply encode_char_valid, SC|exact V]|].
      destruct H as [H|(NE & w & H1 & H2)]; [left; exact H|]. right. split; [exact NE|]. exists w. split; [exact H1|].
      rewrite H2, lenN_app. replace (lenN (encode_char c)) with (N.of_nat (char_width c)); [do 2 f_equal; lia|].
      unfold lenN. rewrite encode_char_length. reflexivity.
    + exists [], (b :: bs). split; [reflexivity|]. split; [reflexivity|]. right. split; [discriminate|].
      exists w. split; [exact E|]. rewrite lenN_nil, N.add_0_r. reflexivity.
Qed.

(** Completing a character. *)
Lemma bN_lit_lt b : bN b < 256.
Proof. apply bN_lt. Qed.
Lemma completes q w : utf8_step q = UBad w -> ends_inside q w = true -> exists t, utf8_valid (q ++ t) = true.
Proof.
  intros H E.
  assert (forall t c, utf8_step (q ++ t) = UChar c (length (q ++ t)) -> exists t, utf8_valid (q ++ t) = true) as K.
  { intros t c X. pose proof X as X'. apply utf8_step_char in X' as (SC & EW & r & Er). exists t.
    rewrite (valid_cons _ r c _ X Er).
    assert (r = []) as ->; [|reflexivity].
    pose proof (f_equal (@length byte) Er) as L. rewrite (app_length (encode_char c)), encode_char_length in L.
    rewrite <- EW in L. destruct r; [reflexivity|]. cbn [length] in L. lia. }
  destruct q as [|b0 r]; [discriminate|]. unfold ends_inside in E.
  apply andb_true_iff in E as [E E3]. apply andb_true_iff in E as [E1 E2].
  apply N.eqb_eq in E1. unfold lenN in E1. apply Nat2N.inj in E1. cbn [length] in E1.
  unfold utf8_step in H.
  destruct (bN b0 <? 128) eqn:C0; [discriminate|].
  destruct ((0xC2 <=? bN b0) && (bN b0 <=? 0xDF)) eqn:C1.
  { destruct r as [|b1 r]; [|destruct (is_cont b1); exfalso; inversion H; cbn [length] in E1; lia].
    eapply (K [x80]). cbn [app utf8_step]. rewrite C0, C1. reflexivity. }
  destruct ((0xE0 <=? bN b0) && (bN b0 <=? 0xEF)) eqn:C2.
  { destruct r as [|b1 r].
    - destruct (N.eq_dec (bN b0) 0xE0) as [X|X].
      + eapply (K [xa0; x80]). cbn [app utf8_step]. rewrite C0, C1, C2, X. reflexivity.
      + eapply (K [x80; x80]). cbn [app utf8_step]. rewrite C0, C1, C2. unfold second3.
        destruct (N.eqb_spec (bN b0) 0xE0); [tauto|]. destruct (bN b0 =? 0xED); reflexivity.
    - destruct (second3 (bN b0) (bN b1)) eqn:S3; [|exfalso; inversion H; cbn [length] in E1; lia].
      destruct r as [|b2 r]; [|destruct (is_cont b2); exfalso; inversion H; cbn [length] in E1; lia].
      eapply (K [x80]). cbn [app utf8_step]. rewrite C0, C1, C2, S3. reflexivity. }
  destruct ((0xF0 <=? bN b0) && (bN b0 <=? 0xF4)) eqn:C3.
  { destruct r as [|b1 r].
    - destruct (N.eq_dec (bN b0) 0xF0) as [X|X].
      + eapply (K [x90; x80; x80]). cbn [app utf8_step]. rewrite C0, C1, C2, C3, X. reflexivity.
      + eapply (K [x80; x80; x80]). cbn [app utf8_step]. rewrite C0, C1, C2, C3. unfold second4.
        destruct (N.eqb_spec (bN b0) 0xF0); [tauto|]. destruct (bN b0 =? 0xF4); reflexivity.
    - destruct (second4 (bN b0) (bN b1)) eqn:S4; [|exfalso; inversion H; cbn [length] in E1; lia].
      destruct r as [|b2 r].
      + eapply (K [x80; x80]). cbn [app utf8_step]. rewrite C0, C1, C2, C3, S4. reflexivity.
      + destruct (is_cont b2) eqn:I2; [|exfalso; inversion H; cbn [length] in E1; lia].
        destruct r as [|b3 r]; [|destruct (is_cont b3); exfalso; inversion H; cbn [length] in E1; lia].
        eapply (K [x80]). cbn [app utf8_step]. rewrite C0, C1, C2, C3, S4, I2. reflexivity. }
  exfalso. apply N.leb_le in E2, E3. apply N.ltb_ge in C0.
  apply andb_false_iff in C1, C2, C3. rewrite !N.leb_gt in C1, C2, C3. lia.
Qed.
Lemma stays_bad q w t : utf8_step q = UBad w -> q <> [] -> ends_inside q w = false -> utf8_step (q ++ t) = UBad w.
Proof.
  intros H N E. destruct q as [|b0 r]; [tauto|]. unfold ends_inside in E.
  assert (forall n, w = n -> length r = pred n -> (0 < n)%nat -> (0xC2 <=? bN b0) && (bN b0 <=? 0xF4) = false) as K.
  { intros n -> L P. unfold lenN in E. cbn [length] in E. rewrite L in E. replace (Datatypes.S (pred n)) with n in E by lia.
    rewrite N.eqb_refl in E. exact E. }
  unfold utf8_step in H |- *. cbn [app].
  destruct (bN b0 <? 128) eqn:C0; [discriminate|].
  destruct ((0xC2 <=? bN b0) && (bN b0 <=? 0xDF)) eqn:C1.
  { destruct r as [|b1 r]; [|exact H]. exfalso. inv H. specialize (K 1%nat eq_refl eq_refl ltac:(lia)).
    apply andb_true_iff in C1 as [C1 C1']. apply N.leb_le in C1, C1'. apply andb_false_iff in K. rewrite !N.leb_gt in K. lia. }
  destruct ((0xE0 <=? bN b0) && (bN b0 <=? 0xEF)) eqn:C2.
  { assert ((0xC2 <=? bN b0) && (bN b0 <=? 0xF4) = true) as Y.
    { apply andb_true_iff in C2 as [C2 C2']. apply N.leb_le in C2, C2'. apply andb_true_iff. rewrite !N.leb_le. lia. }
    destruct r as [|b1 r]; [inv H; rewrite (K 1%nat eq_refl eq_refl ltac:(lia)) in Y; discriminate|]. cbn [app].
    destruct (second3 (bN b0) (bN b1)); [|exact H].
    destruct r as [|b2 r]; [inv H; rewrite (K 2%nat eq_refl eq_refl ltac:(lia)) in Y; discriminate|exact H]. }
  destruct ((0xF0 <=? bN b0) && (bN b0 <=? 0xF4)) eqn:C3; [|exact H].
  assert ((0xC2 <=? bN b0) && (bN b0 <=? 0xF4) = true) as Y.
  { apply andb_true_iff in C3 as [C3 C3']. apply N.leb_le in C3, C3'. apply andb_true_iff. rewrite !N.leb_le. lia. }
  destruct r as [|b1 r]; [inv H; rewrite (K 1%nat eq_refl eq_refl ltac:(lia)) in Y; discriminate|]. cbn [app].
  destruct (second4 (bN b0) (bN b1)); [|exact H].
  destruct r as [|b2 r]; [inv H; rewrite (K 2%nat eq_refl eq_refl ltac:(lia)) in Y; discriminate|]. cbn [app].
  destruct (is_cont b2); [|exact H].
  destruct r as [|b3 r]; [inv H; rewrite (K 3%nat eq_refl eq_refl ltac:(lia)) in Y; discriminate|exact H].
Qed.
Lemma bad_width q w : utf8_step q = UBad w -> q <> [] -> (1 <= w <= 3)%nat /\ (w <= length q)%nat.
Proof.
  intros H N. destruct q as [|b0 r]; [tauto|]. unfold utf8_step in H.
  repeat match type of H with
  | context [if ?c then _ else _] => destruct c
  | context [match ?r with [] => _ | _ :: _ => _ end] => destruct r
  end; inv H; cbn [length]; lia.
Qed.

Lemma utf8_error_valid bs : utf8_error bs = None <-> utf8_valid bs = true.
Proof.
  unfold utf8_error. destruct (utf8_error_split (Datatypes.S (length bs)) bs 0 ltac:(lia)) as (p & q & E & V & H).
  destruct H as [[-> H]|(N & w & HW & H)]; rewrite H.
  - rewrite app_nil_r in E. subst p. tauto.
  - split; [discriminate|]. rewrite E, valid_prefix, (valid_bad q w) by auto. discriminate.
Qed.
Lemma utf8_error_at_is bs i n : utf8_error bs = Some (i, n) ->
  i < lenN bs /\ utf8_valid (takeN i bs) = true /\
  (forall j, i < j -> j <= lenN bs -> utf8_valid (takeN j bs) = false) /\
  (n = None <-> exists t, utf8_valid (bs ++ t) = true) /\
  (forall k, n = Some k -> 1 <= k <= 3 /\ i + k <= lenN bs).
Proof.
  unfold utf8_error. destruct (utf8_error_split (Datatypes.S (length bs)) bs 0 ltac:(lia)) as (p & q & E & V & H).
  destruct H as [[-> H]|(NE & w & HW & H)]; rewrite H; [discriminate|]. intros X. rewrite N.add_0_l in X.
  assert (i = lenN p /\ n = if ends_inside q w then None else Some (N.of_nat w)) as [-> ->] by (inv X; auto). clear X H.
  subst bs. rewrite lenN_app.
  assert (0 < lenN q) as Lq by (destruct q; [tauto|rewrite lenN_cons; lia]).
  split; [lia|]. split; [rewrite takeN_app; exact V|]. split; [|split].
  - intros j L1 L2. rewrite takeN_app_ge by lia. rewrite valid_prefix by exact V.
    set (k := j - lenN p). destruct (utf8_step (takeN k q)) as [c w'|w'] eqn:S1.
    + exfalso. pose proof (step_app _ (dropN k q) _ _ S1) as S2. rewrite takeN_dropN in S2. congruence.
    + apply (valid_bad _ w' S1). intros Z. apply (f_equal lenN) in Z. rewrite lenN_takeN, lenN_nil in Z. unfold k in Z. lia.
  - destruct (ends_inside q w) eqn:EI.
    + split; [|tauto]. intros _. destruct (completes q w HW EI) as [t Ht]. exists t.
      rewrite <- app_assoc, valid_prefix by exact V. exact Ht.
    + split; [discriminate|]. intros [t Ht]. rewrite <- app_assoc, valid_prefix in Ht by exact V.
      rewrite (valid_bad (q ++ t) w) in Ht; [discriminate|apply stays_bad; auto|]. intros Z. apply app_eq_nil in Z as [Z _]. tauto.
  - intros k X. destruct (ends_inside q w); inv X. destruct (bad_width q w HW NE) as [B1 B2]. unfold lenN in *. lia.
Qed.

(** ** What was found *)
Lemma digits_text_inj a b : Forall (fun d => d < 10) a -> Forall (fun d => d < 10) b -> digits_text a = digits_text b -> a = b.
Proof.
  intros FA. revert b. induction FA as [|x a Hx FA IH]; intros b FB E; destruct FB as [|y b Hy FB]; try discriminate; [reflexivity|].
  cbn [digits_text map] in E. injection E as E1 E2. f_equal; [|apply IH; auto].
  apply (f_equal bN) in E1. rewrite !bN_Nb_small in E1 by lia. lia.
Qed.
Lemma dec_print_inj n m : dec_print n = dec_print m -> n = m.
Proof.
  destruct (dec_print_digits n) as (a & _ & A1 & A2 & A3). destruct (dec_print_digits m) as (b & _ & B1 & B2 & B3).
  rewrite A3, B3. intros E. apply digits_text_inj in E; auto. congruence.
Qed.
Lemma chunk_name_inj c d : chunk_name c = chunk_name d -> c = d.
Proof. destruct c, d; intros H; try reflexivity; vm_compute in H; discriminate H. Qed.
Lemma le4_inj a b : 4 <= lenN a -> 4 <= lenN b -> le_value (takeN 4 a) = le_value (takeN 4 b) -> takeN 4 a = takeN 4 b.
Proof.
  intros LA LB. apply FileFacts.le_value_inj4. unfold takeN. rewrite !firstn_length. unfold lenN in *. lia.
Qed.
Lemma u32_at what s : 4 <= lenN (s_rest s) ->
  io read_u32 what s = (MOk (le_value (takeN 4 (s_rest s))), mkBroken (dropN 4 (s_rest s)) (s_pos s + 4) (s_broken s)).
Proof.
  destruct s as [r p b]. cbn [s_rest s_pos s_broken]. intros L. unfold io, read_u32, Stream.bind, read_exact. cbn [s_rest].
  destruct (N.leb_spec 4 (lenN r)); [|lia]. reflexivity.
Qed.

Lemma at_u32 v what rest pos b : v < two32 ->
  io read_u32 what (mkBroken (le_bytes 4 v ++ rest) pos b) = (MOk v, mkBroken rest (pos + 4) b).
Proof.
  intros H. unfold io, read_u32, Stream.bind. rewrite read_exact_app by apply le_bytes_lenN. unfold ret.
  rewrite le_u32 by exact H. reflexivity.
Qed.
Lemma at_u64 v what rest pos b : v < two64 ->
  io read_u64 what (mkBroken (le_bytes 8 v ++ rest) pos b) = (MOk v, mkBroken rest (pos + 8) b).
Proof.
  intros H. unfold io, read_u64, Stream.bind. rewrite read_exact_app by apply le_bytes_lenN. unfold ret.
  rewrite le_u64 by exact H. reflexivity.
Qed.

(** The texts for different wrong bytes are different. *)
Definition tells_apart {A} (d : D A) (n : N) : Prop :=
  forall s1 s2 e1 e2 t1 t2, n <= lenN (s_rest s1) -> n <= lenN (s_rest s2) ->
  d s1 = (MErr e1, t1) -> d s2 = (MErr e2, t2) -> display e1 = display e2 -> takeN n (s_rest s1) = takeN n (s_rest s2).

Lemma try_from_err n : (exists c, chunk_try_from n = dret c /\ n = chunk_num c /\ c <> CHeader) \/ chunk_try_from n = dfail (MUnknownChunk n).
Proof.
  unfold chunk_try_from. destruct (chunk_of_num n) as [c| |] eqn:E; auto. left. exists c. split; [reflexivity|].
  unfold chunk_of_num in E. repeat match type of E with match ?x with _ => _ end = _ => destruct x; try discriminate end; inv E; (split; [reflexivity|discriminate]).
Qed.
Lemma err_eq {A} e e' (s s' : stream) : (@MErr A e, s) = (@MErr A e', s') -> e' = e.
Proof. congruence. Qed.
Lemma chunk_type_apart id : tells_apart (ensure_chunk_type_d id) 4.
Proof.
  intros s1 s2 e1 e2 t1 t2 L1 L2 H1 H2 E. unfold ensure_chunk_type_d, dbind in H1, H2.
  rewrite u32_at in H1, H2 by auto. apply le4_inj; auto.
  remember (le_value (takeN 4 (s_rest s1))) as n1 eqn:N1. remember (le_value (takeN 4 (s_rest s2))) as n2 eqn:N2. clear N1 N2.
  destruct (try_from_err n1) as [(c1 & X1 & Y1 & _)|X1], (try_from_err n2) as [(c2 & X2 & Y2 & _)|X2];
    rewrite X1 in H1; rewrite X2 in H2; unfold dret, dfail in H1, H2.
  - rewrite Y1, Y2. destruct (chunk_eqb c1 id); [discriminate|]. destruct (chunk_eqb c2 id); [discriminate|].
    apply err_eq in H1, H2. subst e1 e2. cbn [display] in E. do 4 apply app_inv_head in E. apply chunk_name_inj in E. congruence.
  - destruct (chunk_eqb c1 id); [discriminate|]. apply err_eq in H1, H2. subst e1 e2. exfalso. cbn [display] in E. vm_compute in E. discriminate E.
  - destruct (chunk_eqb c2 id); [discriminate|]. apply err_eq in H1, H2. subst e1 e2. exfalso. cbn [display] in E. vm_compute in E. discriminate E.
  - apply err_eq in H1, H2. subst e1 e2. cbn [display] in E. apply app_inv_head in E. apply dec_print_inj, E.
Qed.
Lemma data_type_apart t : tells_apart (ensure_data_type_d t) 4.
Proof.
  intros s1 s2 e1 e2 t1 t2 L1 L2 H1 H2 E. unfold ensure_data_type_d, dbind in H1, H2.
  rewrite u32_at in H1, H2 by auto. apply le4_inj; auto.
  remember (le_value (takeN 4 (s_rest s1))) as n1 eqn:N1. remember (le_value (takeN 4 (s_rest s2))) as n2 eqn:N2. clear N1 N2.
  destruct (n1 =? t); [discriminate|]. destruct (n2 =? t); [discriminate|]. apply err_eq in H1, H2. subst e1 e2.
  cbn [display] in E. do 4 apply app_inv_head in E. apply dec_print_inj, E.
Qed.

(** ** What was expected *)

(** Chunks with this identifier can be read. *)
Definition accepts {A} (d : D A) (c : chunk_id) : Prop :=
  exists rest pos b a s', d (mkBroken (le_bytes 4 (chunk_num c) ++ rest) pos b) = (MOk a, s').

(** "a, b or c" *)
Fixpoint listing (l : list chunk_id) : str :=
  match l with
  | [] => []
  | [a] => chunk_name a
  | [a; b] => chunk_name a ++ txt " or " ++ chunk_name b
  | a :: l' => chunk_name a ++ txt ", " ++ listing l'
  end.
Definition expected_text (l : list chunk_id) (c : chunk_id) : emsg :=
  MFormat (txt "Invalid chunk identifier, expected" ++ (match l with [_] => txt ": " | _ => txt " one of: " end)
           ++ listing l ++ txt ", got: " ++ chunk_name c).

(** The text lists what is accepted. *)
Definition lists_accepted {A} (d : D A) : Prop :=
  exists l, NoDup l /\ (forall c, In c l <-> accepts d c) /\
  forall c, c <> CHeader -> ~ In c l -> forall rest pos b,
    fst (d (mkBroken (le_bytes 4 (chunk_num c) ++ rest) pos b)) = MErr (expected_text l c).

Lemma peek_at {A} c what (k : chunk_id -> D A) rest pos b : c <> CHeader ->
  dbind (dpeek (n <- io read_u32 what ;; chunk_try_from n)) k (mkBroken (le_bytes 4 (chunk_num c) ++ rest) pos b)
  = k c (mkBroken (le_bytes 4 (chunk_num c) ++ rest) pos b).
Proof.
  intros H. pose proof (tl_full _ _ _ _ (tells_chunk_id c what H) pos rest b) as PF. unfold fconst in PF.
  unfold dbind at 1, dpeek. rewrite PF. reflexivity.
Qed.
Lemma peek_header {A} what (k : chunk_id -> D A) rest pos b a s' :
  dbind (dpeek (n <- io read_u32 what ;; chunk_try_from n)) k (mkBroken (le_bytes 4 (chunk_num CHeader) ++ rest) pos b) <> (MOk a, s').
Proof.
  unfold dbind at 1, dpeek, dbind, io, read_u32, Stream.bind. rewrite read_exact_app by apply le_bytes_lenN. unfold ret.
  vm_compute. discriminate.
Qed.
Lemma lists_by {A} what (k : chunk_id -> D A) l :
  NoDup l -> ~ In CHeader l ->
  (forall c, In c l -> accepts (dbind (dpeek (n <- io read_u32 what ;; chunk_try_from n)) k) c) ->
  (forall c, c <> CHeader -> ~ In c l -> k c = dfail (expected_text l c)) ->
  lists_accepted (dbind (dpeek (n <- io read_u32 what ;; chunk_try_from n)) k).
Proof.
  intros ND NH HA HK. exists l. split; [exact ND|]. split.
  - intros c. split; [apply HA|]. intros (rest & pos & b & a & s' & H).
    destruct (in_dec (fun a b : chunk_id => ltac:(decide equality)) c l) as [I|I]; [exact I|]. exfalso.
    assert (c <> CHeader) as NC by (intros ->; exact (peek_header _ _ _ _ _ _ _ H)).
    rewrite peek_at, (HK c NC I) in H by exact NC. discriminate.
  - intros c NC I rest pos b. rewrite peek_at by exact NC. rewrite (HK c NC I). reflexivity.
Qed.

(** Small chunks that can be read. *)
Definition small (c : chunk_id) : list byte :=
  match c with
  | CSimpleVocab => le_bytes 8 8 ++ le_bytes 8 0
  | CBucketSubwordVocab | CFastTextSubwordVocab => le_bytes 8 20 ++ le_bytes 8 0 ++ le_bytes 4 3 ++ le_bytes 4 6 ++ le_bytes 4 2
  | CExplicitSubwordVocab => le_bytes 8 24 ++ le_bytes 8 0 ++ le_bytes 8 0 ++ le_bytes 4 3 ++ le_bytes 4 6
  | CFloretSubwordVocab => le_bytes 8 34 ++ le_bytes 4 3 ++ le_bytes 4 6 ++ le_bytes 8 5 ++ le_bytes 4 1 ++ le_bytes 4 0
      ++ le_bytes 4 1 ++ txt "<" ++ le_bytes 4 1 ++ txt ">"
  | CNdArray => le_bytes 8 20 ++ le_bytes 8 0 ++ le_bytes 4 0 ++ le_bytes 4 10 ++ zeros 4
  | CQuantizedArray => le_bytes 8 44 ++ le_bytes 4 0 ++ le_bytes 4 0 ++ le_bytes 4 1 ++ le_bytes 4 1 ++ le_bytes 4 1
      ++ le_bytes 8 0 ++ le_bytes 4 1 ++ le_bytes 4 10 ++ zeros 4 ++ zeros 4
  | _ => []
  end.

Ltac small_ok pf := destruct pf; do 2 eexists; vm_compute; reflexivity.
Lemma vocab_lists pf : lists_accepted (read_vocab_wrap_d pf).
Proof.
  apply (lists_by _ _ [CSimpleVocab; CExplicitSubwordVocab; CFastTextSubwordVocab; CFloretSubwordVocab; CBucketSubwordVocab]).
  - repeat constructor; cbn [In]; intuition discriminate.
  - cbn [In]. intuition discriminate.
  - intros c I. exists (small c), 0, false. cbn [In] in I.
    destruct I as [<-|[<-|[<-|[<-|[<-|[]]]]]]; small_ok pf.
  - intros c NC I. destruct c; cbn [In] in I; try tauto; reflexivity.
Qed.
Lemma storage_lists : lists_accepted read_storage_wrap_d.
Proof.
  apply (lists_by _ _ [CNdArray; CQuantizedArray]).
  - repeat constructor; cbn [In]; intuition discriminate.
  - cbn [In]. intuition discriminate.
  - intros c I. exists (small c), 0, false. cbn [In] in I.
    destruct I as [<-|[<-|[]]]; do 2 eexists; vm_compute; reflexivity.
  - intros c NC I. destruct c; cbn [In] in I; try tauto; reflexivity.
Qed.
Lemma view_lists pf : lists_accepted read_storage_view_wrap_d /\ lists_accepted (mmap_storage_view_wrap_d pf).
Proof.
  split; apply (lists_by _ _ [CNdArray]); try (repeat constructor; cbn [In]; intuition discriminate);
    try (cbn [In]; intuition discriminate);
    try (intros c NC I; destruct c; cbn [In] in I; try tauto; reflexivity);
    intros c [<-|[]]; exists (small CNdArray), 0, false; small_ok pf.
Qed.
(** Mapping accepts quantized matrices but does not say so. *)
Lemma mmap_storage_text pf : accepts (mmap_storage_wrap_d pf) CNdArray /\ accepts (mmap_storage_wrap_d pf) CQuantizedArray /\
  forall c, c <> CHeader -> c <> CNdArray -> c <> CQuantizedArray -> forall rest pos b,
    fst (mmap_storage_wrap_d pf (mkBroken (le_bytes 4 (chunk_num c) ++ rest) pos b)) = MErr (expected_text [CNdArray] c).
Proof.
  split; [exists (small CNdArray), 0, false; small_ok pf|]. split; [exists (small CQuantizedArray), 0, false; small_ok pf|].
  intros c H1 H2 H3 rest pos b. unfold mmap_storage_wrap_d, peek_storage_d. rewrite peek_at by exact H1. destruct c; try tauto; reflexivity.
Qed.
Lemma mmap_storage_not_listed pf : ~ lists_accepted (mmap_storage_wrap_d pf).
Proof.
  intros (l & ND & IFF & TX). destruct (mmap_storage_text pf) as (A1 & A2 & A3).
  apply IFF in A1, A2.
  assert (~ In CMetadata l) as NM.
  { intros I. apply IFF in I as (rest & pos & b & a & s' & H).
    specialize (A3 CMetadata ltac:(discriminate) ltac:(discriminate) ltac:(discriminate) rest pos b). rewrite H in A3. discriminate. }
  specialize (TX CMetadata ltac:(discriminate) NM [] 0 false).
  specialize (A3 CMetadata ltac:(discriminate) ltac:(discriminate) ltac:(discriminate) [] 0 false).
  rewrite A3 in TX. injection TX as TX.
  destruct l as [|a [|b l]]; [destruct A1| |].
  - destruct A1 as [->|[]]. destruct A2 as [A2|[]]. discriminate.
  - vm_compute in TX. discriminate TX.
Qed.

(** ** Words that are not UTF-8 *)

(** What the text says about [bs]: the index [i] of the first byte that does
    not belong to a character, and whether more bytes would help. *)
Definition points_at (prefix : str) (bs : str) (e : emsg) : Prop :=
  exists i, i < lenN bs /\ utf8_valid (takeN i bs) = true /\
  (forall j, i < j -> j <= lenN bs -> utf8_valid (takeN j bs) = false) /\
  ((exists t, utf8_valid (bs ++ t) = true) /\
     display e = txt "Invalid file format " ++ prefix ++ txt "incomplete utf-8 byte sequence from index " ++ dec_print i \/
   (~ exists t, utf8_valid (bs ++ t) = true) /\ exists k, 1 <= k <= 3 /\ i + k <= lenN bs /\
     display e = txt "Invalid file format " ++ prefix ++ txt "invalid utf-8 sequence of " ++ dec_print k
                 ++ txt " bytes from index " ++ dec_print i).
Lemma points prefix bs : utf8_valid bs = false -> points_at prefix bs (MFormat (prefix ++ utf8_text bs)).
Proof.
  intros V. unfold utf8_text. destruct (utf8_error bs) as [[i n]|] eqn:E.
  2:{ apply utf8_error_valid in E. congruence. }
  destruct (utf8_error_at_is _ _ _ E) as (L & V1 & V2 & IFF & K). exists i.
  split; [exact L|]. split; [exact V1|]. split; [exact V2|]. destruct n as [k|].
  - right. split; [intros X; apply IFF in X; discriminate|]. exists k. destruct (K k eq_refl) as [K1 K2].
    split; [exact K1|]. split; [exact K2|]. reflexivity.
  - left. split; [apply IFF; reflexivity|]. reflexivity.
Qed.
Lemma bad_word bs rest pos b : lenN bs < two32 -> utf8_valid bs = false ->
  exists e s', read_string_d (mkBroken (le_bytes 4 (lenN bs) ++ bs ++ rest) pos b) = (MErr e, s') /\
    points_at (txt "Item contains invalid UTF-8: ") bs e.
Proof.
  intros L V. unfold read_string_d. unfold dbind at 1. rewrite at_u32 by exact L. unfold dbind, io.
  rewrite read_exact_app by reflexivity. rewrite V. do 2 eexists. split; [reflexivity|]. apply points, V.
Qed.
Lemma bad_ngram bs rest pos b : lenN bs < two32 -> utf8_valid bs = false ->
  exists e s', read_ngram_item_d (mkBroken (le_bytes 4 (lenN bs) ++ bs ++ rest) pos b) = (MErr e, s') /\
    points_at (txt "Item contains invalid UTF-8: ") bs e.
Proof.
  intros L V. unfold read_ngram_item_d. unfold dbind at 1. rewrite at_u32 by exact L. unfold dbind at 1, io at 1.
  rewrite read_exact_app by reflexivity. rewrite V. do 2 eexists. split; [reflexivity|]. apply points, V.
Qed.

(** ** The header *)
Lemma wrong_magic m rest pos b : lenN m = 4 -> m <> magic ->
  exists s', read_header_d (mkBroken (m ++ rest) pos b) = (MErr (MFormat (txt "Expected 'FiFu' as magic, got: " ++ from_utf8_lossy m)), s').
Proof.
  intros L N. unfold read_header_d. unfold dbind at 1, io at 1. rewrite read_exact_app by exact L.
  destruct (str_eqb m magic) eqn:E; [apply str_eqb_eq in E; tauto|]. eexists. reflexivity.
Qed.
(** For magics that are text, the text says which one was found. *)
Lemma magic_apart m1 m2 rest1 rest2 pos1 pos2 b1 b2 e1 e2 t1 t2 :
  lenN m1 = 4 -> lenN m2 = 4 -> m1 <> magic -> m2 <> magic -> utf8_valid m1 = true -> utf8_valid m2 = true ->
  read_header_d (mkBroken (m1 ++ rest1) pos1 b1) = (MErr e1, t1) ->
  read_header_d (mkBroken (m2 ++ rest2) pos2 b2) = (MErr e2, t2) -> display e1 = display e2 -> m1 = m2.
Proof.
  intros L1 L2 N1 N2 V1 V2 H1 H2 E.
  destruct (wrong_magic m1 rest1 pos1 b1 L1 N1) as [x1 X1]. destruct (wrong_magic m2 rest2 pos2 b2 L2 N2) as [x2 X2].
  rewrite X1 in H1. rewrite X2 in H2. apply err_eq in H1, H2. subst e1 e2. cbn [display] in E.
  rewrite !from_utf8_lossy_id in E by auto. do 2 apply app_inv_head in E. exact E.
Qed.
(** For others it need not. *)
Lemma magic_not_apart : exists m1 m2 e t1 t2, lenN m1 = 4 /\ lenN m2 = 4 /\ m1 <> m2 /\
  read_header_d (mkBroken m1 0 false) = (MErr e, t1) /\ read_header_d (mkBroken m2 0 false) = (MErr e, t2).
Proof.
  exists [xff; x61; x62; x63], [xfe; x61; x62; x63]. do 3 eexists.
  split; [reflexivity|]. split; [reflexivity|]. split; [discriminate|]. split; vm_compute; reflexivity.
Qed.
Lemma wrong_version v rest pos b : v < two32 -> v <> model_version ->
  exists s', read_header_d (mkBroken (magic ++ le_bytes 4 v ++ rest) pos b) = (MErr (MFormat (txt "Unknown finalfusion version: " ++ dec_print v)), s').
Proof.
  intros L N. unfold read_header_d. unfold dbind at 1, io at 1. rewrite read_exact_app by reflexivity.
  replace (str_eqb magic magic) with true by reflexivity. cbn [negb]. unfold dbind at 1. rewrite at_u32 by exact L.
  destruct (N.eqb_spec v model_version); [tauto|]. eexists. reflexivity.
Qed.
Lemma version_apart v1 v2 rest1 rest2 pos1 pos2 b1 b2 e1 e2 t1 t2 :
  v1 < two32 -> v2 < two32 -> v1 <> model_version -> v2 <> model_version ->
  read_header_d (mkBroken (magic ++ le_bytes 4 v1 ++ rest1) pos1 b1) = (MErr e1, t1) ->
  read_header_d (mkBroken (magic ++ le_bytes 4 v2 ++ rest2) pos2 b2) = (MErr e2, t2) -> display e1 = display e2 -> v1 = v2.
Proof.
  intros L1 L2 N1 N2 H1 H2 E.
  destruct (wrong_version v1 rest1 pos1 b1 L1 N1) as [x1 X1]. destruct (wrong_version v2 rest2 pos2 b2 L2 N2) as [x2 X2].
  rewrite X1 in H1. rewrite X2 in H2. apply err_eq in H1, H2. subst e1 e2. cbn [display] in E.
  do 2 apply app_inv_head in E. apply dec_print_inj, E.
Qed.

(** ** The lengths of a quantizer *)

(** The text for lengths that do not fit has them in each other's place. *)
Definition lengths_text (reconstructed quantized : N) : emsg :=
  MFormat (txt "Reconstructed embedding length (" ++ dec_print reconstructed
         ++ txt ") not a multiple of the quantized embedding length: (" ++ dec_print quantized ++ txt ")").
Definition quantizer_bytes (ql rl nc n : N) : list byte :=
  le_bytes 4 (chunk_num CQuantizedArray) ++ le_bytes 8 0 ++ le_bytes 4 0 ++ le_bytes 4 0 ++ le_bytes 4 ql ++ le_bytes 4 rl
  ++ le_bytes 4 nc ++ le_bytes 8 n.
Lemma lengths_read ql rl nc n rest pos b : ql < two32 -> rl < two32 -> nc < two32 -> n < two64 -> ql <> 0 -> rl mod ql <> 0 ->
  exists s', read_product_quantizer_d (mkBroken (le_bytes 4 0 ++ le_bytes 4 0 ++ le_bytes 4 ql ++ le_bytes 4 rl ++ le_bytes 4 nc ++ le_bytes 8 n ++ rest) pos b)
             = (MErr (lengths_text ql rl), s').
Proof.
  intros L1 L2 L3 L4 Z M. unfold read_product_quantizer_d.
  do 5 (unfold dbind at 1; rewrite at_u32 by (assumption || reflexivity)).
  unfold dbind at 1. rewrite at_u64 by exact L4. unfold dbind at 1, check_quantizer_invariants_d.
  destruct (N.eqb_spec ql 0); [tauto|]. destruct (N.eqb_spec (rl mod ql) 0); [tauto|]. eexists. reflexivity.
Qed.
Lemma lengths_swapped pf ql rl nc n rest pos b : ql < two32 -> rl < two32 -> nc < two32 -> n < two64 -> ql <> 0 -> rl mod ql <> 0 ->
  fst (read_storage_wrap_d (mkBroken (quantizer_bytes ql rl nc n ++ rest) pos b)) = MErr (lengths_text ql rl) /\
  fst (mmap_storage_wrap_d pf (mkBroken (quantizer_bytes ql rl nc n ++ rest) pos b)) = MErr (lengths_text ql rl).
Proof.
  intros L1 L2 L3 L4 Z M. unfold quantizer_bytes. rewrite <- !app_assoc.
  assert (CQuantizedArray <> CHeader) as NC by discriminate.
  destruct (lengths_read ql rl nc n rest (pos + 4 + 8) b L1 L2 L3 L4 Z M) as [s' H].
  assert (forall r, ensure_chunk_type_d CQuantizedArray (mkBroken (le_bytes 4 (chunk_num CQuantizedArray) ++ r) pos b) = (MOk tt, mkBroken r (pos + 4) b)) as EN.
  { intros r. unfold ensure_chunk_type_d. unfold dbind at 1. rewrite at_u32 by reflexivity. reflexivity. }
  unfold read_storage_wrap_d, mmap_storage_wrap_d, peek_storage_d. split; rewrite peek_at by exact NC;
    [unfold read_quantized_d|unfold mmap_quantized_chunk_d]; unfold dbind.
  - rewrite EN, at_u64 by reflexivity. fold (lengths_text ql rl). rewrite H. reflexivity.
  - rewrite EN, at_u64 by reflexivity. rewrite H. reflexivity.
Qed.
(** So a file is refused for a reason that does not hold. *)
Lemma lengths_refuted : exists ql rl nc n, rl mod ql <> 0 /\ ql mod rl = 0 /\
  fst (read_storage_wrap_d (mkBroken (quantizer_bytes ql rl nc n) 0 false)) = MErr (lengths_text ql rl).
Proof. exists 4, 2, 1, 1. split; [discriminate|]. split; [reflexivity|]. vm_compute. reflexivity. Qed.

(** ** Other contents *)

Lemma at_ensure c r pos b : c <> CHeader ->
  ensure_chunk_type_d c (mkBroken (le_bytes 4 (chunk_num c) ++ r) pos b) = (MOk tt, mkBroken r (pos + 4) b).
Proof.
  intros H. unfold ensure_chunk_type_d. unfold dbind at 1. rewrite at_u32 by (destruct c; reflexivity). destruct c; try tauto; reflexivity.
Qed.
(** A file with no chunks. *)
Lemma no_chunks_text {T : toml_ops} te {V S} (rv : D V) (rs : D S) rest pos b :
  fst (read_embeddings_d T te rv rs (mkBroken (magic ++ le_bytes 4 model_version ++ le_bytes 4 0 ++ rest) pos b))
  = MErr (MFormat (txt "Embedding file does not contain chunks")) /\
  fst (read_metadata_d T te (mkBroken (magic ++ le_bytes 4 model_version ++ le_bytes 4 0 ++ rest) pos b))
  = MErr (MFormat (txt "Embedding file does not contain chunks")).
Proof.
  assert (read_header_d (mkBroken (magic ++ le_bytes 4 model_version ++ le_bytes 4 0 ++ rest) pos b) = (MOk [], mkBroken rest (pos + 4 + 4 + 4) b)) as H.
  { unfold read_header_d. unfold dbind at 1, io at 1. rewrite read_exact_app by reflexivity.
    replace (str_eqb magic magic) with true by reflexivity. cbn [negb]. unfold dbind at 1. rewrite at_u32 by reflexivity.
    replace (model_version =? model_version) with true by reflexivity. cbn [negb]. unfold dbind at 1. rewrite at_u32 by reflexivity.
    reflexivity. }
  split; [unfold read_embeddings_d|unfold read_metadata_d]; unfold dbind at 1; rewrite H; reflexivity.
Qed.
(** Metadata. *)
Definition metadata_bytes (bs : str) : list byte := le_bytes 4 (chunk_num CMetadata) ++ le_bytes 8 (lenN bs) ++ bs.
Lemma metadata_text (T : toml_ops) te bs rest pos b : lenN bs <= isize_max ->
  (utf8_valid bs = false -> exists e s', read_metadata_chunk_d T te (mkBroken (metadata_bytes bs ++ rest) pos b) = (MErr e, s') /\
     points_at (txt "TOML metadata contains invalid UTF-8: ") bs e) /\
  (utf8_valid bs = true -> toml_parse T bs = None ->
     fst (read_metadata_chunk_d T te (mkBroken (metadata_bytes bs ++ rest) pos b)) = MErr (MFormat (txt "Cannot deserialize TOML metadata: " ++ te bs))).
Proof.
  intros L.
  assert (exists s', forall A (k : str -> D A), (ensure_chunk_type_d CMetadata ;;; n <- io read_u64 "Cannot read chunk length" ;; build (reserve n 1) ;;; dbind (io (read_exact n) "Cannot read TOML metadata") k)
     (mkBroken (metadata_bytes bs ++ rest) pos b) = k bs s') as [s' H].
  { eexists. intros A k. unfold metadata_bytes. rewrite <- !app_assoc. unfold dbind at 1. rewrite at_ensure by discriminate.
    unfold dbind at 1. rewrite at_u64 by (unfold isize_max, two64 in *; lia). unfold dbind at 1, build, io at 1.
    rewrite build_reserve by lia. unfold dbind at 1, io at 1. rewrite read_exact_app by reflexivity. reflexivity. }
  unfold read_metadata_chunk_d. rewrite !H. split.
  - intros V. rewrite V. do 2 eexists. split; [reflexivity|]. apply points, V.
  - intros V P. rewrite V, P. reflexivity.
Qed.
(** Numbers of hash functions that floret does not have. *)
Lemma floret_hashes_text pf len mn mx buckets hashes rest pos b : len < two64 -> mn < two32 -> mx < two32 -> buckets < two64 -> hashes < two32 ->
  (hashes = 0 \/ 4 < hashes) ->
  fst (read_floret_d pf (mkBroken (le_bytes 4 (chunk_num CFloretSubwordVocab) ++ le_bytes 8 len ++ le_bytes 4 mn ++ le_bytes 4 mx
        ++ le_bytes 8 buckets ++ le_bytes 4 hashes ++ rest) pos b))
  = MErr (MRead (txt "Number of hashes should be in be more than 0 and less than 5, was: " ++ dec_print hashes)).
Proof.
  intros L1 L2 L3 L4 L5 H. unfold read_floret_d. unfold dbind at 1. rewrite at_ensure by discriminate.
  unfold dbind at 1. rewrite at_u64 by assumption. do 2 (unfold dbind at 1; rewrite at_u32 by assumption).
  unfold dbind at 1. rewrite at_u64 by assumption. unfold dbind at 1. rewrite at_u32 by assumption.
  replace ((1 <=? hashes) && (hashes <=? 4)) with false; [reflexivity|].
  symmetry. apply andb_false_iff. rewrite !N.leb_gt. lia.
Qed.
