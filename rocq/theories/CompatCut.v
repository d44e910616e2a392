(** * What the errors say about word2vec and fastText files that were cut. *)
From Coq Require Import Strings.String.
From Verif Require Import Base BaseFacts Utf8 Utf8Facts Stream StreamFacts F32 ChunkIO ChunkFacts Subword Vocab VocabFacts Storage StorageFacts
  Embeddings TextIO FastText FileSpec VocabSpec EmbSpec TextSpec TextFacts TextThms FloretThms FastTextSpec FastTextThms
  Messages MessageSpec MessageThms MessageWrong CompatMessages CompatErasure CompatTexts CompatLines.
Local Open Scope N_scope.
Local Open Scope d_scope.

(** [d] reads [bs] as [a]; if there is less, the error is that of the table.
    [b] tells whether the device fails where the data ends. *)
Record eats {A} (b : bool) (d : D A) (bs : list byte) (fs : list field) (a : A) : Prop := {
  ea_len : fields_len fs = lenN bs;
  ea_full : forall pos tail, d (mkBroken (bs ++ tail) pos b) = (MOk a, mkBroken tail (pos + lenN bs) b);
  ea_cut : forall pos i, i < lenN bs -> exists e s', missing fs i = Some e /\ d (mkBroken (takeN i bs) pos b) = (MErr e, s')
}.
Lemma eats_ret {A} b (a : A) : eats b (dret a) [] [] a.
Proof.
  split; [reflexivity| |].
  - intros pos tail. unfold dret. rewrite lenN_nil, N.add_0_r. reflexivity.
  - intros pos i. rewrite lenN_nil. lia.
Qed.
Lemma eats_io {A} b (m : reader A) what bs a n : reads m (fconst bs) a -> short m (fconst bs) -> lenN bs = n ->
  eats b (io m what) bs [rd n what] a.
Proof.
  intros R S E. destruct (tells_io m what bs a n R S E) as [L F C]. split; [exact (L 0)|intros; apply F|].
  intros pos i H. specialize (C pos i b H). unfold one, rd in C. cbn [missing] in *. rewrite <- E in *.
  unfold rd. cbn [missing]. destruct (N.ltb_spec i (lenN bs)); [|lia]. destruct C as [s' C]. eauto.
Qed.
Lemma eats_bind {A B} b (d : D A) (k : A -> D B) bs fs cs gs a c : eats b d bs fs a -> eats b (k a) cs gs c ->
  eats b (dbind d k) (bs ++ cs) (fs ++ gs) c.
Proof.
  intros [L F C] [L2 F2 C2]. split.
  - rewrite fields_len_app, lenN_app, L, L2. reflexivity.
  - intros pos tail. rewrite <- app_assoc. rewrite (dbind_ok _ _ _ _ _ (F pos (cs ++ tail))), F2, lenN_app, N.add_assoc. reflexivity.
  - intros pos i H. rewrite missing_app, lenN_app in *. destruct (N.lt_ge_cases i (lenN bs)) as [Hi|Hi].
    + rewrite takeN_app_le by lia. destruct (C pos i Hi) as (e & s' & -> & E). exists e, s'. split; [reflexivity|]. exact (dbind_err _ _ _ _ _ E).
    + rewrite missing_full by (rewrite L; exact Hi). rewrite takeN_app_ge by lia. rewrite (dbind_ok _ _ _ _ _ (F pos _)), L. apply C2. lia.
Qed.
Lemma eats_pure {A B} b (d : D A) (k : A -> D B) bs fs a c : (forall s, d s = (MOk a, s)) -> eats b (k a) bs fs c -> eats b (dbind d k) bs fs c.
Proof.
  intros H [L F C]. split; [exact L| |].
  - intros pos tail. rewrite (dbind_ok _ _ _ _ _ (H _)). apply F.
  - intros pos i Hi. rewrite (dbind_ok _ _ _ _ _ (H _)). apply C, Hi.
Qed.
Lemma eats_eq {A} b (d : D A) bs cs fs gs a : bs = cs -> fs = gs -> eats b d bs fs a -> eats b d cs gs a.
Proof. intros -> ->. auto. Qed.
Lemma eats_u8 b n what : n < 256 -> eats b (io read_u8 what) (le_bytes 1 n) [rd 1 what] n.
Proof.
  intros H. apply eats_io; [| |apply le_bytes_lenN].
  - intros pos tail br. unfold fconst, read_u8, bind. rewrite read_exact_app by apply le_bytes_lenN. unfold ret.
    rewrite le_value_bytes_mod. change (256 ^ N.of_nat 1) with 256. rewrite N.mod_small by exact H. rewrite le_bytes_lenN. reflexivity.
  - unfold read_u8. apply short_map. rewrite <- (le_bytes_lenN 1 n) at 1. apply short_exact.
Qed.
Lemma eats_u32 b n what : n < two32 -> eats b (io read_u32 what) (le_bytes 4 n) [rd 4 what] n.
Proof. intros H. apply eats_io; [apply reads_u32, H|apply short_u32|apply le_bytes_lenN]. Qed.
Lemma eats_u64 b n what : n < two64 -> eats b (io read_u64 what) (le_bytes 8 n) [rd 8 what] n.
Proof. intros H. apply eats_io; [apply reads_u64, H|apply short_u64|apply le_bytes_lenN]. Qed.
Lemma eats_f32s b l n what : n = lenN l -> eats b (io (read_f32s n) what) (f32s_bytes l) [rd (4 * n) what] l.
Proof. intros E. apply eats_io; [apply reads_f32s, E|apply short_f32s, E|]. rewrite f32s_bytes_lenN, E. reflexivity. Qed.

(** A string up to a delimiter, and what follows.  Where the data ends in the
    string, that is not noticed: its last byte is taken for the delimiter, and
    the error is that of what follows, unless the rest is not UTF-8. *)
Definition cut_error (name : list byte) (i : N) (e0 : emsg) : emsg :=
  if utf8_valid (takeN (i - 1) name) then e0
  else MFormat (txt "Token contains invalid UTF-8: " ++ utf8_text (takeN (i - 1) name)).
Definition word_fields (b lossy : bool) (name : list byte) (what : string) : list field :=
  if b then [rd (lenN name + 1) "Cannot read string"]
  else if lossy then [rd (lenN name + 1) what]
  else map (fun i => Fld 1 (cut_error name i (MRead (txt what)))) (rangeN (lenN name + 1)).
Lemma cut_error_is name i e0 :
  (utf8_valid (takeN (i - 1) name) = true /\ cut_error name i e0 = e0) \/
  (utf8_valid (takeN (i - 1) name) = false /\ points_at (txt "Token contains invalid UTF-8: ") (takeN (i - 1) name) (cut_error name i e0)).
Proof. unfold cut_error. destruct (utf8_valid _) eqn:E; [left; auto|right]. split; [reflexivity|]. apply points, E. Qed.
Lemma bytewise_len {A} (f : A -> emsg) l : fields_len (map (fun j => Fld 1 (f j)) l) = lenN l.
Proof. induction l as [|x l IH]; [reflexivity|]. cbn [map fields_len field_len]. rewrite IH, lenN_cons. lia. Qed.
Lemma bytewise_missing (f : N -> emsg) n i : i < n -> missing (map (fun j => Fld 1 (f j)) (rangeN n)) i = Some (f i).
Proof.
  intros H. unfold rangeN. assert (forall k a i, i < N.of_nat k -> missing (map (fun j => Fld 1 (f j)) (map N.of_nat (seq a k))) i = Some (f (N.of_nat a + i))) as G.
  { clear. induction k as [|k IH]; intros a i H; [lia|]. cbn [seq map missing]. destruct (N.ltb_spec i 1).
    - do 2 f_equal. lia.
    - rewrite IH by lia. do 2 f_equal. lia. }
  rewrite G by lia. do 2 f_equal.
Qed.
Lemma word_fields_len b lossy name what : fields_len (word_fields b lossy name what) = lenN name + 1.
Proof. unfold word_fields. destruct b; [|destruct lossy]; [cbn; lia|cbn; lia|]. rewrite bytewise_len, rangeN_lenN. reflexivity. Qed.
Lemma removelast_takeN {A} (l : list A) i : i <= lenN l -> removelast (takeN i l) = takeN (i - 1) l.
Proof.
  intros L. unfold takeN. destruct i as [|i] using N.peano_ind; [reflexivity|]. replace (N.succ i - 1) with i by lia. rewrite N2Nat.inj_succ.
  apply removelast_firstn. unfold lenN in L. lia.
Qed.
Lemma in_takeN {A} i (l : list A) x : In x (takeN i l) -> In x l.
Proof. intros H. rewrite <- (takeN_dropN i l). apply in_or_app. left. exact H. Qed.
Lemma eats_word {A} b d lossy name w (k : str -> D A) bs fs a what : ~ In d name -> decodes lossy name w ->
  (forall v pos, exists s', k v (mkBroken [] pos b) = (MErr (MRead (txt what)), s')) -> eats b (k w) bs fs a ->
  eats b (dbind (read_string_t d lossy) k) (name ++ d :: bs) (word_fields b lossy name what ++ fs) a.
Proof.
  intros NI DC KE [L F C].
  assert (forall tail pos, read_string_t d lossy (mkBroken (name ++ d :: tail) pos b) = (MOk w, mkBroken tail (pos + lenN (name ++ [d])) b)) as RS.
  { intros tail pos. rewrite string_at by exact NI. unfold token, decodes in *. destruct lossy; [subst w; reflexivity|]. destruct DC as [-> ->]. reflexivity. }
  split.
  - rewrite fields_len_app, word_fields_len, L, lenN_app, lenN_cons. lia.
  - intros pos tail. rewrite <- app_assoc. cbn [app]. rewrite (dbind_ok _ _ _ _ _ (RS _ _)), F, !lenN_app, !lenN_cons, lenN_nil.
    f_equal. f_equal. lia.
  - intros pos i H. rewrite lenN_app, lenN_cons in H. rewrite missing_app, word_fields_len. destruct (N.lt_ge_cases i (lenN name + 1)) as [Hi|Hi].
    + rewrite takeN_app_le by lia. assert (~ In d (takeN i name)) as NT by (intros X; apply NI; exact (in_takeN _ _ _ X)).
      unfold word_fields. destruct b; [|destruct lossy].
      * cbn [missing]. unfold rd. cbn [missing]. apply N.ltb_lt in Hi as ->. do 2 eexists. split; [reflexivity|].
        unfold dbind, read_string_t, io. unfold dbind at 1. rewrite read_until_broken by exact NT. reflexivity.
      * unfold rd. cbn [missing]. apply N.ltb_lt in Hi as ->.
        assert (exists v pos', read_string_t d true (mkStream (takeN i name) pos) = (MOk v, mkStream [] pos')) as (v & pos' & E).
        { unfold read_string_t, io, dbind. rewrite read_until_miss by exact NT. do 2 eexists. reflexivity. }
        destruct (KE v pos') as [s' KE']. do 2 eexists. split; [reflexivity|]. rewrite (dbind_ok _ _ _ _ _ E). exact KE'.
      * rewrite bytewise_missing by exact Hi. unfold cut_error.
        assert (exists pos', read_string_t d false (mkStream (takeN i name) pos) = token false (takeN (i - 1) name) (mkStream [] pos')) as (pos' & E).
        { unfold read_string_t, io, dbind. rewrite read_until_miss by exact NT. rewrite removelast_takeN by lia. eexists. reflexivity. }
        unfold token in E. destruct (utf8_valid (takeN (i - 1) name)).
        -- destruct (KE (takeN (i - 1) name) pos') as [s' KE']. do 2 eexists. split; [reflexivity|]. rewrite (dbind_ok _ _ _ _ _ E). exact KE'.
        -- do 2 eexists. split; [reflexivity|]. exact (dbind_err _ _ _ _ _ E).
    + destruct (C (pos + lenN (name ++ [d])) (i - (lenN name + 1))) as (e & s' & M & E); [lia|]. exists e, s'. split.
      { rewrite missing_full by (rewrite word_fields_len; exact Hi). exact M. }
      rewrite takeN_app_ge by lia. replace (i - lenN name) with (1 + (i - (lenN name + 1))) by lia.
      replace (takeN (1 + (i - (lenN name + 1))) (d :: bs)) with (d :: takeN (i - (lenN name + 1)) bs).
      2:{ unfold takeN. rewrite N2Nat.inj_add. reflexivity. }
      rewrite (dbind_ok _ _ _ _ _ (RS _ _)). exact E.
Qed.

Lemma drepeat_rep {A} n (m : D A) s : drepeat n m s = (fix rep (k : nat) : D (list A) :=
    match k with O => dret [] | Datatypes.S k' => a <- m ;; l <- rep k' ;; dret (a :: l) end) (N.to_nat n) s.
Proof.
  set (rep := fix rep (k : nat) : D (list A) := _).
  assert (forall k1 k2 s, rep (k1 + k2)%nat s = (l1 <- rep k1 ;; l2 <- rep k2 ;; dret (l1 ++ l2)) s) as AD.
  { induction k1 as [|k1 IH]; intros k2 s'.
    - unfold dbind, dret. cbn. destruct (rep k2 s') as [[]]; reflexivity.
    - change (rep (Datatypes.S k1 + k2)%nat s') with ((a <- m ;; l <- rep (k1 + k2)%nat ;; dret (a :: l)) s').
      change (rep (Datatypes.S k1)) with (a <- m ;; l <- rep k1 ;; dret (a :: l)).
      unfold dbind, dret in *. destruct (m s') as [[a| |] s1]; try reflexivity. rewrite IH.
      destruct (rep k1 s1) as [[l1| |] s2]; try reflexivity. destruct (rep k2 s2) as [[]]; reflexivity. }
  destruct n as [|p]; [reflexivity|]. cbn [drepeat]. change (N.to_nat (N.pos p)) with (Pos.to_nat p). revert s.
  induction p as [p IH|p IH|]; intros s; cbn [drepeat_pos].
  - rewrite Pos2Nat.inj_xI. replace (2 * Pos.to_nat p)%nat with (Pos.to_nat p + Pos.to_nat p)%nat by lia.
    change (rep (Datatypes.S (Pos.to_nat p + Pos.to_nat p))) with (a <- m ;; l <- rep (Pos.to_nat p + Pos.to_nat p)%nat ;; dret (a :: l)).
    unfold dbind at 1. unfold dbind at 3. destruct (m s) as [[a| |] s1]; try reflexivity.
    unfold dbind at 3. rewrite AD. unfold dbind, dret. rewrite IH. destruct (rep (Pos.to_nat p) s1) as [[]]; try reflexivity.
    rewrite IH. destruct (rep (Pos.to_nat p) s0) as [[]]; reflexivity.
  - rewrite Pos2Nat.inj_xO. replace (2 * Pos.to_nat p)%nat with (Pos.to_nat p + Pos.to_nat p)%nat by lia.
    rewrite AD. unfold dbind, dret. rewrite IH. destruct (rep (Pos.to_nat p) s) as [[]]; try reflexivity. rewrite IH. reflexivity.
  - reflexivity.
Qed.
Lemma eats_repeat {A X} b (d : D A) (g : X -> list byte) (h : X -> list field) l ws :
  Forall2 (fun x w => eats b d (g x) (h x) w) l ws -> eats b (drepeat (lenN l) d) (flat_map g l) (flat_map h l) ws.
Proof.
  intros H. assert (forall s, drepeat (lenN l) d s = (fix rep (k : nat) : D (list A) :=
    match k with O => dret [] | Datatypes.S k' => a <- d ;; l <- rep k' ;; dret (a :: l) end) (length l) s) as E.
  { intros s. rewrite drepeat_rep. unfold lenN. rewrite Nat2N.id. reflexivity. }
  match type of E with forall s, _ = ?r s => assert (eats b r (flat_map g l) (flat_map h l) ws) as [X1 X2 X3] end.
  - clear E. induction H as [|x w l ws H1 H IH]; cbn [length flat_map]; [apply eats_ret|].
    apply (eats_bind b _ _ _ _ _ _ _ _ H1). rewrite <- (app_nil_r (flat_map g l)), <- (app_nil_r (flat_map h l)).
    apply (eats_bind b _ _ _ _ _ _ _ _ IH). apply eats_ret.
  - split; [exact X1| |].
    + intros pos tail. rewrite E. apply X2.
    + intros pos i Hi. destruct (X3 pos i Hi) as (e & s' & M & R). exists e, s'. rewrite E. auto.
Qed.

(** ** Cuts of a file, without what is built from it *)
Definition cuts {A} (b : bool) (d : D A) (bs : list byte) (fs : list field) : Prop :=
  forall pos i, i < lenN bs -> exists e, missing fs i = Some e /\ fst (d (mkBroken (takeN i bs) pos b)) = MErr e.
Lemma cuts_bind {A B} b (d : D A) (k : A -> D B) bs fs cs gs a : eats b d bs fs a -> cuts b (k a) cs gs ->
  cuts b (dbind d k) (bs ++ cs) (fs ++ gs).
Proof.
  intros [L F C] C2 pos i H. rewrite missing_app, lenN_app in *. destruct (N.lt_ge_cases i (lenN bs)) as [Hi|Hi].
  - rewrite takeN_app_le by lia. destruct (C pos i Hi) as (e & s' & -> & E). exists e. split; [reflexivity|]. rewrite (dbind_err _ _ _ _ _ E). reflexivity.
  - rewrite missing_full by (rewrite L; exact Hi). rewrite takeN_app_ge by lia. rewrite (dbind_ok _ _ _ _ _ (F pos _)), L. apply C2. lia.
Qed.
Lemma cuts_last {A B} b (d : D A) (k : A -> D B) bs fs a : eats b d bs fs a -> cuts b (dbind d k) bs fs.
Proof.
  intros [L F C] pos i H. destruct (C pos i H) as (e & s' & M & E). exists e. split; [exact M|]. rewrite (dbind_err _ _ _ _ _ E). reflexivity.
Qed.
Lemma cuts_pure {A B} b (d : D A) (k : A -> D B) bs fs a : (forall s, d s = (MOk a, s)) -> cuts b (k a) bs fs -> cuts b (dbind d k) bs fs.
Proof. intros H C pos i Hi. rewrite (dbind_ok _ _ _ _ _ (H _)). apply C, Hi. Qed.
Lemma build_ok {A} (m : reader A) a : (forall s, m s = (Ok a, s)) -> forall s, build m s = (MOk a, s).
Proof. intros H s. unfold build, io. rewrite H. reflexivity. Qed.
Lemma u_empty {A} (m : reader A) what bs (k : A -> D str) v pos b : short m (fconst bs) -> bs <> [] ->
  exists s', (fun _ : str => dbind (io m what) k) v (mkBroken [] pos b) = (MErr (MRead (txt what)), s').
Proof. intros S NE. destruct (S pos [] bs b eq_refl NE) as (e & s' & E). exists s'. unfold dbind, io. rewrite E. reflexivity. Qed.

(** ** word2vec *)
Definition w2v_bytes (its : list (list byte * list f32)) : list byte := flat_map (fun it => fst it ++ x20 :: f32s_bytes (snd it)) its.
Definition w2v_fields (b lossy : bool) (d : N) (its : list (list byte * list f32)) : list field :=
  flat_map (fun it => word_fields b lossy (fst it) "Cannot read word embedding" ++ [rd (4 * d) "Cannot read word embedding"]) its.
Lemma w2v_cut b pf Md lossy data n d its : header_line data n d (w2v_bytes its) -> binary_fits n d -> d <> 0 -> lenN its = n ->
  Forall (fun it => ~ In x20 (fst it) /\ (lossy = false -> utf8_valid (fst it) = true) /\ lenN (snd it) = d) its ->
  forall i, i < lenN (w2v_bytes its) -> exists e, missing (w2v_fields b lossy d its) i = Some e /\
  fst (read_word2vec_t (Md := Md) pf lossy (mkBroken (takeN (lenN data - lenN (w2v_bytes its) + i) data) 0 b)) = MErr e.
Proof.
  intros (f & g & N1 & N2 & L1 & L2 & EQ) [F1 F2] D0 LN FA i Hi.
  assert (takeN (lenN data - lenN (w2v_bytes its) + i) data = f ++ x20 :: g ++ x0a :: takeN i (w2v_bytes its)) as ->.
  { rewrite EQ. replace (f ++ x20 :: g ++ x0a :: w2v_bytes its) with ((f ++ x20 :: g ++ [x0a]) ++ w2v_bytes its) by (rewrite <- app_assoc; cbn [app]; rewrite <- app_assoc; reflexivity).
    rewrite lenN_app, takeN_app_ge by lia. rewrite <- app_assoc. cbn [app]. rewrite <- app_assoc. cbn [app]. do 5 f_equal. f_equal. lia. }
  assert (exists ws, eats b (drepeat n (read_w2v_entry_t d lossy)) (w2v_bytes its) (w2v_fields b lossy d its) ws) as (ws & W).
  { rewrite <- LN. assert (exists ws, Forall2 (fun it w => eats b (read_w2v_entry_t d lossy) (fst it ++ x20 :: f32s_bytes (snd it))
      (word_fields b lossy (fst it) "Cannot read word embedding" ++ [rd (4 * d) "Cannot read word embedding"]) w) its ws) as (ws & W).
    { clear - FA D0. induction FA as [|[name v] its (NI & V & LV) FA (ws & IH)]; [exists []; constructor|]. cbn [fst snd] in *.
      assert (exists w, decodes lossy name w) as (w & DC) by (unfold decodes; destruct lossy; eauto).
      exists ((str_trim w, v) :: ws). constructor; [|exact IH]. cbn [fst snd]. unfold read_w2v_entry_t.
      assert (0 < lenN (f32s_bytes v)) as NE by (rewrite f32s_bytes_lenN, LV; lia).
      apply (eats_word b x20 lossy name w); auto.
      - intros x pos. destruct (short_f32s v d (eq_sym LV) pos [] (f32s_bytes v) b eq_refl) as (e & s' & E).
        + intros X. apply (f_equal lenN) in X. rewrite f32s_bytes_lenN, LV, lenN_nil in X. lia.
        + exists s'. unfold dbind, io. rewrite E. reflexivity.
      - rewrite <- (app_nil_r (f32s_bytes v)). change [rd (4 * d) "Cannot read word embedding"] with ([rd (4 * d) "Cannot read word embedding"] ++ []).
        eapply eats_bind; [apply eats_f32s; auto|]. apply eats_ret. }
    exists ws. exact (eats_repeat b _ _ _ its ws W). }
  assert (forall x r k p, numeral x k -> k < two64 -> forall dl, ~ 43 <= bN dl <= 57 -> exists p', read_number_t dl (mkBroken (x ++ dl :: r) p b) = (MOk k, mkBroken r p' b)) as NUM.
  { clear. intros x r k p HN L dl ND. exists (p + lenN (x ++ [dl])). unfold read_number_t.
    assert (~ In dl x) as NI by (intros I; apply ND; exact (numeral_range _ _ _ HN I)).
    assert (read_string_t dl false (mkBroken (x ++ dl :: r) p b) = (MOk x, mkBroken r (p + lenN (x ++ [dl])) b)) as E.
    { rewrite string_at by exact NI. unfold token. rewrite (numeral_valid _ _ HN). reflexivity. }
    rewrite (dbind_ok _ _ _ _ _ E), (proj2 (dec_parse_spec x k)) by auto. reflexivity. }
  destruct (NUM f (g ++ x0a :: takeN i (w2v_bytes its)) n 0 N1 L1 x20) as (p1 & E1); [change (bN x20) with 32; lia|].
  destruct (NUM g (takeN i (w2v_bytes its)) d p1 N2 L2 x0a) as (p2 & E2); [change (bN x0a) with 10; lia|].
  destruct W as [X1 X2 X3]. destruct (X3 p2 i Hi) as (e & s' & M & E). exists e. split; [exact M|].
  assert (read_word2vec_raw_t (Md := Md) pf lossy (mkBroken (f ++ x20 :: g ++ x0a :: takeN i (w2v_bytes its)) 0 b) = (MErr e, s')) as R.
  { unfold read_word2vec_raw_t. rewrite (dbind_ok _ _ _ _ _ E1), (dbind_ok _ _ _ _ _ E2).
    rewrite (dbind_ok _ _ _ _ _ (build_ok _ _ (fun s => alloc_zeros_ok _ _ s F1) _)), (dbind_ok _ _ _ _ _ (build_ok _ _ (fun s => reserve_ok _ _ s F2) _)).
    exact (dbind_err _ _ _ _ _ E). }
  unfold read_word2vec_t. rewrite (dbind_err _ _ _ _ _ R). reflexivity.
Qed.
