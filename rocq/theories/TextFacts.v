(** * Facts about the text formats. *)
From Verif Require Import Base BaseFacts Utf8 Utf8Facts Stream StreamFacts F32 ChunkIO Subword Vocab Storage Embeddings TextIO TextSpec.
Local Open Scope N_scope.

(** ** Decimal numerals *)

Lemma digit_value_spec b d : digit_value b = Some d <-> b = Nb (48 + d) /\ d < 10.
Proof.
  unfold digit_value. pose proof (bN_lt b). destruct (N.leb_spec 48 (bN b)), (N.leb_spec (bN b) 57); cbn [andb]; split.
  - intros K. inv K. split; [|lia]. replace (48 + (bN b - 48)) with (bN b) by lia. symmetry. apply Nb_bN.
  - intros [-> L]. rewrite bN_Nb_small by lia. f_equal. lia.
  - discriminate.
  - intros [-> L]. rewrite bN_Nb_small in * by lia. lia.
  - discriminate.
  - intros [-> L]. rewrite bN_Nb_small in * by lia. lia.
  - discriminate.
  - intros [-> L]. rewrite bN_Nb_small in * by lia. lia.
Qed.

Lemma digits_value_app a b : digits_value (a ++ b) = digits_value a * 10 ^ lenN b + digits_value b.
Proof.
  induction a as [|d a IH]; cbn [app digits_value]; [lia|]. rewrite IH, lenN_app, N.pow_add_r. lia.
Qed.
Lemma digits_value_lt ds : Forall (fun d => d < 10) ds -> digits_value ds < 10 ^ lenN ds.
Proof.
  induction 1 as [|d ds H _ IH]; cbn [digits_value]; [reflexivity|].
  rewrite lenN_cons, N.pow_add_r. change (10 ^ 1) with 10. nia.
Qed.

Lemma dec_digits_spec s : forall acc n, acc < two64 ->
  dec_digits s acc = Some n <->
  exists ds, s = digits_text ds /\ Forall (fun d => d < 10) ds /\ n = acc * 10 ^ lenN ds + digits_value ds /\ n < two64.
Proof.
  induction s as [|b s IH]; intros acc n A; cbn [dec_digits].
  - split.
    + intros H. inv H. exists []. repeat split; auto. cbn [digits_value]. rewrite lenN_nil. cbn. lia.
    + intros (ds & E & _ & -> & _). destruct ds; [|discriminate]. cbn [digits_value]. rewrite lenN_nil. f_equal. cbn. lia.
  - destruct (digit_value b) as [d|] eqn:D.
    + apply digit_value_spec in D as [-> D]. destruct (N.ltb_spec (acc * 10 + d) two64) as [L|L].
      * rewrite (IH _ n L). split.
        -- intros (ds & -> & F & -> & Ln). exists (d :: ds). cbn [digits_text map digits_value]. split; [reflexivity|]. split; [auto|].
           rewrite lenN_cons, N.pow_add_r in *. change (10 ^ 1) with 10. split; [lia|]. lia.
        -- intros (ds & E & F & -> & Ln). destruct ds as [|d' ds]; [discriminate|]. cbn [digits_text map] in E. inv F.
           assert (d' = d /\ s = digits_text ds) as [-> ->].
           { injection E as E1 E2. split; [|auto]. assert (bN (Nb (48 + d)) = bN (Nb (48 + d'))) as K by (f_equal; exact E1).
             rewrite !bN_Nb_small in K by lia. lia. }
           exists ds. cbn [digits_value] in *. rewrite lenN_cons, N.pow_add_r in *. change (10 ^ 1) with 10 in *. repeat split; auto. lia.
      * split; [discriminate|]. intros (ds & E & F & -> & Ln). exfalso. destruct ds as [|d' ds]; [discriminate|]. inv F.
        cbn [digits_text map] in E. assert (d' = d) as ->.
        { injection E as E1 E2. assert (bN (Nb (48 + d)) = bN (Nb (48 + d'))) as K by (f_equal; exact E1).
          rewrite !bN_Nb_small in K by lia. lia. }
        cbn [digits_value] in Ln. rewrite lenN_cons, N.pow_add_r in Ln. change (10 ^ 1) with 10 in Ln.
        assert (1 <= 10 ^ lenN ds) by (apply (N.pow_le_mono_r 10 0); lia). nia.
    + split; [discriminate|]. intros (ds & E & F & _). exfalso. destruct ds as [|d' ds]; [discriminate|]. inv F. cbn [digits_text map] in E.
      assert (digit_value b = Some d') as K by (apply digit_value_spec; split; [congruence|auto]). congruence.
Qed.

Lemma digits_text_plus ds s : Forall (fun d => d < 10) ds -> digits_text ds <> x2b :: s.
Proof.
  intros F. destruct ds as [|d ds]; [discriminate|]. inv F. cbn [digits_text map]. intros H. injection H as H _.
  assert (bN (Nb (48 + d)) = bN x2b) as K by (f_equal; exact H). rewrite bN_Nb_small in K by lia. change (bN x2b) with 43 in K. lia.
Qed.

Lemma dec_parse_spec s n : dec_parse s = Some n <-> numeral s n /\ n < two64.
Proof.
  unfold dec_parse, numeral. assert (0 < two64) as Z by reflexivity. destruct s as [|b s].
  - split; [discriminate|]. intros [(ds & N0 & _ & _ & [E|E]) _]; [destruct ds; [congruence|discriminate]|discriminate].
  - destruct (byte_eqb b x2b) eqn:B.
    + apply byte_eqb_eq in B as ->. destruct s as [|c s].
      * split; [discriminate|]. intros [(ds & N0 & F & _ & [E|E]) _].
        -- symmetry in E. exfalso. eapply digits_text_plus; eauto.
        -- destruct ds; [exfalso; auto|discriminate].
      * rewrite dec_digits_spec by exact Z. split.
        -- intros (ds & E & F & -> & L). split; [|auto]. exists ds. rewrite E. destruct ds; [discriminate|]. split; [discriminate|]. split; [auto|]. split; [lia|auto].
        -- intros [(ds & N0 & F & -> & [E|E]) L].
           ++ symmetry in E. exfalso. eapply digits_text_plus; eauto.
           ++ injection E as E. exists ds. repeat split; auto.
    + rewrite dec_digits_spec by exact Z. split.
      * intros (ds & E & F & -> & L). split; [|auto]. exists ds. rewrite E. destruct ds; [discriminate|]. split; [discriminate|]. split; [auto|]. split; [lia|auto].
      * intros [(ds & N0 & F & -> & [E|E]) L].
        -- exists ds. repeat split; auto.
        -- injection E as -> _. discriminate.
Qed.

Lemma dec_fuel_spec fuel : forall n acc, n < 10 ^ N.of_nat fuel -> (0 < fuel)%nat ->
  exists ds, ds <> [] /\ Forall (fun d => d < 10) ds /\ digits_value ds = n /\ dec_fuel fuel n acc = digits_text ds ++ acc.
Proof.
  induction fuel as [|fuel IH]; intros n acc H F; [lia|]. cbn [dec_fuel].
  assert (n mod 10 < 10) as M by (apply N.mod_lt; discriminate). pose proof (N.div_mod n 10 ltac:(discriminate)) as DM.
  destruct (N.eqb_spec (n / 10) 0) as [Z|Z].
  - exists [n mod 10]. repeat split; auto; [discriminate|]. cbn [digits_value]. rewrite lenN_nil. cbn [N.pow]. lia.
  - destruct fuel as [|fuel'].
    { exfalso. apply Z. apply N.div_small. change (10 ^ N.of_nat 1) with 10 in H. exact H. }
    destruct (IH (n / 10) (digit (n mod 10) :: acc)) as (ds & N0 & Fd & V & E); [|lia|].
    + apply N.div_lt_upper_bound; [discriminate|]. rewrite Nat2N.inj_succ, N.pow_succ_r' in H. exact H.
    + exists (ds ++ [n mod 10]). split; [destruct ds; discriminate|]. split; [apply Forall_app; auto|].
      split; [rewrite digits_value_app; cbn [digits_value]; rewrite lenN_cons, lenN_nil, V; cbn [N.pow]; change (10 ^ (1 + 0)) with 10; lia|].
      rewrite E. unfold digits_text. rewrite map_app, <- app_assoc. reflexivity.
Qed.
Lemma dec_print_digits n : exists ds, ds <> [] /\ Forall (fun d => d < 10) ds /\ digits_value ds = n /\ dec_print n = digits_text ds.
Proof.
  destruct (dec_fuel_spec (Datatypes.S (N.size_nat n)) n []) as (ds & H1 & H2 & H3 & H4); [|lia|].
  - assert (n < 2 ^ N.of_nat (N.size_nat n)) as L.
    { destruct n as [|p]; [reflexivity|]. cbn [N.size_nat]. pose proof (N.size_gt (Npos p)) as G. cbn [N.size] in G.
      replace (N.of_nat (Pos.size_nat p)) with (Npos (Pos.size p)); [exact G|].
      clear. induction p; cbn [Pos.size Pos.size_nat]; rewrite ?Nat2N.inj_succ, <- ?IHp; try lia; reflexivity. }
    assert (2 ^ N.of_nat (N.size_nat n) <= 10 ^ N.of_nat (N.size_nat n)) by (apply N.pow_le_mono_l; lia).
    rewrite Nat2N.inj_succ, N.pow_succ_r'. lia.
  - exists ds. rewrite app_nil_r in H4. auto.
Qed.
Lemma dec_print_numeral n : numeral (dec_print n) n.
Proof. destruct (dec_print_digits n) as (ds & H1 & H2 & H3 & H4). exists ds. auto. Qed.

Lemma digits_text_range ds b : Forall (fun d => d < 10) ds -> In b (digits_text ds) -> 48 <= bN b <= 57.
Proof.
  intros F H. apply in_map_iff in H as (d & <- & H). rewrite Forall_forall in F. specialize (F d H). cbn in F.
  rewrite bN_Nb_small by lia. lia.
Qed.
Lemma dec_print_range n b : In b (dec_print n) -> 48 <= bN b <= 57.
Proof. destruct (dec_print_digits n) as (ds & H1 & H2 & H3 & ->). apply digits_text_range. exact H2. Qed.
Lemma numeral_range s n b : numeral s n -> In b s -> 43 <= bN b <= 57.
Proof.
  intros (ds & _ & F & _ & [->| ->]) H.
  - pose proof (digits_text_range ds b F H). lia.
  - destruct H as [<-|H]; [change (bN x2b) with 43; lia|]. pose proof (digits_text_range ds b F H). lia.
Qed.

(** ** Characters *)
Lemma ascii_valid s : (forall b, In b s -> bN b < 128) -> utf8_valid s = true.
Proof.
  intros H. apply utf8_valid_iff. exists (map bN s). split.
  - induction s as [|b s IH]; [reflexivity|]. cbn [map utf8_encode flat_map]. unfold encode_char.
    destruct (N.ltb_spec (bN b) 128) as [L|L].
    + rewrite Nb_bN. cbn [app]. f_equal. apply IH. intros c Hc. apply H. right. exact Hc.
    + specialize (H b (or_introl eq_refl)). lia.
  - apply forallb_forall. intros c Hc. apply in_map_iff in Hc as (b & <- & Hb). specialize (H b Hb).
    unfold scalarb. destruct (N.ltb_spec (bN b) 55296); [reflexivity|lia].
Qed.
Lemma numeral_valid s n : numeral s n -> utf8_valid s = true.
Proof. intros H. apply ascii_valid. intros b Hb. pose proof (numeral_range s n b H Hb). lia. Qed.

(** ** Fields up to a delimiter *)
Lemma split_until_hit d l r : ~ In d l -> split_until d (l ++ d :: r) = (l ++ [d], r).
Proof.
  induction l as [|b l IH]; intros H; cbn [app split_until].
  - rewrite byte_eqb_refl. reflexivity.
  - destruct (byte_eqb b d) eqn:E; [apply byte_eqb_eq in E as ->; exfalso; apply H; left; reflexivity|].
    rewrite IH; [reflexivity|]. intros K. apply H. right. exact K.
Qed.
Lemma split_until_miss d l : ~ In d l -> split_until d l = (l, []).
Proof.
  induction l as [|b l IH]; intros H; [reflexivity|]. cbn [split_until].
  destruct (byte_eqb b d) eqn:E; [apply byte_eqb_eq in E as ->; exfalso; apply H; left; reflexivity|].
  rewrite IH; [reflexivity|]. intros K. apply H. right. exact K.
Qed.
Lemma byte_in_dec (d : byte) l : {In d l} + {~ In d l}.
Proof. apply in_dec. intros a b. destruct (byte_eqb a b) eqn:E; [left; apply byte_eqb_eq, E|right; intros ->; rewrite byte_eqb_refl in E; discriminate]. Qed.
Lemma first_split d (l : list byte) : In d l -> exists a b, l = a ++ d :: b /\ ~ In d a.
Proof.
  induction l as [|b l IH]; [intros []|]. intros H. destruct (byte_eqb b d) eqn:E.
  - apply byte_eqb_eq in E as ->. exists [], l. auto.
  - assert (b <> d) as NE by (intros ->; rewrite byte_eqb_refl in E; discriminate).
    destruct H as [H|H]; [contradiction|]. destruct (IH H) as (x & y & -> & N0). exists (b :: x), y. split; [reflexivity|].
    intros [K|K]; auto.
Qed.

Lemma read_until_hit d l r p brk : ~ In d l ->
  read_until d (mkBroken (l ++ d :: r) p brk) = (Ok (l ++ [d]), mkBroken r (p + lenN (l ++ [d])) brk).
Proof.
  intros H. unfold read_until. cbn [s_rest s_pos s_broken]. rewrite split_until_hit by auto. rewrite existsb_app. cbn [existsb]. rewrite byte_eqb_refl.
  rewrite orb_true_r. cbn [negb]. rewrite andb_false_r. reflexivity.
Qed.
Lemma read_until_miss d l p : ~ In d l -> read_until d (mkStream l p) = (Ok l, mkStream [] (p + lenN l)).
Proof. intros H. unfold read_until. cbn [s_rest s_pos]. rewrite split_until_miss by auto. reflexivity. Qed.

Lemma read_until_broken d l p : ~ In d l -> read_until d (mkBroken l p true) = (Err ERead, mkBroken [] (p + lenN l) true).
Proof.
  intros H. unfold read_until. cbn [s_rest s_pos s_broken]. rewrite split_until_miss by auto. cbn [andb].
  assert (existsb (byte_eqb d) l = false) as ->; [|reflexivity]. apply not_true_iff_false. intros K. apply existsb_exists in K as (x & I & E).
  apply byte_eqb_eq in E. subst x. contradiction.
Qed.

Lemma reads_until d l : ~ In d l -> reads (read_until d) (fconst (l ++ [d])) (l ++ [d]).
Proof. intros H pos tail brk. unfold fconst. rewrite <- app_assoc. cbn [app]. apply read_until_hit. exact H. Qed.
Lemma reads_string d lossy l : ~ In d l -> utf8_valid l = true -> reads (read_string d lossy) (fconst (l ++ [d])) l.
Proof.
  intros H V pos tail brk. unfold read_string, bind. rewrite (reads_until d l H). rewrite removelast_last.
  rewrite V. destruct lossy; [rewrite from_utf8_lossy_id by auto|]; reflexivity.
Qed.
Lemma reads_number d n : n < two64 -> ~ 48 <= bN d <= 57 -> reads (read_number d) (fconst (dec_print n ++ [d])) n.
Proof.
  intros L D pos tail brk. unfold read_number, bind. rewrite reads_string.
  - rewrite (proj2 (dec_parse_spec (dec_print n) n)); [reflexivity|]. split; [apply dec_print_numeral|exact L].
  - intros H. apply dec_print_range in H. auto.
  - eapply numeral_valid, dec_print_numeral.
Qed.

(** C54: what a number field is. *)
Lemma read_number_field d f r p : ~ In d f ->
  (forall n, numeral f n -> n < two64 -> read_number d (mkStream (f ++ d :: r) p) = (Ok n, mkStream r (p + lenN f + 1))) /\
  (forall n s, read_number d (mkStream (f ++ d :: r) p) = (Ok n, s) -> numeral f n /\ n < two64) /\
  (forall s x, read_number d (mkStream (f ++ d :: r) p) = (x, s) -> x = Err EFormat \/ exists n, x = Ok n).
Proof.
  intros H. unfold read_number, read_string, bind. rewrite read_until_hit by auto. rewrite removelast_last. cbn [fst].
  rewrite lenN_app, lenN_cons, lenN_nil. split; [|split].
  - intros n Hn L. rewrite (numeral_valid f n Hn). cbn [ret]. rewrite (proj2 (dec_parse_spec f n)) by auto. unfold ret. do 2 f_equal. lia.
  - intros n s. destruct (utf8_valid f); cbn [ret]; [|discriminate]. unfold ret. destruct (dec_parse f) as [m|] eqn:E; [|discriminate].
    intros K. inv K. apply dec_parse_spec. exact E.
  - intros s x. destruct (utf8_valid f); unfold ret, fail; [|intros K; inv K; auto]. destruct (dec_parse f); intros K; inv K; eauto.
Qed.
(** Without a delimiter the last byte is lost. *)
Lemma read_number_last d f b p : ~ In d (f ++ [b]) ->
  forall n, numeral f n -> n < two64 -> read_number d (mkStream (f ++ [b]) p) = (Ok n, mkStream [] (p + lenN f + 1)).
Proof.
  intros H n Hn L. unfold read_number, read_string, bind. rewrite read_until_miss by auto. rewrite removelast_last.
  rewrite (numeral_valid f n Hn). unfold ret. rewrite (proj2 (dec_parse_spec f n)) by auto. do 2 f_equal.
  rewrite lenN_app, lenN_cons, lenN_nil. lia.
Qed.

(** ** Fields *)
Lemma blank_spec b : is_ascii_ws b = true <-> blank b.
Proof. unfold blank. split; [destruct b; cbn; intros H; try discriminate; auto 10|]. intros H. repeat (destruct H as [<-|H]; [reflexivity|]). destruct H. Qed.
Lemma blank_false b : is_ascii_ws b = false <-> ~ blank b.
Proof. rewrite <- blank_spec. destruct (is_ascii_ws b); split; intros H; auto; try discriminate. exfalso. apply H. reflexivity. Qed.

Lemma split_ws_blank s : forall r, Forall blank s -> split_ws (s ++ r) [] = split_ws r [].
Proof. induction s as [|b s IH]; intros r F; [reflexivity|]. inv F. cbn [app split_ws]. rewrite (proj2 (blank_spec b)) by auto. auto. Qed.
Lemma split_ws_word f : forall r cur, Forall (fun b => ~ blank b) f -> split_ws (f ++ r) cur = split_ws r (rev f ++ cur).
Proof.
  induction f as [|b f IH]; intros r cur F; [reflexivity|]. inv F. cbn [app split_ws]. rewrite (proj2 (blank_false b)) by auto.
  rewrite IH by auto. cbn [rev]. rewrite <- app_assoc. reflexivity.
Qed.
Lemma fields_exact s fs : has_fields s fs -> fields s = fs.
Proof.
  unfold fields. induction 1 as [s F|pre f r fs F1 N0 F2 B H IH].
  - pose proof (split_ws_blank s [] F) as E. rewrite app_nil_r in E. rewrite E. reflexivity.
  - rewrite split_ws_blank by auto. rewrite split_ws_word by auto. rewrite app_nil_r.
    assert (rev f <> []) as NR by (intros K; apply N0; rewrite <- (rev_involutive f), K; reflexivity).
    assert (forall l : str, l <> [] -> split_ws [] l = [rev l]) as K1 by (intros [|c l] K; [contradiction|reflexivity]).
    assert (forall b r (l : str), l <> [] -> is_ascii_ws b = true -> split_ws (b :: r) l = rev l :: split_ws (b :: r) []) as K2
      by (intros b r0 [|c l] K E; [contradiction|cbn [split_ws]; rewrite E; reflexivity]).
    destruct r as [|b r].
    + rewrite K1, rev_involutive by exact NR. rewrite <- IH. reflexivity.
    + rewrite K2, rev_involutive by (auto; apply blank_spec; eapply B; reflexivity). rewrite IH. reflexivity.
Qed.
Lemma has_fields_exist : forall s, exists fs, has_fields s fs.
Proof.
  intros s. remember (length s) as n eqn:E. assert (length s <= n)%nat as L by lia. clear E. revert s L.
  induction n as [|n IH]; intros s L.
  - destruct s; [|cbn in L; lia]. exists []. constructor. constructor.
  - assert (forall s : str, exists pre s', s = pre ++ s' /\ Forall blank pre /\ (s' = [] \/ exists b t, s' = b :: t /\ ~ blank b)) as K1.
    { clear. induction s as [|b s IH]; [exists [], []; auto|]. destruct (is_ascii_ws b) eqn:B.
      - destruct IH as (pre & s' & -> & F & H). exists (b :: pre), s'. split; [reflexivity|]. split; [constructor; [apply blank_spec, B|exact F]|exact H].
      - exists [], (b :: s). split; [reflexivity|]. split; [constructor|]. right. exists b, s. split; [reflexivity|]. apply blank_false, B. }
    assert (forall s : str, exists f r, s = f ++ r /\ Forall (fun b => ~ blank b) f /\ (forall b r', r = b :: r' -> blank b)) as K2.
    { clear. induction s as [|b s IH]; [exists [], []; split; [reflexivity|]; split; [constructor|discriminate]|]. destruct (is_ascii_ws b) eqn:B.
      - exists [], (b :: s). split; [reflexivity|]. split; [constructor|]. intros c r' H. inv H. apply blank_spec, B.
      - destruct IH as (f & r & -> & F & H). exists (b :: f), r. split; [reflexivity|]. split; [constructor; [apply blank_false, B|exact F]|exact H]. }
    destruct (K1 s) as (pre & s' & -> & Fp & [->|(b & t & -> & NB)]).
    + exists []. constructor. rewrite app_nil_r. exact Fp.
    + destruct (K2 (b :: t)) as (f & r & E & Ff & Hr). rewrite E. destruct f as [|c f].
      { cbn in E. subst r. exfalso. apply NB. eapply Hr. reflexivity. }
      destruct (IH r) as (fs & H).
      { assert (length (pre ++ b :: t) = length pre + length ((c :: f) ++ r))%nat as LL by (rewrite app_length, E; reflexivity).
        rewrite app_length in LL. cbn [length] in *. rewrite !app_length in *. cbn [length] in *. lia. }
      exists ((c :: f) :: fs). constructor; auto. discriminate.
Qed.
Lemma fields_has s : has_fields s (fields s).
Proof. destruct (has_fields_exist s) as (fs & H). rewrite (fields_exact s fs H). exact H. Qed.

(** ** Lines *)
Lemma lines_exist data : exists ls, lines data ls.
Proof.
  remember (length data) as n eqn:E. assert (length data <= n)%nat as L by lia. clear E. revert data L.
  induction n as [|n IH]; intros data L.
  - destruct data; [|cbn in L; lia]. exists []. constructor.
  - destruct (byte_in_dec x0a data) as [I|NI].
    + apply first_split in I as (a & b & -> & NI). destruct (IH b) as (ls & H).
      { rewrite app_length in L. cbn [length] in L. lia. }
      exists (a :: ls). constructor; auto.
    + destruct data as [|c data]; [exists []; constructor|]. exists [c :: data]. constructor; auto. discriminate.
Qed.

Lemma strip_nl_hit l : strip_nl (l ++ [x0a]) = l.
Proof. unfold strip_nl. rewrite rev_app_distr. cbn [rev app]. apply rev_involutive. Qed.
Lemma strip_nl_miss l : ~ In x0a l -> strip_nl l = l.
Proof.
  intros H. unfold strip_nl. destruct (rev l) as [|b r] eqn:E; [reflexivity|].
  assert (In b l) as I by (apply in_rev; rewrite E; left; reflexivity). destruct b; try reflexivity. contradiction.
Qed.

Section Lines.
  Context (P : ftext_ops).

  Lemma text_line_item lossy l it : text_line P lossy l = Ok it <-> line_item P lossy l it.
  Proof.
    unfold text_line, line_item, decodes. set (dl := if lossy then Ok (from_utf8_lossy l) else if utf8_valid l then Ok l else Err EFormat).
    assert (forall s, dl = Ok s <-> decodes lossy l s) as D.
    { intros s. unfold dl, decodes. destruct lossy; [split; [intros H; inv H; reflexivity|intros ->; reflexivity]|].
      destruct (utf8_valid l); split; try discriminate; [intros H; inv H; auto|intros [-> _]; reflexivity|intros [_ H]; discriminate]. }
    split.
    - intros H. apply rbind_Ok_inv in H as (s & E & H). apply D in E. destruct (fields s) as [|w ps] eqn:F; [discriminate|].
      apply rbind_Ok_inv in H as (xs & R & H). inv H. exists s, ps. split; [exact E|]. cbn [fst snd]. rewrite <- F. split; [apply fields_has|].
      unfold parse_floats in R. apply rmap_Ok_inv in R. clear - R. induction R as [|p x ps xs H R IH]; constructor; auto.
      destruct (ft_parse P p); [inv H; reflexivity|discriminate].
    - intros (s & ps & E & H & R). apply D in E. rewrite E. cbn [rbind]. rewrite (fields_exact _ _ H).
      assert (parse_floats P ps = Ok (snd it)) as ->; [|destruct it; reflexivity].
      apply rmap_Ok. clear - R. induction R as [|p x ps xs H R IH]; constructor; auto. rewrite H. reflexivity.
  Qed.
  Lemma text_line_cases lossy l : (exists it, text_line P lossy l = Ok it) \/ text_line P lossy l = Err EFormat.
  Proof.
    unfold text_line. assert (forall ps, (exists xs, parse_floats P ps = Ok xs) \/ parse_floats P ps = Err EFormat) as K.
    { induction ps as [|p ps IH]; [left; exists []; reflexivity|]. unfold parse_floats in *. cbn [rmap].
      destruct (ft_parse P p); cbn [rbind]; [|right; reflexivity]. destruct IH as [(xs & ->)| ->]; cbn [rbind]; eauto. }
    assert (forall s, (exists it, match fields s with [] => Err EFormat | w :: ps => let* xs := parse_floats P ps in Ok (w, xs) end = Ok it)
            \/ match fields s with [] => Err EFormat | w :: ps => let* xs := parse_floats P ps in Ok (w, xs) end = Err EFormat) as K2.
    { intros s. destruct (fields s) as [|w ps]; [right; reflexivity|]. destruct (K ps) as [(xs & ->)| ->]; cbn [rbind]; eauto. }
    destruct lossy; [apply K2|]. destruct (utf8_valid l); [apply K2|right; reflexivity].
  Qed.

  Lemma text_lines_fst lossy data ls : lines data ls -> forall fuel p, (length data < fuel)%nat ->
    fst (text_lines P fuel lossy (mkStream data p)) =
    (let* its := rmap (text_line P lossy) ls in Ok (map fst its, flat_map snd its)) /\
    (forall r s, text_lines P fuel lossy (mkStream data p) = (Ok r, s) -> s = mkStream [] (p + lenN data)).
  Proof.
    induction 1 as [|l N0 NI|l r ls NI H IH]; intros [|fuel] p L; try lia; cbn [text_lines]; unfold bind.
    - rewrite read_until_miss by (intros []). split; [reflexivity|]. intros r s E. inv E. reflexivity.
    - rewrite read_until_miss by exact NI. destruct l as [|b l]; [contradiction|]. rewrite strip_nl_miss by exact NI.
      cbn [rmap]. destruct (text_line_cases lossy (b :: l)) as [(it & E)|E]; rewrite E; unfold lift; cbn [rbind]; [|split; [reflexivity|discriminate]].
      destruct fuel as [|fuel]; [cbn in L; lia|]. cbn [text_lines]. unfold bind. rewrite read_until_miss by (intros []). unfold ret. cbn [fst snd map flat_map].
      split; [reflexivity|]. intros r s K. inv K. f_equal. rewrite lenN_nil. lia.
    - rewrite read_until_hit by exact NI. assert (l ++ [x0a] <> []) as NE by (destruct l; discriminate).
      destruct (l ++ [x0a]) as [|b t] eqn:EB; [contradiction|]. rewrite <- EB, strip_nl_hit. clear EB b t NE.
      cbn [rmap]. destruct (text_line_cases lossy l) as [(it & E)|E]; rewrite E; unfold lift; cbn [rbind]; [|split; [reflexivity|discriminate]].
      destruct (IH fuel (p + lenN (l ++ [x0a]))) as [I1 I2].
      { rewrite app_length in L. cbn [length] in L. lia. }
      destruct (text_lines P fuel lossy (mkStream r (p + lenN (l ++ [x0a])))) as [x s'] eqn:ET. cbn [fst] in I1. subst x.
      destruct (rmap (text_line P lossy) ls) as [its| |]; cbn [rbind]; [|split; [reflexivity|discriminate]..].
      unfold ret. cbn [fst snd map flat_map]. split; [reflexivity|]. intros x s K. inv K. rewrite (I2 _ _ eq_refl). f_equal.
      rewrite !lenN_app, !lenN_cons, lenN_nil. lia.
  Qed.
  Lemma lines_unique data ls : lines data ls -> forall ls', lines data ls' -> ls = ls'.
  Proof.
    induction 1 as [|l N0 NI|l r ls NI H IH]; intros ls' H'.
    - inv H'; [reflexivity|contradiction|]. destruct l; discriminate.
    - inv H'; [contradiction|reflexivity|]. exfalso. apply NI. apply in_or_app. right. left. reflexivity.
    - remember (l ++ x0a :: r) as d eqn:E. destruct H' as [|l' N0' NI'|l' r' ls' NI' H'].
      + destruct l; discriminate.
      + exfalso. apply NI'. rewrite E. apply in_or_app. right. left. reflexivity.
      + assert (split_until x0a (l' ++ x0a :: r') = split_until x0a (l ++ x0a :: r)) as S by (f_equal; exact E).
        rewrite !split_until_hit in S by auto. injection S as S1 S2. apply app_inj_tail in S1 as [-> _]. subst r'. f_equal. auto.
  Qed.

  Lemma read_lines_items lossy s items : s_broken s = false -> text_items P lossy (s_rest s) items ->
    read_lines P lossy s = (Ok (map fst items, flat_map snd items), mkStream [] (s_pos s + lenN (s_rest s))).
  Proof.
    intros B (ls & H & R). unfold read_lines. destruct s as [data p brk]. cbn [s_rest s_pos s_broken] in *. subst brk.
    destruct (text_lines_fst lossy data ls H (Datatypes.S (length data)) p ltac:(lia)) as [E1 E2].
    assert (rmap (text_line P lossy) ls = Ok items) as ER.
    { apply rmap_Ok. clear - R. induction R; constructor; auto. apply text_line_item. auto. }
    rewrite ER in E1. cbn [rbind] in E1. destruct (text_lines P _ lossy (mkStream data p)) as [x s']. cbn [fst] in E1. subst x.
    rewrite (E2 _ _ eq_refl). reflexivity.
  Qed.
  (** A broken device is an error, in the first line that is not complete at the latest. *)
  Lemma text_lines_broken lossy : forall fuel data p, (length data < fuel)%nat ->
    exists e s', text_lines P fuel lossy (mkBroken data p true) = (Err e, s') /\ (e = ERead \/ e = EFormat).
  Proof.
    induction fuel as [|fuel IH]; intros data p L; [lia|]. cbn [text_lines]. unfold bind at 1. destruct (byte_in_dec x0a data) as [I|I].
    - destruct (first_split x0a data I) as (l & r & -> & NI). rewrite read_until_hit by exact NI.
      destruct (l ++ [x0a]) as [|b t] eqn:EB; [destruct l; discriminate|]. rewrite <- EB, strip_nl_hit. clear EB b t.
      unfold bind at 1, lift. destruct (text_line_cases lossy l) as [(it & ->)| ->]; [|eauto].
      destruct (IH r (p + lenN (l ++ [x0a]))) as (e & s' & E & C); [rewrite app_length in L; cbn [length] in L; lia|].
      unfold bind. rewrite E. eauto.
    - rewrite read_until_broken by exact I. eauto.
  Qed.
  Lemma read_lines_broken lossy s : s_broken s = true -> exists e s', read_lines P lossy s = (Err e, s') /\ (e = ERead \/ e = EFormat).
  Proof. destruct s as [data p brk]. cbn [s_broken]. intros ->. apply text_lines_broken. cbn [s_rest]. lia. Qed.
  Lemma read_lines_cases lossy s : s_broken s = false ->
    (exists items, text_items P lossy (s_rest s) items) \/
    ((forall items, ~ text_items P lossy (s_rest s) items) /\ exists s', read_lines P lossy s = (Err EFormat, s')).
  Proof.
    destruct s as [data p brk]. cbn [s_rest s_broken]. intros ->. destruct (lines_exist data) as (ls & H). unfold read_lines. cbn [s_rest].
    destruct (text_lines_fst lossy data ls H (Datatypes.S (length data)) p ltac:(lia)) as [E1 _].
    assert ((exists its, rmap (text_line P lossy) ls = Ok its) \/ rmap (text_line P lossy) ls = Err EFormat) as [(its & E)|E].
    { clear. induction ls as [|l ls IH]; [left; exists []; reflexivity|]. cbn [rmap].
      destruct (text_line_cases lossy l) as [(it & ->)| ->]; cbn [rbind]; [|right; reflexivity]. destruct IH as [(its & ->)| ->]; cbn [rbind]; eauto. }
    - left. exists its. exists ls. split; [exact H|]. apply rmap_Ok_inv in E. clear - E. induction E; constructor; auto. apply text_line_item. auto.
    - right. split.
      + intros items (ls' & H' & R). rewrite <- (lines_unique _ _ H _ H') in R. assert (rmap (text_line P lossy) ls = Ok items) as K; [|congruence].
        apply rmap_Ok. clear - R. induction R; constructor; auto. apply text_line_item. auto.
      + rewrite E in E1. cbn [rbind] in E1. destruct (text_lines P _ lossy (mkStream data p)) as [x s']. cbn [fst] in E1. subst x. eauto.
  Qed.
End Lines.
