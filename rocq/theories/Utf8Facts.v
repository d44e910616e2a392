(** * UTF-8 facts: the decoder accepts exactly the encodings of sequences of
    Unicode scalar values. *)
From Verif Require Import BaseFacts Utf8.
Local Open Scope N_scope.

Definition char_width (c : N) : nat :=
  if c <? 0x80 then 1%nat else if c <? 0x800 then 2%nat
  else if c <? 0x10000 then 3%nat else 4%nat.

Lemma encode_char_length c : length (encode_char c) = char_width c.
Proof.
  unfold encode_char, char_width.
  destruct (c <? 128), (c <? 2048), (c <? 65536); reflexivity.
Qed.

Lemma char_width_pos c : (1 <= char_width c <= 4)%nat.
Proof.
  unfold char_width. destruct (c <? 128), (c <? 2048), (c <? 65536); lia.
Qed.

Lemma encode_char_nonempty c : encode_char c <> [].
Proof.
  intros H. pose proof (encode_char_length c) as L. rewrite H in L.
  pose proof (char_width_pos c). simpl in L. lia.
Qed.

Ltac btest :=
  repeat match goal with
  | |- context [if ?b then _ else _] =>
      let E := fresh "E" in destruct b eqn:E
  end.

Ltac boolfalse := exfalso; cbv beta iota in *; lia.

Lemma utf8_step_encode c r :
  scalarb c = true -> utf8_step (encode_char c ++ r) = UChar c (char_width c).
Proof.
  intros S. unfold scalarb in S. unfold encode_char, char_width.
  destruct (N.ltb_spec c 0x80).
  { cbn [app utf8_step]. rewrite bN_Nb_small by lia.
    destruct (N.ltb_spec c 128); [reflexivity|lia]. }
  destruct (N.ltb_spec c 0x800).
  { cbn [app utf8_step]. unfold is_cont.
    rewrite (bN_Nb_small (0xC0 + c / 64)) by lia.
    rewrite (bN_Nb_small (0x80 + c mod 64)) by lia.
    set (x0 := 0xC0 + c / 64) in *.
    assert (x0 <? 128 = false) as -> by lia.
    assert ((194 <=? x0) && (x0 <=? 223) = true) as -> by lia.
    assert ((128 <=? 128 + c mod 64) && (128 + c mod 64 <=? 191) = true) as -> by lia.
    f_equal. lia. }
  destruct (N.ltb_spec c 0x10000).
  { cbn [app utf8_step]. unfold is_cont, second3.
    rewrite (bN_Nb_small (0xE0 + c / 4096)) by lia.
    rewrite (bN_Nb_small (0x80 + (c / 64) mod 64)) by lia.
    rewrite (bN_Nb_small (0x80 + c mod 64)) by lia.
    set (x0 := 0xE0 + c / 4096) in *.
    assert (x0 <? 128 = false) as -> by lia.
    assert ((194 <=? x0) && (x0 <=? 223) = false) as -> by lia.
    assert ((224 <=? x0) && (x0 <=? 239) = true) as -> by lia.
    set (x1 := 0x80 + (c / 64) mod 64) in *.
    assert ((if x0 =? 224 then (160 <=? x1) && (x1 <=? 191)
             else if x0 =? 237 then (128 <=? x1) && (x1 <=? 159)
             else (128 <=? x1) && (x1 <=? 191)) = true) as ->.
    { destruct (N.eqb_spec x0 224); [lia|]. destruct (N.eqb_spec x0 237); lia. }
    assert ((128 <=? 128 + c mod 64) && (128 + c mod 64 <=? 191) = true) as -> by lia.
    f_equal. lia. }
  { cbn [app utf8_step]. unfold is_cont, second4.
    rewrite (bN_Nb_small (0xF0 + c / 262144)) by lia.
    rewrite (bN_Nb_small (0x80 + (c / 4096) mod 64)) by lia.
    rewrite (bN_Nb_small (0x80 + (c / 64) mod 64)) by lia.
    rewrite (bN_Nb_small (0x80 + c mod 64)) by lia.
    set (x0 := 0xF0 + c / 262144) in *.
    assert (x0 <? 128 = false) as -> by lia.
    assert ((194 <=? x0) && (x0 <=? 223) = false) as -> by lia.
    assert ((224 <=? x0) && (x0 <=? 239) = false) as -> by lia.
    assert ((240 <=? x0) && (x0 <=? 244) = true) as -> by lia.
    set (x1 := 0x80 + (c / 4096) mod 64) in *.
    assert ((if x0 =? 240 then (144 <=? x1) && (x1 <=? 191)
             else if x0 =? 244 then (128 <=? x1) && (x1 <=? 143)
             else (128 <=? x1) && (x1 <=? 191)) = true) as ->.
    { destruct (N.eqb_spec x0 240); [lia|]. destruct (N.eqb_spec x0 244); lia. }
    set (x2 := 0x80 + (c / 64) mod 64) in *.
    assert ((128 <=? x2) && (x2 <=? 191) = true) as -> by lia.
    assert ((128 <=? 128 + c mod 64) && (128 + c mod 64 <=? 191) = true) as -> by lia.
    f_equal. lia. }
Qed.

Lemma Nb_bN_eq n b : n = bN b -> Nb n = b.
Proof. intros ->. apply Nb_bN. Qed.

Lemma utf8_step_char bs c w :
  utf8_step bs = UChar c w ->
  scalarb c = true /\ w = char_width c /\ exists r, bs = encode_char c ++ r.
Proof.
  unfold utf8_step. destruct bs as [|b0 r]; [discriminate|].
  pose proof (bN_lt b0) as L0. set (x0 := bN b0) in *.
  destruct (N.ltb_spec x0 0x80).
  { intros H1. inv H1. unfold scalarb, char_width, encode_char.
    assert (x0 <? 128 = true) as -> by lia. split; [lia|]. split; [reflexivity|].
    exists r. unfold x0. rewrite Nb_bN. reflexivity. }
  destruct ((194 <=? x0) && (x0 <=? 223)) eqn:E2.
  { destruct r as [|b1 r]; [discriminate|]. unfold is_cont.
    pose proof (bN_lt b1) as L1.
    destruct ((128 <=? bN b1) && (bN b1 <=? 191)) eqn:C1; [|discriminate].
    intros H1. inv H1. set (x1 := bN b1) in *.
    set (c := (x0 - 192) * 64 + (x1 - 128)).
    unfold scalarb, char_width, encode_char.
    assert (c <? 128 = false) as -> by (unfold c; lia).
    assert (c <? 2048 = true) as -> by (unfold c; lia).
    split; [unfold c; lia|]. split; [reflexivity|]. exists r. cbn [app].
    rewrite (Nb_bN_eq _ b0) by (fold x0; unfold c; lia).
    rewrite (Nb_bN_eq _ b1) by (fold x1; unfold c; lia). reflexivity. }
  destruct ((224 <=? x0) && (x0 <=? 239)) eqn:E3.
  { destruct r as [|b1 r]; [discriminate|]. unfold is_cont.
    pose proof (bN_lt b1) as L1. set (x1 := bN b1) in *.
    destruct (second3 x0 x1) eqn:S3; [|discriminate].
    destruct r as [|b2 r]; [discriminate|].
    pose proof (bN_lt b2) as L2. set (x2 := bN b2) in *.
    destruct ((128 <=? x2) && (x2 <=? 191)) eqn:C2; [|discriminate].
    intros H1. inv H1.
    set (c := (x0 - 224) * 4096 + (x1 - 128) * 64 + (x2 - 128)).
    assert (128 <= x1 <= 191 /\ (x0 = 224 -> 160 <= x1) /\ (x0 = 237 -> x1 <= 159)) as (B1 & B2 & B3).
    { unfold second3 in S3. destruct (N.eqb_spec x0 224); [lia|].
      destruct (N.eqb_spec x0 237); lia. }
    unfold scalarb, char_width, encode_char.
    assert (2048 <= c) by (unfold c; lia).
    assert (c < 65536) by (unfold c; lia).
    assert (c < 0xD800 \/ 0xE000 <= c) by (unfold c; lia).
    assert (c <? 128 = false) as -> by lia.
    assert (c <? 2048 = false) as -> by lia.
    assert (c <? 65536 = true) as -> by lia.
    split; [lia|]. split; [reflexivity|]. exists r. cbn [app].
    rewrite (Nb_bN_eq _ b0) by (fold x0; unfold c; lia).
    rewrite (Nb_bN_eq _ b1) by (fold x1; unfold c; lia).
    rewrite (Nb_bN_eq _ b2) by (fold x2; unfold c; lia). reflexivity. }
  destruct ((240 <=? x0) && (x0 <=? 244)) eqn:E4; [|discriminate].
  { destruct r as [|b1 r]; [discriminate|]. unfold is_cont.
    pose proof (bN_lt b1) as L1. set (x1 := bN b1) in *.
    destruct (second4 x0 x1) eqn:S4; [|discriminate].
    destruct r as [|b2 r]; [discriminate|].
    pose proof (bN_lt b2) as L2. set (x2 := bN b2) in *.
    destruct ((128 <=? x2) && (x2 <=? 191)) eqn:C2; [|discriminate].
    destruct r as [|b3 r]; [discriminate|].
    pose proof (bN_lt b3) as L3. set (x3 := bN b3) in *.
    destruct ((128 <=? x3) && (x3 <=? 191)) eqn:C3; [|discriminate].
    intros H1. inv H1.
    set (c := (x0 - 240) * 262144 + (x1 - 128) * 4096 + (x2 - 128) * 64 + (x3 - 128)).
    assert (128 <= x1 <= 191 /\ (x0 = 240 -> 144 <= x1) /\ (x0 = 244 -> x1 <= 143)) as (B1 & B2 & B3).
    { unfold second4 in S4. destruct (N.eqb_spec x0 240); [lia|].
      destruct (N.eqb_spec x0 244); lia. }
    unfold scalarb, char_width, encode_char.
    assert (65536 <= c) by (unfold c; lia).
    assert (c <= 0x10FFFF) by (unfold c; lia).
    assert (c <? 128 = false) as -> by lia.
    assert (c <? 2048 = false) as -> by lia.
    assert (c <? 65536 = false) as -> by lia.
    split; [lia|]. split; [reflexivity|]. exists r. cbn [app].
    rewrite (Nb_bN_eq _ b0) by (fold x0; unfold c; lia).
    rewrite (Nb_bN_eq _ b1) by (fold x1; unfold c; lia).
    rewrite (Nb_bN_eq _ b2) by (fold x2; unfold c; lia).
    rewrite (Nb_bN_eq _ b3) by (fold x3; unfold c; lia). reflexivity. }
Qed.

Lemma skipn_app_exact {A} n (p q : list A) : length p = n -> skipn n (p ++ q) = q.
Proof. intros <-. rewrite skipn_app, skipn_all, Nat.sub_diag. reflexivity. Qed.
Lemma firstn_app_exact {A} n (p q : list A) : length p = n -> firstn n (p ++ q) = p.
Proof. intros <-. rewrite firstn_app, firstn_all, Nat.sub_diag. cbn [firstn]. apply app_nil_r. Qed.

(** Offsets of the characters of [cs] when the first one is at [off]. *)
Fixpoint offsets_from (off : N) (cs : list N) : list (N * N) :=
  match cs with
  | [] => []
  | c :: cs' => (off, c) :: offsets_from (off + N.of_nat (char_width c)) cs'
  end.

Lemma map_snd_offsets off cs : map snd (offsets_from off cs) = cs.
Proof. revert off; induction cs; intros; cbn [offsets_from map snd]; f_equal; auto. Qed.

Lemma char_indices_fuel_encode fuel off cs :
  forallb scalarb cs = true -> (length (utf8_encode cs) <= fuel)%nat ->
  char_indices_fuel fuel off (utf8_encode cs) = Some (offsets_from off cs).
Proof.
  revert fuel off; induction cs as [|c cs IH]; intros fuel off V L.
  - destruct fuel; reflexivity.
  - cbn [forallb] in V. apply andb_true_iff in V as [V1 V2].
    unfold utf8_encode in *. cbn [flat_map] in *. fold (utf8_encode cs) in *.
    rewrite app_length, encode_char_length in L. pose proof (char_width_pos c).
    destruct fuel; [lia|].
    destruct (encode_char c ++ utf8_encode cs) as [|b bs] eqn:E.
    { apply app_eq_nil in E as [E _]. apply encode_char_nonempty in E. tauto. }
    cbn [char_indices_fuel]. rewrite <- E.
    rewrite utf8_step_encode by auto.
    rewrite skipn_app_exact by apply encode_char_length.
    rewrite IH by (auto; lia). reflexivity.
Qed.

Lemma char_indices_encode cs :
  forallb scalarb cs = true -> char_indices (utf8_encode cs) = Some (offsets_from 0 cs).
Proof. intros. apply char_indices_fuel_encode; auto. Qed.

Lemma utf8_decode_encode cs :
  forallb scalarb cs = true -> utf8_decode (utf8_encode cs) = Some cs.
Proof.
  intros. unfold utf8_decode. rewrite char_indices_encode by auto. cbn [option_map].
  f_equal. apply map_snd_offsets.
Qed.

Lemma char_indices_fuel_inv fuel off bs l :
  char_indices_fuel fuel off bs = Some l ->
  exists cs, l = offsets_from off cs /\ bs = utf8_encode cs /\ forallb scalarb cs = true.
Proof.
  revert off bs l; induction fuel; intros off bs l H; destruct bs as [|b bs];
    cbn [char_indices_fuel] in H; try discriminate.
  - inv H. exists []. auto.
  - inv H. exists []. auto.
  - destruct (utf8_step (b :: bs)) as [c w|] eqn:E; [|discriminate].
    apply utf8_step_char in E as (S & -> & r & E). 
    rewrite E in H. rewrite skipn_app_exact in H by apply encode_char_length.
    destruct (char_indices_fuel fuel _ r) eqn:R; [|discriminate]. inv H.
    apply IHfuel in R as (cs & -> & -> & V).
    exists (c :: cs). rewrite E. split; [reflexivity|]. split; [reflexivity|].
    cbn [forallb]. rewrite S, V. reflexivity.
Qed.

Lemma char_indices_inv bs l :
  char_indices bs = Some l ->
  exists cs, l = offsets_from 0 cs /\ bs = utf8_encode cs /\ forallb scalarb cs = true.
Proof. apply char_indices_fuel_inv. Qed.

Lemma utf8_decode_inv bs cs :
  utf8_decode bs = Some cs -> bs = utf8_encode cs /\ forallb scalarb cs = true.
Proof.
  unfold utf8_decode. destruct (char_indices bs) eqn:E; [|discriminate].
  apply char_indices_inv in E as (cs' & -> & -> & V). cbn [option_map].
  rewrite map_snd_offsets. intros H. inv H. auto.
Qed.

Lemma utf8_valid_iff bs :
  utf8_valid bs = true <-> exists cs, bs = utf8_encode cs /\ forallb scalarb cs = true.
Proof.
  unfold utf8_valid. split.
  - destruct (utf8_decode bs) eqn:E; [|discriminate]. intros _. apply utf8_decode_inv in E. eauto.
  - intros (cs & -> & V). rewrite utf8_decode_encode by auto. reflexivity.
Qed.

Lemma utf8_encode_app a b : utf8_encode (a ++ b) = utf8_encode a ++ utf8_encode b.
Proof. apply flat_map_app. Qed.

Lemma utf8_valid_app a b : utf8_valid a = true -> utf8_valid b = true -> utf8_valid (a ++ b) = true.
Proof.
  rewrite !utf8_valid_iff. intros (ca & -> & Va) (cb & -> & Vb).
  exists (ca ++ cb). rewrite utf8_encode_app, forallb_app, Va, Vb. auto.
Qed.

Lemma utf8_decode_app a b ca cb :
  utf8_decode a = Some ca -> utf8_decode b = Some cb -> utf8_decode (a ++ b) = Some (ca ++ cb).
Proof.
  intros Ha Hb. apply utf8_decode_inv in Ha as [-> Va]. apply utf8_decode_inv in Hb as [-> Vb].
  rewrite <- utf8_encode_app. apply utf8_decode_encode. rewrite forallb_app, Va, Vb. reflexivity.
Qed.

Lemma utf8_encode_inj a b :
  forallb scalarb a = true -> forallb scalarb b = true -> utf8_encode a = utf8_encode b -> a = b.
Proof.
  intros Ha Hb E. apply utf8_decode_encode in Ha. apply utf8_decode_encode in Hb. congruence.
Qed.

Lemma utf8_decode_inj a b cs : utf8_decode a = Some cs -> utf8_decode b = Some cs -> a = b.
Proof.
  intros Ha Hb. apply utf8_decode_inv in Ha as [-> _]. apply utf8_decode_inv in Hb as [-> _]. reflexivity.
Qed.

(** ** Lossy conversion *)

Lemma from_utf8_lossy_fuel_valid_id fuel cs :
  forallb scalarb cs = true -> (length (utf8_encode cs) <= fuel)%nat ->
  from_utf8_lossy_fuel fuel (utf8_encode cs) = utf8_encode cs.
Proof.
  revert fuel; induction cs as [|c cs IH]; intros fuel V L.
  - destruct fuel; reflexivity.
  - cbn [forallb] in V. apply andb_true_iff in V as [V1 V2].
    unfold utf8_encode in *. cbn [flat_map] in *. fold (utf8_encode cs) in *.
    rewrite app_length, encode_char_length in L. pose proof (char_width_pos c).
    destruct fuel; [lia|].
    destruct (encode_char c ++ utf8_encode cs) as [|b bs] eqn:E.
    { apply app_eq_nil in E as [E _]. apply encode_char_nonempty in E. tauto. }
    cbn [from_utf8_lossy_fuel]. rewrite <- E.
    rewrite utf8_step_encode by auto.
    rewrite skipn_app_exact by apply encode_char_length.
    rewrite firstn_app_exact by apply encode_char_length.
    rewrite IH by (auto; lia). reflexivity.
Qed.

Lemma from_utf8_lossy_id s : utf8_valid s = true -> from_utf8_lossy s = s.
Proof.
  intros H. apply utf8_valid_iff in H as (cs & -> & V).
  apply from_utf8_lossy_fuel_valid_id; auto.
Qed.

Lemma replacement_valid : utf8_valid replacement = true.
Proof. reflexivity. Qed.

Lemma encode_char_valid c : scalarb c = true -> utf8_valid (encode_char c) = true.
Proof.
  intros H. apply utf8_valid_iff. exists [c]. cbn [forallb]. rewrite H.
  unfold utf8_encode. cbn [flat_map]. rewrite app_nil_r. auto.
Qed.

Lemma from_utf8_lossy_fuel_is_valid fuel bs : utf8_valid (from_utf8_lossy_fuel fuel bs) = true.
Proof.
  revert bs; induction fuel; intros bs; destruct bs as [|b bs]; try reflexivity.
  cbn [from_utf8_lossy_fuel].
  destruct (utf8_step (b :: bs)) as [c w|w] eqn:E.
  - apply utf8_step_char in E as (S & -> & r & E). rewrite E.
    rewrite firstn_app_exact by apply encode_char_length.
    apply utf8_valid_app; [apply encode_char_valid; auto|apply IHfuel].
  - apply utf8_valid_app; [apply replacement_valid|apply IHfuel].
Qed.

Lemma from_utf8_lossy_valid bs : utf8_valid (from_utf8_lossy bs) = true.
Proof. apply from_utf8_lossy_fuel_is_valid. Qed.

(** ** Character boundaries *)

Lemma encode_char_head_not_cont c r b bs :
  scalarb c = true -> encode_char c ++ r = b :: bs -> is_cont b = false.
Proof.
  intros S. unfold scalarb in S. unfold encode_char, is_cont.
  destruct (N.ltb_spec c 0x80); [|destruct (N.ltb_spec c 0x800); [|destruct (N.ltb_spec c 0x10000)]];
    cbn [app]; intros E; apply (f_equal (hd x00)) in E; cbn [hd] in E; subst b;
    rewrite bN_Nb_small by lia; lia.
Qed.

Lemma is_char_boundary_encode a b :
  forallb scalarb b = true ->
  is_char_boundary (utf8_encode a ++ utf8_encode b) (lenN (utf8_encode a)) = true.
Proof.
  intros V. unfold is_char_boundary.
  destruct b as [|c b].
  - cbn. rewrite app_nil_r, N.eqb_refl. rewrite orb_true_r. reflexivity.
  - cbn [forallb] in V. apply andb_true_iff in V as [V1 V2].
    rewrite nthN_app2 by lia. rewrite N.sub_diag.
    unfold utf8_encode at 5. cbn [flat_map].
    destruct (encode_char c ++ flat_map encode_char b) as [|x xs] eqn:E.
    { apply app_eq_nil in E as [E _]. apply encode_char_nonempty in E. tauto. }
    change (nthN (x :: xs) 0) with (Some x). cbv iota beta.
    rewrite (encode_char_head_not_cont _ _ _ _ V1 E). cbn [negb]. apply orb_true_r.
Qed.

Lemma str_slice_encode a b c :
  forallb scalarb a = true -> forallb scalarb b = true -> forallb scalarb c = true ->
  str_slice (utf8_encode (a ++ b ++ c)) (lenN (utf8_encode a))
            (lenN (utf8_encode a) + lenN (utf8_encode b)) = Ok (utf8_encode b).
Proof.
  intros Va Vb Vc. unfold str_slice.
  assert (is_char_boundary (utf8_encode (a ++ b ++ c)) (lenN (utf8_encode a)) = true) as ->.
  { rewrite utf8_encode_app. apply is_char_boundary_encode. rewrite forallb_app, Vb, Vc. reflexivity. }
  assert (is_char_boundary (utf8_encode (a ++ b ++ c))
            (lenN (utf8_encode a) + lenN (utf8_encode b)) = true) as ->.
  { rewrite app_assoc, utf8_encode_app.
    replace (lenN (utf8_encode a) + lenN (utf8_encode b)) with (lenN (utf8_encode (a ++ b)))
      by (rewrite utf8_encode_app, lenN_app; reflexivity).
    apply is_char_boundary_encode. auto. }
  assert (lenN (utf8_encode a) <=? lenN (utf8_encode a) + lenN (utf8_encode b) = true) as -> by lia.
  cbn [andb]. f_equal. rewrite !utf8_encode_app, dropN_app.
  replace (lenN (utf8_encode a) + lenN (utf8_encode b) - lenN (utf8_encode a))
    with (lenN (utf8_encode b)) by lia.
  apply takeN_app.
Qed.

(** ** Trimming *)

Lemma drop_while_id {A} (f : A -> bool) l :
  match l with [] => True | a :: _ => f a = false end -> drop_while f l = l.
Proof. destruct l; simpl; [auto|]. intros ->. reflexivity. Qed.

Lemma str_trim_utf8 s cs :
  utf8_decode s = Some cs ->
  str_trim s = utf8_encode (rev (drop_while is_whitespace (rev (drop_while is_whitespace cs)))).
Proof. intros H. unfold str_trim. rewrite H. reflexivity. Qed.
