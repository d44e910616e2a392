(** * What is replaced in text that is not UTF-8 (C49). *)
From Verif Require Import Base BaseFacts Utf8 Utf8Facts LossyFacts.
Local Open Scope N_scope.

(** ** The replacement of ill-formed parts, as in the Unicode standard (3.9,
    "U+FFFD Substitution of Maximal Subparts") *)

(** [p] is the beginning of a character, but not all of it. *)
Definition partial_char (p : list byte) : Prop := exists c q, scalarb c = true /\ encode_char c = p ++ q /\ q <> [].

(** No character begins at [p ++ r], and [p] is the longest part that begins
    one, or one byte if there is none. *)
Definition ill_formed (p r : list byte) : Prop :=
  p <> [] /\ (forall c q, scalarb c = true -> p ++ r <> encode_char c ++ q) /\
  (partial_char p \/ exists b, p = [b]) /\ (forall x q, x <> [] -> r = x ++ q -> ~ partial_char (p ++ x)).

(** Characters are kept, ill-formed parts become U+FFFD. *)
Inductive lossy_of : list byte -> str -> Prop :=
| lo_nil : lossy_of [] []
| lo_char c r s : scalarb c = true -> lossy_of r s -> lossy_of (encode_char c ++ r) (encode_char c ++ s)
| lo_bad p r s : ill_formed p r -> lossy_of r s -> lossy_of (p ++ r) (encode_char 0xFFFD ++ s).

(** ** One step *)
(** What follows the first byte that does not fit is not looked at. *)
Lemma bad_prefix bs w : utf8_step bs = UBad w -> bs <> [] -> forall p b r r', bs = p ++ b :: r -> length p = w -> utf8_step (p ++ b :: r') = UBad w.
Proof.
  intros E NE p b r r' EB L. subst bs. destruct p as [|b0 p].
  - cbn [length] in L. subst w. pose proof (step_width_le ([] ++ b :: r) NE) as W. rewrite E in W. cbn in W. lia.
  - revert E. unfold utf8_step. cbn [app]. destruct (bN b0 <? 128); [discriminate|].
    destruct ((194 <=? bN b0) && (bN b0 <=? 223)).
    { destruct p as [|b1 p]; cbn [app]; [destruct (is_cont b); [discriminate|auto]|destruct (is_cont b1); [discriminate|auto]]. }
    destruct ((224 <=? bN b0) && (bN b0 <=? 239)).
    { destruct p as [|b1 p]; cbn [app].
      - destruct (second3 (bN b0) (bN b)); [|auto]. destruct r as [|b2 r]; [|destruct (is_cont b2); [discriminate|]]; intros E; injection E as <-; discriminate L.
      - destruct (second3 (bN b0) (bN b1)); [|auto]. destruct p as [|b2 p]; cbn [app]; [destruct (is_cont b)|destruct (is_cont b2)]; auto; discriminate. }
    destruct ((240 <=? bN b0) && (bN b0 <=? 244)); [|auto].
    destruct p as [|b1 p]; cbn [app].
    + destruct (second4 (bN b0) (bN b)); [|auto].
      repeat match goal with
      | |- context [match ?l with [] => _ | _ => _ end = UBad _ -> _] => is_var l; destruct l
      | |- context [(if ?c then _ else _) = UBad _ -> _] => destruct c
      end; intros E; try discriminate E; injection E as <-; discriminate L.
    + destruct (second4 (bN b0) (bN b1)); [|auto]. destruct p as [|b2 p]; cbn [app].
      * destruct (is_cont b); [|auto]. destruct r as [|b3 r]; [|destruct (is_cont b3); [discriminate|]]; intros E; injection E as <-; discriminate L.
      * destruct (is_cont b2); [|auto]. destruct p as [|b3 p]; cbn [app]; [destruct (is_cont b)|destruct (is_cont b3)]; auto; discriminate.
Qed.
(** What was accepted before it begins a character. *)
Lemma completed p pad c w : utf8_step (p ++ pad) = UChar c w -> w = length (p ++ pad) -> pad <> [] -> partial_char p.
Proof.
  intros E L NP. apply utf8_step_char in E as (SC & EW & r & ER). exists c, pad. split; [exact SC|]. split; [|exact NP].
  apply (f_equal (@length byte)) in ER as EL. rewrite (app_length (encode_char c)), encode_char_length, <- EW, L in EL. destruct r as [|b r]; [|cbn [length] in EL; lia].
  rewrite app_nil_r in ER. congruence.
Qed.
Lemma bad_partial bs w : utf8_step bs = UBad w -> bs <> [] -> partial_char (firstn w bs) \/ exists b, firstn w bs = [b].
Proof.
  intros E NE. destruct bs as [|b0 bs]; [contradiction|]. destruct w as [|[|w]].
  - pose proof (step_width_le (b0 :: bs) NE) as W. rewrite E in W. cbn in W. lia.
  - right. exists b0. reflexivity.
  - left. revert E. unfold utf8_step. destruct (bN b0 <? 128) eqn:E0; [discriminate|].
    destruct ((194 <=? bN b0) && (bN b0 <=? 223)) eqn:E1; [destruct bs as [|b1 bs]; [discriminate|destruct (is_cont b1); discriminate]|].
    destruct ((224 <=? bN b0) && (bN b0 <=? 239)) eqn:E2.
    + destruct bs as [|b1 bs]; [discriminate|]. destruct (second3 (bN b0) (bN b1)) eqn:S3; [|discriminate].
      assert (partial_char [b0; b1]) as K.
      { eapply (completed [b0; b1] [x80]); [|reflexivity|discriminate]. unfold utf8_step. cbn [app]. rewrite E0, E1, E2, S3. reflexivity. }
      destruct bs as [|b2 bs]; [|destruct (is_cont b2); [discriminate|]]; intros E; injection E as <-; exact K.
    + destruct ((240 <=? bN b0) && (bN b0 <=? 244)) eqn:E3; [|discriminate]. destruct bs as [|b1 bs]; [discriminate|].
      destruct (second4 (bN b0) (bN b1)) eqn:S4; [|discriminate].
      assert (partial_char [b0; b1]) as K.
      { eapply (completed [b0; b1] [x80; x80]); [|reflexivity|discriminate]. unfold utf8_step. cbn [app]. rewrite E0, E1, E2, E3, S4. reflexivity. }
      destruct bs as [|b2 bs]; [intros E; injection E as <-; exact K|]. destruct (is_cont b2) eqn:C2; [|intros E; injection E as <-; exact K].
      assert (partial_char [b0; b1; b2]) as K3.
      { eapply (completed [b0; b1; b2] [x80]); [|reflexivity|discriminate]. unfold utf8_step. cbn [app]. rewrite E0, E1, E2, E3, S4, C2. reflexivity. }
      destruct bs as [|b3 bs]; [|destruct (is_cont b3); [discriminate|]]; intros E; injection E as <-; exact K3.
Qed.
Lemma step_bad bs w : bs <> [] -> utf8_step bs = UBad w -> ill_formed (firstn w bs) (skipn w bs).
Proof.
  intros NE E. pose proof (step_width_le bs NE) as W. rewrite E in W. cbn [step_width] in W.
  assert (length (firstn w bs) = w) as L by (rewrite firstn_length; lia). split; [intros K; rewrite K in L; cbn in L; lia|].
  split; [|split; [apply bad_partial; assumption|]].
  - intros c q SC K. rewrite firstn_skipn in K. rewrite K, utf8_step_encode in E by exact SC. discriminate.
  - intros x q NX EX (c & t & SC & EC & _). destruct x as [|b x]; [contradiction|]. cbn [app] in EX.
    assert (utf8_step (firstn w bs ++ b :: x ++ t) = UBad w) as K.
    { apply (bad_prefix bs w E NE _ _ (x ++ q)); [|exact L]. rewrite <- EX. symmetry. apply firstn_skipn. }
    replace (firstn w bs ++ b :: x ++ t) with (encode_char c ++ []) in K by (rewrite app_nil_r, EC, <- app_assoc; reflexivity).
    rewrite utf8_step_encode in K by exact SC. discriminate.
Qed.
(** There is one way to split. *)
Lemma ill_formed_unique p r p' r' : ill_formed p r -> ill_formed p' r' -> p ++ r = p' ++ r' -> p = p'.
Proof.
  intros (N1 & _ & A1 & B1) (N2 & _ & A2 & B2) E.
  assert (forall a b x y : list byte, a <> [] -> (partial_char b \/ exists c, b = [c]) -> (forall z q, z <> [] -> x = z ++ q -> ~ partial_char (a ++ z)) ->
    a ++ x = b ++ y -> (length b <= length a)%nat) as K.
  { intros a b x y NA AB BA EQ. destruct (Nat.le_gt_cases (length b) (length a)) as [|L]; [assumption|exfalso].
    assert (b = a ++ skipn (length a) b /\ x = skipn (length a) b ++ y) as [EB EX].
    { clear - EQ L. revert b EQ L. induction a as [|c a IH]; intros b EQ L; [split; [reflexivity|exact EQ]|]. destruct b as [|d b]; [cbn in L; lia|].
      cbn [app length skipn] in *. injection EQ as -> EQ. destruct (IH b EQ ltac:(lia)) as [H1 H2]. split; [congruence|exact H2]. }
    assert (skipn (length a) b <> []) as NZ by (intros Z; apply (f_equal (@length byte)) in Z; rewrite skipn_length in Z; cbn in Z; lia).
    destruct AB as [PB|(c & ->)]; [|destruct a; [contradiction|cbn in L; lia]].
    apply (BA _ _ NZ EX). rewrite <- EB. exact PB. }
  pose proof (K p p' r r' N1 A2 B1 E) as L1. pose proof (K p' p r' r N2 A1 B2 (eq_sym E)) as L2.
  apply (f_equal (firstn (length p))) in E. rewrite (firstn_app_exact _ p r eq_refl), (firstn_app_exact _ p' r') in E by lia. exact E.
Qed.

Theorem lossy_exact bs s : from_utf8_lossy bs = s <-> lossy_of bs s.
Proof.
  split.
  - intros <-. remember (length bs) as n eqn:EN. assert (length bs <= n)%nat as L by lia. clear EN. revert bs L. induction n as [|n IH]; intros bs L.
    + destruct bs; [constructor|cbn in L; lia].
    + destruct bs as [|b bs]; [constructor|]. set (l := b :: bs) in *. assert (l <> []) as NE by discriminate. rewrite lossy_unfold by exact NE.
      pose proof (step_width_le l NE) as W. destruct (utf8_step l) as [c w|w] eqn:E; cbn [step_width] in W.
      * apply utf8_step_char in E as (SC & EW & r & ER). rewrite EW, ER, <- encode_char_length, (firstn_app_exact _ _ r eq_refl), (skipn_app_exact _ _ r eq_refl).
        constructor; [exact SC|]. apply IH. apply (f_equal (@length byte)) in ER. rewrite app_length in ER. pose proof (char_width_pos c). rewrite encode_char_length in ER. lia.
      * rewrite <- (firstn_skipn w l) at 1. change replacement with (encode_char 0xFFFD). apply lo_bad; [apply step_bad; assumption|].
        apply IH. rewrite skipn_length. lia.
  - induction 1 as [|c r s SC H IH|p r s I H IH]; [reflexivity| |].
    + assert (encode_char c ++ r <> []) as NE by (intros K; apply app_eq_nil in K as [K _]; apply (encode_char_nonempty c K)).
      rewrite lossy_unfold, utf8_step_encode by assumption. rewrite <- encode_char_length, (firstn_app_exact _ _ r eq_refl), (skipn_app_exact _ _ r eq_refl), IH. reflexivity.
    + pose proof I as (NP & NC & _). assert (p ++ r <> []) as NE by (intros K; apply app_eq_nil in K as [K _]; contradiction).
      rewrite lossy_unfold by exact NE. destruct (utf8_step (p ++ r)) as [c w|w] eqn:E.
      * exfalso. apply utf8_step_char in E as (SC & _ & q & EQ). apply (NC c q SC EQ).
      * pose proof (step_bad _ _ NE E) as I2. pose proof (ill_formed_unique _ _ _ _ I I2 (eq_sym (firstn_skipn w (p ++ r)))) as EP.
        pose proof (firstn_skipn w (p ++ r)) as ES. rewrite <- EP in ES. apply app_inv_head in ES. rewrite ES, IH. reflexivity.
Qed.
