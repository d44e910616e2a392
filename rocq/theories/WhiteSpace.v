(** * What white space is (C44, C57). *)
From Verif Require Import Base BaseFacts Utf8 Utf8Facts TextSpec BinaryThms.
Local Open Scope N_scope.

(** The characters with the Unicode property White_Space, one by one. *)
Definition white_space : list N :=
  [0x9; 0xA; 0xB; 0xC; 0xD; 0x20; 0x85; 0xA0; 0x1680; 0x2000; 0x2001; 0x2002; 0x2003; 0x2004; 0x2005; 0x2006; 0x2007; 0x2008; 0x2009; 0x200A;
   0x2028; 0x2029; 0x202F; 0x205F; 0x3000].

Lemma white_space_exact c : is_whitespace c = true <-> In c white_space.
Proof.
  unfold is_whitespace, white_space. rewrite !orb_true_iff, !andb_true_iff, !N.leb_le, !N.eqb_eq. cbn [In]. lia.
Qed.

(** [str::trim]: the longest parts of white space at both ends are removed. *)
Lemma trim_exact s w : utf8_valid s = true -> (str_trim s = w <->
  exists a cs b, s = utf8_encode (a ++ cs ++ b) /\ forallb scalarb (a ++ cs ++ b) = true /\ w = utf8_encode cs /\
  (forall c, In c a \/ In c b -> In c white_space) /\ (forall c r, cs = c :: r -> ~ In c white_space) /\ (forall c r, cs = r ++ [c] -> ~ In c white_space)).
Proof.
  assert (forall c, is_whitespace c = false <-> ~ In c white_space) as NW.
  { intros c. rewrite <- white_space_exact. destruct (is_whitespace c); split; congruence. }
  intros V. split.
  - intros <-. destruct (trims_trim s V) as (a & cs & b & E & SC & EW & FA & FB & H1 & H2). rewrite Forall_forall in FA, FB.
    exists a, cs, b. split; [exact E|]. split; [exact SC|]. split; [exact EW|].
    split; [intros c [I|I]; apply white_space_exact; auto|]. split; intros c r K; apply NW; eauto.
  - intros (a & cs & b & E & SC & EW & F & H1 & H2). apply trims_exact. exists a, cs, b. split; [exact E|]. split; [exact SC|]. split; [exact EW|].
    split; [apply Forall_forall; intros c I; apply white_space_exact; auto|]. split; [apply Forall_forall; intros c I; apply white_space_exact; auto|].
    split; intros c r K; apply NW; eauto.
Qed.
