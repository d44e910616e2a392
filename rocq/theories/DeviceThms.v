(** * Devices do not matter (stated in P_Fault.v).

    However a device delivers its data, the readers of /repo give the result
    that they give on a stream of [Stream.v]. *)
From Verif Require Import Base BaseFacts Utf8 Stream StreamFacts F32 ChunkIO Subword Vocab Storage Embeddings TextIO FastText IoDevice.
From Coq Require Import Lia ZifyBool ZifyNat ZifyN.
Local Open Scope N_scope.

(** What is left on a medium, as a stream. *)
Definition stream_of (m : medium) : stream := mkBroken (unread m) (md_pos m) (md_fault m).

(** A reader that holds the data [abs d]: the contracts of [Read], [BufRead]
    and [Seek]. *)
Record contract {D} (src : source D) (inv : D -> Prop) (abs : D -> medium) : Prop := {
  ct_read d n bs d' : inv d -> 0 < n -> so_read src d n (Got bs) d' ->
    inv d' /\ abs d' = advance (abs d) (lenN bs) /\ bs = takeN (lenN bs) (unread (abs d)) /\ lenN bs <= n /\
    (bs = [] -> unread (abs d) = [] /\ md_fault (abs d) = false);
  ct_read_interrupted d n d' : inv d -> 0 < n -> so_read src d n Interrupted d' -> inv d' /\ abs d' = abs d;
  ct_read_failed d n d' : inv d -> 0 < n -> so_read src d n Failed d' ->
    inv d' /\ abs d' = abs d /\ unread (abs d) = [] /\ md_fault (abs d) = true;
  ct_fill d bs d' : inv d -> so_fill src d (Got bs) d' ->
    inv d' /\ abs d' = abs d /\ bs = takeN (lenN bs) (unread (abs d)) /\
    (bs = [] -> unread (abs d) = [] /\ md_fault (abs d) = false) /\
    forall k, k <= lenN bs -> inv (so_consume src d' k) /\ abs (so_consume src d' k) = advance (abs d) k;
  ct_fill_interrupted d d' : inv d -> so_fill src d Interrupted d' -> inv d' /\ abs d' = abs d;
  ct_fill_failed d d' : inv d -> so_fill src d Failed d' ->
    inv d' /\ abs d' = abs d /\ unread (abs d) = [] /\ md_fault (abs d) = true;
  ct_start d p : inv d -> inv (so_start src d p) /\ abs (so_start src d p) = jump (abs d) p;
  ct_current d n : inv d -> inv (so_current src d n) /\ abs (so_current src d n) = advance (abs d) n;
  ct_position d : inv d -> so_position src d = md_pos (abs d);
  ct_map d n : inv d -> so_map src d (md_pos (abs d)) n = fst (mmap_region n (stream_of (abs d)))
}.
(** Calls return something other than an interruption at some time. *)
Record responsive {D} (src : source D) (inv : D -> Prop) : Prop := {
  rs_read d n : inv d -> 0 < n -> exists x d', so_read src d n x d' /\ x <> Interrupted;
  rs_fill d : inv d -> exists x d', so_fill src d x d' /\ x <> Interrupted
}.

Lemma takeN_own {A} (bs l : list A) : bs = takeN (lenN bs) l -> l = bs ++ dropN (lenN bs) l.
Proof. intros H. rewrite H at 1. symmetry. apply takeN_dropN. Qed.

Section Programs.
  Context {D : Type} (src : source D) (inv : D -> Prop) (abs : D -> medium) (C : contract src inv abs).

  Lemma jump_self m : m = jump m (md_pos m).
  Proof. destruct m; reflexivity. Qed.

  Lemma exact_loop_sound n d x d' : exact_loop src n d x d' -> inv d ->
    inv d' /\ abs d' = jump (abs d) (md_pos (abs d')) /\ read_exact n (stream_of (abs d)) = (x, stream_of (abs d')).
  Proof.
    induction 1 as [d|n d bs d1 r d2 N0 R NE L IH|n d d1 N0 R|n d d1 r d2 N0 R L IH|n d d1 N0 R]; intros I.
    - split; [exact I|]. split; [apply jump_self|]. unfold read_exact. cbn [s_rest stream_of]. replace (0 <=? lenN (unread (abs d))) with true by lia.
      unfold stream_of. cbn [s_pos s_broken]. rewrite N.add_0_r. reflexivity.
    - destruct (ct_read _ _ _ C _ _ _ _ I N0 R) as (I1 & A & B & LB & _). destruct (IH I1) as (I2 & DA & E). split; [exact I2|]. rewrite A in DA, E.
      split; [exact DA|]. apply takeN_own in B as B'.
      assert (unread (advance (abs d) (lenN bs)) = dropN (lenN bs) (unread (abs d))) as UA.
      { unfold unread, advance. cbn [md_data md_pos]. rewrite dropN_dropN. reflexivity. }
      unfold read_exact in *. cbn [stream_of s_rest s_pos s_broken] in *. rewrite UA in E. cbn [advance md_pos md_fault] in E.
      set (u := unread (abs d)) in *. set (u' := dropN (lenN bs) u) in *.
      assert (lenN u = lenN bs + lenN u') as LU by (rewrite B', lenN_app; reflexivity).
      destruct (N.leb_spec (n - lenN bs) (lenN u')) as [L1|L1].
      + replace (n <=? lenN u) with true by lia. apply pair_equal_spec in E as [<- <-]. cbn [after]. f_equal.
        * f_equal. rewrite B'. unfold takeN. rewrite firstn_app. f_equal; [rewrite firstn_all2; [reflexivity|unfold lenN in LB; lia]|].
          f_equal. unfold lenN. lia.
        * f_equal; [|lia]. unfold u'. rewrite dropN_dropN. f_equal. lia.
      + replace (n <=? lenN u) with false by lia. apply pair_equal_spec in E as [<- <-]. cbn [after]. f_equal. f_equal. lia.
    - destruct (ct_read _ _ _ C _ _ _ _ I N0 R) as (I1 & A & _ & _ & E). destruct (E eq_refl) as [E1 E2]. split; [exact I1|]. rewrite A. split; [first [reflexivity|apply jump_self]|].
      unfold read_exact. cbn [stream_of s_rest s_pos s_broken]. unfold stream_of. cbn [advance md_pos md_fault]. change (lenN []) with 0.
      assert (unread (advance (abs d) 0) = []) as -> by (unfold unread, advance in *; cbn [md_data md_pos]; rewrite N.add_0_r; exact E1).
      rewrite E1. change (lenN (@nil byte)) with 0. replace (n <=? 0) with false by lia. reflexivity.
    - destruct (ct_read_interrupted _ _ _ C _ _ _ I N0 R) as (I1 & A). destruct (IH I1) as (I2 & DA & E). rewrite A in *. auto.
    - destruct (ct_read_failed _ _ _ C _ _ _ I N0 R) as (I1 & A & E1 & E2). split; [exact I1|]. rewrite A. split; [first [reflexivity|apply jump_self]|].
      unfold read_exact, stream_of. cbn [s_rest s_pos s_broken]. rewrite E1. change (lenN (@nil byte)) with 0. replace (n <=? 0) with false by lia. rewrite N.add_0_r. reflexivity.
  Qed.

  Lemma split_until_hit c x y : ~ In c x -> split_until c (x ++ c :: y) = (x ++ [c], y).
  Proof.
    induction x as [|b x IH]; intros NI; cbn [app split_until].
    - replace (byte_eqb c c) with true by (symmetry; apply byte_eqb_eq; reflexivity). reflexivity.
    - destruct (byte_eqb b c) eqn:E; [exfalso; apply NI; left; apply byte_eqb_eq; exact E|]. rewrite IH by (intros K; apply NI; right; exact K). reflexivity.
  Qed.
  Lemma split_until_skip c x l : ~ In c x -> split_until c (x ++ l) = (x ++ fst (split_until c l), snd (split_until c l)).
  Proof.
    induction x as [|b x IH]; intros NI; cbn [app split_until].
    - destruct (split_until c l); reflexivity.
    - destruct (byte_eqb b c) eqn:E; [exfalso; apply NI; left; apply byte_eqb_eq; exact E|]. rewrite IH by (intros K; apply NI; right; exact K). reflexivity.
  Qed.
  Lemma existsb_In c x : existsb (byte_eqb c) x = true <-> In c x.
  Proof. rewrite existsb_exists. split; [intros (b & I & E); apply byte_eqb_eq in E; subst; auto|intros I; exists c; split; [auto|apply byte_eqb_eq; reflexivity]]. Qed.

  Lemma until_loop_sound c d x d' : until_loop src c d x d' -> inv d ->
    inv d' /\ abs d' = jump (abs d) (md_pos (abs d')) /\ read_until c (stream_of (abs d)) = (x, stream_of (abs d')).
  Proof.
    assert (forall m k, unread (advance m k) = dropN k (unread m)) as UA.
    { intros m k. unfold unread, advance. cbn [md_data md_pos]. rewrite dropN_dropN. reflexivity. }
    induction 1 as [d x y d1 R NI|d bs d1 r d2 R NE NI L IH|d d1 R|d d1 r d2 R L IH|d d1 R]; intros I.
    - destruct (ct_fill _ _ _ C _ _ _ I R) as (I1 & A & B & _ & K). apply takeN_own in B.
      destruct (K (lenN x + 1)) as [I2 A2]; [rewrite lenN_app, lenN_cons; lia|]. split; [exact I2|]. rewrite A2. split; [reflexivity|].
      unfold read_until, stream_of. cbn [s_rest s_pos s_broken]. rewrite UA. cbn [advance md_pos md_fault].
      remember (dropN (lenN (x ++ c :: y)) (unread (abs d))) as z eqn:EZ. clear EZ. rewrite B. rewrite <- app_assoc. cbn [app].
      rewrite split_until_hit by exact NI. rewrite (proj2 (existsb_In c (x ++ [c]))) by (apply in_app_iff; right; left; reflexivity). rewrite andb_false_r.
      rewrite lenN_app. change (lenN [c]) with 1. f_equal. f_equal.
      replace (x ++ c :: y ++ z) with ((x ++ [c]) ++ y ++ z) by (rewrite <- app_assoc; reflexivity).
      replace (lenN x + 1) with (lenN (x ++ [c])) by (rewrite lenN_app; reflexivity). symmetry. apply dropN_app.
    - destruct (ct_fill _ _ _ C _ _ _ I R) as (I1 & A & B & _ & K). apply takeN_own in B.
      destruct (K (lenN bs)) as [I2 A2]; [lia|]. destruct (IH I2) as (I3 & DA & E). rewrite A2 in DA, E. split; [exact I3|]. split; [exact DA|].
      unfold read_until, stream_of in *. cbn [s_rest s_pos s_broken] in *. rewrite UA in E. cbn [advance md_pos md_fault] in E.
      rewrite B at 1. rewrite split_until_skip by exact NI. set (u' := dropN (lenN bs) (unread (abs d))) in *.
      destruct (split_until c u') as [a b]. cbn [fst snd] in *. apply pair_equal_spec in E as [<- <-].
      assert (existsb (byte_eqb c) (bs ++ a) = existsb (byte_eqb c) a) as -> .
      { rewrite existsb_app. destruct (existsb (byte_eqb c) bs) eqn:Q; [|reflexivity]. apply existsb_In in Q. contradiction. }
      rewrite lenN_app. destruct (_ && _)%bool; cbn [after]; f_equal; f_equal; lia.
    - destruct (ct_fill _ _ _ C _ _ _ I R) as (I1 & A & B & E & K). destruct (E eq_refl) as [E1 E2]. destruct (K 0) as [I2 A2]; [lia|].
      split; [exact I2|]. rewrite A2. split; [reflexivity|]. unfold read_until, stream_of. cbn [s_rest s_pos s_broken]. rewrite UA. cbn [advance md_pos md_fault].
      rewrite E1, E2. reflexivity.
    - destruct (ct_fill_interrupted _ _ _ C _ _ I R) as (I1 & A). destruct (IH I1) as (I2 & DA & E). rewrite A in *. auto.
    - destruct (ct_fill_failed _ _ _ C _ _ I R) as (I1 & A & E1 & E2). split; [exact I1|]. rewrite A. split; [first [reflexivity|apply jump_self]|].
      unfold read_until, stream_of. cbn [s_rest s_pos s_broken]. rewrite E1, E2. cbn. rewrite N.add_0_r. reflexivity.
  Qed.

  (** Every run of a program has the result of the program on the stream, and
      the data that is left is what is left of the stream. *)
  Lemma runs_sound {A} (p : prog A) : forall d x d', inv d -> runs src p d x d' ->
    inv d' /\ abs d' = jump (abs d) (md_pos (abs d')) /\ denote p (stream_of (abs d)) = (x, stream_of (abs d')).
  Proof.
    induction p as [A r|n|c| |n|n|A B p IH k IHk|A p IH|A p IH]; intros d x d' I R; cbn [runs denote] in *.
    - destruct R as [-> ->]. split; [exact I|]. split; [apply jump_self|reflexivity].
    - apply exact_loop_sound; auto.
    - apply until_loop_sound; auto.
    - destruct R as [-> ->]. rewrite (ct_position _ _ _ C d I). split; [exact I|]. split; [apply jump_self|reflexivity].
    - destruct R as [-> ->]. destruct (ct_current _ _ _ C d n I) as [I1 A1]. split; [exact I1|]. rewrite A1. split; [reflexivity|].
      unfold seek_forward, stream_of. cbn [s_rest s_pos s_broken advance md_pos md_fault]. f_equal. f_equal.
      unfold unread. cbn [advance md_pos md_data]. rewrite <- dropN_dropN. destruct (N.leb_spec n (lenN (dropN (md_pos (abs d)) (md_data (abs d))))) as [L|L]; [reflexivity|].
      symmetry. apply dropN_all. lia.
    - destruct R as [-> ->]. rewrite (ct_position _ _ _ C d I), (ct_map _ _ _ C d n I). split; [exact I|]. split; [apply jump_self|]. unfold mmap_region. destruct (_ <=? _); reflexivity.
    - destruct R as [(a & d1 & R1 & R2)|[(e & R & ->)|(w & R & ->)]]; unfold bind.
      + destruct (IH _ _ _ I R1) as (I1 & J1 & E1). destruct (IHk _ _ _ _ I1 R2) as (I2 & J2 & E2).
        split; [exact I2|]. split; [rewrite J2, J1; reflexivity|]. rewrite E1. exact E2.
      + destruct (IH _ _ _ I R) as (I1 & J1 & E1). rewrite E1. auto.
      + destruct (IH _ _ _ I R) as (I1 & J1 & E1). rewrite E1. auto.
    - unfold ok_opt. destruct R as [(a & R & ->)|[(e & R & ->)|(w & R & ->)]]; destruct (IH _ _ _ I R) as (I1 & J1 & E1); rewrite E1; auto.
    - unfold peek. destruct R as [(a & d1 & R & -> & ->)|[(e & R & ->)|(w & R & ->)]].
      + destruct (IH _ _ _ I R) as (I1 & J1 & E1). rewrite E1. rewrite (ct_position _ _ _ C d I).
        destruct (ct_start _ _ _ C d1 (md_pos (abs d)) I1) as [I2 A2]. split; [exact I2|]. rewrite A2, J1. split; [reflexivity|]. destruct (abs d); reflexivity.
      + destruct (IH _ _ _ I R) as (I1 & J1 & E1). rewrite E1. auto.
      + destruct (IH _ _ _ I R) as (I1 & J1 & E1). rewrite E1. auto.
  Qed.

  (** There is a run, if interruptions end. *)
  Context (RS : responsive src inv).

  Lemma exact_loop_ends n d : inv d -> exists x d', exact_loop src n d x d'.
  Proof.
    revert d. induction n as [n IH] using (well_founded_induction N.lt_wf_0). intros d I. destruct (N.eq_dec n 0) as [->|N0]; [do 2 eexists; constructor|].
    destruct (rs_read _ _ RS d n I ltac:(lia)) as ([bs| |] & d1 & R & NI); [|congruence|do 2 eexists; eapply el_failed; [lia|exact R]].
    destruct bs as [|b bs]; [do 2 eexists; eapply el_end; [lia|exact R]|].
    assert (0 < n) as NP by lia. destruct (ct_read _ _ _ C _ _ _ _ I NP R) as (I1 & _ & _ & LB & _). rewrite lenN_cons in LB.
    destruct (IH (n - lenN (b :: bs)) ltac:(rewrite lenN_cons; lia) d1 I1) as (x & d2 & L). do 2 eexists. eapply el_more; [lia|exact R|discriminate|exact L].
  Qed.
  Lemma until_loop_ends c : forall n d, (length (unread (abs d)) <= n)%nat -> inv d -> exists x d', until_loop src c d x d'.
  Proof.
    assert (forall bs, In c bs -> exists x y, bs = x ++ c :: y /\ ~ In c x) as SP.
    { induction bs as [|b bs IH]; [intros []|]. destruct (byte_eqb b c) eqn:E.
      - apply byte_eqb_eq in E as ->. intros _. exists [], bs. split; [reflexivity|intros []].
      - intros [->|I]; [rewrite (proj2 (byte_eqb_eq c c) eq_refl) in E; discriminate|]. destruct (IH I) as (x & y & -> & NI). exists (b :: x), y. split; [reflexivity|].
        intros [->|K]; [rewrite (proj2 (byte_eqb_eq c c) eq_refl) in E; discriminate|auto]. }
    induction n as [|n IH]; intros d L I; destruct (rs_fill _ _ RS d I) as ([bs| |] & d1 & R & NI); try congruence;
      try (do 2 eexists; eapply ul_failed; exact R);
      destruct (ct_fill _ _ _ C _ _ _ I R) as (I1 & A & B & _ & K);
      (destruct bs as [|b bs]; [do 2 eexists; eapply ul_end; exact R|]).
    - exfalso. destruct (unread (abs d)); [|cbn [length] in L; lia]. unfold takeN in B. rewrite firstn_nil in B. discriminate.
    - destruct (existsb (byte_eqb c) (b :: bs)) eqn:X.
      + apply existsb_In in X. destruct (SP _ X) as (x & y & E & NX). rewrite E in R. do 2 eexists. eapply ul_found; eauto.
      + assert (~ In c (b :: bs)) as NX by (intros Q; apply existsb_In in Q; congruence). destruct (K (lenN (b :: bs))) as [I2 A2]; [lia|].
        destruct (IH (so_consume src d1 (lenN (b :: bs)))) as (x & d2 & Q); [|exact I2|do 2 eexists; eapply ul_more; [exact R|discriminate|exact NX|exact Q]].
        rewrite A2. unfold unread, advance in *. cbn [md_data md_pos]. rewrite <- dropN_dropN. unfold dropN at 1, lenN. rewrite skipn_length. cbn [length]. lia.
  Qed.
  Lemma runs_ends {A} (p : prog A) : forall d, inv d -> exists x d', runs src p d x d'.
  Proof.
    induction p as [A r|n|c| |n|n|A B p IH k IHk|A p IH|A p IH]; intros d I; cbn [runs]; eauto.
    - apply exact_loop_ends. exact I.
    - eapply until_loop_ends; [reflexivity|exact I].
    - destruct (IH d I) as ([a|e|w] & d1 & R); [|eauto 8..]. destruct (IHk a d1) as (x & d2 & R2); [apply (runs_sound _ _ _ _ I R)|]. do 2 eexists. left. eauto.
    - destruct (IH d I) as ([a|e|w] & d1 & R); eauto 8.
    - destruct (IH d I) as ([a|e|w] & d1 & R); eauto 8.
  Qed.
End Programs.

(** ** Buffered readers and cursors *)

(** The bytes in the buffer are the ones before the position of the device. *)
Definition buf_inv (b : bufreader) : Prop :=
  0 < br_cap b /\ lenN (br_buf b) <= md_pos (br_dev b) /\
  br_buf b = takeN (lenN (br_buf b)) (dropN (md_pos (br_dev b) - lenN (br_buf b)) (md_data (br_dev b))).
Definition buf_abs (b : bufreader) : medium := jump (br_dev b) (br_position b).

Lemma unread_advance m k : unread (advance m k) = dropN k (unread m).
Proof. unfold unread, advance. cbn [md_data md_pos]. rewrite dropN_dropN. reflexivity. Qed.
Lemma takeN_len {A} k (l : list A) : k <= lenN l -> lenN (takeN k l) = k.
Proof. intros H. rewrite lenN_takeN. lia. Qed.

Lemma buf_rest b : buf_inv b -> unread (buf_abs b) = br_buf b ++ unread (br_dev b).
Proof.
  intros (_ & L & E). unfold buf_abs, unread, jump, br_position. cbn [md_data md_pos]. rewrite (takeN_own _ _ E) at 1. f_equal. rewrite dropN_dropN. f_equal. lia.
Qed.
Lemma empty_inv b : br_buf b = [] -> 0 < br_cap b -> buf_inv b /\ buf_abs b = br_dev b.
Proof.
  intros E L. unfold buf_inv, buf_abs, br_position. rewrite E. change (lenN (@nil byte)) with 0. split; [|rewrite N.sub_0_r; symmetry; apply jump_self].
  split; [exact L|]. split; [lia|]. unfold takeN. reflexivity.
Qed.
Lemma read_inv b bs m : br_buf b = [] -> 0 < br_cap b -> dev_read (br_dev b) (br_cap b) (Got bs) m ->
  let b' := mkBuf (br_cap b) bs m in buf_inv b' /\ buf_abs b' = buf_abs b /\ bs = takeN (lenN bs) (unread (buf_abs b)) /\
  (bs = [] -> unread (buf_abs b) = [] /\ md_fault (buf_abs b) = false).
Proof.
  intros E L R. destruct (empty_inv b E L) as [_ A]. rewrite A. clear A. unfold buf_inv, buf_abs, br_position. cbn [br_cap br_buf br_dev].
  inversion R as [k K0 K1 K2 X Y|U F X Y| |]; subst.
  - rewrite takeN_len by exact K2. cbn [advance md_pos md_data]. replace (md_pos (br_dev b) + k - k) with (md_pos (br_dev b)) by lia.
    split; [split; [exact L|split; [lia|reflexivity]]|]. split; [clear; destruct (br_dev b); reflexivity|]. split; [reflexivity|].
    intros Q. apply (f_equal lenN) in Q. rewrite takeN_len in Q by exact K2. change (lenN (@nil byte)) with 0 in Q. lia.
  - change (lenN (@nil byte)) with 0. rewrite N.sub_0_r. split; [split; [exact L|split; [lia|reflexivity]]|]. split; [clear; destruct (br_dev b); reflexivity|]. split; [reflexivity|auto].
Qed.
Lemma fill_inv b bs b' : buf_inv b -> br_fill b (Got bs) b' -> buf_inv b' /\ buf_abs b' = buf_abs b /\ br_buf b' = bs /\ br_cap b' = br_cap b /\ bs = takeN (lenN bs) (unread (buf_abs b)) /\
  (bs = [] -> unread (buf_abs b) = [] /\ md_fault (buf_abs b) = false).
Proof.
  intros I R. inversion R as [NE X Y|bs0 m E Q X Y| |]; subst.
  - split; [exact I|]. do 3 (split; [reflexivity|]). split; [rewrite buf_rest by exact I; symmetry; apply takeN_app|]. intros K. contradiction.
  - destruct (read_inv b bs m E (proj1 I) Q) as (I1 & A & B & F). split; [exact I1|]. split; [exact A|]. do 2 (split; [reflexivity|]). auto.
Qed.
Lemma consume_inv b k : buf_inv b -> k <= lenN (br_buf b) -> buf_inv (br_consume b k) /\ buf_abs (br_consume b k) = advance (buf_abs b) k.
Proof.
  intros (L & P & E) K. unfold br_consume, buf_inv, buf_abs, br_position. cbn [br_cap br_buf br_dev]. rewrite lenN_dropN.
  split; [|unfold jump, advance; cbn [md_data md_pos md_fault]; f_equal; lia]. split; [exact L|]. split; [lia|].
  replace (md_pos (br_dev b) - (lenN (br_buf b) - k)) with (md_pos (br_dev b) - lenN (br_buf b) + k) by lia. rewrite <- dropN_dropN.
  set (u := dropN (md_pos (br_dev b) - lenN (br_buf b)) (md_data (br_dev b))) in *. pose proof (takeN_own _ _ E) as U. rewrite U.
  rewrite dropN_app_le by exact K. rewrite <- (lenN_dropN k (br_buf b)). symmetry. apply takeN_app.
Qed.

Lemma buf_contract : contract buf_source buf_inv buf_abs.
Proof.
  assert (forall b d', br_fill b Interrupted d' -> buf_inv b -> buf_inv d' /\ buf_abs d' = buf_abs b) as FI.
  { intros b d' R I. inversion R as [| |m E Q|]; subst. inversion Q; subst. destruct (empty_inv b E (proj1 I)) as [_ A]. rewrite A. apply (empty_inv (mkBuf (br_cap b) [] (br_dev b)) eq_refl (proj1 I)). }
  assert (forall b d', br_fill b Failed d' -> buf_inv b -> buf_inv d' /\ buf_abs d' = buf_abs b /\ unread (buf_abs b) = [] /\ md_fault (buf_abs b) = true) as FF.
  { intros b d' R I. inversion R as [| | |m E Q]; subst. inversion Q; subst. destruct (empty_inv b E (proj1 I)) as [_ A]. rewrite A.
    destruct (empty_inv (mkBuf (br_cap b) [] (br_dev b)) eq_refl (proj1 I)) as [I1 A1]. auto. }
  constructor; cbn [so_read so_fill so_consume so_start so_current so_position buf_source].
  - intros b n bs b' I N0 R. inversion R as [x m E L Q X Y|bs0 b1 K Q X Y| |]; subst.
    + destruct (empty_inv b E (proj1 I)) as [_ A]. rewrite A. destruct (empty_inv (mkBuf (br_cap b) [] m) eq_refl (proj1 I)) as [I1 A1]. split; [exact I1|]. rewrite A1.
      inversion Q as [k K0 K1 K2 X Y|U F X Y| |]; subst; cbn [br_dev].
      * rewrite takeN_len by exact K2. split; [reflexivity|]. split; [reflexivity|]. split; [exact K1|]. intros Z. apply (f_equal lenN) in Z. rewrite takeN_len in Z by exact K2. change (lenN (@nil byte)) with 0 in Z. lia.
      * change (lenN (@nil byte)) with 0. unfold advance. rewrite N.add_0_r. split; [destruct (br_dev b); reflexivity|]. split; [reflexivity|]. split; [lia|auto].
    + destruct (fill_inv b bs0 b1 I Q) as (I1 & A1 & B1 & _ & T & F). destruct (consume_inv b1 (lenN (takeN n bs0)) I1) as [I2 A2]; [rewrite B1, lenN_takeN; lia|].
      split; [exact I2|]. split; [rewrite A2, A1; reflexivity|]. split.
      * rewrite T at 1. rewrite lenN_takeN. unfold takeN. rewrite firstn_firstn. f_equal. lia.
      * split; [rewrite lenN_takeN; lia|]. intros Z. apply F. apply (f_equal lenN) in Z. rewrite lenN_takeN in Z. change (lenN (@nil byte)) with 0 in Z. destruct bs0; [reflexivity|]. rewrite lenN_cons in Z. lia.
  - intros b n b' I N0 R. inversion R as [x m E L Q X Y| |b1 K Q X Y|]; subst; [|auto]. inversion Q; subst.
    destruct (empty_inv b E (proj1 I)) as [_ A]. rewrite A. apply (empty_inv (mkBuf (br_cap b) [] (br_dev b)) eq_refl (proj1 I)).
  - intros b n b' I N0 R. inversion R as [x m E L Q X Y| | |b1 K Q X Y]; subst; [|auto]. inversion Q; subst.
    destruct (empty_inv b E (proj1 I)) as [_ A]. rewrite A. destruct (empty_inv (mkBuf (br_cap b) [] (br_dev b)) eq_refl (proj1 I)) as [I1 A1]. auto.
  - intros b bs b' I R. destruct (fill_inv b bs b' I R) as (I1 & A1 & B1 & _ & T & F). split; [exact I1|]. split; [exact A1|]. split; [exact T|]. split; [exact F|].
    intros k K. rewrite <- A1. apply consume_inv; [exact I1|]. rewrite B1. exact K.
  - auto.
  - auto.
  - intros b p I. destruct (empty_inv (br_start b p) eq_refl (proj1 I)) as [I1 A1]. split; [exact I1|]. rewrite A1. reflexivity.
  - intros b n I. destruct (empty_inv (br_current b n) eq_refl (proj1 I)) as [I1 A1]. split; [exact I1|]. rewrite A1. destruct I as (_ & L & _).
    unfold br_current, buf_abs, br_position, jump, advance. cbn [br_dev md_data md_pos md_fault]. f_equal. lia.
  - reflexivity.
  - intros b n I. cbn [so_map buf_source]. unfold mmap_region, map_medium, buf_abs, stream_of, unread. cbn [s_rest jump md_pos md_data]. destruct (_ <=? _); reflexivity.
Qed.
Lemma buf_responsive : responsive buf_source buf_inv.
Proof.
  assert (forall m n, 0 < n -> exists x m', dev_read m n x m' /\ x <> Interrupted) as R.
  { intros m n N0. destruct (unread m) as [|c u] eqn:U.
    - destruct (md_fault m) eqn:F; do 2 eexists; (split; [first [apply dr_fault; assumption|apply dr_end; assumption]|discriminate]).
    - do 2 eexists. split; [apply (dr_some m n 1); [lia|lia|rewrite U, lenN_cons; lia]|discriminate]. }
  assert (forall b, buf_inv b -> exists x b', br_fill b x b' /\ x <> Interrupted) as FL.
  { intros b I. destruct (br_buf b) as [|c u] eqn:E; [|do 2 eexists; split; [apply bf_full; rewrite E; discriminate|discriminate]].
    destruct (R (br_dev b) (br_cap b) (proj1 I)) as ([bs| |] & m & Q & NI); [|congruence|]; do 2 eexists; (split; [first [eapply bf_read; [exact E|exact Q]|eapply bf_failed; [exact E|exact Q]]|discriminate]). }
  constructor; cbn [so_read so_fill buf_source]; [|exact FL].
  intros b n I N0. destruct (br_buf b) as [|c u] eqn:E.
  - destruct (N.le_gt_cases (br_cap b) n) as [L|L].
    + destruct (R (br_dev b) n N0) as (x & m & Q & NI). do 2 eexists. split; [eapply bb_bypass; eauto|exact NI].
    + destruct (FL b I) as ([bs| |] & b' & Q & NI); [|congruence|]; do 2 eexists; (split; [first [eapply bb_got; [right; exact L|exact Q]|eapply bb_failed; [right; exact L|exact Q]]|discriminate]).
  - destruct (FL b I) as ([bs| |] & b' & Q & NI); [|congruence|]; do 2 eexists; (split; [first [eapply bb_got; [left; rewrite E; discriminate|exact Q]|eapply bb_failed; [left; rewrite E; discriminate|exact Q]]|discriminate]).
Qed.

Lemma cur_contract : contract cur_source (fun m => md_fault m = false) (fun m => m) /\ responsive cur_source (fun m => md_fault m = false).
Proof.
  assert (forall {A} n (l : list A), takeN n l = takeN (lenN (takeN n l)) l) as T.
  { intros A n l. rewrite lenN_takeN. unfold takeN. destruct (N.le_gt_cases n (lenN l)) as [L|L]; [f_equal; lia|]. rewrite !firstn_all2; [reflexivity|unfold lenN in *; lia..]. }
  split; constructor; cbn [so_read so_fill so_consume so_start so_current so_position cur_source].
  - intros m n bs m' I N0 R. inversion R; subst. split; [exact I|]. split; [reflexivity|]. split; [apply T|]. split; [rewrite lenN_takeN; lia|].
    intros Z. split; [|exact I]. apply (f_equal lenN) in Z. rewrite lenN_takeN in Z. change (lenN (@nil byte)) with 0 in Z. destruct (unread m); [reflexivity|]. rewrite lenN_cons in Z. lia.
  - intros m n m' I N0 R. inversion R.
  - intros m n m' I N0 R. inversion R.
  - intros m bs m' I R. inversion R; subst. split; [exact I|]. split; [reflexivity|]. split; [symmetry; apply takeN_all|]. split; [auto|]. intros k _. split; [exact I|reflexivity].
  - intros m m' I R. inversion R.
  - intros m m' I R. inversion R.
  - auto.
  - auto.
  - auto.
  - intros m n I. cbn [so_map cur_source]. unfold mmap_region, map_medium, stream_of, unread. cbn [s_rest]. destruct (_ <=? _); reflexivity.
  - intros m n I N0. do 2 eexists. split; [constructor|discriminate].
  - intros m I. do 2 eexists. split; [constructor|discriminate].
Qed.

(** ** The readers of /repo are programs *)

(** [p] does what [m] does, on streams of at most [n] bytes. *)
Definition performs {A} (n : nat) (p : prog A) (m : reader A) : Prop :=
  forall s, (length (s_rest s) <= n)%nat -> denote p s = m s.
(** No error is ignored: there is no [.ok()]. *)
Fixpoint tryless {A} (p : prog A) : Prop :=
  match p with
  | Bind p k => tryless p /\ forall a, tryless (k a)
  | Try _ => False
  | Peek p => tryless p
  | _ => True
  end.
Definition code {A} (n : nat) (m : reader A) : Type := { p : prog A | performs n p m /\ tryless p }.

Lemma denote_shrinks {A} (p : prog A) : forall s, (length (s_rest (snd (denote p s))) <= length (s_rest s))%nat.
Proof.
  induction p as [A r|n|c| |n|n|A B p IH k IHk|A p IH|A p IH]; intros s; cbn [denote].
  - reflexivity.
  - unfold read_exact. destruct (_ <=? _); cbn [snd s_rest]; [unfold dropN; rewrite skipn_length|cbn [length]]; lia.
  - unfold read_until. destruct (split_until c (s_rest s)) as [x y] eqn:E. cbn [snd s_rest].
    revert x y E. induction (s_rest s) as [|b l IHl]; intros x y E; cbn [split_until] in E; [inversion E; subst; cbn; lia|].
    destruct (byte_eqb b c); [inversion E; subst; cbn; lia|]. destruct (split_until c l) as [x' y']. inversion E; subst. specialize (IHl _ _ eq_refl). cbn [length]. lia.
  - reflexivity.
  - unfold seek_forward. cbn [snd s_rest]. destruct (_ <=? _); [unfold dropN; rewrite skipn_length|cbn [length]]; lia.
  - unfold mmap_region. destruct (_ <=? _); reflexivity.
  - unfold bind. specialize (IH s). destruct (denote p s) as [[a|e|w] s1]; cbn [snd] in *; auto. specialize (IHk a s1). lia.
  - unfold ok_opt. specialize (IH s). destruct (denote p s) as [[a|e|w] s1]; cbn [snd] in *; auto.
  - unfold peek. specialize (IH s). destruct (denote p s) as [[a|e|w] s1]; cbn [snd] in *; auto.
Qed.

Lemma performs_bind {A B} n p (m : reader A) pk (k : A -> reader B) :
  performs n p m -> (forall a, performs n (pk a) (k a)) -> performs n (Bind p pk) (bind m k).
Proof.
  intros P K s L. cbn [denote]. unfold bind. pose proof (denote_shrinks p s) as Sh. rewrite (P s L) in Sh |- *.
  destruct (m s) as [[a|e|w] s1]; cbn [snd] in Sh; [|reflexivity..]. apply K. lia.
Qed.
Lemma performs_try {A} n p (m : reader A) : performs n p m -> performs n (Try p) (ok_opt m).
Proof. intros P s L. cbn [denote]. unfold ok_opt. rewrite (P s L). reflexivity. Qed.
Lemma performs_pure {A} n (r : res A) : performs n (Pure r) (lift r).
Proof. intros s L. reflexivity. Qed.

Section Code.
  Context (n : nat).
  Definition code_lift {A} (r : res A) : code n (lift r). Proof. exists (Pure r). split; [intros s _; reflexivity|exact I]. Qed.
  Definition code_ret {A} (a : A) : code n (ret a). Proof. exists (Pure (Ok a)). split; [intros s _; reflexivity|exact I]. Qed.
  Definition code_fail {A} e : code n (fail (A := A) e). Proof. exists (Pure (Err e)). split; [intros s _; reflexivity|exact I]. Qed.
  Definition code_exact k : code n (read_exact k). Proof. exists (Exact k). split; [intros s _; reflexivity|exact I]. Qed.
  Definition code_until c : code n (read_until c). Proof. exists (Until c). split; [intros s _; reflexivity|exact I]. Qed.
  Definition code_position : code n position. Proof. exists Position. split; [intros s _; reflexivity|exact I]. Qed.
  Definition code_seek k : code n (seek_forward k). Proof. exists (Forward k). split; [intros s _; reflexivity|exact I]. Qed.
  Definition code_reserve k size : code n (reserve k size).
  Proof. exists (Pure (if k * size <=? isize_max then Ok tt else Panic PCapacity)). split; [|exact I]. intros s _. unfold reserve. cbn [denote]. unfold lift. destruct (_ <=? _); reflexivity. Qed.
  Definition code_map k : code n (mmap_region k). Proof. exists (Map k). split; [intros s _; reflexivity|exact I]. Qed.
  Definition code_bind {A B} (m : reader A) (k : A -> reader B) : code n m -> (forall a, code n (k a)) -> code n (bind m k).
  Proof.
    intros [p [P TP]] K. exists (Bind p (fun a => proj1_sig (K a))). split; [|split; [exact TP|intros a; apply (proj2_sig (K a))]]. apply performs_bind; [exact P|]. intros a. apply (proj2_sig (K a)).
  Qed.
  Definition code_peek {A} (m : reader A) : code n m -> code n (peek m).
  Proof. intros [p [P TP]]. exists (Peek p). split; [|exact TP]. intros s L. cbn [denote]. unfold peek. rewrite (P s L). reflexivity. Qed.
  Definition code_ext {A} (m m' : reader A) : (forall s, m s = m' s) -> code n m -> code n m'.
  Proof. intros E [p [P TP]]. exists p. split; [|exact TP]. intros s L. rewrite <- E. apply P, L. Qed.
  Definition code_repeat {A} k (m : reader A) : code n m -> code n (repeat_m k m).
  Proof.
    intros H. unfold repeat_m. destruct k as [|q]; [apply code_ret|]. induction q as [q IH|q IH|]; cbn [repeat_pos].
    - apply code_bind; [exact H|]. intros a. apply code_bind; [exact IH|]. intros l1. apply code_bind; [exact IH|]. intros l2. apply code_ret.
    - apply code_bind; [exact IH|]. intros l1. apply code_bind; [exact IH|]. intros l2. apply code_ret.
    - apply code_bind; [exact H|]. intros a. apply code_ret.
  Qed.
  Definition code_u8 : code n read_u8. Proof. apply code_bind; [apply code_exact|]. intros a. apply code_ret. Qed.
  Definition code_u32 : code n read_u32. Proof. apply code_bind; [apply code_exact|]. intros a. apply code_ret. Qed.
  Definition code_u64 : code n read_u64. Proof. apply code_bind; [apply code_exact|]. intros a. apply code_ret. Qed.
  Definition code_alloc dims size : code n (alloc_zeros dims size).
  Proof. eapply (code_ext (lift (fst (alloc_zeros dims size (mkStream [] 0))))); [|apply code_lift]. intros s. unfold alloc_zeros, lift. destruct (_ && _)%bool; reflexivity. Qed.
End Code.

Ltac code_step := first
  [ apply code_bind; [|intros ?] | apply code_repeat | apply code_peek
  | apply code_u32 | apply code_u64 | apply code_u8 | apply code_exact | apply code_until | apply code_seek | apply code_position | apply code_reserve | apply code_map | apply code_alloc
  | apply code_lift | apply code_fail | apply code_ret
  | match goal with |- code _ (match ?x with _ => _ end) => destruct x end
  | assumption ].
Ltac codes := repeat (cbv zeta; code_step).

Section Readers.
  Context (n : nat).
  Definition code_chunk_type c : code n (ensure_chunk_type c). Proof. unfold ensure_chunk_type. codes. Qed.
  Definition code_data_type t : code n (ensure_data_type t). Proof. unfold ensure_data_type. codes. Qed.
  Definition code_header : code n read_header. Proof. unfold read_header. codes. Qed.
  Definition code_item : code n read_string_item. Proof. unfold read_string_item. codes. Qed.
  Definition code_items k : code n (read_items k). Proof. unfold read_items. codes. all: apply code_item. Qed.
  Definition code_ngram : code n read_ngram_item. Proof. unfold read_ngram_item. codes. all: apply code_item. Qed.
  Definition code_ngrams k : code n (read_ngrams_with_indices k). Proof. unfold read_ngrams_with_indices. codes. all: apply code_ngram. Qed.
  Definition code_f32s k : code n (read_f32s k). Proof. unfold read_f32s. codes. Qed.
  Ltac codes' := repeat (cbv zeta; first [code_step | apply code_chunk_type | apply code_data_type | apply code_header | apply code_items | apply code_ngrams | apply code_f32s | apply code_item]).
  Definition code_metadata_chunk T : code n (read_metadata_chunk T). Proof. unfold read_metadata_chunk. codes'. Qed.
  Definition code_metadata T : code n (read_metadata T). Proof. unfold read_metadata. codes'. all: apply code_metadata_chunk. Qed.
  Definition code_norms : code n read_norms. Proof. unfold read_norms. codes'. Qed.
  Definition code_simple : code n read_simple. Proof. unfold read_simple. codes'. Qed.
  Definition code_bucketed I (ops : bucket_ops I) pf id : code n (read_bucketed ops pf id). Proof. unfold read_bucketed. codes'. Qed.
  Definition code_explicit pf : code n (read_explicit pf). Proof. unfold read_explicit. codes'. Qed.
  Definition code_floret pf : code n (read_floret pf). Proof. unfold read_floret. codes'. Qed.
  Definition code_chunk_id : code n peek_chunk_id. Proof. unfold peek_chunk_id. codes'. Qed.
  Definition code_vocab_wrap pf : code n (read_vocab_wrap pf).
  Proof. unfold read_vocab_wrap. codes'. all: first [apply code_chunk_id | apply code_simple | apply code_bucketed | apply code_explicit | apply code_floret]. Qed.
  Definition code_ndarray : code n read_ndarray. Proof. unfold read_ndarray. codes'. Qed.
  Definition code_quantizer : code n read_product_quantizer. Proof. unfold read_product_quantizer. codes'. Qed.
  Definition code_quantized_norms b k : code n (read_quantized_norms b k). Proof. unfold read_quantized_norms. codes'. Qed.
  Definition code_quantized : code n read_quantized. Proof. unfold read_quantized. codes'. all: first [apply code_quantizer|apply code_quantized_norms]. Qed.
  Definition code_storage_wrap : code n read_storage_wrap.
  Proof. unfold read_storage_wrap. codes'. all: first [apply code_chunk_id | apply code_quantized_norms | apply code_quantized | apply code_ndarray]. Qed.
  Definition code_storage_view_wrap : code n read_storage_view_wrap.
  Proof. unfold read_storage_view_wrap. codes'. all: first [apply code_chunk_id | apply code_ndarray]. Qed.
  Definition code_mmap_ndarray pf : code n (mmap_ndarray pf). Proof. unfold mmap_ndarray. codes'. Qed.
  Definition code_mmap_quantized pf : code n (mmap_quantized_chunk pf). Proof. unfold mmap_quantized_chunk. codes'. all: first [apply code_quantizer|apply code_quantized_norms]. Qed.
  Definition code_mmap_wrap pf : code n (mmap_storage_wrap pf).
  Proof. unfold mmap_storage_wrap. codes'. all: first [apply code_chunk_id | apply code_mmap_quantized | apply code_quantizer | apply code_quantized_norms | apply code_mmap_ndarray]. Qed.
  Definition code_mmap_view_wrap pf : code n (mmap_storage_view_wrap pf).
  Proof. unfold mmap_storage_view_wrap. codes'. all: first [apply code_chunk_id | apply code_mmap_ndarray]. Qed.

  (** The parts of a file before the norms. *)
  Definition read_front T {V S} (rv : reader V) (rs : reader S) : reader (option (toml_table T) * S * V) :=
    ids <- read_header ;;
    match ids with
    | [] => fail EFormat
    | id :: _ =>
        md <- (if chunk_eqb id CMetadata then t <- read_metadata_chunk T ;; ret (Some t) else ret None) ;;
        v <- rv ;;
        s <- rs ;;
        ret (md, s, v)
    end.
  Definition code_front T {V S} (rv : reader V) (rs : reader S) : code n rv -> code n rs -> code n (read_front T rv rs).
  Proof. intros HV HS. unfold read_front. codes'. all: apply code_metadata_chunk. Qed.

  Definition code_string d lossy : code n (read_string d lossy). Proof. unfold read_string. codes. Qed.
  Definition code_number d : code n (read_number d). Proof. unfold read_number. codes. all: apply code_string. Qed.
  Definition code_entry d lossy : code n (read_w2v_entry d lossy).
  Proof. unfold read_w2v_entry. codes. all: first [apply code_string | apply code_f32s]. Qed.
  Definition code_word2vec_raw pf {Md} lossy : code n (read_word2vec_raw (Md := Md) pf lossy).
  Proof. unfold read_word2vec_raw. codes. all: first [apply code_number | apply code_entry]. Qed.
  Definition code_word2vec pf {Md} lossy : code n (read_word2vec (Md := Md) pf lossy).
  Proof. unfold read_word2vec. codes. all: apply code_word2vec_raw. Qed.
End Readers.

(** Reading a line that is not empty leaves less. *)
Lemma read_until_less c s buf s' : read_until c s = (Ok buf, s') -> buf <> [] -> (length (s_rest s') < length (s_rest s))%nat.
Proof.
  unfold read_until. destruct (split_until c (s_rest s)) as [x y] eqn:E. intros H N.
  assert (x = buf /\ s_rest s' = y) as [<- ->] by (revert H; destruct (_ && _)%bool; intros H; apply pair_equal_spec in H as [H <-]; [discriminate|injection H as ->; auto]).
  clear H s'. revert x y E N. induction (s_rest s) as [|b l IHl]; intros x y E N; cbn [split_until] in E; [injection E as <- <-; congruence|].
  destruct (byte_eqb b c); [injection E as <- <-; cbn [length]; lia|]. destruct (split_until c l) as [x' y'] eqn:E'. injection E as <- <-. cbn [length].
  destruct x' as [|a x']; [|specialize (IHl _ _ eq_refl ltac:(discriminate)); lia].
  pose proof (denote_shrinks (Until c) (mkBroken l 0 false)) as Sh. cbn [denote] in Sh. unfold read_until in Sh. cbn [s_rest] in Sh. rewrite E' in Sh. cbn [snd s_rest] in Sh. lia.
Qed.

Section TextCode.
  Context (n : nat) (P : ftext_ops) (pf : profile).
  Lemma text_lines_fuel lossy : forall f f' s, (length (s_rest s) < f)%nat -> (length (s_rest s) < f')%nat -> text_lines P f lossy s = text_lines P f' lossy s.
  Proof.
    induction f as [|f IH]; intros [|f'] s L L'; [lia..|]. cbn [text_lines]. unfold bind. destruct (read_until x0a s) as [[[|b l]|e|w] s1] eqn:E; [reflexivity| |reflexivity..].
    pose proof (read_until_less _ _ _ _ E ltac:(discriminate)) as Sh. unfold lift. destruct (text_line P lossy _) as [wx|e|w]; [|reflexivity..].
    rewrite (IH f' s1) by lia. reflexivity.
  Qed.
  Definition code_text_lines lossy f : code n (text_lines P f lossy).
  Proof. induction f as [|f IH]; cbn [text_lines]; codes. Qed.
  Definition code_lines lossy : code n (read_lines P lossy).
  Proof.
    destruct (code_text_lines lossy (Datatypes.S n)) as [p H]. exists p. split; [|exact (proj2 H)]. intros s L. rewrite (proj1 H s L). unfold read_lines. apply text_lines_fuel; lia.
  Qed.
  Definition code_embeds {Md} shape lossy : code n (read_embeds (Md := Md) P pf shape lossy). Proof. unfold read_embeds. codes. all: apply code_lines. Qed.
  Definition code_text_raw {Md} lossy : code n (read_text_raw (Md := Md) P pf lossy). Proof. apply code_embeds. Qed.
  Definition code_text {Md} lossy : code n (read_text (Md := Md) P pf lossy). Proof. unfold read_text. apply code_bind; [apply code_text_raw|intros ?]. codes. Qed.
  Definition code_text_dims_raw {Md} lossy : code n (read_text_dims_raw (Md := Md) P pf lossy).
  Proof. unfold read_text_dims_raw. repeat first [apply code_number | apply code_embeds | code_step]. Qed.
  Definition code_text_dims {Md} lossy : code n (read_text_dims (Md := Md) P pf lossy). Proof. unfold read_text_dims. apply code_bind; [apply code_text_dims_raw|intros ?]. codes. Qed.

  Lemma floret_lines_fuel dims : forall f f' s, (length (s_rest s) < f)%nat -> (length (s_rest s) < f')%nat -> floret_lines P f dims s = floret_lines P f' dims s.
  Proof.
    induction f as [|f IH]; intros [|f'] s L L'; [lia..|]. cbn [floret_lines]. unfold bind. destruct (read_until x0a s) as [[[|b l]|e|w] s1] eqn:E; [reflexivity| |reflexivity..].
    pose proof (read_until_less _ _ _ _ E ltac:(discriminate)) as Sh. unfold lift. destruct (floret_line P dims _) as [wx|e|w]; [|reflexivity..].
    rewrite (IH f' s1) by lia. reflexivity.
  Qed.
  Definition code_floret_lines_fuel dims f : code n (floret_lines P f dims).
  Proof. induction f as [|f IH]; cbn [floret_lines]; codes. Qed.
  Definition code_floret_lines dims : code n (read_floret_lines P dims).
  Proof.
    destruct (code_floret_lines_fuel dims (Datatypes.S n)) as [p H]. exists p. split; [|exact (proj2 H)]. intros s L. rewrite (proj1 H s L). unfold read_floret_lines. apply floret_lines_fuel; lia.
  Qed.
  Definition code_floret_text {Md} : code n (read_floret_text (Md := Md) P pf).
  Proof. unfold read_floret_text. repeat (cbv zeta; first [apply code_number | apply code_string | apply code_floret_lines | code_step]). Qed.
End TextCode.

Section FtCode.
  Context (n : nat) (pf : profile) (T : toml_ops) (config_table : ft_config -> option (toml_table T)).
  Definition code_config : code n read_config. Proof. unfold read_config, read_loss, read_model. codes. Qed.
  Definition code_ft_entry lossy : code n (read_ft_entry lossy). Proof. unfold read_ft_entry. repeat (cbv zeta; first [apply code_string | code_step]). Qed.
  Definition code_ft_vocab c lossy : code n (read_ft_vocab pf c lossy). Proof. unfold read_ft_vocab. repeat (cbv zeta; first [apply code_ft_entry | code_step]). Qed.
  Definition code_ft_matrix : code n read_ft_matrix. Proof. unfold read_ft_matrix. codes. Qed.
  Definition code_fasttext lossy : code n (read_fasttext pf T config_table lossy).
  Proof. unfold read_fasttext. repeat (cbv zeta; first [apply code_config | apply code_ft_vocab | apply code_ft_matrix | code_step]). Qed.
End FtCode.

(** ** C110 *)
Definition is_program {A} (m : reader A) : Prop := forall n, exists p, performs n p m.
Lemma code_is_program {A} (m : reader A) : (forall n, code n m) -> is_program m.
Proof. intros H n. destruct (H n) as [p [P _]]. exists p. exact P. Qed.
(** ... in which no error is ignored *)
Definition is_strict {A} (m : reader A) : Prop := forall n, exists p, performs n p m /\ tryless p.
Lemma code_is_strict {A} (m : reader A) : (forall n, code n m) -> is_strict m.
Proof. intros H n. destruct (H n) as [p P]. exists p. exact P. Qed.

Lemma vocab_programs pf : is_program read_simple /\ (forall I (ops : bucket_ops I) id, is_program (read_bucketed ops pf id)) /\
  is_program (read_explicit pf) /\ is_program (read_floret pf) /\ is_program (read_vocab_wrap pf).
Proof.
  split; [|split; [intros I ops id|split; [|split]]]; apply code_is_program; intros n; [apply code_simple|apply code_bucketed|apply code_explicit|apply code_floret|apply code_vocab_wrap].
Qed.
Lemma storage_programs : is_program read_ndarray /\ is_program read_quantized /\ is_program read_storage_wrap /\ is_program read_storage_view_wrap.
Proof.
  split; [|split; [|split]]; apply code_is_program; intros n; [apply code_ndarray|apply code_quantized|apply code_storage_wrap|apply code_storage_view_wrap].
Qed.
Lemma embeddings_programs T {V S} (rv : reader V) (rs : reader S) : is_program rv -> is_program rs -> is_program (read_embeddings T rv rs).
Proof.
  intros HV HS n. destruct (HV n) as [pv Pv], (HS n) as [ps Ps]. destruct (code_header n) as [ph [Ph _]], (code_metadata_chunk n T) as [pm [Pm _]], (code_norms n) as [pn [Pn _]].
  exists (Bind ph (fun ids => match ids with
    | [] => Pure (Err EFormat)
    | id :: _ => Bind (if chunk_eqb id CMetadata then Bind pm (fun t => Pure (Ok (Some t))) else Pure (Ok None)) (fun md =>
        Bind pv (fun v => Bind ps (fun s => Bind (Try pn) (fun norms => Pure (Ok (mkEmb md s v norms))))))
    end)).
  apply performs_bind; [exact Ph|]. intros [|id ids]; [apply performs_pure|]. apply performs_bind.
  { destruct (chunk_eqb id CMetadata); [|apply performs_pure]. apply performs_bind; [exact Pm|]. intros t. apply performs_pure. }
  intros md. apply performs_bind; [exact Pv|]. intros v. apply performs_bind; [exact Ps|]. intros s. apply performs_bind; [apply performs_try, Pn|].
  intros norms. apply performs_pure.
Qed.
Lemma mapped_programs pf : is_program (mmap_ndarray pf) /\ is_program (mmap_quantized_chunk pf) /\ is_program (mmap_storage_wrap pf) /\ is_program (mmap_storage_view_wrap pf) /\
  forall T V S (rv : reader V) (rs : reader S), is_program rv -> is_program rs -> is_program (mmap_embeddings T rv rs).
Proof.
  split; [|split; [|split; [|split]]]; try (apply code_is_program; intros n); [apply code_mmap_ndarray|apply code_mmap_quantized|apply code_mmap_wrap|apply code_mmap_view_wrap|].
  intros T V S rv rs. apply (embeddings_programs T rv rs).
Qed.
Lemma metadata_programs T : is_program (read_metadata T).
Proof. apply code_is_program. intros n. apply code_metadata. Qed.
Lemma text_programs P pf {Md} lossy : is_program (read_text_raw (Md := Md) P pf lossy) /\ is_program (read_text (Md := Md) P pf lossy) /\
  is_program (read_text_dims_raw (Md := Md) P pf lossy) /\ is_program (read_text_dims (Md := Md) P pf lossy) /\
  is_program (read_word2vec_raw (Md := Md) pf lossy) /\ is_program (read_word2vec (Md := Md) pf lossy) /\ is_program (read_floret_text (Md := Md) P pf).
Proof.
  split; [|split; [|split; [|split; [|split; [|split]]]]]; apply code_is_program; intros n;
    [apply code_text_raw|apply code_text|apply code_text_dims_raw|apply code_text_dims|apply code_word2vec_raw|apply code_word2vec|apply code_floret_text].
Qed.
Lemma fasttext_programs pf T config_table lossy : is_program (read_fasttext pf T config_table lossy).
Proof. apply code_is_program. intros n. apply code_fasttext. Qed.

Lemma device_result {A} (m : reader A) n p : performs n p m ->
  forall D (src : source D) inv abs, contract src inv abs -> forall d, inv d -> (length (unread (abs d)) <= n)%nat ->
  (forall x d', runs src p d x d' ->
    inv d' /\ m (stream_of (abs d)) = (x, stream_of (abs d')) /\ md_data (abs d') = md_data (abs d)) /\
  (responsive src inv -> exists x d', runs src p d x d').
Proof.
  intros P D src inv abs C d I L. split.
  - intros x d' R. destruct (runs_sound src inv abs C p d x d' I R) as (I' & J & E). split; [exact I'|]. split.
    + rewrite <- P; [exact E|exact L].
    + rewrite J. reflexivity.
  - intros RS. exact (runs_ends src inv abs C RS p d I).
Qed.

Definition opened (cap : N) (data : list byte) (fault : bool) : bufreader := mkBuf cap [] (mkMedium data 0 fault).
Lemma bufreader_result {A} (m : reader A) n p : performs n p m ->
  forall cap data fault, 0 < cap -> (length data <= n)%nat ->
  (exists x b, runs buf_source p (opened cap data fault) x b) /\
  forall x b, runs buf_source p (opened cap data fault) x b -> m (mkBroken data 0 fault) = (x, stream_of (buf_abs b)).
Proof.
  intros P cap data fault C L. destruct (empty_inv (opened cap data fault) eq_refl C) as [I EA].
  assert (unread (buf_abs (opened cap data fault)) = data /\ stream_of (buf_abs (opened cap data fault)) = mkBroken data 0 fault) as [U S]
    by (rewrite EA; unfold stream_of, unread, opened; cbn [br_dev md_pos md_data md_fault]; auto).
  destruct (device_result m n p P _ _ _ _ buf_contract _ I) as [Q E]; [rewrite U; exact L|]. split; [apply E, buf_responsive|].
  intros x b R. destruct (Q x b R) as (_ & H & _). rewrite <- S. exact H.
Qed.
Lemma cursor_result {A} (m : reader A) n p : performs n p m -> forall data, (length data <= n)%nat ->
  (exists x c, runs cur_source p (mkMedium data 0 false) x c) /\
  forall x c, runs cur_source p (mkMedium data 0 false) x c -> m (mkStream data 0) = (x, stream_of c).
Proof.
  intros P data L. destruct cur_contract as [C RS].
  destruct (device_result m n p P _ _ _ _ C (mkMedium data 0 false) eq_refl) as [Q E]; [exact L|]. split; [apply E, RS|].
  intros x c R. destruct (Q x c R) as (_ & H & _). exact H.
Qed.
(** Two runs over the same data. *)
Lemma devices_agree {A} (m : reader A) n p : performs n p m ->
  forall D src inv abs D' src' inv' abs', @contract D src inv abs -> @contract D' src' inv' abs' ->
  forall d d0 x y e e0, inv d -> inv' d0 -> abs d = abs' d0 -> (length (unread (abs d)) <= n)%nat ->
  runs src p d x e -> runs src' p d0 y e0 -> x = y /\ md_data (abs e) = md_data (abs' e0) /\ s_rest (stream_of (abs e)) = s_rest (stream_of (abs' e0)) /\ md_pos (abs e) = md_pos (abs' e0).
Proof.
  intros P D src inv abs D' src' inv' abs' C C' d d0 x y e e0 I I0 EQ L R R0.
  destruct (proj1 (device_result m n p P _ _ _ _ C d I L) x e R) as (_ & E & M).
  rewrite EQ in L. destruct (proj1 (device_result m n p P _ _ _ _ C' d0 I0 L) y e0 R0) as (_ & E0 & M0).
  rewrite EQ in E, M. rewrite E in E0. apply pair_equal_spec in E0 as [-> ES]. split; [reflexivity|]. split; [congruence|].
  split; [rewrite ES; reflexivity|]. apply (f_equal s_pos) in ES. exact ES.
Qed.
