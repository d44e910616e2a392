(** * Facts about n-grams and indexers. *)
From Coq Require Import Lia ZifyBool ZifyNat ZifyN Permutation Sorting.Sorted.
From Verif Require Import Base BaseFacts Utf8 Utf8Facts Subword Vocab FileSpec VocabFacts VocabSpec.
Local Open Scope N_scope.

Lemma NoDup_app_iff' {A} (a b : list A) :
  NoDup a -> NoDup b -> (forall x, In x a -> In x b -> False) -> NoDup (a ++ b).
Proof.
  induction 1 as [|x a NI ND IH]; intros Hb D; [exact Hb|]. cbn [app]. constructor.
  - rewrite in_app_iff. intros [H|H]; [tauto|]. apply (D x); [left; reflexivity|exact H].
  - apply IH; [exact Hb|]. intros y Hy. apply D. right. exact Hy.
Qed.

(** ** The n-gram iterator *)

(** [k, k-1, ..., mn]. *)
Definition down (mn k : nat) : list nat := rev (seq mn (S k - mn)).

Lemma down_In mn k n : In n (down mn k) <-> (mn <= n <= k)%nat.
Proof. unfold down. rewrite <- in_rev, in_seq. lia. Qed.
Lemma down_NoDup mn k : NoDup (down mn k).
Proof. apply NoDup_rev, seq_NoDup. Qed.
Lemma down_nil mn k : (k < mn)%nat -> down mn k = [].
Proof. intros. unfold down. replace (S k - mn)%nat with O by lia. reflexivity. Qed.
Lemma down_cons mn k : (mn <= S k)%nat -> down mn (S k) = S k :: down mn k.
Proof.
  intros H. unfold down. replace (S (S k) - mn)%nat with (S (S k - mn)) by lia.
  rewrite seq_S, rev_app_distr. cbn [rev app]. f_equal. lia.
Qed.
Lemma down_length mn k : length (down mn k) = (S k - mn)%nat.
Proof. unfold down. rewrite rev_length, seq_length. reflexivity. Qed.

Section NGrams.
  Variables mn mx : nat.
  Hypothesis Hmn : (1 <= mn)%nat.
  Hypothesis Hmx : (mn <= mx)%nat.

  (** N-grams of all suffixes, as (start, length). *)
  Fixpoint ps_from (i : nat) (m : nat) : list (nat * nat) :=
    match m with
    | O => []
    | S m' => map (pair i) (down mn (Nat.min mx (S m'))) ++ ps_from (S i) m'
    end.

  Lemma ps_from_short i m : (m < mn)%nat -> ps_from i m = [].
  Proof.
    revert i. induction m as [|m IH]; intros i H; [reflexivity|].
    cbn [ps_from]. rewrite down_nil by lia. apply IH. lia.
  Qed.
  Lemma ps_from_In i m j n : In (j, n) (ps_from i m) <-> (mn <= n <= mx /\ i <= j /\ j + n <= i + m)%nat.
  Proof.
    revert i. induction m as [|m IH]; intros i; cbn [ps_from].
    { cbn. lia. }
    rewrite in_app_iff, IH, in_map_iff. split.
    - intros [(n' & E & H)|H]; [inv E; rewrite down_In in H; lia|lia].
    - intros H. destruct (Nat.eq_dec i j) as [->|].
      + left. exists n. rewrite down_In. split; [reflexivity|lia].
      + right. lia.
  Qed.
  Lemma ps_from_NoDup i m : NoDup (ps_from i m).
  Proof.
    revert i. induction m as [|m IH]; intros i; cbn [ps_from]; [constructor|].
    apply NoDup_app_iff'.
    - apply FinFun.Injective_map_NoDup; [intros a b E; inv E; reflexivity|apply down_NoDup].
    - apply IH.
    - intros [j n] H1 H2. apply in_map_iff in H1 as (n' & E & _). inv E.
      apply ps_from_In in H2. lia.
  Qed.
  Lemma down_sorted k : StronglySorted (fun a b => b < a)%nat (down mn k).
  Proof.
    induction k as [|k IH].
    - unfold down. replace (1 - mn)%nat with 0%nat by lia. constructor.
    - destruct (Nat.le_gt_cases mn (S k)) as [L|L]; [|rewrite down_nil by lia; constructor].
      rewrite down_cons by lia. constructor; [exact IH|]. apply Forall_forall. intros n H. apply down_In in H. lia.
  Qed.
  Lemma ps_from_sorted i m : StronglySorted (fun p q => fst p < fst q \/ fst p = fst q /\ snd q < snd p)%nat (ps_from i m).
  Proof.
    revert i. induction m as [|m IH]; intros i; cbn [ps_from]; [constructor|].
    pose proof (down_sorted (Nat.min mx (S m))) as D. induction D as [|n l D ID F]; [apply IH|]. cbn [map app].
    constructor; [exact ID|]. apply Forall_app. split.
    - rewrite Forall_map. cbn [fst snd]. eapply Forall_impl; [|exact F]. cbn beta. intros. right. auto.
    - apply Forall_forall. intros [j k] H. apply ps_from_In in H. cbn [fst snd]. lia.
  Qed.
  Lemma ps_from_length i m : (length (ps_from i m) <= (S mx - mn) * m)%nat.
  Proof.
    revert i. induction m as [|m IH]; intros i; cbn [ps_from]; [cbn; lia|].
    rewrite app_length, map_length, down_length. specialize (IH (S i)).
    rewrite Nat.mul_succ_r. lia.
  Qed.
  Lemma ps_from_length' i m : (length (ps_from i m) <= m * m)%nat.
  Proof.
    revert i. induction m as [|m IH]; intros i; cbn [ps_from]; [cbn; lia|].
    rewrite app_length, map_length, down_length. specialize (IH (S i)). lia.
  Qed.

  Definition mkitem (cs : list N) (p : nat * nat) : swcl :=
    mkSwcl (utf8_encode (firstn (snd p) (skipn (fst p) cs))) (N.of_nat (snd p)).

  (** A state of the iterator: [pre] is done, [k] is the length of the next
      n-gram at the start of [suf]. *)
  Definition stateof (cs : list N) (i k : nat) : ngrams :=
    mkNgrams (N.of_nat mx) (N.of_nat mn) (utf8_encode cs)
      (map fst (offsets_from (lenN (utf8_encode (firstn i cs))) (skipn i cs))) (N.of_nat k).

  Lemma lenN_encode_char c : lenN (encode_char c) = N.of_nat (char_width c).
  Proof. unfold lenN. rewrite encode_char_length. reflexivity. Qed.

  Lemma offsets_len off cs : length (offsets_from off cs) = length cs.
  Proof. revert off. induction cs; intros; cbn; auto. Qed.

  Lemma offsets_nth off cs k : (k < length cs)%nat ->
    nth_error (map fst (offsets_from off cs)) k = Some (off + lenN (utf8_encode (firstn k cs))).
  Proof.
    revert off k. induction cs as [|c cs IH]; intros off k H; [cbn in H; lia|].
    cbn [offsets_from map fst]. destruct k as [|k].
    - cbn [nth_error firstn]. change (lenN (utf8_encode [])) with 0. rewrite N.add_0_r. reflexivity.
    - cbn [nth_error firstn]. cbn in H. rewrite IH by lia. unfold utf8_encode. cbn [flat_map].
      rewrite lenN_app, lenN_encode_char. f_equal. lia.
  Qed.

  Lemma state_tl cs i k k' : tl (map fst (offsets_from (lenN (utf8_encode (firstn i cs))) (skipn i cs)))
    = ng_offs (stateof cs (S i) k') /\ ng_offs (stateof cs i k) = map fst (offsets_from (lenN (utf8_encode (firstn i cs))) (skipn i cs)).
  Proof.
    split; [|reflexivity]. unfold stateof. cbn [ng_offs].
    destruct (skipn i cs) as [|c r] eqn:E.
    - replace (skipn (S i) cs) with (@nil N); [reflexivity|].
      symmetry. apply skipn_all2. apply (f_equal (@length N)) in E. rewrite skipn_length in E. cbn in E. lia.
    - assert (skipn (S i) cs = r) as ->.
      { replace (S i) with (1 + i)%nat by lia. rewrite <- skipn_skipn', E. reflexivity. }
      cbn [offsets_from map tl fst]. f_equal. f_equal.
      assert (firstn (S i) cs = firstn i cs ++ [c]) as ->.
      { rewrite <- (firstn_skipn i cs) at 1. rewrite E.
        assert (length (firstn i cs) = i) as L.
        { rewrite firstn_length. apply (f_equal (@length N)) in E. rewrite skipn_length in E. cbn in E. lia. }
        rewrite <- L at 1. replace (S (length (firstn i cs))) with (length (firstn i cs) + 1)%nat by lia.
        rewrite firstn_app_2. reflexivity. }
      rewrite utf8_encode_app, lenN_app. unfold utf8_encode at 3. cbn [flat_map]. rewrite app_nil_r.
      rewrite lenN_encode_char. reflexivity.
  Qed.

  Lemma lenN_offs cs i k : lenN (ng_offs (stateof cs i k)) = N.of_nat (length cs - i).
  Proof. unfold stateof, lenN. cbn [ng_offs]. rewrite map_length, offsets_len, skipn_length. reflexivity. Qed.

  Lemma forallb_firstn {A} (f : A -> bool) n l : forallb f l = true -> forallb f (firstn n l) = true.
  Proof. revert n. induction l; intros [|n] H; cbn in *; auto. apply andb_true_iff in H as [H1 H2]. rewrite H1, IHl; auto. Qed.
  Lemma forallb_skipn {A} (f : A -> bool) n l : forallb f l = true -> forallb f (skipn n l) = true.
  Proof. revert n. induction l; intros [|n] H; cbn in *; auto. apply andb_true_iff in H as [H1 H2]. auto. Qed.

  Lemma emit_state cs i k : forallb scalarb cs = true -> (1 <= k)%nat -> (k <= length cs - i)%nat ->
    ngrams_emit (stateof cs i k) = Ok (Some (mkitem cs (i, k)), stateof cs i (k - 1)).
  Proof.
    intros V K1 K2. unfold ngrams_emit.
    set (a := firstn i cs). set (b := firstn k (skipn i cs)). set (c := skipn k (skipn i cs)).
    assert (cs = a ++ b ++ c) as E.
    { unfold a, b, c. rewrite firstn_skipn, firstn_skipn. reflexivity. }
    assert (forallb scalarb a = true /\ forallb scalarb b = true /\ forallb scalarb c = true) as (Va & Vb & Vc).
    { rewrite E, !forallb_app in V. apply andb_true_iff in V as [V1 V2]. apply andb_true_iff in V2. tauto. }
    assert (ngram_slice (stateof cs i k) = Ok (utf8_encode b)) as ->.
    { unfold ngram_slice. rewrite lenN_offs.
      assert (index (ng_offs (stateof cs i k)) 0 = Ok (lenN (utf8_encode a))) as ->.
      { unfold index. rewrite nthN_spec. unfold stateof. cbn [ng_offs]. rewrite offsets_nth by (rewrite skipn_length; lia).
        cbn [firstn N.to_nat]. rewrite N.add_comm. reflexivity. }
      cbn [rbind]. unfold stateof at 1. cbn [ng_len].
      destruct (N.eqb_spec (N.of_nat k) (N.of_nat (length cs - i))) as [E1|E1].
      - unfold stateof. cbn [ng_str].
        assert (c = []) as C by (unfold c; apply skipn_all2; rewrite skipn_length; lia).
        rewrite E at 1 2. rewrite C, app_nil_r.
        replace (lenN (utf8_encode (a ++ b))) with (lenN (utf8_encode a) + lenN (utf8_encode b))
          by (rewrite utf8_encode_app, lenN_app; reflexivity).
        rewrite <- (app_nil_r b) at 1. apply str_slice_encode; auto.
      - assert (index (ng_offs (stateof cs i k)) (ng_len (stateof cs i k))
                = Ok (lenN (utf8_encode a) + lenN (utf8_encode b))) as ->.
        { unfold index. rewrite nthN_spec. unfold stateof. cbn [ng_offs ng_len].
          rewrite offsets_nth by (rewrite skipn_length; lia). rewrite Nat2N.id. reflexivity. }
        cbn [rbind]. unfold stateof. cbn [ng_str]. rewrite E at 1. apply str_slice_encode; auto. }
    cbn [rbind]. unfold stateof. cbn [ng_len ng_max ng_min ng_str ng_offs].
    do 3 f_equal. lia.
  Qed.

  (** The items that remain in a state. *)
  Definition rest (cs : list N) (i k : nat) : list swcl :=
    map (mkitem cs) (map (pair i) (down mn k) ++ ps_from (S i) (length cs - S i)).

  Lemma next_state cs i k : forallb scalarb cs = true -> (k <= length cs - i)%nat -> (k <= mx)%nat ->
    (exists i' k' x, ngrams_next (stateof cs i k) = Ok (Some x, stateof cs i' k')
       /\ (k' <= length cs - i')%nat /\ (k' <= mx)%nat /\ rest cs i k = x :: rest cs i' k')
    \/ (exists i' k', ngrams_next (stateof cs i k) = Ok (None, stateof cs i' k')
       /\ (k' <= mx)%nat /\ (k' < mn)%nat /\ rest cs i k = [] /\ (length cs - S i < mn)%nat /\ i' = S i /\ k' = k).
  Proof.
    intros V K1 K2. unfold ngrams_next.
    assert (ng_len (stateof cs i k) = N.of_nat k) as -> by reflexivity.
    assert (ng_min (stateof cs i k) = N.of_nat mn) as -> by reflexivity.
    destruct (N.ltb_spec (N.of_nat k) (N.of_nat mn)) as [L|L].
    - destruct (state_tl cs i k k) as [T _]. change (tl (ng_offs (stateof cs i k)) = ng_offs (stateof cs (S i) k)) in T.
      rewrite T, lenN_offs.
      assert (rest cs i k = map (mkitem cs) (ps_from (S i) (length cs - S i))) as RE.
      { unfold rest. rewrite (down_nil mn k) by lia. reflexivity. }
      destruct (N.ltb_spec (N.of_nat (length cs - S i)) (N.of_nat mn)) as [L2|L2].
      + right. exists (S i), k. split; [reflexivity|]. split; [lia|]. split; [lia|].
        rewrite RE, ps_from_short by lia. split; [reflexivity|]. lia.
      + left. set (k1 := Nat.min mx (length cs - S i)).
        assert (mkNgrams (ng_max (stateof cs i k)) (N.of_nat mn) (ng_str (stateof cs i k))
                  (ng_offs (stateof cs (S i) k)) (N.min (ng_max (stateof cs i k)) (N.of_nat (length cs - S i)))
                = stateof cs (S i) k1) as ->.
        { unfold stateof. cbn [ng_max ng_str ng_offs]. f_equal. unfold k1. lia. }
        rewrite emit_state by (auto; unfold k1; lia).
        exists (S i), (k1 - 1)%nat, (mkitem cs (S i, k1)). split; [reflexivity|]. split; [unfold k1; lia|]. split; [unfold k1; lia|].
        rewrite RE. unfold rest. destruct (length cs - S i)%nat as [|m] eqn:M; [lia|].
        cbn [ps_from]. replace (length cs - S (S i))%nat with m by lia.
        assert (k1 = S (k1 - 1)) as KE by (unfold k1; lia).
        replace (Nat.min mx (S m)) with k1 by reflexivity. rewrite KE at 1. rewrite down_cons by (unfold k1 in *; lia).
        cbn [map app]. rewrite <- KE. reflexivity.
    - left. destruct k as [|k]; [lia|]. rewrite emit_state by (auto; lia).
      exists i, k, (mkitem cs (i, S k)). split; [do 3 f_equal; lia|]. split; [lia|]. split; [lia|].
      unfold rest. rewrite down_cons by lia. reflexivity.
  Qed.

  (** The exhausted states. *)
  Lemma next_exhausted cs i k : (length cs - i < mn)%nat -> (k < mn)%nat ->
    ngrams_next (stateof cs i k) = Ok (None, stateof cs (S i) k).
  Proof.
    intros L K. unfold ngrams_next.
    assert (ng_len (stateof cs i k) = N.of_nat k) as -> by reflexivity.
    assert (ng_min (stateof cs i k) = N.of_nat mn) as -> by reflexivity.
    destruct (N.ltb_spec (N.of_nat k) (N.of_nat mn)); [|lia].
    destruct (state_tl cs i k k) as [T _]. change (tl (ng_offs (stateof cs i k)) = ng_offs (stateof cs (S i) k)) in T.
    rewrite T, lenN_offs. destruct (N.ltb_spec (N.of_nat (length cs - S i)) (N.of_nat mn)); [reflexivity|lia].
  Qed.

  Lemma new_state cs : forallb scalarb cs = true ->
    ngrams_new (utf8_encode cs) (N.of_nat mn) (N.of_nat mx) = Ok (stateof cs 0 (Nat.min mx (length cs))).
  Proof.
    intros V. unfold ngrams_new, rassert.
    replace (N.of_nat mn =? 0) with false by lia. replace (N.of_nat mn <=? N.of_nat mx) with true by lia.
    cbn [negb rbind]. rewrite char_indices_encode by auto. unfold stateof. cbn [firstn skipn].
    f_equal. f_equal. unfold lenN. rewrite map_length, offsets_len. lia.
  Qed.

  Lemma drain_state cs : forallb scalarb cs = true -> forall fuel i k,
    (k <= length cs - i)%nat -> (k <= mx)%nat ->
    (length (rest cs i k) < fuel)%nat -> ngrams_drain fuel (stateof cs i k) = Ok (rest cs i k).
  Proof.
    intros V. induction fuel as [|fuel IH]; intros i k K1 K2 F; [lia|]. cbn [ngrams_drain].
    destruct (next_state cs i k V K1 K2) as [(i' & k' & x & E & K3 & K4 & R)|(i' & k' & E & _ & _ & R & _)];
      rewrite E; cbn [rbind].
    - rewrite IH; auto; [rewrite R; reflexivity|]. rewrite R in F. cbn [length] in F. lia.
    - rewrite R. reflexivity.
  Qed.

  Lemma rest_start cs : rest cs 0 (Nat.min mx (length cs)) = map (mkitem cs) (ps_from 0 (length cs)).
  Proof.
    unfold rest. destruct (length cs) as [|m] eqn:E.
    - rewrite Nat.min_0_r, down_nil by lia. reflexivity.
    - cbn [ps_from]. rewrite Nat.sub_succ, Nat.sub_0_r. reflexivity.
  Qed.

  Lemma collect_items cs : forallb scalarb cs = true ->
    ngrams_collect (utf8_encode cs) (N.of_nat mn) (N.of_nat mx) = Ok (map (mkitem cs) (ps_from 0 (length cs))).
  Proof.
    intros V. unfold ngrams_collect. rewrite new_state by auto. cbn [rbind].
    rewrite drain_state; auto; try lia.
    - rewrite rest_start. reflexivity.
    - rewrite rest_start, map_length. unfold ngrams_fuel.
      assert (length cs <= length (utf8_encode cs))%nat as L.
      { clear. induction cs as [|c cs IH]; [cbn; lia|]. unfold utf8_encode in *. cbn [flat_map].
        rewrite app_length, encode_char_length. pose proof (char_width_pos c). cbn. lia. }
      pose proof (ps_from_length' 0 (length cs)). nia.
  Qed.
End NGrams.

(** ** N-grams: exported facts *)
Lemma range_nat mn mx : range_ok mn mx ->
  exists a b, mn = N.of_nat a /\ mx = N.of_nat b /\ (1 <= a)%nat /\ (a <= b)%nat.
Proof. intros [H1 H2]. exists (N.to_nat mn), (N.to_nat mx). lia. Qed.

Lemma ngrams_exact s mn mx : utf8_valid s = true -> range_ok mn mx ->
  exists items, ngrams_collect s mn mx = Ok items /\ ngrams_of s mn mx items.
Proof.
  intros V R. apply range_nat in R as (a & b & -> & -> & Ha & Hb).
  apply utf8_valid_iff in V as (cs & -> & V).
  eexists. split; [apply collect_items; auto|].
  exists cs, (map (fun p => (N.of_nat (fst p), N.of_nat (snd p))) (ps_from a b 0 (length cs))).
  split; [exact V|]. split; [reflexivity|]. split; [split|].
  - pose proof (ps_from_sorted a b Ha Hb 0 (length cs)) as H. induction H as [|p l S IH F]; cbn [map]; constructor; [exact IH|].
    rewrite Forall_map. eapply Forall_impl; [|exact F]. unfold ngram_before. cbn [fst snd]. lia.
  - intros i n. rewrite in_map_iff. split.
    + intros ([j m] & E & H). inv E. apply (ps_from_In a b Ha Hb) in H. unfold lenN. cbn [fst snd]. lia.
    + intros H. exists (N.to_nat i, N.to_nat n). cbn [fst snd]. rewrite !N2Nat.id. split; [reflexivity|].
      apply (ps_from_In a b Ha Hb). unfold lenN in H. lia.
  - rewrite map_map. apply map_ext. intros [i n]. unfold mkitem, substring, takeN, dropN. cbn [fst snd].
    rewrite !Nat2N.id. reflexivity.
Qed.

Lemma positions_NoDup len mn mx ps : ngram_positions len mn mx ps -> NoDup ps.
Proof.
  intros [S _]. induction S as [|p l S IH F]; constructor; [|exact IH]. intros H. rewrite Forall_forall in F.
  apply F in H. unfold ngram_before in H. lia.
Qed.
Lemma sorted_unique {A} (R : A -> A -> Prop) (l l' : list A) : (forall a, ~ R a a) -> (forall a b, R a b -> R b a -> False) ->
  StronglySorted R l -> StronglySorted R l' -> (forall a, In a l <-> In a l') -> l = l'.
Proof.
  intros I AS S. revert l'. induction S as [|a l S IH F]; intros l' S' E.
  - destruct l' as [|b l']; [reflexivity|]. destruct (proj2 (E b) (or_introl eq_refl)).
  - destruct S' as [|b l' S' F']; [destruct (proj1 (E a) (or_introl eq_refl))|]. rewrite Forall_forall in F, F'.
    assert (a = b) as <-.
    { destruct (proj1 (E a) (or_introl eq_refl)) as [->|H1]; [reflexivity|]. destruct (proj2 (E b) (or_introl eq_refl)) as [->|H2]; [reflexivity|].
      destruct (AS a b); auto. }
    f_equal. apply IH; [exact S'|]. intros x. split; intros H.
    + destruct (proj1 (E x) (or_intror H)) as [->|H1]; [destruct (I x); auto|exact H1].
    + destruct (proj2 (E x) (or_intror H)) as [->|H1]; [destruct (I x); auto|exact H1].
Qed.
Lemma ngrams_of_fun s mn mx l l' : ngrams_of s mn mx l -> ngrams_of s mn mx l' -> l = l'.
Proof.
  intros (cs & ps & V & -> & [S P] & ->) (cs' & ps' & V' & E & [S' P'] & ->). apply utf8_encode_inj in E; auto. subst cs'.
  f_equal. eapply sorted_unique; eauto.
  - intros [i n]. unfold ngram_before. lia.
  - intros [i n] [j m]. unfold ngram_before. cbn [fst snd]. lia.
  - intros [i n]. rewrite P, P'. tauto.
Qed.

Lemma ngrams_new_panics s mn mx : ~ range_ok mn mx -> ngrams_new s mn mx = Panic PAssert.
Proof.
  intros H. unfold ngrams_new, rassert, range_ok in *. destruct (N.eqb_spec mn 0); [reflexivity|].
  cbn [negb rbind]. destruct (N.leb_spec mn mx); [exfalso; lia|reflexivity].
Qed.

(** The states of an iterator that the program can reach. *)
Lemma ngrams_state_of a b cs : (1 <= a)%nat -> (a <= b)%nat -> forallb scalarb cs = true ->
  forall g, ngrams_state (utf8_encode cs) (N.of_nat a) (N.of_nat b) g ->
  exists i k, g = stateof a b cs i k /\ (k <= b)%nat /\
    ((k <= length cs - i)%nat \/ ((k < a)%nat /\ (length cs - i < a)%nat)).
Proof.
  intros Ha Hb V g H. induction H as [g H|g x g' H IH E].
  - rewrite (new_state a b Ha Hb) in H by auto. inv H. do 2 eexists. split; [reflexivity|]. lia.
  - destruct IH as (i & k & -> & K1 & K2).
    destruct (Nat.le_gt_cases k (length cs - i)) as [K3|K3].
    + destruct (next_state a b Ha Hb cs i k V K3 K1) as [(i' & k' & y & E' & K4 & K5 & _)|(i' & k' & E' & K4 & K5 & _ & K6 & -> & ->)];
        rewrite E' in E; inv E; do 2 eexists; (split; [reflexivity|]); lia.
    + destruct K2 as [K2|[K2 K2']]; [lia|]. rewrite (next_exhausted a b Ha Hb) in E by auto. inv E.
      do 2 eexists. split; [reflexivity|]. lia.
Qed.

Lemma remaining_rest a b cs : (1 <= a)%nat -> (a <= b)%nat -> forallb scalarb cs = true ->
  forall i k, (k <= length cs - i)%nat -> (k <= b)%nat -> remaining (stateof a b cs i k) (rest a b cs i k).
Proof.
  intros Ha Hb V i k. remember (rest a b cs i k) as l eqn:L. revert i k L.
  induction l as [|x l IH]; intros i k L K1 K2;
    destruct (next_state a b Ha Hb cs i k V K1 K2) as [(i' & k' & y & E & K3 & K4 & R)|(i' & k' & E & _ & _ & R & _)];
    rewrite R in L; try discriminate.
  - econstructor. exact E.
  - inv L. econstructor; [exact E|]. apply IH; auto.
Qed.

Lemma remaining_fun g l l' : remaining g l -> remaining g l' -> l = l'.
Proof.
  intros H. revert l'. induction H as [g g' E|g x g' l E H IH]; intros l' H'; inv H'; try congruence.
  rewrite E in H0. inv H0. f_equal. auto.
Qed.

(** Every reachable state can be drained; an exhausted iterator stays so. *)
Lemma ngrams_iterator s mn mx g : utf8_valid s = true -> ngrams_state s mn mx g ->
  (exists l, remaining g l) /\
  (forall g', ngrams_next g = Ok (None, g') -> exists g'', ngrams_next g' = Ok (None, g'')).
Proof.
  intros V H.
  assert (range_ok mn mx) as R.
  { clear V. induction H as [g H|]; [|auto]. destruct (N.eq_dec mn 0) as [->|].
    - discriminate.
    - destruct (N.le_gt_cases mn mx); [split; lia|]. rewrite ngrams_new_panics in H; [discriminate|]. unfold range_ok. lia. }
  apply range_nat in R as (a & b & -> & -> & Ha & Hb).
  apply utf8_valid_iff in V as (cs & -> & V).
  destruct (ngrams_state_of a b cs Ha Hb V g H) as (i & k & -> & K1 & K2).
  destruct (Nat.le_gt_cases k (length cs - i)) as [K3|K3].
  - split; [eexists; apply remaining_rest; auto|]. intros g' E.
    destruct (next_state a b Ha Hb cs i k V K3 K1) as [(i' & k' & y & E' & K4 & K5 & _)|(i' & k' & E' & K4 & K5 & _ & K6 & -> & ->)];
      rewrite E' in E; inv E. eexists. apply next_exhausted; auto.
  - destruct K2 as [K2|[K2 K2']]; [lia|]. pose proof (next_exhausted a b Ha Hb cs i k K2' K2) as E. split.
    + eexists. econstructor. exact E.
    + intros g' E'. rewrite E in E'. inv E'. eexists. apply next_exhausted; auto. lia.
Qed.

(** The size hint is an upper bound when its product does not overflow. *)
Lemma ngrams_hint_upper pf s mn mx g lo hi l : utf8_valid s = true -> ngrams_state s mn mx g ->
  (mx - mn + 1) * lenN s < two64 ->
  ngrams_size_hint pf g = Ok (lo, hi) -> remaining g l ->
  exists h, hi = Some h /\ lenN l <= h.
Proof.
  intros V H NO SH RM.
  assert (range_ok mn mx) as R.
  { clear - H. induction H as [g H|]; [|auto]. destruct (N.eq_dec mn 0) as [->|].
    - discriminate.
    - destruct (N.le_gt_cases mn mx); [split; lia|]. rewrite ngrams_new_panics in H; [discriminate|]. unfold range_ok. lia. }
  apply range_nat in R as (a & b & -> & -> & Ha & Hb).
  apply utf8_valid_iff in V as (cs & -> & V).
  destruct (ngrams_state_of a b cs Ha Hb V g H) as (i & k & -> & K1 & K2).
  assert (lenN l <= N.of_nat ((S b - a) * (length cs - i))) as L.
  { destruct (Nat.le_gt_cases k (length cs - i)) as [K3|K3].
    - rewrite (remaining_fun _ _ _ RM (remaining_rest a b cs Ha Hb V i k K3 K1)).
      unfold rest, lenN. rewrite map_length, app_length, map_length, down_length.
      pose proof (ps_from_length a b Ha Hb (S i) (length cs - S i)).
      destruct (length cs - i)%nat as [|m] eqn:M.
      + replace (length cs - S i)%nat with O in * by lia. assert (k = 0%nat) by lia. subst k. cbn [ps_from length]. lia.
      + replace (length cs - S i)%nat with m in * by lia. rewrite Nat.mul_succ_r. lia.
    - destruct K2 as [K2|[K2 K2']]; [lia|]. pose proof (next_exhausted a b Ha Hb cs i k K2' K2) as E.
      inv RM; [apply N.le_0_l|congruence]. }
  unfold ngrams_size_hint in SH. rewrite lenN_offs in SH.
  change (ng_max (stateof a b cs i k)) with (N.of_nat b) in SH. change (ng_min (stateof a b cs i k)) with (N.of_nat a) in SH.
  assert (length cs <= length (utf8_encode cs))%nat as LE.
  { clear. induction cs as [|c cs IH]; [cbn; lia|]. unfold utf8_encode in *. cbn [flat_map].
    rewrite app_length, encode_char_length. pose proof (char_width_pos c). cbn [length]. lia. }
  destruct (length cs - i)%nat as [|m] eqn:M.
  { apply rbind_Ok_inv in SH as (x & _ & SH). unfold mul64 in SH. change (N.of_nat 0) with 0 in SH.
    rewrite N.mul_0_r in SH. change (0 <? two64) with true in SH.
    cbn [rbind] in SH. inv SH. eexists. split; [reflexivity|]. rewrite Nat.mul_0_r in L. exact L. }
  assert (lenN (utf8_encode cs) >= N.of_nat (S m)) as LE2 by (unfold lenN; lia).
  assert ((N.of_nat b - N.of_nat a + 1) * N.of_nat (S m) < two64) as NO2.
  { eapply N.le_lt_trans; [|exact NO]. apply N.mul_le_mono_l. lia. }
  unfold add64, mul64 in SH.
  assert (N.of_nat b - N.of_nat a + 1 < two64) as NO3 by nia.
  replace (N.of_nat b - N.of_nat a + 1 <? two64) with true in SH by lia. cbn [rbind] in SH.
  replace ((N.of_nat b - N.of_nat a + 1) * N.of_nat (S m) <? two64) with true in SH by lia. cbn [rbind] in SH.
  inv SH. eexists. split; [reflexivity|]. etransitivity; [exact L|]. rewrite Nat2N.inj_mul.
  apply N.mul_le_mono_r. lia.
Qed.
