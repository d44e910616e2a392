(** * The heap of the standard library keeps its contract (stated in P_Sim.v). *)
From Coq Require Import Sorting.Permutation Sorting.Sorted Arith Lia ZifyBool ZifyNat ZifyN.
From Verif Require Import Base BaseFacts F32 Subword Vocab VocabFacts Storage Embeddings Similarity FileSpec VocabSpec EmbSpec SimSpec LookupFacts EmbFacts BatchFacts SimFacts StdHeap.

Section Heap.
  Context {A : Type} (cmp : A -> A -> comparison) (d : A) (P : A -> Prop).
  Hypothesis anti : forall a b, P a -> P b -> cmp b a = CompOpp (cmp a b).
  Hypothesis trans : forall a b c, P a -> P b -> P c -> cmp a b <> Gt -> cmp b c <> Gt -> cmp a c <> Gt.
  Definition le (a b : A) : Prop := cmp a b <> Gt.

  Lemma cle_iff a b : cle cmp a b = true <-> le a b.
  Proof. unfold cle, le. destruct (cmp a b); split; congruence. Qed.
  Lemma cle_false a b : P a -> P b -> cle cmp a b = false -> le b a.
  Proof. intros Pa Pb. unfold cle, le. rewrite (anti a b Pa Pb). destruct (cmp a b); cbn; congruence. Qed.
  Lemma cge_iff a b : P a -> P b -> cge cmp a b = true <-> le b a.
  Proof. intros Pa Pb. unfold cge, le. rewrite (anti a b Pa Pb). destruct (cmp a b); cbn; split; congruence. Qed.
  Lemma cge_false a b : cge cmp a b = false -> le a b.
  Proof. unfold cge, le. destruct (cmp a b); congruence. Qed.
  Lemma clt_true a b : clt cmp a b = true -> le a b.
  Proof. unfold clt, le. destruct (cmp a b); congruence. Qed.
  Lemma clt_false a b : P a -> P b -> clt cmp a b = false -> le b a.
  Proof. intros Pa Pb. unfold clt, le. rewrite (anti a b Pa Pb). destruct (cmp a b); cbn; congruence. Qed.

  (** ** The vector *)
  Lemma hset_length (l : list A) : forall i x, length (hset l i x) = length l.
  Proof. induction l as [|y l IH]; intros [|i] x; cbn; auto. Qed.
  Lemma hset_get (l : list A) : forall i x k, i < length l -> hget d (hset l i x) k = if k =? i then x else hget d l k.
  Proof.
    induction l as [|y l IH]; intros i x k L; cbn in L; [lia|]. destruct i as [|i]; destruct k as [|k]; cbn; auto. apply IH. lia.
  Qed.
  Lemma hswap_length l i j : length (hswap d l i j) = length l.
  Proof. unfold hswap. rewrite !hset_length. reflexivity. Qed.
  Lemma hswap_get l i j k : i < length l -> j < length l ->
    hget d (hswap d l i j) k = if k =? j then hget d l i else if k =? i then hget d l j else hget d l k.
  Proof. intros Li Lj. unfold hswap. rewrite hset_get by (rewrite hset_length; exact Lj). destruct (k =? j); [reflexivity|]. apply hset_get. exact Li. Qed.
  Lemma hswap_perm l i j : i < length l -> j < length l -> Permutation (hswap d l i j) l.
  Proof.
    intros Li Lj. symmetry. apply (Permutation_nth l (hswap d l i j) d). split; [apply hswap_length|].
    exists (fun k => if k =? j then i else if k =? i then j else k). split; [|split].
    - intros k K. destruct (k =? j); [exact Li|]. destruct (k =? i); [exact Lj|exact K].
    - intros a b Ha Hb. destruct (Nat.eqb_spec a j), (Nat.eqb_spec b j), (Nat.eqb_spec a i), (Nat.eqb_spec b i); lia.
    - intros k K. pose proof (hswap_get l i j k Li Lj) as G. unfold hget in G. rewrite G. destruct (k =? j); [reflexivity|]. destruct (k =? i); reflexivity.
  Qed.
  Lemma get_P l i : Forall P l -> i < length l -> P (hget d l i).
  Proof. intros H L. rewrite Forall_forall in H. apply H. apply nth_In. exact L. Qed.
  Lemma perm_P l l' : Permutation l' l -> Forall P l -> Forall P l'.
  Proof. intros H. apply Permutation_Forall. symmetry. exact H. Qed.

  Definition is_heap (l : list A) : Prop := forall i, 0 < i < length l -> le (hget d l i) (hget d l (parent i)).
  Lemma parent_lt i : 0 < i -> parent i < i.
  Proof. intros H. unfold parent. pose proof (Nat.div_le_upper_bound (i - 1) 2 (i - 1)). lia. Qed.
  Lemma parent_child i p : 0 < i -> parent i = p <-> (i = 2 * p + 1 \/ i = 2 * p + 2).
  Proof.
    intros H. unfold parent. pose proof (Nat.div_mod_eq (i - 1) 2). pose proof (Nat.mod_upper_bound (i - 1) 2). lia.
  Qed.
  Lemma heap_top l : is_heap l -> Forall P l -> forall i, i < length l -> le (hget d l i) (hget d l 0).
  Proof.
    intros H N. induction i as [i IH] using lt_wf_ind. intros L. destruct (Nat.eq_dec i 0) as [->|Z].
    - unfold le. pose proof (anti _ _ (get_P l 0 N L) (get_P l 0 N L)) as E. destruct (cmp (hget d l 0) (hget d l 0)); cbn in E; congruence.
    - pose proof (parent_lt i ltac:(lia)). apply (trans _ (hget d l (parent i))); try (apply get_P; auto; lia); [apply H; lia|apply IH; lia].
  Qed.

  Lemma sift_up_ok fuel : forall pos l, pos < fuel -> pos < length l -> Forall P l ->
    (forall i, 0 < i < length l -> i <> pos -> le (hget d l i) (hget d l (parent i))) ->
    (forall i, 0 < i < length l -> parent i = pos -> 0 < pos -> le (hget d l i) (hget d l (parent pos))) ->
    Permutation (sift_up cmp d fuel pos l) l /\ is_heap (sift_up cmp d fuel pos l).
  Proof.
    induction fuel as [|fuel IH]; intros pos l F L N H1 H2; [lia|]. cbn [sift_up]. destruct (Nat.eqb_spec pos 0) as [Z|Z].
    { split; [reflexivity|]. intros i I. apply H1; lia. }
    pose proof (parent_lt pos ltac:(lia)) as PL. set (p := parent pos) in *.
    destruct (cle cmp (hget d l pos) (hget d l p)) eqn:C.
    { apply cle_iff in C. split; [reflexivity|]. intros i I. destruct (Nat.eq_dec i pos) as [->|D]; [exact C|apply H1; assumption]. }
    apply cle_false in C; [|apply get_P; auto; lia..].
    pose proof (hswap_perm l pos p L ltac:(lia)) as PM. pose proof (hswap_get l pos p) as G. pose proof (hswap_length l pos p) as LE.
    destruct (IH p (hswap d l pos p)) as [Q1 Q2]; [lia|lia|apply (perm_P l _); assumption| | |split; [rewrite Q1; exact PM|exact Q2]].
    - intros i I D. rewrite LE in I. rewrite !G by lia. destruct (Nat.eqb_spec i p) as [E|_]; [lia|].
      destruct (Nat.eqb_spec i pos) as [->|D2].
      + fold p. rewrite Nat.eqb_refl. exact C.
      + destruct (Nat.eqb_spec (parent i) p) as [E|E].
        * apply (trans _ (hget d l p)); try (apply get_P; auto; lia); [rewrite <- E; apply H1; lia|exact C].
        * destruct (Nat.eqb_spec (parent i) pos) as [E2|E2]; [apply H2; lia|apply H1; lia].
    - intros i I E Z2. rewrite LE in I. pose proof (parent_lt p Z2) as PP. rewrite !G by lia.
      destruct (Nat.eqb_spec (parent p) p) as [X|_]; [lia|]. destruct (Nat.eqb_spec (parent p) pos) as [X|_]; [lia|].
      destruct (Nat.eqb_spec i p) as [->|D]; [lia|]. destruct (Nat.eqb_spec i pos) as [->|D2].
      + apply H1; lia.
      + apply (trans _ (hget d l p)); try (apply get_P; auto; lia); [rewrite <- E; apply H1; lia|apply H1; lia].
  Qed.

  Lemma sift_down_ok fuel : forall pos l, length l - pos <= fuel -> pos < length l -> Forall P l ->
    (forall i, 0 < i < length l -> parent i <> pos -> le (hget d l i) (hget d l (parent i))) ->
    (forall i, 0 < i < length l -> parent i = pos -> 0 < pos -> le (hget d l i) (hget d l (parent pos))) ->
    Permutation (sift_down cmp d fuel pos l) l /\ is_heap (sift_down cmp d fuel pos l).
  Proof.
    induction fuel as [|fuel IH]; intros pos l F L N H1 H2; [lia|]. cbn [sift_down]. cbv zeta.
    (* the step towards a child that is not below its sibling *)
    assert (forall c, parent c = pos -> 0 < c < length l -> (forall i, 0 < i < length l -> parent i = pos -> le (hget d l i) (hget d l c)) ->
      le (hget d l pos) (hget d l c) ->
      Permutation (hswap d l pos c) l /\ length (hswap d l pos c) = length l /\ Forall P (hswap d l pos c) /\
      (forall i, 0 < i < length l -> parent i <> c -> le (hget d (hswap d l pos c) i) (hget d (hswap d l pos c) (parent i))) /\
      (forall i, 0 < i < length l -> parent i = c -> 0 < c -> le (hget d (hswap d l pos c) i) (hget d (hswap d l pos c) (parent c)))) as Step.
    { intros c PC LC MX LT. pose proof (parent_lt c ltac:(lia)) as PL. pose proof (hswap_perm l pos c L ltac:(lia)) as PM. pose proof (hswap_get l pos c) as G.
      split; [exact PM|]. split; [apply hswap_length|]. split; [apply (perm_P l _); assumption|]. split.
      - intros i I D. rewrite !G by lia. destruct (Nat.eqb_spec (parent i) c) as [X|_]; [lia|]. destruct (Nat.eqb_spec i c) as [->|D2].
        + rewrite PC, Nat.eqb_refl. exact LT.
        + destruct (Nat.eqb_spec i pos) as [->|D3].
          * pose proof (parent_lt pos ltac:(lia)). destruct (Nat.eqb_spec (parent pos) pos) as [X|_]; [lia|]. apply H2; lia.
          * destruct (Nat.eqb_spec (parent i) pos) as [E|E]; [apply MX; assumption|apply H1; assumption].
      - intros i I E Z. rewrite PC. rewrite !G by lia. rewrite Nat.eqb_refl. destruct (Nat.eqb_spec pos c) as [X|_]; [lia|].
        pose proof (parent_lt i ltac:(lia)). destruct (Nat.eqb_spec i c) as [X|_]; [lia|]. destruct (Nat.eqb_spec i pos) as [X|_]; [lia|].
        rewrite <- E. apply H1; lia. }
    assert (forall i, 0 < i < length l -> parent i = pos -> i = 2 * pos + 1 \/ i = 2 * pos + 2) as CH by (intros i I E; apply parent_child in E; lia).
    destruct (Nat.leb_spec (2 * pos + 1) (length l - 2)) as [LC|LC].
    - set (c := if cle cmp (hget d l (2 * pos + 1)) (hget d l (2 * pos + 1 + 1)) then 2 * pos + 1 + 1 else 2 * pos + 1).
      assert (parent c = pos /\ 0 < c < length l) as [PC I] by (unfold c; destruct (cle _ _ _); (split; [apply parent_child|]); lia).
      assert (forall i, 0 < i < length l -> parent i = pos -> le (hget d l i) (hget d l c)) as MX.
      { assert (forall i, i < length l -> le (hget d l i) (hget d l i)) as RF.
        { intros i Hi. unfold le. pose proof (anti _ _ (get_P l i N Hi) (get_P l i N Hi)) as E. destruct (cmp (hget d l i) (hget d l i)); cbn in E; congruence. }
        intros i Hi E. destruct (CH i Hi E) as [->| ->]; unfold c; destruct (cle cmp (hget d l (2 * pos + 1)) (hget d l (2 * pos + 1 + 1))) eqn:C.
        - apply cle_iff. exact C.
        - apply RF. lia.
        - replace (2 * pos + 1 + 1) with (2 * pos + 2) by lia. apply RF. lia.
        - apply cle_false in C; [|apply get_P; auto; lia..]. replace (2 * pos + 2) with (2 * pos + 1 + 1) by lia. exact C. }
      destruct (cge cmp (hget d l pos) (hget d l c)) eqn:C.
      + apply cge_iff in C; [|apply get_P; auto; lia..]. split; [reflexivity|]. intros i Hi. destruct (Nat.eq_dec (parent i) pos) as [E|E]; [|apply H1; assumption].
        rewrite E. apply (trans _ (hget d l c)); try (apply get_P; auto; lia); [apply MX; assumption|exact C].
      + apply cge_false in C. destruct (Step c PC I MX C) as (PM & LE & N' & S1 & S2). pose proof (parent_lt c ltac:(lia)).
        destruct (IH c (hswap d l pos c)) as [Q1 Q2]; [lia|lia|exact N'|rewrite LE; exact S1|rewrite LE; exact S2|]. split; [rewrite Q1; exact PM|exact Q2].
    - destruct (Nat.eqb_spec (2 * pos + 1) (length l - 1)) as [E|E]; cbn [andb].
      + assert (parent (2 * pos + 1) = pos) as PC by (apply parent_child; lia).
        assert (forall i, 0 < i < length l -> parent i = pos -> i = 2 * pos + 1) as ON by (intros i Hi Hp; destruct (CH i Hi Hp); lia).
        destruct (clt cmp (hget d l pos) (hget d l (2 * pos + 1))) eqn:C.
        * apply clt_true in C. destruct (Step (2 * pos + 1) PC ltac:(lia)) as (PM & LE & N' & S1 & S2); [|exact C|].
          { intros i Hi Hp. rewrite (ON i Hi Hp). unfold le. assert (2 * pos + 1 < length l) as LL by lia.
            pose proof (anti _ _ (get_P l _ N LL) (get_P l _ N LL)) as X. destruct (cmp (hget d l (2 * pos + 1)) (hget d l (2 * pos + 1))); cbn in X; congruence. }
          split; [exact PM|]. intros i Hi. rewrite LE in Hi. apply S1; [exact Hi|]. intros X. apply parent_child in X; lia.
        * apply clt_false in C; [|apply get_P; auto; lia..]. split; [reflexivity|]. intros i Hi. destruct (Nat.eq_dec (parent i) pos) as [X|X]; [|apply H1; assumption].
          rewrite X, (ON i Hi X). exact C.
      + split; [reflexivity|]. intros i Hi. apply H1; [exact Hi|]. intros X. destruct (CH i Hi X); lia.
  Qed.

  (** ** Operations *)
  Lemma push_ok x l : P x -> Forall P l -> is_heap l -> Permutation (heap_push cmp d x l) (x :: l) /\ is_heap (heap_push cmp d x l).
  Proof.
    intros Px N H. unfold heap_push. destruct (sift_up_ok (S (length l)) (length l) (l ++ [x])) as [Q1 Q2].
    - lia.
    - rewrite app_length. cbn. lia.
    - apply Forall_app. auto.
    - rewrite app_length. cbn [length]. intros i I D. pose proof (parent_lt i ltac:(lia)). unfold hget. rewrite !app_nth1 by lia. apply H. lia.
    - rewrite app_length. cbn [length]. intros i I E Z. pose proof (parent_lt i ltac:(lia)). lia.
    - split; [rewrite Q1; symmetry; apply Permutation_cons_append|exact Q2].
  Qed.
  Lemma root_ok x y l : P x -> Forall P (y :: l) -> is_heap (y :: l) -> forall fuel, length (y :: l) <= fuel ->
    Permutation (sift_down cmp d fuel 0 (hset (y :: l) 0 x)) (x :: l) /\ is_heap (sift_down cmp d fuel 0 (hset (y :: l) 0 x)).
  Proof.
    intros Px N H fuel F. cbn [hset]. inversion N; subst. apply sift_down_ok; cbn [length] in *; try lia.
    - constructor; assumption.
    - intros i I D. specialize (H i I). unfold hget in *. destruct i as [|i]; [lia|]. destruct (parent (S i)) as [|k]; [lia|]. exact H.
  Qed.
  Lemma assign_ok x y l : P x -> Forall P (y :: l) -> is_heap (y :: l) ->
    Permutation (heap_assign cmp d x (y :: l)) (x :: l) /\ is_heap (heap_assign cmp d x (y :: l)).
  Proof. intros Px N H. apply root_ok; auto. Qed.
  Lemma heap_prefix l z : is_heap (l ++ [z]) -> is_heap l.
  Proof.
    intros H i I. specialize (H i). rewrite app_length in H. cbn [length] in H. pose proof (parent_lt i ltac:(lia)). unfold hget in *. rewrite !app_nth1 in H by lia. apply H. lia.
  Qed.

  Lemma sort_loop_ok fuel : forall pre acc, length pre <= fuel -> Forall P pre -> Forall P acc -> is_heap pre -> StronglySorted le acc ->
    (forall a b, In a pre -> In b acc -> le a b) ->
    Permutation (sort_loop cmp d fuel pre acc) (pre ++ acc) /\ StronglySorted le (sort_loop cmp d fuel pre acc).
  Proof.
    assert (forall a, P a -> le a a) as RF.
    { intros a Pa. unfold le. pose proof (anti a a Pa Pa) as E. destruct (cmp a a); cbn in E; congruence. }
    induction fuel as [|fuel IH]; intros pre acc L N NA H SA B.
    { destruct pre; [|cbn in L; lia]. split; [reflexivity|exact SA]. }
    cbn [sort_loop]. destruct pre as [|x [|y rest]]; [split; [reflexivity|exact SA]| |].
    { split; [reflexivity|]. constructor; [exact SA|]. apply Forall_forall. intros b Hb. apply B; [left; reflexivity|exact Hb]. }
    destruct (exists_last (l := x :: y :: rest) ltac:(discriminate)) as (pr & z & E). set (pre := x :: y :: rest) in *. rewrite E, removelast_last, last_last.
    destruct pr as [|x' mid]; [apply (f_equal (@length A)) in E; cbn in E; lia|]. assert (x' = x) as -> by (unfold pre in E; cbn in E; congruence).
    assert (length (y :: rest) = length (x :: mid)) as LL by (apply (f_equal (@length A)) in E; unfold pre in E; rewrite app_length in E; cbn [length] in *; lia).
    assert (Forall P (x :: mid) /\ P z) as [NM Pz].
    { rewrite E in N. apply Forall_app in N as [N1 N2]. inversion N2; subst. auto. }
    assert (is_heap (x :: mid)) as HM by (apply (heap_prefix _ z); rewrite <- E; exact H).
    destruct (root_ok z x mid Pz NM HM (length (y :: rest)) ltac:(lia)) as [Q1 Q2]. set (pre' := sift_down cmp d (length (y :: rest)) 0 (hset (x :: mid) 0 z)) in *.
    assert (forall a, In a pre -> le a x) as TOP.
    { intros a Ha. apply In_nth with (d := d) in Ha as (i & I & <-). exact (heap_top pre H N i I). }
    assert (forall a, In a pre' -> In a pre) as IN.
    { intros a Ha. apply (Permutation_in a Q1) in Ha. rewrite E. apply in_app_iff. destruct Ha as [<-|Ha]; [right; left; reflexivity|left; right; exact Ha]. }
    destruct (IH pre' (x :: acc)) as [R1 R2].
    - apply Permutation_length in Q1. rewrite Q1. cbn [length] in *. unfold pre in L. cbn [length] in L. lia.
    - apply (perm_P (z :: mid) _ Q1). inversion NM; subst. constructor; assumption.
    - inversion NM; subst. constructor; assumption.
    - exact Q2.
    - constructor; [exact SA|]. apply Forall_forall. intros b Hb. apply B; [left; reflexivity|exact Hb].
    - intros a b Ha [<-|Hb]; [apply TOP, IN, Ha|apply B; [apply IN, Ha|exact Hb]].
    - split; [|exact R2]. rewrite R1, Q1. cbn [app]. rewrite <- app_assoc. cbn [app].
      transitivity (z :: x :: mid ++ acc); [constructor; symmetry; apply Permutation_middle|]. rewrite perm_swap. constructor. apply Permutation_middle.
  Qed.
  Lemma into_sorted_ok l : Forall P l -> is_heap l -> Permutation (into_sorted_vec cmp d l) l /\ StronglySorted le (into_sorted_vec cmp d l).
  Proof.
    intros N H. unfold into_sorted_vec. destruct (sort_loop_ok (length l) l [] (le_n _) N (Forall_nil _) H (SSorted_nil _)) as [Q1 Q2]; [intros a b _ []|].
    rewrite app_nil_r in Q1. auto.
  Qed.
End Heap.

(** The contract, for any order on the elements in question. *)
Definition total_order {A} (cmp : A -> A -> comparison) (P : A -> Prop) : Prop :=
  (forall a b, P a -> P b -> cmp b a = CompOpp (cmp a b)) /\
  (forall a b c, P a -> P b -> P c -> cmp a b <> Gt -> cmp b c <> Gt -> cmp a c <> Gt).
Lemma heap_empty {A} (cmp : A -> A -> comparison) d : is_heap cmp d [].
Proof. intros i I. cbn [length] in I. lia. Qed.
Lemma heap_push_contract {A} (cmp : A -> A -> comparison) d (P : A -> Prop) x l : total_order cmp P -> Forall P (x :: l) -> is_heap cmp d l ->
  Permutation (heap_push cmp d x l) (x :: l) /\ is_heap cmp d (heap_push cmp d x l).
Proof. intros [T1 T2] N H. inversion N; subst. apply (push_ok cmp d P T1 T2); assumption. Qed.
Lemma heap_assign_contract {A} (cmp : A -> A -> comparison) d (P : A -> Prop) x y l : total_order cmp P -> Forall P (x :: y :: l) -> is_heap cmp d (y :: l) ->
  Permutation (heap_assign cmp d x (y :: l)) (x :: l) /\ is_heap cmp d (heap_assign cmp d x (y :: l)).
Proof. intros [T1 T2] N H. inversion N; subst. apply (assign_ok cmp d P T1 T2); assumption. Qed.
Lemma heap_peek_contract {A} (cmp : A -> A -> comparison) d (P : A -> Prop) y l : total_order cmp P -> Forall P (y :: l) -> is_heap cmp d (y :: l) ->
  forall z, In z (y :: l) -> cmp z y <> Gt.
Proof.
  intros [T1 T2] N H z Hz. apply In_nth with (d := d) in Hz as (i & I & <-). exact (heap_top cmp d P T1 T2 (y :: l) H N i I).
Qed.
Lemma heap_sort_contract {A} (cmp : A -> A -> comparison) d (P : A -> Prop) l : total_order cmp P -> Forall P l -> is_heap cmp d l ->
  Permutation (into_sorted_vec cmp d l) l /\ StronglySorted (fun a b => cmp a b <> Gt) (into_sorted_vec cmp d l).
Proof. intros [T1 T2] N H. exact (into_sorted_ok cmp d P T1 T2 l N H). Qed.

(** ** Queries with the heap of the standard library *)
Section Order.
  Context {F : Type} (o : fops F) (OR : ordered o).
  Notation cmp := (wsr_cmp o).
  Notation lt := (better o).
  Notation P := (num o).

  Lemma wsr_anti a b : P a -> P b -> cmp b a = CompOpp (cmp a b).
  Proof.
    intros Na Nb. unfold wsr_cmp, sim_cmp. destruct (or_total _ OR _ _ Na Nb) as (c & E1 & E2). rewrite E1, E2.
    destruct c; cbn [CompOpp]; auto. apply str_compare_antisym.
  Qed.
  Lemma wsr_Lt a b : P a -> P b -> cmp a b = Lt <-> lt a b.
  Proof. intros Na Nb. rewrite <- (wsr_lt_better o OR a b Na Nb). unfold wsr_lt. destruct (cmp a b); split; congruence. Qed.
  Lemma wsr_Eq a b : P a -> P b -> cmp a b = Eq -> wr_word a = wr_word b /\ fcmp o (wr_sim a) (wr_sim b) = Some Eq.
  Proof.
    intros Na Nb. unfold wsr_cmp, sim_cmp. destruct (or_total _ OR _ _ Na Nb) as (c & E1 & E2). rewrite E1, E2.
    destruct c; cbn [CompOpp]; try discriminate. intros H. apply str_compare_eq in H. auto.
  Qed.
  Lemma wsr_Eq_l a b c : P a -> P b -> P c -> cmp a b = Eq -> cmp a c = cmp b c.
  Proof.
    intros Na Nb Nc E. destruct (wsr_Eq a b Na Nb E) as [W S]. unfold wsr_cmp, sim_cmp. rewrite W.
    destruct (or_total _ OR _ _ Na Nc) as (c1 & A1 & A2). destruct (or_total _ OR _ _ Nb Nc) as (c2 & B1 & B2). rewrite A2, B2.
    rewrite (or_eq _ OR _ _ (wr_sim c) S) in A1. rewrite A1 in B1. injection B1 as ->. reflexivity.
  Qed.
  Lemma wsr_trans a b c : P a -> P b -> P c -> cmp a b <> Gt -> cmp b c <> Gt -> cmp a c <> Gt.
  Proof.
    intros Na Nb Nc H1 H2. destruct (cmp a b) eqn:E1; [rewrite (wsr_Eq_l a b c); assumption| |congruence].
    destruct (cmp b c) eqn:E2; [|destruct (cmp a c) eqn:E3; try congruence|congruence].
    - assert (cmp a c = CompOpp (cmp b a)) as ->; [|rewrite (wsr_anti a b), E1 by assumption; discriminate].
      rewrite (wsr_anti c a) by assumption. f_equal. symmetry. apply wsr_Eq_l; assumption.
    - apply wsr_Lt in E1, E2; auto. pose proof (better_trans o OR a b c Na Nb Nc E1 E2) as K. apply wsr_Lt in K; auto. congruence.
  Qed.

  Notation heap := (is_heap cmp (wsr0 o)).
  Definition std_add (limit : N) (h : list (wsr F)) (x : wsr F) : res (list (wsr F)) :=
    match fcmp o (wr_sim x) (wr_sim x) with
    | None => Panic PNaN
    | Some _ =>
        if (lenN h <? limit)%N then Ok (heap_push cmp (wsr0 o) x h)
        else match h with
             | [] => Panic PAssert
             | m :: _ => if clt cmp x m then Ok (heap_assign cmp (wsr0 o) x h) else Ok h
             end
    end.

  (** A heap and the sorted list with the same elements. *)
  Definition same_heap (h h' : list (wsr F)) : Prop := Permutation h h' /\ heap h /\ Forall P h' /\ StronglySorted lt h' /\ NoDup (map wr_word h').

  Lemma same_top h h' m l : same_heap h h' -> h = m :: l -> heap_max h' = Some m /\ Permutation l (removelast h').
  Proof.
    intros (PM & HP & N & S & ND) ->. assert (exists m', heap_max h' = Some m') as [m' E].
    { destruct (heap_max h') as [m'|] eqn:E; [eauto|]. apply heap_max_None in E. subst. apply Permutation_length in PM. discriminate. }
    rewrite E. apply heap_max_last in E as E2. rewrite E2 in S. destruct (sorted_last o _ _ S) as [S0 S1].
    assert (m' = m) as ->.
    { assert (In m' (m :: l)) as I by (apply (Permutation_in _ (Permutation_sym PM)); rewrite E2; apply in_app_iff; right; left; reflexivity).
      assert (In m h') as I2 by (apply (Permutation_in _ PM); left; reflexivity). rewrite E2 in I2. apply in_app_iff in I2 as [I2|[->|[]]]; [|reflexivity]. exfalso.
      rewrite Forall_forall in S1. specialize (S1 m I2). assert (Forall P (m :: l)) as N2 by (apply (Permutation_Forall (Permutation_sym PM)); exact N).
      apply In_nth with (d := wsr0 o) in I as (i & Li & G). pose proof (heap_top cmp (wsr0 o) P wsr_anti wsr_trans _ HP N2 i Li) as T. unfold hget in T. rewrite G in T. cbn [nth] in T.
      rewrite Forall_forall in N. assert (P m /\ P m') as [Nm Nm'] by (split; apply N; rewrite E2; apply in_app_iff; [left; exact I2|right; left; reflexivity]).
      unfold le in T. rewrite (wsr_anti m m') in T by assumption. apply (proj2 (wsr_Lt m m' Nm Nm')) in S1. rewrite S1 in T. apply T. reflexivity. }
    split; [reflexivity|]. rewrite E2 in PM. rewrite <- Permutation_cons_append in PM. apply Permutation_cons_inv in PM. exact PM.
  Qed.

  Lemma std_add_same limit h h' x : same_heap h h' -> ~ In (wr_word x) (map wr_word h') ->
    match std_add limit h x, sim_add o limit h' x with
    | Ok g, Ok g' => same_heap g g' /\ incl g' (x :: h')
    | Panic p, Panic p' => p = p'
    | _, _ => False
    end.
  Proof.
    intros SH NI. pose proof SH as (PM & HP & N & S & ND). unfold std_add, sim_add. destruct (fcmp o (wr_sim x) (wr_sim x)) eqn:E; [|reflexivity].
    assert (P x) as Nx by (unfold num, number; congruence). assert (Forall P h) as N2 by (apply (Permutation_Forall (Permutation_sym PM)); exact N).
    replace (lenN h') with (lenN h) by (unfold lenN; rewrite (Permutation_length PM); reflexivity). destruct (lenN h <? limit)%N.
    - destruct (push_ok cmp (wsr0 o) P wsr_anti wsr_trans x h Nx N2 HP) as [Q1 Q2]. split.
      + split; [rewrite Q1, PM; apply heap_insert_perm|]. split; [exact Q2|]. split; [|split; [apply heap_insert_sorted; assumption|]].
        * apply (Permutation_Forall (heap_insert_perm o x h')). constructor; assumption.
        * apply (Permutation_NoDup (Permutation_map wr_word (heap_insert_perm o x h'))). cbn [map]. constructor; assumption.
      + intros z Hz. apply (Permutation_in z (Permutation_sym (heap_insert_perm o x h'))) in Hz. exact Hz.
    - destruct h as [|m l].
      + assert (h' = []) as -> by (apply Permutation_nil; exact PM). reflexivity.
      + destruct (same_top _ _ m l SH eq_refl) as [TM PL]. rewrite TM. replace (clt cmp x m) with (wsr_lt o x m) by reflexivity. destruct (wsr_lt o x m).
        * destruct (assign_ok cmp (wsr0 o) P wsr_anti wsr_trans x m l Nx N2 HP) as [Q1 Q2]. unfold heap_replace_max. apply heap_max_last in TM as E2.
          assert (incl (removelast h') h') as IR by (intros z Hz; rewrite E2; apply in_app_iff; left; exact Hz).
          assert (StronglySorted lt (removelast h')) as SR by (rewrite E2 in S; apply (sorted_last o _ _ S)).
          assert (Forall P (removelast h')) as NR by (rewrite Forall_forall in *; auto).
          assert (~ In (wr_word x) (map wr_word (removelast h'))) as NIR by (intros Hi; apply NI; apply in_map_iff in Hi as (z & EZ & Hz); rewrite <- EZ; apply in_map; auto).
          split.
          -- split; [rewrite Q1, PL; apply heap_insert_perm|]. split; [exact Q2|]. split; [|split; [apply heap_insert_sorted; assumption|]].
             ++ apply (Permutation_Forall (heap_insert_perm o x (removelast h'))). constructor; assumption.
             ++ apply (Permutation_NoDup (Permutation_map wr_word (heap_insert_perm o x (removelast h')))). cbn [map]. constructor; [assumption|].
                rewrite E2, map_app in ND. apply NoDup_app_l in ND. exact ND.
          -- intros z Hz. apply (Permutation_in z (Permutation_sym (heap_insert_perm o x (removelast h')))) in Hz as [<-|Hz]; [left; reflexivity|right; apply IR, Hz].
        * split; [exact SH|]. intros z Hz. right. exact Hz.
  Qed.

  Lemma std_fold_same limit xs : forall h h', same_heap h h' -> NoDup (map wr_word xs) -> (forall x y, In x xs -> In y h' -> wr_word x <> wr_word y) ->
    match rfold (std_add limit) xs h, rfold (sim_add o limit) xs h' with
    | Ok g, Ok g' => same_heap g g'
    | Panic p, Panic p' => p = p'
    | _, _ => False
    end.
  Proof.
    induction xs as [|x xs IH]; intros h h' SH ND DJ; cbn [rfold]; [exact SH|]. cbn [map] in ND. inversion ND; subst.
    assert (~ In (wr_word x) (map wr_word h')) as NI by (intros Hi; apply in_map_iff in Hi as (y & EY & Hy); apply (DJ x y); [left; reflexivity|exact Hy|congruence]).
    pose proof (std_add_same limit h h' x SH NI) as ST. destruct (std_add limit h x) as [g|e|p], (sim_add o limit h' x) as [g'|e'|p']; cbn [rbind]; try contradiction; [|exact ST].
    destruct ST as [SG IG]. apply IH; [exact SG|assumption|]. intros a b Ha Hb EQ. apply IG in Hb as [<-|Hb]; [|apply (DJ a b); auto; right; exact Ha].
    match goal with H : ~ In (wr_word x) (map wr_word xs) |- _ => apply H end. rewrite <- EQ. apply in_map. exact Ha.
  Qed.

  (** Sorting gives the sorted list. *)
  Lemma same_sorted h h' : same_heap h h' -> into_sorted_vec cmp (wsr0 o) h = h'.
  Proof.
    intros (PM & HP & N & S & ND). assert (Forall P h) as N2 by (apply (Permutation_Forall (Permutation_sym PM)); exact N).
    destruct (into_sorted_ok cmp (wsr0 o) P wsr_anti wsr_trans h N2 HP) as [Q1 Q2]. set (r := into_sorted_vec cmp (wsr0 o) h) in *.
    assert (Permutation r h') as PR by (rewrite Q1; exact PM). assert (NoDup (map wr_word r)) as NR by (apply (Permutation_NoDup (Permutation_map _ (Permutation_sym PR))); exact ND).
    assert (Forall P r) as NPr by (apply (Permutation_Forall (Permutation_sym PR)); exact N).
    apply (sorted_unique o OR); [exact NPr| |exact S|intros z; split; apply Permutation_in; [exact PR|symmetry; exact PR]].
    clear - Q2 NR NPr OR. induction Q2 as [|a l SS IH FA]; [constructor|]. cbn [map] in NR. inversion NR; inversion NPr; subst. constructor; [apply IH; assumption|].
    rewrite Forall_forall in *. intros b Hb. specialize (FA b Hb). assert (P b) as Nb by auto. apply wsr_Lt; auto. unfold le in FA. destruct (cmp a b) eqn:E; [|reflexivity|congruence].
    exfalso. destruct (wsr_Eq a b) as [W _]; auto. match goal with H : ~ In (wr_word a) _ |- _ => apply H end. rewrite W. apply in_map. exact Hb.
  Qed.
End Order.

Lemma wsr_total_order {F} (o : fops F) : ordered o -> total_order (wsr_cmp o) (fun x => number o (wr_sim x)).
Proof. intros OR. split; [apply (wsr_anti o OR)|apply (wsr_trans o OR)]. Qed.

Section Steps.
  Context {F : Type} (o : fops F).
  Local Open Scope N_scope.

  Lemma std_batches words skip limit b cols q : b <> 0 -> lenN q = cols -> forall n rows k h,
    (length rows <= n)%nat ->
    rfold (std_batch o words skip limit b cols q) (enumerate_from k (chunks_of_fuel n (N.to_nat b) rows)) h
    = rfold (std_step o words skip limit) (enumerate_from (k * b) (map (row_sim o q) rows)) h.
  Proof.
    intros Hb Hq. induction n as [|n IH]; intros rows k h L.
    - destruct rows; [|cbn in L; lia]. reflexivity.
    - destruct rows as [|r rows]; [reflexivity|]. cbn [chunks_of_fuel]. cbn [enumerate_from rfold]. set (rs := r :: rows) in *. unfold std_batch at 1. unfold mat_vec. rewrite Hq, N.eqb_refl. cbn [rbind].
      fold (row_sim o q). unfold enumerate. rewrite enumerate_from_shift. replace (k * b + 0) with (k * b) by lia.
      replace (map (row_sim o q) rs) with (map (row_sim o q) (firstn (N.to_nat b) rs) ++ map (row_sim o q) (skipn (N.to_nat b) rs))
        by (rewrite <- map_app, firstn_skipn; reflexivity).
      rewrite enumerate_from_app, rfold_app.
      match goal with |- rbind ?X _ = rbind ?Y _ => change X with Y; destruct Y as [h'| |]; cbn [rbind]; try reflexivity end.
      rewrite IH.
      + destruct (le_lt_dec (length rs) (N.to_nat b)) as [Le|Gt].
        * rewrite skipn_all2 by exact Le. reflexivity.
        * f_equal. f_equal. rewrite lenN_map. unfold lenN. rewrite firstn_length_le by lia. lia.
      + rewrite skipn_length. assert (N.to_nat b <> 0)%nat by lia. unfold rs in *. cbn [length] in *. lia.
  Qed.

  Lemma std_batches_wrong words skip limit b cols q rows h : b <> 0 -> lenN q <> cols -> rows <> [] ->
    rfold (std_batch o words skip limit b cols q) (enumerate (chunks_of (N.to_nat b) rows)) h = Panic PAssert.
  Proof.
    intros Hb Hq Hr. destruct rows as [|r rows]; [congruence|]. unfold chunks_of, enumerate. cbn [length chunks_of_fuel enumerate_from rfold].
    unfold std_batch at 1, mat_vec. destruct (N.eqb_spec cols (lenN q)); [congruence|]. reflexivity.
  Qed.

  Lemma std_steps skip limit q : forall rows ws pre h, length ws = length rows ->
    rfold (std_step o (pre ++ ws) skip limit) (enumerate_from (lenN pre) (map (row_sim o q) rows)) h
    = rfold (std_add o limit) (cand_list o ws rows skip q) h.
  Proof.
    induction rows as [|r rows IH]; intros [|w ws] pre h L; try discriminate; [reflexivity|].
    cbn [map enumerate_from rfold]. unfold std_step at 1. unfold index. rewrite nthN_app2 by lia. rewrite N.sub_diag.
    change (nthN (w :: ws) 0) with (Some w). cbn [rbind].
    specialize (IH ws (pre ++ [w])). rewrite <- app_assoc in IH. cbn [app] in IH. rewrite lenN_app in IH.
    change (lenN [w]) with 1 in IH.
    unfold cand_list. cbn [zip_with filter wr_word]. destruct (str_mem w skip); cbn [negb].
    - apply IH. cbn in L. lia.
    - cbn [rfold]. unfold std_add at 1. cbn [wr_sim]. fold (row_sim o q r).
      match goal with |- rbind ?X _ = rbind ?X _ => destruct X as [h'| |]; cbn [rbind]; try reflexivity end.
      apply IH. cbn in L. lia.
  Qed.
End Steps.

Section Similar.
  Context {Md S F : Type} (o : fops F) (OR : ordered o) (SO : storage_ops F S) (view : S -> res (array2 F)) (pf : profile).
  Variables (e : embeddings Md vocab_wrap S F) (a : array2 F).
  Hypothesis made : emb_made SO pf e (a2_cols a) (a2_rows a).
  Hypothesis viewed : view (em_storage e) = Ok a.
  Local Open Scope N_scope.
  Notation words := (v_words wrap_ops (em_vocab e)).

  Lemma std_similarity_eq q skip limit batch :
    std_similarity o wrap_ops view e q skip limit batch =
    (if isize_max <? limit * 24 then Panic PCapacity
     else if (match batch with Some b => b | None => lenN words end) =? 0 then Panic PAssert
     else if lenN words =? 0 then Ok []
     else if lenN q =? a2_cols a then (let* h := rfold (std_add o limit) (cand_list o words (a2_rows a) skip q) [] in Ok (into_sorted_vec (wsr_cmp o) (wsr0 o) h))
     else Panic PAssert).
  Proof.
    destruct (words_bijection pf (em_vocab e) [] 0 (proj1 made)) as (_ & WL & ND).
    pose proof (words_fit SO pf e _ _ made) as WF. unfold std_similarity. rewrite WL in *.
    destruct (N.ltb_spec isize_max (limit * 24)) as [L|L].
    { destruct (N.leb_spec (limit * 24) isize_max); [lia|]. reflexivity. }
    destruct (N.leb_spec (limit * 24) isize_max); [|lia]. cbn [rassert rbind]. rewrite viewed. cbn [rbind].
    unfold a2_nrows. destruct (N.leb_spec (lenN words) (lenN (a2_rows a))); [|lia]. cbn [rassert rbind].
    unfold axis_chunks. set (b := match batch with Some b => b | None => lenN words end).
    destruct (N.eqb_spec b 0) as [Hb|Hb]; [reflexivity|]. cbn [rbind].
    set (rows := takeN (lenN words) (a2_rows a)).
    assert (length words = length rows) as LW.
    { unfold rows, takeN. rewrite firstn_length. unfold lenN in *. lia. }
    destruct (N.eqb_spec (lenN words) 0) as [W0|W0].
    - unfold rows. rewrite W0. reflexivity.
    - destruct (N.eqb_spec (lenN q) (a2_cols a)) as [Hq|Hq].
      + unfold chunks_of, enumerate. rewrite std_batches by auto. change (0 * b) with (lenN (@nil str)).
        change words with ([] ++ words) at 1. rewrite std_steps by exact LW. f_equal. f_equal. unfold cand_list. f_equal.
        unfold rows, takeN. unfold lenN. rewrite Nat2N.id. clear. generalize (a2_rows a). induction words as [|w l IH]; intros [|r rs]; cbn; try reflexivity.
        f_equal. apply IH.
      + rewrite std_batches_wrong; auto. intros E. apply W0. unfold lenN. rewrite LW, E. reflexivity.
  Qed.

  (** Queries with the heap of the standard library and with its contract. *)
  Lemma std_similarity_same q skip limit batch :
    std_similarity o wrap_ops view e q skip limit batch = similarity_ o wrap_ops view e q skip limit batch.
  Proof.
    rewrite std_similarity_eq, (similarity_eq o SO view pf e a made viewed).
    destruct (isize_max <? limit * 24); [reflexivity|]. destruct (_ =? 0); [reflexivity|]. destruct (lenN words =? 0); [reflexivity|]. destruct (lenN q =? a2_cols a); [|reflexivity].
    assert (same_heap o [] []) as SH by (split; [constructor|]; split; [intros i j Hi; cbn in *; lia|]; split; [constructor|]; split; constructor).
    assert (NoDup (map wr_word (cand_list o words (a2_rows a) skip q))) as ND by (apply cand_list_words, (words_bijection pf (em_vocab e) [] 0 (proj1 made))).
    pose proof (std_fold_same o OR limit _ [] [] SH ND (fun x y _ H => match H with end)) as K.
    destruct (rfold (std_add o limit) _ []) as [g|g|p], (rfold (sim_add o limit) _ []) as [g'|g'|p']; cbn [rbind]; try contradiction; [|congruence].
    rewrite (same_sorted o OR g g' K). reflexivity.
  Qed.
End Similar.
