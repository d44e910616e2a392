(** * Lemmas about the base definitions. *)
From Coq Require Export Lia ZifyBool ZifyN ZifyNat.
From Coq Require Import Strings.Byte Permutation.
From Verif Require Export Base.

Ltac Zify.zify_post_hook ::= Z.div_mod_to_equations.
#[global] Arguments N.add : simpl never.
#[global] Arguments N.sub : simpl never.
#[global] Arguments N.mul : simpl never.
#[global] Arguments N.div : simpl never.
#[global] Arguments N.modulo : simpl never.
#[global] Arguments N.pow : simpl never.
#[global] Arguments N.eqb : simpl never.
#[global] Arguments N.ltb : simpl never.
#[global] Arguments N.leb : simpl never.
#[global] Arguments N.of_nat : simpl never.
#[global] Arguments N.to_nat : simpl never.
Ltac inv H := inversion H; subst; clear H.

(** ** Bytes *)

Lemma bN_lt b : (bN b < 256)%N.
Proof. unfold bN. pose proof (Byte.to_N_bounded b). lia. Qed.

Lemma Nb_bN b : Nb (bN b) = b.
Proof.
  unfold Nb. pose proof (bN_lt b). rewrite N.mod_small by lia.
  unfold bN. rewrite Byte.of_to_N. reflexivity.
Qed.

Lemma bN_Nb n : bN (Nb n) = (n mod 256)%N.
Proof.
  unfold Nb. destruct (Byte.of_N (n mod 256)) eqn:E.
  - unfold bN. apply Byte.to_of_N in E. exact E.
  - exfalso. apply Byte.of_N_None_iff in E.
    pose proof (N.mod_lt n 256). lia.
Qed.

Lemma bN_Nb_small n : (n < 256)%N -> bN (Nb n) = n.
Proof. intros. rewrite bN_Nb. apply N.mod_small. lia. Qed.

Lemma bN_inj a b : bN a = bN b -> a = b.
Proof. intros H. rewrite <- (Nb_bN a), <- (Nb_bN b), H. reflexivity. Qed.

Lemma byte_eqb_eq a b : byte_eqb a b = true <-> a = b.
Proof. unfold byte_eqb. split; [apply Byte.byte_dec_bl | apply Byte.byte_dec_lb]. Qed.

Lemma byte_eqb_refl a : byte_eqb a a = true.
Proof. apply byte_eqb_eq; reflexivity. Qed.

(** ** Little-endian integers *)

Lemma le_bytes_length k n : length (le_bytes k n) = k.
Proof. revert n; induction k; simpl; intros; auto. Qed.

Lemma le_bytes_lenN k n : lenN (le_bytes k n) = N.of_nat k.
Proof. unfold lenN. rewrite le_bytes_length. reflexivity. Qed.

Lemma le_value_bytes k n : (n < 256 ^ N.of_nat k)%N -> le_value (le_bytes k n) = n.
Proof.
  revert n; induction k; intros n H.
  - change (256 ^ N.of_nat 0)%N with 1%N in H. simpl. lia.
  - cbn [le_bytes le_value]. rewrite bN_Nb, IHk.
    + pose proof (N.div_mod n 256). lia.
    + apply N.div_lt_upper_bound; [lia|].
      rewrite Nat2N.inj_succ, N.pow_succ_r in H by lia. exact H.
Qed.

Lemma le_value_bytes_mod k n : le_value (le_bytes k n) = (n mod 256 ^ N.of_nat k)%N.
Proof.
  revert n; induction k; intros n.
  - change (256 ^ N.of_nat 0)%N with 1%N. simpl. rewrite N.mod_1_r. reflexivity.
  - cbn [le_bytes le_value]. rewrite bN_Nb, IHk.
    rewrite Nat2N.inj_succ, N.pow_succ_r by lia.
    rewrite N.mod_mul_r; [reflexivity | lia |].
    apply N.pow_nonzero. lia.
Qed.

Lemma le_value_lt l : (le_value l < 256 ^ lenN l)%N.
Proof.
  induction l as [|b l IH].
  - unfold lenN; simpl. lia.
  - cbn [le_value]. unfold lenN in *. cbn [length].
    rewrite Nat2N.inj_succ, N.pow_succ_r by lia.
    pose proof (bN_lt b). lia.
Qed.

Lemma le_bytes_value l : le_bytes (length l) (le_value l) = l.
Proof.
  induction l as [|b l IH]; cbn [le_value le_bytes length]; [reflexivity|].
  pose proof (bN_lt b). f_equal.
  - apply bN_inj. rewrite bN_Nb. lia.
  - replace ((bN b + 256 * le_value l) / 256)%N with (le_value l) by lia.
    exact IH.
Qed.

Lemma pow256_4 : (256 ^ N.of_nat 4 = two32)%N.
Proof. reflexivity. Qed.
Lemma pow256_8 : (256 ^ N.of_nat 8 = two64)%N.
Proof. reflexivity. Qed.

Lemma le_u32 n : (n < two32)%N -> le_value (le_bytes 4 n) = n.
Proof. intros; apply le_value_bytes. rewrite pow256_4. assumption. Qed.
Lemma le_u64 n : (n < two64)%N -> le_value (le_bytes 8 n) = n.
Proof. intros; apply le_value_bytes. rewrite pow256_8. assumption. Qed.

(** ** Lists *)

Lemma lenN_app {A} (a b : list A) : lenN (a ++ b) = (lenN a + lenN b)%N.
Proof. unfold lenN. rewrite app_length. lia. Qed.
Lemma lenN_cons {A} (a : A) l : lenN (a :: l) = (1 + lenN l)%N.
Proof. unfold lenN. cbn [length]. lia. Qed.
Lemma lenN_nil {A} : lenN (@nil A) = 0%N.
Proof. reflexivity. Qed.
Lemma lenN_map {A B} (f : A -> B) l : lenN (map f l) = lenN l.
Proof. unfold lenN. rewrite map_length. reflexivity. Qed.
Lemma lenN_repeat {A} (a : A) n : lenN (repeat a n) = N.of_nat n.
Proof. unfold lenN. rewrite repeat_length. reflexivity. Qed.
Lemma lenN_rev {A} (l : list A) : lenN (rev l) = lenN l.
Proof. unfold lenN. rewrite rev_length. reflexivity. Qed.
Lemma lenN_0 {A} (l : list A) : lenN l = 0%N -> l = [].
Proof. destruct l; [reflexivity|]. unfold lenN; cbn [length]; lia. Qed.

Lemma dropN_app {A} (p q : list A) : dropN (lenN p) (p ++ q) = q.
Proof.
  unfold dropN, lenN. rewrite Nat2N.id.
  rewrite skipn_app, skipn_all, Nat.sub_diag. reflexivity.
Qed.
Lemma takeN_app {A} (p q : list A) : takeN (lenN p) (p ++ q) = p.
Proof.
  unfold takeN, lenN. rewrite Nat2N.id.
  rewrite firstn_app, firstn_all, Nat.sub_diag. cbn [firstn]. apply app_nil_r.
Qed.
Lemma takeN_all {A} (p : list A) : takeN (lenN p) p = p.
Proof. unfold takeN, lenN. rewrite Nat2N.id. apply firstn_all. Qed.
Lemma dropN_all {A} n (p : list A) : (lenN p <= n)%N -> dropN n p = [].
Proof. unfold dropN, lenN. intros. apply skipn_all2. lia. Qed.
Lemma lenN_takeN {A} n (l : list A) : lenN (takeN n l) = N.min n (lenN l).
Proof. unfold takeN, lenN. rewrite firstn_length. lia. Qed.
Lemma lenN_dropN {A} n (l : list A) : lenN (dropN n l) = (lenN l - n)%N.
Proof. unfold dropN, lenN. rewrite skipn_length. lia. Qed.
Lemma takeN_dropN {A} n (l : list A) : takeN n l ++ dropN n l = l.
Proof. apply firstn_skipn. Qed.
Lemma dropN_0 {A} (l : list A) : dropN 0 l = l.
Proof. reflexivity. Qed.
Lemma skipn_skipn' {A} a b (l : list A) : skipn a (skipn b l) = skipn (a + b) l.
Proof.
  revert l; induction b; intros l.
  - rewrite Nat.add_0_r. reflexivity.
  - rewrite Nat.add_succ_r. destruct l; cbn [skipn]; [now rewrite skipn_nil | apply IHb].
Qed.
Lemma dropN_dropN {A} a b (l : list A) : dropN a (dropN b l) = dropN (b + a) l.
Proof. unfold dropN. rewrite skipn_skipn'. f_equal. lia. Qed.

Lemma nthN_spec {A} (l : list A) n : nthN l n = nth_error l (N.to_nat n).
Proof.
  unfold nthN. destruct (N.ltb_spec n (lenN l)); [reflexivity|].
  symmetry. apply nth_error_None. unfold lenN in *. lia.
Qed.
Lemma nthN_Some_lt {A} (l : list A) n a : nthN l n = Some a -> (n < lenN l)%N.
Proof.
  unfold nthN. destruct (N.ltb_spec n (lenN l)); [auto|discriminate].
Qed.
Lemma nthN_lt {A} (l : list A) n : (n < lenN l)%N -> exists a, nthN l n = Some a.
Proof.
  intros H. rewrite nthN_spec. destruct (nth_error l (N.to_nat n)) eqn:E; [eauto|].
  apply nth_error_None in E. unfold lenN in H. lia.
Qed.
Lemma nthN_None {A} (l : list A) n : nthN l n = None <-> (lenN l <= n)%N.
Proof. rewrite nthN_spec, nth_error_None. unfold lenN. lia. Qed.
Lemma nthN_In {A} (l : list A) n a : nthN l n = Some a -> In a l.
Proof. rewrite nthN_spec. apply nth_error_In. Qed.
Lemma In_nthN {A} (l : list A) a : In a l -> exists n, nthN l n = Some a.
Proof.
  intros H. apply In_nth_error in H as [n H]. exists (N.of_nat n).
  rewrite nthN_spec, Nat2N.id. exact H.
Qed.
Lemma nthN_map {A B} (f : A -> B) l n : nthN (map f l) n = option_map f (nthN l n).
Proof. rewrite !nthN_spec. apply nth_error_map. Qed.
Lemma nthN_app1 {A} (l1 l2 : list A) n : (n < lenN l1)%N -> nthN (l1 ++ l2) n = nthN l1 n.
Proof. intros. rewrite !nthN_spec. apply nth_error_app1. unfold lenN in *. lia. Qed.
Lemma nthN_app2 {A} (l1 l2 : list A) n :
  (lenN l1 <= n)%N -> nthN (l1 ++ l2) n = nthN l2 (n - lenN l1).
Proof.
  intros. rewrite !nthN_spec. rewrite nth_error_app2 by (unfold lenN in *; lia).
  f_equal. unfold lenN. lia.
Qed.
Lemma nth_error_ext' {A} (l1 l2 : list A) :
  (forall n, nth_error l1 n = nth_error l2 n) -> l1 = l2.
Proof.
  revert l2; induction l1; intros [|b l2] H; auto.
  - specialize (H 0%nat). discriminate.
  - specialize (H 0%nat). discriminate.
  - f_equal.
    + specialize (H 0%nat). simpl in H. congruence.
    + apply IHl1. intros n. apply (H (S n)).
Qed.
Lemma nthN_ext {A} (l1 l2 : list A) : (forall n, nthN l1 n = nthN l2 n) -> l1 = l2.
Proof.
  intros H. apply nth_error_ext'. intros n. specialize (H (N.of_nat n)).
  rewrite !nthN_spec, Nat2N.id in H. exact H.
Qed.

Lemma rangeN_length n : length (rangeN n) = N.to_nat n.
Proof. unfold rangeN. rewrite map_length, seq_length. reflexivity. Qed.
Lemma rangeN_lenN n : lenN (rangeN n) = n.
Proof. unfold lenN. rewrite rangeN_length. lia. Qed.
Lemma rangeN_In n i : In i (rangeN n) <-> (i < n)%N.
Proof.
  unfold rangeN. rewrite in_map_iff. split.
  - intros (x & <- & H). apply in_seq in H. lia.
  - intros H. exists (N.to_nat i). rewrite N2Nat.id. split; [reflexivity|].
    apply in_seq. lia.
Qed.
Lemma nth_error_seq s n i : (i < n)%nat -> nth_error (seq s n) i = Some (s + i)%nat.
Proof.
  revert s i; induction n; intros s i H; [lia|].
  destruct i; cbn [seq nth_error]; [f_equal; lia|].
  rewrite IHn by lia. f_equal. lia.
Qed.
Lemma rangeN_nth n i : (i < n)%N -> nthN (rangeN n) i = Some i.
Proof.
  intros H. unfold rangeN. rewrite nthN_map, nthN_spec, nth_error_seq by lia.
  cbn [option_map]. f_equal. lia.
Qed.
Lemma rangeN_succ n : rangeN (N.succ n) = rangeN n ++ [n].
Proof.
  unfold rangeN. rewrite N2Nat.inj_succ, seq_S, map_app. cbn [map].
  rewrite Nat.add_0_l, N2Nat.id. reflexivity.
Qed.

Lemma set_nth_length {A} n (a : A) l : length (set_nth n a l) = length l.
Proof. revert n; induction l; destruct n; simpl; auto. Qed.
Lemma set_nth_same {A} n (a : A) l :
  (n < length l)%nat -> nth_error (set_nth n a l) n = Some a.
Proof. revert n; induction l; destruct n; simpl; intros; try lia; auto. apply IHl. lia. Qed.
Lemma set_nth_other {A} n m (a : A) l :
  n <> m -> nth_error (set_nth n a l) m = nth_error l m.
Proof.
  revert n m; induction l; intros n m H; destruct n, m; simpl; auto; try congruence.
Qed.

(** ** [res] *)

Lemma rbind_Ok_inv {A B} (m : res A) (f : A -> res B) b :
  rbind m f = Ok b -> exists a, m = Ok a /\ f a = Ok b.
Proof. destruct m; simpl; intros; try discriminate. eauto. Qed.

Lemma rmap_Ok_inv {A B} (f : A -> res B) l bs :
  rmap f l = Ok bs -> Forall2 (fun a b => f a = Ok b) l bs.
Proof.
  revert bs; induction l; simpl; intros bs H.
  - inv H. constructor.
  - apply rbind_Ok_inv in H as (b & Hb & H). apply rbind_Ok_inv in H as (bs' & Hbs & H).
    inv H. constructor; auto.
Qed.
Lemma rmap_Ok {A B} (f : A -> res B) l bs :
  Forall2 (fun a b => f a = Ok b) l bs -> rmap f l = Ok bs.
Proof. induction 1; simpl; [reflexivity|]. rewrite H. simpl. rewrite IHForall2. reflexivity. Qed.
Lemma rmap_pure {A B} (f : A -> res B) (g : A -> B) l :
  (forall a, In a l -> f a = Ok (g a)) -> rmap f l = Ok (map g l).
Proof.
  induction l; simpl; intros H; [reflexivity|].
  rewrite H by auto. simpl. rewrite IHl by auto. reflexivity.
Qed.
Lemma rmap_ext {A B} (f g : A -> res B) l :
  (forall a, In a l -> f a = g a) -> rmap f l = rmap g l.
Proof.
  induction l; simpl; intros H; [reflexivity|].
  rewrite H by auto. rewrite IHl by auto. reflexivity.
Qed.
Lemma rfold_app {A B} (f : B -> A -> res B) l1 l2 b :
  rfold f (l1 ++ l2) b = rbind (rfold f l1 b) (fun b' => rfold f l2 b').
Proof.
  revert b; induction l1; simpl; intros; [reflexivity|].
  destruct (f b a); simpl; auto.
Qed.

(** ** Strings *)

Lemma str_eqb_eq a b : str_eqb a b = true <-> a = b.
Proof.
  revert b; induction a; destruct b; simpl; split; intros H; try congruence; try discriminate; auto.
  - apply andb_true_iff in H as [H1 H2]. apply byte_eqb_eq in H1. apply IHa in H2. congruence.
  - inv H. rewrite byte_eqb_refl. simpl. apply IHa. reflexivity.
Qed.
Lemma str_eqb_refl a : str_eqb a a = true.
Proof. apply str_eqb_eq; reflexivity. Qed.
Lemma str_eqb_neq a b : str_eqb a b = false <-> a <> b.
Proof.
  rewrite <- str_eqb_eq. destruct (str_eqb a b); split; congruence.
Qed.
Lemma str_eq_dec (a b : str) : {a = b} + {a <> b}.
Proof. destruct (str_eqb a b) eqn:E; [left; now apply str_eqb_eq | right; now apply str_eqb_neq]. Qed.

Lemma str_compare_eq a b : str_compare a b = Eq <-> a = b.
Proof.
  revert b; induction a; destruct b; simpl; split; intros H; try congruence; auto.
  - destruct (N.compare (bN a) (bN b)) eqn:E; try discriminate.
    apply N.compare_eq in E. apply bN_inj in E. apply IHa in H. congruence.
  - inv H. rewrite N.compare_refl. apply IHa. reflexivity.
Qed.
Lemma str_compare_antisym a b : str_compare b a = CompOpp (str_compare a b).
Proof.
  revert b; induction a; destruct b; simpl; auto.
  rewrite (N.compare_antisym (bN a) (bN b)).
  destruct (N.compare (bN a) (bN b)); simpl; auto.
Qed.
Lemma str_compare_trans a b c :
  str_compare a b = Lt -> str_compare b c = Lt -> str_compare a c = Lt.
Proof.
  revert b c; induction a; destruct b, c; simpl; intros; try congruence; auto.
  destruct (N.compare_spec (bN a) (bN b)) as [E|E|E]; try discriminate.
  - rewrite E. destruct (N.compare (bN b) (bN b1)) eqn:E2; try discriminate; auto.
    eapply IHa; eauto.
  - destruct (N.compare_spec (bN b) (bN b1)) as [E2|E2|E2]; try discriminate.
    + rewrite <- E2. apply N.compare_lt_iff in E. rewrite E. reflexivity.
    + assert (bN a < bN b1)%N as L by lia. apply N.compare_lt_iff in L. rewrite L. reflexivity.
Qed.

Lemma str_mem_In s l : str_mem s l = true <-> In s l.
Proof.
  unfold str_mem. rewrite existsb_exists. split.
  - intros (x & Hx & E). apply str_eqb_eq in E. congruence.
  - intros H. exists s. split; [auto|apply str_eqb_refl].
Qed.

(** ** Hash maps *)

Lemma hm_get_In {V} (m : hmap V) k v : hm_get m k = Some v -> In (k, v) m.
Proof.
  induction m as [|[k' v'] m IH]; simpl; [discriminate|].
  destruct (str_eqb k k') eqn:E; intros H.
  - apply str_eqb_eq in E. inv H. auto.
  - auto.
Qed.
Lemma hm_get_None {V} (m : hmap V) k : hm_get m k = None <-> ~ In k (map fst m).
Proof.
  induction m as [|[k' v'] m IH]; simpl; [tauto|].
  destruct (str_eqb k k') eqn:E.
  - apply str_eqb_eq in E. subst. split; [discriminate|tauto].
  - apply str_eqb_neq in E. rewrite IH. intuition congruence.
Qed.
Lemma hm_get_NoDup {V} (m : hmap V) k v :
  NoDup (map fst m) -> In (k, v) m -> hm_get m k = Some v.
Proof.
  induction m as [|[k' v'] m IH]; simpl; intros ND H; [tauto|].
  inv ND. destruct H as [H|H].
  - inv H. rewrite str_eqb_refl. reflexivity.
  - destruct (str_eqb k k') eqn:E; [|auto].
    apply str_eqb_eq in E. subst. exfalso. apply H2.
    apply in_map_iff. exists (k', v). auto.
Qed.
Lemma hm_remove_In {V} (m : hmap V) k k' v :
  In (k', v) (hm_remove m k) <-> In (k', v) m /\ k' <> k.
Proof.
  induction m as [|[k0 v0] m IH]; simpl; [tauto|].
  destruct (str_eqb k k0) eqn:E.
  - apply str_eqb_eq in E. subst. rewrite IH. intuition congruence.
  - apply str_eqb_neq in E. simpl. rewrite IH. intuition congruence.
Qed.
Lemma hm_remove_get_other {V} (m : hmap V) k k' :
  k <> k' -> hm_get (hm_remove m k) k' = hm_get m k'.
Proof.
  intros N. induction m as [|[k0 v0] m IH]; simpl; [reflexivity|].
  destruct (str_eqb k k0) eqn:E.
  - apply str_eqb_eq in E. subst. destruct (str_eqb k' k0) eqn:E2; [|auto].
    apply str_eqb_eq in E2. congruence.
  - simpl. destruct (str_eqb k' k0); auto.
Qed.
Lemma hm_insert_get_same {V} (m : hmap V) k v : hm_get (hm_insert m k v) k = Some v.
Proof. unfold hm_insert. simpl. rewrite str_eqb_refl. reflexivity. Qed.
Lemma hm_insert_get_other {V} (m : hmap V) k k' v :
  k <> k' -> hm_get (hm_insert m k v) k' = hm_get m k'.
Proof.
  intros N. unfold hm_insert. simpl.
  destruct (str_eqb k' k) eqn:E; [apply str_eqb_eq in E; congruence|].
  apply hm_remove_get_other; auto.
Qed.
Lemma hm_remove_keys_NoDup {V} (m : hmap V) k :
  NoDup (map fst m) -> NoDup (map fst (hm_remove m k)).
Proof.
  induction m as [|[k0 v0] m IH]; simpl; intros H; [constructor|].
  inv H. destruct (str_eqb k k0); [auto|]. simpl. constructor; [|auto].
  intros I. apply H2. apply in_map_iff in I as ([k1 v1] & E & I).
  apply hm_remove_In in I. simpl in E. subst. apply in_map_iff. exists (k0, v1). tauto.
Qed.
Lemma hm_remove_key_gone {V} (m : hmap V) k : ~ In k (map fst (hm_remove m k)).
Proof.
  intros I. apply in_map_iff in I as ([k1 v1] & E & I). apply hm_remove_In in I.
  simpl in E. tauto.
Qed.
Lemma hm_insert_keys_NoDup {V} (m : hmap V) k v :
  NoDup (map fst m) -> NoDup (map fst (hm_insert m k v)).
Proof.
  intros H. unfold hm_insert. simpl. constructor.
  - apply hm_remove_key_gone.
  - apply hm_remove_keys_NoDup; auto.
Qed.
Lemma hm_remove_absent {V} (m : hmap V) k : hm_get m k = None -> hm_remove m k = m.
Proof.
  induction m as [|[k0 v0] m IH]; simpl; [reflexivity|].
  destruct (str_eqb k k0); [discriminate|]. intros H. rewrite IH by auto. reflexivity.
Qed.
Lemma hm_remove_length_le {V} (m : hmap V) k : (length (hm_remove m k) <= length m)%nat.
Proof.
  induction m as [|[k0 v0] m IH]; simpl; [lia|]. destruct (str_eqb k k0); simpl; lia.
Qed.
Lemma hm_get_perm {V} (m m' : hmap V) k :
  NoDup (map fst m) -> Permutation m m' -> hm_get m k = hm_get m' k.
Proof.
  intros ND P. assert (NoDup (map fst m')) as ND'.
  { eapply Permutation_NoDup; [apply Permutation_map; exact P|exact ND]. }
  destruct (hm_get m k) eqn:E.
  - symmetry. apply hm_get_NoDup; [auto|]. eapply Permutation_in; [exact P|].
    apply hm_get_In; auto.
  - symmetry. apply hm_get_None. apply hm_get_None in E. intros I. apply E.
    eapply Permutation_in; [apply Permutation_map, Permutation_sym; exact P|exact I].
Qed.

Lemma nm_get_In {V} (m : nmap V) k v : nm_get m k = Some v -> In (k, v) m.
Proof.
  induction m as [|[k' v'] m IH]; simpl; [discriminate|].
  destruct (N.eqb_spec k k'); intros H; [inv H; auto|auto].
Qed.
Lemma nm_get_None {V} (m : nmap V) k : nm_get m k = None <-> ~ In k (map fst m).
Proof.
  induction m as [|[k' v'] m IH]; simpl; [tauto|].
  destruct (N.eqb_spec k k'); [subst; split; [discriminate|tauto]|].
  rewrite IH. intuition congruence.
Qed.
Lemma nm_get_NoDup {V} (m : nmap V) k v :
  NoDup (map fst m) -> In (k, v) m -> nm_get m k = Some v.
Proof.
  induction m as [|[k' v'] m IH]; simpl; intros ND H; [tauto|].
  inv ND. destruct H as [H|H].
  - inv H. rewrite N.eqb_refl. reflexivity.
  - destruct (N.eqb_spec k k'); [|auto].
    subst. exfalso. apply H2. apply in_map_iff. exists (k', v). auto.
Qed.
