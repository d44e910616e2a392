(** * Compositional reasoning about readers and writers. *)
From Verif Require Import BaseFacts Stream.
Local Open Scope N_scope.

Definition bytesf := N -> list byte.   (* bytes as a function of the position *)
Definition fseq (f g : bytesf) : bytesf := fun pos => f pos ++ g (pos + lenN (f pos)).
Definition fconst (bs : list byte) : bytesf := fun _ => bs.

(** [w] writes exactly [f pos]; on a limited device it writes the prefix
    that fits and fails iff not everything fits. *)
Definition sink_ok (k : sink) : Prop :=
  match k_cap k with None => True | Some c => lenN (k_out k) <= c end.

Definition emits (w : writer unit) (f : bytesf) : Prop :=
  forall k, sink_ok k -> w k = write_bytes (f (k_pos k)) k.

(** [m] started before [f pos] returns [a] and stops right after it. *)
Definition reads {A} (m : reader A) (f : bytesf) (a : A) : Prop :=
  forall pos tail b,
    m (mkBroken (f pos ++ tail) pos b) = (Ok a, mkBroken tail (pos + lenN (f pos)) b).

(** [m] fails with an error on every strict prefix of [f pos]. *)
Definition short {A} (m : reader A) (f : bytesf) : Prop :=
  forall pos p q b, f pos = p ++ q -> q <> [] ->
    exists e s', m (mkBroken p pos b) = (Err e, s').

(** ** Monad laws *)
Lemma bind_ret_l {S A B} (a : A) (k : A -> M S B) s : bind (ret a) k s = k a s.
Proof. reflexivity. Qed.
Lemma bind_assoc {S A B C} (m : M S A) (k : A -> M S B) (h : B -> M S C) s :
  bind (bind m k) h s = bind m (fun a => bind (k a) h) s.
Proof. unfold bind. destruct (m s) as [[] ?]; reflexivity. Qed.
Lemma bind_ext {S A B} (m m' : M S A) (k k' : A -> M S B) s :
  m s = m' s -> (forall a s', m s = (Ok a, s') -> k a s' = k' a s') ->
  bind m k s = bind m' k' s.
Proof.
  intros H Hk. unfold bind. rewrite <- H. destruct (m s) as [[] ?]; auto.
Qed.
Lemma bind_Ok_inv {S A B} (m : M S A) (k : A -> M S B) s b s2 :
  bind m k s = (Ok b, s2) -> exists a s1, m s = (Ok a, s1) /\ k a s1 = (Ok b, s2).
Proof. unfold bind. destruct (m s) as [[] ?]; intros; try discriminate. eauto. Qed.

(** ** [repeat_m] *)
Fixpoint repeat_nat {S A} (n : nat) (m : M S A) : M S (list A) :=
  match n with
  | O => ret []
  | Datatypes.S n' => a <- m ;; l <- repeat_nat n' m ;; ret (a :: l)
  end.

Lemma repeat_nat_add {S A} n1 n2 (m : M S A) s :
  repeat_nat (n1 + n2) m s
  = (l1 <- repeat_nat n1 m ;; l2 <- repeat_nat n2 m ;; ret (l1 ++ l2)) s.
Proof.
  revert s; induction n1; intros s; cbn [repeat_nat Nat.add].
  - unfold bind, ret. destruct (repeat_nat n2 m s) as [[] ?]; reflexivity.
  - unfold bind, ret in *. destruct (m s) as [[a| |] s1] eqn:E; try reflexivity.
    rewrite IHn1. destruct (repeat_nat n1 m s1) as [[] ?]; try reflexivity.
    destruct (repeat_nat n2 m s0) as [[] ?]; reflexivity.
Qed.

Lemma repeat_pos_nat {S A} p (m : M S A) s :
  repeat_pos p m s = repeat_nat (Pos.to_nat p) m s.
Proof.
  revert s; induction p; intros s; cbn [repeat_pos].
  - rewrite Pos2Nat.inj_xI. replace (2 * Pos.to_nat p)%nat with (Pos.to_nat p + Pos.to_nat p)%nat by lia.
    cbn [repeat_nat]. unfold bind at 1. unfold bind at 3. destruct (m s) as [[] ?]; try reflexivity.
    unfold bind at 3. rewrite repeat_nat_add. unfold bind, ret. rewrite IHp.
    destruct (repeat_nat (Pos.to_nat p) m s0) as [[] ?]; try reflexivity.
    rewrite IHp. destruct (repeat_nat (Pos.to_nat p) m s1) as [[] ?]; reflexivity.
  - rewrite Pos2Nat.inj_xO. replace (2 * Pos.to_nat p)%nat with (Pos.to_nat p + Pos.to_nat p)%nat by lia.
    rewrite repeat_nat_add. unfold bind, ret. rewrite IHp.
    destruct (repeat_nat (Pos.to_nat p) m s) as [[] ?]; try reflexivity.
    rewrite IHp. reflexivity.
  - reflexivity.
Qed.
Lemma repeat_m_nat {S A} n (m : M S A) s : repeat_m n m s = repeat_nat (N.to_nat n) m s.
Proof. destruct n; [reflexivity|]. apply repeat_pos_nat. Qed.

(** ** Writers *)
Lemma takeN_app_le {A} n (a b : list A) : n <= lenN a -> takeN n (a ++ b) = takeN n a.
Proof.
  unfold takeN, lenN. intros. rewrite firstn_app.
  replace (N.to_nat n - length a)%nat with 0%nat by lia. cbn [firstn]. apply app_nil_r.
Qed.
Lemma takeN_app_ge {A} n (a b : list A) : lenN a <= n -> takeN n (a ++ b) = a ++ takeN (n - lenN a) b.
Proof.
  unfold takeN, lenN. intros. rewrite firstn_app, firstn_all2 by lia.
  f_equal. f_equal. lia.
Qed.
Lemma dropN_app_ge {A} n (a b : list A) : lenN a <= n -> dropN n (a ++ b) = dropN (n - lenN a) b.
Proof.
  unfold dropN, lenN. intros. rewrite skipn_app, skipn_all2 by lia. cbn [app].
  f_equal. lia.
Qed.
Lemma dropN_app_le {A} n (a b : list A) : n <= lenN a -> dropN n (a ++ b) = dropN n a ++ b.
Proof.
  unfold dropN, lenN. intros. rewrite skipn_app.
  replace (N.to_nat n - length a)%nat with 0%nat by lia. reflexivity.
Qed.

Lemma push_push a b k : push b (push a k) = push (a ++ b) k.
Proof. unfold push; cbn. rewrite app_assoc. reflexivity. Qed.
Lemma push_nil k : push [] k = k.
Proof. destruct k; unfold push; cbn. rewrite app_nil_r. reflexivity. Qed.
Lemma k_pos_push a k : k_pos (push a k) = k_pos k + lenN a.
Proof. unfold k_pos, push; cbn. rewrite lenN_app. lia. Qed.

Lemma write_bytes_seq a b k :
  (write_bytes a ;;; write_bytes b) k = write_bytes (a ++ b) k.
Proof.
  unfold bind, write_bytes. destruct (k_cap k) as [c|] eqn:C.
  - rewrite lenN_app. destruct (N.leb_spec (lenN (k_out k) + lenN a) c).
    + change (k_cap (push a k)) with (k_cap k). rewrite C.
      change (k_out (push a k)) with (k_out k ++ a). rewrite lenN_app.
      destruct (N.leb_spec (lenN (k_out k) + lenN a + lenN b) c).
      * destruct (N.leb_spec (lenN (k_out k) + (lenN a + lenN b)) c); [|lia].
        rewrite push_push. reflexivity.
      * destruct (N.leb_spec (lenN (k_out k) + (lenN a + lenN b)) c); [lia|].
        rewrite push_push. do 2 f_equal.
        rewrite takeN_app_ge by lia. do 2 f_equal. lia.
    + destruct (N.leb_spec (lenN (k_out k) + (lenN a + lenN b)) c); [lia|].
      rewrite takeN_app_le by lia. reflexivity.
  - change (k_cap (push a k)) with (k_cap k). rewrite C, push_push. reflexivity.
Qed.

Lemma write_bytes_Ok k a k' : write_bytes a k = (Ok tt, k') -> k' = push a k.
Proof.
  unfold write_bytes. destruct (k_cap k); [destruct (_ <=? _)|]; intros H; inv H; reflexivity.
Qed.

Lemma emits_bytes bs : emits (write_bytes bs) (fconst bs).
Proof. intros k _. reflexivity. Qed.
Lemma emits_u8 n : emits (write_u8 n) (fconst (le_bytes 1 n)).
Proof. apply emits_bytes. Qed.
Lemma emits_u32 n : emits (write_u32 n) (fconst (le_bytes 4 n)).
Proof. apply emits_bytes. Qed.
Lemma emits_u64 n : emits (write_u64 n) (fconst (le_bytes 8 n)).
Proof. apply emits_bytes. Qed.

Lemma write_bytes_nil k : sink_ok k -> write_bytes [] k = (Ok tt, k).
Proof.
  unfold sink_ok, write_bytes. destruct (k_cap k) eqn:C; intros H.
  - rewrite lenN_nil, N.add_0_r. destruct (N.leb_spec (lenN (k_out k)) n); [|lia].
    rewrite push_nil. reflexivity.
  - rewrite push_nil. reflexivity.
Qed.

Lemma sink_ok_write k a : sink_ok k -> sink_ok (snd (write_bytes a k)).
Proof.
  unfold sink_ok, write_bytes. destruct (k_cap k) as [c|] eqn:C.
  - intros H. destruct (N.leb_spec (lenN (k_out k) + lenN a) c); cbn [snd push k_cap k_out];
      rewrite C, lenN_app; [lia|]. rewrite lenN_takeN. lia.
  - intros _. cbn [snd push k_cap]. rewrite C. exact I.
Qed.

Lemma emits_ret : emits (ret tt) (fconst []).
Proof. intros k H. unfold fconst. rewrite write_bytes_nil by auto. reflexivity. Qed.

Lemma emits_seq w1 w2 f g :
  emits w1 f -> emits w2 g -> emits (w1 ;;; w2) (fseq f g).
Proof.
  intros H1 H2 k Hk. unfold fseq. rewrite <- write_bytes_seq. unfold bind.
  rewrite H1 by auto. pose proof (sink_ok_write k (f (k_pos k)) Hk) as Hk'.
  destruct (write_bytes (f (k_pos k)) k) as [[[]| |] k'] eqn:E; try reflexivity.
  cbn [snd] in Hk'. rewrite H2 by auto. apply write_bytes_Ok in E. subst k'.
  rewrite k_pos_push. reflexivity.
Qed.

Lemma emits_bind_unit w1 (w2 : unit -> writer unit) f g :
  emits w1 f -> emits (w2 tt) g -> emits (bind w1 w2) (fseq f g).
Proof.
  intros H1 H2 k Hk. rewrite <- (emits_seq w1 (w2 tt) f g H1 H2 k Hk).
  unfold bind. destruct (w1 k) as [[[]| |] ?]; reflexivity.
Qed.

Lemma emits_pos (w : N -> writer unit) f :
  (forall pos k, sink_ok k -> k_pos k = pos -> w pos k = write_bytes (f pos) k) ->
  emits (x <- wposition ;; w x) f.
Proof. intros H k Hk. unfold bind, wposition. apply H; auto. Qed.

Lemma emits_ext w f g : (forall pos, f pos = g pos) -> emits w f -> emits w g.
Proof. intros E H k Hk. rewrite <- E. apply H; auto. Qed.

Lemma emits_lift_ok {A} (r : res A) a (w : A -> writer unit) f :
  r = Ok a -> emits (w a) f -> emits (x <- lift r ;; w x) f.
Proof. intros -> H k Hk. unfold bind, lift. apply H; auto. Qed.

Fixpoint fconcat (fs : list bytesf) : bytesf :=
  match fs with [] => fconst [] | f :: fs' => fseq f (fconcat fs') end.

Lemma emits_for_each {A} (l : list A) (w : A -> writer unit) (f : A -> bytesf) :
  (forall a, In a l -> emits (w a) (f a)) ->
  emits (for_each l w) (fconcat (map f l)).
Proof.
  induction l as [|a l IH]; cbn [for_each map fconcat]; intros H.
  - apply emits_ret.
  - apply emits_seq; [apply H; left; reflexivity|]. apply IH. intros. apply H. right; auto.
Qed.

Lemma fconcat_const {A} (l : list A) (f : A -> list byte) pos :
  fconcat (map (fun a => fconst (f a)) l) pos = flat_map f l.
Proof.
  revert pos; induction l; intros pos; cbn [map fconcat flat_map]; [reflexivity|].
  unfold fseq, fconst at 1. rewrite IHl. reflexivity.
Qed.

Lemma emits_for_each_const {A} (l : list A) (w : A -> writer unit) (f : A -> list byte) :
  (forall a, In a l -> emits (w a) (fconst (f a))) ->
  emits (for_each l w) (fconst (flat_map f l)).
Proof.
  intros H. eapply emits_ext; [|apply emits_for_each; exact H].
  intros pos. apply fconcat_const.
Qed.

Lemma emits_run w f base : emits w f -> run_writer w base = Ok (f base).
Proof.
  intros H. unfold run_writer. rewrite H by exact I.
  unfold write_bytes, k_pos. cbn [k_cap k_out k_base].
  rewrite lenN_nil, N.add_0_r. reflexivity.
Qed.

(** ** Readers *)

Lemma read_exact_app bs tail pos n brk :
  lenN bs = n ->
  read_exact n (mkBroken (bs ++ tail) pos brk) = (Ok bs, mkBroken tail (pos + n) brk).
Proof.
  intros <-. unfold read_exact. cbn [s_rest s_pos]. rewrite lenN_app.
  destruct (N.leb_spec (lenN bs) (lenN bs + lenN tail)); [|lia].
  rewrite takeN_app, dropN_app. reflexivity.
Qed.
Lemma read_exact_short p pos n brk :
  lenN p < n -> read_exact n (mkBroken p pos brk) = (Err ERead, mkBroken [] (pos + lenN p) brk).
Proof.
  intros. unfold read_exact. cbn [s_rest s_pos]. destruct (N.leb_spec n (lenN p)); [lia|]. reflexivity.
Qed.

Lemma reads_ext {A} (m : reader A) f g a :
  (forall pos, f pos = g pos) -> reads m f a -> reads m g a.
Proof. intros E H pos tail brk. rewrite <- E. apply H. Qed.
Lemma short_ext {A} (m : reader A) f g :
  (forall pos, f pos = g pos) -> short m f -> short m g.
Proof. intros E H pos p q brk. rewrite <- E. apply H. Qed.

Lemma reads_ret {A} (a : A) : reads (ret a) (fconst []) a.
Proof. intros pos tail brk. unfold fconst, ret. cbn [app]. rewrite lenN_nil, N.add_0_r. reflexivity. Qed.
Lemma short_ret {A} (a : A) : short (ret a) (fconst []).
Proof. intros pos p q brk E Hq. symmetry in E. apply app_eq_nil in E as [_ E]. tauto. Qed.

Lemma reads_exact bs : reads (read_exact (lenN bs)) (fconst bs) bs.
Proof. intros pos tail brk. apply read_exact_app. reflexivity. Qed.
Lemma short_exact bs : short (read_exact (lenN bs)) (fconst bs).
Proof.
  intros pos p q brk E Hq. unfold fconst in E. rewrite E, lenN_app.
  exists ERead. eexists. apply read_exact_short. destruct q; [tauto|]. rewrite lenN_cons. lia.
Qed.

Lemma reads_bind {A B} (m : reader A) (k : A -> reader B) f g a b :
  reads m f a -> reads (k a) g b -> reads (bind m k) (fseq f g) b.
Proof.
  intros H1 H2 pos tail brk. unfold fseq, bind. rewrite <- app_assoc, H1, H2.
  rewrite lenN_app, N.add_assoc. reflexivity.
Qed.

Lemma app_eq_app_cases {A} (x1 x2 y1 y2 : list A) :
  x1 ++ x2 = y1 ++ y2 ->
  (exists d, d <> [] /\ x1 = y1 ++ d /\ y2 = d ++ x2) \/
  (exists d, y1 = x1 ++ d /\ x2 = d ++ y2).
Proof.
  revert y1; induction x1 as [|x x1 IH]; intros y1 E.
  - right. exists y1. auto.
  - destruct y1 as [|y y1].
    + left. exists (x :: x1). cbn in *. repeat split; [discriminate|auto].
    + cbn in E. inv E. destruct (IH _ H1) as [(d & Hd & -> & ->)|(d & -> & ->)].
      * left. exists d. auto.
      * right. exists d. auto.
Qed.

Lemma short_bind {A B} (m : reader A) (k : A -> reader B) f g a :
  reads m f a -> short m f -> short (k a) g -> short (bind m k) (fseq f g).
Proof.
  intros R H1 H2 pos p q brk E Hq. unfold fseq in E.
  apply app_eq_app_cases in E as [(d & Hd & E1 & E2)|(d & E1 & E2)].
  - destruct (H1 pos p d brk E1 Hd) as (e & s' & H). exists e, s'. unfold bind. rewrite H. reflexivity.
  - subst p. destruct (H2 _ _ _ brk E2 Hq) as (e & s' & H). exists e, s'. unfold bind. rewrite R. exact H.
Qed.

Lemma reads_map {A B} (m : reader A) (h : A -> B) f a :
  reads m f a -> reads (x <- m ;; ret (h x)) f (h a).
Proof. intros H pos tail brk. unfold bind. rewrite H. reflexivity. Qed.
Lemma short_map {A B} (m : reader A) (h : A -> B) f :
  short m f -> short (x <- m ;; ret (h x)) f.
Proof.
  intros H pos p q brk E Hq. destruct (H pos p q brk E Hq) as (e & s' & H').
  exists e, s'. unfold bind. rewrite H'. reflexivity.
Qed.

(** Pure steps that succeed neither read nor change anything. *)
Lemma reads_pure_l {A B} (m : reader A) (k : A -> reader B) f a b :
  (forall s, m s = (Ok a, s)) -> reads (k a) f b -> reads (bind m k) f b.
Proof. intros H1 H2 pos tail brk. unfold bind. rewrite H1. apply H2. Qed.
Lemma short_pure_l {A B} (m : reader A) (k : A -> reader B) f a :
  (forall s, m s = (Ok a, s)) -> short (k a) f -> short (bind m k) f.
Proof.
  intros H1 H2 pos p q brk E Hq. destruct (H2 pos p q brk E Hq) as (e & s' & H).
  exists e, s'. unfold bind. rewrite H1. exact H.
Qed.

Lemma reads_u32 n : n < two32 -> reads read_u32 (fconst (le_bytes 4 n)) n.
Proof.
  intros H pos tail brk. unfold read_u32, bind. rewrite read_exact_app by apply le_bytes_lenN.
  unfold fconst, ret. rewrite le_u32 by auto. rewrite le_bytes_lenN. reflexivity.
Qed.
Lemma reads_u64 n : n < two64 -> reads read_u64 (fconst (le_bytes 8 n)) n.
Proof.
  intros H pos tail brk. unfold read_u64, bind. rewrite read_exact_app by apply le_bytes_lenN.
  unfold fconst, ret. rewrite le_u64 by auto. rewrite le_bytes_lenN. reflexivity.
Qed.
Lemma reads_u32_mod n : reads read_u32 (fconst (le_bytes 4 n)) (n mod two32).
Proof.
  intros pos tail brk. unfold read_u32, bind. rewrite read_exact_app by apply le_bytes_lenN.
  unfold fconst, ret. rewrite le_value_bytes_mod, le_bytes_lenN. reflexivity.
Qed.
Lemma short_u32 n : short read_u32 (fconst (le_bytes 4 n)).
Proof.
  unfold read_u32. apply short_map. replace 4 with (lenN (le_bytes 4 n)) by apply le_bytes_lenN.
  apply short_exact.
Qed.
Lemma short_u64 n : short read_u64 (fconst (le_bytes 8 n)).
Proof.
  unfold read_u64. apply short_map. replace 8 with (lenN (le_bytes 8 n)) by apply le_bytes_lenN.
  apply short_exact.
Qed.
Lemma read_u32_short p pos brk :
  lenN p < 4 -> read_u32 (mkBroken p pos brk) = (Err ERead, mkBroken [] (pos + lenN p) brk).
Proof. intros. unfold read_u32, bind. rewrite read_exact_short by auto. reflexivity. Qed.

Lemma reads_seek zs : reads (seek_forward (lenN zs)) (fconst zs) tt.
Proof.
  intros pos tail brk. unfold seek_forward, fconst. cbn [s_rest s_pos]. rewrite lenN_app.
  destruct (N.leb_spec (lenN zs) (lenN zs + lenN tail)); [|lia]. rewrite dropN_app. reflexivity.
Qed.

(** Seeking over padding and then reading something non-empty. *)
Lemma short_seek {A} (zs : list byte) (k : reader A) g :
  short k g -> (forall pos, g pos <> []) ->
  short (seek_forward (lenN zs) ;;; k) (fseq (fconst zs) g).
Proof.
  intros H NE pos p q brk E Hq. unfold fseq, fconst in E.
  apply app_eq_app_cases in E as [(d & Hd & E1 & E2)|(d & E1 & E2)].
  - unfold bind, seek_forward. cbn [s_rest s_pos].
    assert (lenN zs <=? lenN p = false) as ->.
    { rewrite E1, lenN_app. destruct d; [tauto|]. rewrite lenN_cons. lia. }
    apply (H _ [] (g (pos + lenN zs)) brk); [reflexivity|apply NE].
  - subst p. destruct (H _ _ _ brk E2 Hq) as (e & s' & H'). exists e, s'.
    unfold bind. pose proof (reads_seek zs pos d brk) as R. unfold fconst in R. rewrite R. exact H'.
Qed.

Lemma reads_repeat {A} (m : reader A) (f : A -> bytesf) (l : list A) :
  (forall a, In a l -> reads m (f a) a) ->
  reads (repeat_m (lenN l) m) (fconcat (map f l)) l.
Proof.
  intros H pos tail brk. rewrite repeat_m_nat. unfold lenN at 1. rewrite Nat2N.id.
  revert pos; induction l as [|a l IH]; intros pos; cbn [length repeat_nat map fconcat].
  - apply reads_ret.
  - assert (reads (repeat_nat (length l) m) (fconcat (map f l)) l) as R.
    { intros pos' tail' brk'. revert pos' tail' brk'. clear IH.
      induction l as [|a' l IH']; intros pos' tail' brk'; cbn [length repeat_nat map fconcat].
      - apply reads_ret.
      - apply reads_bind with (a := a'); [apply H; right; left; reflexivity|].
        apply reads_map with (h := fun l => a' :: l).
        intros p t brk''. apply IH'. intros x [->|Hx]; apply H; [left; reflexivity|right; right; auto]. }
    apply reads_bind with (a := a); [apply H; left; reflexivity|].
    apply reads_map with (h := fun l => a :: l). exact R.
Qed.

Lemma short_repeat {A} (m : reader A) (f : A -> bytesf) (l : list A) :
  (forall a, In a l -> reads m (f a) a) -> (forall a, In a l -> short m (f a)) ->
  short (repeat_m (lenN l) m) (fconcat (map f l)).
Proof.
  intros HR HS. intros pos p q brk. rewrite repeat_m_nat. unfold lenN. rewrite Nat2N.id.
  revert pos p q brk. fold (short (repeat_nat (length l) m) (fconcat (map f l))).
  induction l as [|a l IH]; cbn [length repeat_nat map fconcat].
  - apply short_ret.
  - apply short_bind with (a := a).
    + apply HR; left; reflexivity.
    + apply HS; left; reflexivity.
    + apply short_map with (h := fun l => a :: l). apply IH; intros; [apply HR|apply HS]; right; auto.
Qed.

Lemma reads_repeat_const {A} (m : reader A) (f : A -> list byte) (l : list A) :
  (forall a, In a l -> reads m (fconst (f a)) a) ->
  reads (repeat_m (lenN l) m) (fconst (flat_map f l)) l.
Proof.
  intros H. eapply reads_ext; [|apply reads_repeat; exact H]. intros. apply fconcat_const.
Qed.
Lemma short_repeat_const {A} (m : reader A) (f : A -> list byte) (l : list A) :
  (forall a, In a l -> reads m (fconst (f a)) a) ->
  (forall a, In a l -> short m (fconst (f a))) ->
  short (repeat_m (lenN l) m) (fconst (flat_map f l)).
Proof.
  intros H1 H2. eapply short_ext; [|apply short_repeat; [exact H1|exact H2]]. intros. apply fconcat_const.
Qed.

(** ** Readers that do not tell a broken device from the end of the data *)
Definition set_broken (b : bool) (s : stream) : stream := mkBroken (s_rest s) (s_pos s) b.
Definition blind {A} (m : reader A) : Prop := forall s b, m (set_broken b s) = (fst (m s), set_broken b (snd (m s))).

Lemma blind_keeps {A} (m : reader A) s : blind m -> s_broken (snd (m s)) = s_broken s.
Proof. intros H. specialize (H s (s_broken s)). destruct s as [r p b]. cbn [set_broken s_rest s_pos s_broken] in *. rewrite H at 1. reflexivity. Qed.
Lemma blind_kept {A} (m : reader A) s r s' : blind m -> m s = (r, s') -> s_broken s' = s_broken s.
Proof. intros H E. pose proof (blind_keeps m s H) as K. rewrite E in K. exact K. Qed.

Lemma blind_ret {A} (a : A) : blind (ret a).
Proof. intros s b. reflexivity. Qed.
Lemma blind_fail {A} e : blind (A := A) (fail e).
Proof. intros s b. reflexivity. Qed.
Lemma blind_lift {A} (r : res A) : blind (lift r).
Proof. intros s b. reflexivity. Qed.
Lemma blind_reserve n size : blind (reserve n size).
Proof. intros s b. unfold reserve. destruct (_ <=? _); reflexivity. Qed.
Lemma blind_position : blind position.
Proof. intros s b. reflexivity. Qed.
Lemma blind_seek n : blind (seek_forward n).
Proof. intros s b. reflexivity. Qed.
Lemma blind_exact n : blind (read_exact n).
Proof. intros s b. unfold read_exact, set_broken. cbn [s_rest s_pos s_broken]. destruct (_ <=? _); reflexivity. Qed.
Lemma blind_bind {A B} (m : reader A) (k : A -> reader B) : blind m -> (forall a, blind (k a)) -> blind (bind m k).
Proof.
  intros H K s b. unfold bind. rewrite H. destruct (m s) as [[a|e|p] s1]; cbn [fst snd]; [apply K|reflexivity|reflexivity].
Qed.
Lemma blind_repeat {A} n (m : reader A) : blind m -> blind (repeat_m n m).
Proof.
  intros H s b. rewrite !repeat_m_nat. revert s b. fold (blind (repeat_nat (N.to_nat n) m)). induction (N.to_nat n) as [|k IH]; cbn [repeat_nat]; [apply blind_ret|].
  apply blind_bind; [exact H|]. intros a. apply blind_bind; [exact IH|]. intros l. apply blind_ret.
Qed.
Lemma blind_ok_opt {A} (m : reader A) : blind m -> blind (ok_opt m).
Proof. intros H s b. unfold ok_opt. rewrite H. destruct (m s) as [[a|e|p] s1]; reflexivity. Qed.
Lemma blind_u8 : blind read_u8.
Proof. apply blind_bind; [apply blind_exact|]. intros. apply blind_ret. Qed.
Lemma blind_u32 : blind read_u32.
Proof. apply blind_bind; [apply blind_exact|]. intros. apply blind_ret. Qed.
Lemma blind_u64 : blind read_u64.
Proof. apply blind_bind; [apply blind_exact|]. intros. apply blind_ret. Qed.

(** ** Readers that notice a broken device: what they return does not depend on the data beyond *)
Definition complete {A} (m : reader A) : Prop := forall p pos a s', m (mkBroken p pos true) = (Ok a, s') ->
  s_broken s' = true /\ forall q b, m (mkBroken (p ++ q) pos b) = (Ok a, mkBroken (s_rest s' ++ q) (s_pos s') b).

Lemma complete_pure {A} (r : res A) : complete (lift r).
Proof. intros p pos a s' H. inv H. cbn [s_rest s_pos s_broken]. auto. Qed.
Lemma complete_ret {A} (a : A) : complete (ret a). Proof. apply (complete_pure (Ok a)). Qed.
Lemma complete_fail {A} e : complete (A := A) (fail e). Proof. intros p pos a s' H. discriminate. Qed.
Lemma complete_reserve n size : complete (reserve n size).
Proof. intros p pos a s' H. unfold reserve in *. destruct (_ <=? _); [|discriminate]. inv H. cbn [s_rest s_pos s_broken]. auto. Qed.
Lemma complete_exact n : complete (read_exact n).
Proof.
  intros p pos a s' H. unfold read_exact in *. cbn [s_rest s_pos s_broken] in *. destruct (N.leb_spec n (lenN p)) as [L|L]; [|discriminate]. inv H. split; [reflexivity|].
  intros q b. cbn [s_rest s_pos s_broken]. rewrite lenN_app. destruct (N.leb_spec n (lenN p + lenN q)); [|lia]. rewrite takeN_app_le, dropN_app_le by lia. reflexivity.
Qed.
Lemma complete_bind {A B} (m : reader A) (k : A -> reader B) : complete m -> (forall a, complete (k a)) -> complete (bind m k).
Proof.
  intros H K p pos a s' E. unfold bind in *. destruct (m (mkBroken p pos true)) as [[x|e|w] s1] eqn:E1; try discriminate.
  destruct (H _ _ _ _ E1) as [B1 H1]. destruct s1 as [p1 pos1 b1]. cbn [s_rest s_pos s_broken] in *. subst b1.
  destruct (K x _ _ _ _ E) as [B2 H2]. split; [exact B2|]. intros q b. rewrite H1. apply H2.
Qed.
Lemma complete_repeat {A} n (m : reader A) : complete m -> complete (repeat_m n m).
Proof.
  intros H p pos a s'. rewrite repeat_m_nat. intros E. assert (complete (repeat_nat (N.to_nat n) m)) as K.
  { clear - H. induction (N.to_nat n) as [|k IH]; cbn [repeat_nat]; [apply complete_ret|].
    apply complete_bind; [exact H|]. intros a. apply complete_bind; [exact IH|]. intros l. apply complete_ret. }
  destruct (K _ _ _ _ E) as [B C]. split; [exact B|]. intros q b. rewrite repeat_m_nat. apply C.
Qed.
Lemma complete_u8 : complete read_u8.
Proof. apply complete_bind; [apply complete_exact|]. intros. apply complete_ret. Qed.
Lemma complete_u32 : complete read_u32.
Proof. apply complete_bind; [apply complete_exact|]. intros. apply complete_ret. Qed.
Lemma complete_u64 : complete read_u64.
Proof. apply complete_bind; [apply complete_exact|]. intros. apply complete_ret. Qed.
