(** * Iterating over embeddings call by call (stated in P_Emb.v).

    [Embeddings.v] describes [iter] and [iter_with_norms] by what a loop over
    them collects.  Here the iterators are modelled with their state, so that
    they can be used in any other way: a few items only, past the end, or
    after a panic was caught. *)
From Verif Require Import Base BaseFacts Utf8 Stream F32 ChunkIO Subword Vocab Storage Embeddings VocabSpec EmbSpec EmbFacts BatchFacts.
Local Open Scope N_scope.

Section Iterators.
  Context {Md V S F : Type} (o : fops F) (VO : vocab_ops V) (SO : storage_ops F S).
  Variable e : embeddings Md V S F.

  (** [Enumerate<slice::Iter<String>>], the only state of [Iter] and of
      [IterWithNorms], /repo/src/embeddings.rs 722-742: the words that are left and
      the index of the next one.  The index is the number of words passed, so
      it does not overflow. *)
  Record iter_state := mkIter { it_words : list str; it_index : N }.

  (** [iter] and [iter_with_norms], lines 287-292 and 307-313; [into_iter],
      lines 431-433, is [iter]. *)
  Definition iter_start : iter_state := mkIter (v_words VO (em_vocab e)) 0.

  (** [Iter::next], lines 730-735: the state is advanced before the vector is
      looked up. *)
  Definition iter_next (it : iter_state) : res (option (str * list F)) * iter_state :=
    match it_words it with
    | [] => (Ok None, it)
    | w :: ws =>
        ((let* v := st_embedding SO (em_storage e) (it_index it) in Ok (Some (w, v))),
         mkIter ws (it_index it + 1))
    end.

  (** [IterWithNorms::next], lines 747-758. *)
  Definition iter_norms_next (it : iter_state) : res (option (str * (list F * F))) * iter_state :=
    match it_words it with
    | [] => (Ok None, it)
    | w :: ws =>
        ((let* v := st_embedding SO (em_storage e) (it_index it) in
          let* n := norm_at o e (it_index it) in Ok (Some (w, (v, n)))),
         mkIter ws (it_index it + 1))
    end.
End Iterators.

(** The outcomes of [n] calls of [next]. *)
Fixpoint calls {A} (next : iter_state -> res (option A) * iter_state) (n : nat) (it : iter_state) : list (res (option A)) :=
  match n with
  | O => []
  | S n => let '(r, it) := next it in r :: calls next n it
  end.

(** A loop over the iterator, with at most [n] calls. *)
Fixpoint loop {A} (next : iter_state -> res (option A) * iter_state) (n : nat) (it : iter_state) : res (list A) :=
  match n with
  | O => Ok []
  | S n =>
      let '(r, it) := next it in
      let* x := r in
      match x with None => Ok [] | Some a => let* l := loop next n it in Ok (a :: l) end
  end.

(** Both iterators have this form. *)
Definition step_of {A} (item : N -> str -> res A) (it : iter_state) : res (option A) * iter_state :=
  match it_words it with
  | [] => (Ok None, it)
  | w :: ws => ((let* a := item (it_index it) w in Ok (Some a)), mkIter ws (it_index it + 1))
  end.

Lemma nthN_cons_0 {A} (a : A) l : nthN (a :: l) 0 = Some a.
Proof. rewrite nthN_spec. reflexivity. Qed.
Lemma nthN_cons_succ {A} (a : A) l n : nthN (a :: l) (N.succ n) = nthN l n.
Proof. rewrite !nthN_spec, N2Nat.inj_succ. reflexivity. Qed.
Lemma nthN_nil {A} n : nthN (@nil A) n = None.
Proof. apply nthN_None. rewrite lenN_nil. lia. Qed.

Lemma calls_exact {A} (item : N -> str -> res A) n : forall ws i k, k < N.of_nat n ->
  nthN (calls (step_of item) n (mkIter ws i)) k =
    Some (match nthN ws k with Some w => let* a := item (i + k) w in Ok (Some a) | None => Ok None end).
Proof.
  induction n as [|n IH]; intros ws i k L; [lia|]. cbn [calls]. unfold step_of at 1. cbn [it_words it_index].
  destruct ws as [|w ws].
  - destruct (N.eq_dec k 0) as [->|NZ]; [reflexivity|]. replace k with (N.succ (k - 1)) by lia. rewrite nthN_cons_succ, IH by lia.
    rewrite !nthN_nil. reflexivity.
  - destruct (N.eq_dec k 0) as [->|NZ]; [rewrite !nthN_cons_0, N.add_0_r; reflexivity|].
    replace k with (N.succ (k - 1)) by lia. rewrite !nthN_cons_succ, IH by lia.
    replace (i + 1 + (k - 1)) with (i + N.succ (k - 1)) by lia. reflexivity.
Qed.

Lemma loop_exact {A} (item : N -> str -> res A) : forall ws i n, (length ws < n)%nat ->
  loop (step_of item) n (mkIter ws i) = rmap (fun '(j, w) => item j w) (enumerate_from i ws).
Proof.
  induction ws as [|w ws IH]; intros i n L; (destruct n as [|n]; [cbn in L; lia|]); cbn [loop]; unfold step_of at 1; cbn [it_words it_index].
  - reflexivity.
  - cbn [enumerate_from rmap]. destruct (item i w) as [a| |]; cbn [rbind]; [|reflexivity|reflexivity].
    rewrite IH by (cbn in L; lia). reflexivity.
Qed.

Lemma calls_length {A} (next : iter_state -> res (option A) * iter_state) n : forall it, length (calls next n it) = n.
Proof. induction n as [|n IH]; intros it; cbn [calls]; [reflexivity|]. destruct (next it) as [r it']. cbn [length]. rewrite IH. reflexivity. Qed.

Section Thms.
  Context {Md V S F : Type} (o : fops F) (VO : vocab_ops V) (SO : storage_ops F S).

  Lemma next_step e it : iter_next SO e it = step_of (fun i w => let* v := st_embedding SO (em_storage (Md := Md) (V := V) e) i in Ok (w, v)) it.
  Proof.
    unfold iter_next, step_of. destruct (it_words it); [reflexivity|]. destruct (st_embedding SO (em_storage e) (it_index it)); reflexivity.
  Qed.
  Lemma norms_step e it : iter_norms_next o SO e it =
    step_of (fun i w => let* v := st_embedding SO (em_storage (Md := Md) (V := V) e) i in let* n := norm_at o e i in Ok (w, (v, n))) it.
  Proof.
    unfold iter_norms_next, step_of. destruct (it_words it); [reflexivity|]. destruct (st_embedding SO (em_storage e) (it_index it)); cbn [rbind]; try reflexivity.
    destruct (norm_at o e (it_index it)); reflexivity.
  Qed.
  Lemma calls_ext {A} (f g : iter_state -> res (option A) * iter_state) n : (forall it, f it = g it) -> forall it, calls f n it = calls g n it.
  Proof. intros E. induction n as [|n IH]; intros it; cbn [calls]; [reflexivity|]. rewrite E. destruct (g it). rewrite IH. reflexivity. Qed.
  Lemma loop_ext {A} (f g : iter_state -> res (option A) * iter_state) n : (forall it, f it = g it) -> forall it, loop f n it = loop g n it.
  Proof.
    intros E. induction n as [|n IH]; intros it; cbn [loop]; [reflexivity|]. rewrite E. destruct (g it) as [r it']. destruct r as [[a|]| |]; cbn [rbind]; try reflexivity.
    rewrite IH. reflexivity.
  Qed.

  (** Call number [k] is about word and row [k], whatever the other calls were. *)
  Lemma iter_calls (e : embeddings Md V S F) n :
    lenN (calls (iter_next SO e) n (iter_start VO e)) = N.of_nat n /\
    forall k, k < N.of_nat n -> nthN (calls (iter_next SO e) n (iter_start VO e)) k =
      Some (match nthN (v_words VO (em_vocab e)) k with
            | None => Ok None
            | Some w => match st_embedding SO (em_storage e) k with Ok v => Ok (Some (w, v)) | Err x => Err x | Panic p => Panic p end
            end).
  Proof.
    split; [unfold lenN; rewrite calls_length; reflexivity|]. intros k L.
    rewrite (calls_ext _ _ n (next_step e)). unfold iter_start. rewrite calls_exact by auto. rewrite N.add_0_l.
    destruct (nthN (v_words VO (em_vocab e)) k); [|reflexivity]. destruct (st_embedding SO (em_storage e) k); reflexivity.
  Qed.

  Lemma iter_norms_calls (e : embeddings Md V S F) n :
    lenN (calls (iter_norms_next o SO e) n (iter_start VO e)) = N.of_nat n /\
    forall k, k < N.of_nat n -> nthN (calls (iter_norms_next o SO e) n (iter_start VO e)) k =
      Some (match nthN (v_words VO (em_vocab e)) k with
            | None => Ok None
            | Some w => match st_embedding SO (em_storage e) k with
                        | Ok v => match em_norms e with
                                  | None => Ok (Some (w, (v, fone o)))
                                  | Some ns => match nthN ns k with Some x => Ok (Some (w, (v, x))) | None => Panic PIndexOutOfBounds end
                                  end
                        | Err x => Err x | Panic p => Panic p end
            end).
  Proof.
    split; [unfold lenN; rewrite calls_length; reflexivity|]. intros k L.
    rewrite (calls_ext _ _ n (norms_step e)). unfold iter_start. rewrite calls_exact by auto. rewrite N.add_0_l.
    destruct (nthN (v_words VO (em_vocab e)) k); [|reflexivity]. destruct (st_embedding SO (em_storage e) k); cbn [rbind]; try reflexivity.
    unfold norm_at, index. destruct (em_norms e) as [ns|]; [|reflexivity]. destruct (nthN ns k); reflexivity.
  Qed.

  (** A loop collects what [emb_iter] and [emb_iter_with_norms] return. *)
  Lemma iter_loop (e : embeddings Md V S F) n : (length (v_words VO (em_vocab e)) < n)%nat ->
    loop (iter_next SO e) n (iter_start VO e) = emb_iter VO SO e /\
    loop (iter_norms_next o SO e) n (iter_start VO e) = emb_iter_with_norms o VO SO e.
  Proof.
    intros L. split.
    - rewrite (loop_ext _ _ n (next_step e)). apply loop_exact. auto.
    - rewrite (loop_ext _ _ n (norms_step e)). apply loop_exact. auto.
  Qed.
End Thms.

Section Made.
  Context {Md S F : Type} (o : fops F) (SO : storage_ops F S) (pf : profile).

  (** On embeddings that were built, no call panics, every word comes with the
      vector and the norm that lookups return, and the end is permanent. *)
  Lemma iter_made (e : embeddings Md vocab_wrap S F) cols rows n k : emb_made SO pf e cols rows -> k < N.of_nat n ->
    (forall w, nthN (v_words wrap_ops (em_vocab e)) k = Some w -> exists v,
       nthN rows k = Some v /\ emb_embedding o wrap_ops SO pf e w = Ok (Some v) /\
       nthN (calls (iter_next SO e) n (iter_start wrap_ops e)) k = Some (Ok (Some (w, v)))) /\
    (lenN (v_words wrap_ops (em_vocab e)) <= k ->
       nthN (calls (iter_next SO e) n (iter_start wrap_ops e)) k = Some (Ok None)).
  Proof.
    intros M L. destruct (iter_calls wrap_ops SO e n) as [_ C]. rewrite (C k L). split.
    - intros w Hw. rewrite Hw. destruct (known_word o SO pf e cols rows M w k Hw) as (r & R & E). exists r.
      destruct M as (_ & MS & _). rewrite (sm_row _ _ _ _ MS k r R). auto.
    - intros G. apply nthN_None in G. rewrite G. reflexivity.
  Qed.

  Lemma iter_norms_made (e : embeddings Md vocab_wrap S F) cols rows n k : emb_made SO pf e cols rows ->
    (forall ns, em_norms e = Some ns -> lenN ns = v_words_len wrap_ops (em_vocab e)) -> k < N.of_nat n ->
    (forall w, nthN (v_words wrap_ops (em_vocab e)) k = Some w -> exists v x,
       nthN rows k = Some v /\ norm_of o e k x /\ emb_with_norm o wrap_ops SO pf e w = Ok (Some (v, x)) /\
       nthN (calls (iter_norms_next o SO e) n (iter_start wrap_ops e)) k = Some (Ok (Some (w, (v, x))))) /\
    (lenN (v_words wrap_ops (em_vocab e)) <= k ->
       nthN (calls (iter_norms_next o SO e) n (iter_start wrap_ops e)) k = Some (Ok None)).
  Proof.
    intros M LN L. destruct (iter_norms_calls o wrap_ops SO e n) as [_ C]. rewrite (C k L). split.
    - intros w Hw. rewrite Hw. destruct (with_norm_known o SO pf e cols rows w k M LN Hw) as (r & x & R & NX & _ & E). exists r, x.
      assert (norm_of o e k x) as NX' by exact NX.
      destruct M as (_ & MS & _). rewrite (sm_row _ _ _ _ MS k r R). split; [auto|]. split; [auto|]. split; [auto|].
      unfold norm_of in NX. destruct (em_norms e) as [ns|]; [rewrite NX; reflexivity|subst; reflexivity].
    - intros G. apply nthN_None in G. rewrite G. reflexivity.
  Qed.
End Made.
