(** * [std::collections::BinaryHeap] as the standard library implements it,
    and similarity queries with it.

    [Similarity.v] uses the documented contract of [BinaryHeap]: a collection
    that gives its greatest element.  Here is the implementation
    (library/alloc/src/collections/binary_heap/mod.rs): a vector in which no
    element is greater than its parent.  [HeapThms.v] proves that queries
    return the same results. *)
From Verif Require Import Base F32 Vocab Storage Embeddings Similarity.
Local Open Scope N_scope.

Section Heap.
  Context {A : Type} (cmp : A -> A -> comparison) (d : A).

  (** [<=], [>=] and [<] of [PartialOrd] by [partial_cmp]. *)
  Definition cle (a b : A) : bool := match cmp a b with Gt => false | _ => true end.
  Definition cge (a b : A) : bool := match cmp a b with Lt => false | _ => true end.
  Definition clt (a b : A) : bool := match cmp a b with Lt => true | _ => false end.

  (** The vector; indices are below its length, [d] is not used. *)
  Definition hget (l : list A) (i : nat) : A := nth i l d.
  Fixpoint hset (l : list A) (i : nat) (x : A) : list A :=
    match l, i with
    | [], _ => []
    | _ :: l', O => x :: l'
    | y :: l', Datatypes.S i' => y :: hset l' i' x
    end.
  (** [Hole::move_to], with the element written into the hole at once. *)
  Definition hswap (l : list A) (i j : nat) : list A := hset (hset l i (hget l j)) j (hget l i).
  Definition parent (i : nat) : nat := Nat.div (i - 1) 2.

  (** [sift_up(0, pos)] *)
  Fixpoint sift_up (fuel pos : nat) (l : list A) : list A :=
    match fuel with
    | O => l
    | Datatypes.S fuel' =>
        if Nat.eqb pos 0 then l else
        if cle (hget l pos) (hget l (parent pos)) then l
        else sift_up fuel' (parent pos) (hswap l pos (parent pos))
    end.
  (** [sift_down_range(pos, end)] with the length as [end]. *)
  Fixpoint sift_down (fuel pos : nat) (l : list A) : list A :=
    match fuel with
    | O => l
    | Datatypes.S fuel' =>
        let child := (2 * pos + 1)%nat in
        if Nat.leb child (length l - 2) then
          let child := if cle (hget l child) (hget l (child + 1)) then (child + 1)%nat else child in
          if cge (hget l pos) (hget l child) then l
          else sift_down fuel' child (hswap l pos child)
        else if (Nat.eqb child (length l - 1) && clt (hget l pos) (hget l child))%bool then hswap l pos child
        else l
    end.

  (** [push] *)
  Definition heap_push (x : A) (l : list A) : list A := sift_up (Datatypes.S (length l)) (length l) (l ++ [x]).
  (** [peek_mut], an assignment through it, and its destructor. *)
  Definition heap_assign (x : A) (l : list A) : list A := sift_down (length l) 0 (hset l 0 x).
  (** [into_sorted_vec]: the vector is [pre ++ acc], of which [pre] is the
      heap; its first element is swapped with its last one. *)
  Fixpoint sort_loop (fuel : nat) (pre acc : list A) : list A :=
    match fuel with
    | O => pre ++ acc
    | Datatypes.S fuel' =>
        match pre with
        | x :: (y :: _) as rest =>
            sort_loop fuel' (sift_down (length rest) 0 (hset (removelast pre) 0 (last pre d))) (x :: acc)
        | _ => pre ++ acc
        end
    end.
  Definition into_sorted_vec (l : list A) : list A := sort_loop (length l) l [].
End Heap.

(** ** Queries *)
Section Queries.
  Context {Md V S F : Type} (o : fops F) (VO : vocab_ops V) (SO : storage_ops F S)
          (view : S -> res (array2 F)) (pf : profile).
  Definition wsr0 : wsr F := mkWsr (fzero o) [].

  (** /repo/src/similarity.rs, lines 305-326. *)
  Definition std_step (words : list str) (skip : list str) (limit : N) (h : list (wsr F)) (is : N * F) : res (list (wsr F)) :=
    let '(i, sim) := is in
    let* w := index words i in
    if str_mem w skip then Ok h else
    match fcmp o sim sim with
    | None => Panic PNaN
    | Some _ =>
        let x := mkWsr sim w in
        if lenN h <? limit then Ok (heap_push (wsr_cmp o) wsr0 x h)
        else match h with
             | [] => Panic PAssert
             | m :: _ => if clt (wsr_cmp o) x m then Ok (heap_assign (wsr_cmp o) wsr0 x h) else Ok h
             end
    end.
  Definition std_batch (words skip : list str) (limit batch cols : N) (q : list F)
             (h : list (wsr F)) (b : N * list (list F)) : res (list (wsr F)) :=
    let '(bi, rows) := b in
    let* sims := mat_vec o cols rows q in
    rfold (std_step words skip limit) (map (fun '(i, s) => (bi * batch + i, s)) (Subword.enumerate sims)) h.
  (** [similarity_], lines 286-331 *)
  Definition std_similarity (e : embeddings Md V S F) (q : list F) (skip : list str) (limit : N) (batch_size : option N) : res (list (wsr F)) :=
    let wl := v_words_len VO (em_vocab e) in
    let batch := match batch_size with Some b => b | None => wl end in
    let* _ := rassert (limit * 24 <=? isize_max) PCapacity in
    let* a := view (em_storage e) in
    let* _ := rassert (wl <=? a2_nrows a) PIndexOutOfBounds in
    let* cs := axis_chunks batch (takeN wl (a2_rows a)) in
    let* h := rfold (std_batch (v_words VO (em_vocab e)) skip limit batch (a2_cols a) q) (Subword.enumerate cs) [] in
    Ok (into_sorted_vec (wsr_cmp o) wsr0 h).
End Queries.
