(** * Similarity and analogy queries (/repo/src/similarity.rs). *)
From Verif Require Import Base F32 Vocab Storage Embeddings.
Local Open Scope N_scope.

Section Similarity.
  Context {Md V S F : Type} (o : fops F) (VO : vocab_ops V) (SO : storage_ops F S)
          (view : S -> res (array2 F)) (pf : profile).
  Notation emb := (embeddings Md V S F).

  (** [WordSimilarityResult], lines 19-23. *)
  Record wsr := mkWsr { wr_sim : F; wr_word : str }.

  (** *** Measures, lines 25-50

      [acos] and [pi] are [f32::acos] (libm) and [f32::consts::PI]. *)
  Variables (acos : F -> F) (pi : F).
  Definition ftwo : F := fof_N o 2.
  Definition angular_similarity (x : wsr) : F := fsub o (fone o) (fdiv o (acos (wr_sim x)) pi).
  Definition cosine_similarity (x : wsr) : F := wr_sim x.
  Definition euclidean_distance (x : wsr) : F :=
    fsqrt o (fsub o ftwo (fmul o ftwo (cosine_similarity x))).
  Definition euclidean_similarity (x : wsr) : F :=
    fsub o (fone o) (fdiv o (euclidean_distance x) ftwo).

  (** [NotNan::cmp]: total on non-NaN values. *)
  Definition sim_cmp (a b : F) : comparison :=
    match fcmp o a b with Some c => c | None => Eq end.

  (** [Ord for WordSimilarityResult], lines 57-64. *)
  Definition wsr_cmp (a b : wsr) : comparison :=
    match sim_cmp (wr_sim b) (wr_sim a) with
    | Eq => str_compare (wr_word a) (wr_word b)
    | c => c
    end.
  Definition wsr_lt (a b : wsr) : bool :=
    match wsr_cmp a b with Lt => true | _ => false end.

  (** [std::collections::BinaryHeap] by its contract: [heap_max] is the
      greatest element (what [peek_mut] gives), replacing it keeps a heap,
      [into_sorted_vec] sorts in ascending order.  Elements that compare equal
      are interchangeable in the contract; here they are kept in insertion
      order. *)
  Fixpoint heap_insert (x : wsr) (h : list wsr) : list wsr :=
    match h with
    | [] => [x]
    | y :: h' => if wsr_lt x y then x :: h else y :: heap_insert x h'
    end.
  (** The heap is a list in ascending order; its greatest element is last. *)
  Definition heap_max (h : list wsr) : option wsr := nthN h (lenN h - 1).
  Definition heap_replace_max (x : wsr) (h : list wsr) : list wsr :=
    heap_insert x (removelast h).

  (** Loop body of [similarity_], lines 305-326; [iw] is a word index and
      the similarity of its row. *)
  Definition sim_step (words : list str) (skip : list str) (limit : N) (h : list wsr)
             (is : N * F) : res (list wsr) :=
    let '(i, sim) := is in
    let* w := index words i in
    if str_mem w skip then Ok h else
    match fcmp o sim sim with
    | None => Panic PNaN
    | Some _ =>
        let x := mkWsr sim w in
        if lenN h <? limit then Ok (heap_insert x h)
        else match heap_max h with
             | None => Panic PAssert
             | Some m => if wsr_lt x m then Ok (heap_replace_max x h) else Ok h
             end
    end.

  (** [axis_chunks_iter(Axis(0), n)]: panics for [n = 0]. *)
  Definition axis_chunks (n : N) (rows : list (list F)) : res (list (list (list F))) :=
    if n =? 0 then Panic PAssert else Ok (chunks_of (N.to_nat n) rows).

  (** [batch.dot(&embed)]: one dot product per row, scaled by one; panics on a
      shape mismatch. *)
  Definition mat_vec (cols : N) (rows : list (list F)) (q : list F) : res (list F) :=
    if cols =? lenN q then Ok (map (fun r => fmul o (vdot o r q) (fone o)) rows)
    else Panic PAssert.

  (** One batch, lines 300-327. *)
  Definition sim_batch (words skip : list str) (limit batch cols : N) (q : list F)
             (h : list wsr) (b : N * list (list F)) : res (list wsr) :=
    let '(bi, rows) := b in
    let* sims := mat_vec cols rows q in
    rfold (sim_step words skip limit) (map (fun '(i, s) => (bi * batch + i, s)) (Subword.enumerate sims)) h.

  (** [similarity_], lines 286-331.  [BinaryHeap::with_capacity(limit)]
      allocates [limit] elements of 24 bytes; slicing rows beyond the matrix
      panics. *)
  Definition similarity_ (e : emb) (q : list F) (skip : list str) (limit : N)
             (batch_size : option N) : res (list wsr) :=
    let wl := v_words_len VO (em_vocab e) in
    let batch := match batch_size with Some b => b | None => wl end in
    let* _ := rassert (limit * 24 <=? isize_max) PCapacity in
    let* a := view (em_storage e) in
    let* _ := rassert (wl <=? a2_nrows a) PIndexOutOfBounds in
    let* cs := axis_chunks batch (takeN wl (a2_rows a)) in
    rfold (sim_batch (v_words VO (em_vocab e)) skip limit batch (a2_cols a) q)
          (Subword.enumerate cs) [].

  (** [word_similarity], lines 192-203. *)
  Definition word_similarity (e : emb) (w : str) (limit : N) (batch_size : option N)
    : res (option (list wsr)) :=
    let* v := emb_embedding o VO SO pf e w in
    match v with
    | None => Ok None
    | Some v => let* r := similarity_ e v [w] limit batch_size in Ok (Some r)
    end.

  (** [embedding_similarity_masked], lines 257-268. *)
  Definition embedding_similarity_masked (e : emb) (q : list F) (limit : N) (skip : list str)
             (batch_size : option N) : res (option (list wsr)) :=
    let* r := similarity_ e (fst (l2_normalize o q)) skip limit batch_size in Ok (Some r).

  (** [embedding_similarity], lines 221-228. *)
  Definition embedding_similarity (e : emb) (q : list F) (limit : N) (batch_size : option N)
    : res (option (list wsr)) :=
    embedding_similarity_masked e q limit [] batch_size.

  (** [lookup_words3], lines 334-361: the embeddings or the presence flags. *)
  Definition lookup_words3 (e : emb) (q : str * str * str)
    : res ((list F * list F * list F) + (bool * bool * bool)) :=
    let '(w1, w2, w3) := q in
    let* e1 := emb_embedding o VO SO pf e w1 in
    let* e2 := emb_embedding o VO SO pf e w2 in
    let* e3 := emb_embedding o VO SO pf e w3 in
    match e1, e2, e3 with
    | Some v1, Some v2, Some v3 => Ok (inl (v1, v2, v3))
    | _, _, _ => Ok (inr (is_some e1, is_some e2, is_some e3))
    end.

  (** [analogy_masked], lines 139-161. *)
  Definition analogy_masked (e : emb) (q : str * str * str) (remove : bool * bool * bool)
             (limit : N) (batch_size : option N)
    : res (list wsr + (bool * bool * bool)) :=
    let* l := lookup_words3 e q in
    match l with
    | inr present => Ok (inr present)
    | inl (v1, v2, v3) =>
        let v := fst (l2_normalize o (vadd o (vsub o v2 v1) v3)) in
        let '(w1, w2, w3) := q in
        let '(r1, r2, r3) := remove in
        let skip := map fst (filter snd [(w1, r1); (w2, r2); (w3, r3)]) in
        let* r := similarity_ e v skip limit batch_size in
        Ok (inl r)
    end.

  (** [analogy], lines 92-99. *)
  Definition analogy (e : emb) (q : str * str * str) (limit : N) (batch_size : option N)
    : res (list wsr + (bool * bool * bool)) :=
    analogy_masked e q (true, true, true) limit batch_size.
End Similarity.
Arguments wsr F : clear implicits.
Arguments mkWsr {F}. Arguments wr_sim {F}. Arguments wr_word {F}.
