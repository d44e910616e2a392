(** * Queries whose dot products are computed in any way.

    /repo/src/similarity.rs and /repo/src/util.rs call [dot] of ndarray.  How
    ndarray adds the products depends on things that this crate does not
    decide: the memory layout of the operands, and whether ndarray is built
    with a BLAS library.  [Similarity.v] models the sums for operands in
    standard layout and without BLAS.  Here the queries are modelled once more
    with two parameters:

    - [dot]: the dot product of two vectors, which [util::l2_normalize],
      /repo/src/util.rs 69-77, uses;
    - [gemv]: the product of a batch of rows and a vector, [batch.dot(&embed)],
      /repo/src/similarity.rs 304.  A BLAS library may compute a row
      differently if the batch around it changes, so [gemv] gets the batch.

    Everything else is as in [Embeddings.v] and [Similarity.v], line by line. *)
From Verif Require Import Base F32 Vocab Storage Embeddings Similarity.
Local Open Scope N_scope.

Section AnyDot.
  Context {Md V S F : Type} (o : fops F) (VO : vocab_ops V) (SO : storage_ops F S)
          (view : S -> res (array2 F)) (pf : profile).
  Variables (dot : list F -> list F -> F) (gemv : list (list F) -> list F -> list F).
  Notation emb := (embeddings Md V S F).

  (** [util::l2_normalize], /repo/src/util.rs 69-77. *)
  Definition l2_normalize_by (v : list F) : list F * F :=
    let norm := fsqrt o (dot v v) in
    if fis_zero o norm then (v, norm) else (vdivs o v norm, norm).

  (** [embedding], /repo/src/embeddings.rs 136-147. *)
  Definition emb_embedding_by (e : emb) (w : str) : res (option (list F)) :=
    let* idx := v_idx VO pf (em_vocab e) w in
    match idx with
    | None => Ok None
    | Some (Word i) => let* v := st_embedding SO (em_storage e) i in Ok (Some v)
    | Some (Subwords is) =>
        let* a := st_embeddings SO (em_storage e) is in
        Ok (Some (fst (l2_normalize_by (sum_rows o (a2_cols a) (a2_rows a)))))
    end.

  (** [batch.dot(&embed)], /repo/src/similarity.rs 304: panics on a shape
      mismatch, however it is computed. *)
  Definition mat_vec_by (cols : N) (rows : list (list F)) (q : list F) : res (list F) :=
    if cols =? lenN q then Ok (gemv rows q) else Panic PAssert.

  (** One batch, /repo/src/similarity.rs 300-327. *)
  Definition sim_batch_by (words skip : list str) (limit batch cols : N) (q : list F)
             (h : list (wsr F)) (b : N * list (list F)) : res (list (wsr F)) :=
    let '(bi, rows) := b in
    let* sims := mat_vec_by cols rows q in
    rfold (sim_step o words skip limit) (map (fun '(i, s) => (bi * batch + i, s)) (Subword.enumerate sims)) h.

  (** [similarity_], /repo/src/similarity.rs 286-331. *)
  Definition similarity_by (e : emb) (q : list F) (skip : list str) (limit : N)
             (batch_size : option N) : res (list (wsr F)) :=
    let wl := v_words_len VO (em_vocab e) in
    let batch := match batch_size with Some b => b | None => wl end in
    let* _ := rassert (limit * 24 <=? isize_max) PCapacity in
    let* a := view (em_storage e) in
    let* _ := rassert (wl <=? a2_nrows a) PIndexOutOfBounds in
    let* cs := axis_chunks batch (takeN wl (a2_rows a)) in
    rfold (sim_batch_by (v_words VO (em_vocab e)) skip limit batch (a2_cols a) q)
          (Subword.enumerate cs) [].

  (** [word_similarity], /repo/src/similarity.rs 192-203. *)
  Definition word_similarity_by (e : emb) (w : str) (limit : N) (batch_size : option N)
    : res (option (list (wsr F))) :=
    let* v := emb_embedding_by e w in
    match v with
    | None => Ok None
    | Some v => let* r := similarity_by e v [w] limit batch_size in Ok (Some r)
    end.

  (** [embedding_similarity_masked], /repo/src/similarity.rs 257-268. *)
  Definition embedding_similarity_masked_by (e : emb) (q : list F) (limit : N) (skip : list str)
             (batch_size : option N) : res (option (list (wsr F))) :=
    let* r := similarity_by e (fst (l2_normalize_by q)) skip limit batch_size in Ok (Some r).

  (** [lookup_words3], /repo/src/similarity.rs 334-361. *)
  Definition lookup_words3_by (e : emb) (q : str * str * str)
    : res ((list F * list F * list F) + (bool * bool * bool)) :=
    let '(w1, w2, w3) := q in
    let* e1 := emb_embedding_by e w1 in
    let* e2 := emb_embedding_by e w2 in
    let* e3 := emb_embedding_by e w3 in
    match e1, e2, e3 with
    | Some v1, Some v2, Some v3 => Ok (inl (v1, v2, v3))
    | _, _, _ => Ok (inr (is_some e1, is_some e2, is_some e3))
    end.

  (** [analogy_masked], /repo/src/similarity.rs 139-161. *)
  Definition analogy_masked_by (e : emb) (q : str * str * str) (remove : bool * bool * bool)
             (limit : N) (batch_size : option N)
    : res (list (wsr F) + (bool * bool * bool)) :=
    let* l := lookup_words3_by e q in
    match l with
    | inr present => Ok (inr present)
    | inl (v1, v2, v3) =>
        let v := fst (l2_normalize_by (vadd o (vsub o v2 v1) v3)) in
        let '(w1, w2, w3) := q in
        let '(r1, r2, r3) := remove in
        let skip := map fst (filter snd [(w1, r1); (w2, r2); (w3, r3)]) in
        let* r := similarity_by e v skip limit batch_size in
        Ok (inl r)
    end.
End AnyDot.

(** ** ndarray 0.15 without BLAS

    [dot] of one-dimensional arrays: [numeric_util::unrolled_dot] if both
    operands are contiguous and in order ([as_slice]), and otherwise a loop
    over the elements that starts with zero.  [standard] says that an operand
    is contiguous and in order.  Rows of a matrix are if and only if the
    matrix is in row-major order; [NdArray::new], /repo/src/chunks/storage/array.rs,
    accepts a matrix in any order, and the matrices of all readers are in
    row-major order.  A query vector is what the caller passes:
    [query.to_owned()], /repo/src/similarity.rs 264, keeps a reversed order.
    Sums of rows and the vectors of analogies are new arrays and in order. *)
Section Layout.
  Context {F : Type} (o : fops F).
  Definition nd_dot (standard standard' : bool) (a b : list F) : F :=
    if standard && standard' then vdot o a b else dot_tail o a b (fzero o).
  (** The product of a matrix and a vector: one dot product per row, scaled
      by one. *)
  Definition nd_gemv (standard standard' : bool) (rows : list (list F)) (q : list F) : list F :=
    map (fun r => fmul o (nd_dot standard standard' r q) (fone o)) rows.
End Layout.
