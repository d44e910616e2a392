(** * Vocabulary of the statements about matrices and embeddings.

    Nothing here is part of the model. *)
From Coq Require Import Sorting.Permutation.
From Verif Require Import Base Utf8 F32 Subword Vocab Storage Embeddings FileSpec VocabSpec.
Local Open Scope N_scope.

(** ** Matrices *)

(** [rs] are the rows with the numbers [is]. *)
Definition selects {A} (rows : list A) (is : list N) (rs : list A) : Prop :=
  Forall2 (fun i r => nthN rows i = Some r) is rs.

(** The storage [s] behaves as the matrix [rows] with [cols] columns.  Asking
    for a row outside the matrix panics. *)
Record st_matrix {F S} (SO : storage_ops F S) (s : S) (cols : N) (rows : list (list F)) : Prop := {
  sm_shape : st_shape SO s = (lenN rows, cols);
  sm_cols : Forall (fun r => lenN r = cols) rows;
  sm_row : forall i r, nthN rows i = Some r -> st_embedding SO s i = Ok r;
  sm_out : forall i, lenN rows <= i -> st_embedding SO s i = Panic PIndexOutOfBounds;
  sm_rows : forall is rs, selects rows is rs -> st_embeddings SO s is = Ok (mkA2 cols rs);
  sm_rows_out : forall is, Exists (fun i => lenN rows <= i) is ->
    st_embeddings SO s is = Panic PIndexOutOfBounds
}.

(** [clone] builds storages of selected rows. *)
Definition clones {F S S'} (clone : S -> list N -> res S') (SO' : storage_ops F S') (s : S)
           (cols : N) (rows : list (list F)) : Prop := forall is rs,
  selects rows is rs -> exists s', clone s is = Ok s' /\ st_matrix SO' s' cols rs.

(** The matrix a quantized matrix stands for: for every row of codes the
    concatenation of the chosen centroids, projected, times the norm. *)
Section QuantizedRows.
  Context {F : Type} (o : fops F).
  Definition chosen (p : pq F) (codes : list byte) : list F :=
    concat (zip_with (fun sub c => nth (N.to_nat (bN c)) sub []) (pq_cent p) codes).
  Definition projected (p : pq F) (v : list F) : list F :=
    match pq_proj p with None => v | Some m => map (fun r => vdot o r v) (a2_rows m) end.
  Definition with_norm (ns : option (list F)) (i : nat) (v : list F) : list F :=
    match ns with None => v | Some ns => map (fun x => fmul o x (nth i ns (fzero o))) v end.
  Definition quantized_rows (q : quantized F) : list (list F) :=
    map (fun i => with_norm (qa_norms q) i
                    (projected (qa_pq q) (chosen (qa_pq q) (nth i (a2_rows (qa_codes q)) []))))
        (seq 0 (length (a2_rows (qa_codes q)))).

  (** Consistent shapes, and every code is the number of a centroid. *)
  Record qa_usable (q : quantized F) : Prop := {
    qu_cent : lenN (pq_cent (qa_pq q)) = pq_ql (qa_pq q);
    qu_sub : Forall (fun sub => lenN sub = pq_nc (qa_pq q) /\ Forall (fun v => lenN v = pq_sub (qa_pq q)) sub)
                    (pq_cent (qa_pq q));
    qu_proj : forall m, pq_proj (qa_pq q) = Some m -> a2_nrows m = pq_rl (qa_pq q);
    qu_codes : Forall (fun r => lenN r = pq_ql (qa_pq q) /\ Forall (fun c => bN c < pq_nc (qa_pq q)) r)
                      (a2_rows (qa_codes q));
    qu_norms : forall ns, qa_norms q = Some ns -> lenN ns = a2_nrows (qa_codes q)
  }.

  (** Matrix products are computed row by row as single dot products are.
      ndarray does not promise that for a projection; without one there is
      nothing to assume. *)
  Definition gemm_exact (gemm : array2 F -> list (list F) -> list (list F)) (q : quantized F) : Prop :=
    forall m, pq_proj (qa_pq q) = Some m ->
    forall vs, gemm m vs = map (fun v => map (fun r => vdot o r v) (a2_rows m)) vs.
End QuantizedRows.

(** Storages and the matrices they hold. *)
Inductive holds_matrix (gemm : array2 f32 -> list (list f32) -> list (list f32))
  : storage_wrap -> N -> list (list f32) -> Prop :=
| hm_nd a : a2_wf a -> holds_matrix gemm (SNdArray a) (a2_cols a) (a2_rows a)
| hm_qa q : qa_usable q -> gemm_exact f32_ops gemm q ->
    holds_matrix gemm (SQuantized q) (pq_rl (qa_pq q)) (quantized_rows f32_ops q)
| hm_mma m a : mma_view m = Ok a -> holds_matrix gemm (SMmapArray m) (a2_cols a) (a2_rows a)
| hm_mmq m q : mmq_to_quantized m = Ok q -> pq_ql (mq_pq m) <> 0 -> qa_usable q -> gemm_exact f32_ops gemm q ->
    holds_matrix gemm (SMmapQuantized m) (pq_rl (qa_pq q)) (quantized_rows f32_ops q).

(** ** Vectors *)
Section Vectors.
  Context {F : Type} (o : fops F).

  (** Component by component, in order of the rows. *)
  Definition component_sum (rs : list (list F)) (j : nat) : F :=
    fold_left (fun a r => fadd o a (nth j r (fzero o))) rs (fzero o).
  Definition component_sums (cols : N) (rs : list (list F)) : list F :=
    map (component_sum rs) (seq 0 (N.to_nat cols)).

  (** [v] is [u] divided by its length [n]; a vector of length zero is not
      divided. *)
  Definition scaled_by_length (u v : list F) (n : F) : Prop :=
    n = fsqrt o (vdot o u u) /\
    (fis_zero o n = true -> v = u) /\
    (fis_zero o n = false -> v = map (fun x => fdiv o x n) u).
  (** The result of looking up a string with the subword rows [rs]. *)
  Definition subword_result (cols : N) (rs : list (list F)) (r : option (list F)) : Prop :=
    (rs = [] /\ r = None) \/
    (rs <> [] /\ exists v n, scaled_by_length (component_sums cols rs) v n /\ r = Some v).
End Vectors.

(** ** Embeddings *)

(** Embeddings built from a vocabulary and a matrix by the constructor. *)
Definition emb_made {Md S F} (SO : storage_ops F S) (pf : profile)
           (e : embeddings Md vocab_wrap S F) (cols : N) (rows : list (list F)) : Prop :=
  vocab_made pf (em_vocab e) /\ st_matrix SO (em_storage e) cols rows /\
  emb_new_with_maybe_norms wrap_ops SO pf (em_meta e) (em_vocab e) (em_storage e) (em_norms e) = Ok e.

(** The norm of word [i]. *)
Definition norm_of {Md S F} (o : fops F) (e : embeddings Md vocab_wrap S F) (i : N) (n : F) : Prop :=
  match em_norms e with None => n = fone o | Some ns => nthN ns i = Some n end.

(** A hash map in any order. *)
Definition any_order {K V} (order : list (K * V) -> list (K * V)) : Prop :=
  forall m, Permutation m (order m).

(** ** Conversion to explicit n-grams *)

(** What looking up a string gives whose n-grams have the indices [l], counted
    from [n]. *)
Definition idx_res (n : N) (l : list N) : option word_index :=
  match l with [] => None | _ => Some (Subwords (map (fun i => n + i) l)) end.

Section Converted.
  Context {Md S S' F : Type} (o : fops F) (SO : storage_ops F S) (SO' : storage_ops F S') (pf : profile).

  (** What the conversion of [e] to [e'] preserves. *)
  Definition converted {I} (ops : indexer_ops I) (v : subword_vocab I) (s : S) (md : option Md) (norms : option (list F))
      (cols : N) (rows : list (list F)) (e' : embeddings Md (subword_vocab explicit_indexer) S' F) : Prop :=
    let e := mkEmb md s v norms in
    em_meta e' = None /\ em_norms e' = norms /\ sv_words (em_vocab e') = sv_words v /\
    sv_min (em_vocab e') = sv_min v /\ sv_max (em_vocab e') = sv_max v /\
    (exists rows', emb_made SO' pf (emb_wrap VExplicit (fun s => s) e') cols rows') /\
    (forall w, In w (sv_words v) -> exists r, emb_embedding o (sub_ops ops) SO pf e w = Ok (Some r) /\
       emb_embedding o (sub_ops explicit_ops) SO' pf e' w = Ok (Some r)) /\
    (forall w, sv_bow v = default_bow -> sv_eow v = default_eow -> utf8_valid w = true -> ~ In w (sv_words v) ->
       exists items is r r', ngrams_of (default_bow ++ w ++ default_eow) (sv_min v) (sv_max v) (map (fun p => fst (fst p)) items) /\
       (forall q k row, In (q, k, row) items -> (k = true <-> occurs v (sw_str q))) /\
       v_idx (sub_ops ops) pf v w = Ok (idx_res 0 is) /\ selects rows is (map snd items) /\
       subword_result o cols (map snd items) r /\
       subword_result o cols (map snd (filter (fun p => snd (fst p)) items)) r' /\
       emb_embedding o (sub_ops ops) SO pf e w = Ok r /\
       emb_embedding o (sub_ops explicit_ops) SO' pf e' w = Ok r') /\
    (forall w, sv_bow v = default_bow -> sv_eow v = default_eow -> utf8_valid w = true ->
       (forall g, ngram_in (default_bow ++ w ++ default_eow) (sv_min v) (sv_max v) g -> occurs v g) ->
       emb_embedding o (sub_ops explicit_ops) SO' pf e' w = emb_embedding o (sub_ops ops) SO pf e w).
End Converted.

(** ** Quantization *)

(** A code of [bits] bits fits a byte and there is a row for every centroid. *)
Definition trainable (rows bits : N) : Prop := bits <= 8 /\ (bits = 0 \/ 2 ^ bits <= rows).

(** What reductive's training and encoding are assumed to do: the quantizer has
    the width of the data, consistent shapes, and codes are centroid numbers. *)
Record trainer_fits {F} (tr : trainer F) : Prop := {
  tf_train : forall ns bits it at_ a p, tr_train tr ns bits it at_ a = Ok p ->
    pq_rl p = a2_cols a /\ lenN (pq_cent p) = pq_ql p /\
    Forall (fun sub => lenN sub = pq_nc p /\ Forall (fun v => lenN v = pq_sub p) sub) (pq_cent p) /\
    (forall m, pq_proj p = Some m -> a2_nrows m = pq_rl p);
  tf_codes : forall ns bits it at_ a p, tr_train tr ns bits it at_ a = Ok p -> a2_nrows (tr_quantize tr p a) = a2_nrows a /\
    Forall (fun r => lenN r = pq_ql p /\ Forall (fun c => bN c < pq_nc p) r) (a2_rows (tr_quantize tr p a))
}.

(** The rows the quantizer is trained on and the norms that are stored. *)
Definition training_data {F} (o : fops F) (normalize : bool) (rows data : list (list F)) (norms : option (list F)) : Prop :=
  if normalize
  then data = map (fun r => map (fun x => fdiv o x (fsqrt o (vdot o r r))) r) rows /\
       norms = Some (map (fun r => fsqrt o (vdot o r r)) rows)
  else data = rows /\ norms = None.

(** Neither infinite nor NaN. *)
Definition f32_finite (x : f32) : bool :=
  match f32_to_sf x with
  | SpecFloat.S754_zero _ | SpecFloat.S754_finite _ _ _ => true
  | _ => false
  end.
