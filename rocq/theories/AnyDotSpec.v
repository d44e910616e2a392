(** * Vocabulary of the statements about dot products that are computed in any way.

    Nothing here is part of the model. *)
From Coq Require Import Reals Sorting.Permutation.
From Verif Require Import Base F32 Vocab Storage Embeddings Similarity SimSpec F32RoundSpec.
Local Open Scope N_scope.

(** A product of a matrix and a vector has one entry per row. *)
Definition one_per_row {F} (gemv : list (list F) -> list F -> list F) : Prop :=
  forall rows q, length (gemv rows q) = length rows.

(** The entry for the row [i] if the rows are cut into batches of [b] rows: the
    batch of the row starts at the last multiple of [b]. *)
Definition batch_entry {F} (gemv : list (list F) -> list F -> list F) (b : N) (rows : list (list F)) (q : list F) (i : N) (s : F) : Prop :=
  nthN (gemv (takeN b (dropN (i / b * b) rows)) q) (i mod b) = Some s.

(** The words that are not skipped, with the entries for their rows. *)
Definition candidate_by {F} (gemv : list (list F) -> list F -> list F) (words : list str) (rows : list (list F)) (skip : list str)
           (q : list F) (b : N) (x : wsr F) : Prop :=
  exists i, nthN words i = Some (wr_word x) /\ ~ In (wr_word x) skip /\
  batch_entry gemv b (takeN (lenN words) rows) q i (wr_sim x).

(** The batch size that is used. *)
Definition batch_of (words : list str) (batch : option N) : N :=
  match batch with Some b => b | None => lenN words end.

(** When a query has a result. *)
Record query_ok_by {F} (o : fops F) (gemv : list (list F) -> list F -> list F) (words : list str) (cols : N) (rows : list (list F))
       (skip : list str) (q : list F) (limit : N) (batch : option N) : Prop := {
  qb_capacity : limit * 24 <= isize_max;
  qb_batch : batch_of words batch <> 0;
  qb_width : words = [] \/ lenN q = cols;
  qb_numbers : forall x, candidate_by gemv words rows skip q (batch_of words batch) x -> number o (wr_sim x);
  qb_limit : limit = 0 -> forall x, ~ candidate_by gemv words rows skip q (batch_of words batch) x
}.

(** [v] divided by the computed length [n], unless that is zero. *)
Definition scaled_by {F} (o : fops F) (dot : list F -> list F -> F) (u v : list F) (n : F) : Prop :=
  n = fsqrt o (dot u u) /\
  (fis_zero o n = true -> v = u) /\
  (fis_zero o n = false -> v = map (fun x => fdiv o x n) u).

(** ** Sums of products in [f32] *)
Local Open Scope R_scope.

(** [z] is [a * b + x], rounded once. *)
Definition fused (a b x z : f32) : Prop :=
  (f32_finite z -> f32_finite a /\ f32_finite b /\ f32_finite x) /\
  forall va vb vx, f32_value a = Some va -> f32_value b = Some vb -> f32_value x = Some vx -> rounds_to (va * vb + vx) z.

(** [x] is the sum of the products of the pairs, computed in any order and
    with any grouping; products may be rounded or fused with an addition, and
    zeros may be added.  No result depends on more than [d] roundings one
    after the other, and there are [c] roundings. *)
Inductive sum_order : nat -> nat -> list (f32 * f32) -> f32 -> Prop :=
| so_zero : sum_order 0 0 [] f32_zero
| so_mul a b : sum_order 1 1 [(a, b)] (f32_mul a b)
| so_add d d' c c' l l' x y : sum_order d c l x -> sum_order d' c' l' y ->
    sum_order (S (Nat.max d d')) (c + c' + 1) (l ++ l') (f32_add x y)
| so_fused d c l a b x z : sum_order d c l x -> fused a b x z -> sum_order (S d) (c + 1) ((a, b) :: l) z
| so_one d c l x : sum_order d c l x -> sum_order d c l (f32_mul x f32_one)
| so_perm d c l l' x : sum_order d c l x -> Permutation l l' -> sum_order d c l' x.

(** At most [d] roundings after each other. *)
Definition sums (d : nat) (a b : list f32) (x : f32) : Prop :=
  exists d' c, (d' <= d)%nat /\ (N.of_nat c <= 16777216)%N /\ sum_order d' c (combine a b) x.

(** The error of [d] roundings. *)
Definition depth_error (d : nat) : R := INR d * powerRZ 2 (-24).
(** All sums are computed with at most [d] roundings after each other. *)
Definition dot_depth (d : nat) (cols : N) (dot : list f32 -> list f32 -> f32) : Prop :=
  forall a b, lenN a = cols -> lenN b = cols -> sums d a b (dot a b).
Definition gemv_depth (d : nat) (cols : N) (gemv : list (list f32) -> list f32 -> list f32) : Prop :=
  forall rows q, Forall (fun r => lenN r = cols) rows -> lenN q = cols ->
  Forall2 (fun r s => sums d r q s) rows (gemv rows q).

(** [w] is the vector [v] of finite numbers divided by its length, which must
    not be tiny and is computed with at most [d] roundings after each
    other. *)
Definition unit_by (d : nat) (v w : list f32) : Prop :=
  Forall f32_finite v /\ exists s n nv, sums d v v s /\ n = f32_sqrt s /\ w = map (fun x => f32_div x n) v /\
  f32_value n = Some nv /\ powerRZ 2 (-40) <= nv.
Definition word_rows_by (d : nat) (words : list str) (vs rows : list (list f32)) : Prop :=
  forall i w, nthN words i = Some w -> exists v r, nthN vs i = Some v /\ nthN rows i = Some r /\ unit_by d v r.
