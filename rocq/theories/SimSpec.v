(** * Vocabulary of the statements about similarity queries.

    Nothing here is part of the model. *)
From Coq Require Import Sorting.Permutation Sorting.Sorted.
From Verif Require Import Base F32 Vocab Storage Embeddings Similarity FileSpec VocabSpec EmbSpec.
Local Open Scope N_scope.

(** ** Order of numbers *)

(** Not NaN. *)
Definition number {F} (o : fops F) (x : F) : Prop := fcmp o x x <> None.

(** Numbers are compared by a total preorder. *)
Record ordered {F} (o : fops F) : Prop := {
  or_total : forall x y, number o x -> number o y ->
    exists c, fcmp o x y = Some c /\ fcmp o y x = Some (CompOpp c);
  or_trans : forall x y z, fcmp o x y = Some Lt -> fcmp o y z = Some Lt -> fcmp o x z = Some Lt;
  or_eq : forall x y z, fcmp o x y = Some Eq -> fcmp o x z = fcmp o y z
}.

(** Multiplying by one changes nothing. *)
Definition one_neutral {F} (o : fops F) : Prop :=
  forall x, (number o x -> fmul o x (fone o) = x) /\ (number o (fmul o x (fone o)) -> number o x).

(** ** Queries *)

(** [a] comes before [b]: it is more similar, or equally similar and first by
    its bytes. *)
Definition better {F} (o : fops F) (a b : wsr F) : Prop :=
  fcmp o (wr_sim a) (wr_sim b) = Some Gt \/
  (fcmp o (wr_sim a) (wr_sim b) = Some Eq /\ str_compare (wr_word a) (wr_word b) = Lt).

(** The words that are not skipped, with the dot product of their rows and
    the query. *)
Definition candidate {F} (o : fops F) (words : list str) (rows : list (list F)) (skip : list str) (q : list F)
           (x : wsr F) : Prop :=
  exists i r, nthN words i = Some (wr_word x) /\ nthN rows i = Some r /\
  ~ In (wr_word x) skip /\ wr_sim x = vdot o r q.

(** The [limit] best candidates, best first. *)
Record top_k {F} (o : fops F) (cand : wsr F -> Prop) (limit : N) (rs : list (wsr F)) : Prop := {
  tk_cand : forall x, In x rs -> cand x;
  tk_sorted : StronglySorted (better o) rs;
  tk_count : forall cs, NoDup cs -> (forall x, In x cs <-> cand x) -> lenN rs = N.min limit (lenN cs);
  tk_omitted : forall x, cand x -> ~ In x rs -> forall r, In r rs -> better o r x
}.

(** When a query has a result: see [similarity_ok_iff_thm]. *)
Record query_ok {F} (o : fops F) (words : list str) (cols : N) (rows : list (list F)) (skip : list str) (q : list F)
       (limit : N) (batch : option N) : Prop := {
  qo_capacity : limit * 24 <= isize_max;
  qo_batch : match batch with Some b => b <> 0 | None => words <> [] end;
  qo_width : words = [] \/ lenN q = cols;
  qo_numbers : forall x, candidate o words rows skip q x -> number o (wr_sim x);
  qo_limit : limit = 0 -> forall x, ~ candidate o words rows skip q x
}.

(** The vector [b - a + c]. *)
Definition analogy_vector {F} (o : fops F) (cols : N) (va vb vc : list F) : list F :=
  map (fun j => fadd o (fsub o (nth j vb (fzero o)) (nth j va (fzero o))) (nth j vc (fzero o))) (seq 0 (N.to_nat cols)).

(** The word that is compared first: the first that is not skipped. *)
Definition first_candidate (words : list str) (skip : list str) (i : N) : Prop :=
  (exists w, nthN words i = Some w /\ ~ In w skip) /\
  forall j w, j < i -> nthN words j = Some w -> In w skip.

(** When a query panics, and how. *)
Inductive query_panic {F} (o : fops F) (words : list str) (cols : N) (rows : list (list F)) (skip : list str) (q : list F)
          (limit : N) (batch : option N) : panic -> Prop :=
| qp_capacity : isize_max < limit * 24 -> query_panic o words cols rows skip q limit batch PCapacity
| qp_batch : limit * 24 <= isize_max -> match batch with Some b => b = 0 | None => words = [] end ->
    query_panic o words cols rows skip q limit batch PAssert
| qp_width : limit * 24 <= isize_max -> batch <> Some 0 -> words <> [] -> lenN q <> cols ->
    query_panic o words cols rows skip q limit batch PAssert
| qp_nan x : limit * 24 <= isize_max -> batch <> Some 0 -> lenN q = cols -> limit <> 0 ->
    candidate o words rows skip q x -> ~ number o (wr_sim x) ->
    query_panic o words cols rows skip q limit batch PNaN
| qp_zero i r : limit = 0 -> batch <> Some 0 -> lenN q = cols -> first_candidate words skip i ->
    nthN rows i = Some r -> number o (vdot o r q) -> query_panic o words cols rows skip q limit batch PAssert
| qp_zero_nan i r : limit = 0 -> batch <> Some 0 -> lenN q = cols -> first_candidate words skip i ->
    nthN rows i = Some r -> ~ number o (vdot o r q) -> query_panic o words cols rows skip q limit batch PNaN.

(** ** Conversions *)

(** The conversions to [StorageViewWrap], /repo/src/chunks/storage/wrappers.rs
    290-300: the operations of the type, and its view. *)
Inductive view_kind : forall S, storage_ops f32 S -> (S -> res (array2 f32)) -> (S -> storage_view_wrap) -> Prop :=
| vk_nd : view_kind _ (nd_ops f32) (fun a => Ok a) SvNdArray
| vk_mma : view_kind _ mma_ops mma_view SvMmapArray.
