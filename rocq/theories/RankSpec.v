(** * Vocabulary of the statements about ranking in [f32].

    Nothing here is part of the model. *)
From Coq Require Import Reals.
From Verif Require Import Base F32 Vocab Storage Embeddings Similarity VocabSpec EmbSpec SimSpec F32RoundSpec.
Local Open Scope R_scope.

(** The dot product of numbers, and the cosine of the angle. *)
Definition dot_R (a b : list R) : R := fold_right Rplus 0 (map (fun p => fst p * snd p) (combine a b)).
Definition cosine_R (a b : list R) : R := dot_R a b / (length_R a * length_R b).

(** [w] is the vector [v] of finite numbers divided by its length, which must
    not be tiny. *)
Definition unit_of (v w : list f32) : Prop :=
  Forall f32_finite v /\ exists n nv, scaled_by_length f32_ops v w n /\ f32_value n = Some nv /\ powerRZ 2 (-40) <= nv.

(** The rows of the words are unit vectors of [vs]. *)
Definition word_rows (words : list str) (vs rows : list (list f32)) : Prop :=
  forall i w, nthN words i = Some w -> exists v r, nthN vs i = Some v /\ nthN rows i = Some r /\ unit_of v r.

(** [x] is before [y] in [l]. *)
Definition before {A} (l : list A) (x y : A) : Prop := exists l1 l2 l3, l = l1 ++ x :: l2 ++ y :: l3.

(** What the result of a query says about the cosines of the vectors [vs] and
    the query [q], exactly computed: a similarity differs from the cosine by
    at most [er], and what is ranked lower or left out is more similar by at
    most twice as much. *)
Record ranked (words : list str) (vs : list (list f32)) (q : list f32) (skip : list str) (er : R) (rs : list (wsr f32)) : Prop := {
  rk_sim : forall x, In x rs -> exists i v s, nthN words i = Some (wr_word x) /\ nthN vs i = Some v /\
    f32_value (wr_sim x) = Some s /\ Rabs (s - cosine_R (map f32_R v) (map f32_R q)) <= er;
  rk_order : forall i j x y v v', nthN words i = Some x -> nthN vs i = Some v -> nthN words j = Some y -> nthN vs j = Some v' ->
    before (map wr_word rs) x y \/ (In x (map wr_word rs) /\ ~ In y (map wr_word rs) /\ ~ In y skip) ->
    cosine_R (map f32_R v') (map f32_R q) <= cosine_R (map f32_R v) (map f32_R q) + 2 * er
}.
