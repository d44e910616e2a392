(** * Vocabulary of the statements about round trips in [f32].

    Nothing here is part of the model. *)
From Coq Require Import Reals.
From Verif Require Import Base F32 Vocab Storage Embeddings VocabSpec EmbSpec F32RoundSpec SumSpec.
Local Open Scope R_scope.

(** The factor that a writer multiplies a row with. *)
Definition output_scale (unnormalize : bool) (n : f32) (s : R) : Prop := if unnormalize then f32_value n = Some s else s = 1.

(** The row of every word and what a writer multiplies it with are finite, and
    the length of the vector is neither tiny nor huge. *)
Definition plain_vectors {Md S} (unnormalize : bool) (e : embeddings Md vocab_wrap S f32) (rows : list (list f32)) : Prop :=
  forall i w r n, nthN (v_words wrap_ops (em_vocab e)) i = Some w -> nthN rows i = Some r -> norm_of f32_ops e i n ->
  Forall f32_finite r /\ exists s, output_scale unnormalize n s /\ 0 < s /\
  powerRZ 2 (-36) <= s * length_R (map f32_R r) <= powerRZ 2 49.

(** The words are those of [e].  A row has the direction of the row of [e],
    and is near the row itself if that has length one; a norm is near the
    length of the vector that was written. *)
Definition near_embeddings {Md S} (unnormalize : bool) (e : embeddings Md vocab_wrap S f32) (cols : N) (rows : list (list f32))
           (e' : embeddings Md simple_vocab (array2 f32) f32) : Prop :=
  simple_new (v_words wrap_ops (em_vocab e)) = Ok (em_vocab e') /\
  exists ns, em_norms e' = Some ns /\ lenN ns = v_words_len wrap_ops (em_vocab e) /\
  a2_cols (em_storage e') = cols /\ lenN (a2_rows (em_storage e')) = v_words_len wrap_ops (em_vocab e) /\
  forall i w, nthN (v_words wrap_ops (em_vocab e)) i = Some w -> exists r n s r' n' nv,
  nthN rows i = Some r /\ norm_of f32_ops e i n /\ output_scale unnormalize n s /\
  nthN (a2_rows (em_storage e')) i = Some r' /\ nthN ns i = Some n' /\ f32_value n' = Some nv /\
  Forall f32_finite r' /\ lenN r' = lenN r /\
  distance_R (map f32_R r') (direction_R (map f32_R r)) <= 2 * length_error cols + 3 * powerRZ 2 (-24) /\
  distance_R (map f32_R r') (map f32_R r) <= 2 * length_error cols + 3 * powerRZ 2 (-24) + Rabs (length_R (map f32_R r) - 1) /\
  Rabs (nv - s * length_R (map f32_R r)) <= 2 * length_error cols * (s * length_R (map f32_R r)).

(** ** fastText models

    [own] is the row of a word in the model and [rs] the rows of its subwords.
    The components are finite, the length of their mean is neither tiny nor
    huge, and the rows do not cancel completely. *)
Definition plain_mean (cols : N) (own : list f32) (rs : list (list f32)) : Prop :=
  Forall (Forall f32_finite) (own :: rs) /\ (lenN rs <= 4194304)%N /\ total_length (own :: rs) <= powerRZ 2 100 /\
  powerRZ 2 (-35) <= length_R (sums_R cols (own :: rs)) / (INR (length rs) + 1) <= powerRZ 2 48 /\
  8 * (INR (length rs) * powerRZ 2 (-24)) * total_length (own :: rs) <= length_R (sums_R cols (own :: rs)).
(** The row [r] has the direction of the mean and the norm [n] is the length of
    the mean, up to rounding. *)
Definition near_mean (cols : N) (own : list f32) (rs : list (list f32)) (r : list f32) (n : f32) : Prop :=
  exists nv, f32_value n = Some nv /\ Forall f32_finite r /\ lenN r = cols /\
  distance_R (map f32_R r) (direction_R (sums_R cols (own :: rs))) <=
    2 * length_error cols + 3 * powerRZ 2 (-24) + 4 * (INR (length rs) * powerRZ 2 (-24)) * (total_length (own :: rs) / length_R (sums_R cols (own :: rs))) /\
  Rabs (nv - length_R (sums_R cols (own :: rs)) / (INR (length rs) + 1)) <=
    (2 * length_error cols + 2 * (INR (length rs) * powerRZ 2 (-24)) * (total_length (own :: rs) / length_R (sums_R cols (own :: rs)))) *
    (length_R (sums_R cols (own :: rs)) / (INR (length rs) + 1)).

(** [d] and [n] are the row and the norm of a word in embeddings that are
    written.  The vector of the word is neither tiny nor huge, and its subwords
    are not too many or too long compared to it. *)
Definition plain_ft_word (d : list f32) (n : f32) (rs : list (list f32)) : Prop :=
  Forall (Forall f32_finite) (d :: rs) /\ (lenN rs <= 1048576)%N /\ total_length rs <= powerRZ 2 100 /\
  exists s, f32_value n = Some s /\ 0 < s /\ powerRZ 2 (-35) <= s * length_R (map f32_R d) <= powerRZ 2 47 /\
  20 * powerRZ 2 (-24) * ((INR (length rs) + 1) * (s * length_R (map f32_R d)) + 2 * total_length rs) <= s * length_R (map f32_R d).
(** [d'] and [n'] have the same direction and length, up to rounding. *)
Definition near_ft_word (cols : N) (d : list f32) (n : f32) (rs : list (list f32)) (d' : list f32) (n' : f32) : Prop :=
  exists s nv, f32_value n = Some s /\ f32_value n' = Some nv /\ Forall f32_finite d' /\ lenN d' = cols /\
  distance_R (map f32_R d') (direction_R (map f32_R d)) <=
    2 * length_error cols + 11 * powerRZ 2 (-24) * (INR (length rs) + 1 + 2 * (total_length rs / (s * length_R (map f32_R d)))) /\
  Rabs (nv - s * length_R (map f32_R d)) <=
    2 * length_error cols * (s * length_R (map f32_R d)) + 5 * powerRZ 2 (-24) * ((INR (length rs) + 1) * (s * length_R (map f32_R d)) + 2 * total_length rs).
