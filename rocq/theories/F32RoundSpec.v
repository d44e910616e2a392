(** * Vocabulary of the statements about rounding.

    Nothing here is part of the model. *)
From Coq Require Import Reals Floats.SpecFloat.
From Verif Require Import Base F32.
Local Open Scope R_scope.

(** The value of a finite number. *)
Definition f32_value (x : f32) : option R :=
  match f32_to_sf x with
  | S754_zero _ => Some 0
  | S754_finite s m e => Some ((if s then -1 else 1) * IZR (Zpos m) * powerRZ 2 e)
  | S754_infinity _ | S754_nan => None
  end.
(** The sign bit. *)
Definition f32_negative (x : f32) : bool := (2147483648 <=? f32_bits x)%N.
Definition f32_infinite (x : f32) : Prop := exists s, f32_to_sf x = S754_infinity s.

(** Half a unit in the last place above the largest number. *)
Definition too_large (r : R) : Prop := 33554431 * powerRZ 2 103 <= Rabs r.

(** [x] is the number nearest to [r]; of two that are equally near it is the
    one whose last bit is zero.  A result that is not zero has the sign of
    [r], also if it is rounded to zero. *)
Definition rounds_to (r : R) (x : f32) : Prop :=
  (0 < r -> f32_negative x = false) /\ (r < 0 -> f32_negative x = true) /\
  ((too_large r /\ f32_infinite x) \/
   (~ too_large r /\ exists v, f32_value x = Some v /\
    forall y w, f32_value y = Some w ->
      Rabs (r - v) <= Rabs (r - w) /\ (Rabs (r - v) = Rabs (r - w) -> w = v \/ N.even (f32_bits x) = true))).

(** ** Special values *)
Definition f32_finite (x : f32) : Prop := exists v, f32_value x = Some v.
(** [x] is infinite and has the sign [neg]. *)
Definition f32_inf (neg : bool) (x : f32) : Prop := f32_infinite x /\ f32_negative x = neg.

Definition R_order (a b : R) (c : comparison) : Prop :=
  match c with Lt => a < b | Eq => a = b | Gt => b < a end.

(** Half a unit in the last place, and for small numbers half of the least
    positive number. *)
Definition rounding_error (r : R) : R := Rmax (powerRZ 2 (-24) * Rabs r) (powerRZ 2 (-150)).

(** The order of [partial_cmp]: neither is NaN. *)
Definition f32_le (x y : f32) : Prop := exists c, f32_cmp x y = Some c /\ c <> Gt.
Definition f32_lt (x y : f32) : Prop := f32_cmp x y = Some Lt.

(** What is assumed about [f32::acos] (libm): on [-1, 1] it is antitone and
    stays between zero and [f32::consts::PI]. *)
Definition f32_minus_one : f32 := F32 x00 x00 x80 xbf.
Record acos_law (acos : f32 -> f32) (pi : f32) : Prop := mkAcosLaw {
  acos_pi : exists p, f32_value pi = Some p /\ 0 < p;
  acos_anti : forall x y, f32_le f32_minus_one x -> f32_le x y -> f32_le y f32_one -> f32_le (acos y) (acos x);
  acos_range : forall x, f32_le f32_minus_one x -> f32_le x f32_one -> f32_le f32_zero (acos x) /\ f32_le (acos x) pi }.

(** ** Vectors *)

(** The value, zero if there is none. *)
Definition f32_R (x : f32) : R := match f32_value x with Some v => v | None => 0 end.
(** The Euclidean length. *)
Definition length_R (v : list R) : R := sqrt (fold_right Rplus 0 (map (fun x => x * x) v)).
(** The relative error of the length of [n] numbers: 13 roundings, and one
    for every eight numbers. *)
Definition length_error (n : N) : R := (IZR (Z.of_N n) / 8 + 13) * powerRZ 2 (-24).
