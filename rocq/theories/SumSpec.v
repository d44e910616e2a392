(** * Vocabulary of the statements about sums of rows in [f32].

    Nothing here is part of the model. *)
From Coq Require Import Reals.
From Verif Require Import Base F32 F32RoundSpec.
Local Open Scope R_scope.

(** The exact sum of the rows, and the sum of their lengths. *)
Definition sums_R (cols : N) (rs : list (list f32)) : list R :=
  map (fun j => fold_right Rplus 0 (map (fun r => f32_R (nth j r f32_zero)) rs)) (seq 0 (N.to_nat cols)).
Definition total_length (rs : list (list f32)) : R :=
  fold_right Rplus 0 (map (fun r => length_R (map f32_R r)) rs).
(** The Euclidean distance. *)
Definition distance_R (a b : list R) : R := length_R (map (fun p => fst p - snd p) (combine a b)).
(** The vector of length one in the same direction. *)
Definition direction_R (a : list R) : list R := map (fun x => x / length_R a) a.
