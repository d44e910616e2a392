(** * Vocabulary of the statements about numbers as text.

    Nothing here is part of the model. *)
From Coq Require Import Strings.String Strings.Byte Floats.SpecFloat.
From Verif Require Import Base F32 TextIO TextSpec.
Local Open Scope N_scope.

(** ** Which texts are decimals *)

(** A sign that may be missing. *)
Definition sign_text (neg : bool) (s : str) : Prop :=
  if neg then s = ["-"%byte] else s = [] \/ s = ["+"%byte].

(** Digits before and after the point; without digits after it the point may
    be missing, but there is a digit. *)
Definition digits_point (s : str) (ds fs : list N) : Prop :=
  ds ++ fs <> [] /\ Forall (fun d => d < 10) ds /\ Forall (fun d => d < 10) fs /\
  (s = digits_text ds ++ "."%byte :: digits_text fs \/ fs = [] /\ s = digits_text ds).

(** An exponent that may be missing.  Digits after the number has reached
    65536 do not count. *)
Fixpoint capped (ds : list N) (acc : N) : N :=
  match ds with [] => acc | d :: ds' => capped ds' (if acc <? 65536 then acc * 10 + d else acc) end.
Definition exponent_text (s : str) (e : Z) : Prop :=
  s = [] /\ e = 0%Z \/
  exists c neg sg ds, (c = "e"%byte \/ c = "E"%byte) /\ sign_text neg sg /\ ds <> [] /\ Forall (fun d => d < 10) ds /\
  s = c :: sg ++ digits_text ds /\ e = (if neg then - Z.of_N (capped ds 0) else Z.of_N (capped ds 0))%Z.

(** [s] is the text of [+-d * 10^e]. *)
Definition decimal_text (s : str) (neg : bool) (d : N) (e : Z) : Prop :=
  exists sg body ds fs ex e0, sign_text neg sg /\ digits_point body ds fs /\ exponent_text ex e0 /\
  s = sg ++ body ++ ex /\ d = digits_value (ds ++ fs) /\ e = (e0 - Z.of_N (lenN fs))%Z.

(** A word in any case, with a sign that may be missing. *)
Definition upper_of (a b : byte) : Prop := a = b \/ (97 <= bN b <= 122 /\ bN a + 32 = bN b).
Definition word_text (w : string) (neg : bool) (s : str) : Prop :=
  exists sg body, sign_text neg sg /\ s = sg ++ body /\ Forall2 upper_of body (list_byte_of_string w).

(** ** Numbers *)

(** The value of a finite number in units of [2^-149], and its sign. *)
Definition f32_units (x : f32) : option (bool * Z) :=
  match f32_to_sf x with
  | S754_zero s => Some (s, 0%Z)
  | S754_finite s p e => Some (s, Zpos p * 2 ^ (e + 149))%Z
  | _ => None
  end.

(** [d * 10^e] in the same units: a numerator and a denominator. *)
Definition decimal_units (d : N) (e : Z) : Z * Z :=
  (Z.of_N d * 2 ^ 149 * 10 ^ Z.max 0 e, 10 ^ Z.max 0 (- e))%Z.

(** The distance to the decimal, times the denominator. *)
Definition distance (d : N) (e : Z) (u : Z) : Z :=
  let '(a, b) := decimal_units d e in Z.abs (a - u * b).

(** From here on the decimal is nearer to [2^128] than to the largest number:
    half a unit in the last place above it. *)
Definition overflows (d : N) (e : Z) : Prop :=
  let '(a, b) := decimal_units d e in ((2 ^ 25 - 1) * 2 ^ 252 * b <= a)%Z.

(** [x] is the number nearest to [+-d * 10^e]; of two that are equally near
    it is the one with an even mantissa. *)
Definition nearest (neg : bool) (d : N) (e : Z) (x : f32) : Prop :=
  (overflows d e /\ f32_to_sf x = S754_infinity neg) \/
  (~ overflows d e /\ exists u, f32_units x = Some (neg, u) /\
   forall y v, f32_units y = Some (neg, v) -> 
     (distance d e u <= distance d e v)%Z /\
     (distance d e u = distance d e v -> y = x \/ N.even (f32_bits x) = true)).
