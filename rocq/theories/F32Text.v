(** * Decimal text of 32-bit floating-point numbers

    Rust's [f32::from_str] and [Display for f32], used by
    /repo/src/compat/text.rs 60, 240 and /repo/src/compat/floret/io.rs: an
    instance of the interface [ftext_ops] that the text formats are modelled
    against.

    [from_str] (core::num::dec2flt) returns the number nearest to the
    decimal, the even one of two.  [Display] (core::num::flt2dec) writes the
    shortest decimal that is read back, the nearest one of these, without an
    exponent.  Both are written here as exact arithmetic on natural numbers,
    not as the algorithms that the standard library uses. *)
From Coq Require Import Strings.String Strings.Byte.
From Verif Require Import Base F32 TextIO.
Local Open Scope N_scope.

(** ** Rounding *)

(** [x / d] rounded to the nearest integer, half to even. *)
Definition rne (x d : N) : N :=
  let '(q, r) := N.div_eucl x d in
  match 2 * r ?= d with
  | Lt => q
  | Gt => q + 1
  | Eq => if N.even q then q else q + 1
  end.

(** The integer part of the binary logarithm of [x / b], 0 if below 1. *)
Definition log2_ratio (x b : N) : N :=
  let l := N.log2 x - N.log2 b in if b * 2 ^ l <=? x then l else l - 1.

(** The bits of positive infinity. *)
Definition inf_bits : N := 2139095040.

(** The bits of the [f32] nearest to [a / b].  With [x = a * 2^149] the
    number [x / b] counts units of the least positive number; [k] is the
    number of low bits that do not fit in the 24 bits of a mantissa. *)
Definition round_ratio (a b : N) : N :=
  let x := a * 2 ^ 149 in
  let k := log2_ratio x b - 23 in
  N.min (k * 8388608 + rne x (b * 2 ^ k)) inf_bits.

(** The bits of the [f32] nearest to [d * 10^e].  From [10^39] everything is
    infinite, and below [10^-46] everything is zero; the powers that decide
    this need not be computed. *)
Definition round_dec (d : N) (e : Z) : N :=
  if d =? 0 then 0
  else if (39 <=? e)%Z then inf_bits
  else if (e + Z.of_N (N.log2 d) <? -46)%Z then 0
  else match e with
       | Zneg p => round_ratio d (10 ^ Npos p)
       | _ => round_ratio (d * 10 ^ Z.to_N e) 1
       end.

(** ** Reading *)

(** The digits at the start: their value after [acc], their number, and the
    rest. *)
Fixpoint eat_digits (s : str) (acc n : N) : N * N * str :=
  match s with
  | [] => (acc, n, [])
  | b :: s' =>
      match digit_value b with
      | None => (acc, n, s)
      | Some d => eat_digits s' (acc * 10 + d) (n + 1)
      end
  end.

(** The digits of an exponent; the value is not increased beyond 65536. *)
Fixpoint eat_exponent (s : str) (acc n : N) : N * N * str :=
  match s with
  | [] => (acc, n, [])
  | b :: s' =>
      match digit_value b with
      | None => (acc, n, s)
      | Some d => eat_exponent s' (if acc <? 65536 then acc * 10 + d else acc) (n + 1)
      end
  end.

Definition signed (neg : bool) (n : N) : Z := if neg then Z.opp (Z.of_N n) else Z.of_N n.

(** An optional exponent up to the end. *)
Definition parse_exponent (s : str) : option Z :=
  match s with
  | [] => Some 0%Z
  | c :: s' =>
      if byte_eqb c "e"%byte || byte_eqb c "E"%byte then
        let '(neg, s'') := match s' with
                           | b :: t => if byte_eqb b "-"%byte then (true, t)
                                       else if byte_eqb b "+"%byte then (false, t) else (false, s')
                           | [] => (false, s')
                           end in
        let '(v, n, rest) := eat_exponent s'' 0 0 in
        match rest with
        | [] => if n =? 0 then None else Some (signed neg v)
        | _ => None
        end
      else None
  end.

(** Digits, possibly with a point among them, and an exponent: the decimal
    [d * 10^e]. *)
Definition parse_decimal (s : str) : option (N * Z) :=
  let '(v, n, s1) := eat_digits s 0 0 in
  let '(v, n, frac, s2) :=
    match s1 with
    | b :: t => if byte_eqb b "."%byte
                then let '(v', n', t') := eat_digits t v 0 in (v', n + n', n', t')
                else (v, n, 0, s1)
    | [] => (v, n, 0, s1)
    end in
  if n =? 0 then None
  else match parse_exponent s2 with
       | Some e => Some (v, (e - Z.of_N frac)%Z)
       | None => None
       end.

(** ASCII letters of any case. *)
Definition lower (b : byte) : byte := if (65 <=? bN b) && (bN b <=? 90) then Nb (bN b + 32) else b.
Definition is_word (w : string) (s : str) : bool := str_eqb (map lower s) (list_byte_of_string w).

(** The bits without the sign. *)
Definition parse_magnitude (s : str) : option N :=
  match parse_decimal s with
  | Some (d, e) => Some (round_dec d e)
  | None =>
      if is_word "inf" s || is_word "infinity" s then Some inf_bits
      else if is_word "nan" s then Some 2143289344
      else None
  end.

Definition with_sign (neg : bool) (mag : N) : f32 := f32_of_bits ((if neg then 2147483648 else 0) + mag).

(** [f32::from_str]. *)
Definition f32_parse (s : str) : option f32 :=
  match s with
  | b :: s' =>
      if byte_eqb b "-"%byte then option_map (with_sign true) (parse_magnitude s')
      else if byte_eqb b "+"%byte then option_map (with_sign false) (parse_magnitude s')
      else option_map (with_sign false) (parse_magnitude s)
  | [] => None
  end.

(** ** Writing *)

(** The units of the least positive number in a finite number. *)
Definition magnitude_units (mag : N) : N :=
  let k := mag / 8388608 - 1 in (mag - k * 8388608) * 2 ^ k.

(** The decimals with exponent [e] next to [x / 2^149], nearest first; none if
    [10^e] is far too large. *)
Definition candidates (x : N) (e : Z) : list N :=
  let '(a, b) := match e with
                 | Zneg p => (x * 10 ^ Npos p, 2 ^ 149)
                 | _ => (x, 2 ^ 149 * 10 ^ Z.to_N e)
                 end in
  if 4 * a <? b then []
  else let '(q, r) := N.div_eucl a b in
       if 2 * r <? b then [q; q + 1] else [q + 1; q].

(** The decimal with the largest exponent, at most [e], that is read as
    [mag].  With exponent -149 every finite number is a decimal. *)
Fixpoint shortest (fuel : nat) (mag : N) (e : Z) : N * Z :=
  match find (fun d => round_dec d e =? mag) (candidates (magnitude_units mag) e) with
  | Some d => (d, e)
  | None =>
      match fuel with
      | O => (0, 0%Z)
      | Datatypes.S fuel' => shortest fuel' mag (e - 1)%Z
      end
  end.
(** No finite number is above [10^39]. *)
Definition shortest_decimal (mag : N) : N * Z := shortest 187 mag 38.

Definition zeros (n : N) : str := repeat "0"%byte (N.to_nat n).

(** [d * 10^e] without exponent. *)
Definition positional (d : N) (e : Z) : str :=
  let ds := dec_print d in
  match e with
  | Zneg p =>
      if lenN ds <=? Npos p then "0"%byte :: "."%byte :: zeros (Npos p - lenN ds) ++ ds
      else takeN (lenN ds - Npos p) ds ++ "."%byte :: dropN (lenN ds - Npos p) ds
  | _ => ds ++ zeros (Z.to_N e)
  end.

(** The text of a number that is not NaN, without the sign. *)
Definition print_mag (mag : N) : str :=
  if mag =? inf_bits then list_byte_of_string "inf"
  else if mag =? 0 then ["0"%byte]
  else let '(d, e) := shortest_decimal mag in positional d e.

(** [Display for f32]. *)
Definition f32_print (x : f32) : str :=
  let bits := f32_bits x in
  let mag := bits mod 2147483648 in
  if inf_bits <? mag then list_byte_of_string "NaN"
  else (if 2147483648 <=? bits then ["-"%byte] else []) ++ print_mag mag.

Definition rust_ftext : ftext_ops := mkFtext f32_print f32_parse.
