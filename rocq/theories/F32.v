(** * Floating point: IEEE 754 binary32 on bit patterns, and the abstract
    arithmetic interface the algorithms are written against.

    Rust's [f32] is IEEE binary32 with round-to-nearest-even.  Arithmetic is
    taken from [Coq.Floats.SpecFloat], the executable specification of IEEE
    754 in Coq's standard library.  Simplification: every NaN result is the
    canonical quiet NaN (Rust leaves NaN payloads unspecified). *)
From Coq Require Import Floats.SpecFloat.
From Verif Require Import Base.
Local Open Scope N_scope.

(** The four little-endian bytes of an [f32]: exactly 2^32 values. *)
Inductive f32 := F32 (b0 b1 b2 b3 : byte).

Definition f32_bytes (x : f32) : list byte :=
  let 'F32 a b c d := x in [a; b; c; d].
Definition f32_of_bytes (l : list byte) : f32 :=
  match l with [a; b; c; d] => F32 a b c d | _ => F32 x00 x00 x00 x00 end.

(** [f32::to_bits], [f32::from_bits]. *)
Definition f32_bits (x : f32) : N := le_value (f32_bytes x).
Definition f32_of_bits (n : N) : f32 := f32_of_bytes (le_bytes 4 n).

Definition prec := 24%Z.
Definition emax := 128%Z.

Definition f32_to_sf (x : f32) : spec_float :=
  let bits := f32_bits x in
  let s := 2147483648 <=? bits in
  let e := (bits / 8388608) mod 256 in
  let m := bits mod 8388608 in
  if e =? 0 then
    match m with N0 => S754_zero s | Npos p => S754_finite s p (-149) end
  else if e =? 255 then
    if m =? 0 then S754_infinity s else S754_nan
  else
    match m + 8388608 with
    | N0 => S754_nan
    | Npos p => S754_finite s p (Z.of_N e - 150)
    end.

Definition sf_to_f32 (x : spec_float) : f32 :=
  let sb (s : bool) := if s then 2147483648 else 0 in
  f32_of_bits
    match x with
    | S754_zero s => sb s
    | S754_infinity s => sb s + 2139095040
    | S754_nan => 2143289344
    | S754_finite s p e =>
        if Npos p <? 8388608 then sb s + Npos p
        else sb s + Z.to_N (e + 150) * 8388608 + (Npos p - 8388608)
    end.

Definition f32_op1 (f : spec_float -> spec_float) (x : f32) : f32 := sf_to_f32 (f (f32_to_sf x)).
Definition f32_op2 (f : spec_float -> spec_float -> spec_float) (x y : f32) : f32 :=
  sf_to_f32 (f (f32_to_sf x) (f32_to_sf y)).

Definition f32_add := f32_op2 (SFadd prec emax).
Definition f32_sub := f32_op2 (SFsub prec emax).
Definition f32_mul := f32_op2 (SFmul prec emax).
Definition f32_div := f32_op2 (SFdiv prec emax).
Definition f32_sqrt := f32_op1 (SFsqrt prec emax).
Definition f32_zero : f32 := F32 x00 x00 x00 x00.
Definition f32_one : f32 := F32 x00 x00 x80 x3f.

(** [PartialOrd::partial_cmp] on [f32]: [None] iff an operand is NaN. *)
Definition f32_cmp (x y : f32) : option comparison := SFcompare (f32_to_sf x) (f32_to_sf y).
Definition f32_is_nan (x : f32) : bool :=
  match f32_to_sf x with S754_nan => true | _ => false end.
(** [x == 0.0] (true for both zeros). *)
Definition f32_is_zero (x : f32) : bool := SFeqb (f32_to_sf x) (S754_zero false).

(** [n as f32] for small integers. *)
Definition f32_of_N (n : N) : f32 :=
  match n with
  | N0 => f32_zero
  | Npos p => sf_to_f32 (binary_normalize prec emax (Zpos p) 0 false)
  end.

(** ** Abstract arithmetic

    The algorithms of the crate are written once against this record and
    instantiated with [f32] (bit-exact) and with the reals (exact
    arithmetic). *)
Record fops (F : Type) := mkFops {
  fzero : F;
  fone : F;
  fadd : F -> F -> F;
  fsub : F -> F -> F;
  fmul : F -> F -> F;
  fdiv : F -> F -> F;
  fsqrt : F -> F;
  fis_zero : F -> bool;            (* x == 0.0 *)
  fcmp : F -> F -> option comparison; (* partial_cmp *)
  fof_N : N -> F                   (* as f32 *)
}.
Arguments fzero {F} f. Arguments fone {F} f. Arguments fadd {F} f.
Arguments fsub {F} f. Arguments fmul {F} f. Arguments fdiv {F} f.
Arguments fsqrt {F} f. Arguments fis_zero {F} f. Arguments fcmp {F} f.
Arguments fof_N {F} f.

Definition f32_ops : fops f32 :=
  mkFops f32 f32_zero f32_one f32_add f32_sub f32_mul f32_div f32_sqrt f32_is_zero f32_cmp f32_of_N.

(** ** ndarray vectors (rows of matrices) *)
Section Vec.
  Context {F : Type} (o : fops F).
  Definition vec := list F.

  Fixpoint zip_with {A B C} (f : A -> B -> C) (a : list A) (b : list B) : list C :=
    match a, b with x :: a', y :: b' => f x y :: zip_with f a' b' | _, _ => [] end.

  (** Element-wise [a + b], [a - b]; both operands have equal length in all
      uses in /repo (ndarray panics otherwise; callers check). *)
  Definition vadd (a b : vec) : vec := zip_with (fadd o) a b.
  Definition vsub (a b : vec) : vec := zip_with (fsub o) a b.
  (** [v * scalar], [v / scalar]. *)
  Definition vscale (a : vec) (c : F) : vec := map (fun x => fmul o x c) a.
  Definition vdivs (a : vec) (c : F) : vec := map (fun x => fdiv o x c) a.
  Definition vzeros (n : N) : vec := repeat (fzero o) (N.to_nat n).

  (** ndarray 0.15 [numeric_util::unrolled_dot]: eight partial sums, then
      the remaining (< 8) products sequentially. *)
  Definition p8 := (F * F * F * F * F * F * F * F)%type.
  Fixpoint dot_blocks (xs ys : vec) (p : p8) : p8 * (vec * vec) :=
    match xs, ys with
    | x0::x1::x2::x3::x4::x5::x6::x7::xs', y0::y1::y2::y3::y4::y5::y6::y7::ys' =>
        let '(p0,p1,p2,p3,p4,p5,p6,p7) := p in
        dot_blocks xs' ys'
          (fadd o p0 (fmul o x0 y0), fadd o p1 (fmul o x1 y1),
           fadd o p2 (fmul o x2 y2), fadd o p3 (fmul o x3 y3),
           fadd o p4 (fmul o x4 y4), fadd o p5 (fmul o x5 y5),
           fadd o p6 (fmul o x6 y6), fadd o p7 (fmul o x7 y7))
    | _, _ => (p, (xs, ys))
    end.
  Fixpoint dot_tail (xs ys : vec) (acc : F) : F :=
    match xs, ys with
    | x :: xs', y :: ys' => dot_tail xs' ys' (fadd o acc (fmul o x y))
    | _, _ => acc
    end.
  Definition vdot (xs ys : vec) : F :=
    let z := fzero o in
    let '(p0,p1,p2,p3,p4,p5,p6,p7, (xr, yr)) := dot_blocks xs ys (z,z,z,z,z,z,z,z) in
    let s := fadd o z (fadd o p0 p4) in
    let s := fadd o s (fadd o p1 p5) in
    let s := fadd o s (fadd o p2 p6) in
    let s := fadd o s (fadd o p3 p7) in
    dot_tail xr yr s.

  (** ndarray 0.15 [sum_axis(Axis(0))] of a row-major matrix: rows are added
      in order, starting from zeros. *)
  Definition sum_rows (cols : N) (rows : list vec) : vec :=
    fold_left vadd rows (vzeros cols).

  (** [util::l2_normalize], /repo/src/util.rs 69-77: returns the vector and
      its norm; divides unless the norm is zero. *)
  Definition l2_normalize (v : vec) : vec * F :=
    let norm := fsqrt o (vdot v v) in
    if fis_zero o norm then (v, norm) else (vdivs v norm, norm).

  (** [util::l2_normalize_array], /repo/src/util.rs 79-86. *)
  Definition l2_normalize_array (m : list vec) : list vec * list F :=
    let r := map l2_normalize m in (map fst r, map snd r).
End Vec.
Arguments vec F : clear implicits.

(** ** Serialised floats *)
Definition f32s_bytes (l : list f32) : list byte := flat_map f32_bytes l.
Fixpoint f32s_of_bytes (l : list byte) : list f32 :=
  match l with
  | a :: b :: c :: d :: l' => F32 a b c d :: f32s_of_bytes l'
  | _ => []
  end.
