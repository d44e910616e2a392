(** * Base definitions shared by the whole model.

    Machine integers are [N] (unsigned); the target is assumed to be a
    64-bit little-endian machine, so [usize] = [u64].  Bytes are the
    256-element type [Byte.byte]. *)
From Coq Require Export List NArith ZArith Bool.
From Coq Require Export Init.Byte.
From Coq Require Import Strings.Byte.
Export ListNotations.

(** ** Errors and outcomes *)

(** Model of [error::Error] (/repo/src/error.rs).  Payload strings are
    dropped; only the constructor is kept.  [EFuel] does not exist in the
    code: it marks exhausted recursion fuel in the model and is proved
    unreachable wherever fuel is used. *)
Inductive error :=
| EFormat            (* Error::Format *)
| ENGramConversion   (* Error::NGramConversion *)
| EMatrixShape       (* Error::MatrixShape *)
| EOverflow          (* Error::Overflow *)
| ERead              (* Error::Read, i.e. an I/O error while reading *)
| EWrite             (* Error::Write, i.e. an I/O error while writing *)
| EUnknownChunk (id : N) (* Error::UnknownChunkIdentifier *)
| EConversion        (* Error::ConversionError and friends *)
| EQuantization      (* Error::UnsupportedQuantization-like failures *)
| EFuel.

(** Reasons for a Rust panic (or abort by arithmetic check). *)
Inductive panic :=
| PDuplicateWords     (* assert on duplicate vocabulary items *)
| PDuplicateNGrams    (* assert on duplicate n-grams *)
| PIndexOutOfBounds   (* slice/array indexing *)
| PDivByZero          (* integer division or remainder by zero *)
| PArithOverflow      (* overflow in a build with overflow checks *)
| PCapacity           (* Vec / array allocation above isize::MAX bytes *)
| PCharBoundary       (* str slicing not on a char boundary *)
| PAssert             (* any other assert!/expect/unwrap *)
| PNaN                (* NotNan::new(..).expect("Encountered NaN") *)
| PUnsafe.            (* not a panic: an unsafe block reads memory outside of
                         the mapped file (undefined behaviour, e.g. SIGBUS) *)

(** Outcome of a Rust function: [Ok], [Err] or a panic. *)
Inductive res (A : Type) :=
| Ok (a : A)
| Err (e : error)
| Panic (p : panic).
Arguments Ok {A} a.
Arguments Err {A} e.
Arguments Panic {A} p.

Definition rbind {A B} (m : res A) (f : A -> res B) : res B :=
  match m with
  | Ok a => f a
  | Err e => Err e
  | Panic p => Panic p
  end.

Declare Scope res_scope.
Delimit Scope res_scope with res.
Notation "'let*' x ':=' m 'in' k" := (rbind m (fun x => k))
  (at level 200, x pattern, m at level 100, k at level 200, right associativity) : res_scope.
Open Scope res_scope.

(** Rust's [assert!(b)] with a panic reason. *)
Definition rassert (b : bool) (p : panic) : res unit :=
  if b then Ok tt else Panic p.

(** Map a fallible function over a list, left to right, stopping at the
    first failure (an iterator [map] followed by [collect] or a [for] loop). *)
Fixpoint rmap {A B} (f : A -> res B) (l : list A) : res (list B) :=
  match l with
  | [] => Ok []
  | a :: l' =>
      let* b := f a in
      let* bs := rmap f l' in
      Ok (b :: bs)
  end.

(** A [for] loop with an accumulator that may fail. *)
Fixpoint rfold {A B} (f : B -> A -> res B) (l : list A) (b : B) : res B :=
  match l with
  | [] => Ok b
  | a :: l' => let* b' := f b a in rfold f l' b'
  end.

(** ** Build profile

    Integer overflow panics in debug builds and wraps in release builds. *)
Inductive profile := Debug | Release.

Definition two32 : N := 4294967296.
Definition two64 : N := 18446744073709551616.
Definition isize_max : N := 9223372036854775807.
Definition i32_max : N := 2147483647.

(** [a + b], [a * b] on [usize]/[u64] under a build profile. *)
Definition add64 (p : profile) (a b : N) : res N :=
  let s := (a + b)%N in
  if (s <? two64)%N then Ok s
  else match p with Debug => Panic PArithOverflow | Release => Ok (s mod two64)%N end.

Definition mul64 (p : profile) (a b : N) : res N :=
  let s := (a * b)%N in
  if (s <? two64)%N then Ok s
  else match p with Debug => Panic PArithOverflow | Release => Ok (s mod two64)%N end.

(** ** Lists with [N] lengths *)

Definition lenN {A} (l : list A) : N := N.of_nat (length l).
Definition takeN {A} (n : N) (l : list A) : list A := firstn (N.to_nat n) l.
Definition dropN {A} (n : N) (l : list A) : list A := skipn (N.to_nat n) l.
Definition nthN {A} (l : list A) (n : N) : option A :=
  if (n <? lenN l)%N then nth_error l (N.to_nat n) else None.

(** [0, 1, ..., n-1]: the Rust range [0..n]. *)
Definition rangeN (n : N) : list N := map N.of_nat (seq 0 (N.to_nat n)).

(** Indexing [v[i]]: panics out of bounds. *)
Definition index {A} (l : list A) (n : N) : res A :=
  match nthN l n with Some a => Ok a | None => Panic PIndexOutOfBounds end.

(** [l[n] = a] on lists (no effect out of bounds; callers check). *)
Fixpoint set_nth {A} (n : nat) (a : A) (l : list A) : list A :=
  match l, n with
  | [], _ => []
  | _ :: l', O => a :: l'
  | b :: l', S n' => b :: set_nth n' a l'
  end.

(** Split a list into consecutive pieces of [k] elements ([k > 0]); the
    last piece may be shorter. *)
Fixpoint chunks_of_fuel {A} (fuel : nat) (k : nat) (l : list A) : list (list A) :=
  match fuel, l with
  | _, [] => []
  | O, _ => []
  | S fuel', _ => firstn k l :: chunks_of_fuel fuel' k (skipn k l)
  end.
Definition chunks_of {A} (k : nat) (l : list A) : list (list A) :=
  chunks_of_fuel (length l) k l.

(** ** Bytes and little-endian integers *)

Definition bN (b : byte) : N := Byte.to_N b.
Definition Nb (n : N) : byte :=
  match Byte.of_N (n mod 256) with Some b => b | None => x00 end.

Definition byte_eqb (a b : byte) : bool := Byte.eqb a b.

(** [k] little-endian bytes of [n] (byteorder's [write_u32]/[write_u64] with
    [LittleEndian]; higher bits are dropped, like an [as] cast). *)
Fixpoint le_bytes (k : nat) (n : N) : list byte :=
  match k with
  | O => []
  | S k' => Nb n :: le_bytes k' (n / 256)
  end.

(** Value of little-endian bytes (byteorder's [read_u32]/[read_u64]). *)
Fixpoint le_value (l : list byte) : N :=
  match l with
  | [] => 0
  | b :: l' => (bN b + 256 * le_value l')%N
  end.

(** ** Strings

    A Rust [str] is its list of UTF-8 bytes. *)
Definition str := list byte.

Fixpoint str_eqb (a b : str) : bool :=
  match a, b with
  | [], [] => true
  | x :: a', y :: b' => byte_eqb x y && str_eqb a' b'
  | _, _ => false
  end.

(** Lexicographic byte order: [Ord for str]. *)
Fixpoint str_compare (a b : str) : comparison :=
  match a, b with
  | [], [] => Eq
  | [], _ :: _ => Lt
  | _ :: _, [] => Gt
  | x :: a', y :: b' =>
      match N.compare (bN x) (bN y) with
      | Eq => str_compare a' b'
      | c => c
      end
  end.

(** ** Hash maps with string keys

    [HashMap<String, V>] as an association list with unique keys.  The
    iteration order of a real hash map is unspecified: code that iterates
    over one takes an arbitrary permutation of the entries. *)
Definition hmap (V : Type) := list (str * V).

Fixpoint hm_get {V} (m : hmap V) (k : str) : option V :=
  match m with
  | [] => None
  | (k', v) :: m' => if str_eqb k k' then Some v else hm_get m' k
  end.

Fixpoint hm_remove {V} (m : hmap V) (k : str) : hmap V :=
  match m with
  | [] => []
  | (k', v) :: m' => if str_eqb k k' then hm_remove m' k else (k', v) :: hm_remove m' k
  end.

(** [HashMap::insert]: replaces an existing entry. *)
Definition hm_insert {V} (m : hmap V) (k : str) (v : V) : hmap V :=
  (k, v) :: hm_remove m k.

Definition hm_len {V} (m : hmap V) : N := lenN m.

(** Hash maps with [u64] keys. *)
Definition nmap (V : Type) := list (N * V).
Fixpoint nm_get {V} (m : nmap V) (k : N) : option V :=
  match m with
  | [] => None
  | (k', v) :: m' => if (k =? k')%N then Some v else nm_get m' k
  end.

(** Membership tests for word sets ([HashSet<&str>]). *)
Definition str_mem (s : str) (l : list str) : bool := existsb (str_eqb s) l.
