(** * Byte streams: the [Read + Seek], [BufRead] and [Write + Seek] contracts.

    These are std / byteorder traits used throughout /repo; the definitions
    below model their documented behaviour. *)
From Verif Require Import Base.
Local Open Scope N_scope.

(** ** A state monad with outcomes *)

Definition M (S A : Type) := S -> res A * S.

Definition ret {S A} (a : A) : M S A := fun s => (Ok a, s).
Definition fail {S A} (e : error) : M S A := fun s => (Err e, s).
Definition mpanic {S A} (p : panic) : M S A := fun s => (Panic p, s).
Definition lift {S A} (r : res A) : M S A := fun s => (r, s).

Definition bind {S A B} (m : M S A) (k : A -> M S B) : M S B :=
  fun s => match m s with
           | (Ok a, s') => k a s'
           | (Err e, s') => (Err e, s')
           | (Panic p, s') => (Panic p, s')
           end.

Declare Scope m_scope.
Delimit Scope m_scope with m.
Notation "x <- m ;; k" := (bind m (fun x => k))
  (at level 61, m at next level, right associativity) : m_scope.
Notation "' p <- m ;; k" := (bind m (fun x => let 'p := x in k))
  (at level 61, p pattern, m at next level, right associativity) : m_scope.
Notation "m ;;; k" := (bind m (fun _ => k))
  (at level 61, right associativity) : m_scope.
Open Scope m_scope.

(** [for _ in 0..n { v.push(m?) }].  Recursion on the binary
    representation so that huge counts in malformed files do not make the
    model itself diverge; the loop stops at the first failure. *)
Fixpoint repeat_pos {S A} (p : positive) (m : M S A) : M S (list A) :=
  match p with
  | xH => a <- m ;; ret [a]
  | xO p' => l1 <- repeat_pos p' m ;; l2 <- repeat_pos p' m ;; ret (l1 ++ l2)
  | xI p' => a <- m ;; l1 <- repeat_pos p' m ;; l2 <- repeat_pos p' m ;;
             ret (a :: l1 ++ l2)
  end.
Definition repeat_m {S A} (n : N) (m : M S A) : M S (list A) :=
  match n with N0 => ret [] | Npos p => repeat_pos p m end.

(** [for a in l { f(a)? }] *)
Fixpoint for_each {S A} (l : list A) (f : A -> M S unit) : M S unit :=
  match l with
  | [] => ret tt
  | a :: l' => f a ;;; for_each l' f
  end.

(** [for a in l { v.push(f(a)?) }] *)
Fixpoint map_m {S A B} (f : A -> M S B) (l : list A) : M S (list B) :=
  match l with
  | [] => ret []
  | a :: l' => b <- f a ;; bs <- map_m f l' ;; ret (b :: bs)
  end.

(** ** Readers *)

(** The unread bytes and the absolute position.  The position may lie past
    the end of the data (seeking past the end is allowed); then nothing is
    left to read.  If [s_broken], the device fails after these bytes: reading
    further is an error instead of the end of the data. *)
Record stream := mkBroken { s_rest : list byte; s_pos : N; s_broken : bool }.
Notation mkStream rest pos := (mkBroken rest pos false).

Definition reader A := M stream A.

(** [Read::read_exact] into a buffer of [n] bytes.  On a short read the
    documentation leaves the position unspecified; the model consumes the
    remaining bytes. *)
Definition read_exact (n : N) : reader (list byte) := fun s =>
  if n <=? lenN (s_rest s)
  then (Ok (takeN n (s_rest s)), mkBroken (dropN n (s_rest s)) (s_pos s + n) (s_broken s))
  else (Err ERead, mkBroken [] (s_pos s + lenN (s_rest s)) (s_broken s)).

(** byteorder [ReadBytesExt::read_u8/u32/u64::<LittleEndian>]. *)
Definition read_u8 : reader N := bs <- read_exact 1 ;; ret (le_value bs).
Definition read_u32 : reader N := bs <- read_exact 4 ;; ret (le_value bs).
Definition read_u64 : reader N := bs <- read_exact 8 ;; ret (le_value bs).

(** [Seek::stream_position] *)
Definition position : reader N := fun s => (Ok (s_pos s), s).

(** [seek(SeekFrom::Current(n))] with [n >= 0]. *)
Definition seek_forward (n : N) : reader unit := fun s =>
  (Ok tt, mkBroken (if n <=? lenN (s_rest s) then dropN n (s_rest s) else [])
                   (s_pos s + n) (s_broken s)).

(** [Vec::with_capacity(n)] / [vec![x; n]] for elements of [size] bytes:
    panics with "capacity overflow" above [isize::MAX] bytes.
    Simplification: smaller allocations always succeed. *)
Definition reserve {S} (n size : N) : M S unit := fun s =>
  if n * size <=? isize_max then (Ok tt, s) else (Panic PCapacity, s).

(** Split at the first occurrence of [d], which is included in the first
    part: what [BufRead::read_until] consumes. *)
Fixpoint split_until (d : byte) (l : list byte) : list byte * list byte :=
  match l with
  | [] => ([], [])
  | b :: l' =>
      if byte_eqb b d then ([b], l')
      else let '(x, y) := split_until d l' in (b :: x, y)
  end.

(** [BufRead::read_until]; the end of the data is no error, a broken device
    is, if the delimiter does not come first. *)
Definition read_until (d : byte) : reader (list byte) := fun s =>
  let '(x, y) := split_until d (s_rest s) in
  (if s_broken s && negb (existsb (byte_eqb d) x) then Err ERead else Ok x, mkBroken y (s_pos s + lenN x) (s_broken s)).

(** [r.ok()]: errors become [None]; panics propagate.  The position after
    an error is wherever the failing reader stopped. *)
Definition ok_opt {A} (m : reader A) : reader (option A) := fun s =>
  match m s with
  | (Ok a, s') => (Ok (Some a), s')
  | (Err _, s') => (Ok None, s')
  | (Panic p, s') => (Panic p, s')
  end.

(** Run a reader on complete data from position 0. *)
Definition run_reader {A} (m : reader A) (data : list byte) : res A :=
  fst (m (mkStream data 0)).

(** ** Writers *)

(** [k_base]: position of the first byte; [k_out]: bytes written so far;
    [k_cap]: the device accepts only that many bytes ([None]: unlimited).
    Simplification: writing always appends (the crate never seeks while
    writing). *)
Record sink := mkSink { k_base : N; k_out : list byte; k_cap : option N }.

Definition writer A := M sink A.

Definition k_pos (k : sink) : N := k_base k + lenN (k_out k).
Definition push (bs : list byte) (k : sink) : sink :=
  mkSink (k_base k) (k_out k ++ bs) (k_cap k).

(** [Write::write_all].  On a full device the bytes that fit are written
    and an error is returned. *)
Definition write_bytes (bs : list byte) : writer unit := fun k =>
  match k_cap k with
  | None => (Ok tt, push bs k)
  | Some c =>
      if lenN (k_out k) + lenN bs <=? c then (Ok tt, push bs k)
      else (Err EWrite, push (takeN (c - lenN (k_out k)) bs) k)
  end.

(** byteorder [WriteBytesExt::write_u8/u32/u64::<LittleEndian>], including
    the preceding [as u32] cast where there is one. *)
Definition write_u8 (n : N) : writer unit := write_bytes (le_bytes 1 n).
Definition write_u32 (n : N) : writer unit := write_bytes (le_bytes 4 n).
Definition write_u64 (n : N) : writer unit := write_bytes (le_bytes 8 n).

(** An error that is reported as [Error::Read]. *)
Definition to_read {A} (r : res A) : res A := match r with Err _ => Err ERead | _ => r end.
Definition as_read {S A} (m : M S A) : M S A := fun s => let '(r, s') := m s in (to_read r, s').

(** [Seek::stream_position] of the writer. *)
Definition wposition : writer N := fun k => (Ok (k_pos k), k).

(** Run a writer on an unlimited device whose position is [base]. *)
Definition run_writer (w : writer unit) (base : N) : res (list byte) :=
  match w (mkSink base [] None) with
  | (Ok _, k) => Ok (k_out k)
  | (Err e, _) => Err e
  | (Panic p, _) => Panic p
  end.
