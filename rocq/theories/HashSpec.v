(** * Published hash functions.

    Nothing here is part of the model.  FNV-1a is given by what one more byte
    does, MurmurHash3 by what one more block does and by the treatment of the
    rest. *)
From Verif Require Import Base.
Local Open Scope N_scope.

(** ** FNV-1a with 64 bits: exclusive or, then multiplication by the prime
    2^40 + 2^8 + 0xb3. *)
Inductive fnv1a64 : list byte -> N -> Prop :=
| fnv_start : fnv1a64 [] 0xcbf29ce484222325
| fnv_next bs b h h' : fnv1a64 bs h -> h' < 2 ^ 64 ->
    (exists k, N.lxor h (bN b) * (2 ^ 40 + 2 ^ 8 + 0xb3) = h' + k * 2 ^ 64) -> fnv1a64 (bs ++ [b]) h'.

(** ** MurmurHash3, 128 bits for 64-bit machines *)

(** [y] is [x] with its 64 bits rotated left by [r]. *)
Definition rotated (x r y : N) : Prop :=
  y < 2 ^ 64 /\ forall i, i < 64 -> N.testbit y ((i + r) mod 64) = N.testbit x i.

(** [y] is [x] multiplied, or added to, modulo 2^64. *)
Definition is_mod64 (x y : N) : Prop := y < 2 ^ 64 /\ exists k, x = y + k * 2 ^ 64.

(** Eight or fewer bytes as a number, the first byte lowest. *)
Definition word_of (bs : list byte) (k : N) : Prop :=
  forall i, N.testbit k i = match nth_error bs (N.to_nat (i / 8)) with Some b => N.testbit (bN b) (i mod 8) | None => false end.

(** The word [k] is multiplied, rotated and multiplied again. *)
Definition mixed (c r c' k y : N) : Prop := exists a b, is_mod64 (k * c) a /\ rotated a r b /\ is_mod64 (b * c') y.
Definition mixed1 : N -> N -> Prop := mixed 0x87c37b91114253d5 31 0x4cf5ad432745937f.
Definition mixed2 : N -> N -> Prop := mixed 0x4cf5ad432745937f 33 0x87c37b91114253d5.

(** The two halves of the state after the given blocks of 16 bytes. *)
Inductive murmur_blocks (seed : N) : list byte -> N -> N -> Prop :=
| murmur_start : murmur_blocks seed [] seed seed
| murmur_block bs w1 w2 h1 h2 k1 k2 m1 m2 r1 r2 h1' h2' :
    murmur_blocks seed bs h1 h2 -> lenN w1 = 8 -> lenN w2 = 8 ->
    word_of w1 k1 -> mixed1 k1 m1 -> rotated (N.lxor h1 m1) 27 r1 -> is_mod64 ((r1 + h2) * 5 + 0x52dce729) h1' ->
    word_of w2 k2 -> mixed2 k2 m2 -> rotated (N.lxor h2 m2) 31 r2 -> is_mod64 ((r2 + h1') * 5 + 0x38495ab5) h2' ->
    murmur_blocks seed (bs ++ w1 ++ w2) h1' h2'.

(** The last bytes, fewer than 16: the second word is mixed only if there are
    more than eight, the first only if there are any. *)
Definition murmur_tail (w1 w2 : list byte) (h1 h2 h1' h2' : N) : Prop :=
  (w1 = [] -> h1' = h1) /\ (w1 <> [] -> exists k m, word_of w1 k /\ mixed1 k m /\ h1' = N.lxor h1 m) /\
  (w2 = [] -> h2' = h2) /\ (w2 <> [] -> exists k m, word_of w2 k /\ mixed2 k m /\ h2' = N.lxor h2 m).

(** Finalisation of one half. *)
Definition murmur_final (k y : N) : Prop := exists a b,
  is_mod64 (N.lxor k (k / 2 ^ 33) * 0xff51afd7ed558ccd) a /\
  is_mod64 (N.lxor a (a / 2 ^ 33) * 0xc4ceb9fe1a85ec53) b /\
  y = N.lxor b (b / 2 ^ 33).

Definition murmur3 (seed : N) (bs : list byte) (low high : N) : Prop :=
  exists blocks w1 w2 h1 h2 t1 t2 a1 a2 f1 f2,
  bs = blocks ++ w1 ++ w2 /\ lenN w1 <= 8 /\ lenN w2 < 8 /\ (w2 = [] \/ lenN w1 = 8) /\
  murmur_blocks seed blocks h1 h2 /\ murmur_tail w1 w2 h1 h2 t1 t2 /\
  is_mod64 (N.lxor t1 (lenN bs) + N.lxor t2 (lenN bs)) a1 /\ is_mod64 (N.lxor t2 (lenN bs) + a1) a2 /\
  murmur_final a1 f1 /\ murmur_final a2 f2 /\ is_mod64 (f1 + f2) low /\ is_mod64 (f2 + low) high.

(** ** Input of the hash of an n-gram: the number of characters, then the
    characters, as little-endian integers of 8 and 4 bytes. *)
Definition hash_input (cs : list N) (bs : list byte) : Prop :=
  exists n w, bs = n ++ concat w /\ lenN n = 8 /\ word_of n (lenN cs) /\
  Forall2 (fun c u => lenN u = 4 /\ word_of u c) cs w.
