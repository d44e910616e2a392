(** * UTF-8, as used through Rust's [str]/[String] (std).

    Not part of /repo itself: this models [String::from_utf8],
    [String::from_utf8_lossy], [str::char_indices], [str::trim] and
    [char::is_ascii_whitespace], which /repo calls in
    /repo/src/util.rs 101-116, /repo/src/subword.rs 252-338,
    /repo/src/compat/text.rs 188-274 and /repo/src/compat/word2vec.rs 89-116. *)
From Verif Require Import Base.
Local Open Scope N_scope.

(** A Unicode scalar value ([char]). *)
Definition scalarb (c : N) : bool :=
  (c <? 0xD800) || ((0xE000 <=? c) && (c <=? 0x10FFFF)).

(** UTF-8 encoding of one scalar value ([char::encode_utf8]). *)
Definition encode_char (c : N) : list byte :=
  if c <? 0x80 then [Nb c]
  else if c <? 0x800 then [Nb (0xC0 + c / 64); Nb (0x80 + c mod 64)]
  else if c <? 0x10000 then
    [Nb (0xE0 + c / 4096); Nb (0x80 + (c / 64) mod 64); Nb (0x80 + c mod 64)]
  else
    [Nb (0xF0 + c / 262144); Nb (0x80 + (c / 4096) mod 64);
     Nb (0x80 + (c / 64) mod 64); Nb (0x80 + c mod 64)].

Definition utf8_encode (cs : list N) : str := flat_map encode_char cs.

(** Continuation byte test. *)
Definition is_cont (b : byte) : bool := (0x80 <=? bN b) && (bN b <=? 0xBF).

(** Permitted second bytes after a three- or four-byte lead byte
    (Unicode table 3-7, [core::str::validations]). *)
Definition second3 (x0 x1 : N) : bool :=
  if x0 =? 0xE0 then (0xA0 <=? x1) && (x1 <=? 0xBF)
  else if x0 =? 0xED then (0x80 <=? x1) && (x1 <=? 0x9F)
  else (0x80 <=? x1) && (x1 <=? 0xBF).

Definition second4 (x0 x1 : N) : bool :=
  if x0 =? 0xF0 then (0x90 <=? x1) && (x1 <=? 0xBF)
  else if x0 =? 0xF4 then (0x80 <=? x1) && (x1 <=? 0x8F)
  else (0x80 <=? x1) && (x1 <=? 0xBF).

(** One step of decoding: a well-formed character and its width, or the
    number of bytes of an ill-formed sequence that is replaced by one
    U+FFFD ([core::str::lossy]). *)
Inductive ustep := UChar (c : N) (w : nat) | UBad (w : nat).

Definition utf8_step (bs : list byte) : ustep :=
  match bs with
  | [] => UBad 0
  | b0 :: r =>
      let x0 := bN b0 in
      if x0 <? 0x80 then UChar x0 1
      else if (0xC2 <=? x0) && (x0 <=? 0xDF) then
        match r with
        | b1 :: _ => if is_cont b1 then UChar ((x0 - 0xC0) * 64 + (bN b1 - 0x80)) 2 else UBad 1
        | [] => UBad 1
        end
      else if (0xE0 <=? x0) && (x0 <=? 0xEF) then
        match r with
        | b1 :: r1 =>
            if second3 x0 (bN b1) then
              match r1 with
              | b2 :: _ =>
                  if is_cont b2 then
                    UChar ((x0 - 0xE0) * 4096 + (bN b1 - 0x80) * 64 + (bN b2 - 0x80)) 3
                  else UBad 2
              | [] => UBad 2
              end
            else UBad 1
        | [] => UBad 1
        end
      else if (0xF0 <=? x0) && (x0 <=? 0xF4) then
        match r with
        | b1 :: r1 =>
            if second4 x0 (bN b1) then
              match r1 with
              | b2 :: r2 =>
                  if is_cont b2 then
                    match r2 with
                    | b3 :: _ =>
                        if is_cont b3 then
                          UChar ((x0 - 0xF0) * 262144 + (bN b1 - 0x80) * 4096
                                 + (bN b2 - 0x80) * 64 + (bN b3 - 0x80)) 4
                        else UBad 3
                    | [] => UBad 3
                    end
                  else UBad 2
              | [] => UBad 2
              end
            else UBad 1
        | [] => UBad 1
        end
      else UBad 1
  end.

(** [str::char_indices] on raw bytes: offsets and characters, or [None] if
    the bytes are not valid UTF-8.  [off] is the byte offset of [bs]. *)
Fixpoint char_indices_fuel (fuel : nat) (off : N) (bs : list byte) : option (list (N * N)) :=
  match bs with
  | [] => Some []
  | _ =>
      match fuel with
      | O => None
      | S fuel' =>
          match utf8_step bs with
          | UChar c w =>
              match char_indices_fuel fuel' (off + N.of_nat w) (skipn w bs) with
              | Some l => Some ((off, c) :: l)
              | None => None
              end
          | UBad _ => None
          end
      end
  end.

Definition char_indices (s : str) : option (list (N * N)) :=
  char_indices_fuel (length s) 0 s.

(** [str::chars]. *)
Definition utf8_decode (s : str) : option (list N) :=
  option_map (map snd) (char_indices s).

(** [String::from_utf8(..).is_ok()]. *)
Definition utf8_valid (s : str) : bool :=
  match utf8_decode s with Some _ => true | None => false end.

(** U+FFFD in UTF-8. *)
Definition replacement : str := [xef; xbf; xbd].

(** [String::from_utf8_lossy]. *)
Fixpoint from_utf8_lossy_fuel (fuel : nat) (bs : list byte) : str :=
  match bs with
  | [] => []
  | _ =>
      match fuel with
      | O => []
      | S fuel' =>
          match utf8_step bs with
          | UChar _ w => firstn w bs ++ from_utf8_lossy_fuel fuel' (skipn w bs)
          | UBad w => replacement ++ from_utf8_lossy_fuel fuel' (skipn w bs)
          end
      end
  end.
Definition from_utf8_lossy (bs : list byte) : str :=
  from_utf8_lossy_fuel (length bs) bs.

(** [char::is_whitespace]: the Unicode White_Space property. *)
Definition is_whitespace (c : N) : bool :=
  ((9 <=? c) && (c <=? 13)) || (c =? 0x20) || (c =? 0x85) || (c =? 0xA0)
  || (c =? 0x1680) || ((0x2000 <=? c) && (c <=? 0x200A)) || (c =? 0x2028)
  || (c =? 0x2029) || (c =? 0x202F) || (c =? 0x205F) || (c =? 0x3000).

Fixpoint drop_while {A} (f : A -> bool) (l : list A) : list A :=
  match l with
  | [] => []
  | a :: l' => if f a then drop_while f l' else l
  end.

(** [str::trim]; on (impossible) invalid UTF-8 the string is unchanged. *)
Definition str_trim (s : str) : str :=
  match utf8_decode s with
  | Some cs => utf8_encode (rev (drop_while is_whitespace (rev (drop_while is_whitespace cs))))
  | None => s
  end.

(** [u8]/[char] [is_ascii_whitespace]: space, tab, LF, FF, CR. *)
Definition is_ascii_ws (b : byte) : bool :=
  let x := bN b in (x =? 32) || (x =? 9) || (x =? 10) || (x =? 12) || (x =? 13).

(** [str::is_char_boundary]. *)
Definition is_char_boundary (s : str) (i : N) : bool :=
  (i =? 0) || (i =? lenN s) ||
  match nthN s i with Some b => negb (is_cont b) | None => false end.

(** String slicing [&s[a..b]]: panics off character boundaries. *)
Definition str_slice (s : str) (a b : N) : res str :=
  if (a <=? b) && is_char_boundary s a && is_char_boundary s b
  then Ok (takeN (b - a) (dropN a s))
  else Panic PCharBoundary.
