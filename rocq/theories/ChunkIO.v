(** * Chunk identifiers, header, metadata and norms chunks
    (/repo/src/chunks/io.rs, metadata.rs, norms.rs). *)
From Verif Require Import Base Utf8 Stream F32.
Local Open Scope N_scope.

(** [util::padding::<f32>], /repo/src/util.rs 64-67. *)
Definition padding4 (pos : N) : N := 4 - pos mod 4.
Definition zeros (n : N) : list byte := repeat x00 (N.to_nat n).

(** [ChunkIdentifier], /repo/src/chunks/io.rs 14-27. *)
Inductive chunk_id :=
| CHeader | CSimpleVocab | CNdArray | CBucketSubwordVocab | CQuantizedArray
| CMetadata | CNdNorms | CFastTextSubwordVocab | CExplicitSubwordVocab | CFloretSubwordVocab.

(** [identifier as u32], discriminants at /repo/src/chunks/io.rs 17-26. *)
Definition chunk_num (c : chunk_id) : N :=
  match c with
  | CHeader => 0 | CSimpleVocab => 1 | CNdArray => 2 | CBucketSubwordVocab => 3
  | CQuantizedArray => 4 | CMetadata => 5 | CNdNorms => 6
  | CFastTextSubwordVocab => 7 | CExplicitSubwordVocab => 8 | CFloretSubwordVocab => 9
  end.

(** [TryFrom<u32> for ChunkIdentifier], /repo/src/chunks/io.rs 69-88. *)
Definition chunk_of_num (n : N) : res chunk_id :=
  match n with
  | 1 => Ok CSimpleVocab
  | 2 => Ok CNdArray
  | 3 => Ok CBucketSubwordVocab
  | 4 => Ok CQuantizedArray
  | 5 => Ok CMetadata
  | 6 => Ok CNdNorms
  | 7 => Ok CFastTextSubwordVocab
  | 8 => Ok CExplicitSubwordVocab
  | 9 => Ok CFloretSubwordVocab
  | _ => Err (EUnknownChunk n)
  end.

Definition chunk_eqb (a b : chunk_id) : bool := chunk_num a =? chunk_num b.

(** [ChunkIdentifier::ensure_chunk_type], /repo/src/chunks/io.rs 31-47. *)
Definition ensure_chunk_type (id : chunk_id) : reader unit :=
  n <- read_u32 ;;
  c <- lift (chunk_of_num n) ;;
  if chunk_eqb c id then ret tt else fail EFormat.

(** [TypeId::ensure_data_type] with [type_id()] = 10 for [f32] and 1 for
    [u8], /repo/src/chunks/io.rs 101-131. *)
Definition f32_type_id : N := 10.
Definition u8_type_id : N := 1.
Definition ensure_data_type (t : N) : reader unit :=
  n <- read_u32 ;;
  if n =? t then ret tt else fail EFormat.

(** [MAGIC], [MODEL_VERSION], /repo/src/chunks/io.rs 10-12. *)
Definition magic : list byte := [x46; x69; x46; x75].
Definition model_version : N := 0.

(** [Header::write_chunk], /repo/src/chunks/io.rs 198-219. *)
Definition write_header (ids : list chunk_id) : writer unit :=
  write_bytes magic ;;;
  write_u32 model_version ;;;
  write_u32 (lenN ids) ;;;
  for_each ids (fun c => write_u32 (chunk_num c)).

(** [Header::chunk_len], /repo/src/chunks/io.rs 190-196. *)
Definition header_chunk_len (ids : list chunk_id) (offset : N) : N :=
  4 + 4 + 4 + lenN ids * 4.

(** [Header::read_chunk], /repo/src/chunks/io.rs 222-265.  The reserved
    vector has at most [2^32] elements of 4 bytes, which cannot exceed
    [isize::MAX]. *)
Definition read_header : reader (list chunk_id) :=
  m <- read_exact 4 ;;
  if negb (str_eqb m magic) then fail EFormat else
  v <- read_u32 ;;
  if negb (v =? model_version) then fail EFormat else
  n <- read_u32 ;;
  repeat_m n (i <- read_u32 ;; lift (chunk_of_num i)).

(** ** Metadata

    The toml crate is a parameter: a type of tables with a printer and a
    parser. *)
Record toml_ops := mkToml {
  toml_table : Type;
  toml_print : toml_table -> str;         (* Table::to_string *)
  toml_parse : str -> option toml_table   (* str::parse::<Table> *)
}.

(** What the model assumes of the toml crate. *)
Definition toml_law (T : toml_ops) : Prop :=
  forall t, toml_parse T (toml_print T t) = Some t /\ utf8_valid (toml_print T t) = true.

Section Metadata.
  Variable T : toml_ops.

  (** [Metadata::chunk_len], /repo/src/chunks/metadata.rs 84-87. *)
  Definition metadata_chunk_len (t : toml_table T) (offset : N) : N :=
    4 + 8 + lenN (toml_print T t).

  (** [Metadata::write_chunk], /repo/src/chunks/metadata.rs 89-107. *)
  Definition write_metadata (t : toml_table T) : writer unit :=
    write_u32 (chunk_num CMetadata) ;;;
    write_u64 (lenN (toml_print T t)) ;;;
    write_bytes (toml_print T t).

  (** [Metadata::read_chunk], /repo/src/chunks/metadata.rs 49-77. *)
  Definition read_metadata_chunk : reader (toml_table T) :=
    ensure_chunk_type CMetadata ;;;
    n <- read_u64 ;;
    reserve n 1 ;;;
    buf <- read_exact n ;;
    if utf8_valid buf then
      match toml_parse T buf with
      | Some t => ret t
      | None => fail EFormat
      end
    else fail EFormat.

  (** [ReadMetadata for Option<Metadata>], /repo/src/chunks/metadata.rs 109-129. *)
  Definition read_metadata : reader (option (toml_table T)) :=
    ids <- read_header ;;
    match ids with
    | [] => fail EFormat
    | id :: _ =>
        if chunk_eqb id CMetadata
        then t <- read_metadata_chunk ;; ret (Some t)
        else ret None
    end.
End Metadata.

(** ** Norms *)

(** [read_f32_into::<LittleEndian>] for [n] floats. *)
Definition read_f32s (n : N) : reader (list f32) :=
  bs <- read_exact (4 * n) ;; ret (f32s_of_bytes bs).

(** A sequence of [write_f32::<LittleEndian>] calls. *)
Definition write_f32s (l : list f32) : writer unit :=
  for_each l (fun x => write_bytes (f32_bytes x)).

(** [NdNorms::chunk_len], /repo/src/chunks/norms.rs 92-102. *)
Definition norms_chunk_len (norms : list f32) (offset : N) : N :=
  4 + 8 + 8 + 4 + lenN norms * 4 + padding4 (offset + 4).

(** [NdNorms::write_chunk], /repo/src/chunks/norms.rs 104-142. *)
Definition write_norms (norms : list f32) : writer unit :=
  write_u32 (chunk_num CNdNorms) ;;;
  pos <- wposition ;;
  write_u64 (norms_chunk_len norms pos - (4 + 8)) ;;;
  write_u64 (lenN norms) ;;;
  write_u32 f32_type_id ;;;
  write_bytes (zeros (padding4 pos)) ;;;
  write_f32s norms.

(** [NdNorms::read_chunk], /repo/src/chunks/norms.rs 53-85.
    [try_into::<usize>] cannot fail on a 64-bit target. *)
Definition read_norms : reader (list f32) :=
  ensure_chunk_type CNdNorms ;;;
  _ <- read_u64 ;;
  n <- read_u64 ;;
  ensure_data_type f32_type_id ;;;
  pos <- position ;;
  seek_forward (padding4 pos) ;;;
  reserve n 4 ;;;
  read_f32s n.

(** ** Strings *)

(** [vocab::write_string], /repo/src/chunks/vocab/mod.rs 105-115: the length
    is cast with [as u32]. *)
Definition write_string (s : str) : writer unit :=
  write_u32 (lenN s) ;;; write_bytes s.

(** [vocab::write_vocab_items], /repo/src/chunks/vocab/mod.rs 117-125. *)
Definition write_items (l : list str) : writer unit := for_each l write_string.

(** [vocab::read_string], /repo/src/chunks/vocab/mod.rs 78-91. *)
Definition read_string_item : reader str :=
  n <- read_u32 ;;
  bs <- read_exact n ;;
  if utf8_valid bs then ret bs else fail EFormat.

(** [vocab::read_vocab_items], /repo/src/chunks/vocab/mod.rs 93-103
    ([String] is 24 bytes on a 64-bit target). *)
Definition read_items (n : N) : reader (list str) :=
  reserve n 24 ;;;
  repeat_m n read_string_item.
