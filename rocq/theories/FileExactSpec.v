(** * Vocabulary of the statements about cut and continued files.

    Nothing here is part of the model. *)
From Verif Require Import Base Utf8 Stream F32 Vocab Storage Embeddings FileSpec.
Local Open Scope N_scope.

(** The matrix has no numbers. *)
Definition storage_empty (s : storage_wrap) : bool :=
  match s with SNdArray a => a2_nrows a * a2_cols a =? 0 | _ => false end.

(** Where a reader that looks for norms stops in bytes that are not a norms
    chunk: behind an identifier or a type that is not the expected one, or at
    the end. *)
Definition left_after_norms (tail : list byte) : list byte :=
  if str_eqb (takeN 4 tail) (le_bytes 4 6)
  then if str_eqb (takeN 4 (dropN 20 tail)) (le_bytes 4 10) then [] else dropN 24 tail
  else dropN 4 tail.
