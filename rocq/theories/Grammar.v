(** * A grammar of finalfusion files.

    Nothing here is part of the model, and no reader or writer of the model is
    mentioned: the relations below say which bytes denote which value.  Each
    relates a stream (the unread bytes and their offset in the file), a value
    and the stream that is left.  They describe the format of
    /repo/src/chunks and /repo/docs without the fields that readers ignore:
    the length of a chunk ([l]), the contents of the padding and all
    identifiers of the header but the first. *)
From Verif Require Import Base Utf8 Stream F32 ChunkIO Subword Vocab Storage Embeddings FileSpec.
Local Open Scope N_scope.

(** [bs] comes first. *)
Definition after (s : stream) (bs : list byte) (s' : stream) : Prop :=
  s_rest s = bs ++ s_rest s' /\ s_pos s' = s_pos s + lenN bs /\ s_broken s' = s_broken s.

(** [head], between one and four bytes up to a multiple of four, [data].  If
    the data are empty, the file may end before or in the padding. *)
Definition after_padded (s : stream) (head data : list byte) (s' : stream) : Prop :=
  exists pad, 1 <= pad <= 4 /\ (s_pos s + lenN head + pad) mod 4 = 0 /\
    s_pos s' = s_pos s + lenN head + pad + lenN data /\ s_broken s' = s_broken s /\
    ((exists p, lenN p = pad /\ s_rest s = head ++ p ++ data ++ s_rest s') \/
     (exists p, lenN p < pad /\ s_rest s = head ++ p /\ data = [] /\ s_rest s' = [])).

(** Strings and lists of strings. *)
Definition string_layout (w : str) : list byte := le_bytes 4 (lenN w) ++ w.
Definition strings_layout (ws : list str) : list byte := flat_map string_layout ws.
Definition ngrams_layout (l : list (str * N)) : list byte :=
  flat_map (fun g => string_layout (fst g) ++ le_bytes 8 (snd g)) l.
Definition floats_layout (l : list f32) : list byte := flat_map f32_bytes l.

(** ** Vocabularies *)
Inductive vocab_at (pf : profile) (s : stream) : vocab_wrap -> stream -> Prop :=
| va_simple l ws v s' :
    lenN l = 8 -> words_ok ws -> simple_new ws = Ok v ->
    after s (le_bytes 4 1 ++ l ++ le_bytes 8 (lenN ws) ++ strings_layout ws) s' ->
    vocab_at pf s (VSimple v) s'
| va_bucket l ws mn mx exp ix v s' :
    lenN l = 8 -> words_ok ws -> mn < two32 -> mx < two32 -> exp < two32 ->
    hash_indexer_new exp = Ok ix -> sub_new hash_ops pf ws mn mx ix = Ok v ->
    after s (le_bytes 4 3 ++ l ++ le_bytes 8 (lenN ws) ++ le_bytes 4 mn ++ le_bytes 4 mx ++ le_bytes 4 exp
             ++ strings_layout ws) s' ->
    vocab_at pf s (VBucket v) s'
| va_fasttext l ws mn mx n ix v s' :
    lenN l = 8 -> words_ok ws -> mn < two32 -> mx < two32 -> n < two32 ->
    ft_indexer_new n = Ok ix -> sub_new ft_ops pf ws mn mx ix = Ok v ->
    after s (le_bytes 4 7 ++ l ++ le_bytes 8 (lenN ws) ++ le_bytes 4 mn ++ le_bytes 4 mx ++ le_bytes 4 n
             ++ strings_layout ws) s' ->
    vocab_at pf s (VFastText v) s'
| va_explicit l ws gs mn mx ix o2n v s' :
    lenN l = 8 -> words_ok ws -> mn < two32 -> mx < two32 ->
    Forall (fun g => str_ok (fst g) /\ snd g < two64) gs -> lenN gs * 32 <= isize_max ->
    explicit_new_with_indices gs = Ok (ix, o2n) -> sub_new explicit_ops pf ws mn mx ix = Ok v ->
    after s (le_bytes 4 8 ++ l ++ le_bytes 8 (lenN ws) ++ le_bytes 8 (lenN gs) ++ le_bytes 4 mn ++ le_bytes 4 mx
             ++ strings_layout ws ++ ngrams_layout gs) s' ->
    vocab_at pf s (VExplicit v) s'
| va_floret l mn mx nb nh seed bow eow ix v s' :
    lenN l = 8 -> mn < two32 -> mx < two32 -> nb < two64 -> 1 <= nh <= 4 -> seed < two32 ->
    str_ok bow -> str_ok eow ->
    floret_indexer_new nb nh seed = Ok ix ->
    sub_new_with_boundaries floret_ops pf [] mn mx ix bow eow = Ok v ->
    after s (le_bytes 4 9 ++ l ++ le_bytes 4 mn ++ le_bytes 4 mx ++ le_bytes 8 nb ++ le_bytes 4 nh ++ le_bytes 4 seed
             ++ string_layout bow ++ string_layout eow) s' ->
    vocab_at pf s (VFloret v) s'.

(** ** Storages *)

(** A flag is set if it is not zero. *)
Definition flag (n : N) (b : bool) : Prop := n < two32 /\ (n <> 0 <-> b = true).

Inductive storage_at (s : stream) : storage_wrap -> stream -> Prop :=
| sa_nd l a s' :
    lenN l = 8 -> nd_ok a ->
    after_padded s (le_bytes 4 2 ++ l ++ le_bytes 8 (a2_nrows a) ++ le_bytes 4 (a2_cols a) ++ le_bytes 4 10)
                   (floats_layout (storage_floats (SNdArray a))) s' ->
    storage_at s (SNdArray a) s'
| sa_qa l q fp fn s' :
    lenN l = 8 -> qa_ok q -> flag fp (is_some (pq_proj (qa_pq q))) -> flag fn (is_some (qa_norms q)) ->
    after_padded s (le_bytes 4 4 ++ l ++ le_bytes 4 fp ++ le_bytes 4 fn ++ le_bytes 4 (pq_ql (qa_pq q))
                    ++ le_bytes 4 (pq_ql (qa_pq q) * pq_sub (qa_pq q)) ++ le_bytes 4 (pq_nc (qa_pq q))
                    ++ le_bytes 8 (a2_nrows (qa_codes q)) ++ le_bytes 4 1 ++ le_bytes 4 10)
                   (floats_layout (storage_floats (SQuantized q)) ++ concat (a2_rows (qa_codes q))) s' ->
    storage_at s (SQuantized q) s'.

(** ** Norms *)
Definition norms_at (s : stream) (ns : list f32) (s' : stream) : Prop :=
  lenN ns * 4 <= isize_max /\
  exists l, lenN l = 8 /\
  after_padded s (le_bytes 4 6 ++ l ++ le_bytes 8 (lenN ns) ++ le_bytes 4 10) (floats_layout ns) s'.

(** A norms chunk that announces more norms than memory can hold. *)
Definition norms_too_long (s : stream) : Prop :=
  exists l n rest, lenN l = 8 /\ n < two64 /\ isize_max < n * 4 /\
    s_rest s = le_bytes 4 6 ++ l ++ le_bytes 8 n ++ le_bytes 4 10 ++ rest.

(** ** Files *)
Definition header_at (s : stream) (ids : list chunk_id) (s' : stream) : Prop :=
  ~ In CHeader ids /\ lenN ids < two32 /\ after s (header_layout ids) s'.

(** The length of the metadata is the one length that is not ignored. *)
Definition metadata_at (T : toml_ops) (s : stream) (t : toml_table T) (s' : stream) : Prop :=
  exists text, toml_parse T text = Some t /\ utf8_valid text = true /\ lenN text <= isize_max /\
    after s (le_bytes 4 5 ++ le_bytes 8 (lenN text) ++ text) s'.

Definition file_at (pf : profile) (T : toml_ops) (s : stream) (e : emb T) : Prop :=
  exists id ids s1 s2 s3 s4, header_at s (id :: ids) s1 /\
  match em_meta e with
  | Some t => id = CMetadata /\ metadata_at T s1 t s2
  | None => id <> CMetadata /\ s2 = s1
  end /\
  vocab_at pf s2 (em_vocab e) s3 /\ storage_at s3 (em_storage e) s4 /\
  match em_norms e with
  | Some ns => exists s5, norms_at s4 ns s5
  | None => ~ (exists ns s5, norms_at s4 ns s5) /\ ~ norms_too_long s4
  end.

(** ** Mapping a file into memory *)

(** A product of machine integers: it wraps around, with overflow checks it
    must not. *)
Definition product (pf : profile) (a b c : N) : Prop := c = (a * b) mod two64 /\ (pf = Debug -> a * b < two64).

(** The window on the [len] bytes that follow; the file may be shorter. *)
Definition window (s : stream) (len : N) (m : mmap) (s' : stream) : Prop :=
  len <= isize_max /\ m = mkMmap len (takeN len (s_rest s)) /\ s' = mkBroken (dropN len (s_rest s)) (s_pos s + len) (s_broken s).

Definition pq_floats (p : pq f32) : list f32 :=
  match pq_proj p with Some pr => concat (a2_rows pr) | None => [] end ++ concat (concat (pq_cent p)).

(** Only the sizes of a mapped matrix are read; its data need not be there. *)
Inductive mapped_at (pf : profile) (s : stream) : storage_wrap -> stream -> Prop :=
| mpa_nd l rows cols size len m s1 s' :
    lenN l = 8 -> rows < two64 -> cols < two32 -> product pf rows cols size -> product pf size 4 len ->
    after_padded s (le_bytes 4 2 ++ l ++ le_bytes 8 rows ++ le_bytes 4 cols ++ le_bytes 4 10) [] s1 ->
    window s1 len m s' ->
    mapped_at pf s (SMmapArray (mkMma m rows cols)) s'
| mpa_qa l p n ns fp fn len m s1 s' :
    lenN l = 8 -> pq_ok p -> n < two64 -> flag fp (is_some (pq_proj p)) -> flag fn (is_some ns) ->
    (forall x, ns = Some x -> lenN x = n /\ dims_ok [n] 4) -> product pf n (pq_ql p) len ->
    after_padded s (le_bytes 4 4 ++ l ++ le_bytes 4 fp ++ le_bytes 4 fn ++ le_bytes 4 (pq_ql p)
                    ++ le_bytes 4 (pq_ql p * pq_sub p) ++ le_bytes 4 (pq_nc p)
                    ++ le_bytes 8 n ++ le_bytes 4 1 ++ le_bytes 4 10)
                   (floats_layout (pq_floats p ++ match ns with Some x => x | None => [] end)) s1 ->
    window s1 len m s' ->
    mapped_at pf s (SMmapQuantized (mkMmq p m ns)) s'.

Definition mapped_file_at (pf : profile) (T : toml_ops) (s : stream) (e : emb T) : Prop :=
  exists id ids s1 s2 s3 s4, header_at s (id :: ids) s1 /\
  match em_meta e with
  | Some t => id = CMetadata /\ metadata_at T s1 t s2
  | None => id <> CMetadata /\ s2 = s1
  end /\
  vocab_at pf s2 (em_vocab e) s3 /\ mapped_at pf s3 (em_storage e) s4 /\
  match em_norms e with
  | Some ns => exists s5, norms_at s4 ns s5
  | None => ~ (exists ns s5, norms_at s4 ns s5) /\ ~ norms_too_long s4
  end.

(** ** Input that makes reading panic *)

(** [bs] comes first. *)
Definition starts (s : stream) (bs : list byte) : Prop := exists rest, s_rest s = bs ++ rest.

(** The size of the fields between the number of words and the words. *)
Definition fields_len (id : N) : option N :=
  match id with 1 => Some 0 | 3 => Some 12 | 7 => Some 12 | 8 => Some 16 | _ => None end.

Inductive vocab_panic_at (pf : profile) (s : stream) : panic -> Prop :=
| vpa_words id l n fields :                      (* more words than memory can hold *)
    lenN l = 8 -> n < two64 -> fields_len id = Some (lenN fields) -> isize_max < n * 24 ->
    starts s (le_bytes 4 id ++ l ++ le_bytes 8 n ++ fields) ->
    vocab_panic_at pf s PCapacity
| vpa_simple l ws :                              (* the same word twice *)
    lenN l = 8 -> words_ok ws -> ~ NoDup ws ->
    starts s (le_bytes 4 1 ++ l ++ le_bytes 8 (lenN ws) ++ strings_layout ws) ->
    vocab_panic_at pf s PDuplicateWords
| vpa_bucket l ws mn mx exp p :
    lenN l = 8 -> words_ok ws -> mn < two32 -> mx < two32 -> exp < two32 ->
    starts s (le_bytes 4 3 ++ l ++ le_bytes 8 (lenN ws) ++ le_bytes 4 mn ++ le_bytes 4 mx ++ le_bytes 4 exp
              ++ strings_layout ws) ->
    (64 < exp /\ p = PAssert \/
     exp <= 64 /\ ~ NoDup ws /\ p = PDuplicateWords \/
     exp = 64 /\ NoDup ws /\ pf = Debug /\ p = PArithOverflow) ->
    vocab_panic_at pf s p
| vpa_fasttext l ws mn mx n p :
    lenN l = 8 -> words_ok ws -> mn < two32 -> mx < two32 -> n < two32 ->
    starts s (le_bytes 4 7 ++ l ++ le_bytes 8 (lenN ws) ++ le_bytes 4 mn ++ le_bytes 4 mx ++ le_bytes 4 n
              ++ strings_layout ws) ->
    (i32_max < n /\ p = PAssert \/ n <= i32_max /\ ~ NoDup ws /\ p = PDuplicateWords) ->
    vocab_panic_at pf s p
| vpa_ngrams l ws n mn mx :                      (* more n-grams than memory can hold *)
    lenN l = 8 -> words_ok ws -> mn < two32 -> mx < two32 -> n < two64 -> isize_max < n * 32 ->
    starts s (le_bytes 4 8 ++ l ++ le_bytes 8 (lenN ws) ++ le_bytes 8 n ++ le_bytes 4 mn ++ le_bytes 4 mx
              ++ strings_layout ws) ->
    vocab_panic_at pf s PCapacity
| vpa_explicit l ws gs mn mx p :
    lenN l = 8 -> words_ok ws -> mn < two32 -> mx < two32 ->
    Forall (fun g => str_ok (fst g) /\ snd g < two64) gs -> lenN gs * 32 <= isize_max ->
    starts s (le_bytes 4 8 ++ l ++ le_bytes 8 (lenN ws) ++ le_bytes 8 (lenN gs) ++ le_bytes 4 mn ++ le_bytes 4 mx
              ++ strings_layout ws ++ ngrams_layout gs) ->
    (~ NoDup (map fst gs) /\ p = PDuplicateNGrams \/
     NoDup (map fst gs) /\ ~ NoDup ws /\ p = PDuplicateWords) ->
    vocab_panic_at pf s p
| vpa_floret l mn mx nh seed bow eow :           (* no buckets *)
    lenN l = 8 -> mn < two32 -> mx < two32 -> 1 <= nh <= 4 -> seed < two32 -> str_ok bow -> str_ok eow ->
    starts s (le_bytes 4 9 ++ l ++ le_bytes 4 mn ++ le_bytes 4 mx ++ le_bytes 8 0 ++ le_bytes 4 nh ++ le_bytes 4 seed
              ++ string_layout bow ++ string_layout eow) ->
    vocab_panic_at pf s PAssert.

(** The sizes of a quantized matrix. *)
Definition quantized_sizes (l : list byte) (fp fn ql rl nc n : N) : list byte :=
  le_bytes 4 4 ++ l ++ le_bytes 4 fp ++ le_bytes 4 fn ++ le_bytes 4 ql ++ le_bytes 4 rl ++ le_bytes 4 nc ++ le_bytes 8 n.

Inductive storage_panic_at (s : stream) : panic -> Prop :=
| spa_nd l rows cols :
    lenN l = 8 -> rows < two64 -> cols < two32 -> ~ dims_ok [rows; cols] 4 ->
    starts s (le_bytes 4 2 ++ l ++ le_bytes 8 rows ++ le_bytes 4 cols ++ le_bytes 4 10) ->
    storage_panic_at s PCapacity
| spa_zero l fp fn rl nc n :                     (* the quantized length is 0 *)
    lenN l = 8 -> fp < two32 -> fn < two32 -> rl < two32 -> nc < two32 -> n < two64 ->
    starts s (quantized_sizes l fp fn 0 rl nc n) ->
    storage_panic_at s PDivByZero
| spa_qa l fp fn ql sub nc n p floats s1 :
    (* the floats that were read before the panic: the projection if flagged,
       the centroids, the norms if flagged *)
    lenN l = 8 -> fp < two32 -> fn < two32 -> ql <> 0 -> ql < two32 -> ql * sub < two32 -> nc < two32 -> n < two64 ->
    after_padded s (quantized_sizes l fp fn ql (ql * sub) nc n ++ le_bytes 4 1 ++ le_bytes 4 10) (floats_layout floats) s1 ->
    (fp <> 0 /\ floats = [] /\ ~ dims_ok [ql * sub; ql * sub] 4 /\ p = PCapacity \/
     (fp <> 0 -> dims_ok [ql * sub; ql * sub] 4) /\
     let proj := if fp =? 0 then 0 else ql * sub * (ql * sub) in
     (lenN floats = proj /\ ~ dims_ok [ql; nc; sub] 4 /\ p = PCapacity \/
      dims_ok [ql; nc; sub] 4 /\ lenN floats = proj + ql * nc * sub /\ ql * nc * sub = 0 /\ p = PAssert \/
      dims_ok [ql; nc; sub] 4 /\ lenN floats = proj + ql * nc * sub /\ ql * nc * sub <> 0 /\
        fn <> 0 /\ ~ dims_ok [n] 4 /\ p = PCapacity \/
      dims_ok [ql; nc; sub] 4 /\ ql * nc * sub <> 0 /\ (fn <> 0 -> dims_ok [n] 4) /\
        lenN floats = proj + ql * nc * sub + (if fn =? 0 then 0 else n) /\
        ~ dims_ok [n; ql] 1 /\ p = PCapacity)) ->
    storage_panic_at s p.

(** Where in a file the panic happens. *)
Inductive file_panic_at (pf : profile) (T : toml_ops) (s : stream) : panic -> Prop :=
| fpa_metadata id ids s1 n :
    header_at s (id :: ids) s1 -> id = CMetadata -> n < two64 -> isize_max < n ->
    starts s1 (le_bytes 4 5 ++ le_bytes 8 n) ->
    file_panic_at pf T s PCapacity
| fpa_vocab id ids s1 s2 p :
    header_at s (id :: ids) s1 -> (id = CMetadata /\ (exists t, metadata_at T s1 t s2) \/ id <> CMetadata /\ s2 = s1) ->
    vocab_panic_at pf s2 p ->
    file_panic_at pf T s p
| fpa_storage id ids s1 s2 v s3 p :
    header_at s (id :: ids) s1 -> (id = CMetadata /\ (exists t, metadata_at T s1 t s2) \/ id <> CMetadata /\ s2 = s1) ->
    vocab_at pf s2 v s3 -> storage_panic_at s3 p ->
    file_panic_at pf T s p
| fpa_norms id ids s1 s2 v s3 a s4 :
    header_at s (id :: ids) s1 -> (id = CMetadata /\ (exists t, metadata_at T s1 t s2) \/ id <> CMetadata /\ s2 = s1) ->
    vocab_at pf s2 v s3 -> storage_at s3 a s4 -> norms_too_long s4 ->
    file_panic_at pf T s PCapacity.
