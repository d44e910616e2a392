(** * N-grams and n-gram indexers
    (/repo/src/subword.rs, /repo/src/compat/fasttext/indexer.rs,
    /repo/src/compat/floret/indexer.rs). *)
From Verif Require Import Base Utf8.
Local Open Scope N_scope.

(** ** N-gram iterator *)

(** [StrWithCharLen], /repo/src/subword.rs 248-252: a string and its length
    in characters. *)
Record swcl := mkSwcl { sw_str : str; sw_len : N }.

(** [StrWithCharLen::new], /repo/src/subword.rs 264-267. *)
Definition swcl_new (s : str) : swcl :=
  mkSwcl s (match utf8_decode s with Some cs => lenN cs | None => 0 end).

(** [NGrams], /repo/src/subword.rs 304-310. *)
Record ngrams := mkNgrams {
  ng_max : N; ng_min : N; ng_str : str; ng_offs : list N; ng_len : N
}.

(** [NGrams::new], /repo/src/subword.rs 316-338.  (A Rust [str] is always
    valid UTF-8; the last case cannot occur.) *)
Definition ngrams_new (s : str) (min_n max_n : N) : res ngrams :=
  let* _ := rassert (negb (min_n =? 0)) PAssert in
  let* _ := rassert (min_n <=? max_n) PAssert in
  match char_indices s with
  | Some ci =>
      let offs := map fst ci in
      Ok (mkNgrams max_n min_n s offs (N.min max_n (lenN offs)))
  | None => Panic PAssert
  end.

(** The slice taken by [next], /repo/src/subword.rs 361-365. *)
Definition ngram_slice (g : ngrams) : res str :=
  let* a := index (ng_offs g) 0 in
  if ng_len g =? lenN (ng_offs g)
  then str_slice (ng_str g) a (lenN (ng_str g))
  else let* b := index (ng_offs g) (ng_len g) in str_slice (ng_str g) a b.

(** The part of [next] after the suffix is settled, lines 361-375. *)
Definition ngrams_emit (g : ngrams) : res (option swcl * ngrams) :=
  let* s := ngram_slice g in
  Ok (Some (mkSwcl s (ng_len g)),
      mkNgrams (ng_max g) (ng_min g) (ng_str g) (ng_offs g) (ng_len g - 1)).

(** [NGrams::next], /repo/src/subword.rs 345-376.  The subtraction at line
    373 cannot underflow: [ng_len >= ng_min >= 1] there. *)
Definition ngrams_next (g : ngrams) : res (option swcl * ngrams) :=
  if ng_len g <? ng_min g then
    let offs := tl (ng_offs g) in
    let g1 := mkNgrams (ng_max g) (ng_min g) (ng_str g) offs (ng_len g) in
    if lenN offs <? ng_min g then Ok (None, g1)
    else ngrams_emit (mkNgrams (ng_max g) (ng_min g) (ng_str g) offs
                               (N.min (ng_max g) (lenN offs)))
  else ngrams_emit g.

(** [NGrams::size_hint], /repo/src/subword.rs 379-382. *)
Definition ngrams_size_hint (pf : profile) (g : ngrams) : res (N * option N) :=
  let* a := add64 pf (ng_max g - ng_min g) 1 in
  let* c := mul64 pf a (lenN (ng_offs g)) in
  Ok (c, Some c).

(** Draining the iterator ([collect], [for]); fuel bounds the number of
    items. *)
Fixpoint ngrams_drain (fuel : nat) (g : ngrams) : res (list swcl) :=
  match fuel with
  | O => Err EFuel
  | S fuel' =>
      let* r := ngrams_next g in
      match r with
      | (None, _) => Ok []
      | (Some x, g') => let* l := ngrams_drain fuel' g' in Ok (x :: l)
      end
  end.

Definition ngrams_fuel (s : str) : nat := S (length s * S (length s)).

(** All n-grams of a string. *)
Definition ngrams_collect (s : str) (min_n max_n : N) : res (list swcl) :=
  let* g := ngrams_new s min_n max_n in ngrams_drain (ngrams_fuel s) g.

(** ** Indexers *)

(** [IndicesScope], /repo/src/subword.rs 387-393. *)
Inductive scope := Substrings | StringAndSubstrings.

(** The [Indexer] trait, /repo/src/subword.rs 20-32 ([infallible] is not
    used by any other code). *)
Record indexer_ops (I : Type) := mkIndexerOps {
  ix_index : I -> swcl -> res (list N);
  ix_bound : profile -> I -> res N;
  ix_scope : scope
}.
Arguments ix_index {I}. Arguments ix_bound {I}. Arguments ix_scope {I}.

(** *** Finalfusion hash indexer *)

(** [HashIndexer], /repo/src/subword.rs 56-60. *)
Record hash_indexer := mkHashIx { hi_exp : N; hi_mask : N }.

(** [HashIndexer::new], /repo/src/subword.rs 69-86. *)
Definition hash_indexer_new (exp : N) : res hash_indexer :=
  let* _ := rassert (exp <=? 64) PAssert in
  Ok (mkHashIx exp (if exp =? 64 then two64 - 1 else 2 ^ exp - 1)).

(** [FnvHasher] of the fnv crate (64-bit FNV-1a). *)
Definition fnv64_init : N := 14695981039346656037.
Definition fnv64_step (h : N) (b : byte) : N :=
  (N.lxor h (bN b) * 1099511628211) mod two64.
Definition fnv64 (bs : list byte) : N := fold_left fnv64_step bs fnv64_init.

(** [Hash for StrWithCharLen], /repo/src/subword.rs 285-295: the bytes fed to
    the hasher. *)
Definition swcl_hash_bytes (g : swcl) : list byte :=
  le_bytes 8 (sw_len g) ++
  flat_map (le_bytes 4) (match utf8_decode (sw_str g) with Some cs => cs | None => [] end).

(** [HashIndexer::index_ngram], /repo/src/subword.rs 114-118. *)
Definition hash_index (i : hash_indexer) (g : swcl) : res (list N) :=
  Ok [N.land (fnv64 (swcl_hash_bytes g)) (hi_mask i)].

(** [HashIndexer::upper_bound], /repo/src/subword.rs 120-123:
    [2u64.pow(exp)], which overflows for [exp = 64]. *)
Definition hash_bound (pf : profile) (i : hash_indexer) : res N :=
  let b := 2 ^ hi_exp i in
  if b <? two64 then Ok b
  else match pf with Debug => Panic PArithOverflow | Release => Ok (b mod two64) end.

Definition hash_ops : indexer_ops hash_indexer :=
  mkIndexerOps hash_indexer hash_index hash_bound Substrings.

(** *** fastText indexer *)

(** [FastTextIndexer], /repo/src/compat/fasttext/indexer.rs 9-22. *)
Record ft_indexer := mkFtIx { fi_buckets : N }.

(** [FastTextIndexer::new], /repo/src/compat/fasttext/indexer.rs 28-38. *)
Definition ft_indexer_new (buckets : N) : res ft_indexer :=
  let* _ := rassert (buckets <=? i32_max) PAssert in
  Ok (mkFtIx (buckets mod two32)).

(** [(byte as i8) as u32]: sign extension. *)
Definition sign_extend8 (b : byte) : N :=
  if bN b <? 128 then bN b else bN b + (two32 - 256).

(** [fasttext_hash], /repo/src/compat/fasttext/indexer.rs 73-84. *)
Definition ft_hash_step (h : N) (b : byte) : N :=
  (N.lxor h (sign_extend8 b) * 16777619) mod two32.
Definition ft_hash (s : str) : N := fold_left ft_hash_step s 2166136261.

(** [FastTextIndexer::index_ngram], /repo/src/compat/fasttext/indexer.rs 46-49;
    [% 0] panics. *)
Definition ft_index (i : ft_indexer) (g : swcl) : res (list N) :=
  if fi_buckets i =? 0 then Panic PDivByZero
  else Ok [ft_hash (sw_str g) mod fi_buckets i].

(** [upper_bound], /repo/src/compat/fasttext/indexer.rs 51-53. *)
Definition ft_bound (pf : profile) (i : ft_indexer) : res N := Ok (fi_buckets i).

Definition ft_ops : indexer_ops ft_indexer :=
  mkIndexerOps ft_indexer ft_index ft_bound Substrings.

(** *** floret indexer *)

(** [FloretIndexer], /repo/src/compat/floret/indexer.rs 12-17. *)
Record floret_indexer := mkFloretIx { fl_buckets : N; fl_seed : N; fl_hashes : N }.

(** [FloretIndexer::new], /repo/src/compat/floret/indexer.rs 20-34. *)
Definition floret_indexer_new (n_buckets n_hashes seed : N) : res floret_indexer :=
  let* _ := rassert ((0 <? n_hashes) && (n_hashes <=? 4)) PAssert in
  let* _ := rassert (negb (n_buckets =? 0)) PAssert in
  Ok (mkFloretIx n_buckets seed n_hashes).

(** MurmurHash3_x64_128 of the murmur3 crate. *)
Definition rotl64 (x r : N) : N :=
  N.lor (N.shiftl x r mod two64) (N.shiftr x (64 - r)).
Definition mm_c1 : N := 0x87c37b91114253d5.
Definition mm_c2 : N := 0x4cf5ad432745937f.
Definition mul64w (a b : N) : N := (a * b) mod two64.
Definition add64w (a b : N) : N := (a + b) mod two64.
Definition mm_fmix (k : N) : N :=
  let k := N.lxor k (N.shiftr k 33) in
  let k := mul64w k 0xff51afd7ed558ccd in
  let k := N.lxor k (N.shiftr k 33) in
  let k := mul64w k 0xc4ceb9fe1a85ec53 in
  N.lxor k (N.shiftr k 33).
Definition mm_k1 (k : N) : N := mul64w (rotl64 (mul64w k mm_c1) 31) mm_c2.
Definition mm_k2 (k : N) : N := mul64w (rotl64 (mul64w k mm_c2) 33) mm_c1.
Fixpoint mm_body (fuel : nat) (bs : list byte) (h1 h2 : N) : N * N :=
  match fuel with
  | O => (h1, h2)
  | S fuel' =>
      if 16 <=? lenN bs then
        let k1 := le_value (firstn 8 bs) in
        let k2 := le_value (firstn 8 (skipn 8 bs)) in
        let h1 := N.lxor h1 (mm_k1 k1) in
        let h1 := add64w (mul64w (add64w (rotl64 h1 27) h2) 5) 0x52dce729 in
        let h2 := N.lxor h2 (mm_k2 k2) in
        let h2 := add64w (mul64w (add64w (rotl64 h2 31) h1) 5) 0x38495ab5 in
        mm_body fuel' (skipn 16 bs) h1 h2
      else
        (* tail: up to 15 bytes; absent bytes contribute k = 0, for which
           mm_k1/mm_k2 are 0 *)
        (N.lxor h1 (mm_k1 (le_value (firstn 8 bs))),
         N.lxor h2 (mm_k2 (le_value (skipn 8 bs))))
  end.
Definition murmur3_x64_128 (bs : list byte) (seed : N) : N :=
  let '(h1, h2) := mm_body (S (length bs)) bs seed seed in
  let n := lenN bs mod two64 in
  let h1 := N.lxor h1 n in
  let h2 := N.lxor h2 n in
  let h1 := add64w h1 h2 in
  let h2 := add64w h2 h1 in
  let h1 := mm_fmix h1 in
  let h2 := mm_fmix h2 in
  let h1 := add64w h1 h2 in
  let h2 := add64w h2 h1 in
  h2 * two64 + h1.

(** [hash_array] of [FloretIndexer::index_ngram],
    /repo/src/compat/floret/indexer.rs 54-58: [(hash >> 32 i) as u32]. *)
Definition floret_part (hash : N) (i : N) : N := N.shiftr hash (32 * i) mod two32.

(** [FloretIndexer::index_ngram], /repo/src/compat/floret/indexer.rs 50-66.
    [n_hashes > 4] would index out of bounds, [n_buckets = 0] would divide
    by zero; both are excluded by the constructor. *)
Definition floret_index (i : floret_indexer) (g : swcl) : res (list N) :=
  let hash := murmur3_x64_128 (sw_str g) (fl_seed i) in
  rmap (fun k =>
          let* h := index [floret_part hash 0; floret_part hash 1;
                           floret_part hash 2; floret_part hash 3] k in
          if fl_buckets i =? 0 then Panic PDivByZero
          else Ok (h mod fl_buckets i))
       (rangeN (fl_hashes i)).

(** [upper_bound], /repo/src/compat/floret/indexer.rs 68-70. *)
Definition floret_bound (pf : profile) (i : floret_indexer) : res N := Ok (fl_buckets i).

Definition floret_ops : indexer_ops floret_indexer :=
  mkIndexerOps floret_indexer floret_index floret_bound StringAndSubstrings.

(** *** Explicit indexer *)

(** [ExplicitIndexer], /repo/src/subword.rs 144-148. *)
Record explicit_indexer := mkExIx { ei_ngrams : list str; ei_index : hmap N; ei_bound : N }.

(** [(i, x)] for consecutive [i]: [Iterator::enumerate]. *)
Fixpoint enumerate_from {A} (n : N) (l : list A) : list (N * A) :=
  match l with [] => [] | a :: l' => (n, a) :: enumerate_from (n + 1) l' end.
Definition enumerate {A} (l : list A) := enumerate_from 0 l.

(** [ExplicitIndexer::new], /repo/src/subword.rs 161-180. *)
Definition explicit_new (ngrams : list str) : res explicit_indexer :=
  let index := fold_left (fun m '(i, g) => hm_insert m g i) (enumerate ngrams) [] in
  let* _ := rassert (hm_len index =? lenN ngrams) PDuplicateNGrams in
  Ok (mkExIx ngrams index (hm_len index)).

(** Loop state of [new_with_indices]: old-to-new map, index, ngrams. *)
Definition nwi_state := (nmap N * hmap N * list str)%type.

(** Loop body of [new_with_indices], /repo/src/subword.rs 205-213.  The
    n-gram list is kept in order of insertion. *)
Definition nwi_step (st : nwi_state) (p : str * N) : res nwi_state :=
  let '(o2n, idx, ngs) := st in
  let '(ngram, bucket) := p in
  let cur := lenN o2n in
  let '(new_idx, o2n') :=
    match nm_get o2n bucket with
    | Some i => (i, o2n)
    | None => (cur, (bucket, cur) :: o2n)
    end in
  match hm_get idx ngram with
  | Some _ => Panic PDuplicateNGrams
  | None => Ok (o2n', hm_insert idx ngram new_idx, ngs ++ [ngram])
  end.

(** [ExplicitIndexer::new_with_indices], /repo/src/subword.rs 198-223; also
    returns the old-to-new map. *)
Definition explicit_new_with_indices (tuples : list (str * N)) : res (explicit_indexer * nmap N) :=
  let* st := rfold nwi_step tuples ([], [], []) in
  let '(o2n, idx, ngs) := st in
  Ok (mkExIx ngs idx (lenN o2n), o2n).

(** [ExplicitIndexer::index_ngram], /repo/src/subword.rs 227-232. *)
Definition explicit_index (i : explicit_indexer) (g : swcl) : res (list N) :=
  match hm_get (ei_index i) (sw_str g) with
  | Some n => Ok [n]
  | None => Ok []
  end.

(** [upper_bound], /repo/src/subword.rs 234-236. *)
Definition explicit_bound (pf : profile) (i : explicit_indexer) : res N := Ok (ei_bound i).

Definition explicit_ops : indexer_ops explicit_indexer :=
  mkIndexerOps explicit_indexer explicit_index explicit_bound Substrings.

(** ** N-grams with indices *)
Section Indices.
  Context {I : Type} (ops : indexer_ops I).

  (** [NGramsIndicesIter], /repo/src/subword.rs 452-456. *)
  Record ngi := mkNgi { ni_string : option str; ni_ngrams : ngrams; ni_ix : I }.

  (** [NGramsIndicesIter::new], /repo/src/subword.rs 459-477. *)
  Definition ngi_new (s : str) (min_n max_n : N) (ix : I) : res ngi :=
    let* g := ngrams_new s min_n max_n in
    Ok (mkNgi (match ix_scope ops with Substrings => None | StringAndSubstrings => Some s end) g ix).

  (** [NGramsIndicesIter::next], /repo/src/subword.rs 486-498. *)
  Definition ngi_next (it : ngi) : res (option (str * list N) * ngi) :=
    match ni_string it with
    | Some s =>
        let* idx := ix_index ops (ni_ix it) (swcl_new s) in
        Ok (Some (s, idx), mkNgi None (ni_ngrams it) (ni_ix it))
    | None =>
        let* r := ngrams_next (ni_ngrams it) in
        match r with
        | (None, g') => Ok (None, mkNgi None g' (ni_ix it))
        | (Some g, g') =>
            let* idx := ix_index ops (ni_ix it) g in
            Ok (Some (sw_str g, idx), mkNgi None g' (ni_ix it))
        end
    end.

  (** [NGramsIndicesIter::size_hint], /repo/src/subword.rs 500-503. *)
  Definition ngi_size_hint (pf : profile) (it : ngi) : res (N * option N) :=
    ngrams_size_hint pf (ni_ngrams it).

  Fixpoint ngi_drain (fuel : nat) (it : ngi) : res (list (str * list N)) :=
    match fuel with
    | O => Err EFuel
    | S fuel' =>
        let* r := ngi_next it in
        match r with
        | (None, _) => Ok []
        | (Some x, it') => let* l := ngi_drain fuel' it' in Ok (x :: l)
        end
    end.

  (** [str::subword_indices_with_ngrams], /repo/src/subword.rs 427-443. *)
  Definition subword_indices_with_ngrams (s : str) (min_n max_n : N) (ix : I)
    : res (list (str * list N)) :=
    let* it := ngi_new s min_n max_n ix in ngi_drain (S (ngrams_fuel s)) it.

  (** [str::subword_indices], /repo/src/subword.rs 410-423. *)
  Definition str_subword_indices (s : str) (min_n max_n : N) (ix : I) : res (list N) :=
    let* l := subword_indices_with_ngrams s min_n max_n ix in
    Ok (flat_map snd l).
End Indices.
Arguments mkNgi {I}. Arguments ni_string {I}. Arguments ni_ngrams {I}. Arguments ni_ix {I}.
