(** * Conformance on the project's test files

    The unit tests that read /repo/testdata, replayed on the model: evidence
    that the model describes the code, not part of any proof.  Each test is a
    boolean; [check] computes it while the file is compiled and fails if it is
    not [true].  The results are not kept as theorems, because checking them
    again without the virtual machine takes hours. *)
From Coq Require Import Strings.String Strings.Byte.
From Verif Require Import Base Utf8 Stream F32 ChunkIO Subword Vocab Storage Embeddings Similarity TextIO FastText F32Text TestData.
Local Open Scope N_scope.

Ltac check t := let x := eval vm_compute in t in match x with true => exact I end.
Definition s (x : string) : str := list_byte_of_string x.
Definition ok {A} (r : res A) (f : A -> bool) : bool := match r with Ok a => f a | _ => false end.
Definition start (bs : list byte) : stream := mkStream bs 0.
Definition run {A} (m : reader A) (bs : list byte) : res A := fst (m (start bs)).
Fixpoint list_eqb {A B} (eqb : A -> B -> bool) (l1 : list A) (l2 : list B) : bool :=
  match l1, l2 with
  | [], [] => true
  | a :: l1', b :: l2' => eqb a b && list_eqb eqb l1' l2'
  | _, _ => false
  end.
Definition strs_eqb := list_eqb str_eqb.
Definition f32_same (a b : f32) : bool := f32_bits a =? f32_bits b.
Definition row_eqb := list_eqb f32_same.
(** [abs_diff_eq]: [|a - b| <= eps]. *)
Definition f32_abs (x : f32) : f32 := f32_of_bits (f32_bits x mod 2147483648).
Definition close (eps a b : f32) : bool :=
  match f32_cmp (f32_abs (f32_sub a b)) eps with Some Gt | None => false | _ => true end.
(** [n] millionths. *)
Definition millionths (n : N) : f32 := f32_div (f32_of_N n) (f32_of_N 1000000).

Notation wemb := (embeddings unit simple_vocab (array2 f32) f32).

(** ** /repo/src/compat/word2vec.rs 179-246 *)
Definition similarity_emb : res wemb := run (read_word2vec Debug false) similarity_bin.
Definition similarity_raw : res wemb := run (read_word2vec_raw Debug false) similarity_bin.
Definition is_err {A} (r : res A) : bool := match r with Err _ => true | _ => false end.
Definition fails_on_invalid_utf8 : bool := is_err (run (A := wemb) (read_word2vec Debug false) utf8_incomplete_bin).
Goal True. check fails_on_invalid_utf8. Qed.
Definition read_lossy : bool :=
  ok (run (A := wemb) (read_word2vec Debug true) utf8_incomplete_bin)
  (fun e => strs_eqb (v_words simple_ops (em_vocab e)) [s "meren"; s "zee�n"; s "rivieren"]).
Goal True. check read_lossy. Qed.
Definition test_read_word2vec_binary : bool :=
  ok similarity_raw
  (fun e => (v_words_len simple_ops (em_vocab e) =? 41) && (a2_cols (em_storage e) =? 100)).
Goal True. check test_read_word2vec_binary. Qed.

Definition bytes_eqb := list_eqb byte_eqb.
(** Reading and writing gives the same file. *)
Definition test_word2vec_binary_roundtrip : bool :=
  ok similarity_raw (fun e =>
  ok (run_writer (write_word2vec simple_ops (nd_ops f32) false e) 0) (bytes_eqb similarity_bin)).
Goal True. check test_word2vec_binary_roundtrip. Qed.
(** Normalising, and writing with norms, gives nearly the same vectors. *)
Definition test_word2vec_binary_write_unnormalized : bool :=
  ok similarity_raw (fun check => ok similarity_emb (fun e =>
  ok (run_writer (write_word2vec simple_ops (nd_ops f32) true e) 0) (fun out =>
  ok (run (A := wemb) (read_word2vec_raw Debug false) out) (fun e2 =>
    list_eqb (list_eqb (close (millionths 1))) (a2_rows (em_storage e2)) (a2_rows (em_storage check)))))).
Goal True. check test_word2vec_binary_write_unnormalized. Qed.

(** ** /repo/src/compat/text.rs 366-480, with the decimal text of [F32Text] *)
Definition text_fails_on_invalid_utf8 : bool :=
  is_err (run (A := wemb) (read_text rust_ftext Debug false) utf8_incomplete_txt) &&
  is_err (run (A := wemb) (read_text_dims rust_ftext Debug false) utf8_incomplete_dims).
Goal True. check text_fails_on_invalid_utf8. Qed.
Definition meren (e : wemb) : bool := strs_eqb (v_words simple_ops (em_vocab e)) [s "meren"; s "zee�n"; s "rivieren"].
Definition text_read_lossy : bool :=
  ok (run (read_text rust_ftext Debug true) utf8_incomplete_txt) meren &&
  ok (run (read_text_dims rust_ftext Debug true) utf8_incomplete_dims) meren.
Goal True. check text_read_lossy. Qed.
(** The vectors of the text files are those of the binary file, and are
    written as the text file with dimensions, which contains the other one. *)
Definition text_nodims : res wemb := run (read_text_raw rust_ftext Debug false) similarity_nodims.
Definition text_dims : res wemb := run (read_text_dims_raw rust_ftext Debug false) similarity_txt.
Definition same_emb (a b : wemb) : bool :=
  strs_eqb (v_words simple_ops (em_vocab a)) (v_words simple_ops (em_vocab b)) &&
  list_eqb row_eqb (a2_rows (em_storage a)) (a2_rows (em_storage b)) && negb (lenN (a2_rows (em_storage a)) =? 0).
Definition test_read_text : bool := ok similarity_raw (fun e => ok text_nodims (same_emb e) && ok text_dims (same_emb e)).
Goal True. check test_read_text. Qed.
Definition test_word2vec_text_dims_roundtrip : bool := ok text_dims (fun e =>
  ok (run_writer (write_text_dims rust_ftext simple_ops (nd_ops f32) false e) 0) (bytes_eqb similarity_txt)).
Goal True. check test_word2vec_text_dims_roundtrip. Qed.

(** ** /repo/src/similarity.rs 559-677 *)
Definition similar (w : string) (limit : N) (batch : option N) : res (list str) :=
  let* e := similarity_emb in
  let* r := word_similarity f32_ops simple_ops (nd_ops f32) Ok Debug e (s w) limit batch in
  match r with Some l => Ok (map wr_word l) | None => Err EFormat end.
Definition SIMILARITY_ORDER : list str := map s [
  "Potsdam"; "Hamburg"; "Leipzig"; "Dresden"; "München"; "Düsseldorf"; "Bonn"; "Stuttgart"; "Weimar";
  "Berlin-Charlottenburg"; "Rostock"; "Karlsruhe"; "Chemnitz"; "Breslau"; "Wiesbaden"; "Hannover"; "Mannheim";
  "Kassel"; "Köln"; "Danzig"; "Erfurt"; "Dessau"; "Bremen"; "Charlottenburg"; "Magdeburg"; "Neuruppin";
  "Darmstadt"; "Jena"; "Wien"; "Heidelberg"; "Dortmund"; "Stettin"; "Schwerin"; "Neubrandenburg"; "Greifswald";
  "Göttingen"; "Braunschweig"; "Berliner"; "Warschau"; "Berlin-Spandau"]%string.
Definition test_similarity : bool :=
  ok (similar "Berlin" 40 None) (strs_eqb SIMILARITY_ORDER) &&
  ok (similar "Berlin" 10 None) (strs_eqb (takeN 10 SIMILARITY_ORDER)) &&
  ok (similar "Berlin" 40 (Some 17)) (strs_eqb SIMILARITY_ORDER).
Goal True. check test_similarity. Qed.
Definition test_embedding_similarity : bool :=
  ok similarity_emb (fun e =>
  ok (emb_embedding f32_ops simple_ops (nd_ops f32) Debug e (s "Berlin")) (fun v =>
  match v with None => false | Some v =>
  ok (embedding_similarity f32_ops simple_ops Ok e v 10 None) (fun r =>
  match r with None => false | Some l => strs_eqb (map wr_word l) (s "Berlin" :: takeN 9 SIMILARITY_ORDER) end) end)).
Goal True. check test_embedding_similarity. Qed.
Definition test_similarity_limit : bool := ok (similar "Stuttgart" 10 None) (strs_eqb (map s [
  "Karlsruhe"; "Mannheim"; "München"; "Darmstadt"; "Heidelberg"; "Wiesbaden"; "Kassel"; "Düsseldorf"; "Leipzig"; "Berlin"]%string)).
Goal True. check test_similarity_limit. Qed.

Definition analogy_emb : res wemb := run (read_word2vec Debug false) analogy_bin.
Definition analogy_of (a b c : string) (batch : option N) : res (list str + (bool * bool * bool)) :=
  let* e := analogy_emb in
  let* r := analogy f32_ops simple_ops (nd_ops f32) Ok Debug e (s a, s b, s c) 40 batch in
  Ok (match r with inl l => inl (map wr_word l) | inr p => inr p end).
Definition ANALOGY_ORDER : list str := map s [
  "Deutschland"; "Westdeutschland"; "Sachsen"; "Mitteldeutschland"; "Brandenburg"; "Polen"; "Norddeutschland";
  "Dänemark"; "Schleswig-Holstein"; "Österreich"; "Bayern"; "Thüringen"; "Bundesrepublik"; "Ostdeutschland";
  "Preußen"; "Deutschen"; "Hessen"; "Potsdam"; "Mecklenburg"; "Niedersachsen"; "Hamburg"; "Süddeutschland"; "Bremen";
  "Russland"; "Deutschlands"; "BRD"; "Litauen"; "Mecklenburg-Vorpommern"; "DDR"; "West-Berlin"; "Saarland"; "Lettland";
  "Hannover"; "Rostock"; "Sachsen-Anhalt"; "Pommern"; "Schweden"; "Deutsche"; "deutschen"; "Westfalen"]%string.
Definition found (x : list str + (bool * bool * bool)) : bool := match x with inl l => strs_eqb ANALOGY_ORDER l | inr _ => false end.
Definition test_analogy : bool :=
  ok (analogy_of "Paris" "Frankreich" "Berlin" None) found && ok (analogy_of "Paris" "Frankreich" "Berlin" (Some 17)) found.
Goal True. check test_analogy. Qed.
Definition absent (a b c : bool) (x : list str + (bool * bool * bool)) : bool :=
  match x with inl _ => false | inr (a', b', c') => Bool.eqb a a' && Bool.eqb b b' && Bool.eqb c c' end.
Definition test_analogy_absent : bool :=
  ok (analogy_of "Foo" "Frankreich" "Berlin" None) (absent false true true) &&
  ok (analogy_of "Paris" "Foo" "Berlin" None) (absent true false true) &&
  ok (analogy_of "Paris" "Frankreich" "Foo" None) (absent true true false).
Goal True. check test_analogy_absent. Qed.

(** ** /repo/src/compat/fasttext/io.rs 600-655 *)
Definition any_toml : toml_ops := mkToml unit (fun _ => []) (fun _ => Some tt).
Notation femb := (embeddings unit (subword_vocab ft_indexer) (array2 f32) f32).
Definition fasttext_emb : res femb := run (read_fasttext Debug any_toml (fun _ => Some tt) false) fasttext_bin.
Definition ft_similar (w : string) : res (list (wsr f32)) :=
  let* e := fasttext_emb in
  let* r := word_similarity f32_ops (sub_ops ft_ops) (nd_ops f32) Ok Debug e (s w) 3 None in
  match r with Some l => Ok l | None => Err EFormat end.
Definition matches (l : list (wsr f32)) (expected : list (string * N)) : bool :=
  list_eqb (fun x '(w, n) => str_eqb (wr_word x) (s w) && close (millionths 1) (wr_sim x) (millionths n)) l expected.
Definition test_read_fasttext : bool :=
  ok (ft_similar "über") (fun l => matches l [("auf", 568513); ("vor", 551551); ("durch", 547349)]%string).
Goal True. check test_read_fasttext. Qed.
Definition test_read_fasttext_unknown : bool :=
  ok (ft_similar "unknown") (fun l => matches l [("einer", 691177); ("und", 576449); ("des", 570398)]%string).
Goal True. check test_read_fasttext_unknown. Qed.
(** [abs_diff_eq] with the default [f32::EPSILON]. *)
Definition epsilon : f32 := f32_of_bits 872415232.
Definition ft_vocab_eqb (a b : subword_vocab ft_indexer) : bool :=
  strs_eqb (sv_words a) (sv_words b) && (fi_buckets (sv_ix a) =? fi_buckets (sv_ix b))
  && (sv_min a =? sv_min b) && (sv_max a =? sv_max b) && str_eqb (sv_bow a) (sv_bow b) && str_eqb (sv_eow a) (sv_eow b).
Definition write_fasttext_test : bool :=
  ok fasttext_emb (fun check =>
  ok (run_writer (write_fasttext Debug any_toml (nd_ops f32) check) 0) (fun out =>
  ok (run (A := femb) (read_fasttext Debug any_toml (fun _ => Some tt) false) out) (fun e =>
    ft_vocab_eqb (em_vocab check) (em_vocab e) &&
    list_eqb (list_eqb (close epsilon)) (a2_rows (em_storage check)) (a2_rows (em_storage e))))).
Goal True. check write_fasttext_test. Qed.

(** ** /repo/src/embeddings.rs 814-895 *)
Definition ft_embedding (e : femb) (w : string) : res (option (list f32)) :=
  emb_embedding f32_ops (sub_ops ft_ops) (nd_ops f32) Debug e (s w).
Definition same_into (e : femb) (w : string) (target : list f32) : bool :=
  ok (ft_embedding e w) (fun v => match v with None => false | Some v =>
  ok (emb_embedding_into f32_ops (sub_ops ft_ops) (nd_ops f32) Debug e (s w) target) (fun '(t, found) => found && row_eqb t v) end).
Definition embedding_into_equal_to_embedding : bool :=
  ok fasttext_emb (fun e =>
  let zeros := vzeros f32_ops (emb_dims (nd_ops f32) e) in
  same_into e "ganz" zeros && same_into e "iddqd" zeros &&
  ok (ft_embedding e "iddqd") (fun v => match v with Some v => same_into e "idspispopd" v | None => false end)).
Goal True. check embedding_into_equal_to_embedding. Qed.
Definition embedding_batch_returns_correct_embeddings : bool :=
  ok similarity_raw (fun e =>
  let one w := match emb_embedding f32_ops simple_ops (nd_ops f32) Debug e (s w) with Ok (Some v) => v | _ => [] end in
  ok (emb_batch f32_ops simple_ops (nd_ops f32) Debug (fun m => m) e
       (map s ["Berlin"; "Bremen"; "Groningen"; "Bremen"; "Berlin"; "Amsterdam"]%string)) (fun '(rows, found) =>
    list_eqb Bool.eqb found [true; true; false; true; true; false] &&
    match rows with
    | r0 :: r1 :: _ :: r3 :: r4 :: _ =>
        row_eqb r0 (one "Berlin"%string) && row_eqb r1 (one "Bremen"%string)
        && row_eqb r3 (one "Bremen"%string) && row_eqb r4 (one "Berlin"%string) && negb (lenN r0 =? 0)
    | _ => false
    end)).
Goal True. check embedding_batch_returns_correct_embeddings. Qed.
(** The finalfusion file has the vectors of the word2vec file. *)
Definition same_as_raw (rows : list (list f32)) (words : list str) : bool :=
  ok similarity_raw (fun check => strs_eqb words (sm_words (em_vocab check)) && list_eqb row_eqb rows (a2_rows (em_storage check))).
Definition mmap_test : bool :=
  ok (run (mmap_embeddings any_toml read_simple (mmap_ndarray Debug)) similarity_fifu) (fun e =>
    ok (mma_view (em_storage e)) (fun a => same_as_raw (a2_rows a) (sm_words (em_vocab e)))).
Goal True. check mmap_test. Qed.
Definition read_test : bool :=
  ok (run (read_embeddings any_toml read_simple read_ndarray) similarity_fifu) (fun e =>
    same_as_raw (a2_rows (em_storage e)) (sm_words (em_vocab e))).
Goal True. check read_test. Qed.
(** The finalfusion files have no metadata. *)
Definition raw_toml : toml_ops := mkToml str (fun t => t) Some.
Notation wrapped := (embeddings str vocab_wrap storage_wrap f32).
Definition fifu_emb (bs : list byte) : res wrapped := run (read_embeddings raw_toml (read_vocab_wrap Debug) read_storage_wrap) bs.
Definition written (offset : N) (e : wrapped) : res (list byte) :=
  run_writer (write_embeddings raw_toml vwrap_chunk swrap_chunk e) offset.
Definition write_read_simple_roundtrip : bool :=
  ok similarity_raw (fun e =>
  ok (written 0 (mkEmb None (SNdArray (em_storage e)) (VSimple (em_vocab e)) None)) (bytes_eqb similarity_fifu)).
Goal True. check write_read_simple_roundtrip. Qed.
Definition quantized_roundtrip : bool :=
  ok (fifu_emb quantized_fifu) (fun e => ok (written 0 e) (bytes_eqb quantized_fifu)).
Goal True. check quantized_roundtrip. Qed.
(** With metadata, a norm per word, and a long vocabulary, at every offset up
    to 16: the predicted length is the written length. *)
Definition length_ok (e : wrapped) : bool :=
  forallb (fun offset => ok (written offset e) (fun out => lenN out =? write_embeddings_len raw_toml vwrap_chunk swrap_chunk e offset))
          (rangeN 16).
Definition embeddings_write_length_different_offsets : bool :=
  ok (fifu_emb similarity_fifu) (fun e => length_ok e
    && length_ok (mkEmb (Some (s "ns = 5")) (em_storage e) (em_vocab e) None)) &&
  ok (fifu_emb quantized_fifu) length_ok &&
  ok similarity_emb (fun e => length_ok (mkEmb None (SNdArray (em_storage e)) (VSimple (em_vocab e)) (em_norms e))).
Goal True. check embeddings_write_length_different_offsets. Qed.
Definition to_explicit_test : bool :=
  ok fasttext_emb (fun e =>
  ok (emb_to_explicit ft_bucket_ops (nd_ops f32) Debug nd_clone_from_mapping (fun m => m) (fun m => m) e) (fun x =>
    let row (v : res (option (list f32))) := match v with Ok (Some v) => v | _ => [] end in
    let ganz := row (ft_embedding e "ganz") in
    row_eqb ganz (row (emb_embedding f32_ops (sub_ops explicit_ops) (nd_ops f32) Debug x (s "ganz"))) && negb (lenN ganz =? 0) &&
    match ft_index (sv_ix (em_vocab e)) (swcl_new (s "anz")), explicit_index (sv_ix (em_vocab x)) (swcl_new (s "anz")) with
    | Ok (i :: _), Ok (j :: _) =>
        let wl := sub_words_len (em_vocab e) in
        ok (st_embedding (nd_ops f32) (em_storage e) (i + wl)) (fun a =>
        ok (st_embedding (nd_ops f32) (em_storage x) (j + wl)) (fun b => row_eqb a b && negb (lenN a =? 0)))
    | _, _ => false
    end)).
Goal True. check to_explicit_test. Qed.

(** ** /repo/src/chunks/storage/quantized.rs 836-895 *)
Definition gemm : array2 f32 -> list (list f32) -> list (list f32) :=
  fun p => map (fun v => map (fun r => vdot f32_ops r v) (a2_rows p)).
Definition row_of (r : res (list f32)) : list f32 := match r with Ok v => v | _ => [] end.
(** [storage_eq]: the same shape and rows. *)
Definition storage_eq {A B} (SA : storage_ops f32 A) (SB : storage_ops f32 B) (a : A) (b : B) : bool :=
  let '(rows, cols) := st_shape SA a in
  let '(rows', cols') := st_shape SB b in
  (rows =? rows') && (cols =? cols') && negb (rows =? 0) &&
  forallb (fun i => let x := row_of (st_embedding SA a i) in
                    row_eqb x (row_of (st_embedding SB b i)) && (lenN x =? cols)) (rangeN rows).
Definition reconstruct_mmap_quantized_array : bool :=
  ok (run (mmap_quantized_chunk Debug) quantized_storage_bin) (fun q =>
  ok (mmq_reconstruct gemm q) (storage_eq (mmq_ops gemm) (nd_ops f32) q)).
Goal True. check reconstruct_mmap_quantized_array. Qed.
Definition mmap_quantized_array : bool :=
  ok (run (mmap_quantized_chunk Debug) quantized_storage_bin) (fun q =>
  ok (run read_quantized quantized_storage_bin) (storage_eq (mmq_ops gemm) (qa_ops f32_ops gemm) q)).
Goal True. check mmap_quantized_array. Qed.
Definition write_mmap_quantized_array : bool :=
  ok (run (mmap_quantized_chunk Debug) quantized_storage_bin) (fun q =>
  ok (run_writer (write_mmap_quantized q) 0) (fun out => bytes_eqb out quantized_storage_bin &&
  ok (run read_quantized out) (storage_eq (mmq_ops gemm) (qa_ops f32_ops gemm) q))).
Goal True. check write_mmap_quantized_array. Qed.
