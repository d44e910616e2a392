# Formal model of finalfusion-rust: design

## Approach

The crate is modelled function by function as total, executable Gallina
functions (Rocq/Coq 8.16.1) under `rocq/theories/`.

| Rust | Model |
|------|-------|
| `u8` | `Coq.Init.Byte.byte` (exactly 256 values) |
| `u32`, `u64`, `usize`, `i32` | `N`, bounds explicit; casts are explicit `mod`. 64-bit little-endian target; `Endian.v` models the other byte order, `Width.v`, `WidthUse.v` and `WidthWrite.v` have other widths |
| `f32` | 4 bytes (`f32`), arithmetic = IEEE binary32 from `Coq.Floats.SpecFloat`; algorithms are generic in an operations record `fops F`, so they can also be instantiated with `R` |
| `String`/`str` | `list byte` with a UTF-8 decoder (type invariant: valid UTF-8) |
| `Result`/panics | `res A := Ok a / Err e / Panic p` |
| `Read + Seek` | `stream` = data + position + whether the data ends with an I/O error; readers are `stream -> res A * stream` |
| `Write + Seek` | `sink` = base offset + bytes written so far + optional failure point |
| `HashMap` | association list; iteration order = an arbitrary permutation (quantified oracle) |
| `BinaryHeap` | bag with "maximum" (its documented contract, proved of the implementation: C112) |
| debug/release builds | a `profile` parameter where overflow behaviour is observable |
| traits | records of functions (`vocab_ops`, `storage_ops`, `indexer_ops`, `chunk_ops`) |

External code (toml, murmur3, ndarray, reductive, memmap2, byteorder, std) is
either modelled from its documented contract or a section parameter; each use
is listed under *Trusted base*.

## Files

* Model (definitions only, each cites file and lines of `/repo`): `Base`,
  `Stream`, `F32`, `Utf8`, `ChunkIO`, `Subword`, `Vocab`, `Storage`,
  `Embeddings`, `Similarity`, `TextIO`, `FastText`, `F32Text`, `Endian`,
  `Equality`, `Width`.
* Specifications (vocabulary of the statements, no model code): `FileSpec`,
  `Grammar`, `VocabSpec`, `EmbSpec`, `SimSpec`, `TextSpec`, `FastTextSpec`,
  `F32TextSpec`, `FileExactSpec`, `LookupExactSpec`, `F32RoundSpec`,
  `TextExactSpec`, `FastTextExactSpec`, `RankSpec`,
  `HashSpec`, `EqualitySpec`, `SumSpec`, `TripSpec`.
* Proofs: `*Facts`, `*Thms`, `*Accept`, `*Exact`, `*Real`, `*Round`, `FtTrip` (`*Real`,
  `RealOps`, `*Round`, `F32Ops` and `F32RoundThms` use Coq's real numbers).
* Property theorems, with examples and `Print Assumptions`: `P_File`,
  `P_Grammar`, `P_Vocab`, `P_Emb`, `P_Explicit`, `P_Quant`, `P_Sim`, `P_Text`,
  `P_FastText`, `P_Number`, `P_Host`, `P_Round`, `P_Rank`, `P_Trip`, `P_Fault`, `P_Device`,
  `P_Convert`, `P_Width`, `P_Memory`, `P_Meta`, `P_WidthUse`, `P_AnyDot`, `P_Shaky`, `P_Work`,
  `P_WidthWrite`, `P_Hints`, `P_Message`, `P_MessageOther`, `P_MessageWrite`, `P_Truncate`, `P_Append`.  They are generated from `tools/props/*.v.in` by
  `tools/mkprops.py`, which copies the statement of a lemma and proves it with
  `exact`.
* `Conformance`: the project's own unit tests replayed on the model.
* `TestData` (written by `tools/testdata.py` from /repo/testdata) and
  `ConformanceData`: the unit tests that read the project's binary files,
  replayed on the model: word2vec, fastText, finalfusion and quantized files,
  similarity and analogy queries with their expected words and scores, and
  byte-for-byte equality of what is written with the project's files,
  including 4100 decimal numbers of a text file.  These are tests, not
  proofs: each is a boolean that must compute to `true` while the file is
  compiled; no proof term contains the computation, which would be too slow
  for `coqchk`.
* `ConformanceTests`: the remaining unit tests, in the same way: floret models
  against spaCy's vectors and byte for byte, chunk lengths and round trips of
  vocabularies, norms, metadata, header and matrices, the conversion to explicit
  n-grams, and the Euclidean measures.
* `properties.jsonl` and `MANIFEST.json` are generated by
  `tools/gen_properties.py` and `tools/gen_manifest.py` (from
  `tools/claims.txt`).
* `seeded/LOG.jsonl`: bugs seeded into scratch copies of the model and the
  theorems that noticed; `tools/seed.py` repeats them.

## Plan per property

| Property | What is modelled | How it is proved |
|---|---|---|
| C01-C10 | all chunk writers/readers, header, whole-file writer/reader | `emits` (writer = byte function of offset) and `reads` (reader inverts bytes) compositional predicates, induction over lists |
| C11 | `read_metadata` | both readers share a prefix of reads |
| C12, C13 | sink with failure point, `fails_short` predicate | compositional, induction |
| C14, C15 | mmap as a window on the file bytes | arithmetic on offsets, refutation witness for overflow |
| C16 | wrapper enums | case analysis plus inversion of chunk ids |
| C17-C19 | hash-map based vocabularies | induction on word list |
| C20, C25 | `NGrams` iterator as a state machine | invariant on offsets; UTF-8 encoder/decoder inverse proofs |
| C21-C24 | four indexers with their hashes | bit/arith lemmas; induction for renumbering |
| C26-C30 | `Embeddings` lookups | generic over arithmetic; unit norm over `R` |
| C31, C32 | `to_explicit` with arbitrary map iteration order | permutation + renumbering lemmas |
| C33, C34 | storages and quantizer checks | lists; witness for division by zero |
| C35-C39 | heap loop, masks | loop invariant "heap = k best so far" |
| C40 | conversions over `R`; f32 witness | real analysis; `SpecFloat` computation |
| C41-C48, C54-C62 | text, word2vec, fastText, floret readers/writers | as C01; inversion of accepted input; arithmetic over `R` |
| C49 | UTF-8 lossy decoding | induction on bytes; a relation between strict and lossy readers |
| C50 | l2 normalisation | over `R` |
| C63-C65 | whole-file readers and the mmap reader | inversion of every primitive read; the grammar is stated as inductive relations on bytes and offsets |
| C66-C68 | `f32::from_str` and `Display for f32` as exact arithmetic on decimals | correct rounding against an independent definition of the nearest number; monotone rounding gives minimality of the shortest decimal; `ftext_law` is a lemma for this instance |
| C69-C72 | whole-file readers on a written file that is cut short, or followed by other bytes | every primitive read either succeeds or leaves a known rest; a proper prefix is classified by where it ends |
| C73-C77 | lookups, batches and queries outside the preconditions | case analysis on usable n-gram lengths; every result of the folds, not only the successful ones |
| C78 | the code that is conditional on the byte order (`Endian.v`) | equality with the little-endian model |
| C79 | `to_explicit` outside the preconditions | as C31 |
| C80 | the `f32` arithmetic of `F32.v` | exact value of a bit pattern as a real number; location of the exact result between multiples of the last place, shown for each `SpecFloat` operation |
| C81 | `l2_normalize` in `f32` | the eight partial sums of `vdot` as a sum with a bounded number of roundings per term |
| C82 | the measures in `f32` | monotonicity of rounding; error bounds from C80 |
| C83-C87 | the text readers and the fastText reader on every input | an inductive description of the outcomes; the reader yields each described outcome, and one always exists |
| C88 | order of n-grams | positions sorted by start, longer first; two such sequences are equal |
| C89 | dot products and queries in `f32` | error of the partial sums against the exact dot product, Cauchy-Schwarz, error of normalisation (C81), order of the results |
| C90 | conversions to wrapped types | every operation of the record agrees before and after |
| C91 | FNV-1a and MurmurHash3 | both hashes described by bits and congruences, from the end of the input; the functions satisfy the description, which has one solution |
| C92 | quantizing in `f32` | error of the division, of the quantizer and of the multiplication, per component |
| C93 | `PartialEq` of the vocabularies and indexers (`Equality.v`) | a vocabulary is a function of its words, lengths, boundaries and the answers of its indexer |
| C94 | `Indexer::infallible` | exact answers of the indexers; a string that is in no finite list |
| C95 | vectors of unknown words in `f32` | addition does not underflow; error of each component sum; Minkowski's inequality |
| C96 | round trips with normalising readers in `f32` | product rounded once, exact length computed without overflow, directions of near vectors are near |
| C97 | fastText models in `f32` | subtracting is adding the opposite, so that writing and reading is one long sum; every component is off by a factor per addition |
| C98 | readers on failing devices | a reader that returns without error has not looked behind the data it consumed; every line reader must see the end of data |
| C99 | `read_embeddings` on a failing device | all chunk readers do not distinguish failure from end of data, so this is the exact outcome on truncated files |
| C100 | compat readers, then the finalfusion writer and reader | the exact outcomes of the readers are embeddings the file theorems apply to |
| C101 | file layout; `set_metadata`, `into_parts` | the chunks around the numbers depend on lengths only |
| C102 | all writers on a device that fills up | every writer only appends, and stops at the first error; `Error::Context` is looked through |
| C103 | `to_explicit`, `quantize_using`, then the writer and the reader | the parts of a result are ones the file theorems apply to |
| C104 | `to_explicit` with two orders of the hash maps | C31 describes the vectors of both without the order |
| C105 | the three writers and six readers on the same embeddings; floret | the files are functions of the list of written vectors, which the raw reader returns |
| C106 | every pair of writer and reader | whatever is read satisfies the conditions of the round trips, so they are necessary |
| C107 | `IterThms.v`: the iterators with their state | induction over the calls |
| C108 | `ProgramThms.v`: the inductive predicate `obtained`, one constructor per operation | induction over the operations with the invariant `sound` |
| C109 | `ReorderThms.v`: no definition, relations `extends` and `reordered` between two embeddings | indices of n-grams are below the bound; results are determined by their candidates |
| C110 | `IoDevice.v`: the loops of `read_exact` and `read_until`, `BufReader` and `Cursor` of the standard library over a device with any part sizes; mapping the file below; `prog` = programs over these operations; `DeviceThms.v`: every reader, and every mapping reader, is such a program | a seek discards the buffer and succeeds (failures are C118); the shortcuts of `BufReader::read_exact` and `Cursor::read_exact` are their `read` |
| C111 | `IoSink.v`: the loops of `write_all` and `flush_buf`, `BufWriter` of the standard library over a device with any part sizes; `wprog` = programs over `write_all` and `stream_position`; `DrainThms.v`: every writer is such a program | writers may split their output into calls in any way (any program with the same meaning); the device does not panic; whether a failing `stream_position` is a read or a write error differs between writers, and the model allows both |
| C112 | `StdHeap.v`: `BinaryHeap::push`, `peek_mut` with assignment and destructor, `into_sorted_vec`, `sift_up`, `sift_down_range`; `similarity_` with this heap | `Hole` writes its element at once; an element of the vector that is not assigned to is not moved. `sift_down_to_bottom` is not used by the crate |
| C113 | `Width.v`: the readers and the mapping reader of finalfusion files for a `usize` of any width, with casts, conversions, allocation limits and the asserts of `new_with_boundaries`; with conversions in the place of casts as a second variant | Lookups, queries and the other formats are C117, writers C120; fragmentation and other limits of the address space below `isize::MAX` are not modelled |
| C114 | `AnyDot.v`: the queries with the dot product and the matrix-vector product as parameters; the model is the instance with contiguous rows. `AnyDotSpec.v` says what a sum of products in any order is | products are functions of their operands (a library that answers differently from call to call is not covered); for the bounds, sums that flush small numbers to zero or keep wider intermediate results are not covered |
| C115 | `Memory.v`: the readers with an allocator that refuses requests above a limit; for finalfusion files the machine `limited l` of `Width.v` | Only requests whose size comes from numbers in the file are limited; vectors, strings and hash tables that grow with the data that was read, and the norms computed from it, always find memory; the limit is for each request, not for their sum |
| C116 | `FastTextMeta.v`: tables of the toml crate as sorted lists, and the table that the derived `Serialize` of `Config` gives | Only the kinds of values that occur; `f64` is a bit pattern; printing and parsing of tables stays a parameter |
| C117 | `WidthUse.v`: lookups, batches, queries, conversion and the readers of the other formats with `usize` of any width | Vectors, strings and hash tables that grow with the data always find memory; elements of the query heap have the size of a `String`; lookups in vocabularies whose bucket exponent is 64 are excluded (C117 findings). The capacity hints that lookups ask for are not in `WidthUse.v`, but in `Hints.v`; C121 says when they make no difference |
| C118 | `Shaky.v`: the programs of C110 and C111 on devices on which every call of `read`, `fill_buf`, `seek`, `stream_position`, mapping and `write` may fail at any time and leave the device in any state (when reading) | that the code is a program in which errors are only ignored by the `.ok()` of the norms is `strict_readers_thm`, `strict_formats_thm` and `shaky_file_thm`; a failing write stores nothing; `BufWriter` over such a device is not covered (C111 has full devices) |
| C119 | `Work.v`: the number of calls that a reader makes, by the way it is written (`counts`, one rule for each operation and each combination, none that replaces a reader by an equal one) | calls of `read_exact`, `read_until`, `seek`, `stream_position` and the mapping, not the system calls below them; the work in memory between two calls (hashing words, computing subwords, parsing a line) is not counted; writers are not covered; a call of `stream_position` whose result is not used changes nothing in the model and is not told apart from no call. Loops are counted through the recursion on binary numbers of the model, which makes the same calls |
| C120 | `WidthWrite.v`: `chunk_len` of all chunks, the writers of all chunks and of finalfusion files, and `write_embeddings_len`, with sums and products in a `usize` of any width, checked or wrapping | memory of a value: structures and bytes of words and n-grams (twice for n-grams), numbers of arrays, the length of maps; sizes of `String` and pairs are parameters. Writers of the other formats compute no lengths with `usize`. Positions in the output are `u64` |
| C121 | `Hints.v`: `Vec::from_iter` (first element, hint, allocation, growth), `FlatMap::size_hint` and `NGrams::size_hint` in a `usize` of any width, in `subword_indices`, `ngram_indices`, `idx` and the reader of fastText files | Growth as in Rust 1.57 and later (room for four elements first, then at least doubled). Strings, `SmallVec`s, the bracketed word and the queue of offsets always find memory. An element of `ngram_indices` is three times as large as a `String` (72 and 36 bytes). The writer of fastText files looks up words, too, and is not modelled with hints. For explicit vocabularies, which skip n-grams without index, it is not said exactly when the hint overflows |
| C122 | `Messages.v`: all readers of finalfusion chunks and files once more, with the texts of their errors; `MessageSpec.v`: the table of the fields of a file and the text for each | The `io::Error` inside of a read error is dropped, and so are the sources of `MatrixShape` and `Quantization`; `Display` of toml errors is a parameter; `Debug` output is not covered; writers have no texts |
| C123 | The same readers on wrong identifiers, versions, magics, lengths and words; `Display` of `Utf8Error` (`valid_up_to`, `error_len`) | As for C122 |
| C124 | `CompatMessages.v`: the readers of text, word2vec and floret files once more, with the texts of their errors; `Display` of `ParseIntError` and `ParseFloatError` (a field is never empty, so floats have one text) | Which strings are floats is the parameter `ftext_ops`; the `io::Error` inside of a read error is dropped |
| C125 | `CompatMessages.v`: the reader of fastText models with the texts of its errors; `CompatFastText.v`: the table of the fields of a model | As for C124; the text of a failing conversion of the configuration to toml is a parameter |
| C126 | `WriteMessages.v`: the writers of finalfusion files once more, with the texts of their errors; `WriteSpec.v`: the table of the fields of a file | The device of `Stream.v`: it has room for some number of bytes and then fails; `stream_position` does not fail; the `io::Error` inside of a write error is dropped |
| C127 | `WriteMessages.v`: the writers of the other formats with the texts of their errors | As for C126 |
| C128 | `WriteLayout.v`: the tables of `MessageSpec.v` and `WriteSpec.v`, side by side | As for C122 and C126 |
| C129 | `TruncOther.v`: the readers and writers of C41-C48 on prefixes of what was written | Numbers that are NaN; files without words or without columns, except for the witness |
| C130 | `AppendOther.v`: the readers and writers of C41-C48 on what was written and any data after it | Numbers that are NaN |
| C131 | `StartAnywhere.v`: all readers of other formats from streams at any position | Seeking is not used by these readers; buffered readers are C110 |
| C132 | `StartAligned.v`: all readers of finalfusion chunks and files, also memory-mapped, from streams at any position | A mapping is the bytes it shows; that mappings start at page boundaries is hidden by `memmap2` |
| C133 | `StartWrite.v`: all writers, to devices at any position with any room | As for C126 |
| C51-C54 | as above | theorem where true, `_refuted` witness where the code does not satisfy it |

Where the faithful model does not satisfy the English claim, the claim keeps
its wording, a theorem named `..._refuted` exhibits a witness, the true part is
proved next to it as `..._partial` and the manifest says "partial".  Where
there is a true characterisation of what the code does, it is a property of
its own (C55-C133).

## What is modelled of each source file

| Source | Modelled | Not modelled |
|---|---|---|
| `util.rs` | `padding`, `l2_normalize`, `l2_normalize_array`, `read_number`, `read_string` | `CollectWithCapacity` (its only effect is an allocation, modelled by `reserve`) |
| `io.rs`, `error.rs`, `prelude.rs`, `lib.rs` | error kinds; messages and `Display` of errors of all readers (C122-C125) and writers (C126, C127) | re-exports |
| `chunks/io.rs` | identifiers with `Display`, `ensure_chunk_type`, `TypeId`, `Header` | |
| `chunks/norms.rs`, `chunks/metadata.rs` | everything but `Deref`/`From` | toml itself (parameter) |
| `chunks/vocab/*` | everything (constructors, lookups, chunks, `to_explicit`, wrapper) | `Clone`/`Debug` derives |
| `chunks/storage/array.rs` | `NdArray`, `MmapArray` with all traits | `view_mut` |
| `chunks/storage/quantized.rs` | `QuantizedArray`, `MmapQuantizedArray` with all traits, `Quantize` | training and encoding of `reductive` (parameter `trainer`); the matrix product of the projection (parameter `gemm`) |
| `chunks/storage/wrappers.rs` | both wrappers | |
| `embeddings.rs` | constructors, lookups, batches, iterators, `to_explicit`, `try_to_explicit`, conversions, read/write/mmap, `quantize_using`, `set_metadata`, `into_parts` | other accessors; the allocation of the results of `Storage::embeddings` (copies of rows; that of `embedding_batch` is modelled) |
| `subword.rs` | `NGrams`, indexers, `NGramsIndicesIter`, size hints (also where `collect` asks for them, C121) | `Hash` for other hashers than FNV |
| `similarity.rs` | everything | `acos` (parameter), `PartialOrd` derives |
| `compat/text.rs`, `compat/word2vec.rs`, `compat/floret/*`, `compat/fasttext/*` | everything; `Table::try_from(config)` in `FastTextMeta.v` | |

## Trusted base

* Coq's kernel, and its virtual machine: `vm_compute` is used for examples and
  witnesses.
* `Print Assumptions` follows every property theorem.  Most are closed under
  the global context.  Theorems over the real numbers (`*Real`, in
  particular `unknown_unit_thm`, `normalized_rows_partial`, `R_ordered_thm`,
  `R_one_neutral_thm`, `measures_partial`, `measures_range_partial`,
  `measures_order_partial`, `unit_inner_thm`, `normalize_invertible_thm`,
  `ft_exact_rows_thm`, `ft_exact_functions_thm`, and everything in `P_Round`,
  `P_Rank`, `P_Trip` and the theorems of `P_AnyDot` about rounding) use the axioms of Coq's
  standard library of real numbers:
  `ClassicalDedekindReals.sig_not_dec`, `ClassicalDedekindReals.sig_forall_dec`,
  `FunctionalExtensionality.functional_extensionality_dep`, and some of them
  `Classical_Prop.classic`.  There are no other axioms, and none of our own.
* That the model describes the code: definitions were written from the source
  and cite it; `Conformance.v`, `ConformanceTests.v` and `ConformanceData.v` replay
  the project's tests, the last on its data files.  There was no compiler to compare other
  outputs with.
* The contracts of external code below.

| External | Model | Assumption |
|---|---|---|
| `Read`, `Seek`, `BufRead`, byteorder | `Stream.v` | a reader holds all its data, which ends or fails (`s_broken`); seeking and mapping do not fail (what happens if they do is C118); that part sizes, interruptions and buffers do not matter is proved (C110) from the loops of the standard library in `IoDevice.v` |
| `Write` | `Stream.v` | appends; an error after any number of bytes (`k_cap`); that part sizes and interruptions do not matter, and what `BufWriter` changes, is proved (C111) from the loops in `IoSink.v` |
| allocation | `reserve`, `alloc_zeros` | panics above `isize::MAX` bytes, otherwise succeeds; `Memory.v` (C115) has an allocator with any lower limit per request |
| `HashMap` | association list | iteration order is any permutation (`order`); `insert`, `get`, `entry` as documented |
| `BinaryHeap` | list | `peek_mut` gives a greatest element, `into_sorted_vec` sorts ascending; proved (C112) of the implementation in `StdHeap.v` |
| `String::from_utf8(_lossy)`, `char_indices` | `Utf8.v` | Unicode 3.9 table; replacement of maximal subparts |
| `f32` arithmetic | `F32.v` | IEEE 754 binary32, round to nearest even; NaN results are the canonical NaN |
| ndarray `dot` | `vdot` | `unrolled_dot`: eight partial sums, then the rest, for contiguous rows |
| ndarray matrix-vector product in similarity | `vdot` per row | the same result as the dot product of each row; `AnyDot.v` (C114) takes any product, so that other layouts and BLAS are covered |
| ndarray `sum_axis`, `+=`, `/=` | component-wise, in order | |
| ndarray general matrix product (quantizer projection) | parameter `gemm` | `gemm_exact`: equal to the dot product of each row (only for C33 on projected quantizers) |
| reductive training | parameter `trainer` | `trainer_fits` for shape theorems, `trainer_sound` for storing (C103) |
| toml | parameter `toml_ops` | `toml_law`: printing then parsing gives the same table, printed text is UTF-8 |
| `f32` printing/parsing | parameter `ftext_ops` with `ftext_law` (printed numbers parse to the same number, NaN to NaN, are not empty and contain no whitespace) | none for the theorems of `P_Number`: `F32Text` is an instance that satisfies the law; that it is what Rust does (correct rounding, shortest decimal, exponent digits ignored from 65536 on) is taken from the documentation and source of `core::num` |
| `Table::try_from(config)` | parameter `config_table` | may fail; `FastTextMeta.v` (C116) writes out what serde and toml do with `Config` |
| `f32::acos`, `PI` | parameters | C40 takes the real `acos`, `PI`; C82 assumes `acos_law` (antitone on [-1, 1], between zero and `PI`) |
| memmap2 | `mmap` | a window on the bytes of an unchanging file; access outside the file's bytes is `PUnsafe` |
| fnv, murmur3 | `fnv64`, `murmur3_x64_128` | written out, checked against the project's tests |

The parameters with laws are inhabited by the examples next to the theorems
(`ex_toml_law`, `ex_P_law`, and so on).

## Findings

Behaviour of the modelled code that contradicts a claim. Each has a witness
computed by the kernel, a theorem named in the table.

| Property | What happens | Theorem |
|---|---|---|
| C01, C51 | Embeddings without norms: bytes after the file that look like a norms chunk are read as norms | `trailing_norms_refuted`, `file_position_refuted` |
| C07, C45 | Word boundary markers other than `<` and `>` are not stored in finalfusion bucket vocabularies and fastText files; lookups change after reading | `bucket_boundaries_refuted`, `ft_boundaries_refuted` |
| C09 | Floret vocabularies lose their words | `floret_words_refuted` |
| C12 | A file with an empty matrix that is cut inside the padding is accepted | `truncated_empty_refuted` |
| C15 | Mapping a truncated file succeeds, rows below the reported shape are outside the map; the size computation wraps for huge shapes in release builds | `mmap_truncated_refuted`, `mmap_overflow_refuted` |
| C52 | The number of words, rows and norms is not compared | `file_consistent_refuted` |
| C53 | Malformed files panic: duplicate words or n-grams, allocation sizes, overflow | `file_panics_refuted`, `file_panics_partial` lists all |
| C18, C26, C32 | Constructors accept an n-gram length of zero or an empty range; lookups and `try_to_explicit` panic | `lookup_range_refuted`, `lookup_total_refuted`, `try_to_explicit_refuted` |
| C19, C21 | A bucket exponent of 64 is accepted: the reported vocabulary length wraps and indices are out of bounds; zero fastText buckets divide by zero | `lookup_bounds_refuted`, `hash_bound_refuted`, `fasttext_zero_refuted` |
| C25 | The lower size hint exceeds the number of items for short words, the floret iterator yields more items than its upper bound, the hint overflows for a huge maximum length | `size_hint_lower_refuted`, `size_hint_floret_refuted`, `size_hint_overflow_refuted` |
| C27 | In `f32` the length of a nonzero vector may underflow to zero or overflow to infinity | `unit_length_refuted` |
| C31 | `to_explicit` uses default boundary markers and drops metadata | `to_explicit_boundaries_refuted`, `to_explicit_metadata_refuted` |
| C33 | Quantized files may contain codes that are no centroid numbers | `quantized_code_refuted` |
| C34 | Quantizing with normalisation divides zero rows by zero | `quantize_zero_row_refuted`, `quantize_finite_refuted`, `quantize_norm_refuted` |
| C38 | Similarity queries with limit 0, batch size 0, an empty vocabulary, a huge limit, or a NaN dot product panic | `limit_zero_refuted`, `batch_zero_refuted`, `empty_vocab_refuted`, `limit_max_refuted`, `nan_refuted` |
| C40 | The `f32` similarity of a normalised vector with itself may exceed one; its angle is then NaN | `measures_refuted` |
| C41, C42, C44, C45 | Readers of other formats normalise, so vectors that are not normalised are not recovered | `text_round_trip_refuted`, `text_dims_round_trip_refuted`, `word2vec_round_trip_refuted`, `ft_round_trip_refuted` |
| C41, C42 | Text files without words panic (division by zero) | `text_empty_refuted` |
| C42, C43 | Lines of different lengths are accepted if the total fits | `text_ragged_refuted` |
| C42, C48 | Headers that promise too much panic | `text_capacity_refuted`, `floret_capacity_refuted` |
| C47 | Boundary markers that contain delimiters are not recovered from floret files | `floret_markers_refuted` |
| C48 | Floret parameters are truncated to 32 bits before they are checked; n-gram length 0 is accepted | `floret_truncated_refuted`, `floret_zero_ngram_refuted` |
| C46 | fastText models with too few rows, without subwords or without buckets panic; columns are not compared | `ft_rows_refuted`, `ft_no_subwords_refuted`, `ft_columns_refuted` |
| C54, C57 | A number without delimiter loses the last byte of the stream | `read_number_refuted`, `word2vec_header_refuted` |
| C99 | An I/O error while the norms are read is dropped with the norms | `file_fault_refuted` |
| C104 | `to_explicit` is not reproducible: n-grams and their rows are numbered in the order of a hash map, so the files of two conversions of the same embeddings differ | `explicit_order_refuted` |
| C105 | Reading with a normalizing reader and writing with `unnormalize` does not give the file back: the vector `[1 1]` changes | `normalized_rewrite_refuted` |
| C106 | Writers are silent: words of 2^32 bytes or more, n-gram lengths of 2^32 or more, words with spaces, other fastText markers are written without an error and lost | `file_long_word_thm`, `file_survives_ex`, `text_survives_ex`, `fasttext_survives_ex` |
| C102 | `write_vocab` of fastText (io.rs 591-593) reports a failure to write the type of an entry as a read error ("Cannot read entry type") | `fasttext_write_error_refuted`, `fasttext_fills_up_thm` |
| C111 | The writers do not flush: through a `BufWriter` they return `Ok` although the last bytes (the norms of a finalfusion file, all of a small text file) cannot be stored | `buffered_ok_refuted`, `plain_unnoticed_thm` |
| C113 | On 32-bit machines the counts of metadata and of bucketed and explicit vocabularies are truncated (`as usize`), so that damaged files are accepted; other counts are checked | `truncated_refuted` |
| C113 | On 32-bit machines without overflow checks, mapping a matrix of 4 GiB or more succeeds with a map that is too short; rows are then read outside of it | `short_map_thm`, `unmapped_refuted` |
| C113 | Norms whose damaged count is large are left out on 64-bit machines but panic on 32-bit machines | `damaged_norms_refuted` |
| C114 | The order of query results depends on the memory layout of the matrix (from 8 columns on): a column-major matrix that is written and read again can give other answers | `layout_irrelevant_refuted` |
| C115 | A file of 36 bytes (finalfusion) to 109 bytes (fastText) can ask for any amount of memory up to `isize::MAX` before it is rejected: sizes are allocated before the data is seen | `greedy_read_thm`, `greedy_text_dims_thm`, `greedy_word2vec_thm`, `greedy_floret_thm`, `greedy_fasttext_thm` |
| C115 | Embeddings with a damaged count of norms are read without norms, unless the memory that the count asks for is refused | `greedy_norms_refuted` |
| C116 | Writing a fastText file loses the metadata: a model that is read, written and read again says that it was trained with CBOW for 0 epochs | `meta_lost_refuted` |
| C116 | The number of dimensions in a fastText header is not compared with the matrix, but kept in the metadata | `meta_dims_refuted` |
| C117 | A floret file whose header has a seed, length or number of hashes of more than 32 bits is accepted on 64-bit machines (the number is truncated) and rejected on 32-bit machines | `narrow_seed_refuted` |
| C117 | A word2vec file without words is accepted with any number of dimensions on 64-bit machines, on 32-bit machines only if the number fits | `narrow_empty_refuted` |
| C117 | With a bucket exponent of 64 and without overflow checks a vocabulary can be built on all machines; 32-bit machines truncate the indices, so that lookups differ | `narrow_exponent_refuted` |
| C118 | A failing `stream_position` while a chunk is written is reported as a read error by some writers and as a write error by others | `shaky_written_thm` |
| C119 | A word2vec file with zero components per vector makes the reader loop as often as the header says, without reading anything: `1000000000 0` and a newline takes two thousand million calls, then panics for duplicate words | `word2vec_calls_refuted` |
| C120 | If the data of a chunk exceed `usize::MAX` bytes (which needs more memory than there are addresses), builds without overflow checks state a wrong chunk length and the others panic | `too_wide_refuted` |
| C121 | The size hint of n-gram iterators overflows on 32-bit machines if `max_n` is large: in debug builds a lookup then panics, and reading a fastText model does | `hint_overflow_refuted`, `hint_fasttext_refuted` |
| C121 | `ngram_indices` asks for memory by the size hint: 927 GB for a word of one letter if `max_n` is 2^32 - 1; on 32-bit machines without overflow checks the request wraps | `hint_memory_refuted`, `hint_wrap_refuted` |
| C123 | The text for a quantizer whose lengths do not fit has the lengths swapped: a file with quantized length 4 and reconstructed length 2 is refused because 4 is "not a multiple" of 2 | `quantizer_lengths_thm`, `quantizer_lengths_refuted` |
| C123 | Memory mapping a chunk that is no storage says that `NdArray` is expected, although `QuantizedArray` is accepted as well | `mmap_storage_lists_refuted` |
| C123 | A wrong magic that is not UTF-8 is shown with replacement characters, so different magics have the same text | `magic_apart_refuted` |
| C124 | A number at the end of the data is shown without its last byte: `12ab` as `12a` | `bad_number_shown_refuted` |
| C124 | The dimensionality shown for a text file with dimensions is the average over all lines, rounded down: lines with one and four components are reported as "expected: 3, got: 2" | `text_dims_sizes_partial`, `text_dims_shown_refuted` |
| C124 | The number of hash functions of a floret file is truncated to 32 bits before it is checked and shown: 4294967296 is shown as 0 | `floret_hashes_shown_refuted` |
| C124 | A word2vec file cut in a word is reported as "Cannot read word embedding", or, if the cut leaves part of a character before the last byte, as invalid UTF-8 | `word2vec_cut_partial`, `cut_word_thm` |
| C125 | A fastText model cut in a word is reported as "Cannot read word frequency", or, if the cut leaves part of a character before the last byte, as invalid UTF-8 | `fasttext_word_cut_thm`, `fasttext_word_cut_refuted` |
| C125 | The text for a newer fastText version says "Expected 12 as version", but all older versions are accepted | `fasttext_version_refuted` |
| C126 | If the number of n-grams of an explicit vocabulary cannot be written, the error says "Cannot write ngram length" | `ngram_texts_thm`, `ngram_text_refuted` |
| C126 | If the number of centroids of a quantizer cannot be written, the error says "Cannot write number of subquantizers" | `centroids_text_thm`, `centroids_text_refuted` |
| C127 | If the type of a fastText model cannot be written, the error says "Cannot write loss function" | `fasttext_model_text_thm` |
| C127 | If the type of an entry of a fastText model cannot be written, the error is a read error: "Cannot read entry type" | `fasttext_entry_type_thm` |
| C129 | A word2vec file without words whose last newline is missing is read with other dimensions: "0 12" as "0 1" | `word2vec_no_words_refuted` |
| C129 | A text file with dimensions or a floret file that was cut in its last number is accepted with another number: "25" as 2 | `text_dims_truncated_refuted`, `floret_truncated_refuted` |
| C129 | A text file that was cut between lines is accepted without the words that follow; if it is empty, the reader panics | `text_truncated_refuted` |
| C130 | Two text files one after the other that have a word in common make the reader panic | `text_concatenated_thm` |
| C130 | After a word2vec file the reader stands before the last newline, so that a second file cannot be read from the same reader (`read_number` does not trim) | `word2vec_position_thm` |
| C132 | A finalfusion file copied to a position that does not differ by a multiple of four is read without an error, with other numbers and without norms | `moved_file_refuted` |
