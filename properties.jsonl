{"id": "C01", "title": "Whole-file round trip", "statement": "Writing embeddings with write_embeddings at any stream offset and reading those bytes back with read_embeddings yields the same vocabulary, the same matrix (bit for bit), the same norms and the same metadata, whatever bytes precede or follow.", "quantifier": "every vocabulary kind, every storage kind, every metadata/norms presence, every starting offset, every preceding and following byte string", "why_tests_cant": "Round-trip tests use one small file at offset 0; alignment padding and chunk interplay depend on every length and offset.", "anchors": ["src/embeddings.rs: write_embeddings, read_embeddings", "src/chunks/io.rs: Header", "src/chunks/storage/array.rs: NdArray::write_chunk/read_chunk", "src/chunks/vocab/*"]}
{"id": "C02", "title": "Predicted length is the written length", "statement": "write_embeddings_len(offset) equals exactly the number of bytes write_embeddings emits when the stream is at that offset.", "quantifier": "every embeddings value and every offset", "why_tests_cant": "Padding depends on the offset and on all string lengths; tests sample a handful.", "anchors": ["src/embeddings.rs: write_embeddings_len", "src/chunks/*: chunk_len"]}
{"id": "C03", "title": "Chunk length fields are skippable", "statement": "The length field stored after every chunk identifier equals the number of bytes that follow it in that chunk, so a reader can skip any chunk without understanding it and land exactly on the next chunk.", "quantifier": "every chunk kind, every content, every offset", "why_tests_cant": "A wrong length is invisible to the crate's own readers, which never use it to skip vocabularies or matrices.", "anchors": ["src/chunks/vocab/subword.rs: write_*_chunk", "src/chunks/storage/array.rs: write_chunk", "src/chunks/storage/quantized.rs: write_chunk", "src/chunks/norms.rs", "src/chunks/metadata.rs"]}
{"id": "C04", "title": "Matrix data is 4-byte aligned", "statement": "Wherever a chunk starts, its float data is written at a file offset that is a multiple of 4, and the reader looks for it at the same offset, although writer and reader compute the padding at different stream positions.", "quantifier": "every offset and every chunk content", "why_tests_cant": "Writer and reader compute padding from different positions; agreement is an arithmetic fact over all offsets.", "anchors": ["src/util.rs: padding", "src/chunks/storage/array.rs", "src/chunks/storage/quantized.rs", "src/chunks/norms.rs"]}
{"id": "C05", "title": "Header validation", "statement": "A stream whose first bytes are not the magic, whose version is not 0, or whose header lists an unknown chunk identifier is rejected with an error, and no other header is rejected; accepted headers return the listed identifiers in order.", "quantifier": "every byte string", "why_tests_cant": "The rejected set is infinite.", "anchors": ["src/chunks/io.rs: Header::read_chunk, ChunkIdentifier::try_from"]}
{"id": "C06", "title": "Header lists the chunks of the file", "statement": "The header of a written file lists exactly the chunks that follow, in file order: metadata first iff present, then the vocabulary, then the storage, then norms iff present.", "quantifier": "every embeddings value", "why_tests_cant": "All combinations of vocabulary, storage, norms and metadata.", "anchors": ["src/embeddings.rs: write_embeddings"]}
{"id": "C07", "title": "Bucketed subword vocabulary round trip", "statement": "Writing and reading a bucketed (finalfusion hash or fastText) subword vocabulary preserves words, n-gram range, bucket count and therefore every lookup - provided the vocabulary uses the default word boundary strings; with other boundaries the lookup of out-of-vocabulary words changes after reload.", "quantifier": "every vocabulary, every queried string", "why_tests_cant": "Lookups range over all strings; tests only use default boundaries.", "anchors": ["src/chunks/vocab/subword.rs: read_bucketed_chunk, write_bucketed_chunk"]}
{"id": "C08", "title": "Explicit n-gram vocabulary round trip", "statement": "Writing and reading an explicit n-gram vocabulary preserves the words and the index of every n-gram although the reader renumbers the indices; several n-grams sharing an index keep sharing it.", "quantifier": "every explicit vocabulary that the constructors can build", "why_tests_cant": "Renumbering is idempotent only because of an invariant of all reachable indexers.", "anchors": ["src/chunks/vocab/subword.rs: read_ngram_chunk, write_ngram_chunk, read_ngrams_with_indices, write_ngrams_with_indices", "src/subword.rs: ExplicitIndexer::new_with_indices"]}
{"id": "C09", "title": "Floret vocabulary round trip", "statement": "Writing and reading a floret vocabulary preserves hash seed, number of hashes, bucket count, n-gram range and boundaries; words stored in the vocabulary are not written and are lost.", "quantifier": "every floret vocabulary", "why_tests_cant": "Tests use a single vocabulary without words.", "anchors": ["src/chunks/vocab/subword.rs: read_floret_chunk, write_floret_chunk"]}
{"id": "C10", "title": "Quantized matrix round trip", "statement": "Writing and reading a quantized matrix preserves projection, codebooks, codes and optional norms bit for bit at every offset.", "quantifier": "every product quantizer, code matrix, norm vector and offset", "why_tests_cant": "Six interdependent length fields and two optional parts.", "anchors": ["src/chunks/storage/quantized.rs: write_chunk, read_chunk, read_product_quantizer"]}
{"id": "C11", "title": "Metadata can be read alone", "statement": "read_metadata on a stream returns exactly the metadata that a full read_embeddings returns, and it succeeds even if everything after the metadata chunk is missing or damaged.", "quantifier": "every stream and every embeddings value", "why_tests_cant": "All possible tails of a file.", "anchors": ["src/chunks/metadata.rs: read_metadata", "src/embeddings.rs: read_embeddings"]}
{"id": "C12", "title": "Truncated files are not accepted as complete", "statement": "If a write is cut off at any byte, reading the partial file fails, except that a cut inside the trailing norms chunk yields the same embeddings silently without norms.", "quantifier": "every embeddings value and every crash point", "why_tests_cant": "Every byte position of every file is a crash point.", "anchors": ["src/embeddings.rs: read_embeddings, write_embeddings"]}
{"id": "C13", "title": "A failing writer leaves a prefix", "statement": "If the underlying writer fails after any number of bytes, write_embeddings returns an error and what reached the writer is exactly a prefix of the complete serialisation; it succeeds iff all bytes fit.", "quantifier": "every embeddings value, every offset, every failure point", "why_tests_cant": "Every failure point.", "anchors": ["src/embeddings.rs: write_embeddings", "src/chunks/*: write_chunk"]}
{"id": "C14", "title": "Memory mapping equals reading", "statement": "mmap_embeddings on a written file returns embeddings whose vocabulary, shape, rows, norms and metadata are identical to those read_embeddings returns.", "quantifier": "every embeddings value with array or quantized storage, every row", "why_tests_cant": "Every offset/shape combination.", "anchors": ["src/chunks/storage/array.rs: MmapArray", "src/chunks/storage/quantized.rs: MmapQuantizedArray", "src/embeddings.rs: mmap_embeddings"]}
{"id": "C15", "title": "Memory-mapped views stay inside the mapped region", "statement": "Every row of a memory-mapped matrix lies inside the mapped window and starts at an aligned address, for any file content; a truncated file is rejected at mapping time.", "quantifier": "every file content and every row index below the reported shape", "why_tests_cant": "Adversarial shape fields; overflow of rows*columns*4 cannot be reached with test-sized files.", "anchors": ["src/chunks/storage/array.rs: MmapArray::mmap_chunk, embedding", "src/chunks/storage/quantized.rs: MmapQuantizedArray"]}
{"id": "C16", "title": "Wrapper types are transparent", "statement": "Reading a chunk through the dynamic vocabulary/storage wrappers gives the same value as reading it with the concrete type, and reading it as a different type is an error, never another value.", "quantifier": "every chunk and every pair of types", "why_tests_cant": "All kinds crossed with all contents.", "anchors": ["src/chunks/vocab/wrappers.rs: VocabWrap", "src/chunks/storage/wrappers.rs: StorageWrap, StorageViewWrap"]}
{"id": "C17", "title": "Words and indices are in bijection", "statement": "A vocabulary can be constructed iff its words are distinct; then looking up a word gives index i iff the word is the i-th word, for every string.", "quantifier": "every word list and every queried string", "why_tests_cant": "All word lists, all queries.", "anchors": ["src/chunks/vocab/simple.rs: SimpleVocab::new, idx", "src/chunks/vocab/subword.rs: SubwordVocab::new, idx", "src/chunks/vocab/mod.rs: create_indices"]}
{"id": "C18", "title": "Subword indices of unknown words", "statement": "For a string that is not a vocabulary word, the lookup returns the indexer's indices for all n-grams of the string between its boundary markers, shifted by the number of words, and nothing if there are none.", "quantifier": "every vocabulary and every Unicode string", "why_tests_cant": "All strings.", "anchors": ["src/chunks/vocab/subword.rs: idx, subword_indices, bracket", "src/subword.rs: subword_indices"]}
{"id": "C19", "title": "Indices stay below the vocabulary length", "statement": "Every index returned by a lookup is smaller than the vocabulary length (words below the word count, subwords at or above it), so lookups in a matching matrix never go out of bounds.", "quantifier": "every vocabulary kind and every string", "why_tests_cant": "All strings and bucket counts.", "anchors": ["src/chunks/vocab/subword.rs", "src/subword.rs: Indexer::upper_bound", "src/compat/fasttext/indexer.rs", "src/compat/floret/indexer.rs"]}
{"id": "C20", "title": "N-gram enumeration is exact", "statement": "Iterating the n-grams of a string yields every substring of min_n..=max_n characters exactly once per position, with its true character length, and nothing else; it never panics on any valid UTF-8 string and stays exhausted once exhausted.", "quantifier": "every Unicode string and every 1 <= min_n <= max_n", "why_tests_cant": "All strings and ranges, multi-byte boundaries.", "anchors": ["src/subword.rs: NGrams, StrWithCharLen"]}
{"id": "C21", "title": "Bucket indexers respect their bound", "statement": "The index produced for an n-gram is smaller than the indexer's upper bound, for every accepted bucket configuration.", "quantifier": "every n-gram and every constructor argument", "why_tests_cant": "Constructor arguments 0 and 64 are accepted but never tested.", "anchors": ["src/subword.rs: HashIndexer", "src/compat/fasttext/indexer.rs: FastTextIndexer", "src/compat/floret/indexer.rs: FloretIndexer"]}
{"id": "C22", "title": "fastText hash compatibility", "statement": "The fastText indexer hashes ASCII strings with 32-bit FNV-1a modulo the bucket count, and for other strings differs from FNV-1a exactly by sign-extending bytes, as fastText does.", "quantifier": "every string and bucket count", "why_tests_cant": "All strings.", "anchors": ["src/compat/fasttext/indexer.rs: fasttext_hash"]}
{"id": "C23", "title": "Floret indexer", "statement": "Every n-gram (including the complete bracketed word) gets exactly n_hashes indices, each below the bucket count, and they depend only on the n-gram bytes, the seed and the bucket count.", "quantifier": "every string, seed, bucket count and number of hashes 1..=4", "why_tests_cant": "All strings.", "anchors": ["src/compat/floret/indexer.rs: FloretIndexer"]}
{"id": "C24", "title": "Explicit indexer numbering", "statement": "An explicit indexer built with indices numbers n-grams densely 0..bound in order of first appearance; two n-grams share an index iff they were given the same index; the returned map relates old and new indices one to one; unknown n-grams have no index.", "quantifier": "every list of distinct n-grams with arbitrary indices", "why_tests_cant": "All index patterns.", "anchors": ["src/subword.rs: ExplicitIndexer::new, new_with_indices, index_ngram"]}
{"id": "C25", "title": "Iterator size hints are honest", "statement": "The bounds reported by the n-gram iterators bracket the number of items that remain.", "quantifier": "every string, range and iteration state", "why_tests_cant": "All states of the iterator; wrong hints only show up as over-allocation.", "anchors": ["src/subword.rs: NGrams::size_hint, NGramsIndicesIter"]}
{"id": "C26", "title": "Known words return their stored vector", "statement": "For embeddings built from a matching vocabulary and matrix, looking up the i-th word returns row i unchanged and no lookup of any string panics.", "quantifier": "every embeddings value and every string", "why_tests_cant": "All strings and vocabularies.", "anchors": ["src/embeddings.rs: Embeddings::new, embedding"]}
{"id": "C27", "title": "Unknown words get the normalised sum of their subwords", "statement": "Looking up an unknown string with subword indices returns the sum of the rows of exactly these indices scaled to unit length (left unscaled iff its length is zero); with no subword indices it returns nothing.", "quantifier": "every embeddings value and every string; unit length over exact real arithmetic", "why_tests_cant": "All strings and matrices.", "anchors": ["src/embeddings.rs: embedding", "src/util.rs: l2_normalize"]}
{"id": "C28", "title": "embedding_into agrees with embedding", "statement": "embedding_into writes bit for bit the vector that embedding returns and reports true iff one exists; on false the target is unchanged; a target of the wrong length is refused by a panic.", "quantifier": "every embeddings value, string and target buffer", "why_tests_cant": "Two separate summation code paths must agree for all inputs.", "anchors": ["src/embeddings.rs: embedding_into, embedding"]}
{"id": "C29", "title": "Batch lookup equals single lookups", "statement": "embedding_batch(words) returns for every position the vector of that word and a flag that is true iff one exists; rows of unknown words are zero (or untouched in embedding_batch_into); repeated words and the hash map's iteration order make no difference.", "quantifier": "every word list with repetitions (for embedding_batch: whose result has at most isize::MAX bytes, see C74), every hash-map iteration order", "why_tests_cant": "Iteration order is randomised per process.", "anchors": ["src/embeddings.rs: embedding_batch, embedding_batch_into"]}
{"id": "C30", "title": "Norm and iterator consistency", "statement": "embedding_with_norm, iter and iter_with_norms return the words in order with the vector and norm that the single lookups return; norm times vector is the unnormalised vector; without norms the norm is 1.", "quantifier": "every embeddings value and word", "why_tests_cant": "All sizes.", "anchors": ["src/embeddings.rs: embedding_with_norm, iter, iter_with_norms, EmbeddingWithNorm::into_unnormalized"]}
{"id": "C31", "title": "Conversion to explicit n-grams preserves vectors", "statement": "to_explicit keeps words, norms and the vector of every vocabulary word, and every string all of whose n-grams occur in vocabulary words keeps its vector bit for bit, for every hash-map iteration order.", "quantifier": "every bucketed vocabulary, every string, every hash-map iteration order", "why_tests_cant": "Iteration order is random, strings infinite, boundaries configurable.", "anchors": ["src/embeddings.rs: to_explicit_impl", "src/chunks/vocab/subword.rs: to_explicit", "src/subword.rs: ExplicitIndexer::new_with_indices"]}
{"id": "C32", "title": "Explicit conversion is offered only where meaningful", "statement": "try_to_explicit succeeds exactly for vocabularies with bucketed subwords that map each n-gram to one index, and otherwise returns an error without panicking.", "quantifier": "every vocabulary kind", "why_tests_cant": "All vocabularies.", "anchors": ["src/embeddings.rs: try_to_explicit", "src/chunks/vocab/subword.rs: to_explicit"]}
{"id": "C33", "title": "Storage operations agree with each other", "statement": "For every storage, embeddings(indices) stacks embedding(i) in order, reconstruct gives the same rows, and clone_from_mapping produces a storage whose row j is row mapping[j] of the original.", "quantifier": "every storage kind, every index list and mapping", "why_tests_cant": "All matrices and mappings.", "anchors": ["src/chunks/storage/array.rs", "src/chunks/storage/quantized.rs: embeddings, embedding, reconstruct, clone_from_mapping"]}
{"id": "C34", "title": "Quantization request validation and preservation", "statement": "quantize_using refuses more code bits than the matrix can train, keeps vocabulary and metadata, keeps the matrix shape, and with normalisation returns finite norms and vectors for finite input.", "quantifier": "every storage and every requested bit width", "why_tests_cant": "All sizes; zero vectors divide by zero.", "anchors": ["src/chunks/storage/quantized.rs: quantize_using", "src/embeddings.rs: quantize_using"]}
{"id": "C35", "title": "Similarity search is exact top-k", "statement": "A similarity query returns min(limit, candidates) words, sorted by decreasing similarity and then by word, each with its true similarity, and every omitted candidate is not better than any returned one.", "quantifier": "every embeddings value, query, skip set and limit >= 1", "why_tests_cant": "All matrices and ties; the bounded-heap loop is order sensitive.", "anchors": ["src/similarity.rs: similarity_, WordSimilarityResult::cmp"]}
{"id": "C36", "title": "Batch size does not change similarity results", "statement": "The result of a similarity or analogy query is the same for every batch size.", "quantifier": "every positive batch size", "why_tests_cant": "All batch sizes and vocabulary sizes.", "anchors": ["src/similarity.rs: similarity_"]}
{"id": "C37", "title": "Queried words never appear among results", "statement": "word_similarity never returns the query word, and embedding_similarity_masked never returns a skipped word, while every other word is eligible.", "quantifier": "every embeddings value, word, skip set", "why_tests_cant": "All vocabularies.", "anchors": ["src/similarity.rs: word_similarity, embedding_similarity_masked"]}
{"id": "C38", "title": "Similarity queries do not panic", "statement": "A similarity query with any limit (including 0) and any batch size on any NaN-free embeddings (including empty vocabularies) returns a result.", "quantifier": "every embeddings value, limit and batch size", "why_tests_cant": "Corner values.", "anchors": ["src/similarity.rs: similarity_"]}
{"id": "C39", "title": "Analogy masks and errors", "statement": "analogy_masked computes b - a + c, fails exactly when one of the three vectors is missing and then reports exactly which are present, and excludes exactly those query words whose mask bit is set.", "quantifier": "every embeddings value, word triple, mask, limit", "why_tests_cant": "All triples and masks including repeated words.", "anchors": ["src/similarity.rs: analogy_masked, lookup_words3"]}
{"id": "C40", "title": "Similarity measure conversions", "statement": "For unit vectors the converted results equal the true Euclidean distance and angular similarity, lie in [0,1] resp. [0,2], and are ordered consistently with the cosine similarity.", "quantifier": "every pair of unit vectors over the reals; every f32 similarity a query can return", "why_tests_cant": "Rounding can push a cosine above 1.", "anchors": ["src/similarity.rs: WordSimilarityResult::angular_similarity, euclidean_distance, euclidean_similarity"]}
{"id": "C41", "title": "Text format round trip", "statement": "write_text (without unnormalising) followed by read_text returns the same words and bit-identical vectors whenever the words are non-empty and free of ASCII whitespace and there is at least one word and one column.", "quantifier": "every vocabulary and matrix of non-NaN floats", "why_tests_cant": "All words and floats.", "anchors": ["src/compat/text.rs: write_text, read_text"]}
{"id": "C42", "title": "Text-with-dimensions round trip and validation", "statement": "write_text_dims followed by read_text_dims returns the same words and vectors; a file whose header disagrees with its number of words or columns is rejected with an error.", "quantifier": "every vocabulary and matrix; every header", "why_tests_cant": "All headers and files.", "anchors": ["src/compat/text.rs: read_text_dims, read_embeds"]}
{"id": "C43", "title": "A text line's numbers belong to its word", "statement": "If reading a text file succeeds, the vector of each word consists of the numbers on that word's line.", "quantifier": "every text file", "why_tests_cant": "Malformed (ragged) files whose total count happens to fit.", "anchors": ["src/compat/text.rs: read_embeds"]}
{"id": "C44", "title": "word2vec binary round trip", "statement": "write_word2vec_binary followed by read_word2vec_binary returns the same words and bit-identical vectors for words without spaces and without leading or trailing whitespace; float bytes that look like newlines or spaces do no harm.", "quantifier": "every vocabulary and matrix", "why_tests_cant": "All byte patterns of floats.", "anchors": ["src/compat/word2vec.rs"]}
{"id": "C45", "title": "fastText binary round trip", "statement": "write_fasttext followed by read_fasttext returns the same words, n-gram range, bucket count and (over exact arithmetic) the same word vectors, subword rows and norms.", "quantifier": "every fastText vocabulary and matrix", "why_tests_cant": "All vocabularies; involves subtracting and re-adding subword sums.", "anchors": ["src/compat/fasttext/io.rs"]}
{"id": "C46", "title": "fastText reader semantics and validation", "statement": "Reading a fastText model replaces every word row by the mean of that row and its subword rows, leaves subword rows alone, is independent of processing order, and rejects unsupported models (quantized, pruned, labelled, newer version) and matrices of the wrong shape with an error.", "quantifier": "every fastText file", "why_tests_cant": "All files, including mismatched shapes and zero n-gram lengths.", "anchors": ["src/compat/fasttext/io.rs: add_subword_embeddings, read_fasttext_private, read_embeddings, Config::read"]}
{"id": "C47", "title": "Floret text round trip", "statement": "write_floret_text followed by read_floret_text returns the same hashing parameters, boundaries and subword matrix.", "quantifier": "every floret vocabulary and matrix", "why_tests_cant": "All parameter values.", "anchors": ["src/compat/floret/io.rs"]}
{"id": "C48", "title": "Floret text reader validation", "statement": "The floret reader rejects files with a wrong number of rows or columns or invalid parameters with an error; accepted files give usable vocabularies.", "quantifier": "every floret file", "why_tests_cant": "All malformed headers and bodies.", "anchors": ["src/compat/floret/io.rs: read_floret_text"]}
{"id": "C49", "title": "Lossy readers", "statement": "The lossy readers never fail because of invalid UTF-8, produce valid UTF-8 words, and agree with the strict readers on every file with valid UTF-8.", "quantifier": "every byte string", "why_tests_cant": "All malformed sequences.", "anchors": ["src/util.rs: read_string", "src/compat/text.rs", "src/compat/word2vec.rs", "src/compat/fasttext/io.rs"]}
{"id": "C50", "title": "Normalisation on reading is invertible", "statement": "Readers that normalise return unit-length rows (zero rows stay zero) together with norms such that norm times row is the vector in the file.", "quantifier": "every matrix over exact real arithmetic", "why_tests_cant": "All matrices.", "anchors": ["src/util.rs: l2_normalize_array", "src/compat/text.rs", "src/compat/word2vec.rs"]}
{"id": "C51", "title": "Stream position after reading", "statement": "After reading embeddings the stream is positioned exactly at the end of the embeddings, so that further data in the same stream can be read.", "quantifier": "every embeddings value and every following byte string", "why_tests_cant": "All tails.", "anchors": ["src/embeddings.rs: read_embeddings"]}
{"id": "C52", "title": "Loaded embeddings are internally consistent", "statement": "Embeddings obtained from a file have as many matrix rows as the vocabulary has indices and as many norms as words.", "quantifier": "every byte string accepted by read_embeddings", "why_tests_cant": "Inconsistent files.", "anchors": ["src/embeddings.rs: read_embeddings, new_with_maybe_norms"]}
{"id": "C53", "title": "Malformed input is an error, not a panic", "statement": "read_embeddings returns an error rather than panicking on malformed input.", "quantifier": "every byte string", "why_tests_cant": "All malformed files.", "anchors": ["src/chunks/vocab/*: read_chunk", "src/chunks/storage/quantized.rs: check_quantizer_invariants"]}
{"id": "C54", "title": "Numbers in text headers", "statement": "Reading a decimal number field returns exactly the number written before the delimiter, and fails if the field is not a number or the delimiter is missing.", "quantifier": "every number below 2^64 and every byte string", "why_tests_cant": "All numbers and malformed fields.", "anchors": ["src/util.rs: read_number, read_string"]}
{"id": "C55", "title": "Outcome of reading a text file", "statement": "read_text_raw reports a format error if some line has no word or a component that is not a number, panics for a file without lines, reports a shape error if the number of components is not a multiple of the number of lines, panics for duplicate words, and otherwise returns the words of the lines and a matrix of all components in order; read_text fails in the same cases and otherwise returns these vectors divided by their lengths, with the lengths.", "quantifier": "every byte string, strict and lossy", "why_tests_cant": "Every file is covered, including ragged and malformed ones.", "anchors": ["src/compat/text.rs: read_embeds, read_text, read_text_raw"]}
{"id": "C56", "title": "Outcome of reading a text file with dimensions", "statement": "For a file with a header n d that can be allocated, read_text_dims_raw reports a format error if the body does not parse or has another number of lines than n, panics if n is zero, reports an error if there are not exactly n*d components, panics for duplicate words and otherwise returns the words and a matrix of all components in order; read_text_dims likewise, normalised.", "quantifier": "every header that can be allocated and every body", "why_tests_cant": "Every file is covered.", "anchors": ["src/compat/text.rs: read_embeds, read_text_dims, read_text_dims_raw"]}
{"id": "C57", "title": "word2vec reader semantics", "statement": "read_word2vec_binary_raw accepts exactly a header n d followed by n entries, each a word up to a space and d little-endian floats (the word is trimmed); it returns these words and floats and leaves the rest of the stream unread.", "quantifier": "every byte string giving a non-empty matrix", "why_tests_cant": "All files, all float bit patterns.", "anchors": ["src/compat/word2vec.rs: read_word2vec_binary_raw"]}
{"id": "C58", "title": "Raw text round trips", "statement": "write_text and write_text_dims followed by the raw readers return the same words and bit-identical vectors (multiplied by the norms if unnormalising), and followed by the normalising readers return these vectors divided by their lengths together with the lengths.", "quantifier": "every vocabulary of non-empty words free of ASCII whitespace and every matrix without NaN", "why_tests_cant": "All words and matrices.", "anchors": ["src/compat/text.rs: write_text, write_text_dims, read_text_raw, read_text_dims_raw"]}
{"id": "C59", "title": "Raw word2vec round trip", "statement": "write_word2vec_binary followed by read_word2vec_binary_raw returns the same words and bit-identical vectors (multiplied by the norms if unnormalising), and followed by read_word2vec_binary returns these vectors divided by their lengths together with the lengths.", "quantifier": "every vocabulary of words without spaces and surrounding whitespace, every matrix", "why_tests_cant": "All words, all float bit patterns including NaN and bytes that look like delimiters.", "anchors": ["src/compat/word2vec.rs: write_word2vec_binary, read_word2vec_binary_raw"]}
{"id": "C60", "title": "Accepted floret files", "statement": "read_floret_text accepts a file if and only if it has a header whose parameters, reduced modulo 2^32, are valid, and exactly n_buckets lines with dims numbers each (as far as the matrix can be allocated); the result has these parameters, boundaries and rows.", "quantifier": "every byte string", "why_tests_cant": "All headers, all rows.", "anchors": ["src/compat/floret/io.rs: read_floret_text"]}
{"id": "C61", "title": "Outcome of reading fastText files", "statement": "For a fastText file with in-range fields: if it is not supported (magic, version, loss, model, labels, pruning, entry kinds) or a word is not valid UTF-8 the reader fails with a format error; too many buckets, duplicate words or an n-gram range that is empty or starts at zero make it panic; otherwise a quantized model is a format error, a matrix without a row that some word needs panics, any other wrong number of rows is a shape error, and the right number of rows gives the vocabulary of the file with every word row replaced by the mean of itself and its subword rows, divided by its length, the lengths as norms and the subword rows unchanged. Conversely every accepted byte string starts with such a file.", "quantifier": "every file contents, every byte string after it; at least one bucket", "why_tests_cant": "All combinations of field values, vocabularies and matrix sizes.", "anchors": ["src/compat/fasttext/io.rs: read_fasttext_private, Config::read, read_vocab, add_subword_embeddings"]}
{"id": "C62", "title": "fastText round trip of normalised embeddings", "statement": "Over exact arithmetic, what write_fasttext writes for embeddings is turned by the reader into the same subword rows and into word vectors and norms whose product is that of the original ones; if a word vector has length one and a positive norm, vector and norm are the same. For f32 the file has the rows and the reader the results of exactly this computation in f32.", "quantifier": "every fastText vocabulary with a usable n-gram range and every matrix", "why_tests_cant": "All vocabularies with colliding and repeated n-grams, all real rows.", "anchors": ["src/compat/fasttext/io.rs: write_fasttext, write_embeddings, add_subword_embeddings"]}
{"id": "C63", "title": "Exactly the grammar of the format is read", "statement": "Embeddings::read_embeddings succeeds with a value e if and only if the bytes are a file of the format grammar that denotes e: magic, version, known chunk identifiers of which only the first matters, metadata if and only if the first identifier announces it, one vocabulary chunk, one storage chunk aligned to four bytes, and norms if and only if a norms chunk follows. Chunk lengths and padding bytes are ignored, and for empty data the file may end before the padding does. The grammar is unambiguous and contains every written file.", "quantifier": "every byte string at every offset, every vocabulary and storage kind", "why_tests_cant": "Acceptance is a property of all byte strings; tests read a few well-formed files.", "anchors": ["src/embeddings.rs: read_embeddings", "src/chunks/vocab/*.rs: read_chunk", "src/chunks/storage/*.rs: read_chunk", "src/chunks/norms.rs: read_chunk"]}
{"id": "C64", "title": "Exactly which files are mapped and which rows can be used", "statement": "Embeddings::mmap_embeddings accepts exactly the files whose mapped part is described by the sizes in the chunk (products of sizes wrap around without overflow checks), whether or not its data are in the file. If the size of the matrix in bytes is below 2^64, row i of a mapped matrix is the i-th group of cols floats after the padding if the file is long enough, memory outside of the file is touched if it is not, and rows beyond the shape panic.", "quantifier": "every byte string, every row index", "why_tests_cant": "All truncation points and all sizes in the header.", "anchors": ["src/chunks/storage/array.rs: mmap_chunk, MmapArray::embedding", "src/chunks/storage/quantized.rs: mmap_chunk"]}
{"id": "C65", "title": "Exactly which files make reading panic", "statement": "Embeddings::read_embeddings panics with p if and only if the bytes are of one of these forms: a metadata, word, n-gram, matrix or norm count that asks for more than isize::MAX bytes (capacity overflow), the same word or n-gram twice, more than 2^64 buckets or more than i32::MAX fastText buckets or no floret buckets (assertion), 2^64 buckets with overflow checks, a quantized length of zero (division by zero), or a quantizer without components (assertion), in each case after parts that are accepted.", "quantifier": "every byte string at every offset, with and without overflow checks", "why_tests_cant": "The set of panicking inputs is infinite and needs huge counts that tests never use.", "anchors": ["src/embeddings.rs: read_embeddings", "src/chunks/vocab/*.rs: read_chunk", "src/chunks/storage/*.rs: read_chunk", "src/subword.rs: new"]}
{"id": "C66", "title": "Numbers in text files are read with correct rounding", "statement": "A text is read as a number if and only if it is a decimal (optional sign, digits with an optional point, optional exponent) or one of the words inf, infinity and nan in any case with an optional sign. A decimal is read as the nearest f32, the one with the even mantissa if two are equally near, and as infinity from half a unit above the largest finite number.", "quantifier": "every byte string", "why_tests_cant": "There are infinitely many decimals, and halfway cases have arbitrarily many digits.", "anchors": ["src/compat/text.rs: read_embeds, parse of the components", "src/compat/floret/io.rs: read_floret_text"]}
{"id": "C67", "title": "Written numbers are read back exactly", "statement": "For each of the 2^32 bit patterns, what is written for a number is read as the same number (NaN as NaN), is not empty and contains no whitespace. Hence the round trips through text, text with dimensions and floret files hold for the decimal numbers that are really written, without an assumption about printing and parsing.", "quantifier": "every f32, every vocabulary of words without whitespace, every matrix", "why_tests_cant": "The test suite round-trips one small matrix.", "anchors": ["src/compat/text.rs: write_text, write_text_dims, read_text_raw, read_text_dims_raw", "src/compat/floret/io.rs: write_floret_text, read_floret_text"]}
{"id": "C68", "title": "Written numbers are as short as possible", "statement": "Of all decimals that are read as a finite number other than zero, the written one has the fewest digits and the largest exponent, and is nearest to the number among those with this exponent.", "quantifier": "every finite f32 and every decimal", "why_tests_cant": "Minimality quantifies over all other decimals.", "anchors": ["src/compat/text.rs: write_text", "src/compat/floret/io.rs: write_floret_text"]}
{"id": "C69", "title": "Reading a file that is followed by other data", "statement": "If embeddings with norms are written and other bytes follow, reading returns the embeddings and stops at the end of the file. If they have no norms, the following bytes decide: a norms chunk is taken as the norms; a norms chunk announcing more norms than memory can hold makes reading panic; otherwise the embeddings are returned without norms and the stream is left four bytes after the file if these are not the identifier of a norms chunk, 24 bytes after it if the type is another one, and at its end otherwise.", "quantifier": "all embeddings of every vocabulary and storage kind, all offsets, all following bytes", "why_tests_cant": "The result depends on arbitrary following bytes.", "anchors": ["src/embeddings.rs: read_embeddings", "src/chunks/norms.rs: read_chunk"]}
{"id": "C70", "title": "Reading every prefix of a written file", "statement": "A written file consists of a main part and norms. Reading a strict prefix fails with an error if the main part is incomplete, except that for a matrix without numbers its one to four bytes of padding may be missing; otherwise it returns the embeddings, without norms unless the norms are the empty list and only padding is missing.", "quantifier": "all embeddings of every vocabulary and storage kind, all offsets, all prefixes", "why_tests_cant": "All truncation points of all files.", "anchors": ["src/embeddings.rs: read_embeddings, write_embeddings", "src/chunks/norms.rs: read_chunk"]}
{"id": "C71", "title": "Exactly what can be loaded", "statement": "Embeddings can be the result of reading some stream if and only if their vocabulary could have been made by its constructor with default word boundaries (floret vocabularies: without words), their storage is an in-memory matrix or quantized matrix with consistent shape, and their norms fit in memory. The numbers of words, rows and norms are unrelated.", "quantifier": "all embeddings whose metadata fits in memory", "why_tests_cant": "The image of the reader is a property of all inputs.", "anchors": ["src/embeddings.rs: read_embeddings"]}
{"id": "C72", "title": "Reading and writing again gives the same bytes", "statement": "Writing what was read from a written file gives the same bytes at the same offset; embeddings with mapped storages write the same bytes as the embeddings that are read from their file.", "quantifier": "all embeddings of every vocabulary and storage kind, all offsets", "why_tests_cant": "Byte equality for all values.", "anchors": ["src/embeddings.rs: read_embeddings, write_embeddings"]}
{"id": "C73", "title": "Exactly when vocabulary lookups panic", "statement": "Looking up a string panics if and only if it is not a word and either the n-gram lengths are unusable (minimum zero, or larger than the maximum) or the vocabulary is a fastText vocabulary without buckets and the string between the boundaries has an n-gram; the panic is a failed assertion in the first case and a division by zero in the second. subword_indices and ngram_indices panic for the same reasons, whether the string is a word or not. Simple vocabularies never panic.", "quantifier": "every vocabulary that the constructors accept, including 2^64 hash buckets and no fastText buckets, both build profiles, every string", "why_tests_cant": "The absence of panics for all other vocabularies and strings.", "anchors": ["src/chunks/vocab/subword.rs: idx, subword_indices, ngram_indices", "src/subword.rs: NGrams::new", "src/compat/fasttext/indexer.rs: index_ngram"]}
{"id": "C74", "title": "Exactly when lookups of embeddings panic", "statement": "embedding, embedding_with_norm and embedding_batch panic if and only if they are asked for a string that is not a word in a vocabulary with unusable n-gram lengths; embedding_into and embedding_batch_into in addition if the target has the wrong shape, and embedding_batch if its result would have more than isize::MAX bytes or elements. Otherwise the batch contains the result of each single lookup, whatever the iteration order of its hash map, and embedding_into writes what embedding returns.", "quantifier": "all embeddings built from a vocabulary and a matrix, all strings and batches, all iteration orders", "why_tests_cant": "The absence of panics for all inputs and all iteration orders.", "anchors": ["src/embeddings.rs: embedding, embedding_into, embedding_with_norm, embedding_batch, embedding_batch_into"]}
{"id": "C75", "title": "All bucket counts", "statement": "HashIndexer::new panics for exponents above 64; otherwise indices are the hash modulo 2^exp and the upper bound is 2^exp, except that for 64 computing the bound overflows (a panic in debug builds, zero in release builds). FastTextIndexer::new panics from 2^31 on; the bound is the count, indices are the hash modulo the count, and without buckets every index is a division by zero. FloretIndexer::new panics exactly for zero buckets, zero hashes or more than four; otherwise there is one index for each of the consecutive 32-bit parts of the hash, modulo the count.", "quantifier": "every argument of the three constructors, every n-gram, both build profiles", "why_tests_cant": "All arguments.", "anchors": ["src/subword.rs: HashIndexer", "src/compat/fasttext/indexer.rs: FastTextIndexer", "src/compat/floret/indexer.rs: FloretIndexer"]}
{"id": "C76", "title": "The size hint of a new n-gram iterator", "statement": "The size hint is the number of lengths times the number of characters, in both components; it overflows exactly when this product does. The number of n-grams is never larger, and equal to it if and only if the string is empty or the maximum length is one.", "quantifier": "every string, every range, both build profiles", "why_tests_cant": "All strings and ranges.", "anchors": ["src/subword.rs: NGrams::size_hint"]}
{"id": "C77", "title": "Exactly when queries panic", "statement": "Similarity and analogy queries panic if and only if: a string that is looked up is not a word and the n-gram lengths are unusable; the limit does not fit in memory; the batch size is zero, or not given while there are no words; there are words and the query vector has another length than the rows; the limit is positive and some compared dot product is not a number; or the limit is zero and there is a word to compare. The kind of the panic is determined as well; for the limit zero it depends on the first compared word.", "quantifier": "all embeddings built from a vocabulary and a matrix, all strings, vectors, masks, limits and batch sizes", "why_tests_cant": "The absence of panics for all other inputs.", "anchors": ["src/similarity.rs: similarity_, word_similarity, embedding_similarity_masked, analogy_masked, lookup_words3"]}
{"id": "C78", "title": "Byte order of the host", "statement": "On hosts of either byte order, a row of a mapped matrix consists of the numbers whose little-endian bytes are in the file, and every lookup in embeddings with any storage returns the same bits or fails in the same way. Writing is the same as well, except that writing embeddings with a mapped matrix panics on a big-endian host before anything is written; mapping a matrix as a storage with a view never succeeds there.", "quantifier": "both byte orders, all mapped bytes, all storages, all lookups", "why_tests_cant": "The tests run on little-endian hosts only.", "anchors": ["src/chunks/storage/array.rs: MmapArray", "src/chunks/storage/wrappers.rs: StorageWrap, StorageViewWrap"]}
{"id": "C79", "title": "Exactly when the conversion to explicit n-grams returns", "statement": "try_to_explicit returns an error for vocabularies without buckets, panics if there are words and the n-gram lengths are unusable, and returns otherwise. The result has no n-grams and no rows if there are no words. The vector of a string that is not a word is made of the rows of those n-grams of the string between the default boundaries that occur in a word between the boundaries of the converted vocabulary.", "quantifier": "all embeddings built from a vocabulary and a matrix, all iteration orders of the hash maps, all strings", "why_tests_cant": "All vocabularies and strings.", "anchors": ["src/embeddings.rs: try_to_explicit, to_explicit_impl", "src/chunks/vocab/subword.rs: to_explicit"]}
{"id": "C80", "title": "Floating-point operations are rounded correctly", "statement": "For finite operands, addition, subtraction, multiplication, division and square root of the model return the f32 number nearest to the exact real result, of two equally near ones the one with even bits, with infinity for results from 2^128 - 2^103 on, and the sign bit of the exact result. Every real number has such a rounding, exactly one unless it is zero; rounding is monotone and its error at most 2^-24 of the number or 2^-150. Operations with NaN, infinities, and division by zero have the results of IEEE 754; comparisons agree with the order of the values.", "quantifier": "all bit patterns of f32, all real numbers", "why_tests_cant": "There are 2^64 pairs of operands, and the claims relate them to real numbers.", "anchors": ["src/similarity.rs", "src/util.rs: l2_normalize", "src/embeddings.rs"]}
{"id": "C81", "title": "Length of normalised vectors in f32", "statement": "If the computed length of a vector of n <= 2^22 finite numbers is finite and at least 2^-40, it differs from the exact length at most by the fraction (n/8 + 13) * 2^-24. The components divided by it are finite, their exact length differs from one by at most as much, and a component times the computed length differs from the original number by at most 2^-24 of it plus 2^-150 times the length. This holds for vectors of unknown words and for embeddings read from text and word2vec files.", "quantifier": "all vectors of finite numbers with the given bounds", "why_tests_cant": "Rounding errors of all vectors.", "anchors": ["src/util.rs: l2_normalize, l2_normalize_array", "src/embeddings.rs: embedding", "src/compat/text.rs", "src/compat/word2vec.rs"]}
{"id": "C82", "title": "Similarity measures in f32", "statement": "In f32, the Euclidean distance falls and the Euclidean similarity grows (weakly) with the cosine similarity up to one; for similarities between -1 and 1 the distance is between 0 and 2, the similarity between 0 and 1, and they differ from the exact values at most by the fraction 2^-23 and by 2^-22. Both are NaN if the cosine similarity is NaN or larger than one. The angular similarity is between 0 and 1 and grows with the cosine similarity, provided that acos is antitone and between zero and pi.", "quantifier": "all bit patterns of the cosine similarity", "why_tests_cant": "All bit patterns, and real bounds.", "anchors": ["src/similarity.rs: WordSimilarityResult"]}
{"id": "C83", "title": "Numbers in headers of text formats", "statement": "For every input there is exactly one field: the bytes up to the delimiter or, without a delimiter, all but the last byte. read_number consumes it and returns the number if the field is a decimal numeral for a number below 2^64, and an error otherwise.", "quantifier": "all inputs, delimiters and stream positions", "why_tests_cant": "All byte strings.", "anchors": ["src/util.rs: read_number, read_string"]}
{"id": "C84", "title": "Every outcome of the text readers", "statement": "For every input, the outcome of the readers of text files without and with a header is determined: an ill-formed header or line, a wrong number of lines or columns and unequal rows are errors; a count that does not fit in memory, an overflowing product in the header (with overflow checks), duplicate words, and an input without words are panics; all other inputs give the embeddings of the lines. Without overflow checks the product in the header wraps around.", "quantifier": "all byte strings, strict and lossy reading, both build profiles", "why_tests_cant": "All byte strings.", "anchors": ["src/compat/text.rs: read_embeds, read_text_raw, read_text_dims_raw"]}
{"id": "C85", "title": "Every outcome of the word2vec reader", "statement": "For every input, the outcome of the reader of word2vec files is determined: an ill-formed header and the first ill-formed or short entry are errors; a shape that does not fit in memory and duplicate words are panics; all other inputs give the embeddings of the entries, whatever follows them. The normalising reader has the same errors and panics and normalises the same embeddings.", "quantifier": "all byte strings, strict and lossy reading, both build profiles", "why_tests_cant": "All byte strings.", "anchors": ["src/compat/word2vec.rs: read_word2vec_binary_raw, read_word2vec_binary"]}
{"id": "C86", "title": "Every outcome of the floret reader", "statement": "For every input, the outcome of the reader of floret files is determined: an ill-formed header field, parameters out of range, the first line that is not UTF-8 or has not the right number of numbers, and a wrong number of lines are errors; a matrix that does not fit in memory and an overflowing product (with overflow checks) are panics; all other inputs give the embeddings with the parameters of the header and the rows of the lines.", "quantifier": "all byte strings, both build profiles", "why_tests_cant": "All byte strings.", "anchors": ["src/compat/floret/io.rs: read_floret_text"]}
{"id": "C87", "title": "Every outcome of the fastText reader", "statement": "For every input, the outcome of the fastText reader is determined: the first number of the header, of an entry or before the matrix that is cut off or not accepted, an ill-formed word, a matrix that is cut off or has a wrong number of rows and a configuration that is no table are errors; too many buckets, duplicate words, a matrix that does not fit in memory, unusable n-gram lengths, n-grams without buckets and rows that are missing for a word or its n-grams are panics; all other inputs give the embeddings with averaged and normalised rows, also for models without buckets.", "quantifier": "all byte strings, strict and lossy reading, both build profiles", "why_tests_cant": "All byte strings.", "anchors": ["src/compat/fasttext/io.rs: read_fasttext_private, read_vocab, read_embeddings, add_subword_embeddings"]}
{"id": "C88", "title": "Order of n-grams", "statement": "The n-grams of a string come by start position, the longer ones first, so that the sequence of n-grams, and with it every sum of n-gram rows, is determined by the string and the lengths.", "quantifier": "all valid UTF-8 strings and all usable n-gram lengths", "why_tests_cant": "All strings and lengths; sums of 32-bit floats depend on the order.", "anchors": ["src/subword.rs: NGrams::next"]}
{"id": "C89", "title": "Ranking of queries in 32-bit arithmetic", "statement": "The dot product computed in 32-bit arithmetic, with its eight partial sums, differs from the exact one by a bounded multiple of the product of the lengths. So the similarity that a query reports for a word differs from the exact cosine of the vector in the file and the query by at most a bound linear in the number of dimensions, and a word that is ranked lower, or left out without being skipped, is more similar by at most twice as much. On such embeddings a query never fails because two similarities cannot be compared.", "quantifier": "all embeddings of at most 2^22 dimensions whose word vectors are finite and not tiny; all queries, limits, batch sizes and skipped words", "why_tests_cant": "All vectors; the bound is about the exact cosine, which a test cannot compute.", "anchors": ["src/similarity.rs: similarity_, word_similarity, embedding_similarity_masked, analogy_masked", "src/util.rs: l2_normalize", "src/compat/text.rs", "src/compat/word2vec.rs"]}
{"id": "C90", "title": "Conversions to wrapped types", "statement": "Converting embeddings with a specific vocabulary and storage to the wrapped types changes no lookup, batch, iteration or query: every function gives the same result, error or panic before and after.", "quantifier": "all embeddings of every pair of vocabulary and storage types, all words, all arguments", "why_tests_cant": "All pairs of types and all embeddings.", "anchors": ["src/embeddings.rs: From impls", "src/chunks/vocab/wrappers.rs", "src/chunks/storage/wrappers.rs"]}
{"id": "C91", "title": "Published hash functions", "statement": "The index of an n-gram in a vocabulary with buckets is the published 64-bit FNV-1a hash of the number of its characters followed by the characters, as little-endian integers of eight and four bytes, modulo the number of buckets; different n-grams give different inputs of the hash. The indices of an n-gram in a floret vocabulary are the first 32-bit words, lowest first, of the published 128-bit MurmurHash3 of its bytes with the seed, each modulo the number of buckets.", "quantifier": "all n-grams, all bucket counts, all seeds and numbers of hashes", "why_tests_cant": "All strings; a wrong tail or length shows only for some lengths.", "anchors": ["src/subword.rs: Hash for StrWithCharLen, HashIndexer::index_ngram", "src/compat/floret/indexer.rs: index_ngram"]}
{"id": "C92", "title": "Quantized vectors are near the original ones", "statement": "If a matrix is quantized with normalisation and the quantizer returns for a normalised row numbers that differ by at most eps from it, each number of the vector that is looked up differs from the original one by at most the norm times eps, up to a relative error of 2^-24 of that, three roundings of the original number and the least positive numbers.", "quantifier": "all finite rows whose computed norm is between 2^-40 and 2^100, all trainers of fitting shape, all eps up to one", "why_tests_cant": "All vectors and trainers.", "anchors": ["src/chunks/storage/quantized.rs: quantize_using, embedding"]}
{"id": "C93", "title": "Equality of vocabularies", "statement": "Two vocabularies compare equal exactly if they have the same type, the same words in the same order, the same n-gram lengths and boundaries and the same way of indexing: the same bucket exponent, number of buckets, floret parameters, or the same explicit n-grams in the same order with the same indices. Equal vocabularies give the same answer to every lookup and are written as the same bytes; every vocabulary equals itself.", "quantifier": "all pairs of vocabularies that the constructors build, in either build profile", "why_tests_cant": "All pairs; the hash indexer compares masks only, hash maps compare without order.", "anchors": ["src/subword.rs: PartialEq for HashIndexer", "src/chunks/vocab/simple.rs", "src/chunks/vocab/subword.rs", "src/chunks/vocab/wrappers.rs"]}
{"id": "C94", "title": "Infallible indexers", "statement": "An indexer says that it never fails exactly if it gives every string an index: the hash indexer for all bucket exponents, the fastText indexer for every positive number of buckets, and the floret indexer, but not the explicit indexer.", "quantifier": "all indexers that the constructors build except a fastText indexer without buckets, all strings", "why_tests_cant": "All strings.", "anchors": ["src/subword.rs: Indexer::infallible", "src/compat/fasttext/indexer.rs", "src/compat/floret/indexer.rs"]}
{"id": "C95", "title": "Vectors of unknown words in 32-bit arithmetic", "statement": "The vector that is looked up for an unknown word differs, in Euclidean distance, from the vector of length one in the direction of the exact sum of its subword vectors by at most twice the error of a length, plus four roundings for every subword, times the ratio of the sum of the lengths of the subword vectors to the length of their sum.", "quantifier": "all embeddings of at most 2^22 dimensions, all unknown words with at most 2^23 subword indices whose computed sum is finite, not tiny and whose exact sum is not zero", "why_tests_cant": "All vectors; the bound is about the exact sum and the exact length, which a test cannot compute.", "anchors": ["src/embeddings.rs: embedding, embedding_with_norm", "src/util.rs: l2_normalize"]}
{"id": "C96", "title": "Round trips through formats with normalising readers in 32-bit arithmetic", "statement": "Embeddings that are written as text, as text with dimensions or as word2vec, with or without multiplying by the norms, and read again by the normalising readers have the same words; every row differs from the vector of length one in the direction of the original row by at most twice the error of a length plus three roundings, in Euclidean distance, and the new norm from the length of the vector that was written by at most twice the error of a length, relatively. Multiplying a row that was read by its norm gives each number of the file back up to three roundings and underflow.", "quantifier": "all embeddings with at most 2^22 dimensions whose rows are finite and stand for vectors of length between 2^-36 and 2^49, all storage kinds, strict and lossy reading", "why_tests_cant": "All vectors; the bound is about exact directions and lengths, which a test cannot compute.", "anchors": ["src/compat/text.rs: write_text, write_text_dims, read_text, read_text_dims", "src/compat/word2vec.rs", "src/embeddings.rs: into_unnormalized", "src/util.rs: l2_normalize_array"]}
{"id": "C97", "title": "fastText models in 32-bit arithmetic", "statement": "The row that is read for a word of a fastText model differs, in Euclidean distance, from the direction of the exact mean of the row of the word and the rows of its subwords by at most twice the error of a length, three roundings, and four roundings per subword times the ratio of the total length of the rows to the length of their sum; its norm is near the length of the exact mean. Embeddings that are written as a fastText model and read again keep their subword rows exactly, and every word keeps its direction and its length up to twice the error of a length plus eleven roundings per subword, weighted by the total length of the subword rows relative to the vector of the word.", "quantifier": "all accepted files and all embeddings that can be written, at most 2^22 dimensions, words with finite rows whose vector has a length between 2^-35 and 2^47 and that is not lost among the subword rows", "why_tests_cant": "All vectors; the bounds are about exact means and lengths, which a test cannot compute.", "anchors": ["src/compat/fasttext/io.rs: add_subword_embeddings, read_fasttext_private, write_fasttext", "src/util.rs: l2_normalize_array"]}
{"id": "C98", "title": "Devices that fail while text, word2vec, floret or fastText files are read", "statement": "If a device delivers the bytes p and then fails with an I/O error, then the readers of text, text with dimensions, word2vec, floret and fastText either report the error or return exactly what they return, for every q, on the complete data p ++ q (so the failing part was not needed). The text and floret readers never return embeddings from such a device, even if the bytes before the failure are a complete file.", "quantifier": "all byte sequences, all points of failure, all continuations, strict and lossy reading, both build profiles", "why_tests_cant": "All inputs and all points at which a device may fail; tests read from memory, which does not fail.", "anchors": ["src/util.rs: read_number, read_string", "src/compat/text.rs", "src/compat/word2vec.rs", "src/compat/floret/io.rs", "src/compat/fasttext/io.rs"]}
{"id": "C99", "title": "Devices that fail while finalfusion files are read", "statement": "If a device fails with an I/O error while a finalfusion file is read that was written from embeddings, then reading is an error if the header, metadata, vocabulary or storage are incomplete (but for the padding before an empty matrix), and otherwise the embeddings are returned with the same vocabulary, storage and metadata: with their norms if all bytes were delivered, and without norms if not. In particular the I/O error is then not reported.", "quantifier": "all embeddings, all storage and vocabulary kinds, all points of failure, all file offsets", "why_tests_cant": "All embeddings and all points at which a device may fail; tests read from memory, which does not fail.", "anchors": ["src/embeddings.rs: read_embeddings", "src/chunks/norms.rs: read_chunk", "src/chunks/vocab", "src/chunks/storage"]}
{"id": "C100", "title": "Embeddings of other formats can be stored as finalfusion files", "statement": "Whatever embeddings the readers of text, text with dimensions, word2vec, floret and fastText return, writing them in the finalfusion format succeeds, and reading the file gives exactly the same embeddings back - vocabulary, n-gram parameters, boundary markers, matrix, norms and metadata - both with the type of the reader's result and with the type for all vocabularies and storages.", "quantifier": "all byte sequences the readers accept, strict and lossy, normalising and raw, both build profiles, all file offsets; strings and rows shorter than 2^32, matrices that fit in memory", "why_tests_cant": "All accepted inputs, including those with ragged lines, lossy words or unusual parameters.", "anchors": ["src/compat/text.rs", "src/compat/word2vec.rs", "src/compat/floret/io.rs", "src/compat/fasttext/io.rs", "src/embeddings.rs: write_embeddings, read_embeddings"]}
{"id": "C101", "title": "Changing numbers and metadata", "statement": "In the file of embeddings with a plain matrix, component j of row i is stored in the four bytes at a 4-byte aligned start plus 4 * (i * columns + j), and the norms likewise; all other bytes depend only on the metadata, the vocabulary, the shape and the number of norms, so changing one number changes only its four bytes. Setting the metadata returns the old ones and changes nothing else in memory or after writing and reading. The parts of embeddings that were built with norms can be put together again to the same embeddings. Views are copied like storages.", "quantifier": "all embeddings, all matrices of the same shape, all file offsets", "why_tests_cant": "All shapes and positions.", "anchors": ["src/chunks/storage/array.rs: write_ndarray_chunk", "src/chunks/norms.rs: write_chunk", "src/embeddings.rs: set_metadata, into_parts, new", "src/chunks/storage/wrappers.rs: clone_from_mapping"]}
{"id": "C102", "title": "Writing to a full device", "statement": "For the writers of finalfusion files, text, text with dimensions, word2vec, floret and fastText, and for all embeddings (even inconsistent ones): on a device with room for n bytes the outcome is the same as on an unlimited one if the output fits; otherwise the writer returns the I/O error, and the device holds exactly the first n bytes of the unlimited output. The error is a write error, except that the fastText writer reports a read error exactly if the first byte that does not fit is the type of a vocabulary entry.", "quantifier": "all embeddings, all formats, all capacities and start positions", "why_tests_cant": "The failure can strike at any byte of any output.", "anchors": ["src/embeddings.rs: write_embeddings", "src/compat/text.rs: write_text, write_text_dims", "src/compat/word2vec.rs: write_word2vec_binary", "src/compat/floret/io.rs: write_floret_text", "src/compat/fasttext/io.rs: write_fasttext"]}
{"id": "C103", "title": "Storing converted and quantized embeddings", "statement": "If to_explicit or try_to_explicit succeeds on embeddings that can be stored (word lengths below 2^32 - 2, n-grams that fit in memory), the result can be written to a finalfusion file, and reading the file gives the same embeddings; and so for the result of quantize_using, whatever quantizer the training finds.", "quantifier": "all embeddings, all storages, all orders of the hash maps, all trainers with consistent quantizers", "why_tests_cant": "All conversions of all embeddings.", "anchors": ["src/embeddings.rs: to_explicit_impl, quantize_using", "src/chunks/vocab/subword.rs: to_explicit, write_ngram_chunk", "src/chunks/storage/quantized.rs: write_chunk"]}
{"id": "C104", "title": "Hash map order in conversions", "statement": "Two conversions of the same embeddings to explicit n-grams, which may iterate over their hash maps in different orders, give the same vector for every string, known or unknown. Their files may differ.", "quantifier": "all bucketed vocabularies with the default boundaries, all matrices, all pairs of orders, all strings", "why_tests_cant": "A test sees the orders of a few runs.", "anchors": ["src/embeddings.rs: to_explicit_impl", "src/chunks/vocab/subword.rs: to_explicit", "src/subword.rs: ExplicitIndexer::new_with_indices"]}
{"id": "C105", "title": "Text formats are interchangeable and canonical", "statement": "Text, text with dimensions and word2vec files written from the same embeddings are read back, by their raw readers, as the same embeddings, and, by their normalizing readers, as the same normalized embeddings, with the lossy variants or without. Writing the raw embeddings again, in any of the three formats and with or without un-normalizing, gives the bytes of the first file of that format; so does reading and writing a floret file.", "quantifier": "all embeddings (any vocabulary and storage) with words that the formats can represent and without NaN, all representations of numbers that are read back exactly, all pairs of formats", "why_tests_cant": "All embeddings and all chains of conversions between the formats.", "anchors": ["src/compat/text.rs: read_text, read_text_dims, write_text, write_text_dims", "src/compat/word2vec.rs: read_word2vec_binary, write_word2vec_binary", "src/compat/floret/io.rs: read_floret_text, write_floret_text"]}
{"id": "C106", "title": "What survives writing and reading, exactly", "statement": "The writers do not check what they write: they succeed for all embeddings (except for counts that fastText files cannot hold), and what is read from the file is what was written if and only if: finalfusion - the vocabulary, matrix and norms are ones that the constructors build, with lengths that fit their fields (so words of 2^32 bytes are written, but not found again); text - there are words, all of them are non-empty UTF-8 without blanks, and the numbers are ones whose decimal form is read back; word2vec - the words have no spaces and no white space at their ends; floret - there are columns, the n-gram range is not empty, the 32-bit parameters fit, the begin marker has no space and the end marker no newline, and the numbers are read back; fastText (vocabulary) - the words have no NUL, the markers are the default ones and the n-gram lengths fit 32 bits.", "quantifier": "all embeddings of every vocabulary and storage, written and read by every pair of writer and reader", "why_tests_cant": "An equivalence needs both directions for all embeddings; tests show that some embeddings survive.", "anchors": ["src/io.rs", "src/embeddings.rs: write_embeddings", "src/compat/text.rs", "src/compat/word2vec.rs", "src/compat/floret/io.rs", "src/compat/fasttext/io.rs", "src/chunks/vocab/mod.rs: write_vocab_items"]}
{"id": "C107", "title": "Iterators, call by call", "statement": "Call number k of the iterators of iter and iter_with_norms returns word k with row k (and norm k, or one without norms), whatever happened in the calls before, also if one of them panicked and the panic was caught; after the last word every call returns None. On embeddings that were built no call panics, and the vector and norm are those that embedding and embedding_with_norm return for the word. A loop collects exactly these items.", "quantifier": "all embeddings of any vocabulary and storage, any number of calls", "why_tests_cant": "Tests iterate once over a few embeddings, to the end.", "anchors": ["src/embeddings.rs: iter, iter_with_norms, into_iter, next"]}
{"id": "C108", "title": "Everything a program can obtain is consistent", "statement": "Embeddings that are built with new, read by any of the text, word2vec, floret or fastText readers from any data (fastText with at least one bucket), given new metadata, taken apart and combined with parts of others, converted to explicit n-grams, quantized, or written to a finalfusion file and read or memory-mapped again, in any order and number, have a matrix with a row for every index of the vocabulary and, if they have norms, one for every word. Every word has its vector and norm, other lookups return unless the n-gram lengths are no range, and both iterators return all words without a panic.", "quantifier": "all finite sequences of these operations on any inputs, all hash map orders, all quantizer trainings", "why_tests_cant": "Tests perform one operation at a time on fixed files; the sequences are unbounded.", "anchors": ["src/embeddings.rs: new, set_metadata, into_parts, try_to_explicit, quantize_using, read_embeddings, mmap_embeddings, write_embeddings", "src/compat/fasttext/io.rs: read_fasttext", "src/compat/floret/io.rs: read_floret_text", "src/compat/text.rs: read_text", "src/compat/word2vec.rs: read_word2vec_binary"]}
{"id": "C109", "title": "The order of the words does not matter, and more words change only themselves", "statement": "Embeddings that have the same words with the same rows and norms in another order, and the same rows of subwords, give the same vector and norm for every string, the same batches, and the same results of similarity and analogy queries: words that are equally similar are ordered by their bytes, not by their position. Embeddings with additional words give the same vector and norm for every string that is not one of the additional words. Every order of the words can be built.", "quantifier": "all vocabularies, matrices, storages, orders and sets of additional words, all strings and queries", "why_tests_cant": "Tests use one vocabulary in one order; ties and orders are unbounded.", "anchors": ["src/similarity.rs: similarity_, WordSimilarityResult::cmp", "src/embeddings.rs: embedding, embedding_with_norm, embedding_into, embedding_batch", "src/chunks/vocab/subword.rs: idx", "src/chunks/vocab/mod.rs: create_indices"]}
{"id": "C110", "title": "Devices that deliver their data in parts", "statement": "Reading embeddings (finalfusion files, metadata, vocabularies, storages, text, word2vec, floret, fastText) through a reader that keeps the contracts of Read, BufRead and Seek gives one result, which is the result on the data as a whole: it does not matter in which parts the device delivers its bytes, how often it is interrupted, or which capacity a BufReader has. If calls do not go on being interrupted for ever, reading ends. Afterwards the reader stands at the same position. BufReader (as in the standard library, with any positive capacity, on devices that may also fail after their last byte) and Cursor are such readers.", "quantifier": "all readers of the crate that do not map memory, all data, all sequences of part sizes and interruptions, all buffer capacities", "why_tests_cant": "A test has one file and one buffer size, and the operating system decides on the parts.", "anchors": ["src/io.rs", "src/embeddings.rs: read_embeddings", "src/chunks/io.rs", "src/chunks/vocab/mod.rs: read_vocab_items", "src/util.rs: read_number, read_string", "src/compat/text.rs: read_embeds", "src/compat/word2vec.rs", "src/compat/floret/io.rs", "src/compat/fasttext/io.rs"]}
{"id": "C111", "title": "Devices that accept data in parts, and BufWriter", "statement": "The writers of all formats and parts give one result on a device that accepts parts of any size and may be interrupted, which is the result of writing all at once; a full device holds the beginning of the output. Through a BufWriter of any capacity B the result is the same, or Ok although bytes are missing: this happens only if at most the last B bytes do not fit. After the BufWriter is dropped the device holds what it would hold without it; if it is flushed first and the flush succeeds, everything. The writers never flush: text, word2vec, floret and fastText output smaller than the buffer is reported as written even if the device accepts nothing, and write_embeddings reports success when the norms are lost.", "quantifier": "all writers of the crate, all embeddings, all device capacities, sequences of part sizes and interruptions, all buffer capacities", "why_tests_cant": "Tests write to memory, which accepts everything at once.", "anchors": ["src/embeddings.rs: write_embeddings", "src/chunks/norms.rs: write_chunk", "src/chunks/storage/array.rs: write_ndarray_chunk", "src/chunks/storage/quantized.rs: write_chunk", "src/compat/text.rs: write_text, write_text_dims", "src/compat/word2vec.rs: write_word2vec_binary", "src/compat/floret/io.rs: write_floret_text", "src/compat/fasttext/io.rs: write_fasttext"]}
{"id": "C112", "title": "Queries with the heap of the standard library", "statement": "std::collections::BinaryHeap as it is implemented (a vector with sift-up and sift-down) keeps its contract for every order: push adds an element, peek gives a greatest one, assigning through peek_mut replaces it, into_sorted_vec sorts. The order of WordSimilarityResult is total on similarities that are not NaN. Therefore similarity_ with this heap returns, for all embeddings and arguments, the same list or the same panic as with an abstract sorted collection: results do not depend on the internal order of the heap.", "quantifier": "all element types and orders, all heaps; all embeddings, queries, limits, batch sizes and skipped words", "why_tests_cant": "Tests have few words; the shape of the heap depends on the order of all similarities.", "anchors": ["src/similarity.rs: similarity_, WordSimilarityResult::cmp", "library/alloc/src/collections/binary_heap: push, peek_mut, into_sorted_vec"]}
{"id": "C113", "title": "Machines with 32-bit pointers", "statement": "The readers of finalfusion files for any width of usize are, at 64 bits, the readers of the other properties. On machines with pointers of 8 to 32 bits: a file that a 64-bit machine reads, of at most a third of isize::MAX bytes, whose vocabulary and matrix shape fit usize, gives the same embeddings (only if its norms are damaged, so that a 64-bit machine leaves them out, reading may panic). If all counts were converted with try_into, every other file would be refused with Error::Overflow or a panic, or lose its norms because there are too many; the result would never be other embeddings. The code casts four counts (metadata, bucketed and explicit vocabularies) with `as usize`; it differs from this only where the conversion would have refused, and there it accepts files that 64-bit machines reject. In builds without overflow checks the size of a mapped matrix wraps: every matrix of 2^32 bytes or more is mapped too short, and reading its last row is undefined behaviour.", "quantifier": "all byte strings, all pointer widths from 8 to 32 bits, all sizes of String and (String, u64) up to 12 and 24 bytes, both kinds of builds", "why_tests_cant": "The tests run on 64-bit machines, and a file with 2^32 items does not fit a test.", "anchors": ["src/chunks/vocab/subword.rs: read_bucketed_chunk, read_ngram_chunk, new_with_boundaries", "src/chunks/metadata.rs: read_chunk", "src/chunks/norms.rs: read_chunk", "src/chunks/vocab/simple.rs: read_chunk", "src/chunks/storage/array.rs: read_chunk, mmap_chunk", "src/chunks/storage/quantized.rs: read_product_quantizer, read_chunk, mmap_chunk", "src/embeddings.rs: read_embeddings, mmap_embeddings"]}
{"id": "C114", "title": "Queries with any dot product, memory layout or BLAS library", "statement": "Queries take their dot products as parameters: how a product is summed depends on the memory layout (ndarray sums contiguous rows in eight parts and other rows in order) and on the BLAS library, which may fuse operations and treat rows of a batch differently. For every product that gives one entry per row, similarity_, word_similarity, embedding_similarity(_masked) and analogy(_masked) return exactly the best words for the entries that are computed for their batches, and panic exactly in the modelled cases; the batch size does not matter if each row is computed by itself. With less than 8 columns all layouts give the same result; from 8 columns on, the layout can change the order of the results (so writing and reading embeddings can change answers). For f32 and any way to sum with at most d roundings after each other (any order, grouping, fused products; 13 <= d <= 2^20) the dot product is within 9/8 d 2^-24 |a||b| + 2^-124 of the exact one, similarities of normalized vectors are within 4 d 2^-24 of the cosine, and the results are ranked by cosine up to that error. The layouts of ndarray have d = columns / 8 + 13 and d = columns + 1.", "quantifier": "all embeddings and queries, all functions as dot and matrix-vector product, all sums with up to 2^20 roundings in sequence, vectors of up to 2^22 components", "why_tests_cant": "Tests use one build with one layout and small vectors; orders of summation of BLAS libraries differ by machine.", "anchors": ["src/similarity.rs: similarity_, word_similarity, embedding_similarity_masked, analogy_masked", "src/util.rs: l2_normalize", "src/chunks/storage/array.rs: NdArray::new, view", "Cargo.toml: ndarray"]}
{"id": "C115", "title": "Memory that readers ask for", "statement": "With an allocator that refuses requests of more than l bytes, every reader (finalfusion files read and memory-mapped, text with dimensions, word2vec, floret, fastText) returns what it returns with more memory and leaves the input at the same position, or ends with a failed allocation. Files that are accepted need little: no request exceeds 6 times the file size for finalfusion files and 24 times for the other formats, so that with that much memory the result is the same (only if the norms of a finalfusion file are damaged, so that it would be read without norms, the allocation for the norms may fail). Files that are rejected may ask for any amount first: for every limit there is a file of at most 109 bytes (36 for finalfusion) that would be rejected with an error, but ends the program at that limit.", "quantifier": "all byte strings, all limits up to isize::MAX, lossy and strict text, debug and release builds", "why_tests_cant": "Tests read small valid files; the files that ask for much are invalid, and memory is a property of the machine.", "anchors": ["src/chunks/norms.rs: read_chunk", "src/chunks/metadata.rs: read_chunk", "src/chunks/vocab/mod.rs: read_vocab_items", "src/chunks/vocab/subword.rs: read_ngram_chunk", "src/chunks/storage/array.rs: read_chunk", "src/chunks/storage/quantized.rs: read_chunk", "src/compat/text.rs: read_text_dims_raw, read_embeds", "src/compat/word2vec.rs: read_word2vec_binary_raw", "src/compat/floret/io.rs: read_floret_text", "src/compat/fasttext/io.rs: read_fasttext", "src/util.rs: CollectWithCapacity"]}
{"id": "C116", "title": "Metadata of fastText models", "statement": "The metadata of embeddings that are read from a fastText file are a table with 13 keys in ascending order, whose numbers, loss function, model type and sampling threshold are those at bytes 8 to 64 of the file; files have the same metadata if and only if these bytes are the same. The n-gram lengths and the number of buckets are those of the vocabulary. The number of dimensions is not compared with the matrix. Writing embeddings to a fastText file does not write their metadata: what is read from it has the number of columns, the buckets and the n-gram lengths, and otherwise the same constants for all embeddings.", "quantifier": "all byte strings that are read, strictly or lossily; all embeddings with a fastText vocabulary of any storage", "why_tests_cant": "Tests check the vectors of one model and not the metadata.", "anchors": ["src/compat/fasttext/io.rs: Config, Config::new, Config::read, Config::write, read_fasttext_private, write_fasttext", "src/chunks/metadata.rs: Metadata::new"]}
{"id": "C117", "title": "Lookups, queries and other formats on 32-bit machines", "statement": "On a machine whose usize is at most 64 bits wide, a vocabulary that is built there, or that was read and whose rows fit usize, has the lookups, n-gram indices and number of rows of 64-bit machines, apart from panics for capacity hints (which are another property); so have embeddings their vectors, norms and batches, unless the matrix of a batch does not fit. word_similarity, embedding_similarity(_masked) and analogy(_masked) return the same results, unless the heap for `limit` results does not fit: then they panic where a query would be made. The conversion to explicit vocabularies is the same. The readers of text (with and without dimensions), word2vec, floret and fastText files for any width are, at 64 bits, the readers of the other properties. With pointers of 8 to 32 bits they never return other embeddings than 64-bit machines do, and they return the same for every file of at most a twelfth of isize::MAX bytes whose matrix shape (word2vec, fastText) and header numbers (floret) fit (for fastText apart from capacity hints).", "quantifier": "all vocabularies and embeddings, all strings, all byte strings, all pointer widths from 8 to 32 bits, all sizes of String up to 12 bytes, both kinds of builds", "why_tests_cant": "The tests run on 64-bit machines.", "anchors": ["src/chunks/vocab/subword.rs: new_with_boundaries, idx, subword_indices, ngram_indices, to_explicit", "src/embeddings.rs: embedding, embedding_batch, to_explicit_impl", "src/similarity.rs: similarity_", "src/util.rs: read_number", "src/compat/text.rs: read_embeds", "src/compat/word2vec.rs: read_word2vec_binary_raw", "src/compat/floret/io.rs: read_floret_text", "src/compat/fasttext/io.rs: read_fasttext_private, read_embeddings, add_subword_embeddings"]}
{"id": "C118", "title": "Calls that fail", "statement": "On a device on which every call of read, fill_buf, seek, stream_position, the memory mapping and write may fail at any time, once or for good: every reader of a vocabulary, storage, norms, metadata, text, word2vec, floret or fastText returns a read error if a call failed, and exactly what is on the device if none did; a failure is never ignored, never a panic and never changes what is returned. Readers of finalfusion files (also memory-mapped) do so, too, except that a failing call while the norms are read is ignored: the result is then the embeddings without norms, even if the norms would have been a panic. Every writer returns an error if a call failed, and what is on the device is then the beginning of what would have been written.", "quantifier": "all readers and writers, all data, all devices that keep the contracts of the standard library, all ways in which calls can fail", "why_tests_cant": "Tests use cursors and files, whose calls do not fail.", "anchors": ["src/chunks/vocab/wrappers.rs: read_chunk", "src/chunks/norms.rs: read_chunk, write_chunk", "src/chunks/storage/array.rs: mmap_chunk, read_chunk, write_array_chunk", "src/chunks/storage/quantized.rs: read_product_quantizer, mmap_chunk, write_chunk", "src/embeddings.rs: read_embeddings, mmap_embeddings, write_embeddings", "src/compat/text.rs: read_embeds", "src/compat/fasttext/io.rs: read_fasttext_private"]}
{"id": "C119", "title": "Readers do not loop on promises", "statement": "The number of calls that a reader makes is bounded by the size of what it reads, whatever numbers are in it: every reader of a header, metadata, vocabulary, storage, norms, finalfusion file (also memory-mapped), text, text with dimensions, word2vec, floret or fastText makes at most as many calls of read_exact, read_until, seek, stream_position and mmap as there are bytes left, plus at most four, on well-formed, truncated and malformed data alike.", "quantifier": "all readers, all data, all positions in it", "why_tests_cant": "Tests read well-formed files and a few malformed ones; a loop that runs as long as a number in the file says is only noticed with a number that is large enough.", "anchors": ["src/compat/word2vec.rs: read_word2vec_binary_raw", "src/compat/text.rs: read_embeds", "src/compat/floret/io.rs: read_floret_text", "src/compat/fasttext/io.rs: read_vocab, read_embeddings", "src/chunks/io.rs: read_chunk", "src/chunks/vocab/mod.rs: read_vocab_items", "src/chunks/vocab/subword.rs: read_ngrams_with_indices", "src/embeddings.rs: read_embeddings, mmap_embeddings"]}
{"id": "C120", "title": "Written files are the same on every machine", "statement": "The lengths that writers put into chunks are computed with usize. On a machine whose usize is at most 64 bits wide, with or without overflow checks, embeddings that take at most 2^width - 128 bytes in memory are written to the bytes that a 64-bit machine writes, with the same errors and panics; in particular all embeddings that were read or mapped there. The same holds for every file that is at least 8 bytes smaller than the address space, and write_embeddings_len is then the same number. A file that a 64-bit machine wrote and that fits a machine of 8 to 32 bits is read or memory-mapped there with the same content (with or without norms), and written again byte for byte.", "quantifier": "all embeddings with all kinds of vocabulary and storage, all positions in the output, all pointer widths up to 64 bits, both kinds of builds", "why_tests_cant": "The tests run on 64-bit machines; overflow needs data of gigabytes.", "anchors": ["src/chunks/io.rs: chunk_len", "src/chunks/norms.rs: chunk_len, write_chunk", "src/chunks/vocab/simple.rs: chunk_len, write_chunk", "src/chunks/vocab/subword.rs: chunk_len_, write_bucketed_chunk, write_ngram_chunk, write_floret_chunk", "src/chunks/storage/array.rs: chunk_len, write_ndarray_chunk", "src/chunks/storage/quantized.rs: chunk_len_, write_chunk", "src/embeddings.rs: write_embeddings, write_embeddings_len"]}
{"id": "C121", "title": "Capacity hints of lookups", "statement": "subword_indices, ngram_indices and idx collect iterators whose size hint is the number of n-gram lengths times the number of characters, in usize, however few n-grams there are. With the hints and the allocations that collect makes, and usize of any width: the lookups never return anything else than without hints, they may only panic. They return the same if the product fits usize, or overflow is not checked, and there is memory for 8 (n^2 + 1) indices, n being the number of characters between the markers; so do embedding, embedding_with_norm, embedding_batch_into, word_similarity, analogy and the reader of fastText files. This holds for all n-gram lengths on 64-bit machines for words of less than 2^28 characters. If the product does not fit, every lookup of a word with n-grams panics in builds with overflow checks (for all vocabularies but explicit ones): on 32-bit machines this happens for words of a few characters when max_n is near 2^32. ngram_indices asks at once for memory for one element more than the product, at least four, and ends if there is not so much: more than half a terabyte for a word of one letter if max_n is near 2^32.", "quantifier": "all vocabularies, words and embeddings, all fastText files, all widths of usize, all limits on memory, both kinds of builds", "why_tests_cant": "Tests use n-grams of 3 to 6 characters on 64-bit machines.", "anchors": ["src/subword.rs: NGrams::size_hint, NGramsIndicesIter::size_hint, subword_indices", "src/chunks/vocab/subword.rs: idx, subword_indices, ngram_indices", "src/compat/fasttext/io.rs: add_subword_embeddings", "library/alloc/src/vec/spec_from_iter_nested.rs: from_iter", "library/core/src/iter/adapters/flatten.rs: size_hint"]}
{"id": "C122", "title": "Errors name what was cut off", "statement": "If a finalfusion file that this crate wrote was cut, the text of the error names the field that the first missing byte belongs to: magic, version, a chunk identifier, a length, a word or its length, an n-gram or its index, a marker, the type identifier, the matrix, the parts of a quantizer or its norms; if the cut is in padding, it is the first field after it. Nothing else changes the text: not the bytes before the cut, the position in the stream or how the stream reports its end. If the cut is behind the storage, there is no error and the embeddings are returned, without norms if any byte of them is missing. When the file is memory-mapped the same holds, except that a cut matrix is not noticed. The readers with texts are those of the other claims: same results, error kinds and panics.", "quantifier": "all embeddings with all kinds of vocabulary and storage, all places of the cut, all positions of the file in the stream, reading and memory mapping", "why_tests_cant": "Tests check that an error is returned, not its text, and cut at a few places.", "anchors": ["src/error.rs: Error", "src/chunks/io.rs: read_chunk, ensure_chunk_type, ensure_data_type", "src/chunks/metadata.rs: read_chunk", "src/chunks/norms.rs: read_chunk", "src/chunks/vocab/mod.rs: read_string", "src/chunks/vocab/subword.rs: read_bucketed_chunk, read_ngram_chunk, read_floret_chunk", "src/chunks/storage/array.rs: read_chunk, mmap_chunk", "src/chunks/storage/quantized.rs: read_product_quantizer, read_chunk, mmap_chunk", "src/embeddings.rs: read_embeddings, mmap_embeddings"]}
{"id": "C123", "title": "Errors say what is wrong", "statement": "The text of the error for a wrong chunk identifier, type identifier, version or magic determines what was found. The text for a chunk that is neither a vocabulary nor a storage lists exactly the kinds of chunks that are accepted there: by the readers of vocabularies, storages and storage views, and when storages are memory-mapped. For a word, n-gram or metadata that are not UTF-8, it has the index of the first byte that does not belong to a character, and says that the sequence is incomplete if and only if there are bytes that would complete it. For a quantizer whose lengths do not fit, it says which length is which. Files without chunks, metadata that cannot be parsed and impossible numbers of hash functions are named.", "quantifier": "all data, all chunk identifiers and versions, all words", "why_tests_cant": "Tests do not look at the texts of errors.", "anchors": ["src/error.rs: Error", "src/chunks/io.rs: ensure_chunk_type, ensure_data_type, read_chunk, fmt", "src/chunks/vocab/wrappers.rs: read_chunk", "src/chunks/storage/wrappers.rs: read_chunk, mmap_chunk", "src/chunks/vocab/mod.rs: read_string", "src/chunks/storage/quantized.rs: check_quantizer_invariants"]}
{"id": "C124", "title": "Errors in text and word2vec files say what is wrong", "statement": "When a text file, a text file with dimensions or a floret file has a wrong line, the text of the error is about the first such line: it shows the component that is no number, the index of the first byte that is not UTF-8, that the line is empty, or how many components were expected and found. A number that cannot be parsed is shown, together with the reason: empty, too large or an invalid digit; different fields have different texts. If the numbers of a header do not fit to the rest of the file, the text shows both the number in the header and the number found. For floret parameters that are not possible, the text names the parameter and its value. If a word2vec file was cut behind its header, the text names the field that the first missing byte belongs to; if a device fails in the header or in a line, the text says so. The readers with texts are those of the other claims: same results, error kinds and panics.", "quantifier": "all data, lines, words and components, all places of the cut, strict and lossy readers", "why_tests_cant": "Tests do not look at the texts of errors.", "anchors": ["src/util.rs: read_number, read_string", "src/compat/text.rs: read_embeds, read_text_dims", "src/compat/word2vec.rs: read_word2vec_binary", "src/compat/floret/io.rs: read_floret_text", "src/error.rs: Error", "library/core/src/num/mod.rs: from_str_radix"]}
{"id": "C125", "title": "Errors in fastText models say what is wrong", "statement": "If a fastText model was cut, the text of the error names the field that the first missing byte belongs to: each number of the header and the configuration, a word, its frequency, the entry type, the quantization flag, the shape and the matrix. If a model is refused, the text says why, and it is the first reason in the order of the file: wrong magic or version, unknown loss or model (each with the number found), labels, a pruned vocabulary, an entry that is not a word or not UTF-8, a quantized matrix, a matrix with a wrong number of rows, or metadata that cannot be serialized. The version that the text says is expected is the one that is accepted.", "quantifier": "all models with all configurations, vocabularies and matrices, all places of the cut, strict and lossy readers", "why_tests_cant": "Tests check models that can be read.", "anchors": ["src/compat/fasttext/io.rs: read_fasttext, read_config, read_vocab, read_embeddings", "src/util.rs: read_string", "src/error.rs: Error"]}
{"id": "C126", "title": "Errors name what could not be written", "statement": "If the device to which a finalfusion file is written has no more room, exactly the bytes for which there was room are written, and the writer returns a write error whose text names the field that the first byte without room belongs to: magic, header, metadata, each number, word, n-gram, type identifier and padding, the matrix, the quantizer and the norms. Fields with different meanings have different names. With enough room there is no error. The writers with texts are those of the other claims: same bytes, results, error kinds and panics.", "quantifier": "all embeddings that can be written, with all vocabularies, storages, metadata and norms, all positions in the file and all devices", "why_tests_cant": "Tests write to memory, where writing does not fail.", "anchors": ["src/chunks/io.rs: write_chunk, write_to", "src/chunks/vocab/mod.rs: write_string", "src/chunks/metadata.rs: write_chunk", "src/chunks/norms.rs: write_chunk", "src/chunks/vocab/simple.rs: write_chunk", "src/chunks/vocab/subword.rs: write_chunk, write_bucketed_chunk, write_ngrams_with_indices", "src/chunks/storage/array.rs: write_ndarray_chunk", "src/chunks/storage/quantized.rs: write_chunk", "src/embeddings.rs: write_embeddings", "src/error.rs: Error"]}
{"id": "C127", "title": "Errors name what could not be written in other formats", "statement": "If the device to which a text file, a text file with dimensions, a word2vec file, a floret file or a fastText model is written has no more room, exactly the bytes for which there was room are written, and the writer returns a write error whose text names the field that the first byte without room belongs to: the shape, the line, the word, its vector or the end of the line, and in fastText models each number of the header and the configuration, each word, its terminator, frequency and type, and the matrix. With enough room there is no error. The writers with texts are those of the other claims.", "quantifier": "all embeddings that can be written in the format, normalized or not, and all devices", "why_tests_cant": "Tests write to memory, where writing does not fail.", "anchors": ["src/compat/text.rs: write_text, write_text_dims", "src/compat/word2vec.rs: write_word2vec_binary", "src/compat/floret/io.rs: write_floret_text", "src/compat/fasttext/io.rs: write_fasttext, write_vocab, write_embeddings", "src/error.rs: Error"]}
{"id": "C128", "title": "Writers and readers name the same field", "statement": "If a device is full while a finalfusion file is written, the error of the writer and the error of reading what is on the device are about the same field: it is the same number of fields away from the start of the file, begins and ends at the same byte, and contains the first byte that is missing. There are two exceptions: readers do not name padding, and if only norms are missing, reading succeeds without norms.", "quantifier": "all embeddings built by the constructors, with all vocabularies and storages, all positions in the file and all amounts of room", "why_tests_cant": "Tests write to memory and read complete files.", "anchors": ["src/embeddings.rs: read_embeddings, write_embeddings", "src/chunks/io.rs: Header", "src/chunks/vocab/mod.rs: read_vocab_items, write_vocab_items", "src/chunks/storage/array.rs: read_chunk, write_chunk", "src/chunks/storage/quantized.rs: read_chunk, write_chunk", "src/chunks/norms.rs: read_chunk, write_chunk"]}
{"id": "C129", "title": "Files in other formats that were cut", "statement": "If a text file, a text file with dimensions, a word2vec file, a floret file or a fastText model that this crate wrote is cut at any byte, reading the rest fails. Where it does not, what is read differs from what was written only as follows: word2vec files may lack the last newline; in text files with dimensions and in floret files the last number may be cut, and then only this number is different; in text files lines may be missing, and of the words and vectors that are read only the last ones can be wrong.", "quantifier": "all embeddings that can be written in the format and all positions of the cut", "why_tests_cant": "Tests read complete files, and few that were cut at one place.", "anchors": ["src/compat/text.rs: read_text_raw, read_text_dims_raw, read_embeds", "src/compat/word2vec.rs: read_word2vec_binary", "src/compat/floret/io.rs: read_floret_text", "src/compat/fasttext/io.rs: read_fasttext", "src/util.rs: read_string, read_number"]}
{"id": "C130", "title": "Data after files in other formats", "statement": "If other data follows a file that this crate wrote, the word2vec and fastText readers do not look at it and give the same embeddings as without it. The fastText reader leaves exactly that data to be read; the word2vec reader also leaves the newline of the last vector, so that reading a second file from the same reader fails with a format error whatever it contains. Text files with dimensions and floret files are refused whatever follows, even an empty line. Text files are read with the lines that follow as further words; two text files with vectors of the same length, one after the other, are read as the words of the first and then those of the second, or the reader panics if they have a word in common.", "quantifier": "all embeddings that can be written in the format, without NaN where numbers are text, and all data that may follow", "why_tests_cant": "Tests read files with nothing after them.", "anchors": ["src/compat/text.rs: read_text_raw, read_text_dims_raw, read_embeds", "src/compat/word2vec.rs: read_word2vec_binary", "src/compat/floret/io.rs: read_floret_text", "src/compat/fasttext/io.rs: read_fasttext"]}
{"id": "C131", "title": "Files in other formats start anywhere", "statement": "The readers of text, word2vec, floret and fastText files give the same result wherever in the stream the file starts, whether they succeed, fail or panic, and stop as many bytes further on as the file starts further on; unlike finalfusion chunks, nothing in these formats is aligned. Any number of fastText files one after the other are read one by one from the same reader.", "quantifier": "all streams, working or broken, all positions and all readers of the other formats, lossy or not", "why_tests_cant": "Tests read files from position 0.", "anchors": ["src/compat/text.rs: read_text, read_text_dims", "src/compat/word2vec.rs: read_word2vec_binary", "src/compat/floret/io.rs: read_floret_text", "src/compat/fasttext/io.rs: read_fasttext", "src/util.rs: read_string, read_number"]}
{"id": "C132", "title": "Finalfusion files start at multiples of four", "statement": "The readers of vocabularies and metadata give the same result wherever in a stream the chunk starts. The readers of storages, norms and whole finalfusion files, also memory-mapped, give the same result at positions that differ by a multiple of four, whether they succeed, fail or panic, and stop as many bytes further on. At positions that differ otherwise this is false: a file that was written at one position and copied to another may be read without an error as embeddings with other numbers and without norms.", "quantifier": "all streams, working or broken, all positions that differ by a multiple of four and all readers; a concrete file for the last sentence", "why_tests_cant": "Tests read files from position 0.", "anchors": ["src/util.rs: padding", "src/chunks/io.rs: Header", "src/chunks/storage/array.rs: NdArray::read_chunk, MmapArray::mmap_chunk", "src/chunks/storage/quantized.rs: read_product_quantizer", "src/chunks/norms.rs: NdNorms::read_chunk", "src/embeddings.rs: read_embeddings, mmap_embeddings"]}
{"id": "C133", "title": "Written bytes depend on the position only through alignment", "statement": "The writers of finalfusion chunks and files do the same at positions that differ by a multiple of four: they write the same bytes, or the same part of them if the device is full, and return the same result; the length that write_embeddings_len predicts is the same as well. The writers of vocabularies, metadata, text, word2vec, floret and fastText do the same at all positions.", "quantifier": "all values, all devices with or without enough room, and all positions", "why_tests_cant": "Tests write at position 0.", "anchors": ["src/util.rs: padding", "src/chunks/storage/array.rs: write_ndarray_chunk", "src/chunks/storage/quantized.rs: write_chunk", "src/chunks/norms.rs: write_chunk", "src/embeddings.rs: write_embeddings", "src/compat/text.rs: write_text, write_text_dims", "src/compat/word2vec.rs: write_word2vec_binary", "src/compat/floret/io.rs: write_floret_text", "src/compat/fasttext/io.rs: write_fasttext"]}
