{"id": "C01", "title": "Residual quantisation round-trips", "statement": "For a codec with nbits in {1,2,4,8} and embedding dimension dim with dim*nbits divisible by 8, decompressing the packed bytes that quantize_residuals produced for a residual row yields, component by component and before normalisation, centroid[j] + bucket_weights[b_j], where b_j is the number of bucket cutoffs strictly below residual component j (NaN components fall in bucket 0).", "quantifier": "every nbits in {1,2,4,8}, every admissible dim, every residual row (all f32 bit patterns), every cutoff vector with at most 2^nbits-1 entries, every weight vector, every centroid", "why_tests_cant": "The bit-level permutation (segment order, bit order inside a segment, byte boundaries) must agree between writer and reader for every byte value and every position; tests sample a few vectors.", "anchors": ["next-plaid/src/codec.rs:ResidualCodec::new_with_store", "next-plaid/src/codec.rs:ResidualCodec::quantize_residuals", "next-plaid/src/codec.rs:ResidualCodec::decompress"]}
{"id": "C02", "title": "packbits/unpackbits round-trip", "statement": "unpackbits(packbits(bits)) returns bits (padded with zeros to a multiple of 8), and packbits(unpackbits(bytes)) = bytes.", "quantifier": "every bit vector of any length and every byte vector", "why_tests_cant": "Needs all lengths modulo 8 and all byte values.", "anchors": ["next-plaid/src/utils.rs:packbits", "next-plaid/src/utils.rs:unpackbits"]}
{"id": "C03", "title": "Nearest-centroid assignment is a true argmax and independent of batching", "statement": "The code assigned to a token is the index of a centroid whose score is maximal under the documented order (finite scores by total order, any finite beats any non-finite); on ties the last maximal index is chosen; and splitting the tokens into processing batches of any size does not change any code.", "quantifier": "every token matrix, every non-empty centroid set, every score function (including NaN and infinities), every batch size", "why_tests_cant": "Ties, NaNs and batch boundaries are measure-zero events for sampled inputs.", "anchors": ["next-plaid/src/codec.rs:cmp_f32_for_max", "next-plaid/src/codec.rs:ResidualCodec::compress_into_codes_cpu"]}
{"id": "C04", "title": "Creating an index stores exactly the given documents, whatever the chunking", "statement": "After create with N documents, the index reports N documents; document i has exactly the codes and residuals of the i-th input document, with its length; this holds for every batch_size >= 1 and the chunk size affects no observable result.", "quantifier": "every list of documents, every batch_size >= 1, every codec", "why_tests_cant": "Chunk boundary arithmetic must be right for all sizes; tests use one or two sizes.", "anchors": ["next-plaid/src/index.rs:create_index_files", "next-plaid/src/index.rs:encode_index_chunk", "next-plaid/src/index.rs:MmapIndex::load"]}
{"id": "C05", "title": "Update appends and never disturbs existing documents", "statement": "A successful update with a non-empty batch of n documents, on a handle that reflects the directory (reloaded after any delete), on an index of N documents, returns the ids N, N+1, ..., N+n-1 in input order; the documents at those ids are the inputs; every older document keeps its id and its length, and (unless the index is rebuilt or its buffer re-encoded) its stored codes and its decoded embeddings.", "quantifier": "every index state reachable by create/update/delete, every update batch, every batch_size, every buffer_size and start_from_scratch setting", "why_tests_cant": "Three different code paths (rebuild, buffer flush, plain append) and the append-to-last-chunk rule interact with history.", "anchors": ["next-plaid/src/index.rs:MmapIndex::update", "next-plaid/src/update.rs:update_index", "next-plaid/src/update.rs:save_buffer", "next-plaid/src/update.rs:load_buffer"]}
{"id": "C06", "title": "Delete removes exactly the requested documents and renumbers the rest by rank", "statement": "delete(ids) with non-negative ids removes exactly the documents whose id is listed, keeps the survivors in order with unchanged content, renumbers them 0..N-k-1, reports k; duplicate ids and ids >= N have no effect.", "quantifier": "every index state, every multiset of ids", "why_tests_cant": "Per-chunk masking, partial-chunk rewriting and id shifting must agree with each other for every deletion pattern across chunk boundaries.", "anchors": ["next-plaid/src/delete.rs:delete_from_index_impl", "next-plaid/src/index.rs:MmapIndex::delete_with_options"]}
{"id": "C07", "title": "Inverted file is exact after any history", "statement": "After any sequence of create/update/delete, document d is a candidate of centroid c if and only if some token of d has code c; every posting list is strictly increasing and contains only existing ids.", "quantifier": "every operation history", "why_tests_cant": "The IVF is maintained incrementally (merge on update, patch in place on delete), so an error only shows after specific histories.", "anchors": ["next-plaid/src/index.rs:create_index_files", "next-plaid/src/update.rs:update_index", "next-plaid/src/delete.rs:delete_from_index_impl", "next-plaid/src/index.rs:MmapIndex::get_candidates"]}
{"id": "C08", "title": "Any history of operations behaves like an ordered list of documents", "statement": "Opening the on-disk index after any sequence of create, update, append, delete and reload operations (non-empty batches, non-negative ids, handle reloaded between a delete and the next update, no handle-less append while documents sit in the update buffer) yields exactly the list obtained by applying the same operations (append, filter) to a plain list of documents, and the ids and counts returned are those of the plain list.", "quantifier": "every operation history with any configuration", "why_tests_cant": "Requires induction over histories; interactions of chunks, buffer, embeddings file, and centroids are unbounded.", "anchors": ["next-plaid/src/index.rs", "next-plaid/src/update.rs", "next-plaid/src/delete.rs"]}
{"id": "C09", "title": "Document slices never leak neighbouring tokens", "statement": "For an opened index, the codes and residuals returned for document d are exactly the tokens stored for d: slices of different documents are disjoint and cover the token arrays exactly.", "quantifier": "every list of document lengths (including zero-length documents), every document id", "why_tests_cant": "Offset arithmetic must be right for all length vectors.", "anchors": ["next-plaid/src/index.rs:MmapIndex::load", "next-plaid/src/index.rs:MmapIndex::get_document_embeddings", "next-plaid/src/index.rs:MmapIndex::get_document_codes", "next-plaid/src/index.rs:MmapIndex::decompress_documents"]}
{"id": "C10", "title": "Candidate lookup is the sorted duplicate-free union of posting lists", "statement": "get_candidates(cs) returns exactly the documents in the posting list of at least one in-range centroid of cs, in strictly increasing order; out-of-range centroid ids are ignored.", "quantifier": "every IVF, every list of centroid ids", "why_tests_cant": "Quantifies over all posting-list layouts.", "anchors": ["next-plaid/src/index.rs:MmapIndex::get_candidates"]}
{"id": "C11", "title": "Index bookkeeping is consistent", "statement": "In every state reached by successful operations, num_documents and num_embeddings in the index metadata equal the sums of the per-chunk counts and of the document lengths; each chunk's code and residual arrays have exactly as many rows as the sum of its document lengths; the posting-list lengths sum to the IVF length.", "quantifier": "every operation history", "why_tests_cant": "Counters are updated incrementally in three different places.", "anchors": ["next-plaid/src/index.rs:Metadata", "next-plaid/src/update.rs:update_index", "next-plaid/src/delete.rs:delete_from_index_impl"]}
{"id": "C12", "title": "Buffered updates are searchable at once and flushing preserves identity", "statement": "Documents added while the update buffer is below its threshold are part of the index immediately; when the buffer is flushed the same documents are re-encoded and keep their ids and order, and no document is lost or duplicated.", "quantifier": "every sequence of updates and deletes, every buffer_size", "why_tests_cant": "The flush deletes and re-adds documents; correctness depends on an invariant linking buffer files to the index tail.", "anchors": ["next-plaid/src/index.rs:MmapIndex::update", "next-plaid/src/update.rs:load_buffer", "next-plaid/src/update.rs:save_buffer", "next-plaid/src/delete.rs:clean_embeddings_files"]}
{"id": "C13", "title": "Centroid expansion never invalidates stored codes", "statement": "Expanding the centroid set only appends centroids: every stored code still denotes the same centroid, new centroids start with an empty posting list, and num_partitions equals the number of centroids.", "quantifier": "every index state, every outlier set, every k-means result", "why_tests_cant": "Quantifies over all clustering outcomes.", "anchors": ["next-plaid/src/update.rs:update_centroids"]}
{"id": "C14", "title": "Reconstruction is all-or-nothing and order-preserving", "statement": "reconstruct(ids) returns, in request order and with duplicates, the decompressed tokens of each requested document if every id is in 0..N-1, and an error otherwise. Asked for many documents at once, the index gives the same tokens one document after the other with their lengths; ids it does not have count as documents without tokens.", "quantifier": "every index, every id list", "why_tests_cant": "Quantifies over all id lists incl. negative and duplicated ids.", "anchors": ["next-plaid/src/embeddings.rs:reconstruct_embeddings", "next-plaid/src/embeddings.rs:reconstruct_single", "next-plaid/src/index.rs:decompress_documents"]}
{"id": "C15", "title": "The merged mmap file equals the concatenation of the chunks", "statement": "Whenever loading decides to reuse or rebuild the merged codes/residuals file, the resulting content is the concatenation of the current chunk files followed by the padding rows (an error when there are no rows), and reading it through the memory map gives those rows. This holds for every history of changes, merges and clears in which either every change is followed by a complete clear (as update and delete do), or the modification times can be trusted: merges run to the end and equal times of the non-empty chunk files, or of metadata.json up to 1 ms, mean equal arrays; or merges are interrupted anywhere and in addition no older times come back.", "quantifier": "every sequence of chunk edits, loads and crashes between them", "why_tests_cant": "The cache is validated by a manifest; correctness is a history property.", "anchors": ["next-plaid/src/mmap.rs:merge_codes_chunks", "next-plaid/src/mmap.rs:merge_residuals_chunks", "next-plaid/src/mmap.rs:clear_merged_files"]}
{"id": "C16", "title": "An index stays openable", "statement": "After any sequence of successful operations the index can be opened again.", "quantifier": "every operation history", "why_tests_cant": "One must consider every reachable state, including the empty index.", "anchors": ["next-plaid/src/index.rs:MmapIndex::load", "next-plaid/src/mmap.rs:merge_codes_chunks", "next-plaid/src/delete.rs:delete_from_index_impl"]}
{"id": "C17", "title": "Search results are well-formed", "statement": "A search returns at most top_k results, ids and scores have the same length, ids are distinct existing documents, scores are in non-increasing order, and when a subset is given all ids belong to it. On an index reached by any history, with n_ivf_probe at least 1 and a query of the index dimension, the search does return (with n_ivf_probe = 0 it panics).", "quantifier": "every index, query, parameter setting and subset", "why_tests_cant": "Quantifies over all parameters (n_ivf_probe, n_full_scores, thresholds, batching).", "anchors": ["next-plaid/src/search.rs:search_one_mmap", "next-plaid/src/search.rs:search_one_mmap_batched"]}
{"id": "C18", "title": "Returned scores are the exact scores of the returned documents", "statement": "Each returned score is the MaxSim score of the query against the decompressed document with that id, and no document that was fully scored but not returned has a larger score than a returned one.", "quantifier": "every index, query, parameters", "why_tests_cant": "Truncation/sort/rescoring pipeline must pair ids with scores in all cases.", "anchors": ["next-plaid/src/search.rs:search_one_mmap", "next-plaid/src/maxsim.rs:maxsim_score"]}
{"id": "C19", "title": "Exhaustive parameters give the exact answer", "statement": "If n_ivf_probe covers all centroids, no centroid threshold is set and the rescoring limits are at least the number of candidates, the result is the exact top_k by MaxSim over all documents with at least one token (restricted to the subset when given).", "quantifier": "every index satisfying the IVF invariant, every query with at least one token", "why_tests_cant": "Needs the IVF invariant and the whole pipeline.", "anchors": ["next-plaid/src/search.rs:search_one_mmap"]}
{"id": "C20", "title": "Batched centroid probing selects the same centroids as exhaustive probing", "statement": "Without a centroid score threshold, the memory-bounded batched probe selects for each query token the n_ivf_probe best centroids, for every batch size, just as the non-batched probe does (up to ties).", "quantifier": "every query, centroid set, batch size, n_ivf_probe", "why_tests_cant": "Heap maintenance across batch boundaries.", "anchors": ["next-plaid/src/search.rs:ivf_probe_batched", "next-plaid/src/search.rs:search_one_mmap"]}
{"id": "C21", "title": "Multi-query search pairs each query with its own result", "statement": "search_batch returns exactly one result per query, in order, labelled with that query's index and equal to searching that query alone; parallel and sequential execution agree when no query fails.", "quantifier": "every list of queries, both execution modes", "why_tests_cant": "Quantifies over all query lists; error handling differs between modes.", "anchors": ["next-plaid/src/search.rs:search_many_mmap"]}
{"id": "C22", "title": "Vectorised max equals scalar max", "statement": "The SIMD maximum used by MaxSim returns an element of the slice that is numerically equal to the left-to-right scalar maximum for every slice of every length (all lane/tail splits), and falls back correctly on non-finite inputs (bitwise the two may differ in the sign of zero).", "quantifier": "every slice of f32 of any length", "why_tests_cant": "Block/tail boundaries for all lengths and NaN placements.", "anchors": ["next-plaid/src/maxsim.rs:simd_max", "next-plaid/src/maxsim.rs:scalar_max", "next-plaid/src/maxsim.rs:maxsim_score_simple"]}
{"id": "C23", "title": "Metadata deletion re-sequences rows densely", "statement": "Deleting document ids from the metadata database keeps exactly the other rows, in order, with their content, renumbered to consecutive ids 0..M-1, and reports the number of removed rows; ids outside the table are ignored.", "quantifier": "every dense metadata table, every id list (with duplicates, negatives, out-of-range)", "why_tests_cant": "The implementation issues one UPDATE per gap with computed ranges; all deletion patterns matter.", "anchors": ["next-plaid/src/filtering.rs:delete", "next-plaid/src/filtering.rs:delete_v2"]}
{"id": "C24", "title": "Index and metadata stay aligned", "statement": "After any sequence of create/add/append/delete/reload calls through the metadata-aware entry points, whether the metadata of each add is accepted or refused, as long as every call succeeds, row i of the metadata database describes document i of the index, and both have the same count.", "quantifier": "every operation history", "why_tests_cant": "Two independent renumbering algorithms (IVF/chunks and SQL) must agree on all histories.", "anchors": ["next-plaid/src/index.rs:MmapIndex::update_with_metadata", "next-plaid/src/index.rs:MmapIndex::delete_with_options", "next-plaid/src/filtering.rs:update", "next-plaid/src/filtering.rs:delete"]}
{"id": "C25", "title": "Metadata lookup by ids preserves request order", "statement": "get(subset) returns the rows of the requested ids in request order (each existing id once, missing ids skipped), for any number of ids; get(condition) returns matching rows in id order; giving both is rejected. The HTTP endpoint returns the first `limit` of those rows in the same order, and refuses a request that gives both ids and a condition.", "quantifier": "every table, every id list incl. more than 900 ids", "why_tests_cant": "Chunked IN-clauses of 900 must not affect order.", "anchors": ["next-plaid/src/filtering.rs:get", "next-plaid/src/filtering.rs:get_v2", "next-plaid-api/src/handlers/metadata.rs:get_metadata"]}
{"id": "C26", "title": "Accepted filter conditions belong to the documented grammar", "statement": "Every condition accepted by the validator is (a) a comparison of two integer literals such as 1=1 or (b) a sentence of the documented boolean grammar over existing columns (compared case-insensitively) and ? placeholders only; in case (b) its ASCII characters are letters, digits, underscore, white space, the double quote and ?(),=!<> only (no semicolon, comment or string quote), and an ASCII condition has no statement keyword as a whole word and names existing columns under SQL's ASCII case-insensitive comparison, so no SQL injection is possible. The validator always answers. (Outside ASCII, an identifier may pass that SQL does not read as the column: refuted theorem.)", "quantifier": "every condition string and every column set", "why_tests_cant": "An attacker chooses the string.", "anchors": ["next-plaid/src/filtering.rs:validate_condition", "next-plaid/src/filtering.rs:tokenize", "next-plaid/src/filtering.rs:quick_safety_check", "next-plaid/src/filtering.rs:ConditionValidator"]}
{"id": "C27", "title": "Every documented condition is accepted", "statement": "Every ASCII text of the documented grammar whose columns exist is accepted by the validator, for every nesting depth and spacing, provided no column is named like a statement keyword (a column named e.g. update is always rejected: refuted theorem); every comparison of two integer literals is accepted.", "quantifier": "every grammar sentence", "why_tests_cant": "Unbounded nesting and combinations.", "anchors": ["next-plaid/src/filtering.rs:ConditionValidator"]}
{"id": "C28", "title": "update_where changes exactly the matching rows", "statement": "On a table in which no two column names differ only by case, update_where changes the listed columns of exactly the rows matching the condition, leaves all other rows and columns untouched and reports how many rows matched; a failing update_where changes nothing.", "quantifier": "every table, condition and update set", "why_tests_cant": "Thin/fat column split in the two-table layout.", "anchors": ["next-plaid/src/filtering.rs:update_where", "next-plaid/src/filtering.rs:update_where_v2"]}
{"id": "C29", "title": "REGEXP filters use the pattern given for each placeholder", "statement": "where_condition_regexp selects the rows for which the condition holds with each REGEXP evaluated against its own bound parameter.", "quantifier": "every condition with one or more REGEXP and other placeholders", "why_tests_cant": "Only histories with several placeholders reveal which parameter is used.", "anchors": ["next-plaid/src/filtering.rs:where_condition_regexp"]}
{"id": "C30", "title": "Full-text queries are always sanitised to plain phrases", "statement": "sanitize_fts5_query maps every user string without a NUL character to a (possibly empty) sequence of double-quoted FTS5 strings, one per whitespace-separated word that has an alphanumeric character and is not a bare operator word (AND, OR, NOT, NEAR in any case), trimmed of surrounding punctuation: no user input can produce an operator or a syntax error. sanitize_fts5_query_or maps every string to the OR of the query's distinct identifier tokens. (A NUL inside a word does produce an FTS5 syntax error: reported as a refutation.)", "quantifier": "every Unicode string", "why_tests_cant": "An attacker chooses the string.", "anchors": ["next-plaid/src/text_search.rs:sanitize_fts5_query", "next-plaid/src/text_search.rs:sanitize_fts5_query_or"]}
{"id": "C31", "title": "Reciprocal-rank fusion is a faithful merge", "statement": "fuse_rrf returns exactly min(top_k, number of distinct input ids) distinct ids, all drawn from the two inputs; each score is the documented sum of alpha/(61+rank) over the semantic list and (1-alpha)/(61+rank) over the keyword list; when the scores are numbers (not NaN) they are in non-increasing order and no id left out scores above one returned; alpha=1 (0) returns the semantic (keyword) list in its own order followed by ids found only by the other list. For every hash-map iteration order and every floating-point arithmetic with the stated laws.", "quantifier": "every pair of result lists, alpha, top_k", "why_tests_cant": "Hash-map iteration order and ties.", "anchors": ["next-plaid/src/text_search.rs:fuse_rrf"]}
{"id": "C32", "title": "Relative-score fusion is a faithful merge", "statement": "fuse_relative_score returns exactly min(top_k, number of distinct input ids) distinct ids drawn from the two inputs, scored alpha*minmax(semantic)+(1-alpha)*minmax(keyword) with the true minimum and maximum of each list (1.0 when the range is zero), in non-increasing score order when the scores are numbers.", "quantifier": "every pair of result lists, alpha, top_k", "why_tests_cant": "Degenerate ranges, duplicates, ties.", "anchors": ["next-plaid/src/text_search.rs:fuse_relative_score"]}
{"id": "C33", "title": "Filtered text search over many ids equals the global top-k", "statement": "search_filtered with any number of distinct ids returns a best-first choice of top_k of the matching rows whose id is listed: the same scores as a single unchunked query restricted to those ids. (An id listed twice, 900 or more places apart, is returned twice: reported as a refutation.)", "quantifier": "every id list (more than 900 ids), every score assignment", "why_tests_cant": "Chunk boundaries and merges.", "anchors": ["next-plaid/src/text_search.rs:search_filtered", "next-plaid/src/text_search.rs:build_in_clause"]}
{"id": "C34", "title": "The full-text index follows the documents through deletions", "statement": "After any history of adds, appends, deletes and reloads through one handle, the full-text row of document id i, if there is one, is built from the metadata of document i (never of a deleted or renumbered document), and the text built from an item contains each of its string values. Without the identifier-aware tokenizer, or without deletions, a term finds only documents of the collection whose text has that term; if items are only added through the calls that index them and with one tokenizer, every document with an item is found by exactly the terms of its text. After update_where the changed rows are built from their new values and the others are as before. (With the identifier-aware tokenizer and a deletion, or with update_with_metadata or a change of tokenizer, the last part is false of the code.)", "quantifier": "every operation history, every deletion pattern, every tokenizer, every metadata item", "why_tests_cant": "A suffix-delete optimisation and a rebuild path are chosen by the deletion pattern.", "anchors": ["next-plaid/src/index.rs:MmapIndex::delete_with_options", "next-plaid/src/text_search.rs:delete", "next-plaid/src/text_search.rs:rebuild", "next-plaid/src/text_search.rs:insert_rows", "next-plaid/src/text_search.rs:update_rows"]}
{"id": "C35", "title": "Atomic file replacement", "statement": "At every point of atomic_write_file at which the process stops or the power fails, the destination holds either its complete old content or the complete new content, and no other file changes. An error leaves the old content in place, for good, and (unless it is the rename that failed) no temporary file. After a success the new content is there; it survives a loss of power if the fsync of the directory worked.", "quantifier": "every crash point, prior directory, new content, and failure of the system calls", "why_tests_cant": "Crash points cannot be enumerated by unit tests.", "anchors": ["next-plaid/src/utils.rs:atomic_write_file"]}
{"id": "C36", "title": "On-disk arrays round-trip", "statement": "Arrays written in the raw header format and in the NPY format are read back unchanged (shape, all elements, every row range), and every proper prefix of such a file is rejected with an error.", "quantifier": "every shape and content", "why_tests_cant": "Header arithmetic for all shapes.", "anchors": ["next-plaid/src/mmap.rs:write_npy_header", "next-plaid/src/mmap.rs:npy_header_layout", "next-plaid/src/mmap.rs:parse_npy_header", "next-plaid/src/mmap.rs:parse_shape_from_header", "next-plaid/src/mmap.rs:MmapArray2F32"]}
{"id": "C37", "title": "A crash during an update leaves the index usable", "statement": "If the process stops at any point during an update, re-opening shows either the state before or the state after the update.", "quantifier": "every crash point of every update", "why_tests_cant": "Crash points cannot be enumerated by unit tests.", "anchors": ["next-plaid/src/update.rs:update_index", "next-plaid/src/index.rs:MmapIndex::load"]}
{"id": "C38", "title": "Update batching preserves order and pairing", "statement": "The background worker applies queued requests in arrival order, each document with its own metadata, no request is dropped, duplicated or split, and batches are bounded.", "quantifier": "every arrival sequence and every batching schedule", "why_tests_cant": "Schedules are unbounded.", "anchors": ["next-plaid-api/src/handlers/documents.rs:batch_worker", "next-plaid-api/src/handlers/documents.rs:process_batch"]}
{"id": "C39", "title": "Writers of one index are mutually exclusive", "statement": "No two operations modifying the same index (synchronous add, queued update, queued delete, create, drop, config change) run at the same time.", "quantifier": "every interleaving of API requests", "why_tests_cant": "Schedules are unbounded.", "anchors": ["next-plaid-api/src/handlers/documents.rs:get_index_lock", "next-plaid-api/src/handlers/documents.rs:get_index_lock_by_path", "next-plaid-api/src/handlers/documents.rs:process_batch", "next-plaid-api/src/handlers/documents.rs:add_documents"]}
{"id": "C40", "title": "Eviction keeps the newest documents", "statement": "With max_documents = m, after an update the index and the metadata database hold exactly the last min(m, N) documents, in order.", "quantifier": "every document count and limit", "why_tests_cant": "All N, m.", "anchors": ["next-plaid-api/src/handlers/documents.rs:evict_oldest_documents"]}
{"id": "C41", "title": "Repair restores equality of index and database", "statement": "repair_index_db_sync ends with the two counts equal to the smaller one and keeps the first min(index, db) documents and rows unchanged; a failed metadata insert is rolled back to the previous index content.", "quantifier": "every pair of counts and contents", "why_tests_cant": "Arises only after crashes.", "anchors": ["next-plaid-api/src/handlers/documents.rs:repair_index_db_sync", "next-plaid-api/src/handlers/documents.rs:process_batch"]}
{"id": "C42", "title": "Update progress reporting is consistent", "statement": "For every sequence of update events the health endpoint never shows a completed/failed update as running, keeps queued/running entries visible, and drops finished entries only after the retention period.", "quantifier": "every event sequence and clock", "why_tests_cant": "Unbounded event histories.", "anchors": ["next-plaid-api/src/state.rs:record_update_queued", "next-plaid-api/src/state.rs:record_update_complete", "next-plaid-api/src/state.rs:get_update_health_statuses"]}
{"id": "C43", "title": "Timestamps are correct RFC 3339", "statement": "system_time_to_rfc3339 prints the proleptic Gregorian date and time of every instant from the Unix epoch to the end of the year 9999, as an RFC 3339 date-time; the date it computes is right for every later day as well.", "quantifier": "every second from 1970-01-01 to 9999-12-31", "why_tests_cant": "Leap-year rules for all dates.", "anchors": ["next-plaid-api/src/state.rs:civil_from_days", "next-plaid-api/src/state.rs:system_time_to_rfc3339"]}
{"id": "C44", "title": "Base64 embeddings round-trip and are validated", "statement": "decode_b64_embeddings(encode_b64_embeddings(E)) = E for every finite matrix, and decoding succeeds only if the byte count matches the shape (without overflow) and every value is finite.", "quantifier": "every matrix, every string, every shape", "why_tests_cant": "All byte patterns.", "anchors": ["next-plaid-api/src/models.rs:decode_b64_embeddings", "next-plaid-api/src/models.rs:encode_b64_embeddings", "next-plaid-api/src/models.rs:json_embeddings_to_array2"]}
{"id": "C45", "title": "Rerank returns a sorted permutation of the documents", "statement": "rerank returns each input document index exactly once with its own MaxSim score, sorted by non-increasing score, ties in input order; it fails iff the list is empty, a document has another dimension, or a similarity or running total is non-finite; it never panics.", "quantifier": "every query and document list", "why_tests_cant": "Ties and non-finite values.", "anchors": ["next-plaid-api/src/handlers/rerank.rs:rerank", "next-plaid-api/src/handlers/rerank.rs:compute_maxsim", "next-plaid-api/src/handlers/rerank.rs:score_desc_cmp"]}
{"id": "C46", "title": "Encode batching returns each client its own embeddings", "statement": "Whatever requests are coalesced, every request receives exactly the embeddings of its own texts under its own input type and pool factor, in order.", "quantifier": "every batch of concurrent requests", "why_tests_cant": "All groupings.", "anchors": ["next-plaid-api/src/handlers/encode.rs:process_encode_batch_with_model"]}
{"id": "C47", "title": "Metadata presence check partitions the requested ids", "statement": "check_metadata returns every requested id in exactly one of existing/missing, in request order, with correct counts.", "quantifier": "every id list and database", "why_tests_cant": "All inputs.", "anchors": ["next-plaid-api/src/handlers/metadata.rs:check_metadata"]}
{"id": "C48", "title": "Search responses pair every id with its own metadata", "statement": "In every search response the metadata list has the same length as the id list and entry i is the metadata of id i (null if missing).", "quantifier": "every id list and database", "why_tests_cant": "Lookup drops missing and duplicate ids.", "anchors": ["next-plaid-api/src/handlers/search.rs:fetch_metadata_for_docs"]}
{"id": "C49", "title": "Index names cannot escape the data directory", "statement": "Every file operation of the HTTP API for an index name stays inside the configured index directory.", "quantifier": "every index name string", "why_tests_cant": "An attacker chooses the name.", "anchors": ["next-plaid-api/src/state.rs:index_path", "next-plaid-api/src/handlers/documents.rs:delete_index"]}
{"id": "C50", "title": "Identifier-aware tokenisation links sub-words and compounds", "statement": "The tokens of a text are exactly those of its identifiers: the identifier, its snake_case or camelCase sub-words when there are several, and adjacent pairs of sub-words; all tokens are non-empty lower-case words; querying (in any letter case) any sub-word that starts with a letter, or the whole identifier, of an indexed identifier produces a token whose words occur consecutively in the indexed text. (Identifiers mixing both styles are split only at underscores, and sub-words starting with a digit yield no query token: reported as refutations.)", "quantifier": "every identifier", "why_tests_cant": "All strings.", "anchors": ["next-plaid/src/text_search.rs:split_identifier", "next-plaid/src/text_search.rs:camel_split", "next-plaid/src/text_search.rs:tokenize_identifiers"]}
{"id": "C51", "title": "Buffer and raw-embedding files round-trip", "statement": "Loading the update buffer or the raw-embeddings file returns exactly the documents that were saved, for any document lengths.", "quantifier": "every list of documents", "why_tests_cant": "All length vectors.", "anchors": ["next-plaid/src/update.rs:save_buffer", "next-plaid/src/update.rs:load_buffer", "next-plaid/src/update.rs:save_embeddings_npy", "next-plaid/src/update.rs:load_embeddings_npy"]}
{"id": "C52", "title": "Padding and masks describe the documents", "statement": "pad_sequences returns, for any documents of equal width, an array in which block i of max_len rows holds the tokens of document i followed by padding rows, together with the document lengths; create_mask of those lengths is true exactly on the tokens.", "quantifier": "every list of documents", "why_tests_cant": "All length vectors.", "anchors": ["next-plaid/src/utils.rs:pad_sequences", "next-plaid/src/utils.rs:create_mask"]}
{"id": "C53", "title": "Binary metadata is encoded as standard base64", "statement": "The encoder used for BLOB columns produces RFC 4648 base64: decoding it gives the original bytes, and the length is 4*ceil(n/3).", "quantifier": "every byte string", "why_tests_cant": "All lengths mod 3.", "anchors": ["next-plaid/src/filtering.rs:base64_encode"]}
{"id": "C54", "title": "Quantiles lie between the data and respect order", "statement": "quantile(a,q) for finite non-empty a and q in [0,1] never panics and is linear interpolation between the two neighbouring order statistics around q*(n-1): in exact arithmetic it lies between them and is monotone in q; with rounding of relative error e it leaves that range by at most 4*e*max|a| (and can leave it). quantiles agrees with quantile pointwise.", "quantifier": "every finite array, every q", "why_tests_cant": "All sizes and q.", "anchors": ["next-plaid/src/utils.rs:quantile", "next-plaid/src/utils.rs:quantiles"]}
{"id": "C55", "title": "Centroid assignment picks a best centroid on every path", "statement": "assign_to_centroids returns one centroid index per embedding, in range, whose similarity is numerically largest among the finite similarities of that embedding, on the small-input path and on the vectorised path, for every batch size.", "quantifier": "every embedding list, centroid list, batch size and CPU path", "why_tests_cant": "The path taken depends on the product of the sizes and the CPU; tests cover a few shapes on one CPU.", "anchors": ["next-plaid/src/maxsim.rs: assign_to_centroids, simd_argmax, scalar_argmax"]}
{"id": "C56", "title": "Which documents get scored in full", "statement": "On an index reached by any history, a search probes the best n_ivf_probe centroids per query token (of the subset's own centroids, with the count scaled up by N/|subset|, when a subset is given; only centroids reaching the score threshold when one is given), takes as candidates exactly the documents of the subset having a token assigned to a probed centroid, ranks them by the centroid-level MaxSim score, scores in full the min(n_full_scores, max(n_full_scores/4, top_k)) best, and returns the top_k best of those.", "quantifier": "every history, query, parameter setting, subset, and every float arithmetic satisfying the kernel contract", "why_tests_cant": "Losing a candidate in an intermediate stage only changes the result for particular data; the final list still looks plausible.", "anchors": ["next-plaid/src/search.rs: search_one_mmap, search_one_mmap_batched, ivf_probe_batched, approximate_score_mmap, approximate_score_sparse"]}
{"id": "C57", "title": "Metadata reads back as stored", "statement": "After creating a metadata table from a list of JSON objects, or adding more to it, row i read back has for every key of object i the stored form of its value (numbers, texts as they are, booleans as 0/1, arrays and objects as JSON text) and null for the other columns; older rows keep their content; a failing update changes nothing.", "quantifier": "every list of JSON objects, every table reached by any history", "why_tests_cant": "Columns are discovered from the data, typed by their first occurrence and split over two tables; every key and type pattern matters.", "anchors": ["next-plaid/src/filtering.rs:create", "next-plaid/src/filtering.rs:update", "next-plaid/src/filtering.rs:infer_sql_type", "next-plaid/src/filtering.rs:get"]}
{"id": "C58", "title": "Filter conditions select exactly the rows that satisfy them", "statement": "where_condition returns, once each, exactly the ids of the rows for which the condition holds under SQL's three-valued logic, and it does return for every accepted condition given the right number of parameters when no two columns differ only by case.", "quantifier": "every condition of the grammar without REGEXP, every parameter list, every table reached by any history", "why_tests_cant": "Whether the two tables are joined depends on a substring test on the condition; all conditions and column splits matter.", "anchors": ["next-plaid/src/filtering.rs:where_condition", "next-plaid/src/filtering.rs:validate_condition"]}
{"id": "C59", "title": "Distinct values of a column", "statement": "get_distinct_strings returns each text stored in the column exactly once and nothing else; it succeeds exactly when the column holds only texts and nulls.", "quantifier": "every table reached by any history whose columns do not differ only by case, every column", "why_tests_cant": "The column may live in either of two tables.", "anchors": ["next-plaid/src/filtering.rs:get_distinct_strings"]}
{"id": "C60", "title": "Converting a fast-plaid index keeps its numbers", "statement": "The conversion of fast-plaid files rewrites each file as one of the new element type holding the same shape and numbers (i64 counts that fit in i32, half floats widened, bytes unchanged), and the rewritten file announces the new type, so a second conversion leaves it alone.", "quantifier": "every header layout the reader accepts, every shape and content", "why_tests_cant": "Header arithmetic and element widths for all shapes.", "anchors": ["next-plaid/src/mmap.rs:convert_i64_to_i32_npy", "next-plaid/src/mmap.rs:convert_f16_to_f32_npy", "next-plaid/src/mmap.rs:normalize_u8_npy", "next-plaid/src/mmap.rs:detect_npy_dtype"]}
{"id": "C61", "title": "A search request is answered query by query within its filter and limit", "statement": "A search response has one result per query, numbered in request order; each result has as many scores and metadata entries as ids, at most top_k of them, all among the documents selected by the request's filter (or its subset of ids when there is no filter). With embeddings only it is the index's result for that query; with text only it is the keyword result (empty if the keyword query fails); with both it is the fusion, with the requested method and weight, of the two lists fetched with three times the limit, or the embedding result alone if the keyword query fails. Invalid weights, fusion names, dimensions and query counts are refused.", "quantifier": "every request, metadata store reached by a history, filter without REGEXP, index and full-text contents, hash-map order and float arithmetic", "why_tests_cant": "The pairing, limits and filter must hold for every combination of modes, lists and contents.", "anchors": ["next-plaid-api/src/handlers/search.rs:search", "next-plaid-api/src/handlers/search.rs:fetch_metadata_for_docs", "next-plaid/src/text_search.rs:fuse_rrf", "next-plaid/src/text_search.rs:fuse_relative_score"]}
{"id": "C62", "title": "The colgrep index follows the files of the project", "statement": "After any history of index runs, between which files were added, edited, touched, deleted, ignored or un-ignored, every run succeeds and after the last one the documents of the index are exactly the code units of the current indexable files, each once and each shown with its own metadata. This needs: an edit changes the time or size of the file and its hash, the project always has at least one unit, no file that was once invalid UTF-8 became valid, and edited files did not lose all their units while nothing else gained any.", "quantifier": "every sequence of project states and runs (forced or not), every unit extractor, hash, batch size and thread interleaving of the pipeline", "why_tests_cant": "The result depends on the whole history of edits and on how the pipeline's threads interleave.", "anchors": ["colgrep/src/index/mod.rs:run_indexing", "colgrep/src/index/mod.rs:incremental_update", "colgrep/src/index/mod.rs:compute_update_plan", "colgrep/src/index/mod.rs:run_chunk_pipeline", "colgrep/src/index/mod.rs:cleanup_orphaned_entries", "colgrep/src/index/mod.rs:delete_files_from_index", "colgrep/src/index/state.rs:IndexState"]}
{"id": "C63", "title": "A forced colgrep run is exact whatever was there before", "statement": "A forced index run on a project with at least one unit succeeds and leaves exactly the units of the current files, each with its own metadata, whatever the index directory held before.", "quantifier": "every project, index directory (including damaged and half-built ones), batch size and interleaving", "why_tests_cant": "The prior directory state is arbitrary.", "anchors": ["colgrep/src/index/mod.rs:full_rebuild", "colgrep/src/index/mod.rs:run_indexing"]}
{"id": "C64", "title": "A killed colgrep update is completed by the next run", "statement": "If update runs on a changed project are killed, any number of times, at any point that is not between removing documents from the vector index and removing their rows, then the next complete run leaves the index up to date, provided the change added no file.", "quantifier": "every ordinary history, every change without added files, every number of killed runs, every kill point outside a deletion, every interleaving", "why_tests_cant": "Kill points, interleavings and repeated kills cannot be enumerated by tests.", "anchors": ["colgrep/src/index/mod.rs:incremental_update", "colgrep/src/index/mod.rs:repair_index_db_sync", "colgrep/src/index/mod.rs:reconcile_document_counts", "colgrep/src/index/state.rs:IndexState"]}
{"id": "C65", "title": "A killed first colgrep build is completed by the next run", "statement": "If first builds of a project are killed, any number of times, at points where the vector index and the metadata database both exist or neither does, then the next complete run leaves the index up to date with every unit exactly once.", "quantifier": "every project, every number of killed runs, every such kill point, batch size and interleaving", "why_tests_cant": "Kill points and repeated kills cannot be enumerated by tests.", "anchors": ["colgrep/src/index/mod.rs:build_resumable", "colgrep/src/index/mod.rs:flush_build_batch", "colgrep/src/index/mod.rs:run_indexing"]}
{"id": "C66", "title": "A worktree seeded from another worktree's index is up to date", "statement": "When a worktree without an index copies the index of a sibling worktree, the first run leaves exactly the units of the new worktree's own files, if files present in both have the same content.", "quantifier": "every ordinary history of the sibling, every worktree, batch size and interleaving", "why_tests_cant": "Every pair of worktrees and every history of the sibling.", "anchors": ["colgrep/src/index/mod.rs:try_seed_from_sibling_worktree", "colgrep/src/index/mod.rs:run_indexing"]}
{"id": "C67", "title": "A linkage matrix describes a tree", "statement": "Whenever linkage returns, it returns n-1 rows; each row joins two different clusters that exist at that point, smaller number first, and gives the size of the new cluster, which gets the next number. For single, complete, average and weighted linkage the distances of the rows never decrease. A distance vector of the wrong length is refused.", "quantifier": "every number of observations, every distance vector (finite distances for the four other methods), every arithmetic", "why_tests_cant": "The order in which the nearest-neighbour chain finds merges depends on all distances; tests fix a few matrices.", "anchors": ["next-plaid-onnx/src/hierarchy.rs:linkage", "next-plaid-onnx/src/hierarchy.rs:linkage_ward", "next-plaid-onnx/src/hierarchy.rs:linkage_generic"]}
{"id": "C68", "title": "Clustering and pooling end", "statement": "Ward linkage returns after finitely many steps for every finite distance matrix, and pooling returns for every document.", "quantifier": "every matrix of finite distances, every document", "why_tests_cant": "Termination over all inputs; a run that has not ended yet proves nothing.", "anchors": ["next-plaid-onnx/src/hierarchy.rs:linkage_ward", "next-plaid-onnx/src/hierarchy.rs:find_nearest_neighbor", "next-plaid-onnx/src/lib.rs:pool_embeddings_hierarchical"]}
{"id": "C69", "title": "Asking for k clusters gives k clusters", "statement": "For a linkage matrix and 1 <= k < n, the labels are exactly 1..k, and two observations have one label exactly when the first n-k merges join them; for k >= n every observation is alone; for k = 0 all are together.", "quantifier": "every tree, every k", "why_tests_cant": "All shapes of trees and all k; union-find with path compression hides errors that need particular shapes.", "anchors": ["next-plaid-onnx/src/hierarchy.rs:fcluster_maxclust", "next-plaid-onnx/src/hierarchy.rs:find_observation_in_cluster"]}
{"id": "C70", "title": "Each linkage method joins the clusters its distance names; a cut at a distance is exact", "statement": "Single, complete and, in exact arithmetic, average and weighted linkage: every row joins two clusters at the smallest distance present, measured by their closest members, their farthest members, the mean over all pairs of members, or the mean in which the two parts of a cluster count one half each. Ward linkage in exact arithmetic: every row joins two clusters each of which is the closest one of the other, measured by 2ab/(a+b) times the squared distance of their centroids. Cutting at distance t keeps exactly the merges up to t; for single linkage two observations share a cluster exactly when they are connected by steps of length at most t.", "quantifier": "every finite distance matrix, every threshold", "why_tests_cant": "Global optimality of every step, and connectivity, over all matrices.", "anchors": ["next-plaid-onnx/src/hierarchy.rs:linkage_generic", "next-plaid-onnx/src/hierarchy.rs:update_single", "next-plaid-onnx/src/hierarchy.rs:update_complete", "next-plaid-onnx/src/hierarchy.rs:fcluster_distance", "next-plaid-onnx/src/hierarchy.rs:update_average", "next-plaid-onnx/src/hierarchy.rs:update_weighted", "next-plaid-onnx/src/hierarchy.rs:linkage_ward"]}
{"id": "C71", "title": "The condensed distance matrix holds every pair once, where linkage reads it", "statement": "The condensed vector has n(n-1)/2 entries, and the entry linkage reads for the pair (i, j) is the distance of rows i and j.", "quantifier": "every n, every pair, every matrix of embeddings", "why_tests_cant": "An index formula over all n, i, j.", "anchors": ["next-plaid-onnx/src/hierarchy.rs:condensed_index", "next-plaid-onnx/src/hierarchy.rs:squareform_to_condensed", "next-plaid-onnx/src/hierarchy.rs:pdist_cosine"]}
{"id": "C72", "title": "Pooling replaces tokens by means of groups that divide them", "statement": "When pooling returns, the protected rows are unchanged and first; the other t tokens are divided into max(t/pool_factor, 1) groups, none empty and each token in one group, and the pooled rows are the means of the groups. A document already that small is unchanged, a pool factor of 1 or none changes nothing, and documents keep their places.", "quantifier": "every document, pool factor, number of protected tokens and arithmetic", "why_tests_cant": "The grouping depends on all token embeddings; tests check counts only.", "anchors": ["next-plaid-onnx/src/lib.rs:pool_embeddings_hierarchical", "next-plaid-onnx/src/lib.rs:pool_document_embeddings"]}
{"id": "C73", "title": "Every document gets its own embedding, in its place, on every path", "statement": "Encoding a list of documents returns one matrix per document, in order; each is the embedding of that document alone (its tokens cut to the document length with the last token kept, the prefix token inserted, skiplist tokens dropped), whatever the number of sessions, the batch size, the batching mode, the provider and the documents it is batched with, and whether the documents go through encode_documents or through prepared batches.", "quantifier": "every list of texts, every tokenizer that gives a text the same tokens alone and in a batch, every network that ignores padding, every configuration with a document length of at least 3, sessions, batch size and mode", "why_tests_cant": "Batch composition, padding and reordering range over all lists of texts.", "anchors": ["next-plaid-onnx/src/lib.rs:encode_documents_raw", "next-plaid-onnx/src/lib.rs:tokenize_documents_in_batches", "next-plaid-onnx/src/lib.rs:encode_prepared_document_batches_cancellable", "next-plaid-onnx/src/lib.rs:prepare_batch_from_tokenized_documents"]}
{"id": "C74", "title": "Query embeddings and their number of rows", "statement": "Every query gets the embedding of its own tokens, completed with mask tokens that are attended when expansion is on: exactly query_length rows with expansion, one row per token up to query_length without. Documents have at most document_length rows.", "quantifier": "every list of queries, tokenizer, network and configuration as in C73", "why_tests_cant": "Lengths and truncation over all texts.", "anchors": ["next-plaid-onnx/src/lib.rs:encode_queries", "next-plaid-onnx/src/lib.rs:prepare_batch_from_tokenizer_encodings", "next-plaid-onnx/src/lib.rs:encode_prepared_batch_with_session"]}
{"id": "C75", "title": "Encoding does not panic", "statement": "With lengths of at least 3, a batch size of at least 1 and encodings with at least one token, no encoding call panics: failures of tokenizer and network come back as errors.", "quantifier": "every list of texts, sessions, mode, cancellation, failing tokenizer or network", "why_tests_cant": "Index arithmetic on flat vectors for all lengths.", "anchors": ["next-plaid-onnx/src/lib.rs:encode_documents", "next-plaid-onnx/src/lib.rs:encode_queries", "next-plaid-onnx/src/lib.rs:encode_batch_with_session"]}
{"id": "C76", "title": "Prepared batches hold every document once, within the token budget", "statement": "The prepared batches hold every input position exactly once, none is empty, no row is longer than the document length, and rows times length is at most batch size times document length; dynamic batches have the document length or a multiple of 32 as length. The loop that plans the shapes ends.", "quantifier": "every list of texts, batch size, document length and mode", "why_tests_cant": "A greedy plan over all lengths and batch sizes.", "anchors": ["next-plaid-onnx/src/lib.rs:tokenize_documents_in_batches", "next-plaid-onnx/src/lib.rs:build_fixed_dynamic_shapes"]}
{"id": "C77", "title": "A stream delivers every chunk once in every schedule", "statement": "Whatever the interleaving of the session threads, the stream ends; when it has ended there is one result for every chunk; if none is an error, the chunks put in order of their index are the embeddings of the documents, and each offset is the number of documents before the chunk.", "quantifier": "every list of texts, number of sessions, batch size and schedule", "why_tests_cant": "All interleavings of the workers.", "anchors": ["next-plaid-onnx/src/lib.rs:encode_documents_raw_stream", "next-plaid-onnx/src/lib.rs:build_document_work_queue"]}
{"id": "C78", "title": "Prepared batches may be encoded in any order", "statement": "Encoding the prepared batches in any order returns the documents in input order; encoding only some of them returns an error or the embeddings of the first documents, never a document in another's place.", "quantifier": "every permutation and every selection of the batches, every list of texts", "why_tests_cant": "All permutations and subsets.", "anchors": ["next-plaid-onnx/src/lib.rs:encode_prepared_document_batches_cancellable"]}
{"id": "C79", "title": "--exclude keeps exactly the files no pattern names", "statement": "A search with --exclude considers exactly the units, in index order, of the files no given glob names: a glob names a file if it stands for the end of its path from a path component on (two stars and a slash: any directories; a star: anything within a component; a question mark: one character). A plain name excludes that file at any depth; a star and an ending exclude the files with that ending. Every glob is accepted by the engine. Patterns that begin with a slash or with two stars and a slash are matched from anywhere in the path on.", "quantifier": "every list of patterns, every index whose paths have no line feed, every regular-expression engine that agrees with the meaning of the fragment used", "why_tests_cant": "All patterns, with any metacharacters, and all paths; the translation to a regular expression has to escape every one.", "anchors": ["colgrep/src/index/mod.rs:glob_to_regex", "colgrep/src/index/mod.rs:filter_exclude_by_patterns"]}
{"id": "C80", "title": "--exclude-dir keeps exactly the files outside the named directories", "statement": "A search with --exclude-dir considers exactly the units, in index order, of the files that lie below no named directory. A plain name excludes the files with a directory of exactly that name on their path; a glob excludes directories it stands for, from the place its beginning asks for.", "quantifier": "every list of directory patterns, every index whose paths have no line feed, every faithful engine", "why_tests_cant": "All names, all metacharacters, all paths.", "anchors": ["colgrep/src/index/mod.rs:dir_pattern_to_regex", "colgrep/src/index/mod.rs:filter_exclude_by_dirs"]}
{"id": "C81", "title": "Braces stand for every choice, and --include keeps what a choice matches", "statement": "Expanding a pattern with groups in braces gives exactly the patterns obtained by choosing one alternative of every group, and ends on every text. --include considers exactly the units, in index order, of files some choice of some pattern matches at any depth.", "quantifier": "every pattern made of plain pieces and non-empty flat groups, every text for the ending, every glob library", "why_tests_cant": "Any number of groups and alternatives; unbalanced braces.", "anchors": ["colgrep/src/index/mod.rs:expand_braces", "colgrep/src/index/mod.rs:filter_by_file_patterns", "colgrep/src/index/mod.rs:build_glob_set"]}
{"id": "C82", "title": "A search below a directory considers every unit below it", "statement": "A search started in a subdirectory considers every unit of every file below it; for names without percent sign and underscore it considers exactly the files whose path begins with the name, letter case aside.", "quantifier": "every directory name and every index", "why_tests_cant": "All names, including those with characters the database treats specially.", "anchors": ["colgrep/src/index/mod.rs:filter_by_path_prefix"]}
{"id": "C83", "title": "-e selects exactly the units the pattern means", "statement": "A search with -e never fails because of the pattern, gives no unit twice, and always finds the units that contain the pattern exactly as typed. With plain texts separated by bars (with or without a backslash), each perhaps tied to the start or end of a line, braces included, it finds exactly the units in which one of the texts occurs, letter case aside unless -s is given, or the whole pattern as typed. With -F it finds exactly the units that contain the text; with -w exactly those that contain it as a whole word. The escaped bars, groups and brace pairs of the older notation become operators and every other character, escaped or not, stays; repetitions reach the engine whole.", "quantifier": "every pattern for the first part, every list of plain pieces for the second, every index, every faithful engine, every order of hash sets", "why_tests_cant": "All patterns and all texts; three rewritings of the pattern are composed before an engine sees it.", "anchors": ["colgrep/src/index/mod.rs:bre_to_ere", "colgrep/src/index/mod.rs:escape_literal_braces", "colgrep/src/index/mod.rs:filter_by_text_pattern_with_options"]}
{"id": "C84", "title": "Lines shown for -e are the matching ones, with their numbers", "statement": "Every line shown is a line of the file with its own number, in order. If a unit was selected by a regular expression that matches no line feed and not the empty text, the lines shown for its file are exactly those on which the expression is found, and there is at least one; the same for plain texts and for -F.", "quantifier": "every text without carriage return, every pattern of the fragment, every unit made of whole lines, every faithful engine", "why_tests_cant": "The unit is selected by a multi-line match on its text, the lines by single-line matches on the file; they agree only by an argument about every text.", "anchors": ["colgrep/src/commands/search.rs:PatternMatcher::new", "colgrep/src/commands/search.rs:PatternMatcher::find_matches_in_unit", "colgrep/src/commands/search.rs:PatternMatcher::find_matches_in_file"]}
{"id": "C86", "title": "Ranking of colgrep: each file once, with its best unit, best file first", "statement": "A hybrid search returns at most k files, and k if its candidates come from that many; no file twice; files in the order of their best unit; each with that unit and the lines from the first to the last candidate of the file. Candidates are ids that were found and are allowed, with their own units. The boosts go to exactly the units they are meant for, never lower a score that is not negative, and do not depend on the order of a hash map. The search fails only if the search of the index fails.", "quantifier": "every index, query, k, subset, fraction, arithmetic of scores with the order of numbers, every iteration order of the hash maps", "why_tests_cant": "Ties, several units of a file, the cut at k and hash map orders combine without bound; the tests look at a few lists.", "anchors": ["colgrep/src/index/mod.rs:search_hybrid_with_embedding", "colgrep/src/index/mod.rs:collapse_by_file", "colgrep/src/ranking.rs:apply_definition_boost", "colgrep/src/ranking.rs:apply_path_stem_boost", "colgrep/src/ranking.rs:apply_file_coherence_boost", "colgrep/src/ranking.rs:should_apply_path_penalty"]}
{"id": "C87", "title": "Filters of a search combine: every result passes all of them", "statement": "With any combination of subdirectory, -e, --include, file, --exclude and --exclude-dir, every result of a search shows the unit of an id selected by each option given; the search is restricted to exactly these ids, and is not made if there are none. With -e and room for all matches, the file of every match that the search of the index gives is listed.", "quantifier": "every index, every list of ids per option, every query, k and flag, every hash map order", "why_tests_cant": "Six optional filters combine with two searches, fusion, boosts and merging; leaving out one intersection shows only for some combination.", "anchors": ["colgrep/src/commands/search.rs:search_single_path", "colgrep/src/index/mod.rs:search_hybrid_with_embedding", "colgrep/src/index/mod.rs:search_with_embedding"]}
{"id": "C88", "title": "The printed list: order, -k, several paths", "statement": "The command prints the best k results of all paths (of code, with --code-only) by score, then file, then lines. On one path without -e each file is listed once, with its best unit and the lines of all of them; there are k files, or all files the searches found if these are fewer; the list does not depend on the order of the hash map in which the searches are merged. A path that fails makes the command fail; missing paths do so only if there is no result.", "quantifier": "every list of paths and of results, every k, every order of paths and arithmetic of scores, every merge order", "why_tests_cant": "The order must be total for every list with ties, and the merge independent of a randomised order.", "anchors": ["colgrep/src/commands/search.rs:cmd_search", "colgrep/src/commands/search.rs:search_single_path", "colgrep/src/commands/search.rs:cmp_results_deterministic"]}
{"id": "C85", "title": "Units of colgrep's index come back as they were parsed", "statement": "Storing the units of a run never fails, and over any history of runs and deletions the unit a search shows for a document is the one stored for it, in every field, unless one of its texts reads as a JSON array; nothing else is ever shown.", "quantifier": "every history of first run, later runs and deletions, every unit with a known language and type, every engine and JSON parser that read back lists of strings", "why_tests_cant": "Names, code and docstrings are arbitrary texts that go through SQLite and back through guesses about their type; positions move with every deletion.", "anchors": ["colgrep/src/parser/types.rs:CodeUnit", "colgrep/src/index/mod.rs:fix_sqlite_types", "colgrep/src/index/mod.rs:search_with_embedding", "next-plaid/src/filtering.rs:create", "next-plaid/src/filtering.rs:update", "next-plaid/src/filtering.rs:delete"]}
{"id": "C89", "title": "A source file is cut into units without loss", "statement": "A source file nested no deeper than the limit is cut so that every line that is not blank is in a unit, each unit's code is the text of the lines it names, each named function and class and each constant outside classes that the search looks at is a unit with its attributes, and the remaining pieces lie between these units and touch none of them. A deeper file gives no unit; nothing panics.", "quantifier": "every syntax tree whose rows lie in the file, every grammar, every text, every depth limit", "why_tests_cant": "Trees, nesting and the gaps between units are unbounded; coverage of all lines is a claim about every file.", "anchors": ["colgrep/src/parser/mod.rs:extract_units", "colgrep/src/parser/mod.rs:extract_from_node", "colgrep/src/parser/ast.rs:find_start_with_attributes", "colgrep/src/parser/extract.rs:fill_raw_code_gaps"]}
{"id": "C90", "title": "Text, HTML, Vue and Svelte files: one piece and the units of scripts in place", "statement": "A text file that is not blank is one unit with all its lines. In any HTML, Vue or Svelte file the functions, classes and constants of scripts show the lines of the file they name. In a page whose tags stand alone on their lines every line that is not blank is in the unit of the page or in a script, and every function, class and constant of every script is a unit; a Vue template is one unit with its lines and numbers.", "quantifier": "every text, every parser of scripts whose trees lie in the script, every depth limit", "why_tests_cant": "Files mix tags, scripts and blank lines in any order; line numbers must be right for all of them.", "anchors": ["colgrep/src/parser/text.rs:extract_text_units", "colgrep/src/parser/html.rs:extract_html_units", "colgrep/src/parser/vue.rs:extract_vue_units", "colgrep/src/parser/svelte.rs:extract_svelte_units"]}
{"id": "C91", "title": "Each unit names its callers", "statement": "In the units of a run each unit names exactly the units of the run that call its name, sorted and each once, and is otherwise as it was parsed; the order of the hash map makes no difference.", "quantifier": "every list of units, every order of the map", "why_tests_cant": "The result must not depend on the iteration order of a hash map or on the schedule of the parallel pass, and must list all callers among any number of units.", "anchors": ["colgrep/src/parser/call_graph.rs:build_call_graph"]}
{"id": "C92", "title": "Which files of a project are indexed", "statement": "A regular file is indexed exactly if no directory on the way to it and not the file itself is hidden by git or has a name that is left out (hidden names, the built-in list, --ignore) without being forced, it is within the size limit and its language is known; each once. Forcing a pattern never costs a file and ignoring one never brings one in; a forced directory name brings in what the rule about this name kept out. After a forced run the documents are the units of these files.", "quantifier": "every directory tree, every list of ignored and forced patterns, every git rule", "why_tests_cant": "Trees, names and pattern lists are unbounded, and the walk prunes whole directories: the unit tests look at the rule for one path, not at what the walk reaches.", "anchors": ["colgrep/src/index/mod.rs:scan_files", "colgrep/src/index/mod.rs:should_ignore", "colgrep/src/index/mod.rs:is_within_project_root", "colgrep/src/parser/language.rs:detect_language"]}
{"id": "C93", "title": "What the command prints of its results", "statement": "Of a result, if lines that match (the pattern, else the query, else the representative lines) lie in its unit, exactly the lines of the unit within half the context of one and the unit's head are printed, in order, each once, with their numbers and texts in the file; otherwise the beginning of the unit up to the limit. Every result is printed once, under its file; the files are in the order of their best results, code before text, and the results of a file by line. The compact listing of -e gives of each file with a result all matching lines, by number, the files in the same order.", "quantifier": "every file, unit, list of matching lines, context, limit and list of results", "why_tests_cant": "Ranges are merged, clipped and extended by the head, with sums that may leave usize; the number of matches and their distances are unbounded.", "anchors": ["colgrep/src/display.rs:calc_display_ranges", "colgrep/src/display.rs:print_highlighted_ranges", "colgrep/src/display.rs:group_results_by_file", "colgrep/src/commands/search.rs:cmd_search"]}
{"id": "C94", "title": "Building an index in stages", "statement": "Preparing the codec from the documents, encoding them batch by batch and writing the index at the end leaves exactly the files that creating the index at once leaves, and succeeds exactly when that does. With any sample for the codec and any division into batches, even empty ones, the index shows the documents in order of arrival, can be opened if it holds a token, and behaves as a list under every later sequence of updates and deletions. Both ways of creating succeed for every collection whose vectors fill whole bytes.", "quantifier": "every collection, sample, division into batches, codec, directory and later history", "why_tests_cant": "The offsets of the chunks, the inverted file and the metadata are computed by two different loops; equality has to hold for every number and size of batches.", "anchors": ["next-plaid/src/index.rs:prepare_codec_artifacts", "next-plaid/src/index.rs:encode_index_chunk", "next-plaid/src/index.rs:write_index_from_encoded_chunks", "next-plaid/src/index.rs:create_index_files", "colgrep/src/index/mod.rs:run_index_stage"]}
{"id": "C95", "title": "Threads of colgrep's indexing pipeline", "statement": "However its threads are scheduled, whatever fails and whenever Ctrl-C is pressed, colgrep's indexing pipeline never gets stuck and ends. When it returns without an error, the units of a beginning of the list it was given have each the embedding of their own text as a document and their own row of metadata under the same number, and without Ctrl-C all units have. At every moment the documents and the rows are those of beginnings of the list, and when an index is updated no row is ahead of its document. Putting the sample for k-means first loses and repeats no unit.", "quantifier": "every list of chunks, schedule of the threads, failure of a stage, moment of interruption and moment of observation", "why_tests_cant": "Six to eight threads with bounded queues have a number of interleavings that tests sample once each; being stuck or out of order depends on which one happens.", "anchors": ["colgrep/src/index/mod.rs:run_chunk_pipeline", "colgrep/src/index/mod.rs:run_index_stage", "colgrep/src/index/mod.rs:run_metadata_stage", "colgrep/src/index/mod.rs:prepare_deduplicated_chunk", "colgrep/src/index/mod.rs:prepare_units_for_encoding"]}
{"id": "C96", "title": "Metadata reads through cached connections show what was written", "statement": "Read connections to metadata databases are kept per path for the life of the process. In every history of creating, updating and reading databases in which no directory is removed or renamed after it was read, each read shows what was last written at its path; and however reading and writing threads are interleaved, as long as no database file is removed each query shows the database as it is at that moment.", "quantifier": "every history of operations on any paths, every interleaving of threads", "why_tests_cant": "Whether a connection in the table belongs to the file now at the path depends on the whole history of the process and on the interleaving of its threads.", "anchors": ["next-plaid/src/filtering.rs:read_connection", "next-plaid/src/filtering.rs:invalidate_read_connection", "next-plaid/src/filtering.rs:create", "next-plaid-api/src/handlers/documents.rs:delete_index", "colgrep/src/index/mod.rs:full_rebuild"]}
{"id": "C97", "title": "Metadata files of earlier layouts are read and updated like current ones; kills leave the state before or after", "statement": "A metadata file written by an earlier release (one table; id as primary key or as a plain column) is read as the same objects in the same order as a current file with the same documents, and stays so through every history of updates and deletions, each of which gives the same answer or is refused and changes nothing. A process killed at any moment of an update or deletion, migration of the old layout included, leaves a file that reads as before the operation or as after it.", "quantifier": "every table of an earlier layout, every history of updates and deletions, every commit at which the process may be killed", "why_tests_cant": "The layouts differ in every query; equality of what is read must hold for all columns, values and histories, and the states a killed process leaves are not reached by a test that runs to its end.", "anchors": ["next-plaid/src/filtering.rs:get", "next-plaid/src/filtering.rs:update", "next-plaid/src/filtering.rs:delete", "next-plaid/src/filtering.rs:ensure_fast_subset_schema", "next-plaid/src/filtering.rs:create"]}
{"id": "C98", "title": "Installing and uninstalling the agent integrations keep the user's own files", "statement": "In AGENTS.md, whatever installs and uninstalls came before, there is one colgrep section after an install, placed after the user's text, and after an uninstall exactly the user's text is left (but for blank ends; no file if there was none), provided the user's text quotes neither marker. In Codex's config.toml an install adds the data directory once to writable_roots and changes no other key; an uninstall takes it out and gives back the previous file unless its list, table or whole content was empty. In settings.json an uninstall removes every matcher that runs colgrep, keeps the others in order and all other settings, and a second run changes nothing.", "quantifier": "every user text without the markers, every TOML document and settings value, every sequence of installs and uninstalls", "why_tests_cant": "The user's files are arbitrary and the integrations may be installed, upgraded and removed in any order; a test checks a few files.", "anchors": ["colgrep/src/install/codex.rs:add_to_agents_md", "colgrep/src/install/codex.rs:remove_from_agents_md", "colgrep/src/install/codex.rs:add_sandbox_writable_root", "colgrep/src/install/codex.rs:remove_sandbox_writable_root", "colgrep/src/install/opencode.rs:add_to_agents_md", "colgrep/src/install/hermes.rs:add_to_agents_md", "colgrep/src/install/claude_code.rs:remove_hooks_from_settings"]}
{"id": "C99", "title": "Several colgrep processes on one index", "statement": "When any number of processes index, search and count searches on one index at the same time, and any of them is killed anywhere, at most one is changing the index. As long as no process clears or removes the index and no other process saves the state between a search's reading and writing of its count, what they leave is what runs one after the other (complete or killed) leave, but for the number of searches; without kills the runs took effect in the order in which they got the lock, so the index is up to date with the files the last run found. A search always has a move of its own: it never waits for the lock.", "quantifier": "every set of processes, every interleaving of their file system calls, every kill point, every project", "why_tests_cant": "The interleavings are unboundedly many, and the harmful ones need one process to stop between two adjacent calls of its own.", "anchors": ["colgrep/src/index/paths.rs:acquire_index_lock", "colgrep/src/index/paths.rs:try_acquire_index_lock", "colgrep/src/index/mod.rs:try_index", "colgrep/src/index/mod.rs:index", "colgrep/src/index/state.rs:save", "colgrep/src/commands/search.rs:cmd_search", "colgrep/src/commands/clear.rs:cmd_clear", "colgrep/src/commands/stats.rs:cmd_reset_stats"]}
{"id": "C100", "title": "The life of an index in the server", "statement": "Requests made one after the other (declare, update, add, delete documents, configure, search, delete the index, declare again) are answered as by a plain record of a configuration and a list of documents, whatever is cached. Requests at the same time: every search is answered from one version that was on disk as a whole; while a loaded index stays in place and its writers use one lock, a search shows exactly the changes published so far, in their order; accepted updates are published whole, once and in the order of acceptance; the configuration used is the one set last; with no change under way the files hold what searches show. No request waits for ever: one without an answer can move or waits for a lock whose holder can move, each makes a bounded number of moves, and when nothing can move all are answered and every accepted update was processed.", "quantifier": "every start from disk, every sequence of requests, every interleaving of requests and workers, every division of the queue into batches", "why_tests_cant": "The caches are filled and dropped by racing threads; the bad schedules need a thread to stop between two adjacent lines, and there are unboundedly many.", "anchors": ["next-plaid-api/src/state.rs:get_index_slot", "next-plaid-api/src/state.rs:load_index", "next-plaid-api/src/state.rs:reload_index", "next-plaid-api/src/state.rs:register_index", "next-plaid-api/src/state.rs:get_index_config", "next-plaid-api/src/handlers/documents.rs:delete_index", "next-plaid-api/src/handlers/documents.rs:create_index", "next-plaid-api/src/handlers/documents.rs:process_batch", "next-plaid-api/src/handlers/documents.rs:process_delete_batch", "next-plaid-api/src/handlers/documents.rs:update_index_config"]}
{"id": "C101", "title": "Which index a colgrep command uses", "statement": "After any history of edits, searches, init and clear commands and builds that end in any way, a search in a directory uses the directory's own index if it has one, else (within the working directory) that of the nearest directory above that was recorded as indexed with the same model, else a new one of its own; the order in which the data directory is listed does not matter. It changes no other index, and everything it shows was at some time a file of that project. When its update completes it considers every present file of the project below the directory that passes the filters, with its present text, and nothing else unless a sibling looks alike under LIKE or a pattern **/name names something absent from the directory; the same search without update then shows the same. Status names the project that a search would use. Clear removes one index, of the directory or else of the nearest recorded one above, and never one of another model. Precondition: the hashed names of index directories do not collide.", "quantifier": "for all histories (edits, searches, init, clear, killed builds and removals), directories, models, working directories, patterns, file rules and collision-free naming functions", "why_tests_cant": "The choice depends on everything that was ever indexed on the machine, in any order, and on builds stopped at any point; tests cover a few trees.", "anchors": ["colgrep/src/index/paths.rs: find_index_for_project, index_exists, find_parent_index, compute_index_dir_name", "colgrep/src/commands/search.rs: search_single_path (choice of index), is_external_project_path", "colgrep/src/scoring.rs: should_search_from_root", "colgrep/src/commands/init.rs: cmd_init", "colgrep/src/commands/clear.rs: cmd_clear", "colgrep/src/commands/status.rs: cmd_status"]}
{"id": "C102", "title": "An open index does not change under its reader", "statement": "While processes load, create, update, append to and delete from one index directory in any interleaving of their system calls, and die at any point, the centroids, codes and residuals that a loaded index maps stay exactly what they were when it was loaded, and each is a complete file as one writer or one merge meant it. No operation of the library rewrites the centroids in place. A load with no write between its first and last read shows one state of the directory. Preconditions: the index was made by this library (no conversion of a fast-plaid index) and the directory is not removed.", "quantifier": "for all numbers of processes, schedules of system calls, kill points, contents, operations, directories and external functions", "why_tests_cant": "What a map shows depends on the interleaving of every process's system calls with merges, removals and kills; tests run one process.", "anchors": ["next-plaid/src/index.rs: MmapIndex::load, release_mmaps, delete_with_options, update, reload", "next-plaid/src/mmap.rs: merge_codes_chunks, merge_residuals_chunks, clear_merged_files, convert_f16_to_f32_npy, FileLockGuard", "next-plaid/src/utils.rs: atomic_write_file", "next-plaid/src/codec.rs: load_mmap_from_dir", "next-plaid/src/update.rs: update_index, update_centroids", "next-plaid/src/delete.rs: delete_from_index_impl"]}
{"id": "C103", "title": "The texts given to the model for a code unit and for a query with a pattern", "statement": "The text embedded for a code unit has at most 8192 characters. If it fits, it is the code alone for constants and raw code, and else one line for each thing known about the unit, the file, and the code; if not, it is the beginning of that, cut before white space, and a marker, and a description that leaves room for the marker is kept whole with the file line. The file line holds the words of the path up to its last dot (last four components; separated by separators, _ - . and case humps) in lower case and the name of the file. A query given with a pattern starts with the query as typed; the words added are those the pattern says, except those of the query in any case.", "quantifier": "for all code units, paths, queries, patterns, Unicode tables", "why_tests_cant": "Lengths, characters, white space and pattern syntax are unbounded; tests try a few short units and patterns.", "anchors": ["colgrep/src/embed.rs: build_embedding_text, truncate_text, normalize_path_for_embedding, shorten_path", "colgrep/src/commands/search.rs: strip_regex_for_semantic, merge_query_with_pattern"]}
{"id": "C104", "title": "The saved settings are the last ones asked for", "statement": "After any sequence of settings and set-model commands that each ran to its end, the settings file can be read, and every setting has the value of the last command that asked for one, or its built-in value; a pattern is in the ignore (or force-include) list exactly if a command put it there and none after it took it out. A search uses its command line first, then for alpha the environment, then the saved setting, then the built-in value. Showing the settings, and a model that cannot be used, change nothing. Exceptions: whether paths are relative; alpha that is not a number.", "quantifier": "for all histories of commands, all options of each, all search options, builds and environments", "why_tests_cant": "The value in use depends on the whole history of commands; tests set one field of a fresh configuration in memory.", "anchors": ["colgrep/src/config.rs: Config, load, save", "colgrep/src/commands/config.rs: cmd_config, cmd_set_model", "colgrep/src/commands/search.rs: resolve_top_k, resolve_context_lines, resolve_pool_factor, resolve_model, cmd_search"]}
{"id": "C105", "title": "How the words of a search are read", "statement": "A search line is read in exactly one of eight ways: query, or query and paths, or pattern, query and paths, with -e or without. Every word given becomes the query, the pattern or a path, none is lost, and nothing is made up but the current directory when no path was given; paths keep their order.", "quantifier": "for all words, patterns and sets of existing files", "why_tests_cant": "The reading depends on every word's form and on which names exist; tests do not reach main.", "anchors": ["colgrep/src/main.rs: main (Search, default search), looks_like_path"]}
{"id": "C106", "title": "Parsing from Python: units, merged unit, language names", "statement": "The Python package's parse_code gives the units of the file in their order with all their fields and the text colgrep gives to the model. With merge=True it gives one unit: no unit as an empty one, one unit as it is, more as one named after the file whose code and texts are those of the units in line order separated by blank lines, whose lists hold each entry once in order of first appearance, and whose counts and flags combine those of the units; nothing of any unit is lost. Naming the language that detect_language reports changes nothing, and every language listed is accepted in upper or lower case.", "quantifier": "for all source texts, file names and units extracted from them, all Unicode tables that agree with ASCII", "why_tests_cant": "Merging has to keep every unit of every file; tests of the package look at a few snippets.", "anchors": ["colgrep/python-sdk/src/lib.rs: parse_code, parse_code_with_language, merge_units, detect_language, supported_languages", "colgrep/src/parser/types.rs: Language::from_str"]}
{"id": "C107", "title": "What is recorded of a piece of code: comment, calls, variables, control flow, imports, parent", "statement": "Of every piece of code colgrep records: whether it loops, branches and handles errors (true exactly when a node of such a kind stands anywhere in it) and a complexity of one plus its decision nodes; the last name of every call at any depth whose name begins with a letter, sorted, each once; every variable declared, every module imported by a statement of the file down to the depth limit, and every module used as the object of an attribute access, each once; as imports of the unit, those of the file it uses, in the file's order; the nearest parent class; the plain identifiers in its parameter list other than self, this and cls; and as documentation exactly the run of comment lines directly above it, the words of the block comment above it, or the string that is the first statement of its body.", "quantifier": "for all syntax trees, texts and languages of the tables, all depth limits, all Unicode tables that agree with ASCII", "why_tests_cant": "Syntax trees are unbounded in depth and shape; tests look at a few snippets of a few languages.", "anchors": ["colgrep/src/parser/analysis.rs: extract_docstring, extract_parameters, extract_return_type, extract_function_calls, extract_control_flow, extract_variables, extract_file_imports, extract_used_modules, extract_parent_class", "colgrep/src/parser/extract.rs: extract_function (imports of a unit)"]}
{"id": "C108", "title": "Hits in tests, compatibility code and examples rank lower, nothing ranks higher for its path", "statement": "The score of a hit is multiplied by a penalty that depends on the path of its file alone: a strong factor if the name of the file is that of a test in its language or a directory on the path is one of tests, another if a directory is for compatibility, another for examples, a mild factor for .d.ts files and a moderate one for __init__.py and package-info.java; each at most once, whatever slashes separate the path. With the factors between nothing and one no score goes up and none below nothing; every other file keeps its score. The factors are those of the environment where they can be read, else the defaults.", "quantifier": "for all paths, all environments, all arithmetics whose products with numbers up to one do not grow, all Unicode tables that agree with ASCII", "why_tests_cant": "The expressions have some seventy alternatives and must neither miss nor catch names of any other form; tests try a dozen paths.", "anchors": ["colgrep/src/ranking.rs: file_path_penalty, test_file_re, test_dir_re, compat_dir_re, examples_dir_re, env_f32, should_apply_path_penalty"]}
{"id": "C109", "title": "Centroids come from whole documents of a sample, at least one and never more than its tokens", "statement": "Computing centroids over documents takes a sample of whole documents, each at most once, as large as asked for or as the rule for the sample says; trains on exactly their tokens; and gives at least one centroid and at most one per sampled token, all as wide as the tokens and divided by their norms. The number is the one asked for, or, if none is, the largest power of two not above sixteen times the root of the estimated number of tokens, both cut at the tokens sampled. No documents, no tokens, an empty sample or no centroid asked for are errors. The estimate of the number of partitions is the number of centroids when documents are equally long and the arithmetic is exact.", "quantifier": "for all lists of documents, all configurations, all shuffles that rearrange, all trainings that return as many centroids as asked for", "why_tests_cant": "Sample sizes and powers of two depend on counts of documents and tokens; tests try a handful, and the estimate differs from the computation only for some of them.", "anchors": ["next-plaid/src/kmeans.rs: compute_kmeans, estimate_num_partitions, compute_centroids_from_documents, ComputeKmeansConfig", "next-plaid/src/index.rs: create_index_with_kmeans_files", "next-plaid/src/update.rs: update_centroids"]}
{"id": "C110", "title": "The Python client asks the server for exactly what its caller passes", "statement": "A search through the Python client is the server's search of the queries, parameters, subset, filter and text queries passed: the same answers and the same refusals, for queries given as nested lists, as dicts or as texts, as long as embeddings are rectangular rows of finite numbers and the caller gives a subset or a filter, not empty and not both. Index names without slashes, question marks, hash and percent signs are the names the server acts on. Every answer other than 200, 201 and 202 raises, in the class for its status. Encodings are read back bit for bit. Documents are accepted exactly when as many metadata come with them, and arrive unchanged.", "quantifier": "for all calls of the client, all states of the server, all embeddings, index names, statuses and bodies", "why_tests_cant": "The client picks one of four endpoints and drops arguments by their truth value; the tests mock the server, so no test sees whether the two sides agree on what was asked.", "anchors": ["next-plaid-api/python-sdk/next_plaid_client/_base.py: _is_text_input, _encode_embeddings_b64, _build_url, _handle_response, _prepare_search_payload, _prepare_filtered_search_payload, _prepare_documents_payload", "next-plaid-api/python-sdk/next_plaid_client/client.py: search, add, get_metadata_by_ids, delete, delete_index", "next-plaid-api/python-sdk/next_plaid_client/models.py: EncodeResponse.from_dict, SearchParams", "next-plaid-api/src/models.rs", "next-plaid-api/src/handlers/search.rs: search_filtered, search_with_encoding, search_filtered_with_encoding", "next-plaid-api/src/handlers/documents.rs: update_index, update_index_with_encoding", "next-plaid-api/src/main.rs: routes"]}
{"id": "C111", "title": "The units of a QML file are its objects and their members, each once and in order", "statement": "A QML file whose syntax tree is nested within the limit gives one unit for every object, inline component, property, signal, signal handler, function, constant and enumeration that is reached by going down through objects and components, each exactly once, in the order of the file, with its name, its lines, its code, its signature, the name of the nearest object around it, the variables of an object (properties and ids, each once) and the imports a function mentions. A file nested deeper than the limit gives none. The imports are the module and alias of every import line, each once.", "quantifier": "for all syntax trees, lines, depth limits and all results of the script analysis", "why_tests_cant": "The tests parse a few small files; which nodes are reached, with which parent and at which depth, is a property of every tree.", "anchors": ["colgrep/src/parser/qml.rs: extract_qml_units, extract_from_node, recurse_initializer, extract_object_definition, extract_inline_component, extract_signal, extract_property, extract_handler_binding, extract_object_variables, extract_qml_imports, imports_used_in_code"]}
{"id": "C112", "title": "What is recorded of declarations: names, types, type parameters and methods", "statement": "A declaration of a constant is recorded as exactly one unit: its name is the text found at the place its language prescribes (the first declarator, specification, element or pattern that has a name), its type the text of its annotation if there is one; in Python it is recorded only if the name has a capital letter and nothing but capital letters, digits and underscores; in JavaScript, TypeScript, Vue and Svelte it is a function if an arrow function stands anywhere in it, and then the first one in reading order is the one described. The type parameters of a class are the names of the outermost identifiers in its clause of type parameters, each once and in order, without keywords; in C++ the names of types anywhere in the template. A function is a method exactly when it is in a class, has a Go receiver, or stands directly in a Rust impl block, and is then recorded with the name of that type.", "quantifier": "for all languages and all syntax trees, whatever is around the declaration", "why_tests_cant": "The tests parse a few declarations per language; which node gives the name, and that no other does, is a property of every tree.", "anchors": ["colgrep/src/parser/extract.rs: extract_constant, get_constant_name, is_python_constant_name, get_constant_type, find_arrow_function, extract_class_type_parameters, extract_type_param_names, extract_cpp_template_params, determine_function_type, extract_go_receiver_type, extract_rust_impl_type"]}
{"id": "C113", "title": "What functions, classes and style rules are called, and where the body of a class is", "statement": "A function, class or rule is called exactly by the text at the place its language prescribes, and has no name if that place is missing or, except for C and C++ types, empty. A CSS rule is called by its selectors, an animation by its name, a media or support rule by its queries, in order, with single blanks between words, so on one line; an import, charset or namespace rule by its at-word. The body of a class is the field or first child its language prescribes. Outside Elixir, Haskell and OCaml no node is at once a function and a class, a function and a constant, or a class and a constant.", "quantifier": "for all languages and all syntax trees", "why_tests_cant": "The tests parse a few declarations per language; that exactly one place gives the name is a property of every tree.", "anchors": ["colgrep/src/parser/ast.rs: is_function_node, is_class_node, is_constant_node, find_class_body, get_node_name, get_css_unit_name"]}
{"id": "C114", "title": "Which processor a run uses and whether its output has colour", "statement": "The processor asked for by the environment is the CPU if one of its three variables says 1 or true (in any letters) and none of the GPU's does, and the other way round; asking for both is an error, before anything else is done. A run that starts uses the processor its flag names, or else that of the environment; from then on the tool and both libraries read that same choice, whatever the variables held before, and no other variable has changed except a CoreML cache directory that was not set. The default batch and session sizes are those of that processor. Colour is written exactly if --color=always, or if --color=auto and CLICOLOR_FORCE is neither empty nor 0, or else NO_COLOR is empty or unset, CLICOLOR is not 0 and the output is a terminal.", "quantifier": "for all environments, flags, settings and core counts", "why_tests_cant": "The tests set one or two variables; precedence and the absence of a leftover conflicting variable are properties of every environment.", "anchors": ["colgrep/src/acceleration.rs: env_acceleration_mode, env_acceleration_mode_lossy, apply_acceleration_mode", "colgrep/src/main.rs: main, apply_coreml_cache_dir", "colgrep/src/color.rs: init, auto_detect", "colgrep/src/config.rs: get_default_batch_size, get_default_parallel_sessions", "next-plaid/src/lib.rs: is_force_cpu, is_force_gpu", "next-plaid-onnx/src/lib.rs: is_force_cpu, is_force_gpu"]}
{"id": "C115", "title": "Which indices a server lists, and what its health report says of them", "statement": "The list of indices holds exactly the names of the directories, not links, in the directory of indices that hold a metadata.json or a config.json, in order, each once, whatever order the system hands them out in; it is empty if the directory cannot be read. The health report speaks, in the same order, of exactly those of them whose metadata.json is absent or readable JSON, and its figures are those of metadata.json, or those of an empty index with the stored settings if there is none.", "quantifier": "for all contents of the directory of indices", "why_tests_cant": "The order in which a system hands out directory entries, and the entries themselves, are not bounded.", "anchors": ["next-plaid-api/src/state.rs: list_all, get_all_index_summaries, get_index_summary", "next-plaid-api/src/handlers/documents.rs: list_indices", "next-plaid-api/src/main.rs: health"]}
{"id": "C116", "title": "How the server reads its command line and its limits", "statement": "The server runs exactly if its arguments are a row of known options, each followed by its value where it takes one, and numbers where numbers are due (a port below 65536, counts below 2^64); it then uses the last value of each option and the stated default of every other. It shows its help and ends with code 0 exactly if --help stands after such a row, and ends with code 1 otherwise. A limit taken from the environment is the number its variable holds, or the default if it is not set or holds no such number. Requests are limited only if RATE_LIMIT_ENABLED says true, 1 or yes, with the quota of the two variables.", "quantifier": "for all lists of arguments and all values of the variables", "why_tests_cant": "There are no tests of the argument loop; which command lines are accepted is a statement about all lists of words.", "anchors": ["next-plaid-api/src/main.rs: main, build_router", "next-plaid-api/src/handlers/documents.rs: max_queued_tasks_per_index, max_batch_documents, batch_channel_size, max_delete_batch_conditions", "next-plaid-api/src/handlers/encode.rs: max_batch_texts, encode_batch_channel_size"]}
{"id": "C117", "title": "An index copied from a sibling worktree is the same index", "statement": "The copy of a directory to a place where nothing is has exactly the paths of the source, and the same bytes at each; it succeeds exactly if every link below the source leads to a file. A copy over something leaves what the source does not name. The siblings of a project are the roots git lists that still resolve, in the order git lists them, without the project itself, each with the index directory of its own root; without git there are none.", "quantifier": "for all directory trees, all destinations, all answers of git, all ways the file system resolves paths", "why_tests_cant": "The test copies one tree of two files and lists one pair of worktrees; equality at every path of every tree is an induction over trees.", "anchors": ["colgrep/src/index/worktree.rs: copy_dir_all, list_worktree_roots, seed_candidates"]}
{"id": "C118", "title": "Ctrl+C is never lost, waits for critical sections, and is acknowledged once", "statement": "From the first press of Ctrl+C on, and not before, an interrupt is seen. A thread that asks whether to stop while any critical section is open is told to go on; once none is open, the next question after a press is answered with yes, whatever other threads do meanwhile; nobody is told to stop before a press. The first press is acknowledged by one message, later ones by none, and the message tells whether a section is open when it is chosen.", "quantifier": "for all interleavings of the accesses of any number of threads, all nestings of critical sections, any number of presses", "why_tests_cant": "A unit test runs one schedule on one thread; the claims are about every interleaving of single memory accesses.", "anchors": ["colgrep/src/signal.rs: is_interrupted, is_interrupted_outside_critical, check_interrupted, CriticalSectionGuard, setup_signal_handler"]}
{"id": "C119", "title": "When the hooks of colgrep speak", "statement": "The session and the task hook give their advice exactly if the model in use (the configured one, else the default, also if the configuration cannot be read) has an index for the project or for one around it, or the project has from one to fifty files; otherwise they answer with an empty object. The walk is not read beyond the fifty-first file.", "quantifier": "for all walks, configurations and states of the indices", "why_tests_cant": "There are no tests of the hooks; the count with its early end is a loop over walks of any length.", "anchors": ["colgrep/src/commands/hooks.rs: should_inject_colgrep_context, is_small_project, cmd_session_hook, cmd_task_hook"]}
{"id": "C120", "title": "A statement about a list of documents is about exactly these", "statement": "The condition built for a list of document numbers of any length holds of exactly the numbers in the list, and never takes more than 900 parameters. If it needs a temporary table, its name is not given twice in a process until the counter has gone round, so making it never fails for tables of earlier calls that were left over; dropping it leaves the tables of the connection as they were.", "quantifier": "for all lists of numbers, all process numbers and counters, all tables on the connection", "why_tests_cant": "The two ways meet at 900 numbers; that they agree, and that names never clash, is a statement about all lists and all histories of calls.", "anchors": ["next-plaid/src/text_search.rs: build_in_clause, make_temp_table_name, drop_temp_table"]}
