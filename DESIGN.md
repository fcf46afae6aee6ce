# Formal model of lightonai/next-plaid in Rocq (Coq 8.16.1)

The model is written in Gallina, in `/verif/rocq/theories`, logical root `Verif`.
Only the Coq standard library is used.

## 1. Method

* Every modelled function is a total, computable Gallina function whose comment cites
  the file and lines it models and every simplification.
* `Result`/`Option` stay data. A Rust panic (slice out of range, division by zero,
  underflow in a checked context) is an explicit error value.
* **f32** values are modelled by their 32-bit patterns (`F32.v`).  Comparison operators
  (`<`, `>`, `total_cmp`, `is_finite`, `is_nan`) are defined exactly on the bits.
  Floating-point *arithmetic* (dot products, sums, k-means) is an arbitrary function:
  a `Section` variable that becomes a universally quantified argument of each theorem,
  so the theorems hold for every arithmetic, hence for IEEE arithmetic.
* The file system is a record of file contents; a crash point is a prefix of the
  sequence of primitive file operations a function performs.
* SQLite is modelled by tables as lists of rows; the statements issued by the code are
  modelled by their relational meaning.
* Concurrency is modelled by interleavings (traces) of atomic steps.

Layers per topic: `XModel.v` or `X.v` (the code), `XSpec.v` (small, independent
specification), `XProofs.v` and others (lemmas), `PropsX.v` (only the final theorems, a concrete
example next to each, and `Print Assumptions`).

## 2. Plan per property

| id | modelled | how proved |
|----|----------|-----------|
| C01 | codec tables, quantiser, decompressor on bit level | finite sweep over the 256 byte values lifted by `forallb_forall`, then induction over bytes/rows |
| C02 | packbits, unpackbits | induction in blocks of 8 |
| C03 | per-row `max_by`, batch loop | induction; total preorder of `cmp_f32_for_max` |
| C04 | `create_index_files` on a disk record | induction over chunks, refinement to a document list |
| C05 | `MmapIndex::update` with its three paths | refinement, case analysis on path |
| C06 | `delete_from_index_impl` | refinement; finding for negative ids |
| C07 | IVF build, merge, patch | invariant over histories |
| C08 | state machine of operations | refinement by induction over operation list |
| C09 | `MmapIndex::load` offsets and slices | list lemmas |
| C10 | `get_candidates` | sort/dedup lemmas |
| C11 | metadata counters | invariant over histories |
| C12 | buffer files + flush path | invariant linking buffer to index tail |
| C13 | `update_centroids` | refinement |
| C14 | `reconstruct_embeddings` | induction |
| C15 | merge manifest algorithm | invariant with modification clock |
| C16 | `load` error conditions | refutation witness + guarded theorem |
| C17–C19 | whole search pipeline over abstract scores | sort/truncate lemmas + IVF invariant |
| C20 | heap-based batched probe | heap as sorted bounded list, top-n lemma |
| C21 | `search_many_mmap` | induction |
| C22 | lane/tail max | fold lemmas over the f32 order |
| C23 | range-shift UPDATE algorithm | lemma: composition of range shifts = rank function |
| C24 | product of index and DB machine | refinement by induction over histories |
| C25 | chunked IN lookup + hash map removal | induction |
| C26–C27 | character-level tokenizer, safety check, recursive descent parser | inductive grammar as specification; soundness and completeness |
| C28–C29 | table update/selection semantics | refinement / refutation witness |
| C30 | sanitizer on characters | inductive phrase grammar |
| C31–C32 | fusion over abstract score arithmetic | permutation + sort lemmas |
| C33 | chunked top-k | merge lemma |
| C34 | FTS content/index tables | refinement; refutation for IdentifierAware |
| C35 | file operation traces | case analysis over prefixes |
| C36 | header writers/parsers on bytes | round-trip |
| C37 | every primitive file write of create/append/update/delete as a list of replacements; a crash is any prefix of it | refinement for the prefixes that are safe; refutation witness for each unsafe operation |
| C38 | worker loop over an arrival/timeout trace | induction |
| C39 | lock map, key choice per handler | interleaving model: refutation + per-key mutual exclusion |
| C40–C41 | eviction, repair, rollback on the product machine | refinement |
| C42 | progress map | induction over events |
| C43 | civil_from_days in Z | proof for all days via 400-year periodicity + sweep of an era |
| C44, C53 | base64 | round-trip |
| C45 | rerank | permutation/sort |
| C46 | grouping/demux | induction |
| C47, C48 | list lookups | induction |
| C49 | path join/normalisation | refutation + guarded theorem |
| C50 | character classes and splitting | induction |
| C51, C52 | flattening/splitting | round-trip |
| C54 | index/weight computation over an abstract ordered field or Q | order lemmas |
| C55 | `assign_to_centroids` on both paths | fold lemmas over the f32 order; refutation of the stronger tie-break claim |
| C56 | probing, candidate collection, approximate ranking | top-n lemmas over the IVF invariant |
| C57 | `create`/`update`/`get` of the metadata store on both schemas | row-content invariant over histories |
| C58 | `where_condition`, the SQLite reading of the condition | two readings of the same token list related by the grammar |
| C59 | `get_distinct_strings` | induction over the column |
| C60 | in-place conversion of fast-plaid files, on bytes | header round-trip + element lemmas |
| C61 | the search handler with its four modes | case analysis over the modes, C17/C31–C33 lemmas |
| C62 | colgrep: update plan, incremental update, pipeline, clean-up, state file, as effects on the index directory | invariant over effects (`snapshot`/`mid`), induction over the history |
| C63 | colgrep: full rebuild and swap of directories | one triple for the rebuild, any start state |
| C64 | colgrep: every prefix of the effects of an update, then a run | the invariant `mid` holds after every prefix and is repaired by a run |
| C65 | colgrep: every prefix of the effects of a resumable build, then a run | partial-build invariant |
| C66 | colgrep: copying a sibling's index, then an update | the copied index satisfies the update invariant |
| C67 | next-plaid-onnx linkage, all five methods, as loops with explicit state | invariant: active clusters are the blocks of the tree so far, the chain is a path of cached neighbours without an immediate return |
| C68 | the same loops with fuel; exact arithmetic as laws, binary64 as SpecFloat | the last pair of the chain decreases in (distance, position); binary64 refuted by a computed cycle of neighbours |
| C69 | fcluster_maxclust with its union-find | union-find invariant by rank; roots correspond to blocks |
| C70 | linkage_generic, linkage_ward, fcluster_distance | invariant relating matrix entries to members of blocks, also in rational numbers for the average, weighted and Ward costs (ClusterExactSpec, ClusterLinkage, ClusterReciprocal); connectivity |
| C71 | condensed_index, pdist_cosine | arithmetic on the row offsets |
| C72 | pool_embeddings_hierarchical, pool_document_embeddings | labels partition the tokens; column-wise sums |
| C73 | next-plaid-onnx encode_documents (one session, parallel), tokenize_documents_in_batches, encode_prepared_document_batches_cancellable; tokenizer and network are arguments | a row of a batch is the padded sequence of its document; padding is ignored by assumption; batches are a permutation that restore inverts |
| C74 | encode_queries, expansion, skiplist, truncation | same row lemma with mask padding attended |
| C75 | the panicking index operations of the flat vectors | every write and slice is in range when lengths are at least 3 |
| C76 | build_fixed_dynamic_shapes, chunks, buckets | budget invariant of the shape loop; buckets are a partition |
| C77 | encode_documents_raw_stream as a transition system of workers | queue, work in hand and results are a permutation of the chunks; decreasing measure |
| C78 | order restoration on permuted or selected batches | positions returned are a permutation of an initial segment |
| C79 | glob_to_regex and the REGEXP filter, over any engine that agrees with a fragment of regular expressions given meaning in Regex.v | the translated text is read by a parser of the fragment; its matches are the texts of the glob (induction on the pattern) |
| C80 | dir_pattern_to_regex and its filter | the same; directories of a path by induction on the path |
| C81 | expand_braces with fuel, the include filter over any glob library | induction on the number of groups; each step removes a closing brace |
| C82 | the LIKE filter with SQLite's LIKE | induction on the prefix |
| C83 | bre_to_ere, escape_literal_braces and the filter by text pattern, over any faithful engine | the rewritten pattern is read by the parser of the fragment (induction on the pieces); its matches are the occurrences |
| C84 | PatternMatcher over any faithful engine, str::lines | a match without a line feed in the text is a match on its line (induction on the match) |
| C85 | CodeUnit to JSON, its row in the metadata store, fix_sqlite_types, JSON to CodeUnit; histories of create, update and delete | field by field over a row that reflects the unit; invariant over the history on top of C23 and C57 |
| C86 | hybrid search, boosts, penalty and collapse by file over any index, arithmetic and hash map order | invariant of the collapse (a sorted prefix); fold lemmas for the boosts |
| C87 | the combination of the six filters; search_single_path | invariant of the intersections; origin of each result followed through fusion, boosts, collapse and merge |
| C88 | merge, cmp_results_deterministic, cmd_search over lists of paths | invariant of the merge; a sorted list of a total order is unique |
| C89 | extract_units for source files: the walk over any syntax tree, attributes above a node, the pieces between units | induction on the depth left; the units found are those of an inductive relation `looked_at`; invariant of the loop over lines |
| C90 | text files; blocks of HTML, Vue and Svelte files, scripts parsed and moved to their place | invariant "each line of a block stands for the line it is numbered as"; induction over the shape of pages |
| C91 | build_call_graph with any order of its map | edges characterised by membership, writes to distinct indices commute |
| C92 | scan_files: the walk over any tree with pruning, should_ignore, size, language | induction over trees; membership characterised by the prefixes of the path |
| C93 | calc_display_ranges, print ranges, results by file, the compact listing | merging of sorted ranges preserves the covered lines; induction over results |
| C94 | the three stages and create_index_files on the same directory | both loops reduced to the list of encoded chunks; invariant of the index (C04-C16) for the result |
| C95 | seven threads with bounded queues, each a program from received messages to sends, effects and joins | general theorem for trees of threads (invariant on queues and histories, decreasing measure) for progress and termination; histories of the stages by prefix induction |
| C96 | the table of connections over a file system of paths and inodes, sequentially and with interleaved readers | invariant: a connection in the table belongs to the file at its path; refinement to a map from paths to databases |
| C97 | the one-table layouts, the migration, and the file after every commit | simulation by the split store holding the same values; invariant of the file a killed creation leaves |
| C98 | the edits of AGENTS.md as text, of config.toml and settings.json as parsed values | invariant over histories of installs and uninstalls; lemmas on ordered keys |
| C99 | processes as phases, one move per file system call or effect; the lock file by its inode | invariant over all reachable worlds (holder of the lock, phase, remaining effects); simulation by one run after the other |
| C100 | requests and queue workers as threads, one move per access to a cache, a lock or the directory | invariants over all interleavings (lock holder, slot against files, accepted against published); symbolic run of each request alone against a record of configuration and documents; lock order and a falling rank of each thread for waiting |
| C101 | the data directory as a list of entries (project.json, index, build marker), commands as functions of it and of the disk, histories as lists of events | invariant of histories (names, provenance of the texts), maximality of the fold over the entries, uniqueness of the specified project |
| C102 | the directory as names and inodes, processes as state machines at system-call grain (writers, merges under lock files, clearing, loading, kills); the reads of a load at different moments | invariant with a kind for each inode (sealed or written by one process), provenance of each mapped file; closure of the operations' effects under a predicate on writes |
| C103 | the text of a code unit, its file line and cut, the stripping of a pattern and its merge with the query, character by character | word-splitting invariants of the loops against an inductive definition of the words of a path; lists of lines |
| C104 | the configuration, its JSON members, the commands on it in their order, the values a search takes | one command as a record update, then induction on histories against `last_asked`; lists by membership |
| C105 | the decision in main, once for both copies | case analysis against the inductive table `reads` |
| C106 | the conversion of units, the merge with its set of seen strings, the tables of language names | order of first appearance by induction with the set as invariant; stable sort by line |
| C107 | syntax trees with kinds, fields, texts and rows; the stack walks as lists of pending nodes; the tables of node kinds per language | the stack walk visits every node in source order (induction on the total size); sets by inclusion both ways; comment runs by induction on the lines above |
| C108 | the regular expressions as pieces with all the rests each can leave; entries after slashes; the product of factors | matching = concatenation of pieces; expressions written out to prefixes, gaps and endings and compared with the tables both ways; parts of a path by splitting |
| C109 | the sample, the flattening with ndarray's broadcasting of single columns, the number of centroids over any f64, the division by norms | the run written out once (`kmeans_is`); powers of two between bounds are unique; machine numbers by SpecFloat |
| C110 | the payloads of `search`, `add` and `get_metadata_by_ids`, the choice of endpoint, how each handler reads the body, addresses by urljoin and the router, the classes of errors, decoding of encodings | a search depends on the arrays, not on the form they are sent in (`search_same`), and base64 of rectangular finite rows is the same array (`good_arrives`); splitting at slashes and resolving dots are the identity on plain names |
| C111 | `extract_qml_units` over any tree, with the depth limit, and everything each kind of node gives | by strong induction on the remaining depth, the units found are the units of the places reached (`visit_ok`); what a node gives is read off the specification (`gives_here`, `here_gives`) |
| C112 | `extract_constant` and its helpers, `extract_class_type_parameters`, `determine_function_type` over any tree | the branches of the code and the table of the specification agree row by row, and no language has two rows (`lookup_iff`); outermost nodes with their places by induction on the tree (`outer_iff`, `outer_sorted`) |
| C113 | the tables of node kinds, `get_node_name`, `get_css_unit_name`, `find_class_body` over any tree | the branches of the code and the table of the specification agree row by row (`lookup_iff`); the words of a text by `split_neat` and C57's `splits`; the kinds are compared language by language |
| C114 | the environment as a map; `env_acceleration_mode`, `apply_acceleration_mode`, the start of `main`, `color::init`, the default sizes | the words that mean yes by letters (`yes_iff`); a closed form of the map after a mode is applied (`apply_get`), from which reading back, agreement and the frame follow |
| C115 | the directory of indices as a list of entries; `list_all`, `get_index_summary`, `get_all_index_summaries` | membership by cases on an entry; order by C64's sorting lemmas; a strictly sorted list is determined by its elements |
| C116 | the argument loop of the server as recursion over the words; `str::parse`; the limits and the quota | the numbers by the digits they are spelt with (`number_iff`); the loop against a grammar by strong induction (`parse_cases`) and, back, by induction over the options (`step_all`); the last of each kind by a fold |
| C117 | directories as trees; the copy as recursion over the source with the destination as an argument; the answer of git as lines | induction over trees (`copied`, by a hand-written principle) with the contents of the destination read path by path (`go_lookup`); success by `works`/`works_only`; the lines by the uniqueness of trimming |
| C118 | the two atomic words and the events of threads, one memory access each; the question and the handler take two | the counter equals the number of live guards by induction over the history (`depth_from`); the flag, the pending questions and the pending message each by an invariant over the rest of the history |
| C119 | the loop of `is_small_project` over what the walker yields; the choice of the model; the answer of the two hooks | induction over the walk with the count as a parameter (`small_iff`) |
| C120 | the temporary tables of a connection; the name from prefix, process and counter; the clause and what SQLite makes of it | induction over the numbers inserted (`table_inserts`); the injectivity of decimal digits for the names |


## 3. Trusted base

* Coq's kernel, release 8.16.1, and `coqc` as installed.  No OCaml plugin, no kernel switch.
* `Print Assumptions` is printed after every theorem of the `Props*.v` files.  Every one answers
  "Closed under the global context": no axiom is used, not even one of the standard library.
* `coqchk`, which looks at whole libraries and not at single theorems, also lists the seven fields
  of `Coq.ssr.ssrunder.Under_rel` (`Under_rel`, `Under_relE`, `Under_rel_from_rel`, `Over_rel`,
  `over_rel`, `over_rel_done`, `under_rel_done`).  That is a sealed module of the standard library,
  loaded along with `Setoid`; its fields are defined there, and no theorem here uses them.
* That the model says what the cited source lines do.  This was checked by reading only; the
  code was never built or run here.
* The following things of the outside world appear as universally quantified arguments of the
  theorems.  What is assumed of each is written in the theorem as a hypothesis and met by the
  `Example` beside it.

| argument | stands for | assumed |
|----------|------------|---------|
| `env` (IndexSpec.v) | k-means, f32 arithmetic of quantisation, quantiles, thresholds, outlier choice | `good_kmeans`: at least one centroid, each of the right width |
| `kernel` | dot products and f32 sums of a search | nothing, or agreement of scalar and batched products where the theorem says so |
| `unicode` | character classes and case mapping | `good_unicode` (Text.v): agreement with ASCII on ASCII characters |
| `engine` | SQLite's affinity conversion, comparison, LIKE, REGEXP and collation of column names | `good_engine` (MetaSpec.v): a value of a column's own type is stored unchanged, NULL stays NULL, a scan returns each row once in some order |
| `arith` | f32/f64 arithmetic of fusion | `good_order`, `good_minmax`, `rrf_arith` (FtsRankSpec.v): order laws only where the theorem needs them |
| `fts_engine` | FTS5's terms of a text, texts of numbers | nothing |
| `searcher`, `encoder` | the loaded index and the ONNX model behind a handler | length of the answer (or nothing: a failing model is covered) |
| `io` | success or failure of each primitive file operation | nothing: all outcomes are covered |
| `tool` (Colgrep.v) | language detection, UTF-8 validity, content hash, unit extraction, path order, size limit, batch sizes | `good_tool`: the chunk size is at least 1; the hash tells edits apart only where the theorem says so |
| `real` (Cluster.v) | f64 arithmetic of the clustering | nothing, or the order laws `good_order`, `good_min`, `good_max`, `good_mean` and `reducible` (ClusterSpec.v), met by the rationals (ClusterExact.v); refutations use binary64 of the standard library's SpecFloat |
| `cell` (Cluster.v) | f32 sums and division of pooling | nothing |
| `tokenizer` (Onnx.v) | tokenizers library, trimming and lower-casing | `steady` (OnnxSpec.v): encodings are vectors of one length with at least one token and a mask of ones then zeros; a text gets the same tokens alone and in a batch |
| `network` (Onnx.v) | the ONNX session | `ignores_padding`: outputs under the mask depend only on the tokens under the mask; `answers`, `calm` where the theorem says so |
| `engine` (Regex.v) | the regex crate | `faithful`: on texts the fragment's parser reads, the engine accepts them and finds exactly their matches; met by the matcher of RegexProofs.v. The engine's limits on the size and nesting of a pattern are left out |
| `InClause` | `IN`, `CREATE TEMP TABLE`, `INSERT OR IGNORE` and `DROP TABLE IF EXISTS` as SQLite documents them |
| `HookGate` | the walk of the `ignore` crate, `index_exists` and `find_parent_index` are parameters; the text of the advice is not modelled |
| `Signals` | accesses to the two words take place in one order that all threads see (the code loads with `Relaxed`); `reset_interrupted` is dead code and left out; that `ctrlc` runs the handler for each press, on one thread, is taken from its documentation |
| `Sibling` | `fs::copy` follows links and refuses directories, `create_dir_all` refuses what is no directory; a link to a directory at the destination is taken for an error; the answer of git is given as lines; running git and stripping its variables are not modelled |
| `ServerArgs` | what tower_governor makes of `per_second` (the interval after which one request is replenished) and that it refuses zero, and that tokio's `mpsc::channel(0)` panics, are taken from their documentation |
| `IndexList` | the directory does not change while it is read; JSON parsing is a parameter (the value of each key) |
| `EnvModes` | the environment of the process is a map from names to values; clap's refusal of two flags, cuDNN detection and `str::trim` are parameters |
| `AstNames` | tree-sitter is not modelled |
| `Decls` | tree-sitter is not modelled; `node.parent()` is the list of nodes around the declaration |
| `Qml` | tree-sitter and the script analysis are parameters; the path and language of a unit are left out |
| `Client` | what httpx, urljoin and axum do to an address is modelled for names without percent signs and control characters; the encoder is a parameter |
| `KMeans` | f64 operations, the shuffle, the training, the norm and the division are parameters; `good_train`: k centroids of the width of the tokens when there are k tokens; `exact_partitions` only for the bounds on the power of two; the exact numbers of the example and SpecFloat meet what is asked |
| `PathRank` | parse::<f32>, the environment and the f32 product are parameters; `good_products`: products of finite numbers with numbers up to one do not grow; met by the rationals |
| `Analysis` | a node's text is always readable; rows and texts of a tree are not tied to the source |
| `Sdk` | extract_units and the components of a path are parameters; the sum of complexities does not overflow |
| `Settings`, `CmdLine` | the JSON text of an object is its members, a proper prefix of it is not read; finite floats survive their decimal text; whether a model works, a file exists and the environment are parameters |
| `Embed` | a path is the list of its names, relative, without prefix; white space, lower case, is_uppercase and is_lowercase are parameters |
| `Shared`, `Torn` | Unix: a map shows the inode it was made of; advisory locks belong to the inode and die with the process; rename is atomic; a merge reads whatever is in the chunks; manifests are opaque (C15); merged files are left out of `load_seen` |
| `Which` | canonical paths; the index holds the files of the project as C62-C66 give it; directories without files do not exist; the name of an index directory is any function |
| `Life` | changing the files of an index is one move; file operations succeed; a closed channel still delivers what is in it (tokio) |
| `Procs` | a file lock is exclusive per file (inode) and released when its process ends; `remove_dir_all` and each effect of a run are atomic |
| `Install` | files are read and written without error; toml_edit and serde_json parse and print values faithfully (keys once, order kept); `trim` as in Text |
| `Legacy` | an SQLite transaction, or a statement outside one, is atomic when the process is killed; copying a value between columns of the same declared type keeps it (`settled`) |
| `ReadCache` | a SQLite connection goes on reading the file it was opened on after its name was removed or given to another file (POSIX; on Windows the removal fails while the file is open) |
| `world` (Pipeline) | tokenizer, encoder, pooling, failures of writing and moments of Ctrl-C are arbitrary functions; `good_model`: the encoder gives every text of a chunk its own embedding in order. Channels and threads of the standard library (send blocks when full, fails when the receiver is gone; receive fails when all senders are gone and the queue is empty) are Threads.v |
| `machine`, `representative`, `disk` (Display.v) | size of usize and whether overflow is checked; find_representative_lines; the files when the output is made | none; the size is larger than the number of lines where it matters |
| `surroundings` (Walk.v) | what git's ignore files hide (crate ignore), whether canonicalize stays in the project | none |
| `node`, `grammar` (Parse.v), `js` (Blocks.v) | tree-sitter's trees, the tables of node kinds of ast.rs, the analysis of a node (analysis.rs; modelled by itself in Analysis.v) | `rows_ok`: rows in order and in the file; `bodies_ok`: the body of a class is one of its children; `good_parser`: both, for every script; met by the trees of PropsParse.v and PropsBlocks.v |
| `parse` (Units.v) | serde_json's reader | `good_json` (UnitsSpec.v): a list of strings is written as a text that begins with a bracket and is read back; met by the engine of PropsUnits.v |
| `glob` (Glob.v) | the globset crate | nothing |
| `backend` (Results.v) | the loaded index of colgrep: encoding, search, text search, rows | `good_backend` (ResultsSpec.v): as many scores as ids, ids once, no more than asked for, only allowed ones; met by every table (ResultsExamples.v) |
| `tuning` (Results.v) | constants, file_path_penalty, lower-casing, file stems, is_finite, hash map order of the ranking | `t_iter` a permutation; `good_boosts` where scores are compared; met by plain_tuning (ResultsExamples.v) |
| `path_cmp` (Results.v) | the order of paths | `good_paths`: a total order; met by the order of characters |

### Modelled

| source | lines | model |
|--------|-------|-------|
| next-plaid/src/codec.rs | 22-30, 120-225, 297-539 | CodecModel, IndexModel, SearchModel |
| next-plaid/src/index.rs | 17-40, 105-168, 551-1015, 1026-1245, 1392-1402, 1431-1848 | IndexModel, SyncModel, Merge |
| next-plaid/src/update.rs | 132-259, 308-360, 385-416, 490-608, 621-1120 | IndexModel |
| next-plaid/src/delete.rs | 66-398 | IndexModel |
| next-plaid/src/embeddings.rs | 56-102 | IndexModel |
| next-plaid/src/kmeans.rs | 261-422 (the sample, the number of centroids and the call of the training, not the iteration) | IndexModel, KMeans |
| next-plaid/src/search.rs | 28-675 | SearchModel |
| next-plaid/src/maxsim.rs | 22-385 | SearchModel |
| next-plaid/src/mmap.rs | 62-1810 | Npy, Merge, IndexModel |
| next-plaid/src/utils.rs | 12-149, 193-222, 234-280 | AtomicFile, Utils, CodecModel |
| next-plaid/src/filtering.rs | 78-649, 758-760, 868-903, 1033-1064, 1141-1357, 1497-1527, 1646-1660, 1767-2120, 2143-2689 | SqlModel, MetaModel, MetaQuery, Base64 |
| next-plaid/src/text_search.rs | 52-85, 108-1075, 1217-1342 | FtsText, FtsRank, FtsStore |
| next-plaid-api/src/models.rs | 903-1004 | ApiEmbed |
| next-plaid-api/src/state.rs | 64-115, 348-350, 533-690 | Calendar, ApiProgress, ApiPath |
| next-plaid-api/src/handlers/documents.rs | 110-192, 224-275, 323-533, 585-656, 825-922, 1205-1262, 1547-1626 | ApiUpdate, ApiPath, ApiEmbed |
| next-plaid-api/src/handlers/encode.rs | 67-411 | ApiEncode |
| next-plaid-api/src/handlers/metadata.rs | 38-290 | ApiRead |
| next-plaid-api/src/handlers/search.rs | 28-612 | ApiRead, ApiIndex |
| next-plaid-api/src/handlers/rerank.rs | 25-182 | SearchModel, ApiEmbed |
| colgrep/src/index/mod.rs | run_indexing, compute_update_plan, incremental_update, run_chunk_pipeline, build_resumable, flush_build_batch, full_rebuild, repair_index_db_sync, reconcile_document_counts, cleanup_orphaned_entries, delete_files_from_index, try_seed_from_sibling_worktree (lines at each definition) | Colgrep |
| colgrep/src/index/state.rs | 16-145 | Colgrep |
| colgrep/src/index/mod.rs | 3413-3609, 3751-3880 | Glob |
| colgrep/src/index/mod.rs | 3128-3410, 3884-3985 | Pattern |
| colgrep/src/commands/search.rs | 20-227 | Pattern |
| colgrep/src/parser/mod.rs | 76-87, 133-206 (source files), 214-325 | Parse |
| colgrep/src/parser/ast.rs | 364-409 | Parse |
| colgrep/src/parser/extract.rs | 13-157, 279-343, 538-615 (place and code), 710-825 | Parse |
| colgrep/src/parser/text.rs | 7-123 | Parse |
| colgrep/src/parser/html.rs, vue.rs, svelte.rs | all | Blocks |
| colgrep/src/parser/call_graph.rs | 8-61 | CallGraph |
| next-plaid/src/text_search.rs | 1080-1144 | InClause |
| colgrep/src/commands/hooks.rs | 10-51, 54-63, 106-118 | HookGate |
| colgrep/src/signal.rs | 15-36, 48-104, 121-127 | Signals |
| colgrep/src/index/worktree.rs | 36-123 | Sibling |
| next-plaid-api/src/handlers/encode.rs | 28-58 | ServerArgs |
| next-plaid-api/src/handlers/documents.rs | 35-46, 196-221, 305, 665-703, 739 | ServerArgs |
| next-plaid-api/src/main.rs | 293-308, 477-487, 519-711 | ServerArgs |
| next-plaid-api/src/state.rs | 511-530, 689-754 | IndexList |
| next-plaid-onnx/src/lib.rs | 251-268 | EnvModes |
| next-plaid/src/lib.rs | 67-84 | EnvModes |
| colgrep/src/config.rs | 22-100 | EnvModes |
| colgrep/src/main.rs | 26-47, 60-71 | EnvModes |
| colgrep/src/color.rs | 16-75 | EnvModes |
| colgrep/src/acceleration.rs | 3-80 | EnvModes |
| colgrep/src/parser/ast.rs | 7-360 | AstNames |
| colgrep/src/parser/extract.rs | 160-540, 617-712 | Decls |
| colgrep/src/parser/qml.rs | 17-545 | Qml |
| `Client` | `python-sdk/next_plaid_client/_base.py` 24-232, `client.py` 215-258, 280-444, 540-574, `models.py` 122-151, 220-241; `handlers/search.rs` 434-612, `handlers/documents.rs` 1509-1551, 1682-1716 up to the queue, `models.rs` 227-329, 637-642, 752-791 |
| colgrep/src/ranking.rs | 22-163 | PathRank |
| colgrep/src/parser/extract.rs | the imports kept for a unit | Analysis |
| colgrep/src/parser/analysis.rs | 1-1323 | Analysis |
| colgrep/src/parser/types.rs | 51-101 | Sdk |
| colgrep/python-sdk/src/lib.rs | 11-62, 115-361, 422-508 | Sdk |
| colgrep/src/main.rs | 160-225, 341-406 | CmdLine |
| colgrep/src/commands/search.rs | 363-388, 457-459, 485-551, 648-653, 1060-1066, 1497-1504 | Settings |
| colgrep/src/commands/config.rs | 22-93, 97-483 (without output) | Settings |
| colgrep/src/config.rs | 18-20, 109-507 | Settings |
| colgrep/src/commands/search.rs | 245-364, 1511-1512 | Embed |
| colgrep/src/embed.rs | 9-208 | Embed |
| next-plaid/src/index.rs | 1026-1139 (order of reads), 1323-1327, 1771, 1812 | Shared, Torn |
| next-plaid/src/mmap.rs | 25-57, 1266-1477, 1483-1704, 1714-1742 (locking, temporary files, renames) | Shared |
| colgrep/src/commands/init.rs, clear.rs, status.rs | the choice of index and its effect | Which |
| colgrep/src/scoring.rs | 10-34 | Which |
| colgrep/src/commands/search.rs | 413-421, 1033-1254, 1333-1450 (choice of index and filters on files) | Which |
| colgrep/src/index/paths.rs | 22-47, 124-231 | Which |
| next-plaid-api/src/handlers/documents.rs | 289-533, 633-656, 830-922, 975-1053, 1118-1330, 1420-1490, 1509-1665 (order of the accesses to shared state) | Life |
| next-plaid-api/src/state.rs | 20-60, 352-497 | Life |
| colgrep/src/index/paths.rs, index/mod.rs, index/state.rs, commands/{search,clear,stats}.rs | paths 242-290; mod 1615-1618, 1737-1747; state 77-130; search 1187-1191, 1307-1314, 1640-1644; clear 59-69; stats 73-108 | Procs |
| colgrep/src/install/{codex,opencode,hermes,claude_code}.rs | codex 11-12, 52-226; opencode 25-86; hermes 20-67; claude_code 195-264 | Install |
| next-plaid/src/filtering.rs | 762-866, 1358-1463, 1661-1766, 2166-2242 (earlier layouts, migration), 868-946, 1141-1308 (commits of creation) | Legacy |
| next-plaid/src/filtering.rs | 657-733, 1091-1101, 1158-1176 (the table of read connections) | ReadCache |
| next-plaid-onnx/src/lib.rs | 1632-1643 | Pipeline |
| colgrep/src/index/mod.rs | 213-228, 261, 358-577, 587-768, 819-972 | Pipeline (k-means thread folded into the coding thread; full-text indexing, which only warns, left out) |
| colgrep/src/index/mod.rs | 607-669 (order of the stages) | Staged |
| next-plaid/src/index.rs | 168-534 | Staged |
| colgrep/src/commands/search.rs | 664-711, 745-950 | Display |
| colgrep/src/display.rs | 366-438, 470-508, 576-600, 646-672 | Display |
| colgrep/src/parser/language.rs | 8-65 | Walk |
| colgrep/src/index/mod.rs | 2689-2945 | Walk |
| colgrep/src/parser/types.rs | 5-153 | Units |
| colgrep/src/index/mod.rs | 4419-4445 | Units |
| colgrep/src/commands/search.rs | 472-482, 553-625, 1340-1644 (without index building, encoding and output) | Results |
| colgrep/src/index/mod.rs | 4013-4292, 4394-4417 | Results |
| colgrep/src/ranking.rs | 168-442 (file_path_penalty 135-163 is a parameter there; modelled in PathRank) | Results |
| next-plaid-onnx/src/hierarchy.rs | 15-656 | Cluster |
| next-plaid-onnx/src/lib.rs | 1632-1643, 2249-2320 | Cluster |
| next-plaid-onnx/src/lib.rs | 559-614, 729-804, 1129-1624, 1691-1814, 1820-2246 | Onnx |

### Not modelled

* The iteration of k-means, the CUDA kernels (cuda.rs), the values computed by f32 arithmetic,
  and the effect of rounding on scores.
* SQLite, FTS5, BLAS, rayon and the memory map themselves.  Rayon loops are modelled by their
  sequential meaning, since their bodies share no state.
* Statement-level failure of SQLite inside a transaction.
* Queries by condition (`where_condition`, `update_where`) on files of earlier metadata layouts.
* colgrep: the full-text table (its store is C57-C60), prompts and progress bars, I/O errors, the language argument of `index`, Ctrl-C as
  something other than a killed process, `index_specific_files` (no command calls it), the
  tree-sitter grammars themselves (their trees are parameters), the parsing of options,
  and of the agent integrations the copying of plugin and skill files.
* next-plaid-onnx: loading of models and sessions, execution providers, the tokenizers library and ONNX
  runtime themselves, poisoned session locks after a panic, the export tool.
* HTTP routing, JSON parsing, rate limiting, tracing, OpenAPI, the start-up code of main.rs.
* Memory exhaustion and integer wrap-around of `usize` beyond the places named in the findings.

### Simplifications shared by all files

* `usize`, `i64` counters are `nat`/`Z` without an upper bound unless a comment says otherwise.
* A floating-point number that is only passed on is its 32-bit pattern.
* JSON texts of configuration files are modelled by the value they carry.

## 4. Findings

Each entry is a theorem ending in `_refuted`: a concrete input for which a claim the property (or
its natural reading) makes does not hold of the model.  The property's own theorems carry the
precondition that excludes it.

| theorem | what goes wrong |
|---------|-----------------|
| C05_empty_update_loses_documents_refuted | an update with an empty batch is accepted and drops the last chunk, so documents lose their tokens |
| C06_negative_id_corrupts_postings_refuted | deleting a negative id lowers the ids in the posting lists while no document goes |
| C08_stale_handle_wrong_ids_refuted | an update on a handle not reloaded after a delete returns ids that do not exist |
| C12_append_while_buffered_loses_document_refuted | `update_append` while documents are buffered makes the next flush delete the appended document and keep the buffered one twice |
| C15_metadata_time_refuted, C15_interrupted_merge_refuted | a chunk changed without a newer modification time, or a merge interrupted between its two renames, serves old rows |
| C16_delete_all_refuted | deleting every document leaves an index that cannot be opened |
| C17_zero_probe_refuted | `n_ivf_probe = 0` panics |
| C19_small_rescoring_limit_refuted | a small `n_full_scores` returns fewer documents than asked for although more exist |
| C20_threshold_disagreement_refuted | with a score threshold the batched and the plain probing select different centroids, even without ties |
| C22_bitwise_refuted | the vectorised maximum differs from the plain one in the sign of zero |
| C24_error_leaves_documents_refuted | an update that reports an error in the metadata has already added the documents |
| C26_identifiers_are_columns_refuted | the Kelvin sign passes the column check |
| C27_keyword_named_column_refuted | a column named like a keyword cannot be used |
| C29_second_pattern_ignored_refuted, C29_null_value_fails_query_refuted | only the first REGEXP pattern is compiled; a NULL value fails the query |
| C30_nul_is_syntax_error_refuted | a NUL character in a query is still a syntax error |
| C33_duplicate_id_returned_twice_refuted | an id given twice, in two chunks, is returned twice |
| C34_deleted_row_still_found_refuted, C34_rebuild_loses_subwords_refuted, C34_tokenizer_change_drops_rows_refuted, C34_unindexed_items_refuted | with the identifier-aware tokenizer a deleted row is still found by a sub-word and a rebuild loses the sub-words of the others; items added without the keyword call are not indexed; a changed tokenizer drops all earlier rows |
| C35_failed_rename_leaves_file_refuted, C35_unreported_dirsync_refuted | a failed rename leaves the temporary file; a failed directory sync is not reported |
| C36_wrapped_size_accepted_refuted, C36_bad_header_panics_refuted, C36_fortran_order_ignored_refuted | damaged or foreign array files are accepted or panic |
| C37_interrupted_append_refuted, C37_interrupted_delete_refuted, C37_interrupted_flush_refuted, C37_interrupted_rebuild_refuted, C37_interrupted_recreate_refuted | a crash between the file writes of one operation leaves a mixed index |
| C39_add_and_update_refuted, C39_drop_and_add_refuted, C39_two_names_refuted | two writers of one index run at the same time |
| C41_refused_first_batch_refuted, C41_late_database_loses_documents_refuted | a refused first batch leaves an index without chunks; the repair deletes documents added before metadata existed |
| C42_finished_update_shown_queued_refuted, C42_waiting_update_shown_complete_refuted, C42_queued_count_includes_finished_refuted | a finished update shown as queued for ever; a waiting one shown as complete; documents of finished updates counted again as queued |
| C44_json_infinity_accepted_refuted, C44_empty_document_accepted_refuted | embeddings that should be refused are accepted |
| C48_concurrent_delete_mispairs_refuted | a delete between the search and the metadata read pairs ids with other rows |
| C49_parent_refuted, C49_absolute_refuted, C49_dot_refuted | index names that leave or equal the data directory |
| C50_mixed_identifier_not_found_refuted, C50_digit_subword_no_token_refuted | an identifier mixing underscores and camelCase is split only at underscores; a sub-word starting with a digit is no query token |
| C52_negative_length_refuted | a negative length becomes a huge one and masks nothing out |
| C54_between_refuted | with f64/f32 rounding the 0.1-quantile of [3, 3] is below 3 |
| C55_tie_break_refuted | the two assignment paths pick different centroids for equal similarities |
| C57_refused_create_loses_metadata_refuted, C57_case_variant_keys_break_store_refuted, C57_first_null_makes_text_refuted | metadata lost or stored with the wrong type |
| C58_stale_pattern_refuted, C58_ambiguous_column_refuted | a filter uses the pattern of an earlier one; keys differing by case make a column ambiguous |
| C60_large_lengths_cut_refuted, C60_converted_floats_misaligned_refuted | conversions that change numbers or leave an unaligned file |
| C61_subset_with_filter_refuted, C61_keyword_failure_reported_as_empty_refuted | a subset is ignored when a filter is given; a failing keyword query is answered as empty |
| C62_lost_units_refuted | an edited file that lost all its units, with nothing else to add, keeps its old units in the colgrep index |
| C62_mended_file_refuted | a file once invalid UTF-8 is never indexed again |
| C62_no_units_refuted | a project without units gets a state file but no index, and later units are never indexed |
| C62_same_time_and_size_refuted | an edit that keeps time and size is not seen |
| C62_lost_state_refuted | a lost state.json is rebuilt with the hashes of the current files, so edits made before stay unseen |
| C63_killed_swap_refuted | a forced run killed between its two renames loses the index, and later runs report success without bringing it back |
| C64_killed_addition_refuted, C64_killed_deletion_refuted, C64_reverted_file_refuted | a killed update that added files leaves duplicates; one killed inside a deletion leaves metadata of other files beside the documents; a file restored after a killed update keeps the interrupted version |
| C65_killed_first_batch_refuted, C65_edit_before_resuming_refuted | a build killed inside its first batch makes every later run fail; a file edited before the build resumes keeps its old units |
| C66_different_files_refuted | files that differ between the worktrees keep the units of the other worktree for ever |
| C67_not_a_number_refuted | linkage with a distance that is not a number (single, complete, average, weighted) returns rows that join cluster 0 with itself |
| C68_pooling_ends_refuted | eleven token embeddings of equal pairwise cosine distance up to rounding, exact in f32, on which Ward linkage (so pooling, so encoding with a pool factor) never returns: rounding makes a merged cluster closer than its parts, and cached neighbours form a cycle |
| C68_infinite_component_refuted | an infinite component of a token embedding makes pooling panic (index out of bounds) |
| C69_closest_first_refuted | Ward's rows come in chain order, not in order of distance as in scipy, so asking for k clusters can join a far pair and leave the closest pair apart |
| C70_ward_cut_refuted | for the same reason cutting Ward's matrix at a distance can miss merges below the distance |
| C72_equal_tokens_refuted | pooling merges two different tokens while four equal tokens stay in two groups |
| C75_batch_size_zero_refuted | a batch size of 0 with one session panics |
| C75_short_length_refuted | a document or query length of 2 panics on a text of one word: the separator is written past the row |
| C75_no_tokens_refuted | a text whose encoding has no tokens (a tokenizer without special tokens, an empty text) panics |
| C77_panic_loses_refuted | a worker of a stream that panics loses its chunk silently; with one session the stream just ends, as if complete |
| C79_double_star_refuted | --exclude with two stars, a slash and foo.rs also excludes barfoo.rs |
| C79_leading_slash_refuted | --exclude /main.rs does not exclude main.rs at the root but excludes src/main.rs |
| C79_braces_refuted | braces are alternatives for --include but literal for --exclude, so --exclude "*.{rs,md}" excludes nothing |
| C80_slash_refuted | --exclude-dir vendor/ and --exclude-dir /vendor exclude nothing |
| C81_nested_refuted, C81_empty_group_refuted | nested groups give wrong patterns; a pattern with an empty group matches nothing |
| C82_only_below_refuted | a search in src also considers src_old and SRC; an underscore in the name stands for any character |
| C83_fixed_case_refuted | -F is case-sensitive although the help says that -e matches case-insensitively unless -s is given (and the lines shown for -F are matched case-insensitively) |
| C83_word_bar_refuted | -w with alternatives accepts parts of words: -w -e "foo\|bar" finds food |
| C83_escaped_parentheses_refuted | -e "f\\(x\\)" does not find f(x): an escaped pair of parentheses becomes a group |
| C83_crlf_refuted | -e "end;$" finds nothing in a file with carriage returns |
| C84_literal_refuted | -e "x[0]" selects the unit that contains x[0] but shows no line: the literal fallback of the display looks for the text of the regular expression including its (?i) |
| C86_semantic_only_refuted | --semantic-only pairs rows and scores by position: an id without a metadata row gives every later unit the score of another |
| C86_penalty_lowers_refuted | the path penalty multiplies: it raises a negative score (possible when no keyword matched, so that scores are not normalised) |
| C88_code_only_refuted | --code-only filters after the cut at 4k files: four text files ahead of the code make -k 1 print nothing |
| C88_hard_contract_refuted | `-k` is called a hard contract, but a file with 200 matching units fills the candidates: -k 2 prints one file of two |
| C88_overlap_refuted | paths that overlap (or a path given twice) list a file twice |
| C88_deterministic_refuted | "the result list is purely a function of the index + query + flags" is false: fusion and the cut at 3k files use the order of a hash map among equal scores |
| C88_semantic_pattern_refuted | --semantic-only with -e lists a file once for each unit |
| C85_array_text_refuted | a unit one of whose texts reads as a JSON array is indexed but never shown: `fix_sqlite_types` makes an array of any text that reads as one, the unit no longer decodes and is dropped silently. The code of a JSON file is its whole text, so no JSON file with an array at its top is ever found |
| C89_deep_file_refuted | extract_units is documented to cover the entire file; a file nested deeper than max_recursion_depth gives no unit, so no search finds it (a warning is printed) |
| C90_one_line_script_refuted | in an HTML page with a script that ends on the line it begins on, everything after that line, up to the next end tag of a script, is in no unit |
| C90_nested_template_refuted | the template of a Vue file is cut at the first closing template tag, which may be that of a template inside it; the rest is in no unit |
| C90_second_script_refuted | of the two scripts a Vue file may have (script and script setup) the second is not read |
| C90_statement_refuted | statements of scripts outside functions, classes and constants are in no unit: the gaps of scripts are not filled as those of source files are |
| C90_page_lines_refuted | the unit of an HTML page or Svelte template counts only the lines it kept, so the lines it names are not the lines it shows |
| C91_update_forgets_callers_refuted | the callers of a unit are sought among the files of the run only: after an incremental update a changed unit names no caller in unchanged files, and its embedded text differs from that of a fresh index |
| C92_force_include_path_refuted | `--force-include vendor/internal` (README, cli.rs) has no effect: should_ignore accepts the files below it, but the walk drops the directory `vendor` before it gets there |
| C93_content_panics_refuted | `-c` with `-e`: if no line of a code unit shows the match (C84_literal_refuted) and the unit does not begin on line 1, `signature_line + usize::MAX` overflows: a debug build panics at the sum, a release build wraps around and panics at the slice |
| C93_full_content_refuted | `-c` ("show full function/class content") shows only the lines around the matches where a line matches |
| C93_merged_unit_refuted | a result that stands for several units of a file keeps the code of the best but begins at the first line of all: the lines that match are counted from the wrong line, and others are shown in their place |
| C94_odd_dimension_panics_refuted | creating an index with `dim * nbits` not a multiple of 8 (dimension 4 with one bit) panics in the bit packing; nothing checks the dimension |
| C95_returns_while_writing_refuted | the pipeline returns the error of the first failed stage without waiting for the later ones: they go on writing to the index while the caller handles the error |
| C95_second_attempt_refuted | after a failed run its documents and rows stay; with CUDA the whole list is run again on the CPU (mod.rs 1375-1435), and those units are in the index twice |
| C95_first_build_rows_ahead_refuted | in a first build rows of metadata are inserted before any document is on disk |
| C95_first_build_rollback_refuted | in a first build, when rows cannot be inserted the documents are deleted from an index that is not written yet; the coding thread then writes them all the same, without rows |
| C96_deleted_index_refuted, C96_repair_deletes_documents_refuted | after an index is deleted through the API and created again under its name, all metadata reads of the process (documents, filters, keyword search, counts) go on showing the deleted database: `create` forgets the cached connection only if a file exists at the path. The next update then compares the number of documents with the number of rows of the deleted database and deletes the documents beyond it |
| C96_rebuilt_index_refuted | colgrep's full rebuild after a failed count or reconciliation (mod.rs 1679-1724) renames the new index to the path of the old one: the search that follows in the same process reads the removed database |
| C96_interleaved_create_refuted | `read_connection` opens the file between its two locks: when `create` replaces the file in between, the connection to the removed file is entered into the table and used from then on |
| C97_killed_create_stuck, C97_create_killed_refuted | `create` sets user_version in a statement of its own after the rows are committed (generic schema), or after the empty tables (fixed schema). Killed in between, it leaves a version-0 file, which every later call takes for the one-table layout: the large columns are never shown again, `_content_id_` appears as a field, and every update is refused because `_content_id_` is NOT NULL. The metadata that was there before is removed first |
| C98_quoted_marker_refuted, C98_quoted_end_refuted | The first occurrences of both markers are taken for colgrep's section wherever they stand. Text of the user's that quotes the start marker is deleted up to the section's end on uninstall; with the end marker quoted first, `content[..start] + content[end..]` repeats text and leaves the section |
| C98_reinstall_refuted | Each re-install leaves the newline after the old end marker: AGENTS.md grows by a blank line every time |
| C98_config_back_refuted | Uninstalling deletes a config.toml that holds only comments, an empty `writable_roots` or table of the user's, and an entry for the same path the user had listed themselves |
| C98_other_hooks_refuted | A matcher of settings.json with one colgrep hook is removed with all its other hooks |
| C99_lost_state_refuted | The count of a search is a read and a write of the whole state.json without the lock: a run that ends in between has its state overwritten by the older one, and the next run adds its files a second time (duplicates in the results, nobody killed) |
| C99_cleared_lock_refuted | `clear` and the rebuild of a corrupted index remove the lock file with the directory: a process that had opened it before and one that makes it anew both hold `the` lock, and their runs mix |
| C99_cleared_while_written_refuted | `clear` drops the lock before it removes the directory, so it can remove an index that another process has begun to write |
| C99_format_restamped_refuted | Saving the count (also with --no-update, or `reset-stats`) stamps the state with the current format version without a rebuild: an index of an older format is then taken for current |
| C100_stale_after_start_refuted | The first search after a start loads the index without the lock of the writers: an update published in between is replaced by the version loaded before it, and searches do not show the update until the next change |
| C100_deleted_index_answers_refuted | The same with `delete_index`: the deleted index is put back in memory and goes on answering, also after the name was declared anew |
| C100_deleted_documents_return_refuted | `delete_index` closes the queue of updates but its worker still empties it: documents accepted before the deletion are added to the next index of that name |
| C100_undeclared_index_refuted | An update under way while its index is deleted makes the files again without config.json: the index answers searches, updates say not declared, declaring says already exists |
| C100_settings_lost_refuted | A request that fills the cache from config.json while `PUT config` runs caches the old configuration: the new limit is ignored until a restart |
| C101_init_refuted | `colgrep init` in a directory that has its own index and lies below an indexed one updates the index above; `--no-update` searches go on reading the old index of the directory |
| C101_history_refuted | Whether a directory can be searched depends on earlier searches: below an indexed project whose rules leave the directory out (vendor, .gitignore), nothing is found, while the same search before the project was indexed finds its files |
| C101_include_refuted | `--include '**/Cargo.toml'` in a subdirectory without a file of that name directly in it searches the whole project above: the filter widens the search (`should_search_from_root` takes any first component for a directory) |
| C101_clear_refuted | `colgrep clear` tests for the directory, `status` for a complete index: after a stopped first build clear removes the remains and leaves the index that status names and searches use |
| C101_unrecorded_refuted | project.json is written only by builds and at the end of seeding; an index seeded from a worktree and killed before that is completed by later runs but never recorded, so searches below it make indexes of their own |
| C101_collision_refuted | When two directories have the same name and 32 hash bits, `find_index_for_project` returns the other project's index; without update its files are shown as one's own |
| C102_load_while_written_refuted | `MmapIndex::load` takes no lock and reads metadata, centroids and chunks one by one: a load during a rebuild can succeed with the new centroids and the old codes, and shows documents that were in no version |
| C102_search_after_delete_refuted, C102_read_after_delete_refuted | `delete` (and an update or reload that fails) replaces the maps of the handle by empty ones on every system and does not restore them: the next search, or read of a document, panics until a successful `reload` |
| C102_conversion_refuted | The conversion of a fast-plaid index writes centroids.npy in place, without a lock: two first loads at the same time, and the second cuts the file the first has mapped (a crash of the first on access) |
| C102_removed_directory_refuted | Removing an index directory removes the lock files of running merges; a new merge then runs beside the old one, whose rename gives the half-written file of the other its final name |
| C103_file_lost_refuted | The comment in `build_embedding_text` says truncation keeps the file and loses only code; a docstring, signature or import list of 8 K characters pushes the file line out |
| C103_dot_refuted | `normalize_path_for_embedding` removes the extension at the last dot of the whole path: with `v1.2/notes/Makefile` the directories after the dot are lost |
| C103_glued_refuted, C103_class_refuted | `strip_regex_for_semantic` drops `.*` without a space (`error.*handler` becomes `errorhandler`), keeps flags as letters (`(?i)error` becomes `ierror`), and ends a class that starts with `]` too early |
| C103_fixed_refuted | With -F the pattern is still stripped as a regular expression for the semantic query: `args[i].len()` becomes `argslen` |
| C104_absolute_paths_refuted | `settings --no-relative-paths` clears the setting, whose default is now true: after any commands paths stay relative, though it says absolute paths are now default |
| C104_shown_defaults_refuted | `settings` shows and announces k 25 and n 6 as defaults; a search uses 15 (10 with -n) and 20 |
| C104_alpha_refuted | `settings --alpha 0`, keyword only by its own help, resets alpha to 0.6; a search takes any --alpha unclamped |
| C104_nan_refuted | `settings --alpha nan` is accepted and announced, saved as null, and gone at the next load |
| C104_killed_refuted | The settings file is written in place: a kill while writing loses all settings, searches and indexing then silently use the defaults (ignore patterns too), and every settings command fails until the file is removed by hand |
| C104_two_commands_refuted | Two settings commands at the same time: one change is lost |
| C104_other_members_refuted | A member of the file that this version does not know is dropped by the next settings command |
| C104_no_pool_refuted | In a run that encodes more than 10000 units, --no-pool and every pool factor are replaced by 2 |
| C105_directory_as_query_refuted | `colgrep -e TODO src`: src is taken as the query and the current directory is searched |
| C105_query_as_path_refuted | `colgrep -e lock 'read/write lock' src`: the query is taken as a path |
| C105_misspelt_directory_refuted | `colgrep 'error handling' scr` with a misspelt directory: no error; scr becomes the query, the query a pattern, and the current directory is searched without a limit |
| C106_end_line_refuted | merge=True: the merged unit ends where the unit that begins last ends; of a class with methods the end of the last method, not of the class |
| C106_code_once_refuted | merge=True: the code of a method stands in the merged code twice, within its class and by itself |
| C106_single_refuted | merge=True with one unit: neither the name nor the kind Document of a merged unit |
| C106_empty_language_refuted | merge=True of a file without units: language Unknown, though it was detected or named |
| C106_bounded_refuted | the embedding text of a merged unit is not cut at 8192 characters |
| C106_all_listed_refuted | supported_languages leaves out css, qml, text, dockerfile, makefile, powershell, asciidoc and org, which are parsed |
| C107_complexity_refuted | the keyword token of a statement (`if`, `while`) is a node with a decision kind of its own: counted twice |
| C107_calls_refuted | a call of a function whose name begins with an underscore is not recorded |
| C107_calls_with_types_refuted | `it.collect::<Vec<_>>()`: the method is not recorded |
| C107_imports_all_refuted | `import os, sys`: only os is recorded |
| C107_imports_named_refuted | `import users`: the word after import begins with `use`, the whole statement is recorded |
| C107_unit_imports_refuted | a module counts as used when its name is part of a call's (os in close) |
| C107_block_words_refuted | a comment over several lines closed by `*/` ends in ` /` |
| C107_block_code_refuted | a comment at the end of the line above the code makes the code of that line documentation |
| C107_haddock_refuted | a Haddock comment that goes on for a line is lost |
| C107_python_quotes_refuted | an indented docstring keeps the quotes that open it |
| C107_python_one_line_refuted | a docstring on the line of the definition: the definition becomes part of it |
| C108_bounded_refuted | COLGREP_STRONG_PENALTY=2 raises tests above everything; the doc comment says (0, 1] |
| C108_capitals_refuted | directories named Tests (Swift, C#) are not taken for tests |
| C108_query_words_refuted | a query with latest, special, inspect, contest lifts the penalty: it contains test or spec |
| C109_estimate_refuted | 11 documents with 15 tokens: estimate_num_partitions says 14, compute_kmeans makes 15 centroids; the average times the count rounds below 15 |
| C109_empty_sample_refuted | with n_samples_kmeans = 1 and an empty document drawn, index creation fails although other documents have tokens |
| C109_widths_refuted | a one-column document among two-column ones is not refused: assign repeats its column |
| C110_empty_subset_refuted | subset=[] in the Python client searches all documents |
| C110_subset_and_filter_refuted | with a filter the subset is not sent |
| C110_ragged_refuted | rows of widths 2, 1, 3 are stored as a 3 by 2 matrix; as JSON the server refuses them |
| C110_documented_hybrid_refuted | two queries with two text queries, the example of the documentation, are always an error |
| C110_params_default_refuted | params=None searches without the centroid threshold that SearchParams() has |
| C110_fusion_default_refuted | the documentation says rrf is the default fusion; it is relative_score |
| C110_add_without_metadata_refuted | add without metadata, the first example of the documentation, is never accepted |
| C110_get_metadata_empty_refuted | document_ids=[] or limit=0 returns the metadata of all documents |
| C110_delete_refuted | delete_index(docs?old) deletes docs; delete(docs#1, condition) is sent to the address that deletes the whole index docs |
| C110_unprocessable_refuted | 422 is not raised as ValidationError |
| C111_bound_objects_refuted | `header: Bar { signal closed }`: neither Bar nor its signal is a unit |
| C111_coverage_refuted | a QML file without objects gives no unit, although units are documented to cover every line |
| C111_used_refuted | a function naming only FAQ is recorded as using the import Q |
| C112_bounds_refuted | `struct P<T: Show>` is recorded with the type parameters T and Show |
| C112_template_refuted | `template <typename T> class Box { Item x; }` is recorded with the type parameters T, Box and Item |
| C112_several_refuted | `const ( A = 1; B = 2 )` in Go: only A is recorded |
| C112_arrow_refuted | `const ids = xs.map(x => x.id)` is recorded as a function |
| C112_receiver_refuted | a Go method with receiver `Stack[T]` is recorded under `Stack[T]`, not `Stack` |
| C113_one_kind_refuted | an Elixir call is a function and a class at once (a Haskell function also a constant, so never recorded as one) |
| C113_elixir_refuted | the functions of an Elixir module are all called `def` |
| C113_pointer_refuted | `char *f(void) {}` is called `*f(void)` |
| C113_go_type_refuted | `type Stack struct{}` in Go has no name and is not recorded as a type |
| C114_flag_refuted | `--force-cpu` fails if the environment asks for both processors, since the environment is read first |
| C114_library_refuted | the libraries read only `NEXT_PLAID_FORCE_*`: alone they ignore `FORCE_CPU=1`, and take the GPU when both are asked for |
| C115_link_refuted | an index whose directory is a symbolic link is served but not listed |
| C115_health_refuted | an index with a damaged metadata.json is listed but missing from the health report |
| C116_per_second_refuted | RATE_LIMIT_PER_SECOND=50 admits one request every 50 seconds after the burst, where the README says 50 per second: the number is handed to `per_second`, which sets the interval |
| C116_rate | RATE_LIMIT_PER_SECOND=0 or RATE_LIMIT_BURST_SIZE=0, with the limit enabled, ends the server with a panic at its start |
| C116_channel_refuted | BATCH_CHANNEL_SIZE=0 makes every update and deletion panic when its queue is made |
| C116_help_refuted | `-h` is the host: `-h` alone is an error and `-h --help` starts a server on the host `--help` |
| C117_links_refuted | the comment of `copy_dir_all` says links are copied as they are; `fs::copy` follows them, so a link to a file becomes a file and a link to a directory fails the copy |
| C117_blank_refuted | a worktree whose path ends in a blank is never found as a sibling: the path git prints is trimmed |
| C118_outside_refuted | `is_interrupted_outside_critical` may answer yes while another thread is in a critical section that it entered between the two loads |
| C118_message_refuted | the message of the handler may promise to finish a write that was not under way when the key was pressed, or the reverse |
| C119_fewer_refuted | a project without files is not "small": the hooks are silent for it |
