{"id": "C01", "title": "In-memory storage is a map", "statement": "After initialize(), every sequence of store/retrieve/update/delete/list/get_stats calls on the in-memory backend returns exactly what a mathematical map from ids to (vector, metadata) would return: retrieve gives the last pair stored or updated for that id (metadata None if the last write passed none), update and delete return False and change nothing when the id is absent, list returns the live ids in first-store order cut to the limit, an empty id is refused with False, and any call other than the empty-id store before initialize() raises a storage error without effect.", "quantifier": "for every finite history of storage calls with arbitrary ids, vectors, metadata and limits", "why_tests_cant": "Tests try a handful of short histories; the claim ranges over all interleavings of writes, updates and deletes on all ids.", "anchors": ["src/valori/storage/memory.py: MemoryStorage.initialize, store_vector, retrieve_vector, delete_vector, update_vector, list_vectors, close"]}
{"id": "C02", "title": "In-memory storage statistics are exact", "statement": "After any history get_stats() reports a vector_count equal to the number of ids that retrieve would find and a memory_usage_bytes equal to the sum, over live ids, of the vector's byte size plus the byte length of the printed metadata when there is any.", "quantifier": "for every finite history of storage calls", "why_tests_cant": "The counters are recomputed on some paths and skipped on others (updates do not touch the count); only an invariant covers all histories.", "anchors": ["src/valori/storage/memory.py: MemoryStorage._update_stats, get_stats, update_vector"]}
{"id": "C03", "title": "Stored data is isolated from the caller's objects", "statement": "A caller that keeps the array or metadata dictionary it passed in, or the ones it received from retrieve, and later mutates them, never changes what the in-memory backend returns to anybody.", "quantifier": "for every history of storage calls interleaved with arbitrary caller mutations of objects it holds", "why_tests_cant": "Aliasing is a property of all possible later mutations by arbitrary callers; a test checks one mutation of one object.", "anchors": ["src/valori/storage/memory.py: MemoryStorage.store_vector, retrieve_vector, update_vector"]}
{"id": "C04", "title": "Disk storage is a map keyed by the file-safe form of the id", "statement": "Every history of calls on an initialised disk backend returns what a map keyed by the file-safe form of the id would return; in particular two ids denote the same record exactly when they have the same file-safe form, and ids made only of letters, digits, '.', '_' and '-' never interfere with each other.", "quantifier": "for every finite history of storage calls with arbitrary ids", "why_tests_cant": "Interference between ids is a statement about all pairs of ids over an unbounded alphabet.", "anchors": ["src/valori/storage/disk.py: DiskStorage.store_vector, retrieve_vector, delete_vector, update_vector, _sanitize_id"]}
{"id": "C05", "title": "Disk storage keeps distinct ids apart and lists them back", "statement": "Storing under one id never changes what retrieve returns for a different id, and list_vectors returns exactly the ids that were stored and not deleted.", "quantifier": "for every history and every pair of distinct ids", "why_tests_cant": "Needs all pairs of ids; tests only use ids like test_vector_1.", "anchors": ["src/valori/storage/disk.py: DiskStorage._sanitize_id, list_vectors"]}
{"id": "C06", "title": "Disk storage survives close and reopen", "statement": "Whatever a disk backend would return for retrieve of any id just before close(), a new backend object initialised on the same directory returns as well, and its vector_count equals the number of stored records.", "quantifier": "for every history of calls, any number of close/reopen cycles, every id", "why_tests_cant": "Restart equivalence must hold at the end of every history, not of one scripted scenario.", "anchors": ["src/valori/storage/disk.py: DiskStorage.initialize, close, _update_stats"]}
{"id": "C07", "title": "No id can escape the storage directory", "statement": "Every file the disk backend creates, reads or removes on behalf of an id is a direct child of its vectors or metadata directory: the file name contains no path separator and no NUL and is neither '.' nor '..'.", "quantifier": "for every id string", "why_tests_cant": "Path traversal has infinitely many attack strings.", "anchors": ["src/valori/storage/disk.py: DiskStorage._sanitize_id"]}
{"id": "C08", "title": "A crash during one write never damages other records", "statement": "If the process dies at any point inside store, update or delete of one id, then after reopening every id with a different file-safe form reads exactly as before the call, and so do all records of previously completed calls.", "quantifier": "for every prior history, every operation and every crash point inside it (including a half-written file)", "why_tests_cant": "Crash points are not reachable from unit tests without fault injection at every file-system step.", "anchors": ["src/valori/storage/disk.py: DiskStorage.store_vector, update_vector, delete_vector"]}
{"id": "C09", "title": "A write that crashes is all or nothing for its own record", "statement": "If the process dies at any point inside store, update or delete of an id, then after reopening retrieve of that id returns either the pair that was there before the call or the pair the completed call would have left.", "quantifier": "for every prior history, every operation and every crash point inside it", "why_tests_cant": "Requires enumerating every intermediate file-system state.", "anchors": ["src/valori/storage/disk.py: DiskStorage.store_vector, update_vector, delete_vector"]}
{"id": "C10", "title": "Hybrid storage is observably a single map", "statement": "Every history of calls on the hybrid backend returns what one map would return, whatever the memory limit: caching, promotion and eviction are invisible to the caller.", "quantifier": "for every history and every memory limit", "why_tests_cant": "Cache coherence depends on the whole sequence of stores, reads (which promote) and evictions.", "anchors": ["src/valori/storage/hybrid.py: HybridStorage.store_vector, retrieve_vector, delete_vector, update_vector, list_vectors, _evict_oldest_from_memory"]}
{"id": "C11", "title": "Hybrid storage keeps at most memory_limit records in memory", "statement": "After every call the in-memory tier of the hybrid backend holds at most memory_limit records.", "quantifier": "for every history and every limit of at least one", "why_tests_cant": "The bound must hold after every reachable mix of stores, promotions and evictions.", "anchors": ["src/valori/storage/hybrid.py: HybridStorage.store_vector, retrieve_vector, _evict_oldest_from_memory"]}
{"id": "C12", "title": "Hybrid storage loses nothing on restart", "statement": "Every acknowledged write of the hybrid backend is on disk: reopening with an empty memory tier yields the same answer to every retrieve.", "quantifier": "for every history, any number of restarts, every id", "why_tests_cant": "A stale memory tier hides a missing disk write until a restart at an arbitrary moment.", "anchors": ["src/valori/storage/hybrid.py: HybridStorage.store_vector, update_vector, delete_vector, initialize, close"]}
{"id": "C13", "title": "Concurrent in-memory operations are linearisable", "statement": "When several threads use one in-memory backend at once, every call returns a value that some sequential order of the calls, consistent with real time, would return.", "quantifier": "for every set of concurrent calls and every thread schedule", "why_tests_cant": "Schedules cannot be enumerated by tests.", "anchors": ["src/valori/storage/memory.py: MemoryStorage (lock), store_vector, retrieve_vector, close"]}
{"id": "C14", "title": "Concurrent disk writes of one id never mix two records", "statement": "When two threads store different (vector, metadata) pairs under one id in the disk backend, the final record is one of the two pairs.", "quantifier": "for every interleaving of the file-system steps of the two calls", "why_tests_cant": "Depends on the schedule; a test sees one interleaving.", "anchors": ["src/valori/storage/disk.py: DiskStorage.store_vector"]}
{"id": "C15", "title": "The client refuses to work when it is not initialised", "statement": "insert, search, delete, update and get_stats raise and change neither index nor storage before initialize() or after close(), and an initialise that fails leaves the client refusing.", "quantifier": "for every history of client calls with any index and storage", "why_tests_cant": "Lifecycle bugs appear only in particular call orders.", "anchors": ["src/valori/client.py: VectorDBClient.initialize, insert, search, delete, update, get_stats, close"]}
{"id": "C16", "title": "Flat search is exact k-nearest-neighbour search", "statement": "After any history of inserts, updates, deletes and searches through a flat index over any of the three storage backends, search(q,k) with k>=0 returns min(k,n) results with pairwise distinct ids, each id is live, its reported distance is the metric distance from q to the latest vector of that id, its metadata is the latest metadata, results are in non-decreasing distance order and no live id left out is strictly closer than one returned.", "quantifier": "for every history, every backend, every query, every k>=0, every tie-breaking of the unstable argsort", "why_tests_cant": "The state space is the set of all histories and the answer set depends on real-valued distances and ties.", "anchors": ["src/valori/indices/flat.py: FlatIndex.insert, search, delete, update", "src/valori/client.py"]}
{"id": "C17", "title": "Insert returns one fresh id per row and the rows are there", "statement": "insert of n rows returns n pairwise distinct ids, none of them live before; afterwards the i-th id holds exactly the i-th row and the i-th metadata entry (None when there is none) and every other record is unchanged.", "quantifier": "for every prior history, every batch of rows and metadata lists of any length", "why_tests_cant": "Alignment of ids, rows and metadata must hold for every batch shape.", "anchors": ["src/valori/indices/flat.py: FlatIndex.insert", "src/valori/indices/ivf.py: IVFIndex.insert", "src/valori/indices/hnsw.py: HNSWIndex.insert"]}
{"id": "C18", "title": "A deleted vector is never seen again", "statement": "delete(ids) returns True exactly when every listed id was live at its turn; afterwards no search returns any of them until a new insert, and all other records are unchanged.", "quantifier": "for every history, every id list (with repetitions and unknown ids), every later query", "why_tests_cant": "A stale cache entry shows up only in particular later histories.", "anchors": ["src/valori/indices/flat.py: FlatIndex.delete", "src/valori/indices/ivf.py: IVFIndex.delete", "src/valori/indices/hnsw.py: HNSWIndex.delete"]}
{"id": "C19", "title": "Update replaces exactly one record", "statement": "update(id, v, m) returns True exactly when id is live; afterwards searches see v and m for that id and every other record is unchanged; when it returns False nothing changed.", "quantifier": "for every history, every id, vector and metadata", "why_tests_cant": "Every cached copy must be refreshed on every path.", "anchors": ["src/valori/indices/flat.py: FlatIndex.update", "src/valori/indices/ivf.py: IVFIndex.update", "src/valori/indices/hnsw.py: HNSWIndex.update"]}
{"id": "C20", "title": "Flat search answers survive a restart on a persistent backend", "statement": "With disk or hybrid storage, closing the client and opening a new one on the same data yields an index whose search results are again the exact k nearest neighbours among the same records.", "quantifier": "for every history and every query after restart", "why_tests_cant": "Needs equality of behaviour for all queries after all histories.", "anchors": ["src/valori/indices/flat.py: FlatIndex.initialize", "src/valori/storage/disk.py", "src/valori/storage/hybrid.py"]}
{"id": "C21", "title": "A failed insert leaves the database unchanged", "statement": "When insert raises, no vector of the batch is stored or searchable.", "quantifier": "for every prior history and every batch whose insert raises", "why_tests_cant": "Failure points inside a batch are as many as the rows and storage steps.", "anchors": ["src/valori/indices/flat.py: FlatIndex.insert", "src/valori/storage/memory.py: MemoryStorage.store_vector"]}
{"id": "C22", "title": "No accepted write makes the database unsearchable", "statement": "If every insert and update so far returned successfully, a search with a query of the same dimension as some stored vector does not raise.", "quantifier": "for every history of successful writes and every query", "why_tests_cant": "One odd write anywhere in an unbounded history poisons all later searches.", "anchors": ["src/valori/indices/flat.py: FlatIndex.insert, update, search"]}
{"id": "C23", "title": "IVF search before training is exact", "statement": "While the inverted-file index is not yet trained, search has the same exact-k-nearest-neighbour guarantee as the flat index.", "quantifier": "for every history that has not triggered training, every query and k>=0", "why_tests_cant": "All histories and queries.", "anchors": ["src/valori/indices/ivf.py: IVFIndex.search, _brute_force_search"]}
{"id": "C24", "title": "IVF clusters always partition the live vectors", "statement": "After training, every live id is in exactly one cluster, and no cluster contains an id that is not live, whatever clustering was computed.", "quantifier": "for every history, every k-means outcome", "why_tests_cant": "k-means output is arbitrary and the invariant must survive all later inserts, updates and deletes.", "anchors": ["src/valori/indices/ivf.py: IVFIndex._train_index, _add_to_cluster, _update_cluster_assignment, delete"]}
{"id": "C25", "title": "IVF search probing every cluster is exact", "statement": "When n_probes is at least the number of clusters, a trained inverted-file search returns exact k nearest neighbours.", "quantifier": "for every history, every k-means outcome, every query and k>=0", "why_tests_cant": "Completeness over all data sets and cluster layouts.", "anchors": ["src/valori/indices/ivf.py: IVFIndex.search"]}
{"id": "C26", "title": "IVF results are sound for any probe count", "statement": "Every result of a trained inverted-file search is a live id with its true distance and current metadata, ids do not repeat, results are sorted and at most k, and they are the best k among the vectors of the n_probes clusters whose centroids are closest to the query.", "quantifier": "for every history, every k-means outcome, every query, k>=0 and n_probes", "why_tests_cant": "All histories and cluster layouts.", "anchors": ["src/valori/indices/ivf.py: IVFIndex.search"]}
{"id": "C27", "title": "HNSW results are sound", "statement": "Every result of a graph search is a live id with its true distance and current metadata; results are sorted and at most k; no deleted vector appears.", "quantifier": "for every history, every outcome of the random level and neighbour draws, every query and k>=0", "why_tests_cant": "Random graph shapes are unbounded.", "anchors": ["src/valori/indices/hnsw.py: HNSWIndex.search"]}
{"id": "C28", "title": "The HNSW graph stays well formed", "statement": "At every level links are symmetric, never point to the node itself, to a missing node or twice to the same node; every live vector is at level 0 and a vector at a level is at all lower levels; deleting a vector removes every link to it.", "quantifier": "for every history and every random outcome", "why_tests_cant": "A structural invariant over all graphs.", "anchors": ["src/valori/indices/hnsw.py: HNSWIndex._insert_vector_internal, _remove_vector_internal"]}
{"id": "C29", "title": "HNSW search on a non-empty index finds something", "statement": "When at least one vector is stored and k>=1, search returns at least one result.", "quantifier": "for every history, every random outcome and every query", "why_tests_cant": "Depends on random level draws.", "anchors": ["src/valori/indices/hnsw.py: HNSWIndex.search, _insert_vector_internal"]}
{"id": "C30", "title": "HNSW search never returns the same id twice", "statement": "The ids in one search result are pairwise distinct.", "quantifier": "for every history, every random outcome, every query and k", "why_tests_cant": "Depends on the random graph.", "anchors": ["src/valori/indices/hnsw.py: HNSWIndex.search"]}
{"id": "C31", "title": "LSH tables index exactly the live vectors", "statement": "In every hash table each live id occurs exactly once, in the bucket of its own hash code, and no other id occurs, after any history of insert, update and delete calls with ids the index handed out.", "quantifier": "for every history, all projections and offsets", "why_tests_cant": "Invariant over all histories and hash functions.", "anchors": ["src/valori/indices/lsh.py: LSHIndex.add, remove, update, _hash_vector"]}
{"id": "C32", "title": "LSH results are sound", "statement": "Every LSH result is a live id whose reported score is the similarity to its current vector and at least the threshold, results are in non-increasing score order and at most k.", "quantifier": "for every history, all projections, every query and k>=0", "why_tests_cant": "All histories and hash functions.", "anchors": ["src/valori/indices/lsh.py: LSHIndex.search"]}
{"id": "C33", "title": "LSH always finds a stored vector when queried with it", "statement": "Searching with exactly the vector stored under a live id returns that id whenever its self-similarity reaches the threshold and k is large enough.", "quantifier": "for every history, all projections", "why_tests_cant": "Hash and bucket maintenance must agree for all vectors and projections.", "anchors": ["src/valori/indices/lsh.py: LSHIndex.search, _hash_vector"]}
{"id": "C34", "title": "LSH delete and update of an id never handed out change nothing", "statement": "delete and update with an id string that insert never returned leave the index unchanged.", "quantifier": "for every history and every id string", "why_tests_cant": "The id space is all strings.", "anchors": ["src/valori/indices/lsh.py: LSHIndex.delete, remove, update"]}
{"id": "C35", "title": "A failed LSH update changes nothing", "statement": "When update returns False the index answers every later call as if update had not been called.", "quantifier": "for every history, id, vector (of any dimension) and metadata", "why_tests_cant": "Failure in the middle of a multi-step update.", "anchors": ["src/valori/indices/lsh.py: LSHIndex.update"]}
{"id": "C36", "title": "LSH hash codes have the configured length", "statement": "Every hash code has exactly hash_size bits built from projections inside the generated matrix, for every table, whenever hash_size <= num_projections.", "quantifier": "for all configurations and tables", "why_tests_cant": "Window arithmetic with wrap-around over all parameter values.", "anchors": ["src/valori/indices/lsh.py: LSHIndex._hash_vector"]}
{"id": "C37", "title": "Annoy deletion hides the vector", "statement": "After delete (or remove) of an id, search never returns it.", "quantifier": "for every history, every behaviour of the tree library consistent with its interface", "why_tests_cant": "All histories and library answers.", "anchors": ["src/valori/indices/annoy.py: AnnoyIndex.remove, search"]}
{"id": "C38", "title": "Annoy results carry the metadata given for their id", "statement": "Each Annoy search result carries the metadata most recently given for that id.", "quantifier": "for every history and every library answer", "why_tests_cant": "Index bookkeeping over all histories.", "anchors": ["src/valori/indices/annoy.py: AnnoyIndex.add, update, search"]}
{"id": "C39", "title": "An index reachable through the client can be searched after inserting", "statement": "After a successful initialize and a successful insert through the client, a search with a query of the right dimension does not raise.", "quantifier": "for every insert and query, for every index type offered by the library", "why_tests_cant": "All index types and data.", "anchors": ["src/valori/indices/annoy.py: AnnoyIndex.search, build", "src/valori/client.py: VectorDBClient.insert, search"]}
{"id": "C40", "title": "The client's counts agree", "statement": "After any history through the client the index's vector_count equals the storage backend's vector_count.", "quantifier": "for every history and index/storage combination", "why_tests_cant": "All histories.", "anchors": ["src/valori/client.py: VectorDBClient.get_stats", "src/valori/indices/flat.py", "src/valori/indices/lsh.py"]}
{"id": "C41", "title": "Distance functions are metrics", "statement": "Euclidean, Manhattan and Chebyshev distance are non-negative, symmetric, zero exactly on equal vectors and satisfy the triangle inequality; Hamming distance is a non-negative symmetric normalised mismatch count satisfying the triangle inequality.", "quantifier": "for all vectors of equal length over exact real arithmetic", "why_tests_cant": "Universal algebraic laws.", "anchors": ["src/valori/utils/similarity.py"]}
{"id": "C42", "title": "Cosine similarity is bounded, symmetric and scale invariant", "statement": "cosine_similarity lies in [-1,1], is symmetric, is unchanged by scaling either argument by a positive number, is 1 for a non-zero vector with itself and 0 when an argument is the zero vector; the clipping never changes the exact value.", "quantifier": "for all vectors of equal length over exact real arithmetic", "why_tests_cant": "Universal law (Cauchy-Schwarz).", "anchors": ["src/valori/utils/similarity.py: cosine_similarity, cosine_distance, batch_cosine_similarity"]}
{"id": "C43", "title": "All indexes agree on the distance", "statement": "The distance computed by the flat index through the matrix routines equals the one computed by the IVF and HNSW indexes pair by pair, for cosine (zero vectors included) and euclidean metrics.", "quantifier": "for all vectors over exact real arithmetic", "why_tests_cant": "Universal algebraic law.", "anchors": ["src/valori/indices/flat.py: FlatIndex.search", "src/valori/indices/ivf.py: IVFIndex._compute_distance", "src/valori/indices/hnsw.py: HNSWIndex._compute_distance"]}
{"id": "C44", "title": "Scalar codes are within range", "statement": "Every code produced by the scalar quantizer is an integer between 0 and 2^bits-1.", "quantifier": "for every training set, every input vector, every bit width", "why_tests_cant": "All real inputs including far outside the training range.", "anchors": ["src/valori/quantization/scalar.py: ScalarQuantizer.quantize"]}
{"id": "C45", "title": "Scalar quantization error is at most half a step", "statement": "For a vector whose coordinates lie inside the training range, dequantize(quantize(v)) differs from v by at most half the coordinate's step.", "quantifier": "for every training set, every in-range vector, every bit width", "why_tests_cant": "Real-valued inputs.", "anchors": ["src/valori/quantization/scalar.py: ScalarQuantizer.train, quantize, dequantize"]}
{"id": "C46", "title": "Scalar quantization is monotone and idempotent", "statement": "A larger coordinate never gets a smaller code, and quantizing a dequantized code gives back the same code.", "quantifier": "for every training set, every input, every bit width", "why_tests_cant": "Real-valued inputs, rounding half to even.", "anchors": ["src/valori/quantization/scalar.py: ScalarQuantizer.quantize, dequantize"]}
{"id": "C47", "title": "Product codes are valid and optimal", "statement": "Every product code indexes an existing centroid and no other centroid of that subspace is closer to the subvector.", "quantifier": "for every codebook and every input", "why_tests_cant": "All codebooks and inputs.", "anchors": ["src/valori/quantization/product.py: ProductQuantizer.quantize"]}
{"id": "C48", "title": "Product-quantizer distance is the distance to the decoded vector", "statement": "compute_distance(q, code) equals the Euclidean distance from q to dequantize(code).", "quantifier": "for every codebook, query and code", "why_tests_cant": "Algebraic identity over all inputs.", "anchors": ["src/valori/quantization/product.py: ProductQuantizer.compute_distance, dequantize"]}
{"id": "C49", "title": "Product quantization is idempotent", "statement": "Decoding, re-encoding and decoding again gives the same vector.", "quantifier": "for every codebook and code", "why_tests_cant": "All codebooks including duplicate centroids.", "anchors": ["src/valori/quantization/product.py: ProductQuantizer.quantize, dequantize"]}
{"id": "C50", "title": "SAQ segments tile the dimensions", "statement": "The segments chosen for a trained SAQ quantizer are non-empty, contiguous, start at 0, end at the dimension and number exactly n_segments.", "quantifier": "for every variance profile, dimension and n_segments between 1 and the dimension", "why_tests_cant": "Dynamic program over all inputs.", "anchors": ["src/valori/quantization/saq.py: SAQQuantizer._segment_and_allocate_bits"]}
{"id": "C51", "title": "SAQ spends exactly the bit budget with at least one bit per segment", "statement": "The bits allocated to the segments add up to total_bits and each segment gets at least one bit.", "quantifier": "for every variance profile, budget and segment count", "why_tests_cant": "All inputs.", "anchors": ["src/valori/quantization/saq.py: SAQQuantizer._segment_and_allocate_bits"]}
{"id": "C52", "title": "SAQ code adjustment never makes the code worse", "statement": "The reconstruction error after code adjustment is never larger than before it.", "quantifier": "for every vector, every codebook and iteration count", "why_tests_cant": "Real-valued inputs.", "anchors": ["src/valori/quantization/saq.py: SAQQuantizer._apply_code_adjustment"]}
{"id": "C53", "title": "Saved state and index data are read back unchanged", "statement": "After save_state(s, path) or save_index(d, path) succeeded, loading the path returns the same object until the next save to that path, whatever is saved to other paths meanwhile, across restarts.", "quantifier": "for every history of saves and loads, every set of paths", "why_tests_cant": "All histories and paths.", "anchors": ["src/valori/persistence/tensor.py: TensorPersistence.save_state, load_state, save_index, load_index"]}
{"id": "C54", "title": "Saved vectors are read back unchanged", "statement": "After save_vectors(v, ids, path) returned True, load_vectors(path) returns v and ids.", "quantifier": "for every path string, every array and id list", "why_tests_cant": "All path strings and id lists.", "anchors": ["src/valori/persistence/tensor.py: TensorPersistence.save_vectors, load_vectors"]}
{"id": "C55", "title": "The last saved state is what incremental persistence loads", "statement": "With incremental persistence, load_state returns the state of the last save_state call, across any number of orderly restarts and any other saves in between.", "quantifier": "for every history of saves, loads and restarts, every checkpoint interval", "why_tests_cant": "Checkpoint numbering must stay monotone over all histories.", "anchors": ["src/valori/persistence/incremental.py: IncrementalPersistence.save_state, load_state, _load_checkpoint_info, _save_checkpoint_info"]}
{"id": "C56", "title": "An acknowledged incremental save is never shadowed after a crash", "statement": "If the process crashes at any point and is restarted, a later save_state that returns True is what load_state returns.", "quantifier": "for every history and every crash point", "why_tests_cant": "Crash points.", "anchors": ["src/valori/persistence/incremental.py: IncrementalPersistence.save_state, _load_checkpoint_info"]}
{"id": "C57", "title": "Operation numbers in the incremental log are unique", "statement": "The entries of the operation log carry pairwise distinct, increasing operation numbers.", "quantifier": "for every history including restarts", "why_tests_cant": "All histories.", "anchors": ["src/valori/persistence/incremental.py: IncrementalPersistence._log_operation"]}
{"id": "C58", "title": "A crash while saving keeps the previous version readable", "statement": "If the process dies inside save_state or save_index, loading returns the previous or the new object.", "quantifier": "for every history and every crash point", "why_tests_cant": "Crash points.", "anchors": ["src/valori/persistence/tensor.py: TensorPersistence.save_state"]}
{"id": "C59", "title": "Fixed-size chunking covers the text with bounded pieces", "statement": "Fixed-size chunking terminates for every text; every cut piece is at most chunk_size long, pieces start in strictly increasing order, carry the text between their reported positions, are numbered 0,1,2,..., and together cover every non-blank character, for any overlap between 0 and chunk_size-1.", "quantifier": "for every text and every accepted configuration with non-negative overlap", "why_tests_cant": "Loop progress and coverage for all texts and separators.", "anchors": ["src/valori/processors/chunking.py: ChunkingProcessor._fixed_size_chunking, _find_best_break"]}
{"id": "C60", "title": "A text that fits in one chunk gives one chunk", "statement": "A text no longer than chunk_size yields exactly one chunk.", "quantifier": "for every text and every accepted configuration", "why_tests_cant": "All texts.", "anchors": ["src/valori/processors/chunking.py: ChunkingProcessor._fixed_size_chunking"]}
{"id": "C61", "title": "Sliding-window chunking covers the text", "statement": "Sliding-window pieces start at multiples of chunk_size-overlap, are at most chunk_size long and cover the text.", "quantifier": "for every text and accepted configuration", "why_tests_cant": "All texts.", "anchors": ["src/valori/processors/chunking.py: ChunkingProcessor._sliding_window_chunking"]}
{"id": "C62", "title": "No text is lost between input and chunks", "statement": "Every non-blank character of a processed text is contained in some returned chunk.", "quantifier": "for every text, strategy and accepted configuration", "why_tests_cant": "All texts.", "anchors": ["src/valori/processors/chunking.py: ChunkingProcessor.process, _filter_chunks_by_size, _semantic_chunking"]}
{"id": "C63", "title": "Whitespace cleaning yields a normal form", "statement": "With the default options the cleaned text has no leading or trailing blank, contains no blank other than the plain space and never two in a row; cleaning whitespace twice equals cleaning it once.", "quantifier": "for every text and every normalisation table", "why_tests_cant": "All texts.", "anchors": ["src/valori/processors/cleaning.py: CleaningProcessor._clean_text"]}
{"id": "C64", "title": "Cleaning followed by semantic chunking splits long documents", "statement": "A document that is longer than chunk_size and has several paragraphs is split in several chunks by the default cleaning + semantic chunking pipeline.", "quantifier": "for every text", "why_tests_cant": "All texts.", "anchors": ["src/valori/processors/cleaning.py: CleaningProcessor.process", "src/valori/processors/chunking.py: ChunkingProcessor._semantic_chunking", "src/valori/factory.py: create_document_db"]}
{"id": "C65", "title": "The documented pipeline configuration registers its parsers", "statement": "A pipeline configured with {\"parsers\": {name: options}} as in the README can parse a file supported by one of the named parsers.", "quantifier": "for every configuration of the documented shape and every file", "why_tests_cant": "All configurations.", "anchors": ["src/valori/processors/pipeline.py: ProcessingPipeline.initialize, process_document", "src/valori/parsers/registry.py: ParserRegistry.initialize"]}
{"id": "C66", "title": "The registry picks the highest-priority capable parser", "statement": "get_parser returns a registered parser able to parse the file, of maximal priority among those able to, the earliest registered among equals, and raises exactly when none is able.", "quantifier": "for every registry contents and every file", "why_tests_cant": "All registries.", "anchors": ["src/valori/parsers/registry.py: ParserRegistry.get_parser"]}
{"id": "C67", "title": "Batch insertion equals one big insertion", "statement": "batch_insert splits the input in consecutive batches of the configured size, inserts every row exactly once in order with its own metadata, and returns the ids aligned with the rows when no batch fails; processed and failed counts add up to the number of rows.", "quantifier": "for every input length, batch size and pattern of failing batches", "why_tests_cant": "All sizes and failure patterns.", "anchors": ["src/valori/utils/batch_manager.py: BatchManager.batch_insert"]}
{"id": "C68", "title": "Parallel batch insertion loses and invents nothing", "statement": "parallel_batch_insert inserts every row of every successful batch exactly once and returns a permutation of the ids of those rows, for any completion order.", "quantifier": "for every completion order, input and failure pattern", "why_tests_cant": "Schedules.", "anchors": ["src/valori/utils/batch_manager.py: BatchManager.parallel_batch_insert"]}
{"id": "C69", "title": "Batch search answers every query in order", "statement": "batch_search returns one result list per query, in query order, equal to what a single search would have returned, and an empty list for a query whose search failed.", "quantifier": "for every query matrix and failure pattern", "why_tests_cant": "All inputs.", "anchors": ["src/valori/utils/batch_manager.py: BatchManager.batch_search", "src/valori/utils/helpers.py: batch_search"]}
{"id": "C70", "title": "Duplicate groups are sound, disjoint and maximal", "statement": "find_duplicates returns disjoint groups of at least two ascending indices, each member is at least threshold-similar to the group's first member, and two vectors outside all groups are never similar.", "quantifier": "for every data set, similarity function and threshold", "why_tests_cant": "All inputs.", "anchors": ["src/valori/utils/helpers.py: find_duplicates"]}
{"id": "C71", "title": "Validators accept exactly the valid inputs", "statement": "validate_k, validate_id, validate_ids, validate_vector, validate_vectors, validate_metric and validate_metadata accept exactly the values their contracts describe and raise a validation error on all others.", "quantifier": "for every Python value", "why_tests_cant": "All inputs.", "anchors": ["src/valori/utils/validation.py"]}
{"id": "C72", "title": "Recommended configurations can be built", "statement": "get_recommended_config returns a configuration for every data size and use case.", "quantifier": "for every data size, dimension and priority", "why_tests_cant": "All argument values.", "anchors": ["src/valori/configs.py: get_recommended_config, get_config"]}
{"id": "C73", "title": "Every listed configuration can be fetched", "statement": "Every name reported by list_configs is accepted by get_config for that category, and get_config raises for every other name.", "quantifier": "for every category and every name string", "why_tests_cant": "All strings.", "anchors": ["src/valori/configs.py: list_configs, get_config"]}
{"id": "C74", "title": "The recommended index configuration is usable", "statement": "get_recommended_index_config yields, for every number of vectors, dimension and accuracy choice, an index type the factory knows and parameters the index honours.", "quantifier": "for all argument values", "why_tests_cant": "All argument values.", "anchors": ["src/valori/utils/helpers.py: get_recommended_index_config", "src/valori/factory.py: _create_index"]}
{"id": "C75", "title": "Embedding cache is transparent", "statement": "With caching on, every text gets the embedding the model would compute for it, whatever was processed before.", "quantifier": "for every history of texts", "why_tests_cant": "All histories.", "anchors": ["src/valori/processors/embedding.py: EmbeddingProcessor._generate_embedding"]}
{"id": "C76", "title": "Concurrent LSH inserts get distinct ids", "statement": "When parallel_batch_insert drives an LSH index from several threads, all returned ids are pairwise distinct and each id finds its own vector.", "quantifier": "for every thread schedule", "why_tests_cant": "Schedules.", "anchors": ["src/valori/indices/lsh.py: LSHIndex.add", "src/valori/utils/batch_manager.py: BatchManager.parallel_batch_insert"]}
{"id": "C77", "title": "SAQ rescoring returns the best of its candidates", "statement": "search_with_rescoring returns at most k of the given candidates sorted by exact distance, and with rescore_top_k at least the number of vectors it is exact k-nearest-neighbour search.", "quantifier": "for every data set, query and k", "why_tests_cant": "All inputs.", "anchors": ["src/valori/quantization/saq.py: SAQQuantizer.search_with_rescoring"]}
{"id": "C78", "title": "Document parsers' chunkers cover the text", "statement": "The text, PDF and Office parsers' chunkers terminate for every configuration and, for non-negative overlap and positive size, their pieces cover every non-blank character in order.", "quantifier": "for every text and configuration", "why_tests_cant": "All texts.", "anchors": ["src/valori/parsers/text_parser.py: _create_chunks", "src/valori/parsers/pdf_parser.py: _create_chunks", "src/valori/parsers/office_parser.py: _create_chunks"]}
{"id": "C79", "title": "PDF chunks are attributed to the right page", "statement": "The page number attached to a PDF chunk is the page that contains the chunk's first character.", "quantifier": "for every sequence of page texts and every position", "why_tests_cant": "All page layouts.", "anchors": ["src/valori/parsers/pdf_parser.py: _get_page_for_position"]}
{"id": "C80", "title": "Re-initialising gives a fresh, consistent database", "statement": "Calling initialize() again on a client with in-memory storage gives an empty database on which inserts and searches work as on a new one.", "quantifier": "for every prior history and index type", "why_tests_cant": "All histories.", "anchors": ["src/valori/indices/hnsw.py: HNSWIndex.initialize", "src/valori/indices/ivf.py: IVFIndex.initialize", "src/valori/indices/flat.py: FlatIndex.initialize"]}
{"id": "C81", "title": "LSH statistics report bucket sizes", "statement": "get_stats()['max_bucket_size'] of an LSH index is the number of ids in its fullest bucket.", "quantifier": "for every history", "why_tests_cant": "A test that only checks that the key is present, or uses ids that happen to equal the sizes, passes; the claim is about every history.", "anchors": ["src/valori/indices/lsh.py:276-300"]}
{"id": "C82", "title": "Failed quantizer training changes nothing", "statement": "If train raises, the quantizer still encodes and decodes as it did before the call.", "quantifier": "for every trained quantizer and every training input that is rejected", "why_tests_cant": "All reachable states and all ways to fail.", "anchors": ["src/valori/quantization/product.py: ProductQuantizer.train", "src/valori/quantization/scalar.py: ScalarQuantizer.train"]}
{"id": "C83", "title": "SAQ segmentation adapts to the variance profile: refined claim", "statement": "In exact arithmetic every way of cutting the dimensions into n segments has the same cost, so the dynamic program always returns one dimension per segment with the last segment taking the rest, whatever the data.", "quantifier": "for every non-empty variance profile, bit budget and segment count", "why_tests_cant": "A statement about the dynamic program on all real inputs.", "anchors": ["src/valori/quantization/saq.py: SAQQuantizer._segment_and_allocate_bits"]}
{"id": "C84", "title": "SAQ code adjustment changes nothing", "statement": "In exact arithmetic the codes returned by quantize are the same for every adjustment_iters, because the initial codes are already the nearest centroids of each segment.", "quantifier": "for every trained quantizer, data set, tolerance and iteration count", "why_tests_cant": "Real-valued inputs and every iteration count.", "anchors": ["src/valori/quantization/saq.py: SAQQuantizer.quantize", "src/valori/quantization/saq.py: SAQQuantizer._apply_code_adjustment"]}
{"id": "C85", "title": "Every accepted SAQ configuration can be trained", "statement": "With total_bits and n_segments accepted by the constructor, training gets a segmentation, a bit count and a cluster number for every segment.", "quantifier": "for every positive total_bits and n_segments and every variance profile", "why_tests_cant": "All configurations and data.", "anchors": ["src/valori/quantization/saq.py: SAQQuantizer.__init__", "src/valori/quantization/saq.py: SAQQuantizer._train_segment_quantizers"]}
{"id": "C86", "title": "SAQ encodes each segment by its nearest centroid", "statement": "quantize returns one row per vector with, for each segment, the index of a centroid nearest to the part of the vector in that segment.", "quantifier": "for every trained quantizer, data set, tolerance and iteration count", "why_tests_cant": "Real-valued inputs.", "anchors": ["src/valori/quantization/saq.py: SAQQuantizer.quantize", "src/valori/quantization/saq.py: SegmentQuantizer.quantize"]}
{"id": "C87", "title": "validate_config accepts exactly the described configurations", "statement": "validate_config returns True exactly for dictionaries with all required keys, only allowed keys, values of the given types and numbers inside the given ranges, and raises a validation error otherwise.", "quantifier": "for every Python value and every list of required keys, allowed keys, types and ranges", "why_tests_cant": "All values and constraint combinations.", "anchors": ["src/valori/utils/validation.py: validate_config"]}
{"id": "C88", "title": "Templates build exactly the listed databases", "statement": "create_from_template succeeds for each template name it lists and raises ValueError for every other string.", "quantifier": "for every name string", "why_tests_cant": "All strings.", "anchors": ["src/valori/factory.py: create_from_template"]}
{"id": "C89", "title": "Incrementally saved index data and vectors are read back", "statement": "After IncrementalPersistence.save_index (or save_vectors with a .npz path and ids of one kind) returned, load_index (load_vectors) with that path returns the same data after any further calls, crashes and restarts that do not write that file, unless the path leads to one of the manager's own files.", "quantifier": "for every object, path, file system and sequence of later calls, crashes at any point and restarts", "why_tests_cant": "All histories with crashes.", "anchors": ["src/valori/persistence/incremental.py: save_index, load_index, save_vectors, load_vectors"]}
{"id": "C90", "title": "Fixed-size pieces end at the best separator", "statement": "A fixed-size piece that is not the last ends right after the last occurrence, inside its window of chunk_size characters, of the first configured separator that has an occurrence more than min_chunk_size after the start; only when no separator has one does it end at the window's end.", "quantifier": "for every text, separator list and accepted configuration with non-negative minimum size", "why_tests_cant": "All texts and separator lists; overlapping and repeated separators.", "anchors": ["src/valori/processors/chunking.py: ChunkingProcessor._find_best_break, _fixed_size_chunking"]}
{"id": "C91", "title": "Docling chunks are consecutive groups of elements", "statement": "The docling parser's chunks are consecutive non-empty groups of the document's elements, one element per line, each group closed by the first element that brings it to chunk_size; the groups together are all the elements, chunks are numbered in order and end_element is the position of the group's last element.", "quantifier": "for every list of elements and every chunk size", "why_tests_cant": "All element lists and sizes.", "anchors": ["src/valori/parsers/docling_parser.py: _create_structured_chunks"]}
{"id": "C92", "title": "Parsers cut at the last break in the second half of the window", "statement": "A piece of the text, PDF and Office chunkers that is not the last ends right after the last sentence or line break (text), blank line (PDF) or line break (Office) of its window if that lies in the window's second half, and at the window's end otherwise.", "quantifier": "for every text and every configuration of positive size", "why_tests_cant": "All texts and sizes.", "anchors": ["src/valori/parsers/text_parser.py: _create_chunks", "src/valori/parsers/pdf_parser.py: _create_chunks", "src/valori/parsers/office_parser.py: _create_chunks"]}
{"id": "C93", "title": "Docling chunks report their elements", "statement": "start_element and end_element of a docling chunk are the positions of the first and the last element of its group.", "quantifier": "for every list of elements and every chunk size", "why_tests_cant": "Needs two chunks and a look at the numbers.", "anchors": ["src/valori/parsers/docling_parser.py: _create_structured_chunks"]}
{"id": "C94", "title": "Whitespace cleaning keeps the words", "statement": "With whitespace normalisation on (and lowercasing off) the cleaned text is exactly the sequence of the words left by the tag, Unicode and special-character steps, separated by single spaces; with the stop-word filter it is that sequence without stop words and words of unwanted length, in the original order.", "quantifier": "for every text, option set and behaviour of the library functions", "why_tests_cant": "All texts and all library behaviours.", "anchors": ["src/valori/processors/cleaning.py: CleaningProcessor._clean_text"]}
{"id": "C95", "title": "HTML removal leaves no tag", "statement": "With remove_html on, the cleaned text contains no '<', some characters other than '>', '>'; and nothing but such tags is removed by that step.", "quantifier": "for every text and option set", "why_tests_cant": "All texts; interplay of the later steps with the removal.", "anchors": ["src/valori/processors/cleaning.py: CleaningProcessor._clean_text"]}
{"id": "C96", "title": "Exact duplicates are found", "statement": "find_duplicates reports two equal non-zero vectors in the same group, for every supported metric and a threshold of at most one.", "quantifier": "for every data set, metric and pair of equal rows", "why_tests_cant": "All data sets and magnitudes; the damping constant only matters for small norms.", "anchors": ["src/valori/utils/helpers.py: find_duplicates", "src/valori/utils/helpers.py: normalize_vectors"]}
{"id": "C97", "title": "The similarity matrix holds symmetric, bounded similarities", "statement": "compute_similarity_matrix puts at row i, column j the similarity of vectors i and j; it is symmetric, cosine entries lie strictly between -1 and 1, euclidean entries in (0, 1] and equal to 1 exactly for equal rows.", "quantifier": "for every matrix over the reals and every pair of rows", "why_tests_cant": "All real vectors.", "anchors": ["src/valori/utils/helpers.py: compute_similarity_matrix"]}
{"id": "C98", "title": "Normalised rows have measure just below one", "statement": "normalize_vectors divides every row by its measure plus 1e-8: the l2 norm, l1 norm or largest magnitude of the result is below one and within 1e-8 over the old measure of one; minmax maps every entry into [0, 1) and the smallest to 0; unknown names raise, and max and minmax raise on rows without entries.", "quantifier": "for every matrix over the reals", "why_tests_cant": "All real vectors.", "anchors": ["src/valori/utils/helpers.py: normalize_vectors"]}
{"id": "C99", "title": "Embeddings have the model's dimension", "statement": "If the model gives vectors of dimension d, then every embedding the processor hands out has dimension d.", "quantifier": "for every model, configuration, history and text", "why_tests_cant": "All texts and all models.", "anchors": ["src/valori/processors/embedding.py: EmbeddingProcessor._generate_embedding"]}
{"id": "C100", "title": "Normalised embeddings have length one", "statement": "With normalize_embeddings on, every embedding handed out is a vector of length one pointing in the direction of the model's vector.", "quantifier": "for every model over the reals, history and text", "why_tests_cant": "All real vectors.", "anchors": ["src/valori/processors/embedding.py: EmbeddingProcessor._generate_embedding"]}
{"id": "C101", "title": "Batch embedding equals embedding one by one", "statement": "batch_process gives one embedding per text, in order, equal to what the single-text call gives, whatever the batch size.", "quantifier": "for every list of texts and batch size", "why_tests_cant": "All lists and batch sizes.", "anchors": ["src/valori/processors/embedding.py: EmbeddingProcessor.batch_process"]}
{"id": "C102", "title": "Embedding statistics", "statement": "Reading the statistics changes nothing, the cache hit rate lies between 0 and 1, and every text is counted once.", "quantifier": "for every history", "why_tests_cant": "All histories.", "anchors": ["src/valori/processors/embedding.py: EmbeddingProcessor.get_stats, batch_process"]}
{"id": "C103", "title": "Chunk embeddings line up with the chunks", "statement": "After process, the i-th entry of chunk_embeddings is the embedding of the i-th chunk.", "quantifier": "for every document, configuration and history", "why_tests_cant": "All documents.", "anchors": ["src/valori/processors/embedding.py: EmbeddingProcessor.process"]}
{"id": "C104", "title": "The registry registers exactly the usable configured parsers", "statement": "Initialising a parser registry registers, in the order of its configuration, exactly those configured parsers whose name is known and whose construction succeeds; a parser that cannot be built does not affect the others.", "quantifier": "for every configuration and every behaviour of the parser classes", "why_tests_cant": "All configurations.", "anchors": ["src/valori/parsers/registry.py: ParserRegistry.initialize"]}
{"id": "C105", "title": "Adding and removing parsers", "statement": "add_parser makes the parser available under its name and touches no other name, and changes nothing when it fails; remove_parser takes away exactly that name, and initialising the registry again brings back what the configuration asks for.", "quantifier": "for every registry, name and class", "why_tests_cant": "All registries.", "anchors": ["src/valori/parsers/registry.py: ParserRegistry.add_parser, remove_parser, close"]}
{"id": "C106", "title": "A pipeline has each configured processor once, in order", "statement": "After initialize a pipeline has exactly the configured processors, each once, cleaning before chunking before embedding, however often initialize ran before.", "quantifier": "for every configuration and every history of initialisations", "why_tests_cant": "All configurations.", "anchors": ["src/valori/processors/pipeline.py: ProcessingPipeline.initialize, close"]}
{"id": "C107", "title": "A processed document is cleaned, cut and embedded", "statement": "A text or file processed by a pipeline with all three processors comes out with the cleaned text, the chunks of the cleaned text, the embedding of the cleaned text and, chunk by chunk, the embeddings of the chunks; its other entries are unchanged and the recorded parser is the one used.", "quantifier": "for every configuration, text or file, and history of the pipeline", "why_tests_cant": "All texts, models and histories.", "anchors": ["src/valori/processors/pipeline.py: ProcessingPipeline.process_document, process_text"]}
{"id": "C108", "title": "Pipeline results do not depend on the history; batches isolate failures", "statement": "What a document gets does not depend on what was processed before, and batch_process_documents returns one entry per file, in order: what processing the file alone gives, or an entry naming the file and the error.", "quantifier": "for every list of files and every history of the pipeline", "why_tests_cant": "All histories.", "anchors": ["src/valori/processors/pipeline.py: ProcessingPipeline.batch_process_documents"]}
{"id": "C109", "title": "The in-memory backend never deadlocks", "statement": "Whatever calls threads make on one in-memory backend, including close and stores whose metadata cannot be copied, the thread holding the lock always releases it, and a thread inside a call always gets its answer once the owner of the lock and it are scheduled.", "quantifier": "for every backend state, every set of threads and calls, every reachable configuration and every schedule", "why_tests_cant": "Deadlock freedom is a statement about all schedules and all points at which an error can be raised inside the lock.", "anchors": ["src/valori/storage/memory.py: MemoryStorage (lock)"]}
{"id": "C110", "title": "Concurrent insertions into a flat index lose nothing", "statement": "When any number of threads insert batches into one flat index over a backend whose calls are atomic, every call succeeds and returns its own new ids; once all have returned, the backend holds exactly the earlier records and all the batches' records, each vector and metadata under its own id, later searches are exact over all of them, and the statistics count them.", "quantifier": "all histories before, all numbers of threads, all batches with fresh ids, all schedules of the statements", "why_tests_cant": "The outcome depends on where threads are interrupted; a test sees a handful of the schedules.", "anchors": ["src/valori/indices/flat.py:47-86", "src/valori/utils/batch_manager.py:175-250"]}
{"id": "C111", "title": "A flat search beside other threads answers for one moment", "statement": "A search that runs while other threads insert or delete does not fail because of them and answers with the exact nearest neighbours of a set of records that contains every record present throughout and only records present at some moment.", "quantifier": "all histories before, all queries and k, all concurrent insertions and deletions, all schedules", "why_tests_cant": "Needs every interleaving of the loop over the live id list with the other threads' changes of it.", "anchors": ["src/valori/indices/flat.py:88-160", "src/valori/indices/flat.py:162-190"]}
{"id": "C112", "title": "Semantic chunks are groups of whole paragraphs with the configured overlap", "statement": "The semantic strategy's chunks are consecutive groups of the non-blank paragraphs, every paragraph in exactly one group, each chunk preceded by the last chunk_overlap characters of the chunk before it (nothing if that is no longer); a group ends only when the next paragraph would not fit.", "quantifier": "all texts, all accepted sizes and overlaps", "why_tests_cant": "Group boundaries depend on accumulated lengths over arbitrarily many paragraphs.", "anchors": ["src/valori/processors/chunking.py:125-184"]}
{"id": "C113", "title": "Semantic chunks keep to the chunk size", "statement": "A semantic chunk is no longer than chunk_size unless it is a single paragraph with its overlap.", "quantifier": "all texts, all accepted sizes and overlaps", "why_tests_cant": "The excess depends on how paragraph lengths add up.", "anchors": ["src/valori/processors/chunking.py:139-168"]}
{"id": "C114", "title": "Chunks report where they are in the text", "statement": "The text of a chunk is the text between its start_pos and end_pos, trimmed, and start positions increase, for every strategy.", "quantifier": "all texts, all accepted configurations", "why_tests_cant": "Positions are accumulated over all chunks before.", "anchors": ["src/valori/processors/chunking.py:88-212"]}
{"id": "C115", "title": "Cleaning a document cleans its chunks in place", "statement": "Cleaning a document that has chunks cleans the text and every chunk (single spaces, same words) and keeps the number, order, ids and positions of the chunks; the positions still say where a chunk is in the text.", "quantifier": "all documents, all cleaning options with whitespace normalisation", "why_tests_cant": "All texts and chunk lists.", "anchors": ["src/valori/processors/cleaning.py:83-166"]}
{"id": "C116", "title": "The hybrid backend is linearisable under threads", "statement": "When several threads call store, retrieve, delete, update, list and close on one HybridStorage, in any interleaving of the statements and file-system steps of these calls, every history of invocations and answers can be explained by placing each call at one instant between its invocation and its return, where it answers and acts as the sequential specification (records kept under the file-safe form of the id) says; once no thread is inside the lock, later calls find exactly that state. Ids whose file-safe forms coincide are excluded. Statistics calls do not have this property.", "quantifier": "all numbers of threads, call lists, schedules, prior histories, memory limits and directory orders", "why_tests_cant": "The number of interleavings of statement-level steps is unbounded; list and the flag tests run outside of the lock and see half-done writes only in narrow windows.", "anchors": ["src/valori/storage/hybrid.py:41-185", "src/valori/storage/disk.py:47-185", "src/valori/storage/memory.py:40-174"]}
{"id": "C117", "title": "A crash of the hybrid backend is a crash of its disk", "statement": "Through any history of completed calls and of crashes inside calls, followed by restarts, the hybrid backend gives the same answers and leaves the same files as the disk backend through the same calls, also where crashes have left unreadable files; in particular a crash inside a call on one id never changes what later processes read for ids with another file-safe form. Ids whose file-safe forms coincide are excluded.", "quantifier": "all histories, crash points, memory limits and ids", "why_tests_cant": "All crash points inside all calls, with all states of the memory tier, and any number of crashes.", "anchors": ["src/valori/storage/hybrid.py:26-185", "src/valori/storage/disk.py:47-168"]}
{"id": "C118", "title": "A flat database on disk survives a crash inside a call", "statement": "If the process dies at any point inside an insert, a delete or an update of a database with a flat index on the disk backend, a new process can open the directory again, every record that was not being written or deleted at that moment is unchanged, an interrupted insert or delete has done a prefix of its work, and every later call, searches included, is answered as by the exact database with the records that can be read.", "quantifier": "every history of client calls and crashes, every crash point (each file operation and each statement of the index is a step), every metric, every history of calls afterwards", "why_tests_cant": "The crash points, the calls that can be interrupted, the histories before and after, and the directory orders are unbounded in combination; a test kills the process at a few chosen places.", "anchors": ["src/valori/client.py:66-98", "src/valori/indices/flat.py:29-214", "src/valori/storage/disk.py:47-185"]}
{"id": "C119", "title": "A small HNSW database answers exactly", "statement": "While a database with an HNSW index never holds more than m (default 16) vectors at a time, every level of the graph links every two of its nodes; the first hit of any search is a nearest stored vector; and when no vector was drawn above the lowest level, or when ef_search is 1 and something is found, the answer is exactly the k nearest stored vectors in order. The bound is sharp: with seventeen vectors a search for a stored vector can miss it.", "quantifier": "For all histories of calls (with restarts) whose record count never exceeds m, all random draws, all storage backends, metrics, dimensions, queries and k.", "why_tests_cant": "The links depend on random.sample and on the coin for the level; a test sees one draw of the graph, and only an invariant over every insertion, deletion and reload shows that no draw leaves a gap.", "anchors": ["src/valori/indices/hnsw.py:101-184", "src/valori/indices/hnsw.py:186-209", "src/valori/indices/hnsw.py:261-318"]}
{"id": "C120", "title": "An inverted-file database finds the vectors it stores", "statement": "In a trained inverted-file database every live vector is in the cluster of the centroid nearest to it, so that searching for a stored vector, probing at least one cluster, returns it or k hits at least as close, whatever the metric of the index.", "quantifier": "all histories of calls (initialise, insert, search, delete, update, statistics, close, reopen), all backends, all numbers of clusters and probes of at least one, all outcomes of the clustering library that put each vector with its nearest centre", "why_tests_cant": "Whether a vector stays reachable depends on the order of training, updates and deletions and on which of several metrics clusters and searches; a test sees a few data sets.", "anchors": ["src/valori/indices/ivf.py:106-178", "src/valori/indices/ivf.py:274-357"]}
{"id": "C121", "title": "What an LSH search answers, exactly", "statement": "A search of the LSH index answers, sorted by decreasing similarity and cut to k, exactly the live vectors that are similar enough and share a hash bucket with the query in some table; or, when no live vector does, exactly those similar enough whose code differs from the query's in at most two bits in some table.", "quantifier": "all allowed histories of calls, all queries, all projections and offsets, all iteration orders of Python sets, every k", "why_tests_cant": "tests use random projections and can only check that something plausible comes back; the exact set depends on every bit of every stored code, and the fall-back search is rarely reached by small examples", "anchors": ["src/valori/indices/lsh.py:130-189", "src/valori/indices/lsh.py:351-375"]}
{"id": "C122", "title": "Annoy scores are similarities", "statement": "The results of an Annoy search carry scores between 0 and 1 in non-increasing order, and under the distance metrics a score is 1 exactly when the library's distance is 0.", "quantifier": "all histories of calls, all queries, all answers of the library that are listed in order, exact real distances", "why_tests_cant": "the library is not even installed where the tests run, and a handful of distances does not show monotonicity or bounds", "anchors": ["src/valori/indices/annoy.py:227-279", "src/valori/indices/annoy.py:336-359"]}
{"id": "C123", "title": "Which built-in parser gets a file", "statement": "Without a named parser a file gets the first of docling, office, pdf and text that is configured, could be built and lists the file's lower-cased suffix; the order of the configuration does not matter; the registry reports exactly the formats for which it finds a parser, and none before initialising or after closing.", "quantifier": "all configurations, all subsets of usable parsers, all paths", "why_tests_cant": "tests try a few file names with one installation; the claim is about every path, every configuration order and every combination of missing libraries", "anchors": ["src/valori/parsers/registry.py:47-130", "src/valori/parsers/text_parser.py:95-102", "src/valori/parsers/pdf_parser.py:158-165", "src/valori/parsers/office_parser.py:255-262", "src/valori/parsers/docling_parser.py:210-217"]}
{"id": "C124", "title": "Optional components do not change what a client answers", "statement": "A client with a quantizer, a persistence manager or both gives to every history of calls the answers, and leaves index and backend in the states, that a client without them gives to the same calls; exactly so when the components' own initialize and close do not raise, and otherwise up to those outcomes.", "quantifier": "all histories of calls, restarts included, all backends, all indexes, all components whose reports do not raise", "why_tests_cant": "tests build a client with one quantizer or manager and look at a few answers; equality with the plain client for every history and every implementation is out of their reach", "anchors": ["src/valori/client.py:26-126"]}
{"id": "C125", "title": "A client's quantizer compresses and its persistence manager saves the data", "statement": "After vectors have been inserted through a client with a quantizer and a persistence manager, the quantizer has been trained on them and the manager's directory holds them, so that a later process can get them back.", "quantifier": "all histories of calls, all backends, indexes, quantizers and managers", "why_tests_cant": "tests use quantizers and managers on their own; that no client call ever reaches them is a statement about all histories", "anchors": ["src/valori/client.py:26-126", "src/valori/persistence/tensor.py:32-39", "src/valori/persistence/incremental.py:38-55"]}
{"id": "C126", "title": "Statistics of a client in service", "statement": "On an initialised client whose backend reports, get_stats answers with the counts whatever optional components it has.", "quantifier": "all client states, all optional components", "why_tests_cant": "whether a component's report raises depends on the order of train and initialize, and tests try one order", "anchors": ["src/valori/client.py:98-114", "src/valori/quantization/saq.py:62-71", "src/valori/quantization/saq.py:615-642"]}
{"id": "C127", "title": "Vectors saved to a file are read back", "statement": "What save_vectors_to_file writes under a path, load_vectors_from_file reads back from that path: the same array and the same metadata. No other file is touched, and an unknown format or suffix is refused.", "quantifier": "all arrays, metadata lists, paths, formats and file trees", "why_tests_cant": "whether the round trip holds depends on the path's suffix, the metadata's keys and values and the array's element type, and tests try one of each", "anchors": ["src/valori/utils/helpers.py:255-292", "src/valori/utils/helpers.py:295-327"]}
{"id": "C128", "title": "Several storage objects over one directory", "statement": "When several processes use one data directory through DiskStorage objects of their own, one call after another, every answer is the one a single shared store would give, including the statistics.", "quantifier": "all interleavings of whole calls of any number of processes", "why_tests_cant": "what each object has cached depends on how the calls of all processes are interleaved", "anchors": ["src/valori/storage/disk.py:23-45", "src/valori/storage/disk.py:47-218"]}
{"id": "C129", "title": "Several clients over one directory", "statement": "When several clients with flat indexes use one data directory, a search by any of them ranks the records the directory holds and returns them with their metadata.", "quantifier": "all interleavings of whole calls of any number of clients, all queries", "why_tests_cant": "the id list and vector cache of a client depend on what the other clients did after it came into service", "anchors": ["src/valori/indices/flat.py:33-160", "src/valori/client.py:49-84", "src/valori/storage/disk.py:81-106"]}
{"id": "C130", "title": "The quality score of a set of vectors", "statement": "VectorAnalyzer's quality score of any non-empty two-dimensional array lies between 0 and 1, is 1 exactly when every value is finite and no vector is constant, depends on each vector separately (the score of two sets together is their average weighted by size), and one vector scores 1/2 if it is zero, 7/10 if it is constant, finite and not zero, 1/5 if it is constant and infinite, and otherwise 1 minus half the share of its NaN and infinite values.", "quantifier": "all arrays of any number of vectors of any positive dimension, NaN and infinities included", "why_tests_cant": "Tests check a few arrays; the bounds and the exactness of a perfect score concern every mixture of NaN, infinite, constant and zero vectors.", "anchors": ["src/valori/utils/debugging.py:219-259"]}
{"id": "C131", "title": "The counts in the analysis of a set of vectors", "statement": "VectorAnalyzer.analyze_vectors answers for every non-empty set of vectors; the counts of vectors, NaN, infinite, constant and zero vectors are exact; sparsity is the share of zeros; high_similarity_pairs is the number of pairs of vectors that are more similar than 0.95, and low_similarity_pairs that of pairs below -0.5.", "quantifier": "all arrays, all symmetric similarity functions, all random samples", "why_tests_cant": "Whether each pair is counted once and whether an analysis can raise depends on every shape and number of vectors.", "anchors": ["src/valori/utils/debugging.py:123-158", "src/valori/utils/debugging.py:184-240"]}
{"id": "C132", "title": "Inspecting an index", "statement": "IndexInspector.inspect_index answers for every index after every history; the vector count it reports is the number of vectors that are not deleted; for an LSH index total_entries is the number of live vectors times the number of tables, and the average bucket size is entries over buckets.", "quantifier": "all histories of inserts, updates, deletes and searches on an LSH index, all Annoy and HNSW index states", "why_tests_cant": "Whether the inspection raises depends on where among the first hundred slots a deleted vector lies; the entry counts depend on the whole history.", "anchors": ["src/valori/utils/debugging.py:427-491"]}
{"id": "C133", "title": "The profiler's measurements", "statement": "Every block measured by PerformanceProfiler.measure, however it ends, adds exactly one measurement under its name after those there were; measuring changes neither the outcome nor the duration of the program; durations are not negative and lie within the run if the clock is not set back; get_summary answers after every run, with exact counts and with figures for which min <= avg <= max and total = avg * count; and the total of an operation is at most the time the run took.", "quantifier": "all programs of nested, sequential, failing and recovering measured blocks, all clocks and memory readings", "why_tests_cant": "Nesting, exceptions within blocks and repeated names combine without bound.", "anchors": ["src/valori/utils/debugging.py:20-87"]}
{"id": "C134", "title": "The query analyser's history", "statement": "QueryAnalyzer.analyze_query answers exactly when every result has a distance, and then adds one entry whose mean, least and greatest distance describe the results; otherwise it raises KeyError and adds nothing; analyze_query_patterns counts the analysed queries and describes their times and result counts.", "quantifier": "all sequences of queries with all results", "why_tests_cant": "The aggregate depends on the whole history, failed queries included.", "anchors": ["src/valori/utils/debugging.py:296-361"]}
{"id": "C135", "title": "The resource monitor's threads", "statement": "At any time at most one monitoring thread runs; stop_monitoring returns, and after it nothing is read until the next start_monitoring; start_monitoring resumes reading; the summary describes the readings, and its duration is the time monitored.", "quantifier": "all interleavings of callers and monitoring threads, all readings and failures", "why_tests_cant": "Races between start, stop and the monitoring thread show only under particular interleavings.", "anchors": ["src/valori/utils/batch_manager.py:357-432"]}
{"id": "C136", "title": "The progress bar", "statement": "ProgressTracker never raises, its bar is always thirty characters wide and fills as many of them as thirtieths are done, never shrinks when increments are not negative, is full after finish, and is printed at most once a second.", "quantifier": "all totals, all sequences of updates at all times", "why_tests_cant": "Rounding and rate limiting depend on every total, increment and clock.", "anchors": ["src/valori/utils/batch_manager.py:306-354"]}
{"id": "C137", "title": "How many handlers a logger has", "statement": "After every sequence of get_logger, setup_logging and log calls, no logger but the root has more than one handler and the root has at most two; setup_logging leaves the root with one handler, or two with a file; asking again for a logger changes nothing; and the debugging tools' setup_logging can be repeated without adding handlers.", "quantifier": "all sequences of calls, all names and levels", "why_tests_cant": "Duplicate handlers accumulate over call sequences of any length.", "anchors": ["src/valori/utils/logging.py:11-107", "src/valori/utils/debugging.py:401-425"]}
{"id": "C138", "title": "Where a log message is printed", "statement": "Each of the nine log functions prints its message once on standard output if its severity is at least the configured level and not otherwise, and once in the log file if one is configured.", "quantifier": "all sequences of calls before it, all levels and files", "why_tests_cant": "What is printed depends on the handlers and levels left by the whole history and on propagation through the logger tree.", "anchors": ["src/valori/utils/logging.py:11-271", "src/valori/utils/debugging.py:401-425"]}
{"id": "C139", "title": "A document parser answers exactly when the file passes its checks and can be opened, and otherwise raises ParsingError", "statement": "Each of the four parsers (text, PDF, Office, docling) returns a document exactly when the parser is initialised, the file exists, its lower-cased suffix is one of the parser's formats, its size can be found out and does not exceed the limit, and the library opens it; in every other case the caller sees a ParsingError and nothing else. No page of a PDF can make the parser fail; a workbook with a chart sheet always does.", "quantifier": "all files, paths, sizes, limits, encodings, and all answers or exceptions of the libraries that open the files", "why_tests_cant": "A test opens a few files with one set of libraries; the claim is about every exception any library can raise and every combination of failing checks.", "anchors": ["src/valori/parsers/text_parser.py:34-93", "src/valori/parsers/pdf_parser.py:38-156", "src/valori/parsers/office_parser.py:42-73", "src/valori/parsers/docling_parser.py:48-138"]}
{"id": "C140", "title": "The text parser hands on the decoded file, its encoding, language, paragraphs and chunks", "statement": "The text is the file's bytes decoded with the configured or detected encoding, with every line end written as a newline and otherwise unchanged; the metadata name the size and the encoding used; the number of paragraphs is the number of pieces at the leftmost non-overlapping blank lines; chunks are made exactly when the text is longer than the chunk size, and then leave nothing but blanks out; the language is English only for English text.", "quantifier": "all byte contents, all detectors and decoders, all options", "why_tests_cant": "Line ends, blank lines and words can occur in any combination; tests use a few short samples.", "anchors": ["src/valori/parsers/text_parser.py:53-90", "src/valori/parsers/text_parser.py:104-163"]}
{"id": "C141", "title": "The PDF parser keeps the text of every readable page and describes the pages it kept", "statement": "The text is that of the pages that can be read and are not blank, in order, with a blank line between them; the page entries are those of these pages, with their numbers, lengths and whether they have images; the counts match, and chunks carry pages as described in C78 and C79.", "quantifier": "all documents: every page may raise when its text or its images are read", "why_tests_cant": "It depends on which calls of the PDF library raise on which page; tests use well-formed files.", "anchors": ["src/valori/parsers/pdf_parser.py:60-153"]}
{"id": "C142", "title": "A Word document's text is its paragraphs, with its tables", "statement": "The text is the non-blank paragraphs, trimmed, one a line, each with an entry carrying its number, length and style; the tables are reported with their sizes and trimmed cells if wanted; the chunks cover the text; what stands in a table can be found in the text.", "quantifier": "all documents, chunk sizes and overlaps", "why_tests_cant": "Documents mix blank and non-blank paragraphs and tables of any shape in any order.", "anchors": ["src/valori/parsers/office_parser.py:75-141"]}
{"id": "C143", "title": "Workbooks and presentations: every value and every shape's text is in the text, under its sheet or slide", "statement": "A workbook's text has a section for each sheet with a value, a line for each row with a value, the values separated by bars, and every value occurs in it; a presentation's text has a section for each slide with text, with the slide's number, and every shape's text occurs in it; the entries and counts describe these sections.", "quantifier": "all workbooks and presentations", "why_tests_cant": "Empty cells, rows, sheets, shapes and slides can occur anywhere; the claim covers every position.", "anchors": ["src/valori/parsers/office_parser.py:143-201", "src/valori/parsers/office_parser.py:203-253"]}
{"id": "C144", "title": "The docling parser keeps every element's text and the tables and figures asked for", "statement": "The text is the elements with text, trimmed, one a line, in order; every element's text occurs in it; the chunks are made of the same texts; tables and figures are what was read of the elements whose label contains the word, in order, and none if the option is off.", "quantifier": "all converted documents, options and labels", "why_tests_cant": "Elements with and without text, labels and readable tables occur in any order.", "anchors": ["src/valori/parsers/docling_parser.py:70-133", "src/valori/parsers/docling_parser.py:140-163"]}
{"id": "C145", "title": "The registry and the pipeline report what they have", "statement": "An initialised registry reports each parser it has as available, with its formats and statistics, and each class without a parser as unavailable, nothing else and nothing twice; its formats are those of its parsers, sorted and without duplicates. Before initialisation and after close nothing is reported. A pipeline reports its processors in order and its registry; asking changes nothing and does not fail.", "quantifier": "all registries, configurations, parsers and pipelines", "why_tests_cant": "Any subset of parsers may be configured, fail to build, be added or removed; formats may overlap in any way.", "anchors": ["src/valori/parsers/registry.py:121-158", "src/valori/processors/pipeline.py:178-203"]}
{"id": "C146", "title": "The release scripts find the package's name and version", "statement": "The name and the version are the quoted values at the first lines of pyproject.toml with these keys; only if one is missing, the values in the metadata section of setup.cfg; the script stops exactly if neither file has both. The name taken is the project's.", "quantifier": "all texts of the two files", "why_tests_cant": "Keys, blanks, sections and other tables can stand in any order in a text of any length.", "anchors": ["scripts/release.py:31-64", "scripts/clean_dist.py:18-59"]}
{"id": "C147", "title": "Cleaning deletes exactly the old distributions", "statement": "Deleted are the archives of this package of another version, as far as they can be deleted; files of the current version, files that are no archives, directories and other packages' files stay. A dry run deletes nothing and lists the same files.", "quantifier": "all names, versions and contents of dist", "why_tests_cant": "Versions and package names can be starts of one another in any way.", "anchors": ["scripts/release.py:67-102", "scripts/clean_dist.py:61-92"]}
{"id": "C148", "title": "A release is sent only with consent and credentials", "statement": "A dry run changes and sends nothing; who is asked and does not consent changes nothing; something is sent only after a successful build, with a token of the right kind or a configuration file, and to the test server exactly with --test; the exit code is that of the upload. Files whose deletion was agreed to are deleted before the upload.", "quantifier": "all options, directories, answers, builds and environments", "why_tests_cant": "Options, answers, failures of the build and environment variables combine freely.", "anchors": ["scripts/release.py:105-235"]}
{"id": "C149", "title": "The chunking statistics", "statement": "After any calls chunks_created is the number of chunks handed back, total_characters_processed the number of characters of the texts handed in while the processor was open, and average_chunk_size the average length of the chunks.", "quantifier": "all configurations and histories of calls", "why_tests_cant": "Histories are unbounded and mix failing and successful calls.", "anchors": ["src/valori/processors/chunking.py:36-86", "src/valori/processors/chunking.py:239-253"]}
{"id": "C150", "title": "The cleaning statistics", "statement": "After any calls the counters are the number of documents cleaned and the lengths of their texts before and after; the ratio is their quotient, 0 without characters, and lies between 0 and 1; characters_removed is not negative.", "quantifier": "all configurations, library functions and histories of calls", "why_tests_cant": "Histories are unbounded; whether a text grows depends on every combination of cleaning steps.", "anchors": ["src/valori/processors/cleaning.py:38-40", "src/valori/processors/cleaning.py:83-191"]}
{"id": "C151", "title": "Concurrent insertions into an inverted-file index lose nothing", "statement": "When several threads insert into one inverted-file index under any interleaving of their statements, every insertion returns its ids; afterwards the stored records, the id list and, when trained, the clusters hold exactly the old and the new vectors once each, a search over all clusters is exact, and the count is the number of vectors.", "quantifier": "all histories before, all numbers of threads, all rows, all schedules, all clusterings that keep their contract", "why_tests_cant": "Schedules cannot be enumerated, and the faulty ones need a switch between two particular statements.", "anchors": ["src/valori/indices/ivf.py:58-104", "src/valori/indices/ivf.py:274-345"]}
{"id": "C152", "title": "Concurrent insertions into a graph index keep the graph well formed", "statement": "When several threads insert into one graph index under any interleaving of their statements, every insertion returns its ids; afterwards the backend and the index hold exactly the old and the new vectors, the bottom level has each id once, levels are nested, every link goes to another node of its level, leads back and is there once, searches answer stored vectors with their true distances and each at most once, and the count and the top level are right.", "quantifier": "all histories before, all numbers of threads, all rows, all random draws, all schedules", "why_tests_cant": "Schedules and random draws cannot be enumerated, and the faulty ones need a switch between a test and the statement it guards.", "anchors": ["src/valori/indices/hnsw.py:63-99", "src/valori/indices/hnsw.py:261-302"]}
{"id": "C153", "title": "A component out of service refuses with its own exception and changes nothing", "statement": "Every working call on a storage backend, index, client, quantizer, persistence manager, processor, parser registry or pipeline that was never initialised, or whose close has returned, raises the exception of that component's kind (StorageError, IndexError, ValoriError, QuantizationError, PersistenceError, ProcessingError, ParsingError) and leaves the object and everything around it unchanged; the embedding processor then gives 0 as its dimension without running the model.", "quantifier": "all components of each kind and their parameters, all states before close, all further calls and interference by other code while out of service, all calls and arguments", "why_tests_cant": "Tests call one or two methods on a fresh object; the claim is about every method, every argument and every history before close, including what other code does to the files and the backend meanwhile.", "anchors": ["src/valori/storage/memory.py:40-174", "src/valori/storage/disk.py:60-218", "src/valori/storage/hybrid.py:50-179", "src/valori/indices/flat.py", "src/valori/indices/ivf.py", "src/valori/indices/hnsw.py", "src/valori/indices/lsh.py:121-400", "src/valori/indices/annoy.py:81-427", "src/valori/quantization/scalar.py:42-246", "src/valori/quantization/product.py:40-270", "src/valori/persistence/tensor.py:41-200", "src/valori/persistence/incremental.py:57-236", "src/valori/processors/embedding.py:109-272", "src/valori/processors/base.py:47-49", "src/valori/parsers/registry.py", "src/valori/processors/pipeline.py:63-233", "src/valori/client.py:66-126"]}
{"id": "C154", "title": "A component raises only exceptions of its own kind", "statement": "Whatever goes wrong underneath, every method of a storage backend raises StorageError only, of an index IndexError only, of a quantizer QuantizationError only, of a persistence manager PersistenceError only, of a processor and the pipeline ProcessingError only, of the registry ParsingError only; initialise of the client raises ValoriError only and its data calls ValoriError or what the index raises.", "quantifier": "all methods, arguments and states; all backends under an index, also ones raising anything; all parsers, processors and models under a pipeline", "why_tests_cant": "Tests provoke a handful of failures; the claim covers every failure anywhere underneath, in every state.", "anchors": ["src/valori/exceptions.py", "src/valori/storage/memory.py", "src/valori/storage/disk.py", "src/valori/storage/hybrid.py", "src/valori/indices/flat.py", "src/valori/indices/ivf.py", "src/valori/indices/hnsw.py", "src/valori/indices/lsh.py", "src/valori/indices/annoy.py", "src/valori/quantization/scalar.py", "src/valori/quantization/product.py", "src/valori/persistence/tensor.py", "src/valori/persistence/incremental.py", "src/valori/processors/pipeline.py:29-176", "src/valori/processors/embedding.py:109-263", "src/valori/parsers/registry.py:47-192", "src/valori/client.py:50-96"]}
{"id": "C155", "title": "Set similarity, scaling of single vectors and argument checks of the distance functions", "statement": "jaccard_similarity of two vectors is the size of the intersection over the size of the union of their sets of positive positions (1 for two empty sets): between 0 and 1, symmetric, 1 exactly for equal sets and 0 exactly for disjoint sets that are not both empty; jaccard_distance is one minus it and obeys the triangle inequality and is zero only between equal vectors. normalize_vector divides by the l1, l2 or maximum length, giving length one, keeps the zero vector, and is idempotent. Inner product and squared distance have their textbook values. Every pairwise function refuses, with ValueError, exactly the pairs that are not one-dimensional of equal length.", "quantifier": "all vectors over exact reals, all lengths, all array shapes, all norms", "why_tests_cant": "The triangle inequality and the characterisation of the values 0 and 1 range over all triples of vectors of every length.", "anchors": ["src/valori/utils/similarity.py:60-118", "src/valori/utils/similarity.py:185-258"]}
{"id": "C156", "title": "A semantic search database answers with the closest texts of its corpus", "statement": "create_semantic_search_db(texts) returns a database that holds every text once, with its text, length, model name and dimension as metadata; a search answers the k closest texts in order of distance, a text of the corpus asked for is found at distance zero, and later calls behave as on a database to which the corpus was inserted; without options it can be searched, and an empty corpus gives an empty database.", "quantifier": "For every corpus, sentence model, options, storage, query, k and later history of calls.", "why_tests_cant": "The answer depends on the embedding model, the corpus and the drawn random numbers; tests fix a few texts and one index.", "anchors": ["src/valori/factory.py:138-175", "src/valori/utils/helpers.py:21-61"]}
{"id": "C157", "title": "A hybrid search database answers with documents and keeps their fields", "statement": "create_hybrid_search_db(documents) returns a database whose answers are documents with their true distance, in order; the metadata of a document are its own fields, completed with those computed from its text, and its position as doc_id; a document without text raises KeyError before anything is computed; every index type can be asked for, a document's own fields are never lost, and a document asked for by its text is found.", "quantifier": "For every list of documents with unique keys, sentence model, options, storage, query, k and later history.", "why_tests_cant": "Field names collide in data dependent ways, and what the graph index finds depends on coin tosses.", "anchors": ["src/valori/factory.py:216-268"]}
{"id": "C158", "title": "An image search database holds the readable images under their original positions", "statement": "create_image_search_db(paths) stores exactly the images that can be read, in order, each with its path and its position in the given list; answers carry true distances in order; an extractor that is not supported raises ValueError and a missing package a clear error; the extractors named in the documentation are supported, and a list without a readable image gives an empty database.", "quantifier": "For every list of paths, every pattern of unreadable images, feature model, options, storage, query and k.", "why_tests_cant": "There are exponentially many patterns of failing files; tests use none or one.", "anchors": ["src/valori/factory.py:178-213", "src/valori/factory.py:299-345"]}
{"id": "C159", "title": "Names and options given to the constructors are checked and honoured", "statement": "An index type, storage type or configuration category that does not exist raises ValueError and every existing one is accepted; the index configuration the caller passes reaches the index.", "quantifier": "For every name, every configuration table and every index configuration.", "why_tests_cant": "Tests try one unknown name and the default options.", "anchors": ["src/valori/factory.py:21-135", "src/valori/factory.py:271-296", "src/valori/configs.py"]}
{"id": "C160", "title": "Documents put through the processing pipeline into a database are found again by questions", "statement": "In a program that stores files through a processing pipeline (parse, clean, cut, embed, insert) and asks questions through an embedding pipeline (as examples/document_processing.py does), with files and questions in any order: each readable file leaves exactly one record, in order, holding the embedding of its cleaned text and a description naming the file, the length of the cleaned text, the number of chunks and the parser; unreadable files are skipped and change nothing; every question is answered from exactly those records, with the flat index the documents closest to the question's embedding, closest first; and who asks for a document's text gets that document first.", "quantifier": "all files, parsers, texts, embedding models of one dimension, sessions (any order of stores and questions), index types flat and HNSW, storages, k", "why_tests_cant": "The example stores three fixed texts and asks one question; the claim spans every session, including cache hits from earlier documents, failures half way, and documents whose embedding has another length.", "anchors": ["examples/document_processing.py:172-251", "src/valori/processors/pipeline.py:63-140", "src/valori/processors/embedding.py:141-176", "src/valori/client.py:64-81"]}
{"id": "C161", "title": "Vectors from files: one row per readable file", "statement": "create_vectors_from_files answers, for the files that can be parsed and embedded and in their order, one vector (the embedding of the cleaned text) and the parser's metadata; other files are left out.", "quantifier": "for every list of files, parser, embedding model and pipeline configuration", "why_tests_cant": "All file lists and all models; the function's own configuration never yields a parser, whatever the files.", "anchors": ["src/valori/utils/helpers.py: create_vectors_from_files", "src/valori/processors/pipeline.py: ProcessingPipeline"]}
{"id": "C162", "title": "Measuring an index", "statement": "validate_index_performance answers a report for an index in service: its times are the clock's, its rates belong to them, its count is that of the index, and the index holds the test vectors as if they had been inserted.", "quantifier": "for every index class, every history of the index, all vectors, queries and clocks", "why_tests_cant": "All histories and all clocks, including clocks that stand still.", "anchors": ["src/valori/utils/helpers.py: validate_index_performance", "src/valori/indices/lsh.py: LSHIndex.add, search", "src/valori/indices/annoy.py: AnnoyIndex.add, build"]}
{"id": "C163", "title": "Production wrapper: every history is one surviving database", "statement": "Through ProductionVectorDB, in every order of initialise (repeated, with missing sections, failing logging set-up or failing components), insert, search, update, delete, health, backup, close and new processes, each call answers as one vector database whose records survive; out of service the calls raise, before initialising with an AttributeError; close never raises.", "quantifier": "for every configuration, memory limit, index setting, file order, random draws and history of calls", "why_tests_cant": "All histories with failures at any call and any number of restarts.", "anchors": ["examples/production_setup.py: ProductionVectorDB"]}
{"id": "C164", "title": "Health report", "statement": "get_health_status never raises and changes nothing; it is healthy exactly while the database is in service, gives the number of records and the memory in use, and warns exactly above 1000 megabytes.", "quantifier": "for every history of calls and every memory limit", "why_tests_cant": "All histories; tests do not hold a gigabyte of vectors.", "anchors": ["examples/production_setup.py: get_health_status", "src/valori/storage/hybrid.py: get_stats"]}
{"id": "C165", "title": "A backup determines the database", "statement": "backup_database answers True exactly when the database is in service and the file could be written, changes nothing else, and databases with the same backup hold the same records.", "quantifier": "for every history of calls", "why_tests_cant": "A statement about all pairs of databases.", "anchors": ["examples/production_setup.py: backup_database"]}
{"id": "C166", "title": "The in-memory backend over shared objects is a map of contents", "statement": "Whatever a program does with the arrays, lists and dictionaries it created, passed and received, each call of the in-memory backend answers what one ordered list of records answers, a record being the contents, at the time of the call, of the objects passed.", "quantifier": "for every history of storage calls interleaved with object creations and arbitrary writes into reachable objects", "why_tests_cant": "Ranges over all interleavings of calls with writes into shared objects.", "anchors": ["src/valori/storage/memory.py: MemoryStorage.store_vector, retrieve_vector, update_vector, delete_vector"]}
{"id": "C167", "title": "Decorating a function does not change what it does", "statement": "A program whose functions carry any of the timing, memory and debug decorators, in any order and number, gets the same results and exceptions and makes the same changes, each call once, as without them; only lines are printed.", "quantifier": "for every program, every stack of decorators, every function with effects, every clock", "why_tests_cant": "Ranges over all functions with effects and exceptions and all stacks of decorators.", "anchors": ["src/valori/utils/helpers.py: timing_decorator, memory_usage_decorator", "src/valori/utils/debugging.py: debug_function"]}
{"id": "C168", "title": "Where the message of any logger is printed", "statement": "After any calls of get_logger, setup_logging and the log functions, a message on the logger of any name is printed once on standard output for each logger asked for among that name and the names above it (the name cut before a dot), and once on standard output and in the file by the last setup_logging, each where its level allows it; nothing is printed below the nearest level set; without any handler warnings go to standard error.", "quantifier": "for every history of logging calls, every dotted name, every severity", "why_tests_cant": "Ranges over all name trees and histories.", "anchors": ["src/valori/utils/logging.py:11-108"]}
{"id": "C169", "title": "Closing beside other calls: let in at one instant, effective at a later one", "statement": "When several threads use one in-memory backend and closing and initialising are among their calls, every history is explained by two instants per call: one at which it is refused or let in, according to whether the backend is open then, and a later one at which it acts on the contents, both between its invocation and its return. A record that a retrieval answers with was written, vector and metadata together, under that id by one call invoked before the answer; a listing shows only ids written under.", "quantifier": "for every earlier history, every set of concurrent calls including close and initialize, and every thread schedule", "why_tests_cant": "The window between the test of the flag and the lock is a few instructions wide; tests rarely hit it and cannot cover all schedules.", "anchors": ["src/valori/storage/memory.py: MemoryStorage.store_vector, retrieve_vector, list_vectors, initialize, close (flag tested before the lock)"]}
{"id": "C170", "title": "Concurrent changes of different vectors of a flat index do not disturb each other", "statement": "When several threads insert, delete and update in one flat index over one of the library's locked backends, and no two of the calls are about the same id, then under every schedule each call that has returned has returned the answer it would have given alone on the records at the start, and no call fails. When all have returned, each id has the record its own call leaves of it, ids of no call have the record they had, the index lists exactly the recorded ids, and searches are exact over these records.", "quantifier": "for every earlier history, every set of concurrent insertions, deletions and updates with disjoint ids, and every thread schedule", "why_tests_cant": "FlatIndex has no lock; whether a list append, a list removal and a dictionary write of different threads can lose each other's effect depends on the schedule, of which tests see a few.", "anchors": ["src/valori/indices/flat.py: FlatIndex.insert, delete, update, search"]}
{"id": "C171", "title": "Concurrent changes of the same vector of a flat index leave index and backend in agreement", "statement": "When several threads update and delete the same ids in one flat index, no call fails, and when all have returned the index lists exactly the recorded ids and ranks each of them by its recorded vector.", "quantifier": "for every earlier history, every set of concurrent deletions and updates, and every thread schedule", "why_tests_cant": "The wrong outcomes need a switch between the storage call and the following write to the cache or the id list; tests hit such a window by luck.", "anchors": ["src/valori/indices/flat.py: FlatIndex.delete (storage, list, cache), FlatIndex.update (storage, then cache)"]}
{"id": "C172", "title": "Threads with different ids do not disturb each other on the disk backend", "statement": "Threads store, retrieve, delete and update records in one open disk backend (which takes no lock), any number of calls each, no two threads using ids with the same file-safe form. Every thread gets the answers it would have got alone, the records under its ids are those its calls alone leave, and records under ids of no thread read the same at every moment.", "quantifier": "all states of the files, all lists of calls per thread, all schedules of the file operations, all directory orders", "why_tests_cant": "The number of interleavings of file operations is unbounded; a test run sees a few schedules chosen by the operating system.", "anchors": ["src/valori/storage/disk.py:47-168"]}
{"id": "C173", "title": "A retrieval from the disk backend beside writes of the same id answers with the old or the new record", "statement": "While other threads store, update or delete a record of the disk backend, a retrieval of that id answers with a record that the id had before or after one of these calls, or with none, and does not raise.", "quantifier": "all states of the files, all lists of calls per thread, all schedules of the file operations", "why_tests_cant": "The mixed answer needs a switch of threads between the two saves of one update; tests with a single thread never see it and tests with several do so by chance.", "anchors": ["src/valori/storage/disk.py:47-168"]}
{"id": "C174", "title": "The storage benchmark reports the number of vectors it inserted", "statement": "The comparison of storage backends in scripts/benchmark.py completes, and the vector count it reports for a backend is the number of vectors of this run.", "quantifier": "all backends of the library, all numbers of runs over the same data directories, all vectors, all measured times", "why_tests_cant": "The script is not tested, and one run on a clean machine looks right; the count goes wrong from the second run on, by an amount that depends on the whole history.", "anchors": ["scripts/benchmark.py:33-93"]}
{"id": "C175", "title": "The quantizer benchmark reports a compression ratio for every quantizer", "statement": "benchmark_quantization in scripts/benchmark.py completes and reports a compression ratio for each of its quantizers, so that run_benchmarks writes its results file.", "quantifier": "all backends, all indexes, all vectors, all random draws", "why_tests_cant": "That no run completes, whatever backend, index and vectors, is a statement about all of them; a test shows one failing run, not its cause.", "anchors": ["scripts/benchmark.py:148-216", "scripts/benchmark.py:294-329", "src/valori/quantization/scalar.py:204-236", "src/valori/client.py:49-114"]}
{"id": "C176", "title": "The index benchmark measures all indexes over the same number of vectors", "statement": "benchmark_index_types in scripts/benchmark.py completes; the in-memory backend that the three rounds share is as new at the start of each, and each index reports the number of vectors of its round.", "quantifier": "all vectors of one dimension, all parameters of the indexes, all random draws and clusterings", "why_tests_cant": "Left-over vectors would depend on the draws and on the order of the rounds; one run shows one combination.", "anchors": ["scripts/benchmark.py:95-146"]}
{"id": "C177", "title": "The basic usage example prints what it should", "statement": "main() of examples/basic_usage.py runs to its end: all vectors are inserted, the five nearest are found, the update and the deletion succeed, the searches after them are exact over the changed records and never return a deleted id, the reported count is the number of remaining vectors, and the closed backend is as new.", "quantifier": "all non-empty sets of vectors of one dimension, all metadata, all replacement vectors and all draws of ids", "why_tests_cant": "The example is run, if at all, with one seed and 100 vectors; fewer than five vectors, ties and other dimensions are not seen.", "anchors": ["examples/basic_usage.py:18-106"]}
{"id": "C178", "title": "The quantization example completes", "statement": "main() of examples/advanced_quantization.py prints the compression ratio of each quantizer and reaches its last line.", "quantifier": "all vectors, all numbers of bits, all backends of the library, whatever its other demonstrations do", "why_tests_cant": "No test runs the example; one run shows one set of vectors only, and cannot show that no input completes.", "anchors": ["examples/advanced_quantization.py:16-84", "examples/advanced_quantization.py:150-212"]}
{"id": "C179", "title": "Raising the threshold of an LSH search only removes the hits below it", "statement": "LSHIndex.search with a higher threshold answers exactly the hits of the search with the lower threshold that reach the higher one, in the same order; it leaves the index unchanged; so the counts that examples/advanced_indexing.py prints for rising thresholds never rise and never exceed k.", "quantifier": "all states of the index, all queries, all non-negative limits k, all pairs of thresholds in order", "why_tests_cant": "The threshold filter, the sort and the limit interact; a test sees a few thresholds over one set of vectors.", "anchors": ["src/valori/indices/lsh.py:130-189", "examples/advanced_indexing.py:238-243"]}
