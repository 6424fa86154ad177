{"claims": [
  {"property": "C01", "status": "proved", "theorems": ["C01_memory_is_map", "C01_memory_reads_last_write", "C01_uncopyable_metadata_refuted"], "note": "All histories from a new object; metadata arguments must have a copy method (every dictionary has); without that the refuted theorem shows a half-done store."},
  {"property": "C02", "status": "proved", "theorems": ["C02_memory_statistics"], "note": "Count and bytes related to what retrieve returns."},
  {"property": "C03", "status": "partial", "theorems": ["C03_vectors_isolated_partial", "C03_metadata_partial", "C03_returned_metadata_refuted", "C03_nested_metadata_refuted"], "note": "REFUTED as stated for metadata: retrieve_vector returns the stored dictionary itself (memory.py:83), so changing a received dictionary changes what later reads see; and metadata.copy() is shallow, so changing a nested object changes the stored record. Proved on a heap model for all sequences of calls and of changes to reachable objects: the stored vectors are isolated without condition, the top-level entries of the metadata are isolated as long as received dictionaries are left alone."},
  {"property": "C04", "status": "proved", "theorems": ["C04_disk_is_map_on_safe_names", "C04_disk_reads_last_write", "C04_same_record_iff_same_safe_form"], "note": "Metadata must be picklable; any directory order, any Unicode tables."},
  {"property": "C05", "status": "partial", "theorems": ["C05_distinct_ids_partial", "C05_distinct_ids_refuted"], "note": "REFUTED in general (ids 'a b' and 'a/b' collide, list returns 'a_b'); proved for ids made of letters, digits, '.', '_' and '-'."},
  {"property": "C06", "status": "proved", "theorems": ["C06_disk_survives_reopen", "C06_disk_count_exact"], "note": "Histories may themselves contain any number of close/reopen cycles."},
  {"property": "C07", "status": "proved", "theorems": ["C07_file_names_are_children", "C07_calls_touch_children_only"], "note": "All calls with all arguments, including raising ones."},
  {"property": "C08", "status": "proved", "theorems": ["C08_crashes_leave_others_alone", "C08_one_crash"], "note": "Crash points are the file-system steps of StepModel.v; C14_steps_are_the_call ties the steps to the sequential model."},
  {"property": "C09", "status": "partial", "theorems": ["C09_outcomes_partial", "C09_refuted", "C09_retry"], "note": "REFUTED for store and update: a crash can leave the new vector with the old metadata, or an unreadable file. Partial: these are the only other outcomes, delete is all or nothing, and repeating the call repairs the record."},
  {"property": "C10", "status": "partial", "theorems": ["C10_hybrid_is_map_partial", "C10_hybrid_answers_like_disk_partial", "C10_limit_invisible_refuted"], "note": "REFUTED for ids of equal file-safe form; proved for histories whose ids have pairwise different file-safe forms."},
  {"property": "C100", "status": "partial", "theorems": ["C100_unit_partial", "C100_blank_refuted"], "note": "REFUTED for white space (zero vector). Partial: all other texts with a nonzero model vector, over the reals."},
  {"property": "C101", "status": "partial", "theorems": ["C101_batch_partial", "C101_blank_refuted", "C101_negative_size_refuted", "C101_ragged_refuted"], "note": "REFUTED for texts of white space (model's vector in a batch, zeros alone; with other models the batch raises) and negative batch sizes. Partial: sentence transformers, positive size, no white space, model succeeds."},
  {"property": "C102", "status": "partial", "theorems": ["C102_stats_refuted", "C102_hit_rate_refuted", "C102_counted_twice_refuted", "C102_counters_partial"], "note": "REFUTED: get_stats embeds the word test, hits over embeddings made exceeds 1, batches of the other models count each text twice. Partial: bounds on the counters over single-text histories."},
  {"property": "C103", "status": "partial", "theorems": ["C103_chunks_partial", "C103_missing_refuted"], "note": "REFUTED when a chunk has no text: it gets no entry and later entries shift. Partial: all chunks have a text."},
  {"property": "C104", "status": "proved", "theorems": ["C104_initialise"], "note": ""},
  {"property": "C105", "status": "partial", "theorems": ["C105_add", "C105_remove", "C105_removed_for_good_refuted", "C105_class_remembered"], "note": "REFUTED in its last part: removing a built-in parser forgets its class, so initialising again does not bring it back. The rest is proved."},
  {"property": "C106", "status": "partial", "theorems": ["C106_processors_partial", "C106_twice_refuted", "C106_half_way_refuted", "C106_close"], "note": "REFUTED for a second initialisation, also after a failed one: processors are appended again. Partial: first initialisation of a new or closed pipeline."},
  {"property": "C107", "status": "partial", "theorems": ["C107_content_partial", "C107_collision_refuted"], "note": "REFUTED as stated: the embedding cache is keyed by an md5 digest, and for every hash of 32 hexadecimal digits there are a model and two texts such that the second is given the embedding of the first (C107_collision_refuted). Proved whenever the digests of the texts seen differ."},
  {"property": "C108", "status": "partial", "theorems": ["C108_history_partial", "C108_collision_refuted"], "note": "REFUTED as stated: for every hash of 32 hexadecimal digits there are two texts such that processing one changes what the other gets (C108_collision_refuted). Proved whenever the digests of the texts seen differ."},
  {"property": "C109", "status": "proved", "theorems": ["C109_lock_is_released", "C109_calls_return"], "note": "All calls, close included; statement-level interleaving with an explicit lock."},
  {"property": "C11", "status": "proved", "theorems": ["C11_memory_tier_bounded"], "note": "Bound max(1, limit) for all ids and calls with copyable metadata."},
  {"property": "C110", "status": "partial", "theorems": ["C110_concurrent_inserts_partial", "C110_steps_are_the_calls", "C110_count_refuted"], "note": "Proved for every schedule and any number of threads: no insertion fails, each returns its own ids, and at the end the backend and later searches see exactly the old records and all batches. REFUTED for the count: the length of the id list is read and written in two steps, so get_stats can stay one short (C110_count_refuted). Storage calls are atomic in the model, which is true of the backends with a lock (memory, hybrid)."},
  {"property": "C111", "status": "partial", "theorems": ["C111_search_beside_inserts_partial", "C111_search_raises_refuted", "C111_search_skips_refuted"], "note": "Proved for every schedule of searches beside insertions: exact over a set between the records at the start and those at the end. REFUTED beside deletions: the search can raise (metadata of a row deleted meanwhile), and the loop over the live id list can skip a record that nobody touched (both witnesses machine-checked)."},
  {"property": "C112", "status": "partial", "theorems": ["C112_groups_partial", "C112_zero_overlap_repeats", "C112_zero_overlap_refuted", "C112_negative_overlap_repeats", "C112_negative_overlap_refuted"], "note": "Proved as stated for every positive overlap. REFUTED for overlap 0, where current_chunk[-0:] is the whole chunk, so every chunk repeats all the text before it, and for negative overlaps, where every chunk starts with the one before it less its first characters; for both the exact form of the chunks is proved (..._repeats)."},
  {"property": "C113", "status": "partial", "theorems": ["C113_sizes_partial", "C113_sizes_refuted"], "note": "Proved: at most chunk_size + 2, or one paragraph with at most chunk_overlap characters before it. REFUTED as stated: the two newlines between paragraphs are not counted."},
  {"property": "C114", "status": "partial", "theorems": ["C114_positions_partial", "C114_semantic_refuted"], "note": "Proved for the fixed-size and sliding-window strategies through chunk_process. REFUTED for the semantic strategy: positions add up chunk lengths, ignoring blank lines, and are off from the second chunk on."},
  {"property": "C115", "status": "partial", "theorems": ["C115_document_partial", "C115_positions_refuted"], "note": "Proved except for the last clause. REFUTED: positions are kept although the text gets shorter, so they can even lie beyond the end of the cleaned text."},
  {"property": "C116", "status": "partial", "theorems": ["C116_steps_are_the_call", "C116_linearisable_partial", "C116_stats_refuted", "C116_initialize_refuted"], "note": "Proved for store, retrieve, delete, update, list and close, with list and all flag tests outside of the lock, for ids with distinct file-safe forms. REFUTED for get_stats: it reports the disk backend's cached count without the lock, so a thread can list a vector and then count zero. REFUTED for initialize beside close: initialize takes no lock, and the backend can be left with the disk part open and the memory part closed, so that listing answers and retrieval raises. Missing: initialize that overlaps no close."},
  {"property": "C117", "status": "proved", "theorems": ["C117_hybrid_is_disk", "C117_crashes_leave_others_alone"], "note": "For ids with distinct file-safe forms and metadata that can be copied and pickled, as in C11 and C12. Crash points are all points between the steps of StepModel.v/HybridSteps.v."},
  {"property": "C118", "status": "partial", "theorems": ["C118_steps_are_the_call", "C118_reopened_partial", "C118_delete_recovers", "C118_torn_record_blocks_search", "C118_interrupted_insert", "C118_interrupted_delete", "C118_interrupted_update", "C118_searchable_refuted"], "note": "REFUTED for searches: one half-written vector or metadata file makes every search of every later process raise, until that id is deleted or written again (C118_torn_record_blocks_search, C118_searchable_refuted). Proved: the stepwise client runs to the same result as the client model; a crash inside insert, delete or update touches only a prefix of the rows plus one half-written record; with no torn record the reopened database conforms to the specification from the readable records on; deleting the torn ids restores that."},
  {"property": "C119", "status": "proved", "theorems": ["C119_hnsw_levels_complete", "C119_hnsw_small_first_hit", "C119_hnsw_small_exact", "C119_hnsw_small_ef1", "C119_hnsw_small_finds", "C119_hnsw_bound_sharp"], "note": "Histories of vectors of one dimension (any values) for the search theorems. C119_hnsw_small_finds: something is found when each upper level holds at least two vectors (C29 refutes it otherwise). C119_hnsw_bound_sharp: with m = 16 and 17 vectors a stored vector is not found."},
  {"property": "C12", "status": "partial", "theorems": ["C12_hybrid_survives_restart_partial", "C12_restart_changes_answer_refuted"], "note": "REFUTED for ids of equal file-safe form; proved otherwise."},
  {"property": "C120", "status": "partial", "theorems": ["C120_ivf_nearest_cluster", "C120_ivf_finds_stored", "C120_ivf_self_first_real", "C120_ivf_cosine_refuted"], "note": "Proved for an index whose metric is the one the clustering labels by (KMeans: Euclidean), over any scalars without overflow; over the reals the best hit is then at distance 0 and equal to the query. REFUTED for the default cosine metric: KMeans stays Euclidean, so a stored vector can be in a cluster that searching for it does not probe; witness with exact reals."},
  {"property": "C121", "status": "partial", "theorems": ["C121_lsh_answer_exact_partial", "C121_nearest_missed_refuted", "C121_nothing_found_refuted"], "note": "The answer is characterised exactly for the histories of C31 (updates keep the dimension, ids not negative, copyable metadata, no initialise while open). Beside it: REFUTED that a search with large k and no threshold returns the nearest vector, or anything at all."},
  {"property": "C122", "status": "partial", "theorems": ["C122_scores_partial", "C122_hamming_refuted"], "note": "Proved over exact reals for angular, Euclidean, Manhattan and dot; REFUTED for Hamming, whose score is one minus a count and so negative."},
  {"property": "C123", "status": "proved", "theorems": ["C123_suffix", "C123_no_suffix", "C123_first_choice", "C123_formats"], "note": "str.lower and which libraries are installed are arguments; suffix as in Python 3.8 to 3.13 on POSIX paths."},
  {"property": "C124", "status": "proved", "theorems": ["C124_no_influence", "C124_as_without"], "note": "For every backend, index and component class: C124_no_influence up to the outcomes of the components' initialize and close, C124_as_without exactly, for components that do not raise. Shown non-empty for the scalar, product and untrained SAQ quantizers and for a tensor manager with room for its directory."},
  {"property": "C125", "status": "partial", "theorems": ["C125_quantizer_idle_partial", "C125_manager_idle_partial", "C125_components_untouched_partial", "C125_scalar_untrained_partial", "C125_product_untrained_partial", "C125_tensor_saves_nothing_partial", "C125_incremental_saves_nothing_partial", "C125_lost_refuted"], "note": "REFUTED: the client never passes data to its optional components. Proved for every history: a quantizer and a manager are only ever initialised, closed and constructed anew; an untrained quantizer stays untrained and quantises nothing; the manager's files stay as they were, apart from an empty operation log. Witness: memory backend with a tensor manager, the inserted vector is gone after an orderly restart."},
  {"property": "C126", "status": "partial", "theorems": ["C126_stats_answer_partial", "C126_saq_refuted"], "note": "REFUTED: a SAQ quantizer trained before the client's initialize keeps its trained flag but loses the PCA object its report reads, and get_stats raises AttributeError. Partial: get_stats answers when backend and components report."},
  {"property": "C127", "status": "partial", "theorems": ["C127_other_files_kept", "C127_npz_reads_back", "C127_pickle_reads_back", "C127_json_reads_back_partial", "C127_json_keys", "C127_read_back_iff_partial", "C127_unknown_refused", "C127_default_format_refuted", "C127_pickle_suffix_refuted", "C127_json_metadata_refuted", "C127_json_array_refuted", "C127_failed_save_refuted"], "note": "REFUTED as stated: the default format appends .npz to any other suffix, so the file is not found under the path given; a pickle under another suffix than .pkl is not read; JSON turns tuples into lists and integer keys into strings and loses the element type; a save that raises has destroyed the file that was there. Proved: the round trips for npz and pickle under their suffixes, for JSON when the metadata and array are of the kind JSON keeps, exactly when the round trip holds, no other file changes, and unknown formats and suffixes are refused."},
  {"property": "C128", "status": "partial", "theorems": ["C128_one_store_partial", "C128_count_partial", "C128_stats_refuted"], "note": "REFUTED for the statistics: the count is cached per object, so what another process stores is listed but not counted. Proved for all interleavings of whole calls: every other answer is that of one shared store, the count is the number of records at the caller's last initialize, store or effective delete, and it is right while no other process makes or removes records. Calls that overlap in time are not covered here."},
  {"property": "C129", "status": "partial", "theorems": ["C129_hits_held_partial", "C129_unseen_refuted", "C129_deleted_elsewhere_refuted", "C129_updated_elsewhere_refuted"], "note": "REFUTED as stated: a client never sees what others insert after it came into service, ranks by the old vector what others update, and raises on searches that select a record another client deleted. Proved: every hit returned is a record of the directory at that time with its current metadata."},
  {"property": "C13", "status": "partial", "theorems": ["C13_linearisable_partial", "C13_close_refuted"], "note": "REFUTED when close is one of the concurrent calls: the initialised flag is tested before the lock is taken, so a read overlapping a close can answer 'no such record' although a sequential order would give the record or an error. Proved for any number of threads, any schedule and all calls but close (after any sequential history, which may contain close): every history linearises and the final object behaves like the linearisation. What holds with close among the calls is C169."},
  {"property": "C130", "status": "proved", "theorems": ["C130_range", "C130_perfect", "C130_average", "C130_one_vector"], "note": "The score is in fact never below 1/5, however bad the data; exact arithmetic."},
  {"property": "C131", "status": "partial", "theorems": ["C131_counts_partial", "C131_pairs_partial", "C131_refused_partial", "C131_sparsity_refuted", "C131_pairs_refuted", "C131_one_vector_refuted"], "note": "REFUTED: what is called sparsity is the share of values that are not zero, so that an array of zeros has sparsity 0; every pair is counted twice; a set of one vector raises ValueError (minimum of no similarities). Proved: the other counts are exact, the pair counts are exactly twice the numbers of pairs up to 1000 vectors, and exactly which arrays are refused."},
  {"property": "C132", "status": "partial", "theorems": ["C132_lsh_partial", "C132_tables_partial", "C132_hnsw_partial", "C132_annoy_partial", "C132_lsh_refuted", "C132_count_refuted", "C132_hnsw_refuted"], "note": "REFUTED: inspecting an LSH index raises ValueError when a vector other than the first is deleted, deleted vectors are counted, and inspecting any non-empty HNSW index raises TypeError. Partial: exactly when the inspection answers (LSH after every history, Annoy, HNSW), the count is that of the slots, and the entries of an open LSH index are the live vectors times the tables."},
  {"property": "C133", "status": "partial", "theorems": ["C133_transparent", "C133_measured", "C133_summary", "C133_total_partial", "C133_total_refuted"], "note": "REFUTED in its last clause: blocks nested in blocks of the same name are counted twice, so the total can exceed the time the run took. Everything else is proved, and the last clause for names whose blocks are not nested in one another."},
  {"property": "C134", "status": "proved", "theorems": ["C134_query", "C134_patterns"], "note": "Exact arithmetic; standard deviations and norms are not modelled."},
  {"property": "C135", "status": "partial", "theorems": ["C135_one_caller_partial", "C135_stop_returns_partial", "C135_summary", "C135_restart_refuted", "C135_two_callers_refuted", "C135_duration_refuted"], "note": "REFUTED: with two callers a start during a stop leaves two threads and a stop that never returns; after an exception in the thread, starting again reads nothing; the duration counts the gap between a stop and the next start. Partial: with one caller at most one thread runs, stop returns within three steps of the thread, and nothing is read after it; the summary describes the readings for any number of callers."},
  {"property": "C136", "status": "partial", "theorems": ["C136_bar", "C136_finish_partial", "C136_updates_partial", "C136_grows_partial", "C136_width_refuted", "C136_finish_refuted"], "note": "REFUTED: a total of zero raises ZeroDivisionError on finish, and more updates than the total make the bar wider than thirty. Partial: exactly when printing raises and when the bar is thirty wide, the number of filled characters, no raise and at most one line a second for positive totals, bars that never shrink."},
  {"property": "C137", "status": "partial", "theorems": ["C137_handlers", "C137_setup", "C137_again", "C137_debug_refuted"], "note": "REFUTED in its last clause: every call of debugging.setup_logging adds a handler to the logger valori. The rest is proved."},
  {"property": "C138", "status": "partial", "theorems": ["C138_printed", "C138_debug_partial", "C138_twice_refuted", "C138_level_refuted"], "note": "REFUTED: after setup_logging a message appears twice on standard output; a level of ERROR does not silence information messages; log_debug never prints. Proved instead: exactly where each message is printed after every sequence of calls that leave its logger and the logger's parents to the library."},
  {"property": "C139", "status": "proved", "theorems": ["C139_errors", "C139_text", "C139_pdf", "C139_office", "C139_docling"], "note": "Exactly when each parser answers; every failure is a ParsingError. The libraries that open the files are arbitrary answers or exceptions."},
  {"property": "C14", "status": "partial", "theorems": ["C14_final_record_partial", "C14_refuted", "C14_spurious_error_refuted", "C14_different_ids", "C14_steps_are_the_call"], "note": "REFUTED: the final record can mix the two pairs. Partial: vector and metadata are each one of the two, other ids are untouched, different ids do not interfere."},
  {"property": "C140", "status": "partial", "theorems": ["C140_text", "C140_chunks", "C140_paragraphs", "C140_language", "C140_encoding_partial", "C140_language_refuted", "C140_encoding_refuted"], "note": "Text, chunks, paragraphs and the exact condition for 'en' are proved. REFUTED: text without an English word is 'en' because the words are looked for inside other words; when detection has no answer (chardet for an empty file) the metadata name no encoding although 'utf-8' is given as the default."},
  {"property": "C141", "status": "partial", "theorems": ["C141_text", "C141_entries", "C141_chunks_partial", "C141_images_refuted"], "note": "Text and entries are proved exactly. REFUTED in one point: when counting a page's images raises, its text stays in the document but its entry is missing, so the count is too low and chunks get the number of a later page."},
  {"property": "C142", "status": "partial", "theorems": ["C142_paragraphs", "C142_tables", "C142_no_tables", "C142_chunks", "C142_tables_refuted"], "note": "REFUTED in one point: the text of tables is in the metadata only, not in the text or any chunk."},
  {"property": "C143", "status": "partial", "theorems": ["C143_sheets", "C143_values", "C143_slides", "C143_cells_refuted", "C143_slides_refuted"], "note": "Sections, values and entries are proved. REFUTED in two points: total_cells leaves out sheets without a value though all sheets are counted; the sections cannot always be told apart again in the text."},
  {"property": "C144", "status": "proved", "theorems": ["C144_text", "C144_tables"], "note": "For every converted document; docling itself is an arbitrary list of elements."},
  {"property": "C145", "status": "partial", "theorems": ["C145_formats", "C145_parsers", "C145_not_ready", "C145_initialised", "C145_pipeline", "C145_asking_refuted"], "note": "The reports are proved exactly. REFUTED in one point: asking a pipeline with an embedding processor runs the model; a second question gets another answer, and it raises if the model does."},
  {"property": "C146", "status": "partial", "theorems": ["C146_pyproject", "C146_setup_cfg", "C146_source", "C146_table_refuted"], "note": "What is found is proved exactly. REFUTED: a name in a table before [project] is taken instead of the project's."},
  {"property": "C147", "status": "partial", "theorems": ["C147_cleaned", "C147_kept", "C147_script", "C147_versions_refuted", "C147_package_refuted"], "note": "The files listed and deleted are characterised exactly. REFUTED: versions whose text continues the current one are kept (0.1.10 next to 0.1.1), and archives of other packages whose name continues after a dash are deleted."},
  {"property": "C148", "status": "partial", "theorems": ["C148_dry_run", "C148_declined", "C148_upload", "C148_yes", "C148_interactive", "C148_not_sent", "C148_answer_refuted"], "note": "Consent, credentials, server and exit code are proved. REFUTED: answering yes deletes nothing, and the old files are uploaded; without --yes nothing is ever deleted (C148_interactive)."},
  {"property": "C149", "status": "partial", "theorems": ["C149_counters", "C149_average_partial", "C149_average_refuted", "C149_refused_refuted"], "note": "The counters are proved for all histories. REFUTED for the average: it is characters in over chunks out; it is right for one text without blanks cut without overlap. Refused texts are counted."},
  {"property": "C15", "status": "partial", "theorems": ["C15_client_refuses_partial", "C15_failed_reinitialise_refuted"], "note": "Any index, any storage: refuses before a successful initialize and after close. REFUTED part: an initialize that fails on a client already in service leaves it answering."},
  {"property": "C150", "status": "partial", "theorems": ["C150_counters", "C150_ratio_partial", "C150_ratio_refuted"], "note": "The counters are proved; the bounds if the library functions do not lengthen texts. REFUTED otherwise: NFKD makes some characters longer, so the ratio exceeds 1 and characters_removed is negative."},
  {"property": "C151", "status": "partial", "theorems": ["C151_steps_are_the_calls", "C151_concurrent_inserts_partial", "C151_training_loses_refuted", "C151_training_doubles_refuted", "C151_training_raises_refuted", "C151_new_cluster_loses_refuted", "C151_count_refuted"], "note": "REFUTED in general: when an insertion trains the index, another one running at the same time can lose its row, enter rows twice or raise; when a cluster has no list yet two threads can lose a row; the count can lag. Proved for any number of threads and any schedule when the index is trained and every cluster has its list, or when all the rows together are too few to train."},
  {"property": "C152", "status": "partial", "theorems": ["C152_steps_are_the_calls", "C152_refused_out_of_service", "C152_concurrent_inserts_partial", "C152_links_doubled_refuted", "C152_count_refuted", "C152_max_level_refuted"], "note": "REFUTED in part: two threads can make the same link twice, after which a search for two answers one vector twice and a deletion leaves a link to a deleted id; the count can lag; max_level can be put back below a populated level. Proved for any number of threads, any draws and any schedule: ids returned, records and vectors exact, bottom level exact, levels nested, links to other nodes of the level and symmetric, searches genuine."},
  {"property": "C153", "status": "partial", "theorems": ["C153_storage_partial", "C153_empty_id_refuted", "C153_indexes", "C153_lsh_annoy_partial", "C153_lsh_delete_refuted", "C153_insert_number_refuted", "C153_client", "C153_quantizers", "C153_persistence", "C153_processors", "C153_dimension", "C153_registry", "C153_pipeline"], "note": "Proved for the three backends, the five indexes, the client with any components, the scalar and product quantizers, both persistence managers, the three processors, the registry and the pipeline, after any history and any interference. REFUTED in three places: storing under the empty id answers False before the flag is looked at, LSHIndex.delete answers False because it swallows the exception, and inserting a number without metadata into an LSH or Annoy index raises TypeError. The SAQ quantizer's guards are not modelled."},
  {"property": "C154", "status": "partial", "theorems": ["C154_storage", "C154_indexes", "C154_lsh_annoy_partial", "C154_lsh_refuted", "C154_quantizers", "C154_persistence", "C154_client", "C154_processors", "C154_embedding_partial", "C154_embedding_refuted", "C154_registry_partial", "C154_registry_refuted", "C154_pipeline"], "note": "Proved for the three backends, the flat, inverted-file and graph indexes over any backend, the scalar and product quantizers, both persistence managers, the client, the chunking and cleaning processors and the pipeline (with the entries of a batch). REFUTED for LSH search and insert (ValidationError, AttributeError), for the embedding processor (passes on what the model raises; ValueError for batch size 0) and for initialising a registry (AttributeError); the true parts of these are the partial theorems."},
  {"property": "C155", "status": "partial", "theorems": ["C155_jaccard_value", "C155_jaccard_laws", "C155_jaccard_triangle", "C155_jaccard_identity_refuted", "C155_normalize", "C155_normalize_idempotent", "C155_pair_checks", "C155_normalize_checks", "C155_products"], "note": "Everything proved over exact reals except one clause, REFUTED: jaccard_distance is zero between different vectors that are positive at the same positions (negative entries count as absent)."},
  {"property": "C156", "status": "partial", "theorems": ["C156_flat_closest_partial", "C156_own_text_partial", "C156_hnsw_true_partial", "C156_raises", "C156_forest_never_answers", "C156_default_refuted", "C156_empty_refuted"], "note": "REFUTED for the default options: the default index (annoy) is never built, so every search raises; and for an empty corpus, which raises IndexError. Proved with the flat index (exact closest texts, own text first at distance 0, all later histories) and with the graph index (true texts and distances, all later histories)."},
  {"property": "C157", "status": "partial", "theorems": ["C157_hnsw_true_partial", "C157_flat_closest_partial", "C157_no_text", "C157_annoy_raises", "C157_doc_id_refuted", "C157_nothing_found_refuted", "C157_annoy_refuted"], "note": "REFUTED: a document's own doc_id is overwritten by its position; a single document lifted by the coin is not found; asking for index_type annoy alone always raises. Proved: true documents, distances and fields with the graph index, closest documents with the flat index, KeyError for a missing text."},
  {"property": "C158", "status": "partial", "theorems": ["C158_images_partial", "C158_raises", "C158_unreadable_refuted", "C158_resnet_refuted"], "note": "REFUTED: the documented extractor resnet raises ValueError, and a list without a readable image raises IndexError. Proved: exactly the readable images in order with their original positions, true distances, all later histories."},
  {"property": "C159", "status": "partial", "theorems": ["C159_names", "C159_category", "C159_category_error", "C159_document_metric_partial", "C159_document_overwritten", "C159_document_options_refuted"], "note": "REFUTED: create_document_db overwrites the caller's index_config for annoy and hnsw. Proved: unknown names raise ValueError and existing ones are accepted; the metric reaches the flat index."},
  {"property": "C16", "status": "proved", "theorems": ["C16_flat_history_conforms", "C16_flat_exact_knn", "C16_flat_exact_knn_real"], "note": "All three backends, every correct argsort, every history with fresh uuids and dictionary metadata; query of the stored dimension, finite, supported metric."},
  {"property": "C160", "status": "partial", "theorems": ["C160_flat_partial", "C160_hnsw_partial", "C160_own_text_partial", "C160_blank_refuted", "C160_own_file_refuted"], "note": "REFUTED in two ways: a file without text is stored with 384 zeros, and unless that is the model's dimension every later question raises IndexError; and the example cleans documents but not questions, so the text of a file as it stands may find another file first. Proved for the rest: after any session the records are exactly those of the readable files, the flat index answers the closest documents, the graph index genuine ones, and the cleaned text of a document is answered at distance zero first; needs that the hash of the embedding cache tells the texts apart and that embeddings have one length."},
  {"property": "C161", "status": "partial", "theorems": ["C161_files_partial", "C161_always_raises", "C161_refuted", "C161_blank_refuted"], "note": "REFUTED for the function as it is: its configuration puts the parsers one level too high, so no file is ever parsed, and the empty result np.array([]).reshape(0, -1) raises ValueError (C161_always_raises: for all files and models). Proved for any configuration that does give the pipeline parsers; there a blank file still makes the whole call raise (C161_blank_refuted)."},
  {"property": "C162", "status": "partial", "theorems": ["C162_lsh_partial", "C162_inserting_raises", "C162_flat_refuted", "C162_no_queries_refuted", "C162_coarse_clock_refuted", "C162_annoy_twice_refuted"], "note": "REFUTED: flat, HNSW and IVF have no add (AttributeError for every call), no queries or a clock that stands still raise ZeroDivisionError after the vectors were added, an Annoy index can be measured only once. Proved for LSH after every history."},
  {"property": "C163", "status": "proved", "theorems": ["C163_histories"], "note": "Hybrid storage and graph index as the wrapper builds them; search answers are genuine in the sense of C27."},
  {"property": "C164", "status": "partial", "theorems": ["C164_health_partial", "C164_refuted"], "note": "REFUTED for the memory in use: the graph index keeps a copy of every vector that no figure counts, so no warning is given with 1.8 GB held and a memory limit of one vector. Partial: everything else, with the memory figure being the bytes of the records in the memory tier."},
  {"property": "C165", "status": "partial", "theorems": ["C165_backup_partial", "C165_refuted"], "note": "REFUTED: a backup holds the statistics and the configuration only; two databases with different vectors write the same backup. Partial: when True is answered, that nothing else changes, and what the file holds."},
  {"property": "C166", "status": "partial", "theorems": ["C166_contents_partial", "C166_refuted"], "note": "REFUTED as stated: retrieve_vector hands out the stored dictionary itself, so a write into it changes what the next call answers. Proved: with no write into a dictionary received from retrieve_vector, all answers are those of one list of records of contents. Contents of a dictionary are its entries, a nested list being a reference (C03_nested_metadata_refuted)."},
  {"property": "C167", "status": "partial", "theorems": ["C167_histories_partial", "C167_timing_prints", "C167_debug_prints", "C167_memory_refuted", "C167_debug_unshown", "C167_debug_refuted"], "note": "REFUTED as stated: with psutil installed a memory-decorated function that raises ImportError runs twice; on a terminal that cannot show pictograms a debugged function is not called. Proved: with every line shown, and no ImportError from a memory-decorated function (or psutil missing), decorating changes nothing but the lines printed, and which lines those are."},
  {"property": "C168", "status": "proved", "theorems": ["C168_names", "C168_once", "C168_root"], "note": "For histories without the debugging tools' setup_logging (C137, C138). str.upper is an arbitrary function that keeps INFO. Asking for the root logger is the subject of C168_root."},
  {"property": "C169", "status": "proved", "theorems": ["C169_two_instants", "C169_answers_were_written"], "note": "The positive counterpart of C13_close_refuted: all calls including initialize and close, any number of threads, any schedule. Finding shown by example: a store that passed the test before a close answers True after it and leaves its record in the closed object until the next initialize."},
  {"property": "C17", "status": "proved", "theorems": ["C17_flat_insert", "C17_ivf_insert", "C17_hnsw_insert"], "note": "Flat, IVF and HNSW index; uuid4 freshness is a hypothesis."},
  {"property": "C170", "status": "proved", "theorems": ["C170_changes_of_different_ids", "C110_steps_are_the_calls"], "note": "Each thread goes through the same steps as a copy of it that runs alone; what index and backend hold of an id is changed by its owner only. Storage calls are single steps (true of the memory and hybrid backends, which hold a lock). The count shown by get_stats is not part of the claim (C110 refutes it)."},
  {"property": "C171", "status": "partial", "theorems": ["C171_changes_of_the_same_id_partial", "C171_stale_vector_refuted", "C171_deletion_raises_refuted", "C171_ghost_id_refuted"], "note": "REFUTED as stated: two updates of one id can leave the cache with the vector the backend does not have, and searches rank by it for good; two deletions of one id can make one of them raise in list.remove and leave the rest of its batch; deleting an id whose insertion is under way leaves a listed id without record. Proved for every schedule of deletions and updates: updates never fail, a returned deletion has removed its records for good, at the end the listed ids are the recorded ones, records and cached vectors are original or given by one of the updates."},
  {"property": "C172", "status": "proved", "theorems": ["C172_steps_are_the_calls", "C172_threads_with_different_ids"], "note": "For all file states, calls and schedules. Listing, statistics, initialize and close are not among the calls of the threads."},
  {"property": "C173", "status": "partial", "theorems": ["C173_retrieval_beside_writes_partial", "C173_mixed_record_refuted", "C173_error_while_replacing_refuted"], "note": "REFUTED: a reader can get the new vector with the old metadata, and can get StorageError while the record is replaced. Proved: an answer consists only of contents that the id had at the start or that a call writes under it, and the only exception is the storage error."},
  {"property": "C174", "status": "partial", "theorems": ["C174_reported_counts_partial", "C174_second_run_refuted", "C174_other_dimension_refuted", "C174_still_clock_refuted"], "note": "REFUTED: over the backends with files the data directory is never emptied, so run n reports the vectors of all n runs, and a run with another dimension fails with an index error; a clock that did not move gives ZeroDivisionError. Proved: the exact counts of every run for each backend, for vectors of one dimension."},
  {"property": "C175", "status": "partial", "theorems": ["C175_never_completes", "C175_every_round_fails", "C175_no_results_file", "C175_only_obstacle", "C175_missing_ratio_refuted"], "note": "REFUTED, and in the strongest form: no run ever completes, because the client never trains its quantizer and an untrained quantizer reports no compression ratio (KeyError); the results file is never written. It is the only obstacle: with a comparison that answers the file is written."},
  {"property": "C176", "status": "proved", "theorems": ["C176_indexes_measured_alike"], "note": "For clocks that moved; index parameters with m >= 0 and at least one cluster."},
  {"property": "C177", "status": "proved", "theorems": ["C177_basic_usage", "C177_deleted_not_found"], "note": "basic_usage.py with the flat index and the cosine metric over the in-memory backend, as the example has it; random vectors are any finite vectors of one dimension."},
  {"property": "C178", "status": "partial", "theorems": ["C178_no_ratio_partial", "C178_never_completes_partial", "C178_key_error_partial", "C178_quantization_example_refuted"], "note": "REFUTED: the client never trains its quantizer, so the statistics have no compression ratio and the example ends with KeyError. Proved: no input completes it; with acceptable vectors every call before answers and the error is exactly the KeyError."},
  {"property": "C179", "status": "proved", "theorems": ["C179_raising_the_threshold", "C179_above_the_default", "C179_any_order", "C179_counts_fall"], "note": "The exact list is stated for the same iteration order of the candidate set in both searches (it is the same set); the number of hits for any two orders. For a negative k, which slices from the end, it does not hold: C179_negative_limit_refuted."},
  {"property": "C18", "status": "proved", "theorems": ["C18_flat_delete", "C18_flat_deleted_never_found", "C18_ivf_delete", "C18_ivf_deleted_never_found", "C18_hnsw_delete", "C18_hnsw_deleted_never_found"], "note": "Flat, IVF and HNSW index."},
  {"property": "C19", "status": "proved", "theorems": ["C19_flat_update", "C16_flat_exact_knn", "C19_ivf_update", "C26_ivf_history_conforms", "C19_hnsw_update", "C27_hnsw_search_sound"], "note": "Flat, IVF and HNSW index; what searches see follows from C16/C26/C27 over the updated records."},
  {"property": "C20", "status": "proved", "theorems": ["C20_flat_restart"], "note": "Disk and hybrid backends, with or without an orderly close."},
  {"property": "C21", "status": "partial", "theorems": ["C21_failed_insert_partial", "C21_failed_insert_refuted"], "note": "REFUTED: an insert failing on a later row leaves earlier rows stored."},
  {"property": "C22", "status": "partial", "theorems": ["C22_searchable_partial", "C22_unsearchable_refuted"], "note": "REFUTED: inserts of different dimensions succeed and make search raise."},
  {"property": "C23", "status": "proved", "theorems": ["C23_ivf_untrained_exact", "C23_ivf_untrained_exact_real"], "note": "Any history in which all vectors have one dimension (mixed dimensions: see C22), memory/disk/hybrid storage, cosine or euclidean."},
  {"property": "C24", "status": "proved", "theorems": ["C24_ivf_partition"], "note": "Any k-means outcome with n_clusters centres and one label per row; live means retrieve finds it."},
  {"property": "C25", "status": "proved", "theorems": ["C25_ivf_full_probe_exact", "C25_ivf_full_probe_exact_real"], "note": "As C23; initialize is called only when not in service (re-initialise: C80)."},
  {"property": "C26", "status": "proved", "theorems": ["C26_ivf_probed_best", "C26_ivf_history_conforms"], "note": "n_probes >= 0."},
  {"property": "C27", "status": "proved", "theorems": ["C27_hnsw_search_sound", "C27_hnsw_history_conforms", "C18_hnsw_deleted_never_found", "C27_hnsw_search_sound_real"], "note": "All backends, histories and random draws."},
  {"property": "C28", "status": "proved", "theorems": ["C28_hnsw_graph_well_formed", "C28_hnsw_no_trace"], "note": "All backends, histories and random draws; m >= 0."},
  {"property": "C29", "status": "partial", "theorems": ["C29_hnsw_finds_something_partial", "C29_hnsw_finds_something_refuted", "C29_hnsw_after_deletion_refuted"], "note": "REFUTED: a vector alone on the top level hides the whole database, and so does emptying the top level by deletion. Proved when every node above level 0 has a neighbour on each of its levels."},
  {"property": "C30", "status": "partial", "theorems": ["C30_hnsw_distinct_ids_partial", "C30_hnsw_distinct_ids_refuted"], "note": "REFUTED: candidates are not de-duplicated. Proved for one-level graphs and for ef_search = 1."},
  {"property": "C31", "status": "partial", "theorems": ["C31_tables_index_live_partial", "C31_failed_update_refuted"], "note": "REFUTED as stated: an update with a vector of another dimension answers False and leaves the live id in no bucket. Proved for histories whose updates keep the dimension, with copyable metadata, ids that are not negative numbers, and no initialize while open."},
  {"property": "C32", "status": "partial", "theorems": ["C32_history_conforms_partial", "C32_search_sound_partial", "C32_similarity_value", "C32_negative_id_refuted"], "note": "REFUTED as stated: update('-1') makes searches return id -1. Proved for all histories without negative id strings (failed updates and re-initialisation included)."},
  {"property": "C33", "status": "partial", "theorems": ["C33_finds_itself_partial", "C33_finds_itself_real_partial", "C33_reinitialise_refuted"], "note": "REFUTED after initialize() on an open index (tables emptied, vectors kept). Proved for histories in which that does not happen and updates keep the dimension; over the reals any threshold <= 1 is enough."},
  {"property": "C34", "status": "partial", "theorems": ["C34_unknown_id_partial", "C34_never_handed_out_refuted"], "note": "REFUTED: '-1' deletes the last vector and ' 0' updates the first although neither was handed out. Proved for ids that are not negative numbers and do not parse to a live slot."},
  {"property": "C35", "status": "partial", "theorems": ["C35_failed_update_partial", "C35_wrong_dimension_refuted"], "note": "REFUTED: an update with a vector of another dimension answers False after unlinking the old vector. Proved for updates that keep the dimension."},
  {"property": "C36", "status": "proved", "theorems": ["C36_code_shape"], "note": ""},
  {"property": "C37", "status": "partial", "theorems": ["C37_deleted_partial", "C37_deleted_returned_refuted"], "note": "REFUTED: deleted ids are still returned by search (with metadata None). The partial theorem proves no later result for a deleted id carries metadata."},
  {"property": "C38", "status": "partial", "theorems": ["C38_metadata_partial", "C38_update_refuted"], "note": "REFUTED with update(), which appends instead of filling the slot. Proved for histories without update, with copyable metadata and no negative ids."},
  {"property": "C39", "status": "partial", "theorems": ["C39_flat_partial", "C39_ivf_partial", "C39_hnsw_partial", "C39_lsh_partial", "C39_annoy_never_searchable", "C39_annoy_search_refuted"], "note": "REFUTED for Annoy: through the client every search raises, for every history and storage. Proved for flat, IVF, HNSW (client level) and LSH (index level) for finite vectors."},
  {"property": "C40", "status": "partial", "theorems": ["C40_flat_counts_agree", "C40_ivf_counts_agree", "C40_hnsw_counts_agree", "C40_lsh_counts_refuted", "C40_annoy_counts_refuted"], "note": "Proved for flat, IVF and HNSW; REFUTED for LSH and Annoy, which never write to storage."},
  {"property": "C41", "status": "partial", "theorems": ["C41_euclidean_value", "C41_euclidean_metric", "C41_manhattan_value", "C41_manhattan_metric", "C41_chebyshev_value", "C41_chebyshev_metric_partial", "C41_chebyshev_empty_refuted", "C41_hamming_value", "C41_hamming_partial", "C41_hamming_normalised_refuted"], "note": "Over exact reals. REFUTED in two corners: the Chebyshev distance of two empty vectors raises ValueError, and the Hamming distance is an unnormalised count. Everything else holds."},
  {"property": "C42", "status": "proved", "theorems": ["C42_cosine_value", "C42_cosine_laws", "C42_cosine_scale_invariant", "C42_batch_agrees"], "note": "Over exact reals; rounding is not modelled."},
  {"property": "C43", "status": "proved", "theorems": ["C43_indexes_agree"], "note": "Over exact reals, against the textbook distance defined in PropsSimilarity."},
  {"property": "C44", "status": "partial", "theorems": ["C44_codes_in_range_partial", "C44_codes_in_range_refuted"], "note": "Codes are in range for any state, any input (infinities and NaN included) and any rounding, whenever bits <= 63 and 2^bits-1 is exact in the float type. REFUTED for every bit width: with 54 bits in float64 a training vector gets code 2^54."},
  {"property": "C45", "status": "partial", "theorems": ["C45_half_step_partial", "C45_half_step_refuted"], "note": "Half a step for 1..24 bits in exact real arithmetic. REFUTED from 25 bits on: the decoder turns codes into float32."},
  {"property": "C46", "status": "partial", "theorems": ["C46_monotone_partial", "C46_monotone_refuted", "C46_idempotent_partial", "C46_idempotent_refuted"], "note": "Monotone for any monotone rounding that keeps 0 and 2^bits-1 (1..63 bits), infinities included; idempotent for 1..24 bits in exact arithmetic. REFUTED in full: 63 bits in float64 is not monotone; in float32 a decoded code may re-encode differently."},
  {"property": "C47", "status": "partial", "theorems": ["C47_training_gives_codebook", "C47_optimal_partial", "C47_optimal_refuted"], "note": "Proved for every codebook of up to 65536 centroids per subspace (real arithmetic) and training always yields such a codebook. REFUTED above that: codes are stored as uint16, so with 65537 centroids the last one gets code 0."},
  {"property": "C48", "status": "proved", "theorems": ["C48_distance_to_decoded"], "note": "Over the reals, for every codebook, every decodable code row (negative indices included) and every query, cut or zero-padded to the dimension as the code does."},
  {"property": "C49", "status": "partial", "theorems": ["C49_idempotent_partial", "C49_idempotent_refuted"], "note": "Proved for up to 65536 centroids per subspace, duplicates included. REFUTED above that (uint16 codes)."},
  {"property": "C50", "status": "proved", "theorems": ["C50_segments_tile"], "note": "For every variance profile (NaN and infinities included) and every rounding function: when segmentation succeeds the segments tile [0,dim]."},
  {"property": "C51", "status": "partial", "theorems": ["C51_budget_partial", "C51_each_a_bit_partial", "C51_each_a_bit_refuted"], "note": "Budget spent exactly: proved for every rounding. One bit per segment: REFUTED when there are more segments than bits; proved in exact arithmetic when each dimension's share is worth a bit."},
  {"property": "C52", "status": "proved", "theorems": ["C52_never_worse", "C52_reaches_optimum"], "note": "Over exact reals, for any trained centroids, in-range codes, tolerance and iteration count; also that adjustment never fails and one iteration reaches the least error."},
  {"property": "C53", "status": "partial", "theorems": ["C53_read_back_partial", "C53_plain_paths", "C53_read_back_refuted"], "note": "REFUTED as stated: two path strings can name one file ('a' and './a'), and save_vectors('a') overwrites the state saved at 'a.npz'. Proved: for every history with crashes and restarts the object is read back until a call writes the same file; ordinary path strings name different files."},
  {"property": "C54", "status": "partial", "theorems": ["C54_read_back_partial", "C54_lost_without_suffix", "C54_suffix_refuted", "C54_ids_refuted"], "note": "REFUTED as stated: np.savez appends .npz, so without that suffix load_vectors finds nothing (proved for all such paths), and mixed ids come back as strings. Proved: read-back for every path ending in .npz and every list of ids of one kind."},
  {"property": "C55", "status": "partial", "theorems": ["C55_last_state_partial", "C55_last_state_refuted"], "note": "REFUTED as stated: an index saved under a checkpoint's name is loaded instead; a failed save of an unpicklable state followed by a restart makes later loads raise. Proved: for all histories of saves of picklable objects, loads, closings and orderly restarts with caller paths off the manager's own files."},
  {"property": "C56", "status": "partial", "theorems": ["C56_safe_crashes_partial", "C56_shadowed_refuted"], "note": "REFUTED: a crash between writing the checkpoint and checkpoint.json lets the interrupted checkpoint shadow a later acknowledged save. Proved: for all histories whose crashes fall outside that window (safe_crash)."},
  {"property": "C57", "status": "partial", "theorems": ["C57_session_partial", "C57_unique_refuted"], "note": "REFUTED: after a restart the count goes back to the last checkpoint's and numbers repeat. Proved: inside one session the entries appended to the log carry consecutive numbers, for all histories before it and all calls in it."},
  {"property": "C58", "status": "partial", "theorems": ["C58_outcomes_partial", "C58_refuted"], "note": "REFUTED: open(path,'wb') empties the file first, so a crash before the dump loses both objects. Proved: the exact outcome (old, unreadable, new) for every crash point of every replacing save."},
  {"property": "C59", "status": "partial", "theorems": ["C59_terminates", "C59_fixed_size_partial", "C59_negative_min_refuted"], "note": "Proved for every text and every accepted configuration with non-negative overlap and non-negative min_chunk_size. REFUTED for negative min_chunk_size, which initialize accepts: a missing separator is then taken for one at position -1 and text is lost."},
  {"property": "C60", "status": "partial", "theorems": ["C60_pieces_of_small_text", "C60_one_chunk_partial", "C60_refuted"], "note": "REFUTED: with overlap o, a short text gives one piece per position of its last o characters (52 chunks for 200 characters with the defaults), and a text shorter than min_chunk_size gives none. C60_pieces_of_small_text characterises the pieces exactly; one chunk is proved for overlap <= 0 and a non-blank text within the size limits."},
  {"property": "C61", "status": "partial", "theorems": ["C61_sliding_partial", "C61_refuted"], "note": "Positions, lengths, order and numbering proved; every window is a chunk or shorter than min_chunk_size; coverage proved for min_chunk_size <= 1 and non-negative overlap. REFUTED otherwise: windows shorter than min_chunk_size are dropped."},
  {"property": "C62", "status": "partial", "theorems": ["C62_nothing_lost_partial", "C62_refuted"], "note": "Proved for the three strategies when the size limits let everything through (0 <= min <= 1, max >= length). REFUTED: with the default limits a short text, and under the semantic strategy a paragraph above max_chunk_size, disappear."},
  {"property": "C63", "status": "proved", "theorems": ["C63_normal_form", "C63_idempotent"], "note": "For every option set with whitespace normalisation; when lowercasing is also on, for a lower() that keeps the normal form."},
  {"property": "C64", "status": "partial", "theorems": ["C64_never_split", "C64_refuted"], "note": "REFUTED: whitespace normalisation removes the blank lines semantic chunking splits at, so every document becomes a single chunk, and a document above max_chunk_size (2000) yields no chunk at all. C64_never_split proves this for all texts and configurations."},
  {"property": "C65", "status": "partial", "theorems": ["C65_refuted", "C65_nested_partial"], "note": "REFUTED for every configuration of the documented shape: the pipeline hands the value of \"parsers\" to the registry, which looks for \"parsers\" in it again, so nothing is registered and every file fails. Partial: one level deeper it works."},
  {"property": "C66", "status": "proved", "theorems": ["C66_choice", "C66_named", "C66_raising"], "note": "For registries whose can_parse answers (all four built-in parsers do); a can_parse that raises makes the selection raise."},
  {"property": "C67", "status": "partial", "theorems": ["C67_batches_partial", "C67_ids_aligned", "C67_one_insertion", "C67_flat_one_insertion", "C67_negative_size_refuted", "C67_raising_callback_refuted", "C67_not_reset_refuted"], "note": "Proved for positive batch sizes and callbacks that return, including equality with one big insertion through a client over a flat index on any backend. REFUTED for negative sizes (nothing inserted, no error), for a raising progress callback (rows counted twice) and for a second call without reset_stats (counters accumulate)."},
  {"property": "C68", "status": "partial", "theorems": ["C68_parallel_partial", "C68_raising_callback_refuted"], "note": "Every execution order and completion order, insertions atomic. REFUTED when the progress callback raises: rows are inserted but no id is returned."},
  {"property": "C69", "status": "partial", "theorems": ["C69_batch_search_partial", "C69_same_as_single_partial", "C69_negative_size_refuted", "C69_helper", "C69_helper_refuted"], "note": "BatchManager.batch_search for positive sizes and callbacks that return. REFUTED for negative sizes, and for helpers.batch_search, where one failing query costs all answers."},
  {"property": "C70", "status": "proved", "theorems": ["C70_groups", "C70_outside", "C70_total"], "note": "Any scalar type, metric and threshold."},
  {"property": "C71", "status": "partial", "theorems": ["C71_validate_k", "C71_validate_id", "C71_validate_ids", "C71_validate_metric", "C71_validate_metadata", "C71_validate_vector_partial", "C71_validate_vectors_partial", "C71_vector_types_refuted"], "note": "REFUTED for arrays of a non-numeric dtype: np.isnan raises TypeError instead of a validation error (C71_vector_types_refuted). Proved for every value in k, id, ids, metric and metadata, and for every value that is not a non-numeric array in vector(s)."},
  {"property": "C72", "status": "partial", "theorems": ["C72_always_raises", "C72_refuted"], "note": "REFUTED: get_recommended_config raises ValueError for all arguments, because it asks for index presets by names that are not in the table."},
  {"property": "C73", "status": "proved", "theorems": ["C73_listed_fetchable"], "note": "For any tables with distinct names, in particular those of configs.py."},
  {"property": "C74", "status": "partial", "theorems": ["C74_recommendation_partial", "C74_M_ignored_refuted"], "note": "REFUTED: the recommended HNSW option M is never read by the index, and create_vector_db with its default arguments raises TypeError. Proved: the type is known to the factory and every other option reaches the index."},
  {"property": "C75", "status": "partial", "theorems": ["C75_transparent_partial", "C75_alias_refuted", "C75_unencodable_refuted", "C75_collision_refuted"], "note": "REFUTED as stated: the cached array is handed out uncopied, so a caller's write changes later answers; a text with a lone surrogate fails only because of caching; any hash of fixed digest length has colliding texts. Partial: transparent after every history without such writes when the hash tells the used texts apart."},
  {"property": "C76", "status": "partial", "theorems": ["C76_steps_are_the_call", "C76_no_vector_lost_partial", "C76_one_at_a_time_partial", "C76_duplicate_ids_refuted", "C76_own_ids_repeat_refuted", "C76_wrong_vector_refuted", "C76_projections_refuted"], "note": "REFUTED: LSHIndex.add has no lock; schedules are exhibited where two threads get the same id, one thread gets an id twice, an id carries the other thread's vector and metadata, and a vector hashed with projections that another thread replaced is not found. Proved: under every schedule of any number of threads no row is lost, repeated or changed; and with calls run one after the other (one worker, any order) ids are distinct and carry their own vector and metadata."},
  {"property": "C77", "status": "proved", "theorems": ["C77_best_of_candidates", "C77_exact_search", "C77_answers", "C77_distance_is_cosine"], "note": "For any ordered scalars and any argsort that sorts; the exact distance is 1 - cosine over the reals. Indices refer to the training vectors; C77_answers needs no more codes than training vectors."},
  {"property": "C78", "status": "proved", "theorems": ["C78_terminates", "C78_text_covers", "C78_pdf_covers", "C78_office_covers"], "note": ""},
  {"property": "C79", "status": "partial", "theorems": ["C79_page_partial", "C79_refuted"], "note": "REFUTED: the count forgets the blank lines between pages, so chunks near the end of a page are given a later page. Proved: never an earlier page, and the right one when 2 * (pages before) characters are left on the page."},
  {"property": "C80", "status": "partial", "theorems": ["C80_flat_reinitialise", "C80_ivf_reinitialise_refuted", "C80_hnsw_reinitialise_refuted", "C80_lsh_reinitialise_refuted", "C80_annoy_reinitialise_refuted"], "note": "REFUTED for IVF, HNSW, LSH and Annoy (stale clusters, counts, vectors); proved for flat."},
  {"property": "C81", "status": "partial", "theorems": ["C81_max_bucket_size_refuted"], "note": "REFUTED: get_stats collects the ids in the buckets instead of the bucket sizes."},
  {"property": "C82", "status": "partial", "theorems": ["C82_failed_training_refuted"], "note": "REFUTED: a rejected training call has already replaced the dimension, and decoding fails afterwards."},
  {"property": "C83", "status": "proved", "theorems": ["C83_segments_ignore_data"], "note": "Exact arithmetic; the dynamic program is vacuous."},
  {"property": "C84", "status": "proved", "theorems": ["C84_adjustment_no_op"], "note": "Over exact reals: adjustment is a no-op on the codes quantize starts from."},
  {"property": "C85", "status": "partial", "theorems": ["C85_trains_partial", "C85_trains_refuted"], "note": "REFUTED: with min(n_segments, dim) > total_bits + 1 every training raises; proved in exact arithmetic when each dimension's share is worth a bit."},
  {"property": "C86", "status": "proved", "theorems": ["C86_nearest_in_each_segment"], "note": "Over exact reals."},
  {"property": "C87", "status": "partial", "theorems": ["C87_validate_config_partial", "C87_nan_refuted"], "note": "REFUTED: NaN passes every range. Proved for configurations without NaN."},
  {"property": "C88", "status": "proved", "theorems": ["C88_templates"], "note": ""},
  {"property": "C89", "status": "proved", "theorems": ["C89_index_read_back", "C89_vectors_read_back"], "note": ""},
  {"property": "C90", "status": "proved", "theorems": ["C90_separators"], "note": ""},
  {"property": "C91", "status": "proved", "theorems": ["C91_docling_groups", "C91_docling_text"], "note": ""},
  {"property": "C92", "status": "proved", "theorems": ["C92_text", "C92_pdf", "C92_office"], "note": ""},
  {"property": "C93", "status": "partial", "theorems": ["C91_docling_groups", "C93_start_element_refuted"], "note": "REFUTED: start_element is chunk_id * chunk_size, a number of characters; end_element is right (C91_docling_groups)."},
  {"property": "C94", "status": "proved", "theorems": ["C94_words"], "note": ""},
  {"property": "C95", "status": "partial", "theorems": ["C95_no_tags_partial", "C95_only_tags", "C95_refuted"], "note": "Proved without Unicode normalisation, special-character replacement and lowercasing. REFUTED with the defaults: NFKD, applied after the removal, turns U+FF1C into '<'."},
  {"property": "C96", "status": "partial", "theorems": ["C96_equal_rows_partial", "C96_thresholds", "C96_threshold_one", "C96_refuted", "C96_torn_refuted"], "note": "Equal rows whose self-similarity reaches the threshold are grouped together. REFUTED for cosine: the damping constant hides equal rows of small norm, a threshold of one finds nothing at all, and equal rows can be torn apart."},
  {"property": "C97", "status": "proved", "theorems": ["C97_entries", "C97_similarity"], "note": "Exact reals."},
  {"property": "C98", "status": "proved", "theorems": ["C98_rows", "C98_measures", "C98_raises"], "note": "Exact reals, any positive constant in place of 1e-8."},
  {"property": "C99", "status": "partial", "theorems": ["C99_dimension_partial", "C99_refuted"], "note": "REFUTED: white space gets 384 zeros whatever the model. Partial: every other text gets the model's dimension after every history (cache included)."}
]}
