# Formal model of valori: design

Source: `/repo` (python), read as text, never executed.  Prover: Coq 8.16.1, standard
library only (plus the standard library's real numbers where stated).

## 1. Modelling conventions

* **Functions.** Each Python function becomes one total Gallina function that follows the
  source branch by branch.  The comment above every definition cites file and lines and lists
  simplifications.
* **Exceptions and partial effects.** A method is a value of `M S A := S -> result A * S`.
  Raising keeps the mutations made so far, so half-done operations are visible.
* **Dictionaries** are association lists in insertion order (`PyBase.dict`), because
  iteration order is observable (list order, eviction order, graph entry point).
* **Strings** are lists of code points.  `str.isalnum` is concrete below 128 and an arbitrary
  predicate above.
* **Randomness and libraries.** uuid4, random levels, random neighbour samples, k-means,
  directory order, unstable `argsort`, Unicode normalisation, md5 and the Annoy library are
  arguments of the model.  Theorems quantify over every outcome that satisfies the interface
  named in the theorem.
* **Numbers.** The indexes are written over an arbitrary scalar type with a boolean
  order; theorems about ordering need only that the order is total and transitive (true of
  floats without NaN).  Metric and quantizer laws are proved over exact reals; where the
  conversion to integers or float32 matters it is modelled exactly on integers.
* **Concurrency** is interleaving of the atomic steps named in the model.
* **Crashes** stop an operation between, or inside, its file-system steps; a file being
  written is then unreadable.

## 2. Layout

`rocq/theories/`: `*Model.v`, `*Steps.v` hold definitions, `*Proofs.v` lemmas, `*Spec.v` specifications that do
not use model helpers, `Props*.v` the property theorems with their examples and `Print Assumptions`.

* `PyBase.v`: Common vocabulary for the Gallina rendering of the Python sources.
* `PyMore.v`: More Python vocabulary: list comprehensions that may raise, indexing with negative indices, `str` of an integer and `int` of a string.
* `BaseLemmas.v`: Lemmas about the vocabulary of `PyBase`.
* `Payload.v`: What the models need to know about vectors, metadata objects and Unicode characters.
* `StorageModel.v`: Model of /repo/src/valori/storage: `MemoryStorage`, `DiskStorage`, `HybridStorage`.
* `StorageSpec.v`: Specification of a storage backend, independent of the three implementations: one ordered list of records, and what each call must answer.
* `StorageRun.v`: The three backends behind the common interface of /repo/src/valori/storage/base.py:11-110, and the execution of a history of calls.
* `StorageProofs.v`: Proofs about the storage backends: each refines the record-list specification.
* `StorageThms.v`: From the refinement lemmas to the statements of `PropsStorage.v`.
* `Demo.v`: Concrete payloads for the examples beside the theorems: vectors are lists of integers, metadata are integers, of which the negative ones cannot be copied and 13 cannot be pickled.
* `PropsStorage.v`: Properties C01, C02, C04-C07, C10-C12: the storage backends.
* `Num.v`: Scalars and the distance computations of the indexes.
* `StorageOk.v`: What an index may rely on, whichever of the three backends it is given.
* `ClientModel.v`: The interface of an index and the client that drives it.
* `DbSpec.v`: Specification of a vector database as seen by a client, independent of every index and storage: a list of records, what each call does to it and what it may answer.
* `ClientRun.v`: Execution of a history of client calls.
* `ClientProofs.v`: Generic refinement: if an index's methods keep an invariant relating the index object to the records, then the whole client conforms to the database specification.
* `FlatModel.v`: Model of /repo/src/valori/indices/flat.py: `FlatIndex`.
* `FlatProofs.v`: The flat index conforms to the database specification with exact nearest neighbours.
* `DemoIndex.v`: Concrete integer vectors, sort routine and ids for the examples about indexes.
* `PropsFlat.v`: Properties of the database with a flat index: C16 to C22.
* `PropsClient.v`: Properties of the client independent of the index (C15), agreement of its counts (C40) and re-initialisation (C80).
* `IvfModel.v`: Model of /repo/src/valori/indices/ivf.py: `IVFIndex`.
* `IvfProofs.v`: The inverted-file index keeps a partition of the live ids and conforms to the database specification with sound search answers.
* `PropsIvf.v`: Properties of the database with an inverted-file index: C23 to C26, the IVF parts of C17 to C20 and C40, and the IVF part of C80.
* `HnswModel.v`: Model of /repo/src/valori/indices/hnsw.py: `HNSWIndex`.
* `HnswProofs.v`: The graph index: the graph stays well formed, and searches are sound.
* `PropsHnsw.v`: Properties of the database with a graph index: C27 to C30, the HNSW parts of C17 to C20 and C40, and the HNSW part of C80.
* `SimilarityModel.v`: Model of /repo/src/valori/utils/similarity.py over any scalar type; the theorems use exact reals.
* `RealNum.v`: Exact reals as scalars, and what the numpy and sklearn routines compute over them.
* `PropsSimilarity.v`: Properties of the distance functions over exact reals: C41, C42 and C43, and the search theorems C16, C23, C25 and C27 restated with textbook distances.
* `LshModel.v`: The LSH index.
* `LshSpec.v`: What an LSH index is expected to do, written without its tables: numbered slots, each holding a vector with its metadata or nothing.
* `LshProofs.v`: Proofs about the LSH index.
* `PropsLsh.v`: Properties of the LSH index: C31 to C36, and its part of C40 and C80.
* `PropsLshReal.v`: The LSH similarity over exact reals, and C33 with thresholds instead of model values.
* `AnnoyModel.v`: The Annoy index.
* `Keeps.v`: Invariants of methods: a predicate on the state kept by a method whether it returns or raises.
* `PropsAnnoy.v`: Properties of the Annoy index: C37, C38, C39, and its part of C40 and C80.
* `PropsServe.v`: C39: an initialised database answers searches; flat, inverted-file, graph and LSH indexes. (For Annoy, see PropsAnnoy.v.)
* `XReal.v`: Numbers for the quantizers: real numbers with the two infinities and NaN, numpy's operations on them, and rounding.
* `ScalarModel.v`: Model of src/valori/quantization/scalar.py (and of the flags of quantization/base.py).
* `PropsScalar.v`: Properties C44-C46 of the scalar quantizer.
* `ProductModel.v`: Model of src/valori/quantization/product.py. Scalars are any type with the operations of `Num`; float32 conversions (`astype(np.float32)`, lines 79, 88, 190) do not change values.
* `PropsProduct.v`: Properties C47-C49 of the product quantizer, over the real numbers.
* `SaqModel.v`: Model of src/valori/quantization/saq.py.
* `PropsSaq.v`: Properties of the segmentation and bit allocation of SAQ: C50, C51, C83, C85.
* `PropsSaqCodes.v`: Properties of the codes and the code adjustment of SAQ over exact reals: C52, C84.
* `PropsSaqSearch.v`: Search with rescoring of SAQ: C77.
* `FsModel.v`: A file system as the persistence managers see it: a tree of directories and files, path strings as `pathlib` reads them, and a process that can die between any two changes.
* `PersistModel.v`: The two persistence managers: /repo/src/valori/persistence/tensor.py and incremental.py.
* `FsProofs.v`: Lemmas about the file system: what a method may change, where a path leads.
* `PropsTensor.v`: Properties C53, C54 and C58: saving and loading with `TensorPersistence`.
* `PropsIncr.v`: Properties C55, C56 and C57: saving and loading with `IncrementalPersistence`.
* `PyValue.v`: Python values as the functions of this library that take "anything" see them: validators, configuration tables and the like.
* `ValidateModel.v`: Model of utils/validation.py.
* `PropsValidate.v`: C71, C87: the validators accept exactly what they describe.
* `ConfigModel.v`: Model of configs.py, of the recommendation in utils/helpers.py and of what the index constructors read from a configuration.
* `PropsConfig.v`: C72, C73, C74, C88: configuration tables, recommendations and the factory.
* `PropsIncrData.v`: C89: index data and vectors saved with `IncrementalPersistence` are read back.
* `ChunkModel.v`: Model of the text cutters: processors/chunking.py and the `_create_chunks` methods of parsers/text_parser.py, pdf_parser.py, office_parser.py and docling_parser.py.
* `ChunkProofs.v`: Specification of text cutting and lemmas about ChunkModel.v.
* `PropsChunk.v`: C59, C60, C61, C62, C90: the chunking processor.
* `PropsParse.v`: C78, C79, C91, C92, C93: the chunkers of the document parsers.
* `CleanModel.v`: Model of processors/cleaning.py.
* `PropsClean.v`: C63, C64, C94, C95, C115: the cleaning processor, and cleaning followed by chunking.
* `BatchModel.v`: Model of /repo/src/valori/utils/batch_manager.py: `BatchManager`, and of `batch_search` of /repo/src/valori/utils/helpers.py.
* `PropsBatch.v`: Properties C67, C68 and C69: the batch manager (model: BatchModel.v).
* `HelpersModel.v`: Model of the numerical helpers of /repo/src/valori/utils/helpers.py: `normalize_vectors`, `compute_similarity_matrix` and `find_duplicates`, over any scalar type. A matrix is the list of its rows, all of one length.
* `PropsDup.v`: Property C70: the groups of `find_duplicates` (model: HelpersModel.v).
* `PropsHelpers.v`: Properties C96, C97 and C98 over exact reals: exact duplicates, the similarity matrix and `normalize_vectors` (model: HelpersModel.v).
* `EmbedModel.v`: Model of /repo/src/valori/processors/embedding.py: `EmbeddingProcessor`.
* `PropsEmbed.v`: Properties C75 and C99 to C103: the embedding processor (model: EmbedModel.v).
* `PipelineModel.v`: Model of /repo/src/valori/parsers/registry.py (`ParserRegistry`) and /repo/src/valori/processors/pipeline.py (`ProcessingPipeline`) with the three processors of CleanModel.v, ChunkModel.v and EmbedModel.v inside.
* `PropsRegistry.v`: Properties C65, C66, C104 and C105: the parser registry and how the pipeline configures it (model: PipelineModel.v).
* `PropsPipeline.v`: Properties C106 to C108: the processing pipeline (model: PipelineModel.v).
* `StepModel.v`: Calls cut into the steps at which another thread can come in between or the process can die, and the write calls of `DiskStorage` in that form.
* `StepProofs.v`: Lemmas about step programs and about the step-by-step disk backend.
* `PropsCrash.v`: Properties C08 and C09: the process dies inside a call of the disk backend.
* `PropsRace.v`: Property C14: two threads store at the same time in the disk backend.
* `ConcModel.v`: `MemoryStorage` used by several threads: every statement is a step of its own, the lock is explicit, and a schedule says which thread moves.
* `PropsConc.v`: Property C13 (and C109): several threads use one in-memory backend.
* `PropsConcClose.v`: C169: several threads use one in-memory backend and `close` and `initialize` are among their calls. C13 shows that such histories need not have a sequential order. Here is what they do have: each call has two instants, one at which it is let in or refused and a later one at which it takes effect, and between the two the backend may have been closed.
* `LshSteps.v`: `LSHIndex.add` cut into the statements between which another thread can come in. The class has no lock; `BatchManager.parallel_batch_insert` (utils/batch_manager.py:175-250) calls it from a pool of threads.
* `PropsLshRace.v`: Property C76: several threads insert into one LSH index.
* `AliasModel.v`: `MemoryStorage` over a heap of Python objects, to see which objects are shared between the backend and its callers.
* `PropsAlias.v`: Property C03: objects shared between the in-memory backend and its callers.
* `FlatSteps.v`: `FlatIndex` cut into the statements between which another thread can come in. The class has no lock (flat.py:25-31); the backend's own lock makes each storage call one step (memory.py, hybrid.py; for the memory backend this is C13).
* `FlatRaceProofs.v`: Several threads inside one flat index: what every schedule of insertions and searches keeps.
* `PropsFlatRace.v`: Properties C110 and C111: several threads use one flat index.
* `OwnProofs.v`: Threads that work on different keys of one shared state: each of them goes through the same steps as if it were alone.
* `PropsFlatOwn.v`: Properties C170 and C171: several threads change records of one flat index.
* `DiskThreads.v`: The disk backend (/repo/src/valori/storage/disk.py), which has no lock, used by threads: reading a record in steps, and threads that make several calls.
* `PropsDiskThreads.v`: Properties C172 and C173: several threads use one disk backend.
* `BenchModel.v`: The benchmark script /repo/scripts/benchmark.py, without its timings: what it does to the database and which of its reports it gets to.
* `PropsBench.v`: Properties C174 to C176: the benchmark script.
* `PropsSemantic.v`: C112, C113, C114: the semantic strategy of the chunking processor, and reported positions.
* `LockModel.v`: An object used by several threads, with one lock that some of its methods take and others do not. Methods are step programs; a schedule says which thread moves.
* `HybridSteps.v`: `HybridStorage` statement by statement: which part of each method holds the lock, the disk backend's calls as file-system steps, and each call of the memory backend as one step (it has its own lock).
* `LockProofs.v`: When histories of a locked object can be explained by a sequential order.
* `PropsHybridConc.v`: C116: the hybrid backend under threads. Calls on any ids from any number of threads, with any interleaving of their steps, can be explained by some sequential order that respects real time; the statistics, which take no lock and read a cached count, cannot.
* `PropsHybridCrash.v`: C117: the process dies inside a call of the hybrid backend. With ids that do not share a file name, the hybrid backend is the disk backend, answer by answer and file by file, through any history of calls and crashes, also where a crash has left unreadable files.
* `FlatDiskSteps.v`: The calls of a client over a flat index and the disk backend, cut into the steps at which the process can die: every file operation of the backend is a step of its own (StepModel.v), and so is every statement of the index.
* `FlatCrashProofs.v`: A flat database on disk whose process died: what its directory looks like, and why a directory without unreadable records is as good as a database that never crashed.
* `PropsFlatCrash.v`: C118: the process dies inside a call of a flat database on disk.
* `ClientExtra.v`: A further invariant of the index, kept by every call whose records stay within a bound, holds after every history within the bound.
* `HnswSmallProofs.v`: The graph index while at most `m` vectors are stored: every level is a complete graph.
* `PropsHnswSmall.v`: C119: a graph database that never holds more than `m` vectors answers exactly.
* `IvfCloseProofs.v`: In a trained inverted-file index every vector is in the cluster of its nearest centroid, if the clustering labels its rows that way.
* `PropsIvfClose.v`: C120: an inverted-file database finds the vectors it stores, even probing one cluster, when the clustering uses the metric of the index; not with the default cosine metric, since the clustering is Euclidean.
* `PropsLshExact.v`: C121: what a search of the LSH index answers, exactly.
* `PropsAnnoyReal.v`: C122: the scores of an Annoy search, over exact reals.
* `ParserChoiceModel.v`: Model of which files the built-in parsers take: `pathlib.PurePosixPath.suffix`, the `get_supported_formats` and `can_parse` of the four parser classes of /repo/src/valori/parsers, and their use by the registry (PipelineModel.v).
* `PropsParserChoice.v`: C123: which of the built-in parsers gets a file, and the formats a registry reports.
* `FullClientModel.v`: The client with its optional quantizer and persistence manager spelled out.
* `PropsFullClient.v`: What the optional quantizer and persistence manager of a client do for its data (C124, C125).
* `VecFileModel.v`: Model of `save_vectors_to_file` and `load_vectors_from_file`, /repo/src/valori/utils/helpers.py 255-327, and of what Python's json module makes of a value on the way to a file and back.
* `PropsVecFile.v`: C127: vectors and metadata saved to a file are read back.
* `SharedModel.v`: Several processes using one data directory, each through objects of its own, one call at a time. Calls of different processes do not overlap here; what a call keeps in its object is private, what it keeps in files is shared.
* `PropsShared.v`: Several storage objects or clients over one data directory (C128, C129).
* `PropsCollide.v`: What C107 and C108 leave open: the cache of the embedding processor takes two texts for one when their hashes agree, and with any hash of 32 hexadecimal digits there are such texts.
* `PropsHybridInit.v`: C116, the remaining part: `initialize` beside `close` on the hybrid backend. `initialize` takes no lock (hybrid.py:41-50), so its steps can fall between those of a `close` (hybrid.py:174-181); the backend is then half open, a state that no sequential order of the calls produces.
* `AnalyzeModel.v`: The analysis of a set of vectors.
* `PropsAnalyze.v`: C130, C131: the quality score and the counts that the analysis of a set of vectors reports.
* `InspectModel.v`: Inspecting an index.
* `PropsInspect.v`: C132: inspecting an index.
* `ProfileModel.v`: The profiler, the query analyser and their summaries.
* `PropsProfile.v`: C133, C134: the profiler and the query analyser.
* `MonitorModel.v`: The resource monitor and the progress bar.
* `PropsMonitor.v`: C135, C136: the resource monitor and the progress bar.
* `PropsProgress.v`: C136: the progress bar.
* `LoggingModel.v`: Loggers, handlers, and where a message is printed.
* `PropsLogging.v`: C137, C138: handlers, and where a message is printed.
* `ExtractModel.v`: Model of `parse` of the four parser classes of /repo/src/valori/parsers: the checks before the file is read, and what is made of the content of the file. The chunkers are those of ChunkModel.v, the supported formats those of ParserChoiceModel.v.
* `PropsExtract.v`: C139, C140, C141: when the parsers answer, and what the text and PDF parsers make of a file.
* `PropsOffice.v`: C142, C143, C144: what the Office and docling parsers make of a file.
* `ReleaseModel.v`: Model of the release scripts: /repo/scripts/release.py and /repo/scripts/clean_dist.py.
* `PropsRelease.v`: C146, C147, C148: the release scripts.
* `InfoModel.v`: Model of what the document side reports about itself: /repo/src/valori/parsers/registry.py (`get_supported_formats`, `get_parser_info`), /repo/src/valori/processors/pipeline.py (`get_pipeline_info`), and the counters of chunking.py and cleaning.py.
* `PropsInfo.v`: C145, C149, C150: what the document side reports about itself.
* `IvfSteps.v`: `IVFIndex.insert` cut into the statements between which another thread can come in. The class has no lock (ivf.py:25-38); the backend's own lock makes each storage call one step (memory.py, hybrid.py; for the memory backend this is C13).
* `RelyProofs.v`: Rely and guarantee for threads over one shared state: each thread is followed by the list of writes it still has to make; what a thread knows must survive the writes of the others.
* `IvfRaceProofs.v`: Several threads insert into one inverted-file index while no training is due: what every schedule keeps.
* `PropsIvfRace.v`: Property C151: several threads insert into one inverted-file index.
* `HnswSteps.v`: `HNSWIndex.insert` cut into the statements between which another thread can come in. The class has no lock (hnsw.py:27-41); the backend's own lock makes each storage call one step (memory.py, hybrid.py; for the memory backend this is C13).
* `HnswRaceProofs.v`: Several threads insert into one graph index: what every schedule keeps.
* `PropsHnswRace.v`: Property C152: several threads insert into one graph index.
* `PropsIdle.v`: C153: a component that has not been initialised, or has been closed, refuses every working call with the exception of its own kind and changes nothing.
* `PropsErrors.v`: C154: a component raises only exceptions of its own kind, whatever went wrong underneath.
* `PropsJaccard.v`: Properties of the set similarity, of the scaling of single vectors and of the argument checks of similarity.py over exact reals: C155.
* `FactoryModel.v`: Model of the database constructors of /repo/src/valori/factory.py:66-268, 299-345 and of `create_vectors_from_text` (/repo/src/valori/utils/helpers.py:21-61).
* `PropsFactory.v`: Properties of the database constructors of factory.py: C156 (text), C157 (documents with metadata), C158 (images), C159 (configuration).
* `DocSearchModel.v`: Model of the document search of /repo/examples/document_processing.py:172-251: documents go through a processing pipeline into a database, questions go through a second pipeline to a search. The pipelines are PipelineModel.v, the database is ClientModel.v with any index.
* `PropsDocSearch.v`: Property C160: documents put through a pipeline into a database are found again by questions (model: DocSearchModel.v).
* `FilesModel.v`: Model of `create_vectors_from_files` (/repo/src/valori/utils/helpers.py:64-119): a pipeline is made, every file goes through it, the embeddings become the rows of an array. The pipeline is PipelineModel.v. The warnings printed are left out.
* `PropsFiles.v`: Property C161: vectors from files (model: FilesModel.v).
* `PerfModel.v`: Model of `validate_index_performance` (/repo/src/valori/utils/helpers.py:438-485): vectors are added to an index, queries are run, and the times are put into a report. The clock is a sequence of readings.
* `PropsPerf.v`: Property C162: measuring an index (model: PerfModel.v).
* `ProdModel.v`: Model of /repo/examples/production_setup.py: `ProductionVectorDB`, a wrapper that builds a client over hybrid storage and a graph index from a configuration file and adds a health report and a backup.
* `PropsProd.v`: Properties of the production wrapper (examples/production_setup.py): C163 its histories, C164 its health report, C165 its backups.
* `PropsAliasView.v`: Property C166: the in-memory backend over shared Python objects behaves as the backend over values, as long as no caller changes a metadata dictionary it received.
* `DecorModel.v`: The three function decorators: `timing_decorator` and `memory_usage_decorator` of src/valori/utils/helpers.py and `debug_function` of src/valori/utils/debugging.py.
* `PropsDecor.v`: Property C167: decorating a function does not change what it does.
* `PropsLogNames.v`: Property C168: where a message of any logger is printed, by its name.
* `ExampleModel.v`: Two of the example programs, /repo/examples/basic_usage.py and the quantizer comparison of /repo/examples/advanced_quantization.py, as programs over the client. Printing is left out; the random vectors are any vectors.
* `PropsExample.v`: Properties C177 and C178: two example programs.
* `LshThreshModel.v`: The LSH search with a threshold of its own, and its use in /repo/examples/advanced_indexing.py.
* `PropsLshThresh.v`: Property C179: thresholds of the LSH search.

## 3. Plan per property

| id | model | proof |
|----|-------|-------|
| C01, C02 | `MemoryStorage` as a state machine | refinement to a map specification, induction over histories |
| C03 | same operations over a heap of mutable objects | invariant "storage-owned locations are unreachable for the caller"; refutation for returned metadata |
| C04-C06 | `DiskStorage` over a two-directory file map | refinement to a map keyed by the file-safe id; refutation of plain injectivity |
| C07 | `_sanitize_id` | induction on the id |
| C08, C09 | each disk operation as a list of file-system steps, crash at every prefix | frame lemma; refutation of atomicity plus full list of reachable outcomes |
| C10-C12 | `HybridStorage` = memory model + disk model | coherence invariant, refinement; refutation for colliding ids |
| C13, C14 | threads as step lists | linearisation by induction on schedules; refutations |
| C15 | `VectorDBClient` over any index/storage | case analysis for every operation, lifted to histories |
| C16-C22 | `FlatIndex` over any storage satisfying the map specification, instantiated with the three backends | invariant + k-nearest-neighbour specification |
| C23-C26 | `IVFIndex`, k-means arbitrary | partition invariant, top-k lemmas |
| C27-C30 | `HNSWIndex`, random draws arbitrary | graph invariant; refutations with concrete draws |
| C31-C36 | `LSHIndex`, projections arbitrary | bucket invariant; refutations for negative ids and failed updates |
| C37-C39 | `AnnoyIndex`, library as oracle | refutations and restricted theorems |
| C40 | client over each index | consequence of the index invariants; refutation for LSH |
| C41-C43 | `utils/similarity.py` and the index distance functions over R | algebra, Cauchy-Schwarz |
| C44-C46 | `ScalarQuantizer` over R with round-half-even | rounding lemmas; float32 cast on integers |
| C47-C49 | `ProductQuantizer` over R | argmin lemmas, sum of squares |
| C50-C52, C77 | `SAQQuantizer` segmentation, allocation, adjustment, rescoring | DP invariant, induction |
| C53-C58 | both persistence managers over a file map, with crash steps | refinement, numbering invariant, refutations |
| C59-C62, C64, C78, C79 | chunkers over lists of code points | loop invariants, coverage |
| C63 | `_clean_text` | list induction |
| C65, C66 | registry and pipeline initialisation | sorting lemmas, universal failure theorem |
| C67-C70, C76 | batch manager, duplicate finder | list induction, permutations, schedules |
| C71-C74 | validators, configuration tables | decision equivalences |
| C75 | embedding cache | cache invariant |
| C80 | `initialize` of each index on a used object | refutation and restricted theorem |
| C81 | LSH statistics | refutation |
| C82 | training of the quantizers that is refused | case analysis; refutation |
| C83-C86 | SAQ segmentation, codes, allocation | exact arithmetic, algebra |
| C87 | `validate_config` | decision equivalence against a typing relation; refutation for NaN |
| C88 | configuration tables | lookup lemmas |
| C89 | index data and vectors of `IncrementalPersistence` | refinement over histories |
| C90-C93 | separators and element groups of the chunkers | loop invariants |
| C94, C95, C115 | `_clean_text`, `process` of the cleaner | word lists, refutation for tags and stale positions |
| C96-C98 | `find_duplicates`, `compute_similarity_matrix`, `normalize_vectors` over R | algebra |
| C99-C103 | `EmbeddingProcessor` | cache invariant over histories |
| C104-C108 | registry and pipeline | invariants over histories, refutations |
| C109 | `MemoryStorage` under threads | lock discipline: no deadlock |
| C110, C111 | `FlatIndex` cut into statements, any number of threads | rely-guarantee invariant; refutations with schedules |
| C112-C114 | semantic strategy, reported positions | loop invariant producing the groups; refutations |
| C116, C117 | `HybridStorage` cut into statements, threads and crashes | lock discipline, linearisability; the disk refinement through crashes |
| C118 | a flat database on disk, crash at any statement | invariant over histories of calls and crashes; refutation |
| C119 | `HNSWIndex` with at most m vectors | complete-graph invariant |
| C120 | `IVFIndex` whose centroids are close | argmin lemmas; refutation for cosine with Euclidean k-means |
| C121 | `LSHIndex.search` | exact description of the candidate set; refutations of completeness |
| C122 | `AnnoyIndex` scores over R | monotonicity; refutation for Hamming |
| C123 | built-in parsers: suffix, formats, choice | list lemmas over paths; case analysis over the order of preference |
| C124-C126 | `VectorDBClient` with quantizer and persistence manager | simulation: the components are never called with data; refutations |
| C127 | `save_vectors`, `load_vectors` | case analysis over formats; refutations where the round trip fails |
| C128, C129 | several storages or clients over one directory, with calls interleaved | the shared directory refines one store; refutations for cached counts and stale indices |
| C130, C131 | analysis of vector sets | range of the score by arithmetic over Q; counting lemmas; refutations for pair counts and sparsity |
| C132 | index inspector on each kind of index | case analysis over the index's attributes; refutations |
| C133, C134 | profiler with nested blocks, query analyser | induction on the program run under the profiler |
| C135 | resource monitor: callers and threads in small steps | invariant over all interleavings; refutations for two callers, restart and duration |
| C136 | progress tracker | arithmetic over Q; induction on the updates |
| C137, C138 | logger tree, levels, handlers | invariant over histories of calls; refutations |
| C139-C144 | `parse` of the four parsers | each answer characterised exactly by an inductive relation between the document and the text; refutations for page entries, tables, language, encoding, cell counts |
| C145 | reports of the registry and the pipeline | fold lemmas over dictionaries; insertion into a sorted set; refutation for the embedding statistics |
| C146 | regular expressions of the release scripts | each search characterised by a declarative relation (first line with the field) |
| C147, C148 | cleaning of dist, release with arbitrary build, environment and answers | list lemmas; case analysis; refutations for versions, packages and the answer |
| C149, C150 | counters of the chunking and cleaning processors | induction on the history; length lemmas for every cleaning step; refutations |
| C151 | `IVFIndex.insert` cut into statements, any number of threads | generic rely-guarantee lemmas (RelyProofs.v); refutations with schedules |
| C152 | `HNSWIndex.insert` cut into statements, any number of threads | the same rely-guarantee lemmas with an invariant on nodes, links and promised second halves; refutations with schedules |
| C153 | the guards of every component, over generic out-of-service histories | one lemma by induction on the history, one case per method; refutations of three calls |
| C154 | the exceptions of every method of every component | a predicate closed under the statement forms (wrap, raise, bind, catch), one case per method; refutations |
| C155 | `jaccard_*`, `normalize_vector`, argument checks of similarity.py | positions as lists without repetition; Steinhaus transform of the mismatch count for the triangle inequality; refutation of identity |
| C156 | `create_semantic_search_db`, `create_vectors_from_text` | the constructor is the history initialise, insert; C16/C27/C43 on it; refutations for the default index and the empty corpus |
| C157 | `create_hybrid_search_db` | dictionary merge lemma for the recorded fields; same histories; refutations |
| C158 | `create_image_search_db`, `_extract_image_features` | positions of the readable images as a filter; same histories; refutations |
| C159 | `create_vector_db`, `create_document_db`, `list_configs` | case analysis on names; refutation of the overwritten options |
| C160 | `store_in_vector_db`, `demonstrate_search` of examples/document_processing.py | sessions by induction over stores and questions, invariant: pipelines equal up to caches (C108), database equal to a history of calls (C16, C27); refutations |
| C161 | `create_vectors_from_files` | induction over the files with C108's invariant (pipelines equal up to caches); the function's own configuration evaluated: no parser, so every call raises; refutations |
| C162 | `validate_index_performance` | LSH's refinement invariant (C31) for the added vectors, induction over the queries for the times (reals); refutations |
| C163, C164, C165 | `ProductionVectorDB` of examples/production_setup.py | induction over histories; invariant: the wrapper's client represents the database (C27's invariant) while in service, its files represent the records otherwise; refutations of the memory figure and of the backup |
| C166 | `MemoryStorage` over a heap of shared objects refines `MemoryStorage` over values | simulation: the records with their contents read from the heap; a write into a held object leaves it unchanged because copies are fresh; refuted by a write into the dictionary received |
| C167 | the three function decorators, in any stack | each wrapper preserves "same result, same change, lines only added"; induction over the stack and over the program; refuted by ImportError raised by the function and by a terminal without pictograms |
| C168 | messages of loggers of any name | names cut before dots (specification) are the ancestors in the logger tree; invariant: each logger carries the level of the first call asking for it; induction over the history |
| C169 | the in-memory backend under threads, `close` and `initialize` included | simulation against a specification with two instants per call; bodies neither read nor write the flag, so each acts as on an open backend; records traced to the calls that wrote them by induction over the explanation |
| C170 | threads changing different ids of one flat index | lockstep with a copy of each thread that runs alone (`OwnProofs`): equal on the owned ids after every step, nothing else touched; the sequential theorems give what the copy leaves; ids compared by how often they are listed |
| C171 | threads changing the same ids of one flat index | rely/guarantee with the ids still to be taken out of the list as the threads' pending work; refuted by three schedules: stale cached vector, failing `list.remove`, id listed without record |
| C172 | threads using different ids of one disk backend, any number of calls each | lockstep with a copy of each thread that runs alone (`OwnProofs`), a cell being the two files of an id; the recount after a write touches no file |
| C173 | threads using the same ids of one disk backend | invariant over the file contents (initial or given by a call) kept by every step; refuted by two schedules: new vector with old metadata, error while a file is being written |
| C174 | the benchmark script's storage comparison, run again and again | a measurement is a fixed sequence of client calls, each answered as the record list says (`Rcl_step`); induction over the runs with the uuids used so far; refuted by a second run, another dimension, a still clock |
| C175 | the benchmark script's quantizer comparison | every call of a round leaves the quantizer untrained (C125), so the key is missing when it is read, whatever answered before |
| C176 | the benchmark script's index comparison | as C174 for the three indexes; closing the in-memory backend makes it equal to a new one |
| C177 | examples/basic_usage.py | a fixed sequence of client calls over the record list (`Rcl_step`, exact search of the flat index); lists lemmas for replacing the first and deleting the first five records |
| C178 | the quantizer comparison of examples/advanced_quantization.py | either a call raised or the ratio is looked up in an untrained quantizer (C125); with acceptable vectors no call raises (C124 and the client's conformance) |
| C179 | `LSHIndex.search` with its own threshold; advanced_indexing.py:241-243 | per candidate: a higher threshold keeps or drops the entry; filtering commutes with the stable sort and, as it keeps a first part, with the limit |

## 4. What is modelled and what is not

Every definition cites its source lines.  Per source file:

| source (src/valori) | model | left out or simplified |
|---|---|---|
| storage/memory.py, disk.py, hybrid.py | StorageModel.v, StepModel.v (disk writes as file-system steps), DiskThreads.v (disk with threads, reads in steps), ConcModel.v (memory with threads and lock), AliasModel.v (memory over a heap), HybridSteps.v (hybrid with threads, lock and crashes) | contents of .npy/pickle files: an unpicklable object raises, a complete file is read back unchanged, an interrupted one is unreadable; operating-system errors other than a crash |
| client.py, indices/base.py | ClientModel.v, FullClientModel.v (with quantizer and persistence manager), SharedModel.v (several clients over one directory) | log messages |
| indices/flat.py | FlatModel.v, FlatSteps.v (statements, threads), FlatDiskSteps.v (over the disk backend, crashes) | rounding in distances; storage calls are atomic in the threaded model |
| indices/ivf.py | IvfModel.v, IvfSteps.v (insert, threads) | k-means is an arbitrary function with the right shape |
| indices/hnsw.py | HnswModel.v, HnswSteps.v (insert, threads) | random levels and samples are arbitrary inputs |
| indices/lsh.py | LshModel.v, LshSteps.v (add, threads) | the random projections are arbitrary |
| indices/annoy.py | AnnoyModel.v | the library's answer is arbitrary |
| quantization/scalar.py, product.py, saq.py | ScalarModel.v, ProductModel.v, SaqModel.v | float arithmetic is exact real arithmetic with an explicit rounding function where a theorem depends on it; k-means arbitrary |
| persistence/tensor.py, incremental.py | FsModel.v, PersistModel.v | pickling as above; clock readings are arbitrary |
| processors/chunking.py | ChunkModel.v | chunk fields that are constants |
| processors/cleaning.py | CleanModel.v | html.unescape, NFKD, the special-character pattern and lower() are arbitrary functions |
| processors/embedding.py | EmbedModel.v | the neural model is an arbitrary partial function of the text |
| processors/pipeline.py, parsers/registry.py | PipelineModel.v, ParserChoiceModel.v, InfoModel.v (reports, counters of chunking.py and cleaning.py) | parsers other than their can_parse and parse results |
| parsers/text_parser.py, pdf_parser.py, office_parser.py, docling_parser.py | ChunkModel.v (chunkers, page arithmetic), ExtractModel.v (parse) | the libraries that open the files are arbitrary answers or exceptions; metadata fields copied from them |
| utils/validation.py | ValidateModel.v over PyValue.v | array contents are summarised by the flags that the validators read |
| utils/similarity.py | SimilarityModel.v | rounding |
| utils/helpers.py | HelpersModel.v, ConfigModel.v, BatchModel.v, VecFileModel.v (save_vectors, load_vectors), FilesModel.v (create_vectors_from_files), PerfModel.v (validate_index_performance), DecorModel.v (decorators) | failures of psutil itself; numpy's own file formats; the texts printed |
| utils/batch_manager.py | BatchModel.v, MonitorModel.v (resource monitor in small steps, progress tracker) | timing fields of the batch manager |
| configs.py, factory.py, utils/helpers.py (`create_vectors_from_text`) | ConfigModel.v, FactoryModel.v | the sentence and image models (parameters), `storage_config`, keyword arguments nothing reads |
| examples/document_processing.py:172-251 | DocSearchModel.v | printing, the choice of files by suffix, the sample files |
| examples/production_setup.py:22-213 | ProdModel.v | log messages, clocks, the values inside the configuration's sections (parameters), half-written backup files |
| utils/debugging.py | AnalyzeModel.v (vector sets), InspectModel.v (index inspector), ProfileModel.v (profiler, query analyser), DecorModel.v (debug_function) | printed reports; the numbers of numpy's mean and deviation where no theorem speaks of them |
| utils/logging.py | LoggingModel.v | the text of the messages, file rotation |
| scripts/release.py, scripts/clean_dist.py | ReleaseModel.v | printed text; building, pip and twine are arbitrary answers; twine is taken to send all of dist |
| scripts/benchmark.py | BenchModel.v | timings (given), printing, the report apart from the vector count and the compression ratio, `benchmark_scalability`, `main` |
| examples/basic_usage.py, examples/advanced_quantization.py:16-66, 150-174, 183-212 | ExampleModel.v | printing, the memory figures, the random vectors (any vectors), advanced_quantization.py:67-147 (left open) |
| examples/advanced_indexing.py:241-243 | LshThreshModel.v | printing, the rest of the example |
| other scripts, other examples, parsers/llama_parser.py (only raises ImportError) | not modelled | |

Never modelled: BLAS summation order, Unicode tables above ASCII (arbitrary predicates), the
inside of third-party libraries, memory exhaustion, signals.

## 5. Trusted base

* Coq 8.16.1: its kernel, and the `vm_compute` reduction used for the concrete examples and refutations.
* The faithfulness of the model to the Python text: sections 1 and 4, and the comment above each definition.
* Axioms: none of our own.  `Print Assumptions` stands behind every property theorem in the `Props*.v`
  files.  The theorems not listed below are **closed under the global context**.  The ones below use the standard
  library's real numbers and depend on
  * (R2) `ClassicalDedekindReals.sig_forall_dec` and `FunctionalExtensionality.functional_extensionality_dep`, or
  * (R3) those two and `ClassicalDedekindReals.sig_not_dec`.
* A checker that walks through all loaded standard-library modules (rather than one theorem's dependencies)
  also meets `Classical_Prop.classic`, the opaque constants of `Rdefinitions.RbaseSymbolsImpl` and
  `Rdefinitions.RinvImpl`, and `Coq.ssr.ssrunder.Under_rel` (sealed modules of the standard library, loaded through
  `Reals`, `Lra` and `Psatz`).

Theorems in the manifest: 607, of which 511 are closed under the global context.

R2 (24): `C125_scalar_untrained_partial`, `C153_quantizers`, `C154_quantizers`, `C175_every_round_fails`, `C175_never_completes`, `C175_no_results_file`, `C178_key_error_partial`, `C178_never_completes_partial`, `C178_no_ratio_partial`, `C44_codes_in_range_partial`, `C44_codes_in_range_refuted`, `C45_half_step_partial`, `C45_half_step_refuted`, `C46_idempotent_partial`, `C46_idempotent_refuted`, `C46_monotone_partial`, `C46_monotone_refuted`, `C50_segments_tile`, `C51_budget_partial`, `C51_each_a_bit_partial`, `C51_each_a_bit_refuted`, `C83_segments_ignore_data`, `C85_trains_partial`, `C85_trains_refuted`.

R3 (72): `C100_blank_refuted`, `C100_unit_partial`, `C120_ivf_cosine_refuted`, `C120_ivf_self_first_real`, `C122_hamming_refuted`, `C122_scores_partial`, `C155_jaccard_identity_refuted`, `C155_jaccard_laws`, `C155_jaccard_triangle`, `C155_jaccard_value`, `C155_normalize`, `C155_normalize_checks`, `C155_normalize_idempotent`, `C155_pair_checks`, `C155_products`, `C156_empty_refuted`, `C156_flat_closest_partial`, `C156_hnsw_true_partial`, `C156_own_text_partial`, `C157_flat_closest_partial`, `C157_hnsw_true_partial`, `C158_images_partial`, `C158_resnet_refuted`, `C158_unreadable_refuted`, `C160_flat_partial`, `C160_hnsw_partial`, `C160_own_text_partial`, `C162_inserting_raises`, `C162_lsh_partial`, `C16_flat_exact_knn_real`, `C23_ivf_untrained_exact_real`, `C25_ivf_full_probe_exact_real`, `C27_hnsw_search_sound_real`, `C32_similarity_value`, `C33_finds_itself_real_partial`, `C41_chebyshev_empty_refuted`, `C41_chebyshev_metric_partial`, `C41_chebyshev_value`, `C41_euclidean_metric`, `C41_euclidean_value`, `C41_hamming_normalised_refuted`, `C41_hamming_partial`, `C41_hamming_value`, `C41_manhattan_metric`, `C41_manhattan_value`, `C42_batch_agrees`, `C42_cosine_laws`, `C42_cosine_scale_invariant`, `C42_cosine_value`, `C43_indexes_agree`, `C47_optimal_partial`, `C47_optimal_refuted`, `C47_training_gives_codebook`, `C48_distance_to_decoded`, `C49_idempotent_partial`, `C49_idempotent_refuted`, `C52_never_worse`, `C52_reaches_optimum`, `C77_distance_is_cosine`, `C82_failed_training_refuted`, `C84_adjustment_no_op`, `C86_nearest_in_each_segment`, `C96_equal_rows_partial`, `C96_refuted`, `C96_threshold_one`, `C96_thresholds`, `C96_torn_refuted`, `C97_entries`, `C97_similarity`, `C98_measures`, `C98_raises`, `C98_rows`.

## 6. Findings

Properties whose full statement is false of the code, or proved only in part.  The refuting theorems carry
machine-checked witnesses.

* **C03** Stored data is isolated from the caller's objects.  REFUTED as stated for metadata: retrieve_vector returns the stored dictionary itself (memory.py:83), so changing a received dictionary changes what later reads see; and metadata.copy() is shallow, so changing a nested object changes the stored record. Proved on a heap model for all sequences of calls and of changes to reachable objects: the stored vectors are isolated without condition, the top-level entries of the metadata are isolated as long as received dictionaries are left alone.  (`C03_returned_metadata_refuted`, `C03_nested_metadata_refuted`)
* **C05** Disk storage keeps distinct ids apart and lists them back.  REFUTED in general (ids 'a b' and 'a/b' collide, list returns 'a_b'); proved for ids made of letters, digits, '.', '_' and '-'.  (`C05_distinct_ids_refuted`)
* **C09** A write that crashes is all or nothing for its own record.  REFUTED for store and update: a crash can leave the new vector with the old metadata, or an unreadable file. Partial: these are the only other outcomes, delete is all or nothing, and repeating the call repairs the record.  (`C09_refuted`)
* **C10** Hybrid storage is observably a single map.  REFUTED for ids of equal file-safe form; proved for histories whose ids have pairwise different file-safe forms.  (`C10_limit_invisible_refuted`)
* **C12** Hybrid storage loses nothing on restart.  REFUTED for ids of equal file-safe form; proved otherwise.  (`C12_restart_changes_answer_refuted`)
* **C13** Concurrent in-memory operations are linearisable.  REFUTED when close is one of the concurrent calls: the initialised flag is tested before the lock is taken, so a read overlapping a close can answer 'no such record' although a sequential order would give the record or an error. Proved for any number of threads, any schedule and all calls but close (after any sequential history, which may contain close): every history linearises and the final object behaves like the linearisation. What holds with close among the calls is C169.  (`C13_close_refuted`)
* **C14** Concurrent disk writes of one id never mix two records.  REFUTED: the final record can mix the two pairs. Partial: vector and metadata are each one of the two, other ids are untouched, different ids do not interfere.  (`C14_refuted`, `C14_spurious_error_refuted`)
* **C15** The client refuses to work when it is not initialised.  Any index, any storage: refuses before a successful initialize and after close. REFUTED part: an initialize that fails on a client already in service leaves it answering.  (`C15_failed_reinitialise_refuted`)
* **C21** A failed insert leaves the database unchanged.  REFUTED: an insert failing on a later row leaves earlier rows stored.  (`C21_failed_insert_refuted`)
* **C22** No accepted write makes the database unsearchable.  REFUTED: inserts of different dimensions succeed and make search raise.  (`C22_unsearchable_refuted`)
* **C29** HNSW search on a non-empty index finds something.  REFUTED: a vector alone on the top level hides the whole database, and so does emptying the top level by deletion. Proved when every node above level 0 has a neighbour on each of its levels.  (`C29_hnsw_finds_something_refuted`, `C29_hnsw_after_deletion_refuted`)
* **C30** HNSW search never returns the same id twice.  REFUTED: candidates are not de-duplicated. Proved for one-level graphs and for ef_search = 1.  (`C30_hnsw_distinct_ids_refuted`)
* **C31** LSH tables index exactly the live vectors.  REFUTED as stated: an update with a vector of another dimension answers False and leaves the live id in no bucket. Proved for histories whose updates keep the dimension, with copyable metadata, ids that are not negative numbers, and no initialize while open.  (`C31_failed_update_refuted`)
* **C32** LSH results are sound.  REFUTED as stated: update('-1') makes searches return id -1. Proved for all histories without negative id strings (failed updates and re-initialisation included).  (`C32_negative_id_refuted`)
* **C33** LSH always finds a stored vector when queried with it.  REFUTED after initialize() on an open index (tables emptied, vectors kept). Proved for histories in which that does not happen and updates keep the dimension; over the reals any threshold <= 1 is enough.  (`C33_reinitialise_refuted`)
* **C34** LSH delete and update of an id never handed out change nothing.  REFUTED: '-1' deletes the last vector and ' 0' updates the first although neither was handed out. Proved for ids that are not negative numbers and do not parse to a live slot.  (`C34_never_handed_out_refuted`)
* **C35** A failed LSH update changes nothing.  REFUTED: an update with a vector of another dimension answers False after unlinking the old vector. Proved for updates that keep the dimension.  (`C35_wrong_dimension_refuted`)
* **C37** Annoy deletion hides the vector.  REFUTED: deleted ids are still returned by search (with metadata None). The partial theorem proves no later result for a deleted id carries metadata.  (`C37_deleted_returned_refuted`)
* **C38** Annoy results carry the metadata given for their id.  REFUTED with update(), which appends instead of filling the slot. Proved for histories without update, with copyable metadata and no negative ids.  (`C38_update_refuted`)
* **C39** An index reachable through the client can be searched after inserting.  REFUTED for Annoy: through the client every search raises, for every history and storage. Proved for flat, IVF, HNSW (client level) and LSH (index level) for finite vectors.  (`C39_annoy_search_refuted`)
* **C40** The client's counts agree.  Proved for flat, IVF and HNSW; REFUTED for LSH and Annoy, which never write to storage.  (`C40_lsh_counts_refuted`, `C40_annoy_counts_refuted`)
* **C41** Distance functions are metrics.  Over exact reals. REFUTED in two corners: the Chebyshev distance of two empty vectors raises ValueError, and the Hamming distance is an unnormalised count. Everything else holds.  (`C41_chebyshev_empty_refuted`, `C41_hamming_normalised_refuted`)
* **C44** Scalar codes are within range.  Codes are in range for any state, any input (infinities and NaN included) and any rounding, whenever bits <= 63 and 2^bits-1 is exact in the float type. REFUTED for every bit width: with 54 bits in float64 a training vector gets code 2^54.  (`C44_codes_in_range_refuted`)
* **C45** Scalar quantization error is at most half a step.  Half a step for 1..24 bits in exact real arithmetic. REFUTED from 25 bits on: the decoder turns codes into float32.  (`C45_half_step_refuted`)
* **C46** Scalar quantization is monotone and idempotent.  Monotone for any monotone rounding that keeps 0 and 2^bits-1 (1..63 bits), infinities included; idempotent for 1..24 bits in exact arithmetic. REFUTED in full: 63 bits in float64 is not monotone; in float32 a decoded code may re-encode differently.  (`C46_monotone_refuted`, `C46_idempotent_refuted`)
* **C47** Product codes are valid and optimal.  Proved for every codebook of up to 65536 centroids per subspace (real arithmetic) and training always yields such a codebook. REFUTED above that: codes are stored as uint16, so with 65537 centroids the last one gets code 0.  (`C47_optimal_refuted`)
* **C49** Product quantization is idempotent.  Proved for up to 65536 centroids per subspace, duplicates included. REFUTED above that (uint16 codes).  (`C49_idempotent_refuted`)
* **C51** SAQ spends exactly the bit budget with at least one bit per segment.  Budget spent exactly: proved for every rounding. One bit per segment: REFUTED when there are more segments than bits; proved in exact arithmetic when each dimension's share is worth a bit.  (`C51_each_a_bit_refuted`)
* **C53** Saved state and index data are read back unchanged.  REFUTED as stated: two path strings can name one file ('a' and './a'), and save_vectors('a') overwrites the state saved at 'a.npz'. Proved: for every history with crashes and restarts the object is read back until a call writes the same file; ordinary path strings name different files.  (`C53_read_back_refuted`)
* **C54** Saved vectors are read back unchanged.  REFUTED as stated: np.savez appends .npz, so without that suffix load_vectors finds nothing (proved for all such paths), and mixed ids come back as strings. Proved: read-back for every path ending in .npz and every list of ids of one kind.  (`C54_suffix_refuted`, `C54_ids_refuted`)
* **C55** The last saved state is what incremental persistence loads.  REFUTED as stated: an index saved under a checkpoint's name is loaded instead; a failed save of an unpicklable state followed by a restart makes later loads raise. Proved: for all histories of saves of picklable objects, loads, closings and orderly restarts with caller paths off the manager's own files.  (`C55_last_state_refuted`)
* **C56** An acknowledged incremental save is never shadowed after a crash.  REFUTED: a crash between writing the checkpoint and checkpoint.json lets the interrupted checkpoint shadow a later acknowledged save. Proved: for all histories whose crashes fall outside that window (safe_crash).  (`C56_shadowed_refuted`)
* **C57** Operation numbers in the incremental log are unique.  REFUTED: after a restart the count goes back to the last checkpoint's and numbers repeat. Proved: inside one session the entries appended to the log carry consecutive numbers, for all histories before it and all calls in it.  (`C57_unique_refuted`)
* **C58** A crash while saving keeps the previous version readable.  REFUTED: open(path,'wb') empties the file first, so a crash before the dump loses both objects. Proved: the exact outcome (old, unreadable, new) for every crash point of every replacing save.  (`C58_refuted`)
* **C59** Fixed-size chunking covers the text with bounded pieces.  Proved for every text and every accepted configuration with non-negative overlap and non-negative min_chunk_size. REFUTED for negative min_chunk_size, which initialize accepts: a missing separator is then taken for one at position -1 and text is lost.  (`C59_negative_min_refuted`)
* **C60** A text that fits in one chunk gives one chunk.  REFUTED: with overlap o, a short text gives one piece per position of its last o characters (52 chunks for 200 characters with the defaults), and a text shorter than min_chunk_size gives none. C60_pieces_of_small_text characterises the pieces exactly; one chunk is proved for overlap <= 0 and a non-blank text within the size limits.  (`C60_refuted`)
* **C61** Sliding-window chunking covers the text.  Positions, lengths, order and numbering proved; every window is a chunk or shorter than min_chunk_size; coverage proved for min_chunk_size <= 1 and non-negative overlap. REFUTED otherwise: windows shorter than min_chunk_size are dropped.  (`C61_refuted`)
* **C62** No text is lost between input and chunks.  Proved for the three strategies when the size limits let everything through (0 <= min <= 1, max >= length). REFUTED: with the default limits a short text, and under the semantic strategy a paragraph above max_chunk_size, disappear.  (`C62_refuted`)
* **C64** Cleaning followed by semantic chunking splits long documents.  REFUTED: whitespace normalisation removes the blank lines semantic chunking splits at, so every document becomes a single chunk, and a document above max_chunk_size (2000) yields no chunk at all. C64_never_split proves this for all texts and configurations.  (`C64_refuted`)
* **C65** The documented pipeline configuration registers its parsers.  REFUTED for every configuration of the documented shape: the pipeline hands the value of "parsers" to the registry, which looks for "parsers" in it again, so nothing is registered and every file fails. Partial: one level deeper it works.  (`C65_refuted`)
* **C67** Batch insertion equals one big insertion.  Proved for positive batch sizes and callbacks that return, including equality with one big insertion through a client over a flat index on any backend. REFUTED for negative sizes (nothing inserted, no error), for a raising progress callback (rows counted twice) and for a second call without reset_stats (counters accumulate).  (`C67_negative_size_refuted`, `C67_raising_callback_refuted`, `C67_not_reset_refuted`)
* **C68** Parallel batch insertion loses and invents nothing.  Every execution order and completion order, insertions atomic. REFUTED when the progress callback raises: rows are inserted but no id is returned.  (`C68_raising_callback_refuted`)
* **C69** Batch search answers every query in order.  BatchManager.batch_search for positive sizes and callbacks that return. REFUTED for negative sizes, and for helpers.batch_search, where one failing query costs all answers.  (`C69_negative_size_refuted`, `C69_helper_refuted`)
* **C71** Validators accept exactly the valid inputs.  REFUTED for arrays of a non-numeric dtype: np.isnan raises TypeError instead of a validation error (C71_vector_types_refuted). Proved for every value in k, id, ids, metric and metadata, and for every value that is not a non-numeric array in vector(s).  (`C71_vector_types_refuted`)
* **C72** Recommended configurations can be built.  REFUTED: get_recommended_config raises ValueError for all arguments, because it asks for index presets by names that are not in the table.  (`C72_refuted`)
* **C74** The recommended index configuration is usable.  REFUTED: the recommended HNSW option M is never read by the index, and create_vector_db with its default arguments raises TypeError. Proved: the type is known to the factory and every other option reaches the index.  (`C74_M_ignored_refuted`)
* **C75** Embedding cache is transparent.  REFUTED as stated: the cached array is handed out uncopied, so a caller's write changes later answers; a text with a lone surrogate fails only because of caching; any hash of fixed digest length has colliding texts. Partial: transparent after every history without such writes when the hash tells the used texts apart.  (`C75_alias_refuted`, `C75_unencodable_refuted`, `C75_collision_refuted`)
* **C76** Concurrent LSH inserts get distinct ids.  REFUTED: LSHIndex.add has no lock; schedules are exhibited where two threads get the same id, one thread gets an id twice, an id carries the other thread's vector and metadata, and a vector hashed with projections that another thread replaced is not found. Proved: under every schedule of any number of threads no row is lost, repeated or changed; and with calls run one after the other (one worker, any order) ids are distinct and carry their own vector and metadata.  (`C76_duplicate_ids_refuted`, `C76_own_ids_repeat_refuted`, `C76_wrong_vector_refuted`, `C76_projections_refuted`)
* **C79** PDF chunks are attributed to the right page.  REFUTED: the count forgets the blank lines between pages, so chunks near the end of a page are given a later page. Proved: never an earlier page, and the right one when 2 * (pages before) characters are left on the page.  (`C79_refuted`)
* **C80** Re-initialising gives a fresh, consistent database.  REFUTED for IVF, HNSW, LSH and Annoy (stale clusters, counts, vectors); proved for flat.  (`C80_ivf_reinitialise_refuted`, `C80_hnsw_reinitialise_refuted`, `C80_lsh_reinitialise_refuted`, `C80_annoy_reinitialise_refuted`)
* **C81** LSH statistics report bucket sizes.  REFUTED: get_stats collects the ids in the buckets instead of the bucket sizes.  (`C81_max_bucket_size_refuted`)
* **C82** Failed quantizer training changes nothing.  REFUTED: a rejected training call has already replaced the dimension, and decoding fails afterwards.  (`C82_failed_training_refuted`)
* **C85** Every accepted SAQ configuration can be trained.  REFUTED: with min(n_segments, dim) > total_bits + 1 every training raises; proved in exact arithmetic when each dimension's share is worth a bit.  (`C85_trains_refuted`)
* **C87** validate_config accepts exactly the described configurations.  REFUTED: NaN passes every range. Proved for configurations without NaN.  (`C87_nan_refuted`)
* **C93** Docling chunks report their elements.  REFUTED: start_element is chunk_id * chunk_size, a number of characters; end_element is right (C91_docling_groups).  (`C93_start_element_refuted`)
* **C95** HTML removal leaves no tag.  Proved without Unicode normalisation, special-character replacement and lowercasing. REFUTED with the defaults: NFKD, applied after the removal, turns U+FF1C into '<'.  (`C95_refuted`)
* **C96** Exact duplicates are found.  Equal rows whose self-similarity reaches the threshold are grouped together. REFUTED for cosine: the damping constant hides equal rows of small norm, a threshold of one finds nothing at all, and equal rows can be torn apart.  (`C96_refuted`, `C96_torn_refuted`)
* **C99** Embeddings have the model's dimension.  REFUTED: white space gets 384 zeros whatever the model. Partial: every other text gets the model's dimension after every history (cache included).  (`C99_refuted`)
* **C100** Normalised embeddings have length one.  REFUTED for white space (zero vector). Partial: all other texts with a nonzero model vector, over the reals.  (`C100_blank_refuted`)
* **C101** Batch embedding equals embedding one by one.  REFUTED for texts of white space (model's vector in a batch, zeros alone; with other models the batch raises) and negative batch sizes. Partial: sentence transformers, positive size, no white space, model succeeds.  (`C101_blank_refuted`, `C101_negative_size_refuted`, `C101_ragged_refuted`)
* **C102** Embedding statistics.  REFUTED: get_stats embeds the word test, hits over embeddings made exceeds 1, batches of the other models count each text twice. Partial: bounds on the counters over single-text histories.  (`C102_stats_refuted`, `C102_hit_rate_refuted`, `C102_counted_twice_refuted`)
* **C103** Chunk embeddings line up with the chunks.  REFUTED when a chunk has no text: it gets no entry and later entries shift. Partial: all chunks have a text.  (`C103_missing_refuted`)
* **C105** Adding and removing parsers.  REFUTED in its last part: removing a built-in parser forgets its class, so initialising again does not bring it back. The rest is proved.  (`C105_removed_for_good_refuted`)
* **C106** A pipeline has each configured processor once, in order.  REFUTED for a second initialisation, also after a failed one: processors are appended again. Partial: first initialisation of a new or closed pipeline.  (`C106_twice_refuted`, `C106_half_way_refuted`)
* **C107** A processed document is cleaned, cut and embedded.  REFUTED as stated: the embedding cache is keyed by an md5 digest, and for every hash of 32 hexadecimal digits there are a model and two texts such that the second is given the embedding of the first (C107_collision_refuted). Proved whenever the digests of the texts seen differ.  (`C107_collision_refuted`)
* **C108** Pipeline results do not depend on the history; batches isolate failures.  REFUTED as stated: for every hash of 32 hexadecimal digits there are two texts such that processing one changes what the other gets (C108_collision_refuted). Proved whenever the digests of the texts seen differ.  (`C108_collision_refuted`)
* **C110** Concurrent insertions into a flat index lose nothing.  Proved for every schedule and any number of threads: no insertion fails, each returns its own ids, and at the end the backend and later searches see exactly the old records and all batches. REFUTED for the count: the length of the id list is read and written in two steps, so get_stats can stay one short (C110_count_refuted). Storage calls are atomic in the model, which is true of the backends with a lock (memory, hybrid).  (`C110_count_refuted`)
* **C111** A flat search beside other threads answers for one moment.  Proved for every schedule of searches beside insertions: exact over a set between the records at the start and those at the end. REFUTED beside deletions: the search can raise (metadata of a row deleted meanwhile), and the loop over the live id list can skip a record that nobody touched (both witnesses machine-checked).  (`C111_search_raises_refuted`, `C111_search_skips_refuted`)
* **C112** Semantic chunks are groups of whole paragraphs with the configured overlap.  Proved as stated for every positive overlap. REFUTED for overlap 0, where current_chunk[-0:] is the whole chunk, so every chunk repeats all the text before it, and for negative overlaps, where every chunk starts with the one before it less its first characters; for both the exact form of the chunks is proved (..._repeats).  (`C112_zero_overlap_refuted`, `C112_negative_overlap_refuted`)
* **C113** Semantic chunks keep to the chunk size.  Proved: at most chunk_size + 2, or one paragraph with at most chunk_overlap characters before it. REFUTED as stated: the two newlines between paragraphs are not counted.  (`C113_sizes_refuted`)
* **C114** Chunks report where they are in the text.  Proved for the fixed-size and sliding-window strategies through chunk_process. REFUTED for the semantic strategy: positions add up chunk lengths, ignoring blank lines, and are off from the second chunk on.  (`C114_semantic_refuted`)
* **C115** Cleaning a document cleans its chunks in place.  Proved except for the last clause. REFUTED: positions are kept although the text gets shorter, so they can even lie beyond the end of the cleaned text.  (`C115_positions_refuted`)
* **C116** The hybrid backend is linearisable under threads.  Proved for store, retrieve, delete, update, list and close, with list and all flag tests outside of the lock, for ids with distinct file-safe forms. REFUTED for get_stats: it reports the disk backend's cached count without the lock, so a thread can list a vector and then count zero. REFUTED for initialize beside close: initialize takes no lock, and the backend can be left with the disk part open and the memory part closed, so that listing answers and retrieval raises. Missing: initialize that overlaps no close.  (`C116_stats_refuted`, `C116_initialize_refuted`)
* **C118** A flat database on disk survives a crash inside a call.  REFUTED for searches: one half-written vector or metadata file makes every search of every later process raise, until that id is deleted or written again (C118_torn_record_blocks_search, C118_searchable_refuted). Proved: the stepwise client runs to the same result as the client model; a crash inside insert, delete or update touches only a prefix of the rows plus one half-written record; with no torn record the reopened database conforms to the specification from the readable records on; deleting the torn ids restores that.  (`C118_searchable_refuted`)
* **C120** An inverted-file database finds the vectors it stores.  Proved for an index whose metric is the one the clustering labels by (KMeans: Euclidean), over any scalars without overflow; over the reals the best hit is then at distance 0 and equal to the query. REFUTED for the default cosine metric: KMeans stays Euclidean, so a stored vector can be in a cluster that searching for it does not probe; witness with exact reals.  (`C120_ivf_cosine_refuted`)
* **C121** What an LSH search answers, exactly.  The answer is characterised exactly for the histories of C31 (updates keep the dimension, ids not negative, copyable metadata, no initialise while open). Beside it: REFUTED that a search with large k and no threshold returns the nearest vector, or anything at all.  (`C121_nearest_missed_refuted`, `C121_nothing_found_refuted`)
* **C122** Annoy scores are similarities.  Proved over exact reals for angular, Euclidean, Manhattan and dot; REFUTED for Hamming, whose score is one minus a count and so negative.  (`C122_hamming_refuted`)
* **C125** A client's quantizer compresses and its persistence manager saves the data.  REFUTED: the client never passes data to its optional components. Proved for every history: a quantizer and a manager are only ever initialised, closed and constructed anew; an untrained quantizer stays untrained and quantises nothing; the manager's files stay as they were, apart from an empty operation log. Witness: memory backend with a tensor manager, the inserted vector is gone after an orderly restart.  (`C125_lost_refuted`)
* **C126** Statistics of a client in service.  REFUTED: a SAQ quantizer trained before the client's initialize keeps its trained flag but loses the PCA object its report reads, and get_stats raises AttributeError. Partial: get_stats answers when backend and components report.  (`C126_saq_refuted`)
* **C127** Vectors saved to a file are read back.  REFUTED as stated: the default format appends .npz to any other suffix, so the file is not found under the path given; a pickle under another suffix than .pkl is not read; JSON turns tuples into lists and integer keys into strings and loses the element type; a save that raises has destroyed the file that was there. Proved: the round trips for npz and pickle under their suffixes, for JSON when the metadata and array are of the kind JSON keeps, exactly when the round trip holds, no other file changes, and unknown formats and suffixes are refused.  (`C127_default_format_refuted`, `C127_pickle_suffix_refuted`, `C127_json_metadata_refuted`, `C127_json_array_refuted`, `C127_failed_save_refuted`)
* **C128** Several storage objects over one directory.  REFUTED for the statistics: the count is cached per object, so what another process stores is listed but not counted. Proved for all interleavings of whole calls: every other answer is that of one shared store, the count is the number of records at the caller's last initialize, store or effective delete, and it is right while no other process makes or removes records. Calls that overlap in time are not covered here.  (`C128_stats_refuted`)
* **C129** Several clients over one directory.  REFUTED as stated: a client never sees what others insert after it came into service, ranks by the old vector what others update, and raises on searches that select a record another client deleted. Proved: every hit returned is a record of the directory at that time with its current metadata.  (`C129_unseen_refuted`, `C129_deleted_elsewhere_refuted`, `C129_updated_elsewhere_refuted`)
* **C131** The counts in the analysis of a set of vectors.  REFUTED: what is called sparsity is the share of values that are not zero, so that an array of zeros has sparsity 0; every pair is counted twice; a set of one vector raises ValueError (minimum of no similarities). Proved: the other counts are exact, the pair counts are exactly twice the numbers of pairs up to 1000 vectors, and exactly which arrays are refused.  (`C131_sparsity_refuted`, `C131_pairs_refuted`, `C131_one_vector_refuted`)
* **C132** Inspecting an index.  REFUTED: inspecting an LSH index raises ValueError when a vector other than the first is deleted, deleted vectors are counted, and inspecting any non-empty HNSW index raises TypeError. Partial: exactly when the inspection answers (LSH after every history, Annoy, HNSW), the count is that of the slots, and the entries of an open LSH index are the live vectors times the tables.  (`C132_lsh_refuted`, `C132_count_refuted`, `C132_hnsw_refuted`)
* **C133** The profiler's measurements.  REFUTED in its last clause: blocks nested in blocks of the same name are counted twice, so the total can exceed the time the run took. Everything else is proved, and the last clause for names whose blocks are not nested in one another.  (`C133_total_refuted`)
* **C135** The resource monitor's threads.  REFUTED: with two callers a start during a stop leaves two threads and a stop that never returns; after an exception in the thread, starting again reads nothing; the duration counts the gap between a stop and the next start. Partial: with one caller at most one thread runs, stop returns within three steps of the thread, and nothing is read after it; the summary describes the readings for any number of callers.  (`C135_restart_refuted`, `C135_two_callers_refuted`, `C135_duration_refuted`)
* **C136** The progress bar.  REFUTED: a total of zero raises ZeroDivisionError on finish, and more updates than the total make the bar wider than thirty. Partial: exactly when printing raises and when the bar is thirty wide, the number of filled characters, no raise and at most one line a second for positive totals, bars that never shrink.  (`C136_width_refuted`, `C136_finish_refuted`)
* **C137** How many handlers a logger has.  REFUTED in its last clause: every call of debugging.setup_logging adds a handler to the logger valori. The rest is proved.  (`C137_debug_refuted`)
* **C138** Where a log message is printed.  REFUTED: after setup_logging a message appears twice on standard output; a level of ERROR does not silence information messages; log_debug never prints. Proved instead: exactly where each message is printed after every sequence of calls that leave its logger and the logger's parents to the library.  (`C138_twice_refuted`, `C138_level_refuted`)
* **C140** The text parser hands on the decoded file, its encoding, language, paragraphs and chunks.  Text, chunks, paragraphs and the exact condition for 'en' are proved. REFUTED: text without an English word is 'en' because the words are looked for inside other words; when detection has no answer (chardet for an empty file) the metadata name no encoding although 'utf-8' is given as the default.  (`C140_language_refuted`, `C140_encoding_refuted`)
* **C141** The PDF parser keeps the text of every readable page and describes the pages it kept.  Text and entries are proved exactly. REFUTED in one point: when counting a page's images raises, its text stays in the document but its entry is missing, so the count is too low and chunks get the number of a later page.  (`C141_images_refuted`)
* **C142** A Word document's text is its paragraphs, with its tables.  REFUTED in one point: the text of tables is in the metadata only, not in the text or any chunk.  (`C142_tables_refuted`)
* **C143** Workbooks and presentations: every value and every shape's text is in the text, under its sheet or slide.  Sections, values and entries are proved. REFUTED in two points: total_cells leaves out sheets without a value though all sheets are counted; the sections cannot always be told apart again in the text.  (`C143_cells_refuted`, `C143_slides_refuted`)
* **C145** The registry and the pipeline report what they have.  The reports are proved exactly. REFUTED in one point: asking a pipeline with an embedding processor runs the model; a second question gets another answer, and it raises if the model does.  (`C145_asking_refuted`)
* **C146** The release scripts find the package's name and version.  What is found is proved exactly. REFUTED: a name in a table before [project] is taken instead of the project's.  (`C146_table_refuted`)
* **C147** Cleaning deletes exactly the old distributions.  The files listed and deleted are characterised exactly. REFUTED: versions whose text continues the current one are kept (0.1.10 next to 0.1.1), and archives of other packages whose name continues after a dash are deleted.  (`C147_versions_refuted`, `C147_package_refuted`)
* **C148** A release is sent only with consent and credentials.  Consent, credentials, server and exit code are proved. REFUTED: answering yes deletes nothing, and the old files are uploaded; without --yes nothing is ever deleted (C148_interactive).  (`C148_answer_refuted`)
* **C149** The chunking statistics.  The counters are proved for all histories. REFUTED for the average: it is characters in over chunks out; it is right for one text without blanks cut without overlap. Refused texts are counted.  (`C149_average_refuted`, `C149_refused_refuted`)
* **C150** The cleaning statistics.  The counters are proved; the bounds if the library functions do not lengthen texts. REFUTED otherwise: NFKD makes some characters longer, so the ratio exceeds 1 and characters_removed is negative.  (`C150_ratio_refuted`)
* **C151** Concurrent insertions into an inverted-file index lose nothing.  REFUTED in general: when an insertion trains the index, another one running at the same time can lose its row, enter rows twice or raise; when a cluster has no list yet two threads can lose a row; the count can lag. Proved for any number of threads and any schedule when the index is trained and every cluster has its list, or when all the rows together are too few to train.  (`C151_training_loses_refuted`, `C151_training_doubles_refuted`, `C151_training_raises_refuted`, `C151_new_cluster_loses_refuted`, `C151_count_refuted`)
* **C152** Concurrent insertions into a graph index keep the graph well formed.  REFUTED in part: two threads can make the same link twice, after which a search for two answers one vector twice and a deletion leaves a link to a deleted id; the count can lag; max_level can be put back below a populated level. Proved for any number of threads, any draws and any schedule: ids returned, records and vectors exact, bottom level exact, levels nested, links to other nodes of the level and symmetric, searches genuine.  (`C152_links_doubled_refuted`, `C152_count_refuted`, `C152_max_level_refuted`)
* **C153** A component out of service refuses with its own exception and changes nothing.  Proved for the three backends, the five indexes, the client with any components, the scalar and product quantizers, both persistence managers, the three processors, the registry and the pipeline, after any history and any interference. REFUTED in three places: storing under the empty id answers False before the flag is looked at, LSHIndex.delete answers False because it swallows the exception, and inserting a number without metadata into an LSH or Annoy index raises TypeError. The SAQ quantizer's guards are not modelled.  (`C153_empty_id_refuted`, `C153_lsh_delete_refuted`, `C153_insert_number_refuted`)
* **C154** A component raises only exceptions of its own kind.  Proved for the three backends, the flat, inverted-file and graph indexes over any backend, the scalar and product quantizers, both persistence managers, the client, the chunking and cleaning processors and the pipeline (with the entries of a batch). REFUTED for LSH search and insert (ValidationError, AttributeError), for the embedding processor (passes on what the model raises; ValueError for batch size 0) and for initialising a registry (AttributeError); the true parts of these are the partial theorems.  (`C154_lsh_refuted`, `C154_embedding_refuted`, `C154_registry_refuted`)
* **C155** Set similarity, scaling of single vectors and argument checks of the distance functions.  Everything proved over exact reals except one clause, REFUTED: jaccard_distance is zero between different vectors that are positive at the same positions (negative entries count as absent).  (`C155_jaccard_identity_refuted`)
* **C156** A semantic search database answers with the closest texts of its corpus.  REFUTED for the default options: the default index (annoy) is never built, so every search raises; and for an empty corpus, which raises IndexError. Proved with the flat index (exact closest texts, own text first at distance 0, all later histories) and with the graph index (true texts and distances, all later histories).  (`C156_default_refuted`, `C156_empty_refuted`)
* **C157** A hybrid search database answers with documents and keeps their fields.  REFUTED: a document's own doc_id is overwritten by its position; a single document lifted by the coin is not found; asking for index_type annoy alone always raises. Proved: true documents, distances and fields with the graph index, closest documents with the flat index, KeyError for a missing text.  (`C157_doc_id_refuted`, `C157_nothing_found_refuted`, `C157_annoy_refuted`)
* **C158** An image search database holds the readable images under their original positions.  REFUTED: the documented extractor resnet raises ValueError, and a list without a readable image raises IndexError. Proved: exactly the readable images in order with their original positions, true distances, all later histories.  (`C158_unreadable_refuted`, `C158_resnet_refuted`)
* **C159** Names and options given to the constructors are checked and honoured.  REFUTED: create_document_db overwrites the caller's index_config for annoy and hnsw. Proved: unknown names raise ValueError and existing ones are accepted; the metric reaches the flat index.  (`C159_document_options_refuted`)
* **C160** Documents put through the processing pipeline into a database are found again by questions.  REFUTED in two ways: a file without text is stored with 384 zeros, and unless that is the model's dimension every later question raises IndexError; and the example cleans documents but not questions, so the text of a file as it stands may find another file first. Proved for the rest: after any session the records are exactly those of the readable files, the flat index answers the closest documents, the graph index genuine ones, and the cleaned text of a document is answered at distance zero first; needs that the hash of the embedding cache tells the texts apart and that embeddings have one length.  (`C160_blank_refuted`, `C160_own_file_refuted`)
* **C161** Vectors from files: one row per readable file.  REFUTED for the function as it is: its configuration puts the parsers one level too high, so no file is ever parsed, and the empty result np.array([]).reshape(0, -1) raises ValueError (C161_always_raises: for all files and models). Proved for any configuration that does give the pipeline parsers; there a blank file still makes the whole call raise (C161_blank_refuted).  (`C161_refuted`, `C161_blank_refuted`)
* **C162** Measuring an index.  REFUTED: flat, HNSW and IVF have no add (AttributeError for every call), no queries or a clock that stands still raise ZeroDivisionError after the vectors were added, an Annoy index can be measured only once. Proved for LSH after every history.  (`C162_flat_refuted`, `C162_no_queries_refuted`, `C162_coarse_clock_refuted`, `C162_annoy_twice_refuted`)
* **C164** Health report.  REFUTED for the memory in use: the graph index keeps a copy of every vector that no figure counts, so no warning is given with 1.8 GB held and a memory limit of one vector. Partial: everything else, with the memory figure being the bytes of the records in the memory tier.  (`C164_refuted`)
* **C165** A backup determines the database.  REFUTED: a backup holds the statistics and the configuration only; two databases with different vectors write the same backup. Partial: when True is answered, that nothing else changes, and what the file holds.  (`C165_refuted`)
* **C166** The in-memory backend over shared objects is a map of contents.  REFUTED as stated: retrieve_vector hands out the stored dictionary itself, so a write into it changes what the next call answers. Proved: with no write into a dictionary received from retrieve_vector, all answers are those of one list of records of contents. Contents of a dictionary are its entries, a nested list being a reference (C03_nested_metadata_refuted).  (`C166_refuted`)
* **C167** Decorating a function does not change what it does.  REFUTED as stated: with psutil installed a memory-decorated function that raises ImportError runs twice; on a terminal that cannot show pictograms a debugged function is not called. Proved: with every line shown, and no ImportError from a memory-decorated function (or psutil missing), decorating changes nothing but the lines printed, and which lines those are.  (`C167_memory_refuted`, `C167_debug_refuted`)
* **C171** Concurrent changes of the same vector of a flat index leave index and backend in agreement.  REFUTED as stated: two updates of one id can leave the cache with the vector the backend does not have, and searches rank by it for good; two deletions of one id can make one of them raise in list.remove and leave the rest of its batch; deleting an id whose insertion is under way leaves a listed id without record. Proved for every schedule of deletions and updates: updates never fail, a returned deletion has removed its records for good, at the end the listed ids are the recorded ones, records and cached vectors are original or given by one of the updates.  (`C171_stale_vector_refuted`, `C171_deletion_raises_refuted`, `C171_ghost_id_refuted`)
* **C173** A retrieval from the disk backend beside writes of the same id answers with the old or the new record.  REFUTED: a reader can get the new vector with the old metadata, and can get StorageError while the record is replaced. Proved: an answer consists only of contents that the id had at the start or that a call writes under it, and the only exception is the storage error.  (`C173_mixed_record_refuted`, `C173_error_while_replacing_refuted`)
* **C174** The storage benchmark reports the number of vectors it inserted.  REFUTED: over the backends with files the data directory is never emptied, so run n reports the vectors of all n runs, and a run with another dimension fails with an index error; a clock that did not move gives ZeroDivisionError. Proved: the exact counts of every run for each backend, for vectors of one dimension.  (`C174_second_run_refuted`, `C174_other_dimension_refuted`, `C174_still_clock_refuted`)
* **C175** The quantizer benchmark reports a compression ratio for every quantizer.  REFUTED, and in the strongest form: no run ever completes, because the client never trains its quantizer and an untrained quantizer reports no compression ratio (KeyError); the results file is never written. It is the only obstacle: with a comparison that answers the file is written.  (`C175_missing_ratio_refuted`)
* **C178** The quantization example completes.  REFUTED: the client never trains its quantizer, so the statistics have no compression ratio and the example ends with KeyError. Proved: no input completes it; with acceptable vectors every call before answers and the error is exactly the KeyError.  (`C178_quantization_example_refuted`)

## 7. Wrong programs

`seeded/LOG.jsonl` records 893 deliberate faults put into a scratch copy of the model, the theorems that then failed to
build, and the theorems added or tightened because a fault had gone unnoticed (62 times).  The faults that still
survive are edits that do not change behaviour; the log says why.
