# Formal model of amityahav/vectory in Rocq (Coq 8.16.1)

Contents: 1 layout, 2 modelling style, 3 trusted base, 4 what is modelled and
what is not, 5 library contracts, 6 simplifications, 7 properties and theorems,
8 proof methods, 9 defects found, 10 testing the theorems.

## 1 Layout

* `rocq/theories/GoBase.v` – outcomes of a Go call (value, error, panic), byte slices, little-endian accessors.
* `rocq/theories/*Model.v` – the executable model, function by function; every definition cites file and lines of /repo. No proofs.
* `rocq/theories/*Spec.v` and the "Small specifications" section at the head of each `Prop*.v` – what the properties mean, written without the model's helpers.
* `rocq/theories/*Proofs.v`, `*Log.v`, `*Hist.v`, `*View.v`, `*Run.v`, `*Wf.v`, `*Codec.v`, `*Crash.v`, `*Trace.v`, `*Real.v`, `*Exact.v`, `*Growth.v` – lemmas (`*Real.v`: floating point against real numbers).
* `rocq/theories/Prop*.v` – the property theorems (named after the property, `C07_...`), each with `Print Assumptions`, and `..._case` examples showing that a concrete non-trivial case meets the hypotheses.
* `properties.jsonl` – the properties in English; `MANIFEST.json` – which theorems speak about which property; `seeded/LOG.jsonl` – wrong programs the theorems were tested against.

## 2 Modelling style

* Go values: `N`/`nat`; where the width matters `mod 2^32` or `mod 2^64` is written out (`u32`, `u64`). Bytes are `N` (below 256). A `float32` is its 32-bit pattern (`N`); arithmetic is IEEE-754 binary32/binary64 by the standard library's `SpecFloat` (pure Gallina, no axioms), round to nearest even, each operation rounded on its own (Go on amd64 does not fuse multiply and add; the assembly program does, and `AsmModel.ffma` rounds once).
* A Go call yields a value, an error or a panic (`out`). A panic keeps the state changed so far.
* Code that may run under goroutines is written once, in a free monad of atomic steps over the shared state (`ProgModel.prog`): one step per lock-protected section or single shared access; a mutex that is held blocks the step. `exec` runs one thread alone; `mstep` interleaves any number of threads. "Every schedule" and "every crash point" are quantifications over states reachable by `mstep`.
* Any number of goroutines calling one collection: `LinModel.con_run`, a run of atomic steps of clients that take and release c.mu; its trace is the calls and returns. `EarlyModel.erun` adds workers that outlive a failed batch call.
* A history (`CallModel.hist`) is any list of complete calls, restarts, and crashes between any two atomic steps of any goroutine of a call, with any prefix of the buffered index log on disk.
* Randomness (the level of a vertex), the embedder's answers, whether the disk accepts a write, the number of CPUs, the store's value limit and the JSON codec are arguments: theorems hold for every value.
* Loops that are not structurally recursive take fuel. Running out of fuel is the distinguishable panic `PFuel`; theorems about total behaviour prove that it does not occur (with fuel at least the number of vertices + 1), theorems of the form "if the call returns ..." do not depend on it.
* If the full statement of a property is false of the code, the theorem `..._refuted` exhibits a concrete run (evaluated by the kernel) and `..._partial` proves the part that holds. The refutation is about the model of the code as it is; it is the reason why the property is not "proved".

## 3 Trusted base

* Coq 8.16.1's kernel (including its `vm_compute` machine, used for the concrete runs).
* `Print Assumptions` is run on every property theorem in the `Prop*.v` files. The answer is `Closed under the global context` for every one of them except those about real numbers (section 7 lists them): these rest on the standard library's axioms for the reals, `ClassicalDedekindReals.sig_forall_dec`, `ClassicalDedekindReals.sig_not_dec`, `FunctionalExtensionality.functional_extensionality_dep`, and, through Flocq's lemmas, `Classical_Prop.classic`. No axiom of any other library is used. `coqchk` additionally lists seven entries `Coq.ssr.ssrunder.Under_rel.*`; they are the fields of a module type inside Coq's own ssreflect plugin (loaded by std++) and no theorem rests on them. With the real numbers it also lists `Coq.Reals.Rdefinitions.RbaseSymbolsImpl.*` and `RinvImpl.*`: definitions sealed by a module type in the standard library, which `coqchk` reports as axioms and `Print Assumptions` sees through.
* std++ (gmap, gset, lists) is used as a library of definitions and lemmas; it is axiom-free and checked by the same kernel.
* Flocq 4.1 supplies the correctness of the standard library's `SpecFloat` operations with respect to real numbers (`FloatReal`); it adds no axioms of its own. Only the theorems about real numbers use it; the model does not.
* The reading of the Go code: that the definitions in the `*Model.v` files say what the cited lines do. This is the part no prover checks. Sections 4 to 6 list it exactly.
* The contracts of the libraries in section 5.
* The Go memory model: lock-protected sections are atomic, and unprotected accesses to shared words are sequentially consistent single steps.

## 4 What is modelled and what is not

| file in /repo | model | not modelled |
|---|---|---|
| db/idcounter.go | CollModel: open_counter, fetch_and_inc | |
| db/collection.go | CollModel: validate_objects, embed_objects, get_config, get_size, close, reopen; DBModel: new_collection | |
| db/collection_insert.go | CollModel: insert_one, insert, chunk, worker, worker2, batch_prepare, batch_run | in CollModel and LinModel all workers end before the call does; EarlyModel lifts this |
| the caller's objects in InsertBatch and InsertBatch2 (collection_insert.go, store.go:37-56, text2vec-huggingface.go:114-116) | PtrModel: insert_ptr, worker_ptr, worker2_ptr, embed_ptr, batch_ptr | nil pointers; a caller that changes its objects during the call |
| the caller's configuration (collection.go:38-44, 96-102, 137-151) | AliasModel: astep, maps_of | fields other than the name and the mappings (strings, or read only once); append beyond the length of a slice |
| the id counter with writes cut short (idcounter.go:17-63) | CounterModel: ctr_open, ctr_written, ctr_fetch, ctr_step | bytes that arrive in another order |
| files and locks when opening and closing fail (db.go:23-68, 111-173, collection.go:38-129, store.go:23-34, 153-163, idcounter.go:65-67) | HandleModel: open_coll, close_coll, open_rows, close_db, wstep | what is in the files; deleted collections |
| db/collection_get.go, _delete.go, _update.go | CollModel: get, semantic_search, delete_obj, update | |
| c.mu in db/collection*.go, any number of callers | LinModel: con_step (who holds c.mu, what runs under it and what before); CallModel: looked_up, delete_found (what Delete's lookup may have found) | a waiting Lock keeps new RLocks out (the model allows more schedules) |
| db/db.go | DBModel: create/delete/get_collection, db_close, db_open; DBCrashModel: create_cut, delete_cut (the process dies inside), delete_unremoved (os.RemoveAll fails), kstep (crashes of the whole database); PathModel: walk, mkdir_at, remove_at, fstep (names as paths) | |
| db/crud.go, errors.go | interface and error values only | |
| a batch that returns before its workers (collection_insert.go:82-85, 136-139) | EarlyModel: estep (early return, workers left behind, Get and SemanticSearch read by read) | the process's other goroutines |
| db.mu in db/db.go, any number of callers of the database and its collections | DBConModel: own_step (what a goroutine does at the database), on_ev (what calls on a collection mean for it), cd_step | as for c.mu; os.RemoveAll and the sql statements are part of one step under db.mu |
| db/core/objstore/store.go, entities/objstore/object.go | StoreModel | String(), ToOut-like helpers |
| db/core/index/hnsw/{hnsw,insert,search,neighbors_select,delete,vertex,utils}.go | HnswModel; the choice of the level in LevelModel | the code of math.Log and math/rand (contracts, section 5), Debug helpers |
| db/core/index/hnsw/{wal,deserialize,startup}.go | WalModel, CollModel: populate, reopen | log truncation (not used by the code) |
| the file of the log, byte by byte (wal.go:20-52, tidwall/wal's binary format) | LogModel: rec_bytes, log_bytes, log_open, reopen_file, lstep | more than one segment (20 MB); what the library keeps in memory after a failed write |
| db/core/index/hnsw/test_utils.go | | test helpers |
| db/core/index/utils/{heap,mmheap,set}.go | HeapModel, MMHeapModel, SetModel | |
| db/core/index/distance/{rest,dot}.go | FloatModel: euclidean, dot | the unexported manhatthanDistance, cosineSimilarity, magnitude (not called) |
| db/core/index/distance/asm/dot.s, dot_stub.go (not called: distance/dot.go:29 is commented out) | AsmModel: the instructions, their registers and memory, the program dot_s | the generator asm/dot.go; alignment, flags other than the result of CMPQ, MXCSR (default: round to nearest even, no flush to zero), NaN payloads; the stack frame |
| db/core/index/disk_ann/{graph,dal,memory_index}.go | DiskAnnModel | locks of MemoryIndex (single caller) |
| db/core/index/disk_ann/disk_ann.go | DiskTopModel | data races proper: a step between two accesses to shared fields, an insert or search of one memory index, and a snapshot are atomic; loadIndex (empty in the code) |
| db/core/index/disk_ann/disk_index.go | stub in the code; returns nothing | |
| db/metadata/meta_manager.go, schema | DBModel: meta_create, rows; ent/SQLite by contract | generated ent code |
| entities/{collection,index,distance}/*.go | DBModel: config, raw, validate, validate_hnsw | JSON tags |
| api/handlers/collection.go | DBModel: rest_get, rest_add, rest_delete | go-swagger routing and decoding |
| db/embeddings/embedder.go, text2vec-huggingface.go, FlatProperties | CollModel: the embedder is a function argument, assign_vecs is lines 114-116; EmbedModel: text2vec is one such function | the HTTP call and its JSON (the service is an argument); a null row counts as an empty one |
| db/embeddings/fake_embedder.go | an embedder like any other | its random numbers |
| cmd, examples, gen, pkg, docs | | not modelled |

## 5 Library contracts

* bitcask v1.0.2: a persistent map; Put refuses values above a limit; on a closed store the key lookup still works, reading and writing values fails; a completed Put is on disk (as after a process crash, not a power failure).
* tidwall/wal: an append-only list; WriteBatch refuses a batch whose numbers do not continue the log; a failing write writes nothing; after a crash any prefix of the records of the batch may be present. LogModel writes out the format of the file (the length as a varint, then the data) and drops both assumptions; a file that ends inside a record is refused as corrupt.
* sqlite/ent: a table with unique names, rows in order of creation, atomic Save and Delete; integers inside a JSON column come back as float64.
* alitto/pond: the submitted tasks run in any interleaving; a panic in a task is swallowed; Wait returns at the first error of a task, or when the context is cancelled (with an error), without waiting for the other tasks; those that have not started are then skipped; otherwise it returns nil when all are done.
* encoding/json on property maps: an arbitrary pair of partial functions; where a theorem needs decode-after-encode it says so as a hypothesis (`json_ok`, `json_total`, `json_exact`).
* bitcask.Open takes a lock on the directory, also against the same process; Close gives it back even when it fails; methods of a nil *Bitcask panic (Keys in a goroutine of its own, which ends the process). os.File.Close closes the file even when it fails, and fails on a closed file. sql.DB.Close does nothing on a closed database. The garbage collector may close files that cannot be reached.
* container/heap, encoding/binary, sync.Once, sync.Mutex, sync.RWMutex: written out in the model.
* math.Sqrt: correctly rounded (IEEE); math.Log2: exact on the indexes of a heap (checked use: its integer part).
* math.Log (`LevelReal.log_ok`): log(+0) is -Inf, log(1) is +0, and for every other positive finite value the result is finite with an error of at most 2^-52 of the exact logarithm. `log_round_ok` shows that the contract can be met.
* math/rand.Float64 (Go 1.19): float64(Int63())/2^63, drawn again when that is 1; Int63 yields any number below 2^63.
* The x86 instructions of dot.s (AVX, FMA3): `AsmModel.istep` writes out what Intel's manual says of them, for the operands used.
* int64(x) of a float64 that does not fit: -2^63 (amd64) or 2^63-1 (arm64).

## 6 Simplifications

* The GetObject at the head of Delete runs before c.mu is taken, so other calls may come in between: `CallModel.call_run` lets it find the object as it was at any earlier moment, `LinModel` runs its two reads as steps of their own.
* A torn last log record is only in LogModel: C115 shows that the log then cannot be opened, and that otherwise the result is that of the crashes in CallModel. A torn write of the 8-byte id counter, and one the disk refuses, are only in CounterModel (C112): elsewhere that write happens or does not.
* In CollModel objects are values. PtrModel has the caller's memory, so that a pointer may be in a batch twice; C108 shows that for different pointers the two agree. Nil pointers are not modelled.
* C109 joins the two halves of the model: the operations of the index that a history of calls amounts to (index_ops in IdxProofs) are a definition over the calls and replies only, and C110 (alive, hits_ok, hits_exact in PropIdx) says what a search answers without mentioning the index at all. C111 says the same of a collection in a database, in terms of its configuration record.
* The two GetConnections calls of searchLayer (length, then copy) see the same list.
* In DBModel, path separators in collection names: mkdir fails (the real call may create elsewhere if the parent exists). PathModel resolves names as the kernel does, without symbolic links, but knows nothing of what is in the files. Neither knows names of more than 255 bytes or with NUL bytes, which the kernel refuses.
* In HnswModel the level of a vertex is an argument, any natural number. LevelModel chooses it from a draw as the code does, and C82 connects the two: for M >= 2 and a draw other than 0 the code behaves as HnswModel with a level up to 63; for M = 1, or draw 0, it panics, and theorems about HnswModel do not speak about those insertions.
* A handle of a deleted collection goes on with files that no longer have a name.
* Failing Close calls, and the open error of the vectors store that NewStores ignores (store.go:29), are in HandleModel only (C113, C114); elsewhere opening and closing the files succeeds.
* GroupContext's early return: in histories (`CallModel`) and in `LinModel` a batch that fails returns when all its workers have ended. `EarlyModel` returns at once and lets the workers run on, beside all later calls; C100 says which runs the two have in common, C101 and C102 what holds of all. A worker that is never scheduled again is a task that was skipped.

## 7 Properties and theorems

`Print Assumptions` answers `Closed under the global context` for every theorem listed, with these exceptions, which speak about real numbers: the theorems of C78 to C83, C92 and C93 rest on the standard library's `ClassicalDedekindReals.sig_forall_dec`, `ClassicalDedekindReals.sig_not_dec`, `FunctionalExtensionality.functional_extensionality_dep` and (those marked `_partial` and those of C82, C83, C92 and `C93_integer_vectors`) `Classical_Prop.classic`; `C80_dot_accuracy_refuted` and `C93_same_result_refuted` do without `sig_not_dec`.

| id | property | status | theorems | what is missing or assumed |
|---|---|---|---|---|
| C01 | Object ids are never reused | proved | C01_ids_never_reused, C01_ids_grow, C01_stored_keys_never_reused | Over every history of complete calls, restarts and crashes (between any two atomic steps).  The 8-byte counter write is one step. |
| C02 | Id counter file survives every value | proved | C02_counter_file_roundtrip, C02_counter_file_lengths |  |
| C03 | Vectors are stored bit for bit | proved | C03_vector_bits_roundtrip |  |
| C04 | Stored properties are framed losslessly | proved | C04_properties_framing | encoding/json is an abstract pair of functions |
| C05 | Read your writes | proved | C05_read_your_writes | json_ok says encoding/json decodes what it encoded for these properties; the store's value limit is below 2^32. |
| C06 | Get returns exactly the requested live objects in order | proved | C06_get_is_lookup_in_order | The map L is what the history says is live; json_total says encoding/json can decode what it encoded. |
| C07 | Deleted objects stay deleted | proved | C07_deleted_stays_deleted, C07_deleted_not_found | For ids that were acknowledged or shown in an answer before the delete. |
| C08 | GetSize counts the live objects | partial | C08_size_counts_live_refuted, C08_size_counts_live_partial | False as stated: a vector above the store's value limit leaves its properties behind.  Proved for histories without such vectors and without crashes inside an insert. |
| C09 | A rejected insert leaves nothing behind | partial | C09_rejected_insert_refuted, C09_failed_flush_refuted, C09_rejected_insert_partial | False as stated in two cases (vector above the value limit; log write refused by the disk); proved for all other rejections. |
| C10 | Index log records decode to what was encoded | proved | C10_log_records_roundtrip, C10_log_records_injective, C10_unknown_opcode_is_error |  |
| C11 | Restart restores the index exactly | proved | C11_restart_restores_index | Histories of complete sequential calls and restarts on a disk that accepts the writes; fewer than 2^64 log records. |
| C12 | Restart restores the index after a parallel batch | partial | C12_restart_after_batch_partial, C12_restart_after_batch_refuted | Refuted for neighbour lists: after a parallel batch the log can hold an edge the memory lost. Proved: the same vertices, levels, vectors, entry point, top layer and deleted ids come back, for every interleaving. |
| C13 | The index log never rejects its own batch | proved | C13_flush_never_refused, C13_records_kept, C13_records_survive_crash, C13_never_out_of_order | For fewer than 2^64-1 log records. |
| C14 | The database reopens after a crash at any point | partial | C14_reopens_after_crash_partial, C14_crash_before_vector_partial, C14_reopens_after_crash_refuted | Refuted: a crash between the vector's Put and the log flush makes reopening panic. Proved: reopening succeeds exactly when every stored vector's vertex record is on disk, for every call, crash point and interleaving. |
| C15 | Search answers are consistent after a crash during Delete | partial | C15_crashed_delete_partial, C15_crashed_delete_hits_partial, C15_crashed_delete_refuted | Refuted for a crash between the removal of the object and the log flush. Proved whenever the object is still stored or the delete record is on disk. |
| C16 | Search results are sorted, distinct, live, bounded and carry true distances | proved | C16_search_answers | sequential histories; hypotheses: M <= 2*MMax, one dimension, no NaN distance |
| C17 | Search never does worse than its entry point | proved | C17_layer_search_not_worse_than_start |  |
| C18 | Small collections are searched exactly | partial | C18_small_collections_exact_partial, C18_small_collections_exact_refuted | False as stated: Peek returns the last slice element of the max-heap, so searchLayer stops early; refuted for M = 3 with five reachable points and ef = 16. Proved (all histories, levels, queries, k): with simple selection and at most M+1, ef_construction+1 and ef vectors the answer is the exact k nearest live objects; the refutation has M+2 points, so the bound is tight. Missing: nothing more holds in general; index level, no NaN distances. |
| C19 | Every inserted object can be found by its own vector | partial | C19_own_vector_found_partial, C19_own_vector_found_refuted, C19_reachable_but_not_found_refuted | False as stated: pruning removes the last link to a vertex (M = 2, MMax = 1, four points), and even a reachable vertex can be missed. Proved for at most M+1 vectors with simple selection. |
| C20 | Searching an empty collection returns no hits | partial | C20_emptied_search_partial, C20_empty_search_refuted, C20_empty_search_partial | Refuted: on a collection that never held an object SemanticSearch dereferences a nil entry point and panics. Proved: once something was inserted, a search that returns and finds only deleted vertices has zero hits. |
| C21 | Search returns k hits whenever k live objects exist | partial | C21_k_hits_partial, C21_k_hits_refuted | False as stated: a deleted vertex takes the place of a live one when ef = 1. Proved for at most M+1 vectors with simple selection and ef at least the number of vectors ever inserted. |
| C22 | The index never panics on well-formed input | proved | C22_index_never_panics |  |
| C23 | Parallel inserts never panic or deadlock | proved | C23_parallel_inserts_never_panic_or_block | sync.Mutex and RWMutex as atomic steps; memory model: sequential consistency |
| C24 | Neighbour lists respect their bounds | partial | C24_neighbour_bounds, C24_fits_search_buffer_partial, C24_fits_search_buffer_refuted | the degree bound holds for every sequential history; that validated parameters fit the search buffer is false (M=3, MMax=1), proved for M <= 2*MMax |
| C25 | Neighbour selection picks the nearest, diverse candidates | proved | C25_simple_selection, C25_heuristic_selection |  |
| C26 | The binary heap is a priority queue | proved | C26_min_heap_is_priority_queue, C26_max_heap_is_priority_queue, C26_deep_copy_capacity |  |
| C27 | Peek shows the furthest kept element | partial | C27_peek_is_furthest_refuted, C27_peek_partial | false for the code: Peek returns the last slice element, not the root; refuted by a witness |
| C28 | The min-max heap is a double-ended priority queue | proved | C28_minmax_heap_is_double_ended_queue, C28_minmax_heap_empty_pop_panics | math.Log2 taken as exact |
| C29 | A min-max heap can be built from any slice | partial | C29_minmax_from_slice_refuted, C29_minmax_from_slice_partial, C29_minmax_from_slice_keeps_elements | false for the code: Init never fixes the root; proved when the first element is a closest one |
| C30 | Euclidean distance is a sane distance | proved | C30_euclidean_value, C30_euclidean_symmetric, C30_euclidean_never_negative, C30_euclidean_self_zero, C30_euclidean_finite_no_nan, C30_euclidean_panics_exactly_when_shorter |  |
| C31 | Dot product accepts every dimension | partial | C31_dot_any_dimension_refuted, C31_dot_value_partial, C31_dot_other_dimensions_panic | false for the code: panics unless the dimension is a multiple of 8; proved for those and refuted in general |
| C32 | Dot product search prefers the most similar vector | partial | C32_least_similar_first, C32_most_similar_first_refuted | False as stated, for every collection: the hits are ordered by increasing dot product, so the least similar come first (C32_least_similar_first holds for all histories and queries). |
| C33 | Exactly one first vertex | proved | C33_one_first_vertex_none_lost |  |
| C34 | The entry point sits on the highest layer | partial | C34_entry_point_on_top_partial, C34_entry_point_on_top_parallel_refuted | holds for every sequential history; false for overlapping inserts (the top layer read at the beginning is stale), refuted by a schedule |
| C35 | A batch insert inserts each object exactly once | partial | C35_chunks_cover, C35_batch_inserts_all_refuted, C35_batch_inserts_all_partial, C35_well_formed_batch_partial | Refuted: a panicking worker (here a vector shorter than the stored ones) is swallowed by the pool, InsertBatch succeeds and later objects of its chunk are missing. Proved for every schedule of both batch calls in which no worker panics; and no worker does in a collection used with encodable objects and vectors of one dimension (C68). |
| C36 | Batch validation is all or nothing | proved | C36_batch_all_or_nothing, C36_insert_all_or_nothing |  |
| C37 | Mappings are enforced exactly | partial | C37_mappings_exact_refuted, C37_mappings_exact_partial, C37_insert_refuses | Refuted for mapping lists with duplicate names; proved for duplicate-free lists. |
| C38 | Embeddings go to the right objects | proved | C38_embeddings_to_right_objects, C38_only_missing_are_sent, C38_embedder_error_stores_nothing |  |
| C39 | A closed collection refuses every operation | partial | C39_closed_refuses_partial, C39_closed_delete_refuted, C39_closed_delete_changes_nothing, C39_close_closes | Refuted for Delete, which does not check the closed flag; all other calls proved. |
| C40 | A closed database refuses every operation | proved | C40_closed_database_refuses, C40_close_closes_everything | Failures of closing SQLite or a store are not modelled. |
| C41 | Collections behave like a map from names | proved | C41_names_resolve, C41_refused_changes_nothing, C41_behaves_like_a_map | C41_names_resolve covers every history without reopening, whatever configurations were tried; C41_behaves_like_a_map also covers reopenings and says which calls succeed, for HNSW collections whose names are ordinary file names. |
| C42 | A failed CreateCollection leaves no trace | partial | C42_failed_create_leaves_no_trace_partial, C42_failed_create_leaves_no_trace_refuted | False as stated: disk_ann, the name metadata.db and the name . leave a row behind, so that Open fails (or the refused collection appears). Proved for HNSW collections with ordinary names in every history of such collections. |
| C43 | Configuration survives reopening | partial | C43_reopened_collections_partial, C43_configuration_survives_refuted, C44_database_reopens_partial | False as stated: mappings are dropped and integers above 2^53 are rounded. Proved: everything else of the configuration, all objects and vectors come back, for every history over ordinary names; the whole configuration when there are no mappings and no such integers. |
| C44 | A database written through the API can be reopened | partial | C44_database_reopens_partial, C44_database_reopens_refuted, C44_failed_batch_refuted | False as stated: after a disk_ann creation no later call can make Open succeed; a batch with one object that cannot be encoded makes Open panic. Proved for histories of one-at-a-time calls without panics on HNSW collections with ordinary names, over any number of reopenings. |
| C45 | Recreating a deleted collection starts empty | proved | C45_created_collection_is_empty, C45_empty_collection, C45_delete_is_local |  |
| C46 | A handle of a deleted collection stops working | partial | C46_deleted_handle_partial, C46_deleted_handle_refuted | False as stated: the handle still accepts objects. Proved: the name is free and DeleteCollection changes no handle. |
| C47 | REST status codes reflect the outcome | proved | C47_post_status, C47_get_status, C47_delete_status | The HTTP layer (routing, decoding) is not modelled; a GET of a collection that was closed on its own answers 500. |
| C48 | REST returns the configuration that was posted | partial | C48_get_after_post_partial, C48_get_after_post_refuted | False as stated: the mappings are not returned. Proved: everything else is, and the whole configuration if there are no mappings. |
| C49 | Parameter validation accepts exactly the usable parameters | partial | C49_validation_exact, C49_usable_partial, C49_usable_refuted | The first half is proved in full. The second is false: disk_ann is accepted but cannot be created, M > 2*MMax is accepted but inserting panics. Proved usable (created, and no panic in one-at-a-time use, for given levels; for the choice of the level see C82) when M <= 2*MMax. |
| C50 | Vectors of a wrong dimension are rejected | partial | C50_wrong_dimension_refuted, C50_short_query_partial, C50_short_insert_partial | Refuted: longer vectors are accepted silently. Proved for Euclidean distance: a query or insert shorter than the entry point's vector never succeeds. |
| C51 | Search hits match their objects | partial | C51_hits_match_partial, C51_hits_match_refuted | Refuted after a Delete whose log write failed followed by a restart. Proved for all histories without such a Delete, with batches in any interleaving, restarts and crashed inserts. |
| C52 | Update changes the stored object | partial | C52_update_refuted, C52_update_does_nothing | Refuted: Update changes nothing; proved what it does. |
| C53 | DiskANN snapshot metadata round-trips | proved | C53_metadata_round_trip | For at most 2^32-1 vertices, the number the format can hold. |
| C54 | DiskANN snapshots round-trip | partial | C54_round_trip_partial, C54_round_trip_refuted, C54_snapshot_panics_refuted | False as stated: neighbours are written in 8 bytes but read 4 apart, so an index of two neighbouring vertices comes back different, and a snapshot may panic. Proved when no vertex has neighbours. |
| C55 | DiskANN respects its degree bound | partial | C55_degree_bound_partial, C55_degree_bound_refuted, C55_pruned_vertex_refuted | False as stated: robustPrune compares the bound with the old neighbour list. Proved: neighbour lists have no duplicates and no self loops, so the bound holds for up to maxDegree+1 vertices. |
| C56 | DiskANN memory search is sound | proved | C56_search_sound, C56_search_sound_after_inserts, C56_empty_index_panics | The ascending order is for distances that are numbers (NaN is not ordered); an empty index has no starting vertex, so it is not well-formed, and a search of it panics. |
| C57 | DiskANN distinguishes all vertex ids | partial | C57_distinguishes_ids_partial, C57_distinguishes_ids_refuted | False as stated: visited is keyed by uint32(id), so vertices 1 and 2^32+1 are confused. Proved, in the strong form that a search with a large enough list finds exactly the k nearest reachable vertices, when no two ids share their low 32 bits. |
| C58 | Set operations are the set operations | partial | C58_set_valued_operations, C58_set_answers, C58_intersection_partial, C58_some_partial, C58_intersection_refuted, C58_some_refuted | all operations exact except Some (copy of All) and Intersection with an empty later set, both refuted |
| C59 | One-at-a-time use never panics | proved | C59_sequential_use_never_panics, C59_search_answers | Searches after the first acknowledged insert; fewer than 2^64 objects and log records; sizes within the 32-bit fields of the formats. |
| C60 | Inserts, deletes and searches at the same time | proved | C60_mixed_calls | One atomic step per critical section; needs M < 2*MMax as C23 does. |
| C61 | Concurrent use of a collection is linearizable | partial | C61_any_state_partial, C61_linearizable_partial, C61_linearizable_refuted, C61_second_delete | False as stated: GetSize takes no lock and can see half of a batch. Proved for every call but GetSize, for traces in which no search panics and collections whose JSON codec round-trips; GetSize is only shown to answer at least the size at one moment of its call. A Delete whose lookup has become stale only writes the tombstone record again (C61_second_delete). C61_any_state_partial is the same from an arbitrary state, with such Deletes left out. |
| C62 | A crash during concurrent use keeps acknowledged objects | proved | C62_crash_in_concurrent_use, C62_acknowledged_survives | Same model of concurrent calls as C61 (LinModel.v); one atomic step per critical section of the index and per store write. |
| C63 | What concurrent callers can rely on | proved | C63_concurrent_ids_distinct, C63_concurrent_read_your_writes, C63_concurrent_delete | For a JSON codec that can encode and decode every property map it is given back, and fewer than 2^64 inserts. |
| C64 | Queries change nothing | proved | C64_queries_change_nothing, C64_queries_can_be_left_out, C64_answers_repeat |  |
| C65 | Neighbour lists are sets of other vertices | partial | C65_neighbours_partial, C65_neighbours_parallel_refuted | False as stated: two inserts at the same time can each meet the other on an upper layer before its own search below, which then comes back to the vertex it is made for; that becomes its own neighbour, twice. Proved for calls made one at a time, NaN distances included. |
| C66 | An insert links what it should and nothing else | proved | C66_insert_links, C66_first_insert | Which vertices are found is what C16-C19 are about; this is what is done with them. The clauses about nearness hold unless a distance is NaN. |
| C67 | Every search stops at a local optimum | proved | C67_layer_search_local_optimum, C67_search_local_optimum | Holds in spite of Peek (C27): the element Peek returns is never nearer than the nearest. |
| C68 | Use with parallel batches neither panics nor deadlocks | proved | C68_batch_use_never_panics, C68_batch_finishes | With M < 2*MMax and at most as many objects as the fuel of the model's loops; batches come after the last restart (what a restart makes of parallel batches is C12). |
| C69 | Elements inside a min-max heap can be removed and changed | partial | C69_remove_partial, C69_remove_refuted, C69_remove_outside_panics, C69_fix_partial, C69_fix_refuted | False as stated: both call up only if down moved nothing, so an element that down moved is not compared with what is above i. Proved: nothing is lost in any case, and the order is kept for Remove at the three topmost positions and at leaves, and for Fix at the root and at leaves. Nothing in the repository calls Remove or Fix. |
| C70 | DiskAnn stores accepted vectors under their own ids | proved | C70_accepted_is_stored | Each step between two accesses to shared fields is atomic; insert and search of one memory index are atomic. |
| C71 | DiskAnn accepts every vector of its dimension | partial | C71_insert_outcome_partial, C71_inserts_end, C71_one_at_a_time, C71_insert_succeeds_refuted | False as stated: rwIndex is read after the lock is released, so it may be closed before the vector arrives and the insert fails. Proved: that and a wrong dimension are the only errors, none panics or waits for ever, and with one call at a time exactly the vectors of the right dimension are accepted. |
| C72 | Memory indexes keep to their size limit | partial | C72_limit_partial, C72_limit_concurrent_refuted, C72_limit_zero_refuted, C72_no_limit_after_race_refuted | False as stated: the size is compared with == before the vector is added, so two inserts that pass the test together overshoot it, and from then on the index grows without bound; limit 0 is overshot by two inserts in a row. Proved for calls one at a time and a limit of at least 1. |
| C73 | Closed memory indexes are on disk | partial | C73_closed_is_saved_partial, C73_closed_is_saved_refuted, C73_first_index_never_saved_refuted | False as stated: the goroutine reads rwIndex and len(roIndexes) when it runs; if it runs after the insert has gone on it saves the next, unfinished index under the next number, and the first index is never saved. Proved when every goroutine runs before the insert that started it goes on. A snapshot is one atomic step. |
| C74 | Delete of a DiskAnn removes the object it names | partial | C74_delete_partial, C74_deleted_is_gone_refuted, C74_others_stay_refuted | False as stated: object ids are never stored, every vertex has object id 0. Proved: deleting another object changes no search; deleting object 0 empties every search. |
| C75 | Search of a DiskAnn merges its memory indexes | partial | C75_search_partial, C75_nearest_refuted, C75_distinct_refuted, C75_search_answers_refuted | False as stated: the merged slice is not a proper min-max heap (C29), so the nearest can be dropped; an index being closed is searched twice; a rejected vector can leave an empty index, whose search panics. Proved while no insert is rotating and no index is empty: distinct accepted vectors with true distances, min(k, all) of them, and the nearest ones if the first merged result is a nearest one. |
| C76 | The ids of a memory index are consecutive | partial | C76_consecutive_partial, C76_consecutive_refuted, C76_consecutive_concurrent_refuted | False as stated: a vector of the wrong dimension uses up an id, and concurrent inserts around the closing of an index put ids into the wrong one. Proved for calls one at a time with vectors of the right dimension. |
| C77 | A new DiskAnn can be used | partial | C77_usable_partial, C77_new_index_refuted, C77_nil_distance_refuted | False as stated, for every sequence of calls: dimension, limit and distance function are never set, so every non-empty vector is refused and every search panics. Proved usable once the settings are filled in and the limit is not 0. |
| C78 | Euclidean distances are accurate | partial | C78_euclidean_accuracy_partial, C78_euclidean_accuracy_refuted, C78_euclidean_distinct_at_zero_refuted | False as stated: the squares overflow for distances above 2^64 and underflow for tiny ones. Proved for dimensions up to 2^22 and exact distances up to 2^62: the result lies between (1-2^-24)^(n/2+4)*d - sqrt(n)*2^-75 and (1+2^-24)^(n/2+4)*(d + sqrt(n)*2^-75). |
| C79 | The nearer of two vectors is recognised | partial | C79_computed_order_partial, C79_computed_order_refuted | False as stated: nearly tied distances can come out reversed. Proved up to the bounds of C78. |
| C80 | Dot products are accurate | partial | C80_dot_accuracy_partial, C80_dot_accuracy_refuted | False as stated: cancellation can leave nothing of the value. Proved for dimensions up to 2^22 and sums of absolute products up to 2^124: the error is at most ((1+2^-24)^(n+1) - 1) times the sum of the absolute products, plus underflow. |
| C81 | Search answers in the order of the true distances | partial | C81_answers_in_exact_order_partial, C81_small_collections_exact_partial, C81_answers_in_exact_order_refuted | False as stated for nearly tied distances. Proved up to the bounds of C78; the second half under the hypotheses of C18's theorem. |
| C82 | Every insertion finds a level | partial | C82_level_chosen_partial, C82_one_refuted, C82_zero_refuted | False as stated: M = 1 is accepted and makes every insertion after the first panic, and draw 0 makes every insertion panic. Proved for M >= 2 and the other draws: a level from 0 to 63 results and Insert goes on as modelled by hnsw_insert. |
| C83 | Levels are distributed geometrically | proved | C83_level_fraction_upper, C83_level_fraction_lower |  |
| C84 | Every object gets its own embedding | partial | C84_embedding_partial, C84_embedding_refuted | False as stated: an answer with fewer rows than texts panics. Everything else is proved, for every answer. |
| C85 | The text of an object is determined by its properties | partial | C85_text_partial, C85_text_refuted | False as stated: two properties come in either order. Proved: the pieces are the same, and the text is if at most one property is not null. |
| C86 | Different objects have different texts | partial | C86_text_injective_partial, C86_text_injective_refuted | False as stated: a value may contain what looks like another property. Proved for string values without commas under names without colons. |
| C87 | Asking for more extends the answer | proved | C87_more_extends, C87_short_is_all |  |
| C88 | Deleting hides one object and nothing else | proved | C88_delete_hides_one, C88_delete_is_the_call |  |
| C89 | A batch of one object is an Insert | proved | C89_batch_of_one |  |
| C90 | A call writes a bounded number of log records | proved | C90_call_records, C90_log_records, C90_record_size, C90_log_bytes |  |
| C91 | The assembly dot product reads only its arguments | partial | C91_returns_partial, C91_shorter_second_refuted | False as stated: the length of the second slice is not looked at, so a shorter one makes the call read what lies behind it. Proved when the second vector is not shorter than the first. |
| C92 | The assembly dot product is accurate | proved | C92_asm_accuracy |  |
| C93 | The assembly dot product returns what Dot returns | partial | C93_same_result_partial, C93_integer_vectors, C93_same_result_refuted | False as stated: products are not rounded before they are added, and are added in another order. Proved: the difference is at most the sum of the bounds of C80 and C92, and there is none for vectors of integers whose products add up to at most 2^24. |
| C94 | A crash during CreateCollection leaves all or nothing | partial | C94_create_crash_partial, C94_create_crash_refuted | False as stated: after a crash that leaves the row, the collection comes back without its mappings. Proved: everything else, for ordinary names (those of C42) that were not used by a deletion that was cut short. |
| C95 | A crash during DeleteCollection leaves all or nothing | partial | C95_delete_crash_partial, C95_delete_crash_refuted | False as stated: what is left of the directory makes CreateCollection fail, and after that failure the next Open brings the collection back with old objects. Proved: everything else, and the name is free if the directory is gone. |
| C96 | Each collection of a database behaves as if it were alone | partial | C96_collections_are_independent_partial, C96_opens_iff_each_opens, C96_collections_are_independent_refuted | False as stated for configurations that reopening changes (C43): mappings and integers above 2^53. Proved: each collection has the history of its own under the configuration in force (the given one up to the first reopening, the stored one from then on), for ordinary names (those of C42) not used again after a deletion that was cut short. The second half is proved for the same histories. |
| C97 | Acknowledged objects of every collection survive crashes of the database | partial | C97_acknowledged_survives_partial | Proved for ordinary names (those of C42), mappings or not, and for names not used again after a deletion that was cut short (C95); fewer than 2^64 objects submitted, components of 32 bits, properties the JSON codec reads back. For other names see C42. |
| C98 | A deletion that fails can be repeated | partial | C98_failed_removal_partial, C98_failed_removal_refuted | False as stated: the row is gone but the entry in memory is not, so that deleting again fails, and after a restart the name cannot be created. Proved: until the restart the name stands for the old handle, and every deletion or creation under it fails. |
| C99 | A database keeps to its data directory and each collection to its own | partial | C99_files_partial, C99_files_kept_partial, C99_outside_refuted, C99_nested_refuted | False as stated: names are not checked. A collection '..' is refused but appears after reopening, and deleting it deletes the parent of the data directory; 'a/b' lies inside 'a' and is deleted with it. Proved for names without a slash other than '.', '..' and sqlite's files, in every history of a database that starts without collections; what the stores, the counter and the log write below their directory is arbitrary. No symbolic links; os.RemoveAll removes all or nothing. |
| C100 | When a batch call returns, its work is over | partial | C100_batch_is_over_partial, C100_contains_lin, C100_batch_is_over_refuted | False as stated: pond's Wait returns at the first error, and the batch call with it; the other workers go on without c.mu. Proved: as long as no batch has failed nothing is left behind, and the runs are exactly those of LinModel (C61 to C64). |
| C101 | A failed batch does no harm to what has been acknowledged | proved | C101_ids_distinct, C101_acknowledged_stays, C101_acknowledged_survives, C101_read_your_writes, C101_older_objects_kept, C101_log_goes_on | Fewer than 2^64 objects submitted, values below 2^32 bytes, components of 32 bits, properties the JSON codec reads back. About the stores, the ids and the log; not about the index, which C60 treats. The crash theorem assumes that reopening succeeds (C14). |
| C102 | After Close has returned the files of the collection do not change | proved | C102_files_are_final, C102_later_calls_refused | Close is one step: closing the counter file and the two stores and setting the flag; a failing close(2) is not modelled. A store refuses to write once it is closed, as bitcask does. |
| C103 | Concurrent calls of a database happen one at a time | partial | C103_each_collection, C103_calls_one_at_a_time_partial, C103_names_unique, C103_close_is_one_step_refuted | False for Close: it closes the collections one after the other, and a goroutine that has been refused by one can still insert into another. Proved: each call has its effect at one moment (for Close the moment when all collections are closed; before it, collections may be found closed already), names are unique, and each collection runs as if it were alone. |
| C104 | Closing a database ends all writing, and succeeds | partial | C104_data_directory_is_final, C104_later_calls_refused, C104_close_succeeds_partial, C104_close_succeeds_refuted | Proved in full but for the success of Close: if a user closes a collection between IsClosed and Close, DB.Close returns the error with the metadata closed and everything else open, and nothing can be created any more. It succeeds if nobody else closes a collection. Refused means as in C102. |
| C105 | GET /v1/collection/{name} answers what is true at a moment of the request | partial | C105_rest_get_partial, C105_rest_get_refuted | False: the collection can be deleted, then closed, between GetCollection and GetConfig, and the answer is 500 'collection closed', which no moment would have given. Proved: the answer is that of a moment of the request, or this one if the collection found was closed later in the request. |
| C106 | Concurrent use of a collection neither panics nor deadlocks | proved | C106_concurrent_use_never_panics, C106_no_deadlock, C106_every_call_can_return, C106_nothing_left_behind | The past of the collection is that of C68 (fewer than 2^64 objects and B objects in all, degrees below 2^32, M at least 2 and so on, as listed in use_ok), vectors of one dimension, components of 32 bits. Steps are those of LinModel; that the steps of EarlyModel are the same if nothing fails is the last theorem. A fair scheduler is not modelled: what is proved is that some call can always go on and that no infinite run without new calls exists. |
| C107 | Concurrent use of a database neither panics nor deadlocks | proved | C107_database_use_never_panics, C107_no_deadlock, C107_every_call_can_return, C107_nothing_left_behind | Every collection is used as in C106, and no batch has left workers behind, which by the last theorem is so if the objects of the batches can be stored and nobody cancels. GetConfig is called on collections of this database. The configurations of collections created on the way satisfy the conditions of C106 if they are accepted. Fairness of the scheduler as in C106. |
| C108 | The caller's objects carry the ids they are stored under | partial | C108_pointers_are_values_partial, C108_caller_sees_ids_partial, C108_same_pointer_refuted | False for a batch that contains one pointer twice: both workers may store under the second id, the batch succeeds and one object of two is stored. Proved for batches of different pointers, for every schedule, by a simulation between PtrModel and CollModel, which justifies the values of CollModel; the second theorem also excludes batches with a panicking worker, which C35 refutes. |
| C109 | A collection searches like an index given its acknowledged inserts and deletes | proved | C109_collection_is_its_index, C109_same_answers | The conditions are those of use_ok and tidy_ev (as in C59: parameters M, efConstruction and ef positive, dimensions the distance supports, at most B inserts, 32-bit floats and levels), each search after the first acknowledged insert, no batches, no crashes, writes to the log succeed. The collection may have marked more ids as deleted than the index: those of objects whose vector was refused by the store, which have no vertex. |
| C110 | A search of a collection returns what is alive, nearest first | proved | C110_search_answers | Conditions as for C109, and no distance between two vectors involved is a NaN. Properties come back as they were if they survive the JSON codec (json_ok). Exactness for larger collections is refuted in C18. |
| C111 | A collection works as its configuration says | partial | C111_searches_as_configured_partial, C111_inserts_as_configured_partial | The full statement is refuted by C43 and C96: the mappings are lost when the database is opened again, and numbers above 2^53 change. Missing: collections with mappings after a reopening; searches are for collections used one call at a time with mappings empty and numbers below 2^53 (lean), under the conditions of C110. |
| C112 | Ids stay unique when a write of the counter is cut short | partial | C112_torn_value, C112_ids_unique_partial, C112_spared_needed, C112_reopen_refuted, C112_ids_unique_refuted, C112_same_counter, C112_object_replaced_refuted | Refuted: a first write of 1 to 7 bytes leaves a file that cannot be opened (and with it the database), and one byte of 256 written over 255 makes the counter 0 again, after which an Insert replaces an acknowledged object. Partial: no write is cut or refused where the bytes that arrived make the number in the file smaller, nor the first one after some of its bytes. C112_spared_needed shows that after a fetch every cut write left out does break the order of ids. C112_torn_value says exactly which number a cut write leaves. |
| C113 | Close gives back what Open took | partial | C113_close_exact, C113_close_releases, C113_everything_closed_refuted, C113_stuck, C113_retry_refuted, C113_retry_partial | Refuted twice: the log of the index is never closed, and a Close that failed at a collection fails for ever after, because the counter's file is closed already (C113_stuck). Proved: everything else is given back, exactly when Close succeeds, and trying again works if only the sql database had failed. Deleted collections are left out; HandleModel knows which files are open, not what is in them. |
| C114 | A database can be opened again | partial | C114_open_exact, C114_reopen_panics_refuted, C114_locked_refuted, C114_reopen_partial | Refuted: NewStores drops the error of opening the store of vectors, so that Open panics instead of returning it; a Close that failed between the two stores leads to that panic; an Open that fails keeps the stores it had opened locked, so that the next is refused. Proved: exactly when Open succeeds and when it panics, and that it succeeds if all databases of the process are closed and no Open or CreateCollection has failed inside newCollection. |
| C115 | The index log can be read whatever was cut short | partial | C115_written_is_read, C115_cut_exact, C115_crash_is_model, C115_model_is_crash, C115_opens_refuted, C115_failed_write_refuted, C115_file_partial | Refuted twice: a write cut inside a record makes the log, and with it the database, impossible to open; a write that fails half way leaves bytes behind which the next one is appended, and the collection panics when opened again although that Insert was acknowledged. Proved: exactly which cuts can be opened and with what result (which is that of CallModel's crashes, so that the theorems about crashes hold for those), and the whole statement if failing writes write nothing. The format is tidwall/wal's binary one, in a single file of less than 20 MB; what the library keeps in memory after a failed write is not modelled. |
| C116 | A collection keeps the mappings it was created with | partial | C116_mappings_kept_partial, C116_shared_array_refuted, C116_get_config_refuted | Refuted twice: newCollection copies the struct but not the array behind Mappings, and GetConfig returns a pointer to the collection's own struct; writing to either changes which objects are accepted. Proved for callers that do not write into the array and do not ask for the configuration of this collection; they may change their own struct and do anything with other collections. |

## 8 Proof methods

* Codecs: round trip by induction, for the offsets the code uses.
* Heaps: heap order and permutation invariants; the min-max heap through a characterisation of every element against its children and grandchildren.
* Index, one thread: Hoare-style triples over programs of atomic steps (`WpProofs.wp` with rely and guarantee; `HnswProofs`, `IndexProofs`), then induction over histories (`IndexHist`).
* Index, any schedule: the same `wp` with a rely stable under every other thread's steps; deadlock freedom because a thread that holds a vertex mutex never waits for another one.
* Batches: the same for workers that take their ids from the shared counter and their objects from a chunk or a channel (`BatchProofs`); every machine run is finite, so a run that is never stuck ends.
* Index log: a simulation between the memory and `replay (log ++ batch)`, step by step (`SeqLog`, `ParLog`).
* Collections: an abstract map carried along the history (`StoreView`, `HistProofs`), crash states through `call_cut`.
* Concurrent callers: a forward simulation from `con_run` to calls that take effect at one moment (`LinProofs`), the moments in trace order (`LinTrace`), and what a crash in between leaves (`LinCrash`).
* Workers that outlive their call: books of ids and budgets, one per goroutine and per worker, and a rely that says nobody touches the keys of another's ids (`EarlyProofs`, `EarlyRun`).
* Databases: induction over histories of API calls with reopenings (`DBProofs`); with crashes, an invariant that ties every collection to the history it has had by itself (`DBCrashProofs`).
* One insert's effect on the graph: what a layer search returns is confined to the layer (`LinkProofs`), independent of how many lists were pruned.
* Local optimality: a loop invariant of searchLayer in which every visited vertex is beaten by a returned one and every returned vertex is queued or expanded (`LocalProofs`).
* Exactness for small collections: the graph stays complete as long as no list is pruned (`ExactProofs`).
* DiskANN: well-formedness and reachability of the graph, completeness of the visiting loop (`DiskAnnProofs`); for the index over several of them an inductive invariant over all interleavings of Insert, Delete and the snapshot goroutines (`DiskTopProofs`).
* Accuracy of distances: the float32 loops against exact real sums, with Flocq's error bounds for each operation, by induction over the components (`FloatReal`, `DistReal`).
* The assembly program: one lemma per loop over the machine's steps, giving a closed form (`AsmProofs`); its error by a relation that addition and fused multiply-add keep, folded over blocks, tail and tree of additions once for error bounds and once for exact integers (`AsmReal`, `AsmExact`).
* Levels: four relative errors around the exact -ln r / ln M, then counting the draws below and above a threshold (`LevelReal`).
* Two runs compared: searches of two states that agree on the graph move in lock step and end with the same candidate list, from which k and the deleted set select (`MetaProofs`).
* Growth of the log: a budget of records carried by every goroutine, paid for by each write, and conserved by every interleaving (`LogGrowth`).
* Progress: the goroutines of `LinModel` are related to one-at-a-time calls (`LinProofs.rel`), whose states are well-formed (`BatchProofs`); a call that holds c.mu can go on because its body can finish from every state it can reach, and every step makes a well-founded measure of the goroutines smaller (`LinSafe`). For the database the measure is lexicographic, first the goroutines at db.mu, then those in the collections, then workers left behind (`DBConSafe`).
* The database: an invariant over all interleavings of the goroutines at the database and in every collection (`DBConProofs`); the run of one collection is cut out of a run of the database (`DBConTrace`); a simulation by calls made one at a time (`DBConAtomic`).

## 9 Defects of the code that the refutations exhibit

* `Heap.Peek` returns the last slice element, not the root: searchLayer stops early or evicts wrongly (C27, C18, C19).
* Deleted vertices occupy places of the candidate list (C21); pruning makes vertices unreachable (C19).
* Dot product ranks the least similar object first (C32) and panics unless the dimension is a multiple of 8 (C31).
* asm.Dot, should it be put in, reads behind a second vector that is shorter than the first (C91).
* The Euclidean distance overflows above 2^64 and is 0 for different vectors closer than about 2^-75 (C78).
* M = 1 makes every insertion after the first panic; so does drawing 0 (C82).
* An answer of the embedding service with too few rows panics (C84); the text sent depends on the order of map iteration and can be the same for different objects (C85, C86).
* Searching an empty collection dereferences a nil entry point (C20).
* M > 2*MMax is accepted and makes inserts panic (C24, C49).
* The same pointer twice in a batch: both workers may store under one id, and an object is lost though the batch succeeds (C108).
* A crash between the vector's Put and the log flush makes the collection impossible to open (C14); so does a batch with one failing worker, after a clean Close (C44).
* A crash inside Delete, or a failed log write in it, makes searches panic later (C15, C51).
* Two parallel inserts can lose a connection in memory that the log has (C12), leave the entry point below the top layer (C34), and make a vertex its own neighbour (C65).
* A failed batch returns, and gives up c.mu, while its workers still run: objects of the failed call appear later, ids included, with no call in progress (C100).
* pond swallows a worker's panic: InsertBatch reports success with objects missing (C35).
* Mappings are lost on reopening, integers above 2^53 are rounded (C43); duplicate mapping names are mishandled (C37); GET omits mappings (C48).
* A refused CreateCollection (disk_ann, names such as metadata.db) leaves a row behind and Open fails for ever (C42, C44).
* Collection names go into paths unchecked: deleting '..' after a restart deletes the parent of the data directory, deleting 'a' deletes 'a/b' (C99).
* A DeleteCollection that is cut short or cannot remove the files leaves a name that cannot be created again; trying brings the old objects back after a restart (C95, C98).
* DB.Close asks IsClosed and then closes: if a user closes the collection in between, Close fails half way, with the metadata closed, the other collections open and the database neither usable nor closed (C104). It closes the collections one after the other, so that calls see one closed and another open (C103).
* GET of a collection looks the name up and then asks the collection: the answer can be one that no moment would have given (C105).
* GetSize takes no lock and can report half a batch (C61).
* Delete ignores the closed flag (C39); the handle of a deleted collection goes on working (C46); Update does nothing (C52).
* Vectors of another dimension are accepted or panic (C50); oversized values leave half an object (C08, C09).
* `Set.Some` is a copy of `All`; `Intersection` with a later empty set returns the earlier part (C58).
* The min-max heap's Init never repairs the root (C29); its Remove and Fix can break the order (C69).
* DiskANN: neighbours are written 8 bytes wide and read 4 apart (C54); robustPrune tests the old list (C55); visited ids are truncated to 32 bits (C57).
* DiskAnn: NewDiskAnn leaves the settings unset, so nothing can be inserted (C77); object ids are never stored (C74); an insert can find its index closed (C71); the size limit is tested with == (C72); snapshot goroutines look at the wrong index (C73); the merge of results can drop the nearest, report a vector twice or panic (C75); ids get gaps the snapshot format cannot hold (C76).

## 10 Testing the theorems

`seeded/LOG.jsonl` has one line per wrong program. Each was made in a scratch copy by editing one definition of the model, and the whole development was rebuilt; lemmas that no longer go through were taken as assumptions there, so that `Print Assumptions` shows which property theorems rest on something that is no longer provable. "Failed" lists those theorems. This is an upper bound: a script may break although the statement still holds, so a listed theorem is evidence that the edit is noticed, not proof that the statement became false; what matters for tightening is the opposite case, a theorem that still proves. An attempt where the theorems of the broken claim still prove leads to a stronger theorem (`tightened`) or, when the edit turns out to be harmless or a repair, to a remark.
