{"id": "C01", "title": "Object ids are never reused", "statement": "Every object accepted by Insert, InsertBatch or InsertBatch2 gets an Id that no other object of the same collection ever had or will have, and the ids handed out after a restart or a process crash are larger than every id handed out before it. (Ids are 64-bit; the statement is for the first 2^64-1 insertions.)", "quantifier": "every sequence of id requests, restarts and crashes, with a crash possible before and after every file operation", "why_tests_cant": "a test sees a few restarts at a few points; reuse would only show at an untested crash point or count", "anchors": ["db/idcounter.go: newIdCounter, fetchAndInc", "db/collection_insert.go: insert"]}
{"id": "C02", "title": "Id counter file survives every value", "statement": "The 8-byte counter file written by an id request decodes, on the next open, to exactly the number of ids handed out, for every 64-bit value; a missing/empty file means zero and a file of 1 to 7 bytes makes opening the collection fail with an error instead of yielding a wrong counter.", "quantifier": "every 64-bit counter value and every file length", "why_tests_cant": "2^64 values cannot be enumerated", "anchors": ["db/idcounter.go: newIdCounter, fetchAndInc"]}
{"id": "C03", "title": "Vectors are stored bit for bit", "statement": "Reading back a stored vector returns the same dimension and the same 32-bit pattern in every component, including NaN payloads, infinities, negative zero and subnormals, for every dimension below 2^32.", "quantifier": "every vector of every dimension below 2^32", "why_tests_cant": "2^32 bit patterns per component and unbounded dimension", "anchors": ["entities/objstore/object.go: SerializeVector, DeserializeVector"]}
{"id": "C04", "title": "Stored properties are framed losslessly", "statement": "The bytes handed to the JSON decoder when an object is read back are exactly the bytes the JSON encoder produced when it was inserted, for every encoding shorter than 2^32 bytes, whatever follows them in the stored value.", "quantifier": "every JSON byte string shorter than 2^32", "why_tests_cant": "unbounded input lengths; the length prefix is modular arithmetic", "anchors": ["entities/objstore/object.go: SerializeProperties, DeserializeProperties"]}
{"id": "C05", "title": "Read your writes", "statement": "After Insert (or a batch insert) has returned success for an object, Get of its Id returns that object with the same properties and the same vector, after any later sequence of inserts, batch inserts (under any worker schedule), searches, deletes of other ids and restarts.", "quantifier": "every API history, every batch worker schedule", "why_tests_cant": "histories and schedules are unbounded", "anchors": ["db/collection_insert.go", "db/collection_get.go: Get", "db/core/objstore/store.go"]}
{"id": "C06", "title": "Get returns exactly the requested live objects in order", "statement": "Get(ids) returns, in the order of ids, one object per listed id that is currently stored and not deleted (duplicates repeated), silently omits the others, and does not change anything.", "quantifier": "every store content and every id list", "why_tests_cant": "the id list and store content are unbounded", "anchors": ["db/collection_get.go: Get", "db/core/objstore/store.go: GetObject"]}
{"id": "C07", "title": "Deleted objects stay deleted", "statement": "After Delete(id) returned success the object is never again returned by Get or by SemanticSearch, in every later history of API calls and restarts.", "quantifier": "every API history after the delete", "why_tests_cant": "unbounded histories, including restarts that rebuild the index from its log", "anchors": ["db/collection_delete.go: Delete", "db/core/index/hnsw/delete.go", "db/core/index/hnsw/search.go: Search"]}
{"id": "C08", "title": "GetSize counts the live objects", "statement": "GetSize equals the number of ids for which Get returns an object.", "quantifier": "every API history, including failed inserts", "why_tests_cant": "depends on the error path in the middle of an insert", "anchors": ["db/collection.go: GetSize", "db/core/objstore/store.go: PutObject, Size"]}
{"id": "C09", "title": "A rejected insert leaves nothing behind", "statement": "When Insert returns an error, the number of stored objects and the answers of Get and SemanticSearch are unchanged.", "quantifier": "every object and every failure point inside the insert", "why_tests_cant": "needs every failure point, including one store accepting and the other refusing the value", "anchors": ["db/collection_insert.go: insert", "db/core/objstore/store.go: PutObject"]}
{"id": "C10", "title": "Index log records decode to what was encoded", "statement": "Each of the five index log record kinds decodes to the same operation with the same arguments, for every 64-bit id, every level below 2^32 and every neighbour list shorter than 2^32; an unknown opcode is reported as an error.", "quantifier": "every record of every kind", "why_tests_cant": "unbounded list lengths and 2^64 ids", "anchors": ["db/core/index/hnsw/wal.go", "db/core/index/hnsw/deserialize.go"]}
{"id": "C11", "title": "Restart restores the index exactly", "statement": "After any sequence of single-threaded inserts and deletes, reopening the collection rebuilds the same index: same entry point, same top layer, same vertices with the same layers, neighbours (in the same order) and vectors, same set of deleted ids; hence every SemanticSearch returns the same answer before and after the restart.", "quantifier": "every history of inserts (every vector, every random level) and deletes", "why_tests_cant": "histories, vectors and random levels are unbounded", "anchors": ["db/core/index/hnsw/startup.go", "db/core/index/hnsw/deserialize.go", "db/core/index/hnsw/insert.go", "db/core/index/hnsw/wal.go"]}
{"id": "C12", "title": "Restart restores the index after a parallel batch", "statement": "After a successful InsertBatch executed by several workers, reopening the collection rebuilds the index that was in memory, for every worker schedule.", "quantifier": "every interleaving of the workers", "why_tests_cant": "a rare interleaving of two workers is enough to break it and cannot be provoked reliably", "anchors": ["db/core/index/hnsw/insert.go: Insert", "db/collection_insert.go: InsertBatch, InsertBatch2"]}
{"id": "C13", "title": "The index log never rejects its own batch", "statement": "In every history of inserts, deletes, flushes, failed flushes and restarts the sequence numbers of the buffered records continue the numbers on disk, so writing the batch is never refused as out of order and no record is lost or duplicated.", "quantifier": "every history of log writes, flushes (successful or failing without writing) and reopenings", "why_tests_cant": "off-by-one errors in sequence numbers only show in particular restart histories", "anchors": ["db/core/index/hnsw/wal.go: newWal, flush, writeBatch, Next"]}
{"id": "C14", "title": "The database reopens after a crash at any point", "statement": "If the process dies at any moment during Insert, reopening the collection succeeds.", "quantifier": "every crash point of every insert", "why_tests_cant": "a test cannot kill the process between two adjacent statements reliably", "anchors": ["db/collection_insert.go: Insert, insert", "db/core/index/hnsw/startup.go: populateVerticesVectors"]}
{"id": "C15", "title": "Search answers are consistent after a crash during Delete", "statement": "If the process dies at any moment during Delete and the collection is reopened, SemanticSearch does not panic and every hit carries the Id, properties and distance of one and the same object.", "quantifier": "every crash point of every delete", "why_tests_cant": "needs a crash between two adjacent statements", "anchors": ["db/collection_delete.go: Delete", "db/collection_get.go: SemanticSearch"]}
{"id": "C16", "title": "Search results are sorted, distinct, live, bounded and carry true distances", "statement": "Every index search over vectors with no NaN distances returns at most k results and at most ef results, in ascending distance order, with pairwise different ids, each of them the id of an inserted and not deleted vector, each with exactly the distance between that vector and the query.", "quantifier": "every reachable index, query vector and k", "why_tests_cant": "quantifies over all graphs that any insertion history can build", "anchors": ["db/core/index/hnsw/search.go: Search, searchLayer", "db/core/index/utils/heap.go"]}
{"id": "C17", "title": "Search never does worse than its entry point", "statement": "The nearest element found by a layer search is at least as near to the query as every element the search was started from.", "quantifier": "every graph, query and candidate list size", "why_tests_cant": "quantifies over all graphs and float values", "anchors": ["db/core/index/hnsw/search.go: searchLayer"]}
{"id": "C18", "title": "Small collections are searched exactly", "statement": "When the candidate list (ef) is at least the number of stored vectors and every vector is reachable from the entry point, Search returns the exact k nearest neighbours.", "quantifier": "every collection no larger than ef", "why_tests_cant": "quantifies over all graphs; the violating graph is specific", "anchors": ["db/core/index/hnsw/search.go: searchLayer", "db/core/index/utils/heap.go: Peek"]}
{"id": "C19", "title": "Every inserted object can be found by its own vector", "statement": "After any history of inserts, searching for the vector of any live object with k at least the number of objects and ef at least the number of objects returns that object.", "quantifier": "every insertion history", "why_tests_cant": "needs a particular insertion order that prunes every link to an object", "anchors": ["db/core/index/hnsw/insert.go: Insert", "db/core/index/hnsw/neighbors_select.go"]}
{"id": "C20", "title": "Searching an empty collection returns no hits", "statement": "SemanticSearch on a collection that holds no objects returns zero hits.", "quantifier": "every query on every empty collection (never filled, or everything deleted)", "why_tests_cant": "includes the state where all objects have been deleted and restarted", "anchors": ["db/core/index/hnsw/search.go: Search", "db/collection_get.go: SemanticSearch"]}
{"id": "C21", "title": "Search returns k hits whenever k live objects exist", "statement": "When the collection holds at least k live objects and k does not exceed ef, SemanticSearch returns k hits.", "quantifier": "every history of inserts and deletes", "why_tests_cant": "needs a history in which deleted objects crowd out live ones", "anchors": ["db/core/index/hnsw/search.go: Search", "db/core/index/hnsw/delete.go"]}
{"id": "C22", "title": "The index never panics on well-formed input", "statement": "If all vectors of a collection have the same dimension (for dot product a multiple of 8) and 0 < M <= 2*MMax, ef > 0, efConstruction > 0, then no sequence of index inserts, deletes and searches (on a non-empty index) panics, blocks or refers to a vertex or layer that does not exist.", "quantifier": "every history of inserts, deletes and searches with every random level", "why_tests_cant": "nil dereferences and index errors depend on the graph reached", "anchors": ["db/core/index/hnsw/insert.go", "db/core/index/hnsw/search.go", "db/core/index/hnsw/vertex.go"]}
{"id": "C23", "title": "Parallel inserts never panic or deadlock", "statement": "Under the same conditions (and M < 2*MMax) any number of concurrent inserts into the index, under every schedule, finish without panic and without deadlock, and leave an index in which every referenced vertex and layer exists.", "quantifier": "every number of workers and every interleaving", "why_tests_cant": "interleavings are unbounded", "anchors": ["db/core/index/hnsw/insert.go: Insert", "db/collection_insert.go: InsertBatch"]}
{"id": "C24", "title": "Neighbour lists respect their bounds", "statement": "No vertex ever has more than max(M, MMax) neighbours above layer 0 and more than max(M, 2*MMax) at layer 0, and validated parameters guarantee that these lists fit the search buffer of 2*MMax entries.", "quantifier": "every history of inserts and every parameter set accepted by validation", "why_tests_cant": "parameter combinations and histories are unbounded", "anchors": ["db/core/index/hnsw/insert.go", "db/core/index/hnsw/search.go: searchLayer", "entities/index/validator.go"]}
{"id": "C25", "title": "Neighbour selection picks the nearest, diverse candidates", "statement": "The simple strategy returns the min(m, n) candidates of smallest distance in ascending order. The heuristic strategy returns at most m distinct candidates in ascending order, always including the nearest one, such that a candidate is chosen exactly when no already chosen one is strictly nearer to it than the base vertex is.", "quantifier": "every candidate list, m and distance assignment without NaN", "why_tests_cant": "unbounded candidate lists", "anchors": ["db/core/index/hnsw/neighbors_select.go"]}
{"id": "C26", "title": "The binary heap is a priority queue", "statement": "Building a heap from any slice and applying any sequence of pushes and pops behaves like a priority queue: each pop returns an element of minimal (maximal) distance among those present and removes exactly that element.", "quantifier": "every slice and every sequence of pushes and pops, over every distance without NaN", "why_tests_cant": "unbounded operation sequences", "anchors": ["db/core/index/utils/heap.go"]}
{"id": "C27", "title": "Peek shows the furthest kept element", "statement": "Peek on the max-heap of kept candidates returns an element of maximal distance (the element the search compares new candidates against).", "quantifier": "every heap content", "why_tests_cant": "needs a specific heap shape", "anchors": ["db/core/index/utils/heap.go: Peek", "db/core/index/hnsw/search.go: searchLayer"]}
{"id": "C28", "title": "The min-max heap is a double-ended priority queue", "statement": "From an empty heap, after any sequence of Push, Pop and PopMax, Pop removes and returns an element of minimal distance, PopMax one of maximal distance, and no element is lost, invented or duplicated.", "quantifier": "every operation sequence", "why_tests_cant": "unbounded operation sequences", "anchors": ["db/core/index/utils/mmheap.go"]}
{"id": "C29", "title": "A min-max heap can be built from any slice", "statement": "NewMinMaxHeapFromSlice of any slice yields a heap whose Pop returns a minimal element and whose PopMax returns a maximal element.", "quantifier": "every slice", "why_tests_cant": "the order of the slice decides", "anchors": ["db/core/index/utils/mmheap.go: Init, NewMinMaxHeapFromSlice"]}
{"id": "C30", "title": "Euclidean distance is a sane distance", "statement": "For all float32 vectors: the result is symmetric for equal dimensions, never negative, exactly zero between a finite vector and itself, never NaN between finite vectors, and the call panics exactly when the second vector is shorter than the first.", "quantifier": "every pair of float32 vectors of every dimension", "why_tests_cant": "floating point rounding, overflow and signed zeros over unbounded dimensions", "anchors": ["db/core/index/distance/rest.go: EuclideanDistance"]}
{"id": "C31", "title": "Dot product accepts every dimension", "statement": "The dot product distance of two vectors of the same dimension is the sum of their component products, for every dimension; it is symmetric.", "quantifier": "every pair of float32 vectors of equal dimension", "why_tests_cant": "dimensions are unbounded; only some of them fail", "anchors": ["db/core/index/distance/dot.go"]}
{"id": "C32", "title": "Dot product search prefers the most similar vector", "statement": "In a collection with distance_type dot_product a stored vector with a larger dot product with the query is ranked before one with a smaller dot product.", "quantifier": "every collection and query", "why_tests_cant": "ranking direction must hold for all inputs", "anchors": ["db/core/index/distance/dot.go", "db/core/index/hnsw/hnsw.go: NewHnsw", "db/core/index/hnsw/search.go"]}
{"id": "C33", "title": "Exactly one first vertex", "statement": "Whatever the schedule of concurrent inserts into an empty index, exactly one of them becomes the initial entry point and no inserted vertex is lost: afterwards the index holds exactly the inserted ids, each with its own vector.", "quantifier": "every number of workers and every interleaving", "why_tests_cant": "depends on the interleaving", "anchors": ["db/core/index/hnsw/insert.go: Insert, insertFirstVertex"]}
{"id": "C34", "title": "The entry point sits on the highest layer", "statement": "After any history of inserts the entry point exists and its layer is the highest layer of any vertex, so that every layer can be entered.", "quantifier": "every insertion history and every schedule of parallel inserts", "why_tests_cant": "needs two workers that raise the top layer at the same time", "anchors": ["db/core/index/hnsw/insert.go: Insert"]}
{"id": "C35", "title": "A batch insert inserts each object exactly once", "statement": "Splitting a batch of n objects among w workers covers every object exactly once and in order, for every n and w > 0; when InsertBatch returns success every object of the batch is stored under its own fresh id, under every worker schedule.", "quantifier": "every batch size, worker count and schedule", "why_tests_cant": "boundary arithmetic over all sizes, all schedules", "anchors": ["db/collection_insert.go: InsertBatch, InsertBatch2"]}
{"id": "C36", "title": "Batch validation is all or nothing", "statement": "If any object of a batch does not fit the mappings, or lacks a vector while the collection has no embedder, InsertBatch and InsertBatch2 return an error and nothing has changed.", "quantifier": "every batch, with the offending object at any position", "why_tests_cant": "position and batch size are unbounded", "anchors": ["db/collection.go: validateObjectsMappings, embedObjectsIfNeeded", "db/collection_insert.go"]}
{"id": "C37", "title": "Mappings are enforced exactly", "statement": "An object is accepted exactly when its property names are exactly the names in the collection's mappings.", "quantifier": "every mapping list and property map", "why_tests_cant": "all combinations of names, including repeated names in the mappings", "anchors": ["db/collection.go: validateObjectsMappings"]}
{"id": "C38", "title": "Embeddings go to the right objects", "statement": "With an embedder, exactly the objects without a vector are sent to it, the i-th returned embedding becomes the vector of the i-th of these objects, vectors supplied by the user are never overwritten, and an embedder error stores nothing.", "quantifier": "every batch and every position pattern of missing vectors", "why_tests_cant": "2^n patterns of missing vectors", "anchors": ["db/collection.go: embedObjectsIfNeeded", "db/embeddings/text2vec-huggingface.go: Embed"]}
{"id": "C39", "title": "A closed collection refuses every operation", "statement": "After Close, Insert, InsertBatch, InsertBatch2, Update, Delete, Get, SemanticSearch, GetSize and GetConfig all return ErrCollectionClosed and change nothing.", "quantifier": "every operation with every argument on every closed collection", "why_tests_cant": "all operations times all arguments", "anchors": ["db/collection.go", "db/collection_delete.go", "db/collection_insert.go", "db/collection_get.go", "db/collection_update.go"]}
{"id": "C40", "title": "A closed database refuses every operation", "statement": "After DB.Close, CreateCollection, GetCollection and DeleteCollection return ErrDatabaseClosed and change nothing; all collections are closed; closing again succeeds.", "quantifier": "every database state and argument", "why_tests_cant": "all states and arguments", "anchors": ["db/db.go"]}
{"id": "C41", "title": "Collections behave like a map from names", "statement": "Over every history of CreateCollection, GetCollection and DeleteCollection that report no unexpected failure, a name resolves exactly when it was created and not deleted since; creating an existing name fails and changes nothing; deleting a missing name fails and changes nothing.", "quantifier": "every history of collection operations", "why_tests_cant": "unbounded histories", "anchors": ["db/db.go: CreateCollection, GetCollection, DeleteCollection", "db/metadata/meta_manager.go"]}
{"id": "C42", "title": "A failed CreateCollection leaves no trace", "statement": "When CreateCollection returns an error, the database (now and after reopening) is as if it had not been called.", "quantifier": "every configuration and database state", "why_tests_cant": "each failure point after the first side effect must be considered", "anchors": ["db/db.go: CreateCollection", "db/metadata/meta_manager.go: CreateCollection", "db/collection.go: newCollection"]}
{"id": "C43", "title": "Configuration survives reopening", "statement": "Closing and reopening the database restores every collection with the configuration it was created with, including its mappings, and with all its objects.", "quantifier": "every set of collections and every configuration", "why_tests_cant": "all configurations", "anchors": ["db/db.go: init", "db/metadata/schema/collection.go"]}
{"id": "C44", "title": "A database written through the API can be reopened", "statement": "After any history of API calls and a clean Close, Open on the same path succeeds.", "quantifier": "every API history", "why_tests_cant": "unbounded histories, including failed calls", "anchors": ["db/db.go: Open, init, CreateCollection"]}
{"id": "C45", "title": "Recreating a deleted collection starts empty", "statement": "After DeleteCollection and CreateCollection with the same name, the collection has no objects and its ids start at 0 again; other collections are unaffected.", "quantifier": "every content of the deleted collection and of the others", "why_tests_cant": "all contents", "anchors": ["db/db.go: DeleteCollection", "db/metadata/meta_manager.go: DeleteCollection"]}
{"id": "C46", "title": "A handle of a deleted collection stops working", "statement": "After DeleteCollection, operations on a handle obtained before fail with ErrCollectionClosed.", "quantifier": "every handle and operation", "why_tests_cant": "all handles and operations", "anchors": ["db/db.go: DeleteCollection"]}
{"id": "C47", "title": "REST status codes reflect the outcome", "statement": "POST /collection answers 201 exactly when the collection was created, GET answers 200 exactly when it exists, DELETE answers 200 exactly when it was deleted; validation failures and unknown names answer 400, everything else 500.", "quantifier": "every database state and request", "why_tests_cant": "all states times all requests", "anchors": ["api/handlers/collection.go"]}
{"id": "C48", "title": "REST returns the configuration that was posted", "statement": "GET of a collection right after a successful POST returns the same configuration, including the mappings.", "quantifier": "every configuration", "why_tests_cant": "all configurations", "anchors": ["api/handlers/collection.go: getCollection, addCollection"]}
{"id": "C49", "title": "Parameter validation accepts exactly the usable parameters", "statement": "Validation accepts exactly the documented configurations (non-empty name, known index, embedder and data type, for HNSW all four sizes positive and a known distance), and an accepted configuration can be used for inserting.", "quantifier": "every configuration", "why_tests_cant": "all integer values of four parameters", "anchors": ["entities/collection/validator.go", "entities/index/validator.go", "db/core/index/hnsw/utils.go: calculateLevelForVertex"]}
{"id": "C50", "title": "Vectors of a wrong dimension are rejected", "statement": "Inserting or searching with a vector whose dimension differs from the stored vectors returns an error and changes nothing.", "quantifier": "every index content and every dimension", "why_tests_cant": "all dimensions and graphs", "anchors": ["db/collection_insert.go: insert", "db/core/index/hnsw/insert.go", "db/core/index/distance"]}
{"id": "C51", "title": "Search hits match their objects", "statement": "In every history without crashes, SemanticSearch reports Hits equal to the number of returned objects, and the i-th object is the stored object of the i-th index result, with that result's distance.", "quantifier": "every API history without crashes and every query", "why_tests_cant": "unbounded histories", "anchors": ["db/collection_get.go: SemanticSearch", "db/core/objstore/store.go: GetObjects"]}
{"id": "C52", "title": "Update changes the stored object", "statement": "After Update(obj) returns success, Get of its id returns the updated object.", "quantifier": "every object", "why_tests_cant": "must hold for all objects and states", "anchors": ["db/collection_update.go"]}
{"id": "C53", "title": "DiskANN snapshot metadata round-trips", "statement": "Reading the metadata page of a snapshot returns the dimension, degree bound, first id, number of vertices and starting vertex that were written, for all values of their integer types.", "quantifier": "every metadata value", "why_tests_cant": "2^32 and 2^64 value ranges", "anchors": ["db/core/index/disk_ann/memory_index.go: serializeMetadata, deserializeMetadata"]}
{"id": "C54", "title": "DiskANN snapshots round-trip", "statement": "Loading a snapshot returns the same graph that was saved: every vertex with its object id, vector and neighbours.", "quantifier": "every memory index", "why_tests_cant": "all graphs, dimensions and degrees", "anchors": ["db/core/index/disk_ann/graph.go: serialize, deserialize", "db/core/index/disk_ann/dal.go: writeIndex, readIndex"]}
{"id": "C55", "title": "DiskANN respects its degree bound", "statement": "After any sequence of inserts into a memory index no vertex has more than maxDegree neighbours.", "quantifier": "every insertion history", "why_tests_cant": "all histories", "anchors": ["db/core/index/disk_ann/memory_index.go: insert, robustPrune"]}
{"id": "C56", "title": "DiskANN memory search is sound", "statement": "A search of a memory index returns at most k results in ascending distance order, each a vertex of the index whose object is not deleted, with its true distance, without duplicates, and terminates.", "quantifier": "every well-formed memory index, query, k and list size", "why_tests_cant": "all graphs", "anchors": ["db/core/index/disk_ann/memory_index.go: search"]}
{"id": "C57", "title": "DiskANN distinguishes all vertex ids", "statement": "The search treats different 64-bit vertex ids as different vertices.", "quantifier": "every pair of 64-bit ids", "why_tests_cant": "needs more than 2^32 ids", "anchors": ["db/core/index/disk_ann/memory_index.go: search"]}
{"id": "C58", "title": "Set operations are the set operations", "statement": "The generic Set type implements membership, cardinality, union, intersection of any number of sets, difference, symmetric difference, subset, equality, filter, for-all and exists exactly.", "quantifier": "every set and every predicate", "why_tests_cant": "unbounded sets and arbitrary predicates", "anchors": ["db/core/index/utils/set.go"]}
{"id": "C59", "title": "One-at-a-time use never panics", "statement": "A collection whose calls are made one after another, with vectors of one dimension the distance function supports, on a disk that accepts its writes, never panics: no Insert, Get, Delete, Update, GetSize, Close or SemanticSearch (after the first insert) panics, and the collection can be reopened at any point between calls.", "quantifier": "every sequential history of calls and restarts with vectors of one dimension", "why_tests_cant": "a panic can depend on the whole graph built by an arbitrarily long history", "anchors": ["db/collection_insert.go: Insert", "db/collection_delete.go: Delete", "db/collection_get.go: Get, SemanticSearch", "db/core/index/hnsw/insert.go: Insert", "db/core/index/hnsw/search.go: Search"]}
{"id": "C60", "title": "Inserts, deletes and searches at the same time", "statement": "Any number of goroutines may insert, delete and search the same index at the same time: none panics, they never all wait for each other, every schedule ends, and at the end exactly the inserted vertices (with their own vectors) are there and exactly the deleted ids are marked. Every search, whatever overlapped with it, is answered with at most k entries, at most ef, distinct, nearest first (no NaN), each a stored or inserted id with its true distance to the query, none of them deleted at the start or earlier by the same goroutine; and with at least one entry if nothing is ever deleted and k > 0.", "quantifier": "every number of goroutines, every list of calls for each (fresh ids, one dimension, searching only once the index is not empty), every starting index and every interleaving", "why_tests_cant": "the number of interleavings is astronomical and races show up only in some", "anchors": ["db/core/index/hnsw/insert.go: Insert", "db/core/index/hnsw/delete.go: Delete", "db/core/index/hnsw/search.go: Search, searchLayer"]}
{"id": "C61", "title": "Concurrent use of a collection is linearizable", "statement": "However many goroutines call the same collection, there is an order of the calls, one after another, in which each takes effect between its start and its end, each gives the answer it really gave, and the final state is the state the collection is really in.", "quantifier": "every number of goroutines, every call each makes (Insert, batches, Delete, Get, SemanticSearch, GetSize, Update, Close) and every interleaving of their steps, from every reachable collection", "why_tests_cant": "linearizability is a statement about all interleavings", "anchors": ["db/collection_insert.go: Insert, InsertBatch, InsertBatch2", "db/collection_delete.go: Delete", "db/collection_get.go: Get, SemanticSearch", "db/collection_update.go: Update", "db/collection.go: GetSize, Close"]}
{"id": "C62", "title": "A crash during concurrent use keeps acknowledged objects", "statement": "If the process dies at any moment while any number of goroutines use the collection (and no search has panicked), the disk holds what it would hold had the calls been made one at a time and the last been cut short; those calls include every Insert and batch that has returned, so each object they acknowledged that nobody asked to delete is found after reopening.", "quantifier": "every number of goroutines, every interleaving, every moment of the crash, every prefix of the buffered index log on disk", "why_tests_cant": "all crash points of all interleavings", "anchors": ["db/collection_insert.go: Insert, InsertBatch, InsertBatch2", "db/collection_delete.go: Delete", "db/core/objstore/stores.go", "db/core/index/hnsw/wal.go"]}
{"id": "C63", "title": "What concurrent callers can rely on", "statement": "Whatever other goroutines do at the same time (and if no search has panicked): no two objects get the same id; an object whose Insert or batch has returned is in the answer of every Get for its id called later and answered without an error, unless someone asks to delete it; and once a Delete of a known id has returned without an error, no call made later shows that id.", "quantifier": "every number of goroutines, every call each makes, every interleaving, from every reachable collection", "why_tests_cant": "statements about all interleavings", "anchors": ["db/collection_insert.go: Insert, InsertBatch, InsertBatch2", "db/collection_delete.go: Delete", "db/collection_get.go: Get, SemanticSearch"]}
{"id": "C64", "title": "Queries change nothing", "statement": "Get, SemanticSearch, GetSize and Update (which is not implemented) leave the whole collection, index and log included, as it was, unless a search panics: they can be left out of a history without changing where it ends, and a query asked again with only queries in between is answered the same.", "quantifier": "every reachable collection, every query, every history", "why_tests_cant": "the state includes the graph built by an arbitrarily long history", "anchors": ["db/collection_get.go: Get, SemanticSearch", "db/collection_update.go: Update", "db/collection.go: GetSize", "db/core/index/hnsw/search.go: Search, searchLayer"]}
{"id": "C65", "title": "Neighbour lists are sets of other vertices", "statement": "No neighbour list of the graph has a vertex twice, and no vertex is in one of its own lists, whatever inserts, deletes and searches the graph comes from.", "quantifier": "every parameters, every history of calls, every interleaving of parallel inserts, every layer", "why_tests_cant": "a self loop or duplicate only shortens the useful list, no answer is wrong", "anchors": ["db/core/index/hnsw/insert.go: insertAndConstruct, Insert", "db/core/index/hnsw/neighbors_select.go", "db/core/index/hnsw/hnsw.go: addConnection, setConnectionsAtLevel"]}
{"id": "C66", "title": "An insert links what it should and nothing else", "statement": "An insert into a non-empty index with nothing else running gives the new vertex, on each layer it shares with the index, at least one and at most M neighbours selected as in C25 from at most efConstruction vertices found on that layer, and no neighbours above; each selected vertex gets the new one appended, or, if its list is full, a new selection (C25) from its neighbours and the new vertex; every other list, every vector, the deleted set and the set of vertices stay as they were, and the entry point changes only if the new vertex is higher. The first insert stores a vertex of one layer.", "quantifier": "every parameters accepted, every well-formed index, every vector of the right dimension, every level drawn", "why_tests_cant": "the claim is about the whole graph before and after, for every graph", "anchors": ["db/core/index/hnsw/insert.go: insertAndConstruct, Insert", "db/core/index/hnsw/neighbors_select.go", "db/core/index/hnsw/hnsw.go"]}
{"id": "C67", "title": "Every search stops at a local optimum", "statement": "The nearest vertex found by a layer search, at any layer, has no neighbour on that layer that is nearer to the query; in particular none of the neighbours of the vertex Search finds nearest is nearer, and that vertex is the first hit unless it is deleted.", "quantifier": "every well-formed index, every query, every entry point, every ef, unless a distance is NaN", "why_tests_cant": "false for a search that stops too early, which on most graphs still finds good hits", "anchors": ["db/core/index/hnsw/search.go: Search, searchLayer", "db/core/index/utils/heap.go"]}
{"id": "C68", "title": "Use with parallel batches neither panics nor deadlocks", "statement": "A collection used one call at a time (with restarts) and then, since its last opening, with InsertBatch and InsertBatch2 too, whose workers run in parallel, never panics, in no call and in no worker, whether or not writes of the log succeed; the workers of an accepted batch can always go on until all have returned, and never run for ever.", "quantifier": "every history of calls with vectors of one dimension, every number of workers, every schedule", "why_tests_cant": "a deadlock or panic may need one particular interleaving on one particular graph", "anchors": ["db/collection_insert.go: InsertBatch, InsertBatch2", "db/core/index/hnsw/insert.go: Insert, insertAndConstruct", "db/core/index/hnsw/search.go: searchLayer"]}
{"id": "C69", "title": "Elements inside a min-max heap can be removed and changed", "statement": "Remove(i) takes exactly the element at i from the min-max heap and loses no other; Fix(i) after the element at i was changed loses none; after either the heap still is a double-ended priority queue (C28).", "quantifier": "every sequence of pushes and pops before and after, every position, every new value", "why_tests_cant": "depends on where the last element lands among the levels; a dozen elements are needed to see it go wrong", "anchors": ["db/core/index/utils/mmheap.go: Remove, Fix, up, down"]}
{"id": "C70", "title": "DiskAnn stores accepted vectors under their own ids", "statement": "When Insert of a DiskAnn returns without an error, the vector is in exactly one of its memory indexes, one that Search looks at, under an id no other call gets, and it stays there; nothing else is stored.", "quantifier": "every settings with a distance function for the dimension, every number of concurrent inserts (fewer than 2^64-1) and every interleaving of their steps with deletes and snapshot goroutines", "why_tests_cant": "ids and the current index are read and changed by all callers; the interleavings cannot be enumerated", "anchors": ["db/core/index/disk_ann/disk_ann.go: Insert", "db/core/index/disk_ann/memory_index.go: insert"]}
{"id": "C71", "title": "DiskAnn accepts every vector of its dimension", "statement": "Insert of a vector of the index's dimension succeeds, Insert of any other vector fails with an error; no insert panics or waits for ever.", "quantifier": "every settings with a distance function for the dimension, every number of concurrent inserts and every interleaving", "why_tests_cant": "the failure needs the index to be closed between two particular lines of another call", "anchors": ["db/core/index/disk_ann/disk_ann.go: Insert", "db/core/index/disk_ann/memory_index.go: insert, ReadOnly"]}
{"id": "C72", "title": "Memory indexes keep to their size limit", "statement": "No memory index of a DiskAnn ever has more than memoryIndexSizeLimit vertices, and the closed ones have exactly as many.", "quantifier": "every settings, every number of concurrent inserts and every interleaving", "why_tests_cant": "the limit is tested for equality only, so one missed moment is enough", "anchors": ["db/core/index/disk_ann/disk_ann.go: Insert"]}
{"id": "C73", "title": "Closed memory indexes are on disk", "statement": "Once the snapshot goroutine of a closed memory index i has run without an error, the file ro_i holds the snapshot of index i, and this stays so.", "quantifier": "every settings, every interleaving of inserts with the snapshot goroutines they start", "why_tests_cant": "depends on when the scheduler first runs the goroutine", "anchors": ["db/core/index/disk_ann/disk_ann.go: Insert", "db/core/index/disk_ann/memory_index.go: snapshot", "db/core/index/disk_ann/dal.go"]}
{"id": "C74", "title": "Delete of a DiskAnn removes the object it names", "statement": "After Delete(objId) no Search returns a vector inserted for objId, and the vectors of other objects are found as before.", "quantifier": "every reachable state of the index, every object id, every query", "why_tests_cant": "a claim about all later searches in all states", "anchors": ["db/core/index/disk_ann/disk_ann.go: Delete, Search", "db/core/index/disk_ann/memory_index.go: insert, search"]}
{"id": "C75", "title": "Search of a DiskAnn merges its memory indexes", "statement": "Search answers with distinct accepted vectors and their true distances: the k nearest of what the memory indexes find, all of it if that is no more than k; it does not panic.", "quantifier": "every reachable state of the index with at least one vector, every query of its dimension, every k, also while inserts are under way", "why_tests_cant": "depends on which index holds which vector and on the shape of the min-max heap", "anchors": ["db/core/index/disk_ann/disk_ann.go: Search", "db/core/index/utils/mmheap.go: NewMinMaxHeapFromSlice, PopMax", "db/core/index/disk_ann/memory_index.go: search"]}
{"id": "C76", "title": "The ids of a memory index are consecutive", "statement": "The vertices of every memory index have the ids firstId, firstId+1, ..., as the snapshot format requires.", "quantifier": "every settings, every number of concurrent inserts and every interleaving", "why_tests_cant": "gaps come from failed inserts or from inserts that overlap the closing of an index", "anchors": ["db/core/index/disk_ann/disk_ann.go: Insert", "db/core/index/disk_ann/dal.go: writeIndex, readIndex"]}
{"id": "C77", "title": "A new DiskAnn can be used", "statement": "The index NewDiskAnn returns accepts vectors, and Search finds them.", "quantifier": "every sequence of calls on a new index, concurrent or not", "why_tests_cant": "the claim that nothing ever gets in is about all sequences of calls", "anchors": ["db/core/index/disk_ann/disk_ann.go: NewDiskAnn, Insert, Search"]}
{"id": "C78", "title": "Euclidean distances are accurate", "statement": "The distance EuclideanDistance returns for two finite vectors is the exact Euclidean distance up to the rounding errors of its operations; in particular it is finite when the exact distance fits a float32, and not zero for different vectors.", "quantifier": "every pair of finite float32 vectors of every equal dimension", "why_tests_cant": "rounding errors over unbounded dimensions against exact real arithmetic", "anchors": ["db/core/index/distance/rest.go: EuclideanDistance"]}
{"id": "C79", "title": "The nearer of two vectors is recognised", "statement": "If the computed distance of v to q is not larger than that of w, then v is not further from q than w in exact arithmetic.", "quantifier": "every triple of finite float32 vectors of equal dimension", "why_tests_cant": "depends on the last bits of sums of rounded squares", "anchors": ["db/core/index/distance/rest.go: EuclideanDistance", "db/core/index/utils/heap.go"]}
{"id": "C80", "title": "Dot products are accurate", "statement": "The value Dot returns for two finite vectors is their exact inner product up to a small relative error.", "quantifier": "every pair of finite float32 vectors whose dimension is a multiple of 8", "why_tests_cant": "cancellation and rounding over unbounded dimensions against exact real arithmetic", "anchors": ["db/core/index/distance/dot.go: Dot"]}
{"id": "C81", "title": "Search answers in the order of the true distances", "statement": "With the Euclidean distance a search lists the objects by increasing exact distance to the query, and in a small collection leaves out none that is truly nearer than one it lists.", "quantifier": "every history of inserts, deletes and searches, every finite query and vectors, every k", "why_tests_cant": "needs the graph search and the floating point arithmetic in one argument, over all histories", "anchors": ["db/core/index/hnsw/search.go: Search", "db/core/index/distance/rest.go: EuclideanDistance"]}
{"id": "C82", "title": "Every insertion finds a level", "statement": "For every accepted configuration and every number the random generator can draw, calculateLevelForVertex and Init give the new vertex a level of at least 0 and do not panic.", "quantifier": "every accepted M, each of the 2^63 draws, every math.Log with an error below one unit in the last place", "why_tests_cant": "2^63 draws for each M; the ones that fail are too rare to be drawn or only occur for one M", "anchors": ["db/core/index/hnsw/utils.go: calculateLevelForVertex", "db/core/index/hnsw/hnsw.go: NewHnsw", "db/core/index/hnsw/vertex.go: Init", "db/core/index/hnsw/insert.go: Insert"]}
{"id": "C83", "title": "Levels are distributed geometrically", "statement": "For M from 2 to 2^53 the fraction of draws that give a vertex level l or more is M^-l, up to a relative error of 2^-42 and one draw, for every l.", "quantifier": "every M from 2 to 2^53, every level l, all 2^63 draws, every math.Log with an error below one unit in the last place", "why_tests_cant": "needs counting over 2^63 draws and the rounding of logarithm, quotient and product", "anchors": ["db/core/index/hnsw/utils.go: calculateLevelForVertex", "db/core/index/hnsw/hnsw.go: NewHnsw"]}
{"id": "C84", "title": "Every object gets its own embedding", "statement": "When a batch is embedded, objects that came with a vector keep it, the i-th object without one gets the i-th row of the service's answer to the texts of those objects in their order, nothing else changes, and whatever the service answers there is no panic.", "quantifier": "every batch, every order of map iteration, every answer of the HTTP service", "why_tests_cant": "the service's answers and Go's map order are not under the test's control", "anchors": ["db/embeddings/text2vec-huggingface.go: Embed", "db/collection.go: embedObjectsIfNeeded"]}
{"id": "C85", "title": "The text of an object is determined by its properties", "statement": "FlatProperties gives the same text every time it is called on objects with the same properties.", "quantifier": "every property map and every order of iteration", "why_tests_cant": "Go randomises map iteration; a test may see one order only", "anchors": ["entities/objstore/object.go: FlatProperties"]}
{"id": "C86", "title": "Different objects have different texts", "statement": "Objects with different properties give FlatProperties texts that differ, in every order of iteration.", "quantifier": "every pair of property maps, every order of iteration", "why_tests_cant": "a claim about all pairs of maps", "anchors": ["entities/objstore/object.go: FlatProperties"]}
{"id": "C87", "title": "Asking for more extends the answer", "statement": "If SemanticSearch succeeds for k2, then for every k1 from 0 to k2 it gives, in the same state, the first k1 of those results; and an answer with fewer than k results is the answer for every larger k too.", "quantifier": "every state, reached by calls or not, every query and all k1 <= k2", "why_tests_cant": "relates all pairs of runs; the result heap and the deleted set could interact for particular k only", "anchors": ["db/core/index/hnsw/search.go: Search", "db/collection_get.go: SemanticSearch"]}
{"id": "C88", "title": "Deleting hides one object and nothing else", "statement": "After a successful Delete(id), the k results of a search are the first k of the k+1 results before it without id: same objects, same distances, same order.", "quantifier": "every state with 64-bit ids, every id, query and k", "why_tests_cant": "relates two runs in all states; a deletion could change the walk through the graph", "anchors": ["db/core/index/hnsw/delete.go: Delete", "db/core/index/hnsw/search.go: Search", "db/collection_delete.go: Delete"]}
{"id": "C89", "title": "A batch of one object is an Insert", "statement": "InsertBatch and InsertBatch2 of a single object end in the same state as Insert of that object and report the same, on any number of workers and with any interleaving, except that a panic is swallowed.", "quantifier": "every state, every object and level, every number of workers, every interleaving", "why_tests_cant": "needs every schedule of the workers, also of those with nothing to do", "anchors": ["db/collection_insert.go: Insert", "db/collection_insert.go: InsertBatch", "db/collection_insert.go: InsertBatch2"]}
{"id": "C90", "title": "A call writes a bounded number of log records", "statement": "Inserting an object whose vertex draws level l adds at most 1 + (l+1)*(M+1) records to the index log, a batch at most the sum over its objects, Delete at most 1, every other call none; a record has at most 17 + 8*max(1, M, 2*MMax) bytes. Restarts and crashes add nothing.", "quantifier": "every history with restarts and crashes at any point, every interleaving inside batches, every M and MMax", "why_tests_cant": "the number of connections rewritten depends on the shape of the graph; the bound is over all graphs and schedules", "anchors": ["db/core/index/hnsw/insert.go: Insert", "db/core/index/hnsw/wal.go: setConnectionsAtLevel", "db/core/index/hnsw/wal.go: writeBatch", "db/core/index/hnsw/neighbors_select.go: selectNeighborsHeuristic"]}
{"id": "C91", "title": "The assembly dot product reads only its arguments", "statement": "A call asm.Dot(x, y) returns, reads nothing outside the two slices, and what it returns depends on their components alone: not on the addresses, the contents of other memory or of the registers at the call.", "quantifier": "all vectors of any lengths, all addresses, memories and register contents", "why_tests_cant": "memory behind a slice is usually readable, so a test does not notice a read out of bounds; the blocks and the tail depend on the length", "anchors": ["db/core/index/distance/asm/dot.s: Dot", "db/core/index/distance/asm/dot_stub.go: Dot"]}
{"id": "C92", "title": "The assembly dot product is accurate", "statement": "For finite vectors of the same dimension n up to 2^28, a multiple of 8 or not, whose products have absolute values adding up to at most 2^124, asm.Dot returns a finite number that differs from the exact inner product by at most ((1+2^-24)^(n/48+50) - 1) times that sum, plus n*(1+2^-24)^(n/48+50)*2^-150.", "quantifier": "all finite vectors of all dimensions up to 2^28", "why_tests_cant": "an error bound over all vectors; underflow and cancellation in one of 48 lanes", "anchors": ["db/core/index/distance/asm/dot.s: Dot"]}
{"id": "C93", "title": "The assembly dot product returns what Dot returns", "statement": "For vectors that Dot accepts, asm.Dot returns the same float32 as Dot, so that putting it in (distance/dot.go:29) changes no search result.", "quantifier": "all finite vectors of all dimensions that are multiples of 8", "why_tests_cant": "the two differ in the last bits and only for some vectors", "anchors": ["db/core/index/distance/asm/dot.s: Dot", "db/core/index/distance/dot.go: Dot"]}
{"id": "C94", "title": "A crash during CreateCollection leaves all or nothing", "statement": "If the process dies inside CreateCollection, Open succeeds exactly if it would have without the call; the new collection is then there as it was asked for and empty, or not at all, and every other collection is as it would have been.", "quantifier": "every history of calls, reopenings and crashes, every point inside the call, every state the other collections' calls are cut short in", "why_tests_cant": "needs a crash at every step of the call in every state; a test sees a few", "anchors": ["db/db.go: CreateCollection", "db/metadata/meta_manager.go: CreateCollection", "db/collection.go: newCollection", "db/db.go: Open"]}
{"id": "C95", "title": "A crash during DeleteCollection leaves all or nothing", "statement": "If the process dies inside DeleteCollection, Open succeeds if it would have without the call; the collection is then as before or gone, in which case its name can be used for a new, empty collection; every other collection is as it would have been.", "quantifier": "every history of calls, reopenings and crashes, every point inside the call, every part of the directory left behind", "why_tests_cant": "os.RemoveAll can stop after any file; needs all of these in every state", "anchors": ["db/db.go: DeleteCollection", "db/metadata/meta_manager.go: DeleteCollection", "db/db.go: Open"]}
{"id": "C96", "title": "Each collection of a database behaves as if it were alone", "statement": "Whatever is done to a database, a collection is in the state that its own calls, the restarts and the crashes since its creation would have brought it to as the only one, with the configuration it was created with; and the database can be opened if and only if each of its collections can.", "quantifier": "every history of a database: creations, deletions, calls on all collections, reopenings, crashes in the middle of several calls at once", "why_tests_cant": "relates every history over any number of collections to as many histories of a single one", "anchors": ["db/db.go: DB", "db/collection.go: newCollection", "db/metadata/meta_manager.go: GetCollections"]}
{"id": "C97", "title": "Acknowledged objects of every collection survive crashes of the database", "statement": "An object acknowledged by Insert or InsertBatch on any collection is returned by Get unchanged after any further events of the database, crashes inside calls on any collections and inside CreateCollection or DeleteCollection included, unless it or its collection was asked to be deleted.", "quantifier": "every history of a database with crashes at any point, every collection and object", "why_tests_cant": "all histories over any number of collections, with all crash points", "anchors": ["db/collection_insert.go: Insert", "db/collection_get.go: Get", "db/db.go: Open"]}
{"id": "C98", "title": "A deletion that fails can be repeated", "statement": "If DeleteCollection fails because the files cannot be removed, the collection is still there or a later DeleteCollection of the same name succeeds, and after that the name can be used again.", "quantifier": "every history of the database before and after the failure", "why_tests_cant": "os.RemoveAll fails only when the file system misbehaves; needs all continuations", "anchors": ["db/db.go: DeleteCollection", "db/metadata/meta_manager.go: DeleteCollection"]}
{"id": "C99", "title": "A database keeps to its data directory and each collection to its own", "statement": "Whatever calls are made, only files below the data directory are changed; a call that concerns one collection changes no file of another; and what a collection has written stays until a call or reopening concerns it.", "quantifier": "every history of creations, deletions, uses and reopenings, every name, every content of the file system around", "why_tests_cant": "names come from the client and are put into paths unchecked; needs every sequence of names and every tree of files", "anchors": ["db/metadata/meta_manager.go: CreateCollection", "db/metadata/meta_manager.go: DeleteCollection", "db/collection.go: newCollection"]}
{"id": "C100", "title": "When a batch call returns, its work is over", "statement": "After InsertBatch or InsertBatch2 has returned, whether with success or an error, none of its workers does anything any more: what is in the collection changes only by calls that are in progress.", "quantifier": "every number of goroutines, every interleaving of their calls and of the workers, every moment at which a failing batch may return", "why_tests_cant": "the error of one worker has to overtake the others in a particular way; tests see success, or failures of single workers", "anchors": ["db/collection_insert.go: InsertBatch", "db/collection_insert.go: InsertBatch2"]}
{"id": "C101", "title": "A failed batch does no harm to what has been acknowledged", "statement": "Also while workers of failed or cancelled batches are still running beside other calls: acknowledged ids are all different; an acknowledged object that nobody asked to delete is found by every later Get, and after a crash at any moment; objects from before are still there; and the index log stays in order, so that the next flush is accepted and takes all records along.", "quantifier": "every history of the collection, every number of goroutines, every interleaving of calls and workers left behind, every number of failed batches, every crash point", "why_tests_cant": "needs races between calls and forgotten workers at every point of both", "anchors": ["db/collection_insert.go: InsertBatch", "db/collection_get.go: Get", "db/idcounter.go: fetchAndInc", "db/core/index/hnsw/wal.go: flush"]}
{"id": "C102", "title": "After Close has returned the files of the collection do not change", "statement": "Once a call of Close has returned without error, nothing is written to the log, the counter file, the object store or the vector store of the collection any more, whatever calls are in progress, waiting or made later, and whatever workers of failed batches are still running; and every later call is refused with an error, except that Delete of an object that is not there reports success.", "quantifier": "every state, every number of goroutines, every interleaving of their calls, of Close and of workers left behind", "why_tests_cant": "writing after Close needs a goroutine or a forgotten worker that was overtaken by Close at one particular step", "anchors": ["db/collection.go: Close", "db/collection_delete.go: Delete", "db/collection_insert.go: InsertBatch", "db/idcounter.go: fetchAndInc"]}
{"id": "C103", "title": "Concurrent calls of a database happen one at a time", "statement": "Any number of goroutines create, delete, get and configure collections, close the database, and use its collections, all at once. Every call of the database has its effect at one moment between its call and its return, the effect it has when made alone; a Close that succeeds closes all collections at one moment; two creates of one name succeed only if the name is deleted in between; and what happens in one collection is what can happen in a collection of its own.", "quantifier": "every database, every number of goroutines, every interleaving of their calls and of the steps inside the collections", "why_tests_cant": "an interleaving of Close with calls on several collections has to be hit at one of many points", "anchors": ["db/db.go: CreateCollection", "db/db.go: DeleteCollection", "db/db.go: GetCollection", "db/db.go: Close", "db/collection.go: GetConfig"]}
{"id": "C104", "title": "Closing a database ends all writing, and succeeds", "statement": "DB.Close returns nil; once it has, the metadata, the set of collections and the files of every collection never change again, whatever calls are in progress or made later and whatever workers are left behind; every later call of the database and on its collections is refused.", "quantifier": "every database, every number of goroutines, every interleaving, every continuation after Close", "why_tests_cant": "needs calls that Close overtakes at one particular step, in any of the collections", "anchors": ["db/db.go: Close", "db/collection.go: Close", "db/collection.go: IsClosed"]}
{"id": "C105", "title": "GET /v1/collection/{name} answers what is true at a moment of the request", "statement": "The answer of GET /v1/collection/{name}, made beside any other calls, is the answer that the request would have had, made alone, at some moment between its start and its end.", "quantifier": "every database, every number of goroutines, every interleaving", "why_tests_cant": "the collection must be deleted and closed between two lines of the handler", "anchors": ["api/handlers/collection.go: getCollection", "db/db.go: GetCollection", "db/collection.go: GetConfig"]}
{"id": "C106", "title": "Concurrent use of a collection neither panics nor deadlocks", "statement": "Any number of goroutines insert, batch, delete, get and search in one collection and close it, all at once, with vectors of one dimension and searching only once an object has been acknowledged. No call panics. As long as a call is in progress, some call in progress can go on, also when waiting writers keep new readers out of the lock, and the calls in progress come to their end after finitely many steps; if the objects can be stored and no batch is cancelled, no worker is left behind.", "quantifier": "every past of the collection with restarts, every number of goroutines, every interleaving of the calls and of the workers of the batches", "why_tests_cant": "a deadlock or a race on the graph needs one particular interleaving of steps under c.mu and the mutexes of the vertices", "anchors": ["db/collection_insert.go: Insert", "db/collection_insert.go: InsertBatch", "db/collection_delete.go: Delete", "db/collection_get.go: SemanticSearch", "db/core/index/hnsw/insert.go: Insert"]}
{"id": "C107", "title": "Concurrent use of a database neither panics nor deadlocks", "statement": "Any number of goroutines create, delete, look up and configure collections, close the database and use its collections, all at once, the collections as in C106. No call panics. As long as a call is in progress, some call in progress can go on, also when waiting writers keep new readers out of db.mu and of c.mu of every collection (Close holds db.mu while it waits for c.mu); and the calls in progress come to their end after finitely many steps.", "quantifier": "every database, every number of goroutines and collections, every interleaving of the calls at db.mu, at every c.mu, and of the workers of the batches", "why_tests_cant": "a deadlock between the two kinds of locks needs one particular interleaving over several collections", "anchors": ["db/db.go: CreateCollection", "db/db.go: DeleteCollection", "db/db.go: GetCollection", "db/db.go: Close", "db/collection.go: Close", "db/collection.go: GetConfig", "db/collection_insert.go: InsertBatch"]}
{"id": "C108", "title": "The caller's objects carry the ids they are stored under", "statement": "InsertBatch and InsertBatch2 take pointers and write the id of each object through them while the workers run. When a batch has succeeded, every pointer of it points to an object with a fresh id of its own, Get of that id returns that object, properties and given vectors are unchanged, and no other object of the caller is written to; a batch of pointers does what a batch of the objects they point to does.", "quantifier": "every history, every batch of pointers, also with the same pointer more than once, every schedule of the workers, between any two accesses to a field", "why_tests_cant": "two workers must write the id of one object between two particular lines of insert and PutObject", "anchors": ["db/collection_insert.go: insert", "db/collection_insert.go: InsertBatch", "db/collection_insert.go: InsertBatch2", "db/core/objstore/store.go: PutObject", "db/embeddings/text2vec-huggingface.go: Embed"]}
{"id": "C109", "title": "A collection searches like an index given its acknowledged inserts and deletes", "statement": "After any sequence of calls and restarts, the index of a collection (vertices, links on every layer, vectors, entry point, top layer, which of the vertices are deleted) is that of a new index that was given the vectors of the acknowledged inserts under their ids and the successful deletes of ids handed out, in that order and nothing else; failed calls, rejected objects, deletes of unknown ids, closing and restarting leave no trace in it. A search of the collection gives the same ids and distances in the same order as a search of that index.", "quantifier": "every sequence of calls made one after the other with restarts in between: one dimension, a disk that takes the writes, fewer records than a 64-bit number counts", "why_tests_cant": "a trace of a failed call or of a restart in the links shows in the answers of few queries, long after", "anchors": ["db/collection_insert.go: Insert", "db/collection_delete.go: Delete", "db/collection_get.go: SemanticSearch", "db/core/index/hnsw/startup.go: loadFromWAL", "db/core/index/hnsw/insert.go: Insert", "db/core/index/hnsw/search.go: Search"]}
{"id": "C110", "title": "A search of a collection returns what is alive, nearest first", "statement": "After any sequence of calls and restarts, a search of an open collection into which something has been inserted answers. Its hits are different objects, at most k and at most ef, in order of distance; each was acknowledged and not successfully deleted since, comes with the properties it was acknowledged with, and with the distance of its vector from the query. As long as no more objects have been acknowledged than M+1, efConstruction+1 and ef, and the heuristic is off, the answer is exact: it has min(k, number of objects alive) hits, and no object left out is nearer than a hit.", "quantifier": "every sequence of calls made one after the other with restarts in between, every query and k, distances that are numbers", "why_tests_cant": "what is alive depends on the whole history; the nearest objects depend on every vector", "anchors": ["db/collection_insert.go: Insert", "db/collection_delete.go: Delete", "db/collection_get.go: SemanticSearch", "db/core/objstore/store.go: GetObjects", "db/core/index/hnsw/search.go: Search"]}
{"id": "C111", "title": "A collection works as its configuration says", "statement": "Whatever else happens in a database, a collection works with the configuration it was created with. A search returns at most k and at most ef objects that are there, nearest first by the distance the configuration names, and exactly the nearest ones while no more objects were acknowledged than M+1, efConstruction+1 and ef and the heuristic is off. The objects an insertion succeeds for have exactly the properties the mappings name. Without an embedder no object without a vector is taken; with one, the configured embedder is asked with its configuration.", "quantifier": "every sequence of database operations, crashes included, every collection and configuration, every search and insertion", "why_tests_cant": "swapped parameters leave most searches of small collections unchanged; configurations, restarts and other collections combine without end", "anchors": ["db/collection.go: newCollection", "db/db.go: CreateCollection", "db/db.go: init", "db/core/index/hnsw/hnsw.go: NewHnsw", "db/collection_get.go: SemanticSearch", "db/collection_insert.go: Insert"]}
{"id": "C112", "title": "Ids stay unique when a write of the counter is cut short", "statement": "The id counter can be opened after every sequence of fetches, restarts, failures of the machine during a fetch and fetches that the disk refuses, however many of the 8 bytes of the counter had reached the disk by then, and the ids it hands out before and after are strictly increasing.", "quantifier": "every sequence of fetches, restarts, cut writes and refused writes, every number of bytes written", "why_tests_cant": "a cut write matters only where the bytes written carry over, once in 256 fetches, and needs a failure between two bytes", "anchors": ["db/idcounter.go: newIdCounter", "db/idcounter.go: fetchAndInc"]}
{"id": "C113", "title": "Close gives back what Open took", "statement": "A database's Close that returns nil has closed the database, every collection and all their files, and given back the locks of their stores; databases opened beside it keep theirs. It returns nil exactly if no call into the system fails and every collection can still be closed. A Close that failed can be tried again and then succeeds if nothing fails any more.", "quantifier": "every sequence of Open, Close, CreateCollection and Close of a collection in a process, any call into the system failing at any time, any order in which Close goes through the collections", "why_tests_cant": "needs close(2) to fail, and the order of a Go map decides which collections are closed before", "anchors": ["db/db.go: Close", "db/collection.go: Close", "db/core/objstore/store.go: Close", "db/idcounter.go: close"]}
{"id": "C114", "title": "A database can be opened again", "statement": "Open returns an error if and only if a call into the system fails or another database has the files open; it never panics. After a Close or an Open, whether it succeeded or not, the database can be opened again in the same process as soon as nothing fails any more and no other database has it open.", "quantifier": "every sequence of Open, Close, CreateCollection and Close of a collection in a process, any call into the system failing at any time", "why_tests_cant": "the failures have to be provoked in the system, and the effect shows only in a later call", "anchors": ["db/db.go: Open", "db/db.go: init", "db/collection.go: newCollection", "db/core/objstore/store.go: NewStores", "db/core/index/hnsw/startup.go: populateVerticesVectors"]}
{"id": "C115", "title": "The index log can be read whatever was cut short", "statement": "The file of the index log, with its records one behind the other and their lengths before them, is read as exactly the records that were written, in order. After a failure of the machine that lets any number of bytes of a write arrive, and after a write that the disk refused half way, the log can be opened and has the records of all writes that succeeded.", "quantifier": "every sequence of records added, writes, failing writes and cut writes, every number of bytes that arrive", "why_tests_cant": "needs a failure between two bytes of one write, or a disk that is full for a moment", "anchors": ["db/core/index/hnsw/wal.go: newWal", "db/core/index/hnsw/wal.go: flush", "db/core/index/hnsw/startup.go: loadFromWAL"]}
{"id": "C116", "title": "A collection keeps the mappings it was created with", "statement": "The mappings a collection checks objects against are those of the configuration passed to CreateCollection at that time, whatever the caller does afterwards to its configuration, to the slice it passed, or to what GetConfig returned.", "quantifier": "every sequence of writes of the caller to its memory and of CreateCollection and GetConfig calls within a process", "why_tests_cant": "depends on which memory the caller reuses, between calls that each look right", "anchors": ["db/collection.go: newCollection", "db/collection.go: GetConfig", "db/collection.go: validateObjectsMappings", "db/db.go: CreateCollection"]}
