{
 "claims": [
  {
   "property": "C02",
   "status": "proved",
   "theorems": [
    "C02_counter_file_roundtrip",
    "C02_counter_file_lengths"
   ],
   "note": ""
  },
  {
   "property": "C03",
   "status": "proved",
   "theorems": [
    "C03_vector_bits_roundtrip"
   ],
   "note": ""
  },
  {
   "property": "C04",
   "status": "proved",
   "theorems": [
    "C04_properties_framing"
   ],
   "note": "encoding/json is an abstract pair of functions"
  },
  {
   "property": "C10",
   "status": "proved",
   "theorems": [
    "C10_log_records_roundtrip",
    "C10_log_records_injective",
    "C10_unknown_opcode_is_error"
   ],
   "note": ""
  },
  {
   "property": "C30",
   "status": "proved",
   "theorems": [
    "C30_euclidean_value",
    "C30_euclidean_symmetric",
    "C30_euclidean_never_negative",
    "C30_euclidean_self_zero",
    "C30_euclidean_finite_no_nan",
    "C30_euclidean_panics_exactly_when_shorter"
   ],
   "note": ""
  },
  {
   "property": "C31",
   "status": "partial",
   "theorems": [
    "C31_dot_any_dimension_refuted",
    "C31_dot_value_partial",
    "C31_dot_other_dimensions_panic"
   ],
   "note": "false for the code: panics unless the dimension is a multiple of 8; proved for those and refuted in general"
  },
  {
   "property": "C26",
   "status": "proved",
   "theorems": [
    "C26_min_heap_is_priority_queue",
    "C26_max_heap_is_priority_queue",
    "C26_deep_copy_capacity"
   ],
   "note": ""
  },
  {
   "property": "C27",
   "status": "partial",
   "theorems": [
    "C27_peek_is_furthest_refuted",
    "C27_peek_partial"
   ],
   "note": "false for the code: Peek returns the last slice element, not the root; refuted by a witness"
  },
  {
   "property": "C28",
   "status": "proved",
   "theorems": [
    "C28_minmax_heap_is_double_ended_queue",
    "C28_minmax_heap_empty_pop_panics"
   ],
   "note": "math.Log2 taken as exact"
  },
  {
   "property": "C29",
   "status": "partial",
   "theorems": [
    "C29_minmax_from_slice_refuted",
    "C29_minmax_from_slice_partial",
    "C29_minmax_from_slice_keeps_elements"
   ],
   "note": "false for the code: Init never fixes the root; proved when the first element is a closest one"
  },
  {
   "property": "C58",
   "status": "partial",
   "theorems": [
    "C58_set_valued_operations",
    "C58_set_answers",
    "C58_intersection_partial",
    "C58_some_partial",
    "C58_intersection_refuted",
    "C58_some_refuted"
   ],
   "note": "all operations exact except Some (copy of All) and Intersection with an empty later set, both refuted"
  },
  {
   "property": "C16",
   "status": "proved",
   "theorems": [
    "C16_search_answers"
   ],
   "note": "sequential histories; hypotheses: M <= 2*MMax, one dimension, no NaN distance"
  },
  {
   "property": "C17",
   "status": "proved",
   "theorems": [
    "C17_layer_search_not_worse_than_start"
   ],
   "note": ""
  },
  {
   "property": "C22",
   "status": "proved",
   "theorems": [
    "C22_index_never_panics"
   ],
   "note": ""
  },
  {
   "property": "C24",
   "status": "partial",
   "theorems": [
    "C24_neighbour_bounds",
    "C24_fits_search_buffer_partial",
    "C24_fits_search_buffer_refuted"
   ],
   "note": "the degree bound holds for every sequential history; that validated parameters fit the search buffer is false (M=3, MMax=1), proved for M <= 2*MMax"
  },
  {
   "property": "C25",
   "status": "proved",
   "theorems": [
    "C25_simple_selection",
    "C25_heuristic_selection"
   ],
   "note": ""
  },
  {
   "property": "C34",
   "status": "partial",
   "theorems": [
    "C34_entry_point_on_top_partial",
    "C34_entry_point_on_top_parallel_refuted"
   ],
   "note": "holds for every sequential history; false for overlapping inserts (the top layer read at the beginning is stale), refuted by a schedule"
  },
  {
   "property": "C23",
   "status": "proved",
   "theorems": [
    "C23_parallel_inserts_never_panic_or_block"
   ],
   "note": "sync.Mutex and RWMutex as atomic steps; memory model: sequential consistency"
  },
  {
   "property": "C33",
   "status": "proved",
   "theorems": [
    "C33_one_first_vertex_none_lost"
   ],
   "note": ""
  },
  {
   "property": "C01",
   "status": "proved",
   "theorems": [
    "C01_ids_never_reused",
    "C01_ids_grow",
    "C01_stored_keys_never_reused"
   ],
   "note": "Over every history of complete calls, restarts and crashes (between any two atomic steps).  The 8-byte counter write is one step."
  },
  {
   "property": "C05",
   "status": "proved",
   "theorems": [
    "C05_read_your_writes"
   ],
   "note": "json_ok says encoding/json decodes what it encoded for these properties; the store's value limit is below 2^32."
  },
  {
   "property": "C06",
   "status": "proved",
   "theorems": [
    "C06_get_is_lookup_in_order"
   ],
   "note": "The map L is what the history says is live; json_total says encoding/json can decode what it encoded."
  },
  {
   "property": "C07",
   "status": "proved",
   "theorems": [
    "C07_deleted_stays_deleted",
    "C07_deleted_not_found"
   ],
   "note": "For ids that were acknowledged or shown in an answer before the delete."
  },
  {
   "property": "C08",
   "status": "partial",
   "theorems": [
    "C08_size_counts_live_refuted",
    "C08_size_counts_live_partial"
   ],
   "note": "False as stated: a vector above the store's value limit leaves its properties behind.  Proved for histories without such vectors and without crashes inside an insert."
  },
  {
   "property": "C09",
   "status": "partial",
   "theorems": [
    "C09_rejected_insert_refuted",
    "C09_failed_flush_refuted",
    "C09_rejected_insert_partial"
   ],
   "note": "False as stated in two cases (vector above the value limit; log write refused by the disk); proved for all other rejections."
  },
  {
   "property": "C13",
   "status": "proved",
   "theorems": [
    "C13_flush_never_refused",
    "C13_records_kept",
    "C13_records_survive_crash",
    "C13_never_out_of_order"
   ],
   "note": "For fewer than 2^64-1 log records."
  },
  {
   "property": "C20",
   "status": "partial",
   "theorems": [
    "C20_emptied_search_partial",
    "C20_empty_search_refuted",
    "C20_empty_search_partial"
   ],
   "note": "Refuted: on a collection that never held an object SemanticSearch dereferences a nil entry point and panics. Proved: once something was inserted, a search that returns and finds only deleted vertices has zero hits."
  },
  {
   "property": "C35",
   "status": "partial",
   "theorems": [
    "C35_chunks_cover",
    "C35_batch_inserts_all_refuted",
    "C35_batch_inserts_all_partial",
    "C35_well_formed_batch_partial"
   ],
   "note": "Refuted: a panicking worker (here a vector shorter than the stored ones) is swallowed by the pool, InsertBatch succeeds and later objects of its chunk are missing. Proved for every schedule of both batch calls in which no worker panics; and no worker does in a collection used with encodable objects and vectors of one dimension (C68)."
  },
  {
   "property": "C36",
   "status": "proved",
   "theorems": [
    "C36_batch_all_or_nothing",
    "C36_insert_all_or_nothing"
   ],
   "note": ""
  },
  {
   "property": "C37",
   "status": "partial",
   "theorems": [
    "C37_mappings_exact_refuted",
    "C37_mappings_exact_partial",
    "C37_insert_refuses"
   ],
   "note": "Refuted for mapping lists with duplicate names; proved for duplicate-free lists."
  },
  {
   "property": "C38",
   "status": "proved",
   "theorems": [
    "C38_embeddings_to_right_objects",
    "C38_only_missing_are_sent",
    "C38_embedder_error_stores_nothing"
   ],
   "note": ""
  },
  {
   "property": "C39",
   "status": "partial",
   "theorems": [
    "C39_closed_refuses_partial",
    "C39_closed_delete_refuted",
    "C39_closed_delete_changes_nothing",
    "C39_close_closes"
   ],
   "note": "Refuted for Delete, which does not check the closed flag; all other calls proved."
  },
  {
   "property": "C50",
   "status": "partial",
   "theorems": [
    "C50_wrong_dimension_refuted",
    "C50_short_query_partial",
    "C50_short_insert_partial"
   ],
   "note": "Refuted: longer vectors are accepted silently. Proved for Euclidean distance: a query or insert shorter than the entry point's vector never succeeds."
  },
  {
   "property": "C52",
   "status": "partial",
   "theorems": [
    "C52_update_refuted",
    "C52_update_does_nothing"
   ],
   "note": "Refuted: Update changes nothing; proved what it does."
  },
  {
   "property": "C11",
   "status": "proved",
   "theorems": [
    "C11_restart_restores_index"
   ],
   "note": "Histories of complete sequential calls and restarts on a disk that accepts the writes; fewer than 2^64 log records."
  },
  {
   "property": "C12",
   "status": "partial",
   "theorems": [
    "C12_restart_after_batch_partial",
    "C12_restart_after_batch_refuted"
   ],
   "note": "Refuted for neighbour lists: after a parallel batch the log can hold an edge the memory lost. Proved: the same vertices, levels, vectors, entry point, top layer and deleted ids come back, for every interleaving."
  },
  {
   "property": "C14",
   "status": "partial",
   "theorems": [
    "C14_reopens_after_crash_partial",
    "C14_crash_before_vector_partial",
    "C14_reopens_after_crash_refuted"
   ],
   "note": "Refuted: a crash between the vector's Put and the log flush makes reopening panic. Proved: reopening succeeds exactly when every stored vector's vertex record is on disk, for every call, crash point and interleaving."
  },
  {
   "property": "C15",
   "status": "partial",
   "theorems": [
    "C15_crashed_delete_partial",
    "C15_crashed_delete_hits_partial",
    "C15_crashed_delete_refuted"
   ],
   "note": "Refuted for a crash between the removal of the object and the log flush. Proved whenever the object is still stored or the delete record is on disk."
  },
  {
   "property": "C51",
   "status": "partial",
   "theorems": [
    "C51_hits_match_partial",
    "C51_hits_match_refuted"
   ],
   "note": "Refuted after a Delete whose log write failed followed by a restart. Proved for all histories without such a Delete, with batches in any interleaving, restarts and crashed inserts."
  },
  {
   "property": "C59",
   "status": "proved",
   "theorems": [
    "C59_sequential_use_never_panics",
    "C59_search_answers"
   ],
   "note": "Searches after the first acknowledged insert; fewer than 2^64 objects and log records; sizes within the 32-bit fields of the formats."
  },
  {
   "property": "C18",
   "status": "partial",
   "theorems": [
    "C18_small_collections_exact_partial",
    "C18_small_collections_exact_refuted"
   ],
   "note": "False as stated: Peek returns the last slice element of the max-heap, so searchLayer stops early; refuted for M = 3 with five reachable points and ef = 16. Proved (all histories, levels, queries, k): with simple selection and at most M+1, ef_construction+1 and ef vectors the answer is the exact k nearest live objects; the refutation has M+2 points, so the bound is tight. Missing: nothing more holds in general; index level, no NaN distances."
  },
  {
   "property": "C19",
   "status": "partial",
   "theorems": [
    "C19_own_vector_found_partial",
    "C19_own_vector_found_refuted",
    "C19_reachable_but_not_found_refuted"
   ],
   "note": "False as stated: pruning removes the last link to a vertex (M = 2, MMax = 1, four points), and even a reachable vertex can be missed. Proved for at most M+1 vectors with simple selection."
  },
  {
   "property": "C21",
   "status": "partial",
   "theorems": [
    "C21_k_hits_partial",
    "C21_k_hits_refuted"
   ],
   "note": "False as stated: a deleted vertex takes the place of a live one when ef = 1. Proved for at most M+1 vectors with simple selection and ef at least the number of vectors ever inserted."
  },
  {
   "property": "C32",
   "status": "partial",
   "theorems": [
    "C32_least_similar_first",
    "C32_most_similar_first_refuted"
   ],
   "note": "False as stated, for every collection: the hits are ordered by increasing dot product, so the least similar come first (C32_least_similar_first holds for all histories and queries)."
  },
  {
   "property": "C40",
   "status": "proved",
   "theorems": [
    "C40_closed_database_refuses",
    "C40_close_closes_everything"
   ],
   "note": "Failures of closing SQLite or a store are not modelled."
  },
  {
   "property": "C41",
   "status": "proved",
   "theorems": [
    "C41_names_resolve",
    "C41_refused_changes_nothing",
    "C41_behaves_like_a_map"
   ],
   "note": "C41_names_resolve covers every history without reopening, whatever configurations were tried; C41_behaves_like_a_map also covers reopenings and says which calls succeed, for HNSW collections whose names are ordinary file names."
  },
  {
   "property": "C42",
   "status": "partial",
   "theorems": [
    "C42_failed_create_leaves_no_trace_partial",
    "C42_failed_create_leaves_no_trace_refuted"
   ],
   "note": "False as stated: disk_ann, the name metadata.db and the name . leave a row behind, so that Open fails (or the refused collection appears). Proved for HNSW collections with ordinary names in every history of such collections."
  },
  {
   "property": "C43",
   "status": "partial",
   "theorems": [
    "C43_reopened_collections_partial",
    "C43_configuration_survives_refuted",
    "C44_database_reopens_partial"
   ],
   "note": "False as stated: mappings are dropped and integers above 2^53 are rounded. Proved: everything else of the configuration, all objects and vectors come back, for every history over ordinary names; the whole configuration when there are no mappings and no such integers."
  },
  {
   "property": "C44",
   "status": "partial",
   "theorems": [
    "C44_database_reopens_partial",
    "C44_database_reopens_refuted",
    "C44_failed_batch_refuted"
   ],
   "note": "False as stated: after a disk_ann creation no later call can make Open succeed; a batch with one object that cannot be encoded makes Open panic. Proved for histories of one-at-a-time calls without panics on HNSW collections with ordinary names, over any number of reopenings."
  },
  {
   "property": "C45",
   "status": "proved",
   "theorems": [
    "C45_created_collection_is_empty",
    "C45_empty_collection",
    "C45_delete_is_local"
   ],
   "note": ""
  },
  {
   "property": "C46",
   "status": "partial",
   "theorems": [
    "C46_deleted_handle_partial",
    "C46_deleted_handle_refuted"
   ],
   "note": "False as stated: the handle still accepts objects. Proved: the name is free and DeleteCollection changes no handle."
  },
  {
   "property": "C47",
   "status": "proved",
   "theorems": [
    "C47_post_status",
    "C47_get_status",
    "C47_delete_status"
   ],
   "note": "The HTTP layer (routing, decoding) is not modelled; a GET of a collection that was closed on its own answers 500."
  },
  {
   "property": "C48",
   "status": "partial",
   "theorems": [
    "C48_get_after_post_partial",
    "C48_get_after_post_refuted"
   ],
   "note": "False as stated: the mappings are not returned. Proved: everything else is, and the whole configuration if there are no mappings."
  },
  {
   "property": "C49",
   "status": "partial",
   "theorems": [
    "C49_validation_exact",
    "C49_usable_partial",
    "C49_usable_refuted"
   ],
   "note": "The first half is proved in full. The second is false: disk_ann is accepted but cannot be created, M > 2*MMax is accepted but inserting panics. Proved usable (created, and no panic in one-at-a-time use, for given levels; for the choice of the level see C82) when M <= 2*MMax."
  },
  {
   "property": "C53",
   "status": "proved",
   "theorems": [
    "C53_metadata_round_trip"
   ],
   "note": "For at most 2^32-1 vertices, the number the format can hold."
  },
  {
   "property": "C54",
   "status": "partial",
   "theorems": [
    "C54_round_trip_partial",
    "C54_round_trip_refuted",
    "C54_snapshot_panics_refuted"
   ],
   "note": "False as stated: neighbours are written in 8 bytes but read 4 apart, so an index of two neighbouring vertices comes back different, and a snapshot may panic. Proved when no vertex has neighbours."
  },
  {
   "property": "C55",
   "status": "partial",
   "theorems": [
    "C55_degree_bound_partial",
    "C55_degree_bound_refuted",
    "C55_pruned_vertex_refuted"
   ],
   "note": "False as stated: robustPrune compares the bound with the old neighbour list. Proved: neighbour lists have no duplicates and no self loops, so the bound holds for up to maxDegree+1 vertices."
  },
  {
   "property": "C56",
   "status": "proved",
   "theorems": [
    "C56_search_sound",
    "C56_search_sound_after_inserts",
    "C56_empty_index_panics"
   ],
   "note": "The ascending order is for distances that are numbers (NaN is not ordered); an empty index has no starting vertex, so it is not well-formed, and a search of it panics."
  },
  {
   "property": "C57",
   "status": "partial",
   "theorems": [
    "C57_distinguishes_ids_partial",
    "C57_distinguishes_ids_refuted"
   ],
   "note": "False as stated: visited is keyed by uint32(id), so vertices 1 and 2^32+1 are confused. Proved, in the strong form that a search with a large enough list finds exactly the k nearest reachable vertices, when no two ids share their low 32 bits."
  },
  {
   "property": "C60",
   "status": "proved",
   "theorems": [
    "C60_mixed_calls"
   ],
   "note": "One atomic step per critical section; needs M < 2*MMax as C23 does."
  },
  {
   "property": "C61",
   "status": "partial",
   "theorems": [
    "C61_any_state_partial",
    "C61_linearizable_partial",
    "C61_linearizable_refuted",
    "C61_second_delete"
   ],
   "note": "False as stated: GetSize takes no lock and can see half of a batch. Proved for every call but GetSize, for traces in which no search panics and collections whose JSON codec round-trips; GetSize is only shown to answer at least the size at one moment of its call. A Delete whose lookup has become stale only writes the tombstone record again (C61_second_delete). C61_any_state_partial is the same from an arbitrary state, with such Deletes left out."
  },
  {
   "property": "C62",
   "status": "proved",
   "theorems": [
    "C62_crash_in_concurrent_use",
    "C62_acknowledged_survives"
   ],
   "note": "Same model of concurrent calls as C61 (LinModel.v); one atomic step per critical section of the index and per store write."
  },
  {
   "property": "C63",
   "status": "proved",
   "theorems": [
    "C63_concurrent_ids_distinct",
    "C63_concurrent_read_your_writes",
    "C63_concurrent_delete"
   ],
   "note": "For a JSON codec that can encode and decode every property map it is given back, and fewer than 2^64 inserts."
  },
  {
   "property": "C64",
   "status": "proved",
   "theorems": [
    "C64_queries_change_nothing",
    "C64_queries_can_be_left_out",
    "C64_answers_repeat"
   ],
   "note": ""
  },
  {
   "property": "C65",
   "status": "partial",
   "theorems": [
    "C65_neighbours_partial",
    "C65_neighbours_parallel_refuted"
   ],
   "note": "False as stated: two inserts at the same time can each meet the other on an upper layer before its own search below, which then comes back to the vertex it is made for; that becomes its own neighbour, twice. Proved for calls made one at a time, NaN distances included."
  },
  {
   "property": "C66",
   "status": "proved",
   "theorems": [
    "C66_insert_links",
    "C66_first_insert"
   ],
   "note": "Which vertices are found is what C16-C19 are about; this is what is done with them. The clauses about nearness hold unless a distance is NaN."
  },
  {
   "property": "C67",
   "status": "proved",
   "theorems": [
    "C67_layer_search_local_optimum",
    "C67_search_local_optimum"
   ],
   "note": "Holds in spite of Peek (C27): the element Peek returns is never nearer than the nearest."
  },
  {
   "property": "C68",
   "status": "proved",
   "theorems": [
    "C68_batch_use_never_panics",
    "C68_batch_finishes"
   ],
   "note": "With M < 2*MMax and at most as many objects as the fuel of the model's loops; batches come after the last restart (what a restart makes of parallel batches is C12)."
  },
  {
   "property": "C69",
   "status": "partial",
   "theorems": [
    "C69_remove_partial",
    "C69_remove_refuted",
    "C69_remove_outside_panics",
    "C69_fix_partial",
    "C69_fix_refuted"
   ],
   "note": "False as stated: both call up only if down moved nothing, so an element that down moved is not compared with what is above i. Proved: nothing is lost in any case, and the order is kept for Remove at the three topmost positions and at leaves, and for Fix at the root and at leaves. Nothing in the repository calls Remove or Fix."
  },
  {
   "property": "C70",
   "status": "proved",
   "theorems": [
    "C70_accepted_is_stored"
   ],
   "note": "Each step between two accesses to shared fields is atomic; insert and search of one memory index are atomic."
  },
  {
   "property": "C71",
   "status": "partial",
   "theorems": [
    "C71_insert_outcome_partial",
    "C71_inserts_end",
    "C71_one_at_a_time",
    "C71_insert_succeeds_refuted"
   ],
   "note": "False as stated: rwIndex is read after the lock is released, so it may be closed before the vector arrives and the insert fails. Proved: that and a wrong dimension are the only errors, none panics or waits for ever, and with one call at a time exactly the vectors of the right dimension are accepted."
  },
  {
   "property": "C72",
   "status": "partial",
   "theorems": [
    "C72_limit_partial",
    "C72_limit_concurrent_refuted",
    "C72_limit_zero_refuted",
    "C72_no_limit_after_race_refuted"
   ],
   "note": "False as stated: the size is compared with == before the vector is added, so two inserts that pass the test together overshoot it, and from then on the index grows without bound; limit 0 is overshot by two inserts in a row. Proved for calls one at a time and a limit of at least 1."
  },
  {
   "property": "C73",
   "status": "partial",
   "theorems": [
    "C73_closed_is_saved_partial",
    "C73_closed_is_saved_refuted",
    "C73_first_index_never_saved_refuted"
   ],
   "note": "False as stated: the goroutine reads rwIndex and len(roIndexes) when it runs; if it runs after the insert has gone on it saves the next, unfinished index under the next number, and the first index is never saved. Proved when every goroutine runs before the insert that started it goes on. A snapshot is one atomic step."
  },
  {
   "property": "C74",
   "status": "partial",
   "theorems": [
    "C74_delete_partial",
    "C74_deleted_is_gone_refuted",
    "C74_others_stay_refuted"
   ],
   "note": "False as stated: object ids are never stored, every vertex has object id 0. Proved: deleting another object changes no search; deleting object 0 empties every search."
  },
  {
   "property": "C75",
   "status": "partial",
   "theorems": [
    "C75_search_partial",
    "C75_nearest_refuted",
    "C75_distinct_refuted",
    "C75_search_answers_refuted"
   ],
   "note": "False as stated: the merged slice is not a proper min-max heap (C29), so the nearest can be dropped; an index being closed is searched twice; a rejected vector can leave an empty index, whose search panics. Proved while no insert is rotating and no index is empty: distinct accepted vectors with true distances, min(k, all) of them, and the nearest ones if the first merged result is a nearest one."
  },
  {
   "property": "C76",
   "status": "partial",
   "theorems": [
    "C76_consecutive_partial",
    "C76_consecutive_refuted",
    "C76_consecutive_concurrent_refuted"
   ],
   "note": "False as stated: a vector of the wrong dimension uses up an id, and concurrent inserts around the closing of an index put ids into the wrong one. Proved for calls one at a time with vectors of the right dimension."
  },
  {
   "property": "C77",
   "status": "partial",
   "theorems": [
    "C77_usable_partial",
    "C77_new_index_refuted",
    "C77_nil_distance_refuted"
   ],
   "note": "False as stated, for every sequence of calls: dimension, limit and distance function are never set, so every non-empty vector is refused and every search panics. Proved usable once the settings are filled in and the limit is not 0."
  },
  {
   "property": "C78",
   "status": "partial",
   "theorems": [
    "C78_euclidean_accuracy_partial",
    "C78_euclidean_accuracy_refuted",
    "C78_euclidean_distinct_at_zero_refuted"
   ],
   "note": "False as stated: the squares overflow for distances above 2^64 and underflow for tiny ones. Proved for dimensions up to 2^22 and exact distances up to 2^62: the result lies between (1-2^-24)^(n/2+4)*d - sqrt(n)*2^-75 and (1+2^-24)^(n/2+4)*(d + sqrt(n)*2^-75)."
  },
  {
   "property": "C79",
   "status": "partial",
   "theorems": [
    "C79_computed_order_partial",
    "C79_computed_order_refuted"
   ],
   "note": "False as stated: nearly tied distances can come out reversed. Proved up to the bounds of C78."
  },
  {
   "property": "C80",
   "status": "partial",
   "theorems": [
    "C80_dot_accuracy_partial",
    "C80_dot_accuracy_refuted"
   ],
   "note": "False as stated: cancellation can leave nothing of the value. Proved for dimensions up to 2^22 and sums of absolute products up to 2^124: the error is at most ((1+2^-24)^(n+1) - 1) times the sum of the absolute products, plus underflow."
  },
  {
   "property": "C81",
   "status": "partial",
   "theorems": [
    "C81_answers_in_exact_order_partial",
    "C81_small_collections_exact_partial",
    "C81_answers_in_exact_order_refuted"
   ],
   "note": "False as stated for nearly tied distances. Proved up to the bounds of C78; the second half under the hypotheses of C18's theorem."
  },
  {
   "property": "C82",
   "status": "partial",
   "theorems": [
    "C82_level_chosen_partial",
    "C82_one_refuted",
    "C82_zero_refuted"
   ],
   "note": "False as stated: M = 1 is accepted and makes every insertion after the first panic, and draw 0 makes every insertion panic. Proved for M >= 2 and the other draws: a level from 0 to 63 results and Insert goes on as modelled by hnsw_insert."
  },
  {
   "property": "C83",
   "status": "proved",
   "theorems": [
    "C83_level_fraction_upper",
    "C83_level_fraction_lower"
   ],
   "note": ""
  },
  {
   "property": "C84",
   "status": "partial",
   "theorems": [
    "C84_embedding_partial",
    "C84_embedding_refuted"
   ],
   "note": "False as stated: an answer with fewer rows than texts panics. Everything else is proved, for every answer."
  },
  {
   "property": "C85",
   "status": "partial",
   "theorems": [
    "C85_text_partial",
    "C85_text_refuted"
   ],
   "note": "False as stated: two properties come in either order. Proved: the pieces are the same, and the text is if at most one property is not null."
  },
  {
   "property": "C86",
   "status": "partial",
   "theorems": [
    "C86_text_injective_partial",
    "C86_text_injective_refuted"
   ],
   "note": "False as stated: a value may contain what looks like another property. Proved for string values without commas under names without colons."
  },
  {
   "property": "C87",
   "status": "proved",
   "theorems": [
    "C87_more_extends",
    "C87_short_is_all"
   ],
   "note": ""
  },
  {
   "property": "C88",
   "status": "proved",
   "theorems": [
    "C88_delete_hides_one",
    "C88_delete_is_the_call"
   ],
   "note": ""
  },
  {
   "property": "C89",
   "status": "proved",
   "theorems": [
    "C89_batch_of_one"
   ],
   "note": ""
  },
  {
   "property": "C90",
   "status": "proved",
   "theorems": [
    "C90_call_records",
    "C90_log_records",
    "C90_record_size",
    "C90_log_bytes"
   ],
   "note": ""
  },
  {
   "property": "C91",
   "status": "partial",
   "theorems": [
    "C91_returns_partial",
    "C91_shorter_second_refuted"
   ],
   "note": "False as stated: the length of the second slice is not looked at, so a shorter one makes the call read what lies behind it. Proved when the second vector is not shorter than the first."
  },
  {
   "property": "C92",
   "status": "proved",
   "theorems": [
    "C92_asm_accuracy"
   ],
   "note": ""
  },
  {
   "property": "C93",
   "status": "partial",
   "theorems": [
    "C93_same_result_partial",
    "C93_integer_vectors",
    "C93_same_result_refuted"
   ],
   "note": "False as stated: products are not rounded before they are added, and are added in another order. Proved: the difference is at most the sum of the bounds of C80 and C92, and there is none for vectors of integers whose products add up to at most 2^24."
  },
  {
   "property": "C94",
   "status": "partial",
   "theorems": [
    "C94_create_crash_partial",
    "C94_create_crash_refuted"
   ],
   "note": "False as stated: after a crash that leaves the row, the collection comes back without its mappings. Proved: everything else, for ordinary names (those of C42) that were not used by a deletion that was cut short."
  },
  {
   "property": "C95",
   "status": "partial",
   "theorems": [
    "C95_delete_crash_partial",
    "C95_delete_crash_refuted"
   ],
   "note": "False as stated: what is left of the directory makes CreateCollection fail, and after that failure the next Open brings the collection back with old objects. Proved: everything else, and the name is free if the directory is gone."
  },
  {
   "property": "C96",
   "status": "partial",
   "theorems": [
    "C96_collections_are_independent_partial",
    "C96_opens_iff_each_opens",
    "C96_collections_are_independent_refuted"
   ],
   "note": "False as stated for configurations that reopening changes (C43): mappings and integers above 2^53. Proved: each collection has the history of its own under the configuration in force (the given one up to the first reopening, the stored one from then on), for ordinary names (those of C42) not used again after a deletion that was cut short. The second half is proved for the same histories."
  },
  {
   "property": "C97",
   "status": "partial",
   "theorems": [
    "C97_acknowledged_survives_partial"
   ],
   "note": "Proved for ordinary names (those of C42), mappings or not, and for names not used again after a deletion that was cut short (C95); fewer than 2^64 objects submitted, components of 32 bits, properties the JSON codec reads back. For other names see C42."
  },
  {
   "property": "C98",
   "status": "partial",
   "theorems": [
    "C98_failed_removal_partial",
    "C98_failed_removal_refuted"
   ],
   "note": "False as stated: the row is gone but the entry in memory is not, so that deleting again fails, and after a restart the name cannot be created. Proved: until the restart the name stands for the old handle, and every deletion or creation under it fails."
  },
  {
   "property": "C99",
   "status": "partial",
   "theorems": [
    "C99_files_partial",
    "C99_files_kept_partial",
    "C99_outside_refuted",
    "C99_nested_refuted"
   ],
   "note": "False as stated: names are not checked. A collection '..' is refused but appears after reopening, and deleting it deletes the parent of the data directory; 'a/b' lies inside 'a' and is deleted with it. Proved for names without a slash other than '.', '..' and sqlite's files, in every history of a database that starts without collections; what the stores, the counter and the log write below their directory is arbitrary. No symbolic links; os.RemoveAll removes all or nothing."
  },
  {
   "property": "C100",
   "status": "partial",
   "theorems": [
    "C100_batch_is_over_partial",
    "C100_contains_lin",
    "C100_batch_is_over_refuted"
   ],
   "note": "False as stated: pond's Wait returns at the first error, and the batch call with it; the other workers go on without c.mu. Proved: as long as no batch has failed nothing is left behind, and the runs are exactly those of LinModel (C61 to C64)."
  },
  {
   "property": "C101",
   "status": "proved",
   "theorems": [
    "C101_ids_distinct",
    "C101_acknowledged_stays",
    "C101_acknowledged_survives",
    "C101_read_your_writes",
    "C101_older_objects_kept",
    "C101_log_goes_on"
   ],
   "note": "Fewer than 2^64 objects submitted, values below 2^32 bytes, components of 32 bits, properties the JSON codec reads back. About the stores, the ids and the log; not about the index, which C60 treats. The crash theorem assumes that reopening succeeds (C14)."
  },
  {
   "property": "C102",
   "status": "proved",
   "theorems": [
    "C102_files_are_final",
    "C102_later_calls_refused"
   ],
   "note": "Close is one step: closing the counter file and the two stores and setting the flag; a failing close(2) is not modelled. A store refuses to write once it is closed, as bitcask does."
  },
  {
   "property": "C103",
   "status": "partial",
   "theorems": [
    "C103_each_collection",
    "C103_calls_one_at_a_time_partial",
    "C103_names_unique",
    "C103_close_is_one_step_refuted"
   ],
   "note": "False for Close: it closes the collections one after the other, and a goroutine that has been refused by one can still insert into another. Proved: each call has its effect at one moment (for Close the moment when all collections are closed; before it, collections may be found closed already), names are unique, and each collection runs as if it were alone."
  },
  {
   "property": "C104",
   "status": "partial",
   "theorems": [
    "C104_data_directory_is_final",
    "C104_later_calls_refused",
    "C104_close_succeeds_partial",
    "C104_close_succeeds_refuted"
   ],
   "note": "Proved in full but for the success of Close: if a user closes a collection between IsClosed and Close, DB.Close returns the error with the metadata closed and everything else open, and nothing can be created any more. It succeeds if nobody else closes a collection. Refused means as in C102."
  },
  {
   "property": "C105",
   "status": "partial",
   "theorems": [
    "C105_rest_get_partial",
    "C105_rest_get_refuted"
   ],
   "note": "False: the collection can be deleted, then closed, between GetCollection and GetConfig, and the answer is 500 'collection closed', which no moment would have given. Proved: the answer is that of a moment of the request, or this one if the collection found was closed later in the request."
  },
  {
   "property": "C106",
   "status": "proved",
   "theorems": [
    "C106_concurrent_use_never_panics",
    "C106_no_deadlock",
    "C106_every_call_can_return",
    "C106_nothing_left_behind"
   ],
   "note": "The past of the collection is that of C68 (fewer than 2^64 objects and B objects in all, degrees below 2^32, M at least 2 and so on, as listed in use_ok), vectors of one dimension, components of 32 bits. Steps are those of LinModel; that the steps of EarlyModel are the same if nothing fails is the last theorem. A fair scheduler is not modelled: what is proved is that some call can always go on and that no infinite run without new calls exists."
  },
  {
   "property": "C107",
   "status": "proved",
   "theorems": [
    "C107_database_use_never_panics",
    "C107_no_deadlock",
    "C107_every_call_can_return",
    "C107_nothing_left_behind"
   ],
   "note": "Every collection is used as in C106, and no batch has left workers behind, which by the last theorem is so if the objects of the batches can be stored and nobody cancels. GetConfig is called on collections of this database. The configurations of collections created on the way satisfy the conditions of C106 if they are accepted. Fairness of the scheduler as in C106."
  },
  {
   "property": "C108",
   "status": "partial",
   "theorems": [
    "C108_pointers_are_values_partial",
    "C108_caller_sees_ids_partial",
    "C108_same_pointer_refuted"
   ],
   "note": "False for a batch that contains one pointer twice: both workers may store under the second id, the batch succeeds and one object of two is stored. Proved for batches of different pointers, for every schedule, by a simulation between PtrModel and CollModel, which justifies the values of CollModel; the second theorem also excludes batches with a panicking worker, which C35 refutes."
  },
  {
   "property": "C109",
   "status": "proved",
   "theorems": [
    "C109_collection_is_its_index",
    "C109_same_answers"
   ],
   "note": "The conditions are those of use_ok and tidy_ev (as in C59: parameters M, efConstruction and ef positive, dimensions the distance supports, at most B inserts, 32-bit floats and levels), each search after the first acknowledged insert, no batches, no crashes, writes to the log succeed. The collection may have marked more ids as deleted than the index: those of objects whose vector was refused by the store, which have no vertex."
  },
  {
   "property": "C110",
   "status": "proved",
   "theorems": [
    "C110_search_answers"
   ],
   "note": "Conditions as for C109, and no distance between two vectors involved is a NaN. Properties come back as they were if they survive the JSON codec (json_ok). Exactness for larger collections is refuted in C18."
  },
  {
   "property": "C111",
   "status": "partial",
   "theorems": [
    "C111_searches_as_configured_partial",
    "C111_inserts_as_configured_partial"
   ],
   "note": "The full statement is refuted by C43 and C96: the mappings are lost when the database is opened again, and numbers above 2^53 change. Missing: collections with mappings after a reopening; searches are for collections used one call at a time with mappings empty and numbers below 2^53 (lean), under the conditions of C110."
  },
  {
   "property": "C112",
   "status": "partial",
   "theorems": [
    "C112_torn_value",
    "C112_ids_unique_partial",
    "C112_spared_needed",
    "C112_reopen_refuted",
    "C112_ids_unique_refuted",
    "C112_same_counter",
    "C112_object_replaced_refuted"
   ],
   "note": "Refuted: a first write of 1 to 7 bytes leaves a file that cannot be opened (and with it the database), and one byte of 256 written over 255 makes the counter 0 again, after which an Insert replaces an acknowledged object. Partial: no write is cut or refused where the bytes that arrived make the number in the file smaller, nor the first one after some of its bytes. C112_spared_needed shows that after a fetch every cut write left out does break the order of ids. C112_torn_value says exactly which number a cut write leaves."
  },
  {
   "property": "C113",
   "status": "partial",
   "theorems": [
    "C113_close_exact",
    "C113_close_releases",
    "C113_everything_closed_refuted",
    "C113_stuck",
    "C113_retry_refuted",
    "C113_retry_partial"
   ],
   "note": "Refuted twice: the log of the index is never closed, and a Close that failed at a collection fails for ever after, because the counter's file is closed already (C113_stuck). Proved: everything else is given back, exactly when Close succeeds, and trying again works if only the sql database had failed. Deleted collections are left out; HandleModel knows which files are open, not what is in them."
  },
  {
   "property": "C114",
   "status": "partial",
   "theorems": [
    "C114_open_exact",
    "C114_reopen_panics_refuted",
    "C114_locked_refuted",
    "C114_reopen_partial"
   ],
   "note": "Refuted: NewStores drops the error of opening the store of vectors, so that Open panics instead of returning it; a Close that failed between the two stores leads to that panic; an Open that fails keeps the stores it had opened locked, so that the next is refused. Proved: exactly when Open succeeds and when it panics, and that it succeeds if all databases of the process are closed and no Open or CreateCollection has failed inside newCollection."
  },
  {
   "property": "C115",
   "status": "partial",
   "theorems": [
    "C115_written_is_read",
    "C115_cut_exact",
    "C115_crash_is_model",
    "C115_model_is_crash",
    "C115_opens_refuted",
    "C115_failed_write_refuted",
    "C115_file_partial"
   ],
   "note": "Refuted twice: a write cut inside a record makes the log, and with it the database, impossible to open; a write that fails half way leaves bytes behind which the next one is appended, and the collection panics when opened again although that Insert was acknowledged. Proved: exactly which cuts can be opened and with what result (which is that of CallModel's crashes, so that the theorems about crashes hold for those), and the whole statement if failing writes write nothing. The format is tidwall/wal's binary one, in a single file of less than 20 MB; what the library keeps in memory after a failed write is not modelled."
  },
  {
   "property": "C116",
   "status": "partial",
   "theorems": [
    "C116_mappings_kept_partial",
    "C116_shared_array_refuted",
    "C116_get_config_refuted"
   ],
   "note": "Refuted twice: newCollection copies the struct but not the array behind Mappings, and GetConfig returns a pointer to the collection's own struct; writing to either changes which objects are accepted. Proved for callers that do not write into the array and do not ask for the configuration of this collection; they may change their own struct and do anything with other collections."
  }
 ]
}