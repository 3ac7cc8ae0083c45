{
 "claims": [
  {
   "property": "C01",
   "status": "proved",
   "theorems": [
    "C01_inferred_is_closure"
   ],
   "note": ""
  },
  {
   "property": "C02",
   "status": "proved",
   "theorems": [
    "C02_inference_is_entailment"
   ],
   "note": ""
  },
  {
   "property": "C03",
   "status": "proved",
   "theorems": [
    "C03_always_satisfiable"
   ],
   "note": ""
  },
  {
   "property": "C04",
   "status": "proved",
   "theorems": [
    "C04_add_constraint_exact"
   ],
   "note": ""
  },
  {
   "property": "C05",
   "status": "proved",
   "theorems": [
    "C05_failed_calls_change_nothing"
   ],
   "note": ""
  },
  {
   "property": "C06",
   "status": "proved",
   "theorems": [
    "C06_only_documented_errors"
   ],
   "note": ""
  },
  {
   "property": "C07",
   "status": "proved",
   "theorems": [
    "C07_getters_symmetric"
   ],
   "note": ""
  },
  {
   "property": "C08",
   "status": "proved",
   "theorems": [
    "C08_added_constraints_refine_map",
    "C08_one_call"
   ],
   "note": ""
  },
  {
   "property": "C09",
   "status": "proved",
   "theorems": [
    "C09_managed_ids_ordered_set"
   ],
   "note": ""
  },
  {
   "property": "C10",
   "status": "proved",
   "theorems": [
    "C10_history_independence"
   ],
   "note": ""
  },
  {
   "property": "C11",
   "status": "proved",
   "theorems": [
    "C11_retraction_is_complete"
   ],
   "note": ""
  },
  {
   "property": "C12",
   "status": "proved",
   "theorems": [
    "C12_deleted_id_is_forgotten"
   ],
   "note": ""
  },
  {
   "property": "C13",
   "status": "proved",
   "theorems": [
    "C13_components_partition"
   ],
   "note": ""
  },
  {
   "property": "C14",
   "status": "proved",
   "theorems": [
    "C14_completude_exact"
   ],
   "note": ""
  },
  {
   "property": "C15",
   "status": "proved",
   "theorems": [
    "C15_maximum_exact"
   ],
   "note": ""
  },
  {
   "property": "C16",
   "status": "proved",
   "theorems": [
    "C16_range_feasible"
   ],
   "note": ""
  },
  {
   "property": "C17",
   "status": "partial",
   "theorems": [
    "C17_minimum_refuted",
    "C17_minimum_partial"
   ],
   "note": "Refuted for the code as it is (C17_minimum_refuted: two unconstrained IDs give lo = 2). C17_minimum_partial: exact for complete constraints, and lo = 2 is a true minimum once a CANNOT_LINK is inferred. Missing: minimality of lo > 2 on incomplete constraints, which greedy colouring does not give (C90_not_exact_with_cycles); see C90 for bounds."
  },
  {
   "property": "C18",
   "status": "partial",
   "theorems": [
    "C18_range_refuted",
    "C18_range_exact_partial"
   ],
   "note": "Refuted for the code as it is (one component gives (2,1); an empty manager raises ValueError). C18_range_exact_partial gives the exact conditions."
  },
  {
   "property": "C19",
   "status": "proved",
   "theorems": [
    "C19_conflict_listing_exact"
   ],
   "note": ""
  },
  {
   "property": "C20",
   "status": "proved",
   "theorems": [
    "C20_redundant_add"
   ],
   "note": ""
  },
  {
   "property": "C21",
   "status": "proved",
   "theorems": [
    "C21_batch_order_irrelevant"
   ],
   "note": ""
  },
  {
   "property": "C22",
   "status": "partial",
   "theorems": [
    "C22_round_trip_partial",
    "C22_round_trip_refuted"
   ],
   "note": "Everything round-trips except a deleted constraint of an ID with itself, which the load restores (C22_round_trip_refuted); IDs must not hold the two halves of a character as separate code points (see C23)."
  },
  {
   "property": "C23",
   "status": "partial",
   "theorems": [
    "C23_text_lossless_partial",
    "C23_text_lossless_refuted"
   ],
   "note": "Lossless for every Unicode text; refuted for Python strings that contain a high surrogate followed by a low surrogate as separate code points."
  },
  {
   "property": "C24",
   "status": "proved",
   "theorems": [
    "C24_torn_file_rejected"
   ],
   "note": ""
  },
  {
   "property": "C25",
   "status": "partial",
   "theorems": [
    "C25_crash_safe_refuted",
    "C25_crash_detected_partial"
   ],
   "note": "Refuted: the file is truncated before it is written, so a crash can lose both versions. C25_crash_detected_partial: a load after a crash gives the old content, the new one, or raises; never a third manager."
  },
  {
   "property": "C26",
   "status": "proved",
   "theorems": [
    "C26_loaded_manager_coherent",
    "C26_document_accepted_iff_satisfiable"
   ],
   "note": ""
  },
  {
   "property": "C27",
   "status": "proved",
   "theorems": [
    "C27_sampled_pairs_eligible"
   ],
   "note": ""
  },
  {
   "property": "C28",
   "status": "proved",
   "theorems": [
    "C28_sampling_count",
    "C28_sampling_errors"
   ],
   "note": ""
  },
  {
   "property": "C29",
   "status": "proved",
   "theorems": [
    "C29_distance_sampling_optimal"
   ],
   "note": ""
  },
  {
   "property": "C30",
   "status": "proved",
   "theorems": [
    "C30_exhausted_iff_complete"
   ],
   "note": ""
  },
  {
   "property": "C31",
   "status": "proved",
   "theorems": [
    "C31_annotation_loop"
   ],
   "note": ""
  },
  {
   "property": "C32",
   "status": "proved",
   "theorems": [
    "C32_sampling_no_memory"
   ],
   "note": ""
  },
  {
   "property": "C33",
   "status": "proved",
   "theorems": [
    "C33_rename_canonical",
    "C33_rename_canonicity"
   ],
   "note": ""
  },
  {
   "property": "C34",
   "status": "proved",
   "theorems": [
    "C34_kmeans_respects_constraints"
   ],
   "note": ""
  },
  {
   "property": "C35",
   "status": "proved",
   "theorems": [
    "C35_kmeans_total",
    "C35_kmeans_errors"
   ],
   "note": ""
  },
  {
   "property": "C36",
   "status": "partial",
   "theorems": [
    "C36_centroids_refuted",
    "C36_centroids_partial"
   ],
   "note": "Refuted: the labels are renumbered by first appearance but the centroids keep the numbers of the run (C36_centroids_refuted). C36_centroids_partial: they are the means of the returned clusters under some other numbering."
  },
  {
   "property": "C37",
   "status": "proved",
   "theorems": [
    "C37_hierarchical_respects",
    "C37_hierarchical_cuts_respect"
   ],
   "note": ""
  },
  {
   "property": "C38",
   "status": "proved",
   "theorems": [
    "C38_dendrogram"
   ],
   "note": ""
  },
  {
   "property": "C39",
   "status": "proved",
   "theorems": [
    "C39_cuts_nested"
   ],
   "note": ""
  },
  {
   "property": "C40",
   "status": "partial",
   "theorems": [
    "C40_requested_number_refuted",
    "C40_requested_number_partial",
    "C40_requested_number_by_iteration"
   ],
   "note": "Refuted for cluster(), which cuts by size: it stops when the biggest cluster is a single component, even if smaller ones could be split (C40_requested_number_refuted). C40_requested_number_partial: that is the only way to miss the number. Cuts by iteration always reach it (C40_requested_number_by_iteration)."
  },
  {
   "property": "C41",
   "status": "partial",
   "theorems": [
    "C41_failed_call_refuted",
    "C41_failed_call_partial"
   ],
   "note": "Refuted: list_of_data_IDs is replaced before the parameters are checked, so a cut after a refused call can label IDs that were never clustered (C41_failed_call_refuted). C41_failed_call_partial: the tree and the last result are kept, and cuts answer as before when the IDs are the same."
  },
  {
   "property": "C42",
   "status": "proved",
   "theorems": [
    "C42_affinity_matrix"
   ],
   "note": ""
  },
  {
   "property": "C43",
   "status": "proved",
   "theorems": [
    "C43_spectral_canonical"
   ],
   "note": ""
  },
  {
   "property": "C44",
   "status": "partial",
   "theorems": [
    "C44_affinity_must_links_refuted",
    "C44_affinity_must_links_partial"
   ],
   "note": "Refuted when all the similarities are equal (for instance two data): the code then gives every data its own cluster whatever the constraints (C44_affinity_must_links_refuted). C44_affinity_must_links_partial: respected in every other case."
  },
  {
   "property": "C45",
   "status": "partial",
   "theorems": [
    "C45_affinity_cannot_links_refuted",
    "C45_cannot_links_ignored"
   ],
   "note": "Refuted, and more: CANNOT_LINK constraints never have any influence on the result (C45_cannot_links_ignored), because the messages of the CANNOT_LINK are only added to the rows of meta points, whose indices no CANNOT_LINK holds."
  },
  {
   "property": "C46",
   "status": "proved",
   "theorems": [
    "C46_dbscan_partition"
   ],
   "note": ""
  },
  {
   "property": "C47",
   "status": "partial",
   "theorems": [
    "C47_cannot_links",
    "C47_must_links_refuted",
    "C47_must_links_partial"
   ],
   "note": "CANNOT_LINK is always respected (C47_cannot_links). MUST_LINK is refuted (C47_must_links_refuted): a data claimed by two core clusters goes to the last one, and a linked data that is near another leader is taken from its component. C47_must_links_partial: a component with no other data within eps is exactly one cluster."
  },
  {
   "property": "C48",
   "status": "proved",
   "theorems": [
    "C48_mpckmeans_constraints"
   ],
   "note": ""
  },
  {
   "property": "C49",
   "status": "partial",
   "theorems": [
    "C49_ids_ignored_refuted",
    "C49_wrong_data_refuted",
    "C49_right_data_partial"
   ],
   "note": "Refuted: penalties go by position, so vectors in another order than the manager move the constraints to other data (C49_ids_ignored_refuted, C49_wrong_data_refuted). C49_right_data_partial: right when the vectors come in the order of the manager."
  },
  {
   "property": "C50",
   "status": "partial",
   "theorems": [
    "C50_empty_clusters_refuted",
    "C50_empty_clusters_partial",
    "C50_returns_partial"
   ],
   "note": "Refuted below ten clusters: the repaired assignment is counted with minlength 10 and reported as empty (C50_empty_clusters_refuted). C50_empty_clusters_partial, C50_returns_partial: the repair works for ten clusters and more."
  },
  {
   "property": "C51",
   "status": "partial",
   "theorems": [
    "C51_identical_vectors_refuted"
   ],
   "note": "Refuted: with equal vectors the farthest pair does not exist and every call fails (C51_identical_vectors_refuted)."
  },
  {
   "property": "C52",
   "status": "partial",
   "theorems": [
    "C52_frequencies",
    "C52_distribution",
    "C52_float_sum_refuted",
    "C52_float_sum_partial"
   ],
   "note": "C52_frequencies and C52_distribution: the frequencies are the sizes over the number of data, and they sum to exactly 1 in exact arithmetic. Refuted for binary64 (C52_float_sum_refuted: ten singleton clusters sum to less than 1). C52_float_sum_partial: with binary64 numbers and at most 2^52 data each frequency has a relative error of at most 2^-53, and the k frequencies added one after the other give 1 up to k * 2^-52."
  },
  {
   "property": "C53",
   "status": "proved",
   "theorems": [
    "C53_managing_factory",
    "C53_managing_factory_errors",
    "C53_sampling_factory",
    "C53_sampling_factory_unknown",
    "C53_sampling_factory_keywords",
    "C53_sampler_options",
    "C53_sampling_factory_errors",
    "C53_clustering_factory",
    "C53_clustering_factory_errors"
   ],
   "note": ""
  },
  {
   "property": "C54",
   "status": "partial",
   "theorems": [
    "C54_suggested_number_refuted",
    "C54_suggested_number_partial"
   ],
   "note": "Refuted with a single component: the range is (2, 1), the suggested number is 1 and is rejected (C54_suggested_number_refuted). C54_suggested_number_partial: accepted with two components and more, by KMeans and hierarchical clustering; spectral clustering and MPCKMeans have other reasons to fail, see C67 and C76."
  },
  {
   "property": "C55",
   "status": "proved",
   "theorems": [
    "C55_kmeans_complete_constraints"
   ],
   "note": ""
  },
  {
   "property": "C56",
   "status": "proved",
   "theorems": [
    "C56_preprocess_ids",
    "C56_vectorize_ids"
   ],
   "note": ""
  },
  {
   "property": "C57",
   "status": "proved",
   "theorems": [
    "C57_clean_texts",
    "C57_options_remove_words"
   ],
   "note": ""
  },
  {
   "property": "C58",
   "status": "proved",
   "theorems": [
    "C58_kmeans_is_cop_run"
   ],
   "note": ""
  },
  {
   "property": "C59",
   "status": "proved",
   "theorems": [
    "C59_kmeans_no_memory"
   ],
   "note": ""
  },
  {
   "property": "C60",
   "status": "proved",
   "theorems": [
    "C60_kmeans_number_of_clusters"
   ],
   "note": ""
  },
  {
   "property": "C61",
   "status": "proved",
   "theorems": [
    "C61_hierarchical_total",
    "C61_hierarchical_errors"
   ],
   "note": ""
  },
  {
   "property": "C62",
   "status": "proved",
   "theorems": [
    "C62_agglomerative"
   ],
   "note": ""
  },
  {
   "property": "C63",
   "status": "proved",
   "theorems": [
    "C63_hierarchical_complete_constraints"
   ],
   "note": ""
  },
  {
   "property": "C64",
   "status": "proved",
   "theorems": [
    "C64_hierarchical_no_memory"
   ],
   "note": ""
  },
  {
   "property": "C65",
   "status": "proved",
   "theorems": [
    "C65_hierarchical_number_of_clusters"
   ],
   "note": ""
  },
  {
   "property": "C66",
   "status": "proved",
   "theorems": [
    "C66_cuts_split_biggest"
   ],
   "note": ""
  },
  {
   "property": "C67",
   "status": "proved",
   "theorems": [
    "C67_spectral_errors",
    "C67_spectral_constructor"
   ],
   "note": ""
  },
  {
   "property": "C68",
   "status": "proved",
   "theorems": [
    "C68_spectral_no_memory"
   ],
   "note": ""
  },
  {
   "property": "C69",
   "status": "proved",
   "theorems": [
    "C69_affinity_canonical",
    "C69_affinity_errors",
    "C69_affinity_constructor"
   ],
   "note": ""
  },
  {
   "property": "C70",
   "status": "proved",
   "theorems": [
    "C70_affinity_short_run"
   ],
   "note": ""
  },
  {
   "property": "C71",
   "status": "proved",
   "theorems": [
    "C71_affinity_absolute",
    "C71_affinity_mixed"
   ],
   "note": ""
  },
  {
   "property": "C72",
   "status": "proved",
   "theorems": [
    "C72_affinity_no_memory"
   ],
   "note": ""
  },
  {
   "property": "C73",
   "status": "proved",
   "theorems": [
    "C73_dbscan_errors"
   ],
   "note": ""
  },
  {
   "property": "C74",
   "status": "proved",
   "theorems": [
    "C74_dbscan_no_memory",
    "C74_dbscan_set_order"
   ],
   "note": ""
  },
  {
   "property": "C75",
   "status": "proved",
   "theorems": [
    "C75_dbscan_functional"
   ],
   "note": ""
  },
  {
   "property": "C76",
   "status": "proved",
   "theorems": [
    "C76_mpckmeans_errors",
    "C76_mpckmeans_constructor"
   ],
   "note": ""
  },
  {
   "property": "C77",
   "status": "proved",
   "theorems": [
    "C77_mpckmeans_partition"
   ],
   "note": ""
  },
  {
   "property": "C78",
   "status": "proved",
   "theorems": [
    "C78_mpckmeans_functional"
   ],
   "note": ""
  },
  {
   "property": "C79",
   "status": "proved",
   "theorems": [
    "C79_mpckmeans_no_memory"
   ],
   "note": ""
  },
  {
   "property": "C80",
   "status": "partial",
   "theorems": [
    "C80_foreign_vectors_refuted",
    "C80_foreign_vectors_partial"
   ],
   "note": "Refuted: only the number of vectors matters (C80_foreign_vectors_refuted). C80_foreign_vectors_partial describes the result: managed IDs without vector get -1."
  },
  {
   "property": "C81",
   "status": "partial",
   "theorems": [
    "C81_session_partial",
    "C81_session_refuted"
   ],
   "note": "Refuted when all the texts belong to one true cluster: the session always ends with ValueError (C81_session_refuted). C81_session_partial: holds in all other cases."
  },
  {
   "property": "C82",
   "status": "partial",
   "theorems": [
    "C82_every_sampler_refuted",
    "C82_every_sampler_partial"
   ],
   "note": "Refuted for the three samplers that look at the clusters: some sessions never end (C82_every_sampler_refuted). C82_every_sampler_partial: no annotation is refused, decisions are kept, and the only cause of a long session is an iteration where no undecided pair meets the restriction."
  },
  {
   "property": "C83",
   "status": "partial",
   "theorems": [
    "C83_no_punctuation_refuted",
    "C83_no_punctuation_partial"
   ],
   "note": "Refuted: the decomposition comes after lower-casing and punctuation, and brings capitals and punctuation back, for instance U+2122 becomes TM (C83_no_punctuation_refuted, under the values Python gives for two characters). C83_no_punctuation_partial: every character comes from a character that is not listed punctuation; missing: what lemmas and decompositions bring."
  },
  {
   "property": "C84",
   "status": "partial",
   "theorems": [
    "C84_vectorize_total_refuted",
    "C84_vectorize_total_partial"
   ],
   "note": "Refuted for tfidf: without a word common to two texts, for instance for a single text, it raises ValueError (C84_vectorize_total_refuted, min_df=2). C84_vectorize_total_partial gives the exact conditions."
  },
  {
   "property": "C85",
   "status": "proved",
   "theorems": [
    "C85_order_of_texts"
   ],
   "note": ""
  },
  {
   "property": "C86",
   "status": "proved",
   "theorems": [
    "C86_tfidf_definition"
   ],
   "note": ""
  },
  {
   "property": "C87",
   "status": "proved",
   "theorems": [
    "C87_guide"
   ],
   "note": ""
  },
  {
   "property": "C88",
   "status": "partial",
   "theorems": [
    "C88_same_knowledge_iff",
    "C88_same_constraints",
    "C88_reloaded",
    "C88_kmeans",
    "C88_spectral",
    "C88_dbscan",
    "C88_affinity",
    "C88_mpckmeans_partial",
    "C88_hierarchical_partial",
    "C88_hierarchical_rounding_refuted"
   ],
   "note": "Proved for KMeans, spectral clustering, DBScan and affinity propagation. Hierarchical clustering: proved when sums do not depend on the order of the terms (C88_hierarchical_partial); refuted with rounded sums (C88_hierarchical_rounding_refuted). MPCKMeans: proved for equal vectors (C88_mpckmeans_partial); it also reads vectors of data that are not managed (C80)."
  },
  {
   "property": "C89",
   "status": "proved",
   "theorems": [
    "C89_sample_depends"
   ],
   "note": ""
  },
  {
   "property": "C90",
   "status": "proved",
   "theorems": [
    "C90_sparse_minimum",
    "C90_bounded_degree",
    "C90_forest_exact",
    "C90_not_exact_with_cycles"
   ],
   "note": "C90_not_exact_with_cycles shows the limit: beyond graphs without cycle the minimum need not be exact, even when two clusters would do."
  },
  {
   "property": "C91",
   "status": "proved",
   "theorems": [
    "C91_constructor",
    "C91_description",
    "C91_clustering_description",
    "C91_deep_clusterings"
   ],
   "note": ""
  },
  {
   "property": "C92",
   "status": "partial",
   "theorems": [
    "C92_add_children_partial",
    "C92_bottom_up_partial",
    "C92_members_lost_refuted",
    "C92_parent_stale_refuted",
    "C92_failed_call_refuted",
    "C92_duplicates_refuted",
    "C92_cycle_refuted"
   ],
   "note": "Refuted: a cluster made from members loses them (C92_members_lost_refuted), the clusters above are not told (C92_parent_stale_refuted), a failed call leaves changes (C92_failed_call_refuted), a child given twice is added twice (C92_duplicates_refuted), cycles make to_dict fail for every recursion limit (C92_cycle_refuted). C92_add_children_partial: exact effect on a cluster that agrees with its children. C92_bottom_up_partial: trees changed only at their roots stay consistent after any calls."
  },
  {
   "property": "C93",
   "status": "partial",
   "theorems": [
    "C93_kmeans",
    "C93_sampler",
    "C93_spectral",
    "C93_affinity",
    "C93_dbscan",
    "C93_mpckmeans_refuted",
    "C93_mpckmeans_numpy_partial"
   ],
   "note": "Holds for the samplers, KMeans, spectral clustering, affinity propagation and DBScan (any set order, from C74); hierarchical clustering reads neither generators nor sets. Refuted for MPCKMeans, whose seed is never read (C93_mpckmeans_refuted); C93_mpckmeans_numpy_partial: it depends on the state of np.random only."
  },
  {
   "property": "C94",
   "status": "partial",
   "theorems": [
    "C94_kmeans_resets_refuted",
    "C94_sampler_resets_refuted",
    "C94_unseeded_refuted",
    "C94_numpy_untouched_partial"
   ],
   "note": "Refuted: a seeded call of KMeans or of a sampler puts the generator of the process in a state that depends on the seed only (C94_kmeans_resets_refuted, C94_sampler_resets_refuted), and an unseeded call takes a seed from the operating system (C94_unseeded_refuted). C94_numpy_untouched_partial: np.random is left alone, and so are both generators by failing calls."
  },
  {
   "property": "C95",
   "status": "proved",
   "theorems": [
    "C95_kmeans_sound",
    "C95_hierarchical_sound",
    "C95_session"
   ],
   "note": ""
  },
  {
   "property": "C96",
   "status": "proved",
   "theorems": [
    "C96_indistinguishable",
    "C96_reloaded",
    "C96_range",
    "C96_strategies"
   ],
   "note": ""
  },
  {
   "property": "C97",
   "status": "proved",
   "theorems": [
    "C97_resume",
    "C97_reloaded",
    "C97_kmeans_reads",
    "C97_hierarchical_reads"
   ],
   "note": ""
  },
  {
   "property": "C98",
   "status": "proved",
   "theorems": [
    "C98_managers_independent",
    "C98_no_runtime_error"
   ],
   "note": ""
  },
  {
   "property": "C99",
   "status": "proved",
   "theorems": [
    "C99_conflict_stays",
    "C99_conflict_resolved"
   ],
   "note": ""
  },
  {
   "property": "C100",
   "status": "proved",
   "theorems": [
    "C100_must_links_needed",
    "C100_cannot_links_needed",
    "C100_complete_effort",
    "C100_frugal",
    "C100_effort_attained"
   ],
   "note": ""
  },
  {
   "property": "C101",
   "status": "proved",
   "theorems": [
    "C101_names_do_not_matter"
   ],
   "note": ""
  },
  {
   "property": "C102",
   "status": "partial",
   "theorems": [
    "C102_nul_refuted",
    "C102_plain_partial"
   ],
   "note": "Refuted for every returning call: a managed ID that ends with NUL gets -1 (C102_nul_refuted), because numpy strips NUL characters at the end of the strings of an array. C102_plain_partial: every other ID with a vector gets a cluster."
  },
  {
   "property": "C103",
   "status": "proved",
   "theorems": [
    "C103_manager_names"
   ],
   "note": ""
  },
  {
   "property": "C104",
   "status": "proved",
   "theorems": [
    "C104_sampling_names"
   ],
   "note": ""
  },
  {
   "property": "C105",
   "status": "proved",
   "theorems": [
    "C105_rename_names",
    "C105_kmeans_names",
    "C105_hierarchical_names",
    "C105_spectral_names",
    "C105_affinity_names",
    "C105_mpckmeans_names",
    "C105_dbscan_names"
   ],
   "note": ""
  },
  {
   "property": "C106",
   "status": "proved",
   "theorems": [
    "C106_refused_reported",
    "C106_any_annotator",
    "C106_no_refusal_iff",
    "C106_answers_everything"
   ],
   "note": ""
  },
  {
   "property": "C107",
   "status": "proved",
   "theorems": [
    "C107_more_rounds",
    "C107_better_than_start",
    "C107_constraints_matter"
   ],
   "note": ""
  },
  {
   "property": "C108",
   "status": "proved",
   "theorems": [
    "C108_cut_undoes_merges"
   ],
   "note": ""
  },
  {
   "property": "C109",
   "status": "proved",
   "theorems": [
    "C109_maximum_spacing",
    "C109_chains",
    "C109_default_cut_spacing"
   ],
   "note": ""
  },
  {
   "property": "C110",
   "status": "proved",
   "theorems": [
    "C110_clusters_hang_together"
   ],
   "note": ""
  },
  {
   "property": "C111",
   "status": "partial",
   "theorems": [
    "C111_dense_ignored_refuted",
    "C111_dense_neighbours_split_refuted",
    "C111_dense_kept_partial"
   ],
   "note": "Refuted without any constraint: a core point can be ignored (C111_dense_ignored_refuted), since line 525 compares the size of what remains of a local cluster with eps, and two core points within eps of each other can be in different clusters (C111_dense_neighbours_split_refuted). C111_dense_kept_partial: when every positive number is at least eps, core points and the data within eps of them are in clusters; missing: in the same one."
  },
  {
   "property": "C112",
   "status": "partial",
   "theorems": [
    "C112_merge_order_partial",
    "C112_average_refuted",
    "C112_ward_refuted"
   ],
   "note": "C112_merge_order_partial: holds for single and complete linkage, with any constraints. Refuted for average, which compares centroids (C112_average_refuted, three points of the plane without constraints), and for ward, which divides the sum of all the distances in the union by the product of the sizes (C112_ward_refuted, four linked data)."
  },
  {
   "property": "C113",
   "status": "proved",
   "theorems": [
    "C113_annotation",
    "C113_retraction",
    "C113_new_data",
    "C113_deleted_data"
   ],
   "note": ""
  },
  {
   "property": "C114",
   "status": "proved",
   "theorems": [
    "C114_vectors_do_not_matter",
    "C114_ground_truth"
   ],
   "note": ""
  },
  {
   "property": "C115",
   "status": "partial",
   "theorems": [
    "C115_any_weight_refuted",
    "C115_weight_partial"
   ],
   "note": "Refuted for every weight at once (C115_any_weight_refuted): the penalty of a CANNOT_LINK is proportional to the largest distance minus the distance of the pair, so it is 0 for the farthest pair, whatever the weight. C115_weight_partial: in exact arithmetic, beyond an explicit bound on the weight, an assignment of the points only breaks constraints of pairs at the largest distance (CANNOT_LINK) or at distance 0 (MUST_LINK), or of points that no cluster could take. Missing: floating point numbers; the repair of empty clusters, which ignores constraints."
  },
  {
   "property": "C116",
   "status": "partial",
   "theorems": [
    "C116_cluster_checks_partial",
    "C116_constructor_checks_partial",
    "C116_sampler_checks_partial",
    "C116_manager_checks_partial",
    "C116_factory_checks_partial",
    "C116_text_number_refuted",
    "C116_half_added_refuted"
   ],
   "note": "Refuted for numbers (C116_text_number_refuted: a text in place of the number of clusters raises TypeError in all four classes, and floats pass) and for data IDs (C116_half_added_refuted: adding an ID that is no string raises TypeError but leaves it among the managed IDs). The _partial theorems say for every value of every argument which exception the checks raise, that the state keeps its results, and that documented types give the typed call. Missing: what a call does with a float or a dictionary of another kind once it passed the checks."
  },
  {
   "property": "C117",
   "status": "proved",
   "theorems": [
    "C117_settles",
    "C117_constraints_oscillate"
   ],
   "note": ""
  },
  {
   "property": "C118",
   "status": "partial",
   "theorems": [
    "C118_tell_apart_refuted",
    "C118_tell_apart_partial"
   ],
   "note": "Refuted: the texts that share no phrase with another text all get the same vector, whatever they say (C118_tell_apart_refuted), since phrases of a single text are no columns. C118_tell_apart_partial: what the vector tells lies between the counts of the common phrases, which determine it, and the set of the common phrases, which it determines."
  },
  {
   "property": "C119",
   "status": "proved",
   "theorems": [
    "C119_sampling_raises",
    "C119_stale_ignored"
   ],
   "note": ""
  },
  {
   "property": "C120",
   "status": "proved",
   "theorems": [
    "C120_hierarchical_order",
    "C120_sampling_order",
    "C120_units"
   ],
   "note": ""
  },
  {
   "property": "C121",
   "status": "partial",
   "theorems": [
    "C121_unit_refuted",
    "C121_unit_partial"
   ],
   "note": "Refuted: the remaining local clusters are kept when their number of data is at least eps (line 525), so eps in millimetres ignores data that eps in metres clusters (C121_unit_refuted). C121_unit_partial: the result is the same when eps compares with the numbers up to that of the data as before."
  },
  {
   "property": "C122",
   "status": "proved",
   "theorems": [
    "C122_kmeans_twins"
   ],
   "note": ""
  },
  {
   "property": "C123",
   "status": "partial",
   "theorems": [
    "C123_hierarchical_twins_partial",
    "C123_hierarchical_twins_refuted"
   ],
   "note": "Refuted for the clusters returned by cluster, which cuts by size, with each of the four linkages (C123_hierarchical_twins_refuted: four identical data are split in two while two different data stay together). C123_hierarchical_twins_partial: holds for the cut by iteration with each linkage; average asks that the mean of copies of a vector is this vector, ward that a sum or a part of distances is zero only when they all are."
  },
  {
   "property": "C124",
   "status": "partial",
   "theorems": [
    "C124_dbscan_twins_partial",
    "C124_dbscan_twins_refuted"
   ],
   "note": "Refuted for data that have fewer than min_samples neighbours (C124_dbscan_twins_refuted, without any constraint). C124_dbscan_twins_partial: holds for data that have enough neighbours."
  },
  {
   "property": "C125",
   "status": "proved",
   "theorems": [
    "C125_hierarchical",
    "C125_kmeans",
    "C125_others",
    "C125_sampling",
    "C125_isometries"
   ],
   "note": ""
  },
  {
   "property": "C126",
   "status": "proved",
   "theorems": [
    "C126_one_ranking",
    "C126_smaller_sample",
    "C126_proposed_again",
    "C126_portions"
   ],
   "note": ""
  },
  {
   "property": "C127",
   "status": "proved",
   "theorems": [
    "C127_contents",
    "C127_same_file",
    "C127_file_tells",
    "C127_save_again"
   ],
   "note": ""
  },
  {
   "property": "C128",
   "status": "proved",
   "theorems": [
    "C128_undo",
    "C128_put_back"
   ],
   "note": ""
  },
  {
   "property": "C129",
   "status": "proved",
   "theorems": [
    "C129_period",
    "C129_settled"
   ],
   "note": ""
  },
  {
   "property": "C130",
   "status": "proved",
   "theorems": [
    "C130_numbers",
    "C130_split"
   ],
   "note": ""
  },
  {
   "property": "C131",
   "status": "proved",
   "theorems": [
    "C131_teams",
    "C131_together"
   ],
   "note": ""
  },
  {
   "property": "C132",
   "status": "partial",
   "theorems": [
    "C132_kept_exactly",
    "C132_larger_eps_refuted",
    "C132_monotone_partial"
   ],
   "note": "Refuted without any constraint (C132_larger_eps_refuted): a larger eps that brings no new neighbours can ignore a data, since line 525 compares the size of what remains of a local cluster with eps. C132_monotone_partial: holds when the larger eps is at most 1. C132_kept_exactly: the data that are kept then, exactly. Missing: eps above 1."
  },
  {
   "property": "C133",
   "status": "proved",
   "theorems": [
    "C133_rounds_left",
    "C133_range",
    "C133_most_attained",
    "C133_least_attained"
   ],
   "note": ""
  },
  {
   "property": "C134",
   "status": "proved",
   "theorems": [
    "C134_early_stop",
    "C134_not_closer"
   ],
   "note": ""
  },
  {
   "property": "C135",
   "status": "partial",
   "theorems": [
    "C135_same_calls",
    "C135_saved",
    "C135_pair_repaired_partial",
    "C135_deletion_repaired_partial",
    "C135_addition_repaired_partial",
    "C135_addition_answers",
    "C135_half_done_refuted",
    "C135_deletion_refuted"
   ],
   "note": "Refuted: after an interrupted add_constraint the same call returns True and does nothing, and contradictory constraints are then accepted (C135_half_done_refuted); an interrupted delete_data_ID leaves IDs in other rows, so other calls raise KeyError and the saved file cannot be loaded (C135_deletion_refuted). C135_pair_repaired_partial, C135_deletion_repaired_partial, C135_addition_repaired_partial: the calls that repair an interrupted change. C135_saved, C135_addition_answers: what interrupted managers save and answer. C135_same_calls: the methods with their writes listed end as the methods of the other theorems."
  },
  {
   "property": "C136",
   "status": "proved",
   "theorems": [
    "C136_every_sample_once",
    "C136_pair_rate",
    "C136_every_order_once",
    "C136_centroid_rate"
   ],
   "note": ""
  },
  {
   "property": "C137",
   "status": "partial",
   "theorems": [
    "C137_no_narrower_merge_partial",
    "C137_narrowest_refuted",
    "C137_default_cut_refuted"
   ],
   "note": "Refuted without any constraint (C137_narrowest_refuted: four points on a line) and, for the weaker form, with the default cut by size (C137_default_cut_refuted). C137_no_narrower_merge_partial: after a cut by iteration, no two clusters could be joined into one narrower than the widest pair joined so far. Missing: how far from the narrowest clustering the result can be."
  },
  {
   "property": "C138",
   "status": "proved",
   "theorems": [
    "C138_compare_values",
    "C138_orders",
    "C138_sampling"
   ],
   "note": ""
  },
  {
   "property": "C139",
   "status": "partial",
   "theorems": [
    "C139_later_merges_partial",
    "C139_symmetric_refuted",
    "C139_merge_order_refuted"
   ],
   "note": "Refuted for the rounded formula of scikit-learn (C139_symmetric_refuted: 1.3 and 2.3 are nearer in one direction than in the other; C139_merge_order_refuted: 0.3, 1.3 and 2.3 with single linkage). C139_later_merges_partial: what remains of C112 for any matrix."
  },
  {
   "property": "C140",
   "status": "partial",
   "theorems": [
    "C140_alone",
    "C140_apart_partial",
    "C140_parts_partial",
    "C140_lost_refuted",
    "C140_conflict_refuted"
   ],
   "note": "Refuted in general (C140_lost_refuted, C140_conflict_refuted). C140_apart_partial: true for calls that concern different data, in the sense of apart; C140_parts_partial: true for threads with any number of calls that each stay in their own part of the data; C140_alone: the programs made of single reads and writes are the methods. Not modelled: threads that add or delete data IDs, delete constraints or read the components."
  },
  {
   "property": "C141",
   "status": "partial",
   "theorems": [
    "C141_single_partial",
    "C141_default_refuted",
    "C141_by_iteration_refuted",
    "C141_tie_refuted"
   ],
   "note": "C141_single_partial: true for single linkage cut by iteration, when no distance within the clusters equals one across them and all distances are below the infinite one. Refuted with equal distances (C141_tie_refuted), and, for every linkage, with the cut by size that cluster() makes, even when all distances differ (C141_default_refuted). By iteration it is refuted for complete, average and ward linkage (C141_by_iteration_refuted)."
  },
  {
   "property": "C142",
   "status": "partial",
   "theorems": [
    "C142_dbscan",
    "C142_separated_partial",
    "C142_default_refuted",
    "C142_average_ward_refuted",
    "C142_kmeans_refuted"
   ],
   "note": "C142_separated_partial: single and complete linkage cut by iteration find the true clusters when every undecided pair within a true cluster is nearer than every undecided pair across. C142_dbscan: DBScan finds them when eps separates them, each has two data or more and at least min_samples. Refuted for all four linkages with the cut by size that cluster() makes (C142_default_refuted), for average and ward linkage even by iteration (C142_average_ward_refuted, on four points of the plane, distances rounded to hundredths), and for k-means with bad first centres whatever the number of rounds (C142_kmeans_refuted)."
  },
  {
   "property": "C143",
   "status": "partial",
   "theorems": [
    "C143_every_round_partial",
    "C143_end_refuted"
   ],
   "note": "C143_every_round_partial: true when the clusters after every round meet the constraints of the second manager (the rounds are seen through calls with a smaller max_iteration); the attributes agree too. Refuted when only the clusters found in the end do, for a MUST_LINK and for a CANNOT_LINK (C143_end_refuted)."
  },
  {
   "property": "C144",
   "status": "proved",
   "theorems": [
    "C144_only_undecided",
    "C144_each_undecided",
    "C144_bound",
    "C144_more_known",
    "C144_kmeans",
    "C144_hierarchical"
   ],
   "note": ""
  },
  {
   "property": "C145",
   "status": "partial",
   "theorems": [
    "C145_alone",
    "C145_additions_partial",
    "C145_order_refuted",
    "C145_deletion_refuted",
    "C145_deleted_ID_refuted",
    "C145_new_ID_refuted"
   ],
   "note": "C145_additions_partial: true for a thread that adds data and constraints, for questions about inferred constraints and about added constraints of data managed from the start; from one question to the next the number of changes can go back by one (C145_order_refuted shows that it does). Refuted for deletions of constraints (C145_deletion_refuted) and of data (C145_deleted_ID_refuted, a KeyError), and for the added constraints of a data that is being added (C145_new_ID_refuted, a KeyError). C145_alone: the programs made of single reads and writes are the methods. Questions about the components are C152. Not modelled: questions about the list of data."
  },
  {
   "property": "C146",
   "status": "proved",
   "theorems": [
    "C146_which_cannot",
    "C146_which_must",
    "C146_cannot",
    "C146_must",
    "C146_more"
   ],
   "note": ""
  },
  {
   "property": "C147",
   "status": "proved",
   "theorems": [
    "C147_at_least",
    "C147_at_most",
    "C147_complete",
    "C147_wrong",
    "C147_least",
    "C147_most"
   ],
   "note": ""
  },
  {
   "property": "C148",
   "status": "proved",
   "theorems": [
    "C148_question",
    "C148_add_constraint",
    "C148_add_data",
    "C148_delete",
    "C148_delete_least"
   ],
   "note": ""
  },
  {
   "property": "C149",
   "status": "proved",
   "theorems": [
    "C149_sure",
    "C149_needed",
    "C149_not_sure",
    "C149_enough"
   ],
   "note": ""
  },
  {
   "property": "C150",
   "status": "proved",
   "theorems": [
    "C150_same",
    "C150_different",
    "C150_both",
    "C150_asked"
   ],
   "note": ""
  },
  {
   "property": "C151",
   "status": "proved",
   "theorems": [
    "C151_sampling",
    "C151_spacing",
    "C151_separated",
    "C151_dbscan"
   ],
   "note": ""
  },
  {
   "property": "C152",
   "status": "partial",
   "theorems": [
    "C152_alone",
    "C152_listing_partial",
    "C152_partition_refuted",
    "C152_moment_refuted"
   ],
   "note": "C152_listing_partial: the additions and the checks are right; a list of components covers the data with components of the data after some numbers of the additions, which are nested or apart, but it need not be a partition (C152_partition_refuted) nor the components after some number of the additions (C152_moment_refuted): while a and b are linked, [[a], [a, b]] can be got. From one question to the next the number of additions can go back by one. C152_alone: the programs made of single reads are the methods. Not modelled: listing while data are added or deleted (Python may raise RuntimeError)."
  },
  {
   "property": "C153",
   "status": "proved",
   "theorems": [
    "C153_alone",
    "C153_samples_while_adding"
   ],
   "note": ""
  },
  {
   "property": "C154",
   "status": "partial",
   "theorems": [
    "C154_alone",
    "C154_no_failure_partial",
    "C154_cannot_links_partial",
    "C154_respects_partial",
    "C154_cannot_refuted",
    "C154_must_refuted"
   ],
   "note": "C154_no_failure_partial: the additions are right, no clustering fails, all the data and nothing else get a cluster, whatever is added meanwhile. C154_respects_partial: the constraints known at the start are respected when the additions let nothing new be inferred as MUST_LINK, in particular (C154_cannot_links_partial) when only CANNOT_LINK constraints are added. In general they are not: one MUST_LINK added meanwhile can put two data with a CANNOT_LINK known from the start in one cluster (C154_cannot_refuted), or two data with a MUST_LINK known from the start in two clusters (C154_must_refuted). C154_alone: the program made of single reads is the method. Not modelled: clustering while data are added or deleted."
  },
  {
   "property": "C155",
   "status": "proved",
   "theorems": [
    "C155_alone",
    "C155_no_failure",
    "C155_respects"
   ],
   "note": ""
  },
  {
   "property": "C156",
   "status": "proved",
   "theorems": [
    "C156_alone",
    "C156_no_failure",
    "C156_must_links"
   ],
   "note": ""
  },
  {
   "property": "C157",
   "status": "partial",
   "theorems": [
    "C157_alone",
    "C157_no_failure_partial",
    "C157_cannot_links_partial",
    "C157_cannot_refuted"
   ],
   "note": "C157_no_failure_partial: the additions are right, no clustering fails, all the data and nothing else get one value, the regular clusters are numbered by the first of their data and the ignored data by -1, -2, ..., whatever is added meanwhile. C157_cannot_links_partial: the data known as CANNOT_LINK at the start are separated when the additions let nothing new be inferred as MUST_LINK (in particular when only CANNOT_LINK constraints are added, C154_cannot_links_partial). In general they are not: one MUST_LINK added between the phases of the method can put them in one cluster (C157_cannot_refuted). C157_alone: the program made of single reads is the method. The MUST_LINKs are not always respected even without other threads (C47). Not modelled: clustering while data are added or deleted."
  },
  {
   "property": "C158",
   "status": "proved",
   "theorems": [
    "C158_alone",
    "C158_matrix",
    "C158_symmetric"
   ],
   "note": ""
  },
  {
   "property": "C159",
   "status": "proved",
   "theorems": [
    "C159_alone",
    "C159_constraints",
    "C159_clustering"
   ],
   "note": ""
  },
  {
   "property": "C160",
   "status": "partial",
   "theorems": [
    "C160_alone",
    "C160_copies_partial",
    "C160_additions_partial",
    "C160_loads_partial",
    "C160_one_change_partial",
    "C160_snapshot_refuted",
    "C160_loads_refuted"
   ],
   "note": "C160_copies_partial: the changes are right, no saving fails, and each file lists the data and, for the pairs in order, the constraint they had after some number of the changes, which never goes back. C160_one_change_partial: with at most one change the file is the one saved before it or after it. C160_additions_partial: when constraints are only added, the file can be loaded, and the loaded manager has the same data, what was added and inferred at the start, and only what is added and inferred at the end. C160_loads_partial: when all the constraints that were added at some moment can be respected together, whatever is added and deleted, the file can be loaded, with the constraints that were there at all moments and only ones that were there at some moment. In general the file is not the one of any moment (C160_snapshot_refuted, two additions), and when constraints are also deleted it may hold constraints that contradict each other, so that it cannot be loaded (C160_loads_refuted). C160_alone: the program made of single reads is the method. Not modelled: saving while data are added or deleted (Python may raise RuntimeError)."
  },
  {
   "property": "C161",
   "status": "partial",
   "theorems": [
    "C161_alone",
    "C161_range_partial",
    "C161_feasible_partial",
    "C161_feasible_refuted"
   ],
   "note": "C161_range_partial: the additions are right, no question fails, the minimum is at least 2 and not above the maximum when this is at least 2, and the maximum is between the number of components at the end and the number of data. C161_feasible_partial: when the additions let nothing new be inferred as MUST_LINK (in particular when only CANNOT_LINK constraints are added, C154_cannot_links_partial), the maximum is the number of components and every number in the range is feasible with the constraints at the start. In general the maximum need not be feasible, neither with the constraints at the start nor with those at the end (C161_feasible_refuted): a component can be counted before and after it is merged. C161_alone: the program made of single reads is the method. Not modelled: questions while data are added or deleted (Python may raise RuntimeError)."
  },
  {
   "property": "C162",
   "status": "partial",
   "theorems": [
    "C162_alone",
    "C162_additions_partial",
    "C162_moment_partial",
    "C162_moment_refuted",
    "C162_deletions_refuted"
   ],
   "note": "C162_additions_partial: the additions are right, wrong arguments raise ValueError, each thread is told rightly whether there is a conflict after some number of the additions, and the list has at least the data involved one addition before and only data involved at the end. C162_moment_partial: when nothing new is inferred as MUST_LINK, the answer is the one of the method after some number of the additions. In general the list is not the one of any moment: it may repeat data that are linked meanwhile (C162_moment_refuted). When constraints are also deleted, a conflict may be reported although there is none at any moment, because the method reads the inferred constraint twice (C162_deletions_refuted). C162_alone: the program made of single reads is the method. Not modelled: asking while data are added or deleted."
  },
  {
   "property": "C163",
   "status": "proved",
   "theorems": [
    "C163_alone",
    "C163_told_stays",
    "C163_other_order"
   ],
   "note": ""
  },
  {
   "property": "C164",
   "status": "proved",
   "theorems": [
    "C164_between",
    "C164_no_contradiction"
   ],
   "note": ""
  },
  {
   "property": "C165",
   "status": "proved",
   "theorems": [
    "C165_added_stays",
    "C165_untouched",
    "C165_not_yet_inferred"
   ],
   "note": ""
  },
  {
   "property": "C166",
   "status": "proved",
   "theorems": [
    "C166_alone",
    "C166_moments",
    "C166_not_ready"
   ],
   "note": ""
  },
  {
   "property": "C167",
   "status": "proved",
   "theorems": [
    "C167_inferred_stays",
    "C167_deletions",
    "C167_no_contradiction"
   ],
   "note": ""
  }
 ]
}