# property -> (status, note); properties absent from the table are "proved" when they
# have theorems and none is named _partial or _refuted.
NOTES = {
"C17": ("partial", "Refuted for the code as it is (C17_minimum_refuted: two unconstrained IDs give lo = 2). C17_minimum_partial: exact for complete constraints, and lo = 2 is a true minimum once a CANNOT_LINK is inferred. Missing: minimality of lo > 2 on incomplete constraints, which greedy colouring does not give (C90_not_exact_with_cycles); see C90 for bounds."),
"C18": ("partial", "Refuted for the code as it is (one component gives (2,1); an empty manager raises ValueError). C18_range_exact_partial gives the exact conditions."),
"C22": ("partial", "Everything round-trips except a deleted constraint of an ID with itself, which the load restores (C22_round_trip_refuted); IDs must not hold the two halves of a character as separate code points (see C23)."),
"C23": ("partial", "Lossless for every Unicode text; refuted for Python strings that contain a high surrogate followed by a low surrogate as separate code points."),
"C25": ("partial", "Refuted: the file is truncated before it is written, so a crash can lose both versions. C25_crash_detected_partial: a load after a crash gives the old content, the new one, or raises; never a third manager."),
"C36": ("partial", "Refuted: the labels are renumbered by first appearance but the centroids keep the numbers of the run (C36_centroids_refuted). C36_centroids_partial: they are the means of the returned clusters under some other numbering."),
"C40": ("partial", "Refuted for cluster(), which cuts by size: it stops when the biggest cluster is a single component, even if smaller ones could be split (C40_requested_number_refuted). C40_requested_number_partial: that is the only way to miss the number. Cuts by iteration always reach it (C40_requested_number_by_iteration)."),
"C41": ("partial", "Refuted: list_of_data_IDs is replaced before the parameters are checked, so a cut after a refused call can label IDs that were never clustered (C41_failed_call_refuted). C41_failed_call_partial: the tree and the last result are kept, and cuts answer as before when the IDs are the same."),
"C44": ("partial", "Refuted when all the similarities are equal (for instance two data): the code then gives every data its own cluster whatever the constraints (C44_affinity_must_links_refuted). C44_affinity_must_links_partial: respected in every other case."),
"C45": ("partial", "Refuted, and more: CANNOT_LINK constraints never have any influence on the result (C45_cannot_links_ignored), because the messages of the CANNOT_LINK are only added to the rows of meta points, whose indices no CANNOT_LINK holds."),
"C47": ("partial", "CANNOT_LINK is always respected (C47_cannot_links). MUST_LINK is refuted (C47_must_links_refuted): a data claimed by two core clusters goes to the last one, and a linked data that is near another leader is taken from its component. C47_must_links_partial: a component with no other data within eps is exactly one cluster."),
"C49": ("partial", "Refuted: penalties go by position, so vectors in another order than the manager move the constraints to other data (C49_ids_ignored_refuted, C49_wrong_data_refuted). C49_right_data_partial: right when the vectors come in the order of the manager."),
"C50": ("partial", "Refuted below ten clusters: the repaired assignment is counted with minlength 10 and reported as empty (C50_empty_clusters_refuted). C50_empty_clusters_partial, C50_returns_partial: the repair works for ten clusters and more."),
"C51": ("partial", "Refuted: with equal vectors the farthest pair does not exist and every call fails (C51_identical_vectors_refuted)."),
"C52": ("partial", "C52_frequencies and C52_distribution: the frequencies are the sizes over the number of data, and they sum to exactly 1 in exact arithmetic. Refuted for binary64 (C52_float_sum_refuted: ten singleton clusters sum to less than 1). C52_float_sum_partial: with binary64 numbers and at most 2^52 data each frequency has a relative error of at most 2^-53, and the k frequencies added one after the other give 1 up to k * 2^-52."),
"C80": ("partial", "Refuted: only the number of vectors matters (C80_foreign_vectors_refuted). C80_foreign_vectors_partial describes the result: managed IDs without vector get -1."),
"C54": ("partial", "Refuted with a single component: the range is (2, 1), the suggested number is 1 and is rejected (C54_suggested_number_refuted). C54_suggested_number_partial: accepted with two components and more, by KMeans and hierarchical clustering; spectral clustering and MPCKMeans have other reasons to fail, see C67 and C76."),
"C88": ("partial", "Proved for KMeans, spectral clustering, DBScan and affinity propagation. Hierarchical clustering: proved when sums do not depend on the order of the terms (C88_hierarchical_partial); refuted with rounded sums (C88_hierarchical_rounding_refuted). MPCKMeans: proved for equal vectors (C88_mpckmeans_partial); it also reads vectors of data that are not managed (C80)."),
"C90": ("proved", "C90_not_exact_with_cycles shows the limit: beyond graphs without cycle the minimum need not be exact, even when two clusters would do."),
"C81": ("partial", "Refuted when all the texts belong to one true cluster: the session always ends with ValueError (C81_session_refuted). C81_session_partial: holds in all other cases."),
"C82": ("partial", "Refuted for the three samplers that look at the clusters: some sessions never end (C82_every_sampler_refuted). C82_every_sampler_partial: no annotation is refused, decisions are kept, and the only cause of a long session is an iteration where no undecided pair meets the restriction."),
"C83": ("partial", "Refuted: the decomposition comes after lower-casing and punctuation, and brings capitals and punctuation back, for instance U+2122 becomes TM (C83_no_punctuation_refuted, under the values Python gives for two characters). C83_no_punctuation_partial: every character comes from a character that is not listed punctuation; missing: what lemmas and decompositions bring."),
"C84": ("partial", "Refuted for tfidf: without a word common to two texts, for instance for a single text, it raises ValueError (C84_vectorize_total_refuted, min_df=2). C84_vectorize_total_partial gives the exact conditions."),
"C92": ("partial", "Refuted: a cluster made from members loses them (C92_members_lost_refuted), the clusters above are not told (C92_parent_stale_refuted), a failed call leaves changes (C92_failed_call_refuted), a child given twice is added twice (C92_duplicates_refuted), cycles make to_dict fail for every recursion limit (C92_cycle_refuted). C92_add_children_partial: exact effect on a cluster that agrees with its children. C92_bottom_up_partial: trees changed only at their roots stay consistent after any calls."),
"C93": ("partial", "Holds for the samplers, KMeans, spectral clustering, affinity propagation and DBScan (any set order, from C74); hierarchical clustering reads neither generators nor sets. Refuted for MPCKMeans, whose seed is never read (C93_mpckmeans_refuted); C93_mpckmeans_numpy_partial: it depends on the state of np.random only."),
"C115": ("partial", "Refuted for every weight at once (C115_any_weight_refuted): the penalty of a CANNOT_LINK is proportional to the largest distance minus the distance of the pair, so it is 0 for the farthest pair, whatever the weight. C115_weight_partial: in exact arithmetic, beyond an explicit bound on the weight, an assignment of the points only breaks constraints of pairs at the largest distance (CANNOT_LINK) or at distance 0 (MUST_LINK), or of points that no cluster could take. Missing: floating point numbers; the repair of empty clusters, which ignores constraints."),
"C116": ("partial", "Refuted for numbers (C116_text_number_refuted: a text in place of the number of clusters raises TypeError in all four classes, and floats pass) and for data IDs (C116_half_added_refuted: adding an ID that is no string raises TypeError but leaves it among the managed IDs). The _partial theorems say for every value of every argument which exception the checks raise, that the state keeps its results, and that documented types give the typed call. Missing: what a call does with a float or a dictionary of another kind once it passed the checks."),
"C102": ("partial", "Refuted for every returning call: a managed ID that ends with NUL gets -1 (C102_nul_refuted), because numpy strips NUL characters at the end of the strings of an array. C102_plain_partial: every other ID with a vector gets a cluster."),
"C94": ("partial", "Refuted: a seeded call of KMeans or of a sampler puts the generator of the process in a state that depends on the seed only (C94_kmeans_resets_refuted, C94_sampler_resets_refuted), and an unseeded call takes a seed from the operating system (C94_unseeded_refuted). C94_numpy_untouched_partial: np.random is left alone, and so are both generators by failing calls."),
"C111": ("partial", "Refuted without any constraint: a core point can be ignored (C111_dense_ignored_refuted), since line 525 compares the size of what remains of a local cluster with eps, and two core points within eps of each other can be in different clusters (C111_dense_neighbours_split_refuted). C111_dense_kept_partial: when every positive number is at least eps, core points and the data within eps of them are in clusters; missing: in the same one."),
"C112": ("partial", "C112_merge_order_partial: holds for single and complete linkage, with any constraints. Refuted for average, which compares centroids (C112_average_refuted, three points of the plane without constraints), and for ward, which divides the sum of all the distances in the union by the product of the sizes (C112_ward_refuted, four linked data)."),
"C121": ("partial", "Refuted: the remaining local clusters are kept when their number of data is at least eps (line 525), so eps in millimetres ignores data that eps in metres clusters (C121_unit_refuted). C121_unit_partial: the result is the same when eps compares with the numbers up to that of the data as before."),
"C118": ("partial", "Refuted: the texts that share no phrase with another text all get the same vector, whatever they say (C118_tell_apart_refuted), since phrases of a single text are no columns. C118_tell_apart_partial: what the vector tells lies between the counts of the common phrases, which determine it, and the set of the common phrases, which it determines."),
"C123": ("partial", "Refuted for the clusters returned by cluster, which cuts by size, with each of the four linkages (C123_hierarchical_twins_refuted: four identical data are split in two while two different data stay together). C123_hierarchical_twins_partial: holds for the cut by iteration with each linkage; average asks that the mean of copies of a vector is this vector, ward that a sum or a part of distances is zero only when they all are."),
"C124": ("partial", "Refuted for data that have fewer than min_samples neighbours (C124_dbscan_twins_refuted, without any constraint). C124_dbscan_twins_partial: holds for data that have enough neighbours."),
"C132": ("partial", "Refuted without any constraint (C132_larger_eps_refuted): a larger eps that brings no new neighbours can ignore a data, since line 525 compares the size of what remains of a local cluster with eps. C132_monotone_partial: holds when the larger eps is at most 1. C132_kept_exactly: the data that are kept then, exactly. Missing: eps above 1."),
"C135": ("partial", "Refuted: after an interrupted add_constraint the same call returns True and does nothing, and contradictory constraints are then accepted (C135_half_done_refuted); an interrupted delete_data_ID leaves IDs in other rows, so other calls raise KeyError and the saved file cannot be loaded (C135_deletion_refuted). C135_pair_repaired_partial, C135_deletion_repaired_partial, C135_addition_repaired_partial: the calls that repair an interrupted change. C135_saved, C135_addition_answers: what interrupted managers save and answer. C135_same_calls: the methods with their writes listed end as the methods of the other theorems."),
"C137": ("partial", "Refuted without any constraint (C137_narrowest_refuted: four points on a line) and, for the weaker form, with the default cut by size (C137_default_cut_refuted). C137_no_narrower_merge_partial: after a cut by iteration, no two clusters could be joined into one narrower than the widest pair joined so far. Missing: how far from the narrowest clustering the result can be."),
"C139": ("partial", "Refuted for the rounded formula of scikit-learn (C139_symmetric_refuted: 1.3 and 2.3 are nearer in one direction than in the other; C139_merge_order_refuted: 0.3, 1.3 and 2.3 with single linkage). C139_later_merges_partial: what remains of C112 for any matrix."),
"C140": ("partial", "Refuted in general (C140_lost_refuted, C140_conflict_refuted). C140_apart_partial: true for calls that concern different data, in the sense of apart; C140_parts_partial: true for threads with any number of calls that each stay in their own part of the data; C140_alone: the programs made of single reads and writes are the methods. Not modelled: threads that add or delete data IDs, delete constraints or read the components."),
"C141": ("partial", "C141_single_partial: true for single linkage cut by iteration, when no distance within the clusters equals one across them and all distances are below the infinite one. Refuted with equal distances (C141_tie_refuted), and, for every linkage, with the cut by size that cluster() makes, even when all distances differ (C141_default_refuted). By iteration it is refuted for complete, average and ward linkage (C141_by_iteration_refuted)."),
"C142": ("partial", "C142_separated_partial: single and complete linkage cut by iteration find the true clusters when every undecided pair within a true cluster is nearer than every undecided pair across. C142_dbscan: DBScan finds them when eps separates them, each has two data or more and at least min_samples. Refuted for all four linkages with the cut by size that cluster() makes (C142_default_refuted), for average and ward linkage even by iteration (C142_average_ward_refuted, on four points of the plane, distances rounded to hundredths), and for k-means with bad first centres whatever the number of rounds (C142_kmeans_refuted)."),
"C143": ("partial", "C143_every_round_partial: true when the clusters after every round meet the constraints of the second manager (the rounds are seen through calls with a smaller max_iteration); the attributes agree too. Refuted when only the clusters found in the end do, for a MUST_LINK and for a CANNOT_LINK (C143_end_refuted)."),
"C145": ("partial", "C145_additions_partial: true for a thread that adds data and constraints, for questions about inferred constraints and about added constraints of data managed from the start; from one question to the next the number of changes can go back by one (C145_order_refuted shows that it does). Refuted for deletions of constraints (C145_deletion_refuted) and of data (C145_deleted_ID_refuted, a KeyError), and for the added constraints of a data that is being added (C145_new_ID_refuted, a KeyError). C145_alone: the programs made of single reads and writes are the methods. Questions about the components are C152. Not modelled: questions about the list of data."),
"C152": ("partial", "C152_listing_partial: the additions and the checks are right; a list of components covers the data with components of the data after some numbers of the additions, which are nested or apart, but it need not be a partition (C152_partition_refuted) nor the components after some number of the additions (C152_moment_refuted): while a and b are linked, [[a], [a, b]] can be got. From one question to the next the number of additions can go back by one. C152_alone: the programs made of single reads are the methods. Not modelled: listing while data are added or deleted (Python may raise RuntimeError)."),
"C154": ("partial", "C154_no_failure_partial: the additions are right, no clustering fails, all the data and nothing else get a cluster, whatever is added meanwhile. C154_respects_partial: the constraints known at the start are respected when the additions let nothing new be inferred as MUST_LINK, in particular (C154_cannot_links_partial) when only CANNOT_LINK constraints are added. In general they are not: one MUST_LINK added meanwhile can put two data with a CANNOT_LINK known from the start in one cluster (C154_cannot_refuted), or two data with a MUST_LINK known from the start in two clusters (C154_must_refuted). C154_alone: the program made of single reads is the method. Not modelled: clustering while data are added or deleted."),
"C157": ("partial", "C157_no_failure_partial: the additions are right, no clustering fails, all the data and nothing else get one value, the regular clusters are numbered by the first of their data and the ignored data by -1, -2, ..., whatever is added meanwhile. C157_cannot_links_partial: the data known as CANNOT_LINK at the start are separated when the additions let nothing new be inferred as MUST_LINK (in particular when only CANNOT_LINK constraints are added, C154_cannot_links_partial). In general they are not: one MUST_LINK added between the phases of the method can put them in one cluster (C157_cannot_refuted). C157_alone: the program made of single reads is the method. The MUST_LINKs are not always respected even without other threads (C47). Not modelled: clustering while data are added or deleted."),
"C160": ("partial", "C160_copies_partial: the changes are right, no saving fails, and each file lists the data and, for the pairs in order, the constraint they had after some number of the changes, which never goes back. C160_one_change_partial: with at most one change the file is the one saved before it or after it. C160_additions_partial: when constraints are only added, the file can be loaded, and the loaded manager has the same data, what was added and inferred at the start, and only what is added and inferred at the end. C160_loads_partial: when all the constraints that were added at some moment can be respected together, whatever is added and deleted, the file can be loaded, with the constraints that were there at all moments and only ones that were there at some moment. In general the file is not the one of any moment (C160_snapshot_refuted, two additions), and when constraints are also deleted it may hold constraints that contradict each other, so that it cannot be loaded (C160_loads_refuted). C160_alone: the program made of single reads is the method. Not modelled: saving while data are added or deleted (Python may raise RuntimeError)."),
"C161": ("partial", "C161_range_partial: the additions are right, no question fails, the minimum is at least 2 and not above the maximum when this is at least 2, and the maximum is between the number of components at the end and the number of data. C161_feasible_partial: when the additions let nothing new be inferred as MUST_LINK (in particular when only CANNOT_LINK constraints are added, C154_cannot_links_partial), the maximum is the number of components and every number in the range is feasible with the constraints at the start. In general the maximum need not be feasible, neither with the constraints at the start nor with those at the end (C161_feasible_refuted): a component can be counted before and after it is merged. C161_alone: the program made of single reads is the method. Not modelled: questions while data are added or deleted (Python may raise RuntimeError)."),
"C162": ("partial", "C162_additions_partial: the additions are right, wrong arguments raise ValueError, each thread is told rightly whether there is a conflict after some number of the additions, and the list has at least the data involved one addition before and only data involved at the end. C162_moment_partial: when nothing new is inferred as MUST_LINK, the answer is the one of the method after some number of the additions. In general the list is not the one of any moment: it may repeat data that are linked meanwhile (C162_moment_refuted). When constraints are also deleted, a conflict may be reported although there is none at any moment, because the method reads the inferred constraint twice (C162_deletions_refuted). C162_alone: the program made of single reads is the method. Not modelled: asking while data are added or deleted."),
}
