{"id": "C01", "title": "Inferred constraints are exactly the transitive closure of the added ones", "statement": "After any history of API calls, get_inferred_constraint(a,b) on two managed IDs returns 'MUST_LINK' exactly when a and b are joined by a chain of currently added MUST_LINK constraints, 'CANNOT_LINK' exactly when some ID joined to a and some ID joined to b carry a currently added CANNOT_LINK, and None exactly otherwise.", "quantifier": "every initial list of IDs, every finite history of API calls (successful or raising), every pair of managed IDs", "why_tests_cant": "The transitivity structure is maintained incrementally by additions and rebuilt by deletions; agreement with the closure has to hold after every interleaving of them.", "anchors": ["src/cognitivefactory/interactive_clustering/constraints/binary.py:BinaryConstraintsManager.get_inferred_constraint", "src/cognitivefactory/interactive_clustering/constraints/binary.py:BinaryConstraintsManager._add_constraint_transitivity", "src/cognitivefactory/interactive_clustering/constraints/binary.py:BinaryConstraintsManager._generate_constraints_transitivity"]}
{"id": "C02", "title": "Inference is sound and complete for entailment", "statement": "get_inferred_constraint(a,b) returns 'MUST_LINK' iff every labelling of the data that satisfies all added constraints gives a and b the same label, 'CANNOT_LINK' iff every such labelling gives them different labels, and None iff satisfying labellings of both kinds exist.", "quantifier": "every reachable manager, every pair of managed IDs, every labelling function", "why_tests_cant": "Quantifies over all labellings of the data.", "anchors": ["src/cognitivefactory/interactive_clustering/constraints/binary.py:BinaryConstraintsManager.get_inferred_constraint"]}
{"id": "C03", "title": "The set of added constraints is always satisfiable", "statement": "In every reachable manager some labelling of the data satisfies all added constraints; in particular no pair is inferred both MUST_LINK and CANNOT_LINK and get_inferred_constraint(x,x) is always 'MUST_LINK'.", "quantifier": "every initial list of IDs and every history of API calls", "why_tests_cant": "A contradiction could be created by any interleaving of additions and deletions.", "anchors": ["src/cognitivefactory/interactive_clustering/constraints/binary.py:BinaryConstraintsManager.add_constraint", "src/cognitivefactory/interactive_clustering/constraints/binary.py:BinaryConstraintsManager.delete_constraint", "src/cognitivefactory/interactive_clustering/constraints/binary.py:BinaryConstraintsManager.delete_data_ID"]}
{"id": "C04", "title": "add_constraint refuses exactly the contradictory constraints", "statement": "On managed IDs and an allowed type, add_constraint raises ValueError iff no labelling satisfies the added constraints together with the new one, and returns True otherwise; on an unmanaged ID or another type it always raises ValueError.", "quantifier": "every reachable manager, every pair of IDs, every constraint type and value", "why_tests_cant": "Exactness against satisfiability ranges over all labellings and all states.", "anchors": ["src/cognitivefactory/interactive_clustering/constraints/binary.py:BinaryConstraintsManager.add_constraint"]}
{"id": "C05", "title": "A call that raises leaves the manager unchanged", "statement": "Whenever a method of the manager raises, the answers of every query (managed IDs, added, inferred, components, completude) are the same as before the call.", "quantifier": "every reachable manager and every API call with every argument", "why_tests_cant": "Partial updates before an exception are visible only in particular states.", "anchors": ["src/cognitivefactory/interactive_clustering/constraints/binary.py:BinaryConstraintsManager.add_data_ID", "src/cognitivefactory/interactive_clustering/constraints/binary.py:BinaryConstraintsManager.delete_data_ID", "src/cognitivefactory/interactive_clustering/constraints/binary.py:BinaryConstraintsManager.add_constraint", "src/cognitivefactory/interactive_clustering/constraints/binary.py:BinaryConstraintsManager.delete_constraint"]}
{"id": "C06", "title": "Only documented ValueErrors are raised", "statement": "No sequence of API calls makes add_data_ID, delete_data_ID, add_constraint, delete_constraint, the getters, get_connected_components, check_completude_of_constraints or the conflict listing raise anything but ValueError, and ValueError is raised exactly in the documented cases (in particular never KeyError from the internal dictionaries).", "quantifier": "every history of API calls and every arguments", "why_tests_cant": "The two nested dictionaries must stay total and aligned after every history.", "anchors": ["src/cognitivefactory/interactive_clustering/constraints/binary.py:BinaryConstraintsManager.add_data_ID", "src/cognitivefactory/interactive_clustering/constraints/binary.py:BinaryConstraintsManager.delete_data_ID", "src/cognitivefactory/interactive_clustering/constraints/binary.py:BinaryConstraintsManager.add_constraint", "src/cognitivefactory/interactive_clustering/constraints/binary.py:BinaryConstraintsManager.delete_constraint", "src/cognitivefactory/interactive_clustering/constraints/binary.py:BinaryConstraintsManager.get_added_constraint", "src/cognitivefactory/interactive_clustering/constraints/binary.py:BinaryConstraintsManager.get_inferred_constraint", "src/cognitivefactory/interactive_clustering/constraints/binary.py:BinaryConstraintsManager.get_connected_components", "src/cognitivefactory/interactive_clustering/constraints/binary.py:BinaryConstraintsManager.check_completude_of_constraints", "src/cognitivefactory/interactive_clustering/constraints/binary.py:BinaryConstraintsManager.get_list_of_involved_data_IDs_in_a_constraint_conflict"]}
{"id": "C07", "title": "Getters do not depend on the order of their two arguments", "statement": "get_added_constraint(a,b)=get_added_constraint(b,a) and get_inferred_constraint(a,b)=get_inferred_constraint(b,a), including raised errors.", "quantifier": "every reachable manager, every pair of strings", "why_tests_cant": "Constraints are stored in one orientation chosen by string comparison; symmetry must survive every history.", "anchors": ["src/cognitivefactory/interactive_clustering/constraints/binary.py:BinaryConstraintsManager.get_added_constraint", "src/cognitivefactory/interactive_clustering/constraints/binary.py:BinaryConstraintsManager.get_inferred_constraint"]}
{"id": "C08", "title": "The added constraints behave like a map over unordered pairs", "statement": "After any history, the manager's managed IDs and get_added_constraint answers are those of a simple abstract map: add_constraint writes the pair only when it is absent, delete_constraint erases it, add_data_ID creates only the self constraint, delete_data_ID erases every pair of that ID, and every other pair is untouched.", "quantifier": "every history of API calls and every pair of IDs", "why_tests_cant": "Refinement of every operation sequence, including the frame condition on all other pairs.", "anchors": ["src/cognitivefactory/interactive_clustering/constraints/binary.py:BinaryConstraintsManager.add_data_ID", "src/cognitivefactory/interactive_clustering/constraints/binary.py:BinaryConstraintsManager.delete_data_ID", "src/cognitivefactory/interactive_clustering/constraints/binary.py:BinaryConstraintsManager.add_constraint", "src/cognitivefactory/interactive_clustering/constraints/binary.py:BinaryConstraintsManager.delete_constraint", "src/cognitivefactory/interactive_clustering/constraints/binary.py:BinaryConstraintsManager.get_added_constraint"]}
{"id": "C09", "title": "Managed IDs behave like an insertion-ordered set", "statement": "get_list_of_managed_data_IDs lists each managed ID once, in first-insertion order; an ID is in it iff it was given at construction or by a later add_data_ID and not deleted since; duplicates given to the constructor are ignored.", "quantifier": "every constructor list (duplicates included) and every history", "why_tests_cant": "Must hold for every history.", "anchors": ["src/cognitivefactory/interactive_clustering/constraints/binary.py:BinaryConstraintsManager.__init__", "src/cognitivefactory/interactive_clustering/constraints/binary.py:BinaryConstraintsManager.add_data_ID", "src/cognitivefactory/interactive_clustering/constraints/binary.py:BinaryConstraintsManager.delete_data_ID", "src/cognitivefactory/interactive_clustering/constraints/binary.py:BinaryConstraintsManager.get_list_of_managed_data_IDs"]}
{"id": "C10", "title": "Answers depend only on the current IDs and constraints, not on the history", "statement": "Two managers that agree on managed IDs and on added constraints agree on every inferred constraint, on completude, on the connected components as sets of IDs and on conflict membership, whatever histories produced them.", "quantifier": "every pair of histories", "why_tests_cant": "Quantifies over pairs of arbitrary histories; incremental and rebuilt structures must coincide.", "anchors": ["src/cognitivefactory/interactive_clustering/constraints/binary.py:BinaryConstraintsManager._add_constraint_transitivity", "src/cognitivefactory/interactive_clustering/constraints/binary.py:BinaryConstraintsManager._generate_constraints_transitivity"]}
{"id": "C11", "title": "Retracting a constraint forgets it completely", "statement": "After delete_constraint(a,b) the answers are those of a manager on which the constraint between a and b was never added and all other added constraints were; in particular the pair can be annotated again with the opposite type when the remaining constraints allow it.", "quantifier": "every reachable manager and every pair of managed IDs", "why_tests_cant": "Removal of consequences must be exact for every graph of remaining constraints.", "anchors": ["src/cognitivefactory/interactive_clustering/constraints/binary.py:BinaryConstraintsManager.delete_constraint"]}
{"id": "C12", "title": "Deleting a data ID removes it and everything inferred through it", "statement": "After delete_data_ID(x), every query is that of a manager that never managed x and holds the constraints not involving x; managing x again starts with no constraint but its self MUST_LINK.", "quantifier": "every reachable manager and managed ID", "why_tests_cant": "All chains going through x must disappear, in every graph.", "anchors": ["src/cognitivefactory/interactive_clustering/constraints/binary.py:BinaryConstraintsManager.delete_data_ID", "src/cognitivefactory/interactive_clustering/constraints/binary.py:BinaryConstraintsManager.add_data_ID"]}
{"id": "C13", "title": "Connected components form a partition by MUST_LINK", "statement": "get_connected_components returns non-empty, duplicate-free, pairwise disjoint lists whose union is the managed IDs, and two managed IDs are in a common list iff get_inferred_constraint says 'MUST_LINK'.", "quantifier": "every reachable manager", "why_tests_cant": "Lists are deduplicated by ordered-list equality, so the order inside each component matters in every state.", "anchors": ["src/cognitivefactory/interactive_clustering/constraints/binary.py:BinaryConstraintsManager.get_connected_components"]}
{"id": "C14", "title": "Completude is exactly 'every pair is known'", "statement": "check_completude_of_constraints returns True iff get_inferred_constraint is not None for every pair of managed IDs.", "quantifier": "every reachable manager", "why_tests_cant": "Computed by comparing lengths; correct only if lists are duplicate free and disjoint in every state.", "anchors": ["src/cognitivefactory/interactive_clustering/constraints/binary.py:BinaryConstraintsManager.check_completude_of_constraints"]}
{"id": "C15", "title": "The maximum number of clusters is exact", "statement": "The second component of get_min_and_max_number_of_clusters is the largest number of non-empty clusters of a clustering that respects all constraints.", "quantifier": "every reachable non-empty manager, every clustering of its IDs, every outcome of the random orderings", "why_tests_cant": "Quantifies over all clusterings.", "anchors": ["src/cognitivefactory/interactive_clustering/constraints/binary.py:BinaryConstraintsManager.get_min_and_max_number_of_clusters"]}
{"id": "C16", "title": "Every cluster number in the returned range is feasible", "statement": "When there are at least two components, get_min_and_max_number_of_clusters returns (lo,hi) with 2<=lo<=hi and for every k with lo<=k<=hi there is a clustering into exactly k non-empty clusters that respects all added constraints.", "quantifier": "every reachable manager with at least two components, every outcome of the node orderings used for colouring, every k", "why_tests_cant": "The estimate mixes node names and node indices and drops weakly linked components; feasibility must hold for every graph and ordering.", "anchors": ["src/cognitivefactory/interactive_clustering/constraints/binary.py:BinaryConstraintsManager.get_min_and_max_number_of_clusters"]}
{"id": "C17", "title": "The returned minimum is a true minimum", "statement": "No clustering with fewer than lo non-empty clusters respects all constraints.", "quantifier": "every reachable manager, every clustering", "why_tests_cant": "Ranges over all clusterings and all graphs.", "anchors": ["src/cognitivefactory/interactive_clustering/constraints/binary.py:BinaryConstraintsManager.get_min_and_max_number_of_clusters"]}
{"id": "C18", "title": "The returned range is never empty and never fails", "statement": "On every reachable manager with at least one ID get_min_and_max_number_of_clusters returns (lo,hi) without error and lo<=hi.", "quantifier": "every reachable manager", "why_tests_cant": "Boundary states (no ID, one component) must be covered.", "anchors": ["src/cognitivefactory/interactive_clustering/constraints/binary.py:BinaryConstraintsManager.get_min_and_max_number_of_clusters"]}
{"id": "C19", "title": "Conflict listing is exact", "statement": "get_list_of_involved_data_IDs_in_a_constraint_conflict(a,b,t) returns None iff add_constraint(a,b,t) would be accepted; otherwise it returns, without duplicates, exactly the IDs MUST_LINKed with a or with b.", "quantifier": "every reachable manager, every pair of managed IDs and allowed type", "why_tests_cant": "Must agree with the acceptance decision in every state.", "anchors": ["src/cognitivefactory/interactive_clustering/constraints/binary.py:BinaryConstraintsManager.get_list_of_involved_data_IDs_in_a_constraint_conflict", "src/cognitivefactory/interactive_clustering/constraints/binary.py:BinaryConstraintsManager.add_constraint"]}
{"id": "C20", "title": "Adding a known constraint changes no inference", "statement": "If get_inferred_constraint(a,b) is already t, add_constraint(a,b,t) succeeds and changes no inferred constraint, component set or completude; repeating an accepted add_constraint changes nothing at all.", "quantifier": "every reachable manager", "why_tests_cant": "Idempotence over all states.", "anchors": ["src/cognitivefactory/interactive_clustering/constraints/binary.py:BinaryConstraintsManager.add_constraint"]}
{"id": "C21", "title": "Acceptance of a batch of constraints does not depend on its order", "statement": "If add_constraint accepts every constraint of a list one after the other, it accepts every one of them in any other order, and the resulting inferred constraints are the same.", "quantifier": "every reachable manager, every list of constraints, every permutation", "why_tests_cant": "Quantifies over permutations.", "anchors": ["src/cognitivefactory/interactive_clustering/constraints/binary.py:BinaryConstraintsManager.add_constraint"]}
{"id": "C22", "title": "JSON round trip preserves the manager", "statement": "load_constraints_manager_from_json on the file written by to_json succeeds and yields a manager with the same managed IDs in the same order, the same added constraints and the same inferred constraints.", "quantifier": "every reachable manager", "why_tests_cant": "The serialised constraints are replayed in another order than they were added.", "anchors": ["src/cognitivefactory/interactive_clustering/constraints/binary.py:BinaryConstraintsManager.to_json", "src/cognitivefactory/interactive_clustering/constraints/binary.py:load_constraints_manager_from_json"]}
{"id": "C23", "title": "The JSON text encodes every data ID losslessly", "statement": "Parsing the JSON text produced for a manager gives back exactly the list of IDs and constraints, whatever characters the IDs contain.", "quantifier": "every list of Unicode strings used as IDs", "why_tests_cant": "Escaping must be injective over all strings.", "anchors": ["src/cognitivefactory/interactive_clustering/constraints/binary.py:BinaryConstraintsManager.to_json", "src/cognitivefactory/interactive_clustering/constraints/binary.py:load_constraints_manager_from_json"]}
{"id": "C24", "title": "A torn file is never loaded as another manager", "statement": "If the process stops while to_json writes, load_constraints_manager_from_json on the truncated file raises; it never returns a manager that lacks some constraints.", "quantifier": "every reachable manager and every crash point during the write", "why_tests_cant": "Quantifies over all prefixes of the written text.", "anchors": ["src/cognitivefactory/interactive_clustering/constraints/binary.py:BinaryConstraintsManager.to_json", "src/cognitivefactory/interactive_clustering/constraints/binary.py:load_constraints_manager_from_json"]}
{"id": "C25", "title": "to_json is crash safe", "statement": "If the process stops during to_json over an existing file, a later load gives either the previously saved manager or the new one.", "quantifier": "every reachable manager, every previously saved manager, every crash point", "why_tests_cant": "Quantifies over crash points.", "anchors": ["src/cognitivefactory/interactive_clustering/constraints/binary.py:BinaryConstraintsManager.to_json"]}
{"id": "C26", "title": "A loaded manager is always coherent", "statement": "Whatever JSON document of the expected shape is loaded, load_constraints_manager_from_json either raises or returns a manager whose added constraints are satisfiable and whose inferences are exact.", "quantifier": "every list of IDs and every list of constraint records, including contradictory ones", "why_tests_cant": "Hand-edited files can contain anything.", "anchors": ["src/cognitivefactory/interactive_clustering/constraints/binary.py:load_constraints_manager_from_json"]}
{"id": "C27", "title": "Sampled pairs respect the requested restrictions", "statement": "Every pair returned by sample is an ordered pair of distinct managed IDs; with the default options it has no added and no inferred constraint; with 'same_cluster' both IDs have the same cluster, with 'different_clusters' different ones; no pair is returned twice.", "quantifier": "every reachable manager, clustering result, vectors, seed and number to select", "why_tests_cant": "Holds for all random draws.", "anchors": ["src/cognitivefactory/interactive_clustering/sampling/clusters_based.py:ClustersBasedConstraintsSampling.sample"]}
{"id": "C28", "title": "Sampling misses no eligible pair", "statement": "sample returns exactly min(nb_to_select, number of eligible pairs) pairs, where a pair of managed IDs is eligible when it meets the restrictions.", "quantifier": "every manager, options and nb_to_select", "why_tests_cant": "Counts over all pairs.", "anchors": ["src/cognitivefactory/interactive_clustering/sampling/clusters_based.py:ClustersBasedConstraintsSampling.sample"]}
{"id": "C29", "title": "Distance based sampling is optimal", "statement": "With 'closest_neighbors' (resp. 'farthest_neighbors') the pairs come sorted by distance, and no eligible pair left out is strictly closer (resp. farther) than a returned one; ties follow the enumeration order.", "quantifier": "every manager and every distance function", "why_tests_cant": "Optimality over all eligible pairs.", "anchors": ["src/cognitivefactory/interactive_clustering/sampling/clusters_based.py:ClustersBasedConstraintsSampling.sample"]}
{"id": "C30", "title": "Sampling is exhausted exactly when the constraints are complete", "statement": "With the default options and no cluster restriction, sample(nb>=1) returns [] iff check_completude_of_constraints() is True.", "quantifier": "every reachable manager, every seed", "why_tests_cant": "Links two components in every state.", "anchors": ["src/cognitivefactory/interactive_clustering/sampling/clusters_based.py:ClustersBasedConstraintsSampling.sample", "src/cognitivefactory/interactive_clustering/constraints/binary.py:BinaryConstraintsManager.check_completude_of_constraints"]}
{"id": "C31", "title": "The annotation loop terminates with the ground truth", "statement": "If pairs are sampled (nb>=1, default options) and annotated according to a fixed ground-truth clustering until sample returns [], then no annotation is ever refused, the loop ends after at most n(n-1)/2 rounds, the constraints are then complete and the connected components are exactly the ground-truth clusters.", "quantifier": "every list of IDs, every ground-truth clustering, every sampler randomness", "why_tests_cant": "A liveness property over whole histories.", "anchors": ["src/cognitivefactory/interactive_clustering/sampling/clusters_based.py:ClustersBasedConstraintsSampling.sample", "src/cognitivefactory/interactive_clustering/constraints/binary.py:BinaryConstraintsManager.add_constraint", "src/cognitivefactory/interactive_clustering/constraints/binary.py:BinaryConstraintsManager.get_connected_components", "src/cognitivefactory/interactive_clustering/constraints/binary.py:BinaryConstraintsManager.check_completude_of_constraints"]}
{"id": "C32", "title": "Sampling has no effect on the manager and no memory", "statement": "sample does not change the manager, and its result depends only on its arguments, the seed and the constructor options, not on previous calls.", "quantifier": "every history of calls on one sampler object", "why_tests_cant": "History property: stored attributes could leak between calls.", "anchors": ["src/cognitivefactory/interactive_clustering/sampling/clusters_based.py:ClustersBasedConstraintsSampling.sample"]}
{"id": "C33", "title": "Cluster renaming is canonical", "statement": "rename_clusters_by_order keeps the keys and the partition, numbers clusters 0..k-1 in order of first appearance over sorted IDs, is idempotent, and gives equal dictionaries on two clusterings iff they induce the same partition of the same IDs.", "quantifier": "every dictionary of cluster labels", "why_tests_cant": "Canonicity quantifies over pairs of dictionaries.", "anchors": ["src/cognitivefactory/interactive_clustering/clustering/abstract.py:rename_clusters_by_order"]}
{"id": "C34", "title": "KMeans respects every constraint", "statement": "KMeans (COP) returns a clustering in which IDs inferred MUST_LINK share a cluster and IDs inferred CANNOT_LINK do not.", "quantifier": "every reachable manager, vectors, distances, seed, nb_clusters>=2, max_iteration, tolerance", "why_tests_cant": "Greedy assignment with creation of new clusters must be right for every order, every distances.", "anchors": ["src/cognitivefactory/interactive_clustering/clustering/kmeans.py:KMeansConstrainedClustering._clustering_kmeans_model_COP"]}
{"id": "C35", "title": "KMeans returns a total, canonical clustering and never fails internally", "statement": "For a non-empty manager whose IDs all have vectors, cluster() raises nothing, terminates after at most max_iteration rounds, assigns exactly the managed IDs, and numbers clusters 0..k-1.", "quantifier": "every reachable non-empty manager, vectors, seeds, parameters accepted by the constructor", "why_tests_cant": "KeyErrors in the convergence test depend on which clusters vanish between rounds.", "anchors": ["src/cognitivefactory/interactive_clustering/clustering/kmeans.py:KMeansConstrainedClustering.cluster", "src/cognitivefactory/interactive_clustering/clustering/kmeans.py:KMeansConstrainedClustering._clustering_kmeans_model_COP"]}
{"id": "C36", "title": "KMeans centroids describe the returned clusters", "statement": "After cluster(), the model's centroids attribute maps each returned cluster number to the mean of its members.", "quantifier": "every run", "why_tests_cant": "Depends on renaming permutation of each run.", "anchors": ["src/cognitivefactory/interactive_clustering/clustering/kmeans.py:KMeansConstrainedClustering._clustering_kmeans_model_COP", "src/cognitivefactory/interactive_clustering/clustering/kmeans.py:KMeansConstrainedClustering.compute_centroids"]}
{"id": "C37", "title": "Hierarchical clustering respects every constraint", "statement": "HierarchicalConstrainedClustering.cluster returns a clustering in which IDs inferred MUST_LINK share a cluster and IDs inferred CANNOT_LINK do not, for every linkage.", "quantifier": "every reachable manager with at least one ID, vectors, distances, linkage, nb_clusters>=2", "why_tests_cant": "Incompatible clusters are merged at the root; the cut must always separate them.", "anchors": ["src/cognitivefactory/interactive_clustering/clustering/hierarchical.py:HierarchicalConstrainedClustering.cluster", "src/cognitivefactory/interactive_clustering/clustering/hierarchical.py:HierarchicalConstrainedClustering.compute_predicted_clusters"]}
{"id": "C38", "title": "The dendrogram is well formed", "statement": "The final tree has the connected components as leaves, every inner node's members are the concatenation of its children's, the root holds every managed ID exactly once, and every node but a root of incompatible clusters contains no CANNOT_LINK pair.", "quantifier": "every run", "why_tests_cant": "Invariant of the merge loop.", "anchors": ["src/cognitivefactory/interactive_clustering/clustering/hierarchical.py:HierarchicalConstrainedClustering.cluster", "src/cognitivefactory/interactive_clustering/clustering/hierarchical.py:Cluster"]}
{"id": "C39", "title": "Cuts of the dendrogram are nested", "statement": "compute_predicted_clusters(k) for k<=k' gives clusterings of which the second refines the first, for a fixed criterion.", "quantifier": "every tree, every k<=k', both criteria", "why_tests_cant": "Relates all pairs of cuts.", "anchors": ["src/cognitivefactory/interactive_clustering/clustering/hierarchical.py:HierarchicalConstrainedClustering.compute_predicted_clusters"]}
{"id": "C40", "title": "The requested number of clusters is reached when possible", "statement": "cluster(nb_clusters=k) returns at least min(k, number of components) clusters.", "quantifier": "every run and both exploration criteria", "why_tests_cant": "Depends on tree shape for all inputs.", "anchors": ["src/cognitivefactory/interactive_clustering/clustering/hierarchical.py:HierarchicalConstrainedClustering.compute_predicted_clusters"]}
{"id": "C41", "title": "A failed cluster() call does not corrupt the previous result", "statement": "If cluster() raises because of its parameters, compute_predicted_clusters still answers from the last successful clustering.", "quantifier": "every history of calls on one clustering object", "why_tests_cant": "History property.", "anchors": ["src/cognitivefactory/interactive_clustering/clustering/hierarchical.py:HierarchicalConstrainedClustering.cluster", "src/cognitivefactory/interactive_clustering/clustering/hierarchical.py:HierarchicalConstrainedClustering.compute_predicted_clusters"]}
{"id": "C42", "title": "Spectral clustering feeds the constraints to the affinity matrix", "statement": "The matrix given to the spectral solver has 1.0 at every MUST_LINK pair, 0.0 at every CANNOT_LINK pair, the kernel value elsewhere, and is symmetric when the kernel is.", "quantifier": "every reachable manager, every kernel matrix, every pair", "why_tests_cant": "All index pairs and all managers.", "anchors": ["src/cognitivefactory/interactive_clustering/clustering/spectral.py:SpectralConstrainedClustering.clustering_spectral_model_SPEC"]}
{"id": "C43", "title": "Spectral results are total and canonical", "statement": "Whatever labels the solver returns, the result assigns exactly the managed IDs, with numbers 0..k-1 in order of first appearance, and groups IDs exactly as the solver did.", "quantifier": "every solver output", "why_tests_cant": "All solver outputs.", "anchors": ["src/cognitivefactory/interactive_clustering/clustering/spectral.py:SpectralConstrainedClustering.clustering_spectral_model_SPEC"]}
{"id": "C44", "title": "Affinity propagation respects MUST_LINK with absolute_must_links", "statement": "With absolute_must_links=True IDs inferred MUST_LINK always share a cluster.", "quantifier": "every reachable manager, similarities, message passing outcome", "why_tests_cant": "Special cases of the algorithm depend on the data.", "anchors": ["src/cognitivefactory/interactive_clustering/clustering/affinity_propagation.py:_affinity_propagation_constrained", "src/cognitivefactory/interactive_clustering/clustering/affinity_propagation.py:AffinityPropagationConstrainedClustering.cluster"]}
{"id": "C45", "title": "Affinity propagation respects CANNOT_LINK", "statement": "IDs inferred CANNOT_LINK never share a cluster.", "quantifier": "every reachable manager, similarities, options", "why_tests_cant": "All inputs.", "anchors": ["src/cognitivefactory/interactive_clustering/clustering/affinity_propagation.py:_affinity_propagation_constrained"]}
{"id": "C46", "title": "DBScan labels every managed ID and counts its clusters rightly", "statement": "The result assigns exactly the managed IDs; regular clusters are numbered 0..r-1 with r=number_of_regular_clusters, ignored points get distinct negative labels, and number_of_clusters is the number of distinct labels.", "quantifier": "every reachable manager, distances, eps, min_samples", "why_tests_cant": "Bookkeeping over several phases for all inputs.", "anchors": ["src/cognitivefactory/interactive_clustering/clustering/dbscan.py:DBScanConstrainedClustering.cluster"]}
{"id": "C47", "title": "DBScan respects the constraints", "statement": "IDs inferred CANNOT_LINK never share a cluster and IDs inferred MUST_LINK always do.", "quantifier": "every reachable manager, distances, eps, min_samples", "why_tests_cant": "All inputs.", "anchors": ["src/cognitivefactory/interactive_clustering/clustering/dbscan.py:DBScanConstrainedClustering.cluster"]}
{"id": "C48", "title": "MPCKMeans works on exactly the inferred constraints", "statement": "On every reachable manager preprocess_constraints never raises 'Inconsistent constraints'; its must-link and cannot-link graphs are exactly the inferred constraints and its neighborhoods are the connected components.", "quantifier": "every reachable manager (components within the recursion limit)", "why_tests_cant": "Graph closure over all managers.", "anchors": ["src/cognitivefactory/interactive_clustering/clustering/mpckmeans.py:MPCKMeansConstrainedClustering.preprocess_constraints", "src/cognitivefactory/interactive_clustering/clustering/mpckmeans.py:MPCKMeansConstrainedClustering._dfs"]}
{"id": "C49", "title": "MPCKMeans applies constraints to the right data", "statement": "The penalty for a pair of data is charged exactly when the manager infers a constraint between these two data, whatever the order of the vectors dictionary.", "quantifier": "every manager and every ordering of the vectors", "why_tests_cant": "Depends on the relative order of two dictionaries.", "anchors": ["src/cognitivefactory/interactive_clustering/clustering/mpckmeans.py:MPCKMeansConstrainedClustering.cluster"]}
{"id": "C50", "title": "MPCKMeans repairs empty clusters", "statement": "When some cluster is left empty by the assignment, a point is moved into it and all nb_clusters clusters are non-empty on return.", "quantifier": "every assignment of points to clusters, every nb_clusters", "why_tests_cant": "All assignments.", "anchors": ["src/cognitivefactory/interactive_clustering/clustering/mpckmeans.py:MPCKMeansConstrainedClustering._assign_clusters"]}
{"id": "C51", "title": "MPCKMeans works on identical vectors", "statement": "cluster() does not fail because all vectors are equal.", "quantifier": "every manager with all vectors equal", "why_tests_cant": "Degenerate data.", "anchors": ["src/cognitivefactory/interactive_clustering/clustering/mpckmeans.py:MPCKMeansConstrainedClustering._find_farthest_pairs_of_points"]}
{"id": "C52", "title": "Cluster frequencies are a distribution", "statement": "compute_clusters_frequency returns, for exactly the cluster numbers in use and in increasing order, the positive fraction of IDs in the cluster, and these fractions sum to 1; an empty clustering gives {}.", "quantifier": "every clustering dictionary", "why_tests_cant": "All inputs.", "anchors": ["src/cognitivefactory/interactive_clustering/utils/frequency.py:compute_clusters_frequency"]}
{"id": "C53", "title": "Factories accept exactly the documented names", "statement": "managing_factory, sampling_factory and clustering_factory raise ValueError on every other name, and the sampling factory maps each name to the documented restrictions.", "quantifier": "every string", "why_tests_cant": "All strings.", "anchors": ["src/cognitivefactory/interactive_clustering/constraints/factory.py:managing_factory", "src/cognitivefactory/interactive_clustering/sampling/factory.py:sampling_factory", "src/cognitivefactory/interactive_clustering/clustering/factory.py:clustering_factory"]}
{"id": "C54", "title": "The cluster number suggested by the usage guide is accepted", "statement": "nb_clusters=int((lo+hi)/2) computed from get_min_and_max_number_of_clusters is always accepted by the clustering algorithms.", "quantifier": "every reachable non-empty manager", "why_tests_cant": "Boundary states of the manager.", "anchors": ["src/cognitivefactory/interactive_clustering/constraints/binary.py:BinaryConstraintsManager.get_min_and_max_number_of_clusters", "docs/usage.md"]}
{"id": "C55", "title": "Clustering on complete constraints returns the ground truth", "statement": "When check_completude_of_constraints() is True, KMeans returns exactly the connected components as clusters, whatever the vectors and nb_clusters.", "quantifier": "every complete reachable manager, vectors, seed and nb_clusters", "why_tests_cant": "All runs.", "anchors": ["src/cognitivefactory/interactive_clustering/clustering/kmeans.py:KMeansConstrainedClustering.cluster", "src/cognitivefactory/interactive_clustering/constraints/binary.py:BinaryConstraintsManager.check_completude_of_constraints"]}
{"id": "C56", "title": "Preprocessing and vectorization keep the data IDs", "statement": "preprocess and vectorize return a dictionary with the same IDs in the same order, one result per text.", "quantifier": "every dictionary of texts, every language model", "why_tests_cant": "All inputs.", "anchors": ["src/cognitivefactory/interactive_clustering/utils/preprocessing.py:preprocess", "src/cognitivefactory/interactive_clustering/utils/vectorization.py:vectorize"]}
{"id": "C57", "title": "Preprocessed texts are clean", "statement": "A preprocessed text contains no combining mark and, apart from what the tokenizer's lemmas introduce, only kept tokens joined by single spaces; enabling an option only removes tokens.", "quantifier": "every text and every tokenizer outcome", "why_tests_cant": "All inputs.", "anchors": ["src/cognitivefactory/interactive_clustering/utils/preprocessing.py:preprocess"]}
{"id": "C58", "title": "A KMeans run is a COP-KMeans run", "statement": "The returned clusters come from rounds that visit the data in order, send each not yet assigned data ID to the nearest cluster not blocked by a CANNOT_LINK (a new cluster when all are blocked), carry its MUST_LINK component along, and recompute each centroid as the mean of its members; rounds stop when the centroids are stable or max_iteration is used up.", "quantifier": "every reachable manager, vectors, distance, seed and parameters", "why_tests_cant": "All runs against an independent description of the algorithm.", "anchors": ["src/cognitivefactory/interactive_clustering/clustering/kmeans.py:KMeansConstrainedClustering.cluster"]}
{"id": "C59", "title": "A KMeans object can be reused", "statement": "The result of cluster() and the fields it leaves do not depend on earlier calls on the same object.", "quantifier": "every earlier state of the object", "why_tests_cant": "All call histories.", "anchors": ["src/cognitivefactory/interactive_clustering/clustering/kmeans.py:KMeansConstrainedClustering.cluster"]}
{"id": "C60", "title": "The number of clusters KMeans returns is feasible", "statement": "The returned number of clusters is realised by a labelling that satisfies all constraints and is at most the number of connected components.", "quantifier": "every call that returns", "why_tests_cant": "Needs an argument over all colourings.", "anchors": ["src/cognitivefactory/interactive_clustering/clustering/kmeans.py:KMeansConstrainedClustering.cluster", "src/cognitivefactory/interactive_clustering/constraints/binary.py:BinaryConstraintsManager.get_connected_components"]}
{"id": "C61", "title": "Hierarchical clustering is total and raises exactly on bad input", "statement": "With at least one ID, a vector for each and nb_clusters>=2, cluster() returns a clustering of exactly the managed IDs numbered by first appearance; otherwise it raises ValueError (nb_clusters None or below 2, no ID) or KeyError (missing vector), and nothing else.", "quantifier": "every reachable manager, vectors, linkage, nb_clusters and object state", "why_tests_cant": "All inputs and all error paths.", "anchors": ["src/cognitivefactory/interactive_clustering/clustering/hierarchical.py:HierarchicalConstrainedClustering.cluster"]}
{"id": "C62", "title": "The tree comes from a constrained agglomeration", "statement": "Starting from the connected components, each step merges the closest pair of clusters without a CANNOT_LINK between them, the distance being that of the chosen linkage, until no pair can be merged; the clusters left are joined under the root. Ties go to the smallest, then the oldest pair, so this determines the tree.", "quantifier": "every run, every linkage, every distance with a total order", "why_tests_cant": "All runs against an independent description of the algorithm, including incrementally updated distances.", "anchors": ["src/cognitivefactory/interactive_clustering/clustering/hierarchical.py:HierarchicalConstrainedClustering.cluster"]}
{"id": "C63", "title": "Hierarchical clustering on complete constraints returns the ground truth", "statement": "When check_completude_of_constraints() is True, the clusters are exactly the connected components, whatever the vectors, linkage and nb_clusters.", "quantifier": "every complete reachable manager and every call that returns", "why_tests_cant": "All runs.", "anchors": ["src/cognitivefactory/interactive_clustering/clustering/hierarchical.py:HierarchicalConstrainedClustering.cluster", "src/cognitivefactory/interactive_clustering/constraints/binary.py:BinaryConstraintsManager.check_completude_of_constraints"]}
{"id": "C64", "title": "A hierarchical clustering object can be reused", "statement": "The result of cluster() and the state it leaves do not depend on earlier calls on the same object.", "quantifier": "every earlier state of the object", "why_tests_cant": "All call histories.", "anchors": ["src/cognitivefactory/interactive_clustering/clustering/hierarchical.py:HierarchicalConstrainedClustering.cluster"]}
{"id": "C65", "title": "The number of clusters hierarchical clustering returns is feasible", "statement": "The returned number of clusters is realised by a labelling that satisfies all constraints and is at most the number of connected components.", "quantifier": "every call that returns", "why_tests_cant": "Needs an argument over all colourings.", "anchors": ["src/cognitivefactory/interactive_clustering/clustering/hierarchical.py:HierarchicalConstrainedClustering.cluster", "src/cognitivefactory/interactive_clustering/constraints/binary.py:BinaryConstraintsManager.get_connected_components"]}
{"id": "C66", "title": "Cuts split the biggest cluster first", "statement": "cluster() and compute_predicted_clusters(k, by) start from the root and repeatedly replace the first cluster with the most members (by size) or the latest iteration (by iteration) by its children, until there are k clusters or that cluster has no children; cutting leaves the object unchanged.", "quantifier": "every run, k and criterion", "why_tests_cant": "All trees.", "anchors": ["src/cognitivefactory/interactive_clustering/clustering/hierarchical.py:HierarchicalConstrainedClustering.cluster", "src/cognitivefactory/interactive_clustering/clustering/hierarchical.py:HierarchicalConstrainedClustering.compute_predicted_clusters"]}
{"id": "C67", "title": "Spectral clustering raises exactly on bad input", "statement": "Apart from errors of the eigensolver, cluster() raises ValueError exactly for nb_clusters None or below 2 or no ID, KeyError exactly for a missing vector, and such a call leaves the object unchanged; the constructor accepts exactly the model SPEC with nb_components None or at least 2.", "quantifier": "every reachable manager, vectors, nb_clusters, object state and solver", "why_tests_cant": "All inputs and all error paths.", "anchors": ["src/cognitivefactory/interactive_clustering/clustering/spectral.py:SpectralConstrainedClustering.cluster", "src/cognitivefactory/interactive_clustering/clustering/spectral.py:SpectralConstrainedClustering.__init__"]}
{"id": "C68", "title": "A spectral clustering object can be reused", "statement": "The result of cluster() and the attributes it leaves do not depend on earlier calls on the same object.", "quantifier": "every earlier state of the object", "why_tests_cant": "All call histories.", "anchors": ["src/cognitivefactory/interactive_clustering/clustering/spectral.py:SpectralConstrainedClustering.cluster"]}
{"id": "C69", "title": "Affinity propagation returns a canonical labelling of every managed ID or raises a documented error", "statement": "A successful cluster() labels exactly the managed IDs with 0..k-1 by first appearance and stores the result; it raises ValueError exactly when a number of clusters is given or there is no ID, KeyError exactly when a vector is missing, and message passing itself never fails. The constructor accepts exactly positive iteration numbers.", "quantifier": "every manager, vectors, parameters, floating point arithmetic", "why_tests_cant": "Message passing may oscillate or meet NaN on inputs no test has.", "anchors": ["src/cognitivefactory/interactive_clustering/clustering/affinity_propagation.py:AffinityPropagationConstrainedClustering.cluster", "src/cognitivefactory/interactive_clustering/clustering/affinity_propagation.py:AffinityPropagationConstrainedClustering.__init__"]}
{"id": "C70", "title": "Affinity propagation needs more iterations than its convergence window", "statement": "When max_iteration does not exceed convergence_iteration no run converges and every data gets one common cluster.", "quantifier": "every manager, vectors, arithmetic and such parameters, apart from equal similarities", "why_tests_cant": "A claim on all message values.", "anchors": ["src/cognitivefactory/interactive_clustering/clustering/affinity_propagation.py:AffinityPropagationConstrainedClustering.cluster", "src/cognitivefactory/interactive_clustering/clustering/affinity_propagation.py:_affinity_propagation_constrained"]}
{"id": "C71", "title": "Affinity propagation computes the clusters of the published algorithm", "statement": "In exact arithmetic the clusters are those of affinity propagation run on the components (absolute_must_links) or on the data and one extra point per component (otherwise): responsibilities and availabilities follow the update equations with damping, the run stops at the first convergence, exemplars are refined, and non-convergence gives one cluster.", "quantifier": "every manager, vectors and parameters, exact arithmetic", "why_tests_cant": "The result of an iteration of unbounded length.", "anchors": ["src/cognitivefactory/interactive_clustering/clustering/affinity_propagation.py:AffinityPropagationConstrainedClustering.cluster", "src/cognitivefactory/interactive_clustering/clustering/affinity_propagation.py:_affinity_propagation_constrained"]}
{"id": "C72", "title": "An affinity propagation object can be reused", "statement": "The result of cluster() and the attributes it leaves do not depend on earlier calls on the same object.", "quantifier": "every earlier state of the object", "why_tests_cant": "All call histories.", "anchors": ["src/cognitivefactory/interactive_clustering/clustering/affinity_propagation.py:AffinityPropagationConstrainedClustering.cluster"]}
{"id": "C73", "title": "DBScan raises exactly on bad input", "statement": "cluster() raises ValueError exactly when a number of clusters is given or there is no ID, KeyError exactly when a vector is missing, and nothing else; such a call leaves the object unchanged. The constructor accepts exactly positive eps and min_samples.", "quantifier": "every reachable manager, vectors, parameters and object state", "why_tests_cant": "All inputs and all error paths.", "anchors": ["src/cognitivefactory/interactive_clustering/clustering/dbscan.py:DBScanConstrainedClustering.cluster", "src/cognitivefactory/interactive_clustering/clustering/dbscan.py:DBScanConstrainedClustering.__init__"]}
{"id": "C74", "title": "DBScan has no hidden inputs", "statement": "The result of cluster() does not depend on earlier calls on the same object, nor on the order in which Python enumerates sets.", "quantifier": "every earlier state of the object, every enumeration order, every ordered distance", "why_tests_cant": "Set order varies with the hash seed of the process; all call histories.", "anchors": ["src/cognitivefactory/interactive_clustering/clustering/dbscan.py:DBScanConstrainedClustering.cluster"]}
{"id": "C75", "title": "DBScan computes the clusters its algorithm describes", "statement": "The clusters are those of the algorithm: at its turn each visible data with enough neighbours founds a local cluster, or singles its neighbours out if they clash; must-links make core clusters owned by the first who reaches a data; core clusters absorb local clusters in the order of the names until one is too far or incompatible; what remains is a cluster of its own if big enough, else each data is ignored.", "quantifier": "every reachable manager without an ID named NONE, vectors, parameters, ordered distance", "why_tests_cant": "A functional description for all inputs.", "anchors": ["src/cognitivefactory/interactive_clustering/clustering/dbscan.py:DBScanConstrainedClustering.cluster"]}
{"id": "C76", "title": "MPCKMeans fails only for listed reasons and leaves the object unchanged", "statement": "cluster() returns only with nb_clusters >= 2, as many vectors as IDs, at least two IDs and components within the recursion limit; every exception has one of the listed causes and leaves the object unchanged. The constructor accepts exactly the model MPC, max_iteration >= 1 and a weight that is not negative, and raises ValueError otherwise.", "quantifier": "every reachable manager, vectors, parameters and object state", "why_tests_cant": "All inputs and all error paths.", "anchors": ["src/cognitivefactory/interactive_clustering/clustering/mpckmeans.py:MPCKMeansConstrainedClustering.cluster", "src/cognitivefactory/interactive_clustering/clustering/mpckmeans.py:MPCKMeansConstrainedClustering.__init__"]}
{"id": "C77", "title": "MPCKMeans partitions the IDs into the requested number of clusters", "statement": "With vectors for exactly the managed IDs, none of which ends with the character NUL (see C102), a result is about exactly the managed IDs, is numbered canonically and has exactly min(nb_clusters, number of IDs) clusters.", "quantifier": "every reachable manager, vectors, parameters and arithmetic", "why_tests_cant": "All inputs, all random draws.", "anchors": ["src/cognitivefactory/interactive_clustering/clustering/mpckmeans.py:MPCKMeansConstrainedClustering.cluster"]}
{"id": "C78", "title": "MPCKMeans computes what its algorithm describes", "statement": "The first centres come from the components (farthest-first traversal weighted by size, or all of them completed by random points); each iteration visits the points in the drawn order, gives each the cheapest cluster by distance plus penalties, repairs empty clusters, moves the centres to the means and updates the metric; it stops when the centres are stable or the iterations are used up. Two data are together exactly when their vectors have the same label (for IDs that do not end with the character NUL, see C102).", "quantifier": "every reachable manager, vectors of equal length, parameters, random draws, set orders, ordered arithmetic", "why_tests_cant": "A functional description for all inputs.", "anchors": ["src/cognitivefactory/interactive_clustering/clustering/mpckmeans.py:MPCKMeansConstrainedClustering.cluster", "src/cognitivefactory/interactive_clustering/clustering/mpckmeans.py:MPCKMeansConstrainedClustering._initialize_cluster_centers", "src/cognitivefactory/interactive_clustering/clustering/mpckmeans.py:MPCKMeansConstrainedClustering._assign_clusters", "src/cognitivefactory/interactive_clustering/clustering/mpckmeans.py:MPCKMeansConstrainedClustering._get_cluster_centers", "src/cognitivefactory/interactive_clustering/clustering/mpckmeans.py:MPCKMeansConstrainedClustering._update_metrics"]}
{"id": "C79", "title": "An MPCKMeans object can be reused", "statement": "The result of cluster() and the attributes it leaves do not depend on earlier calls on the same object.", "quantifier": "every earlier state of the object", "why_tests_cant": "All call histories.", "anchors": ["src/cognitivefactory/interactive_clustering/clustering/mpckmeans.py:MPCKMeansConstrainedClustering.cluster"]}
{"id": "C80", "title": "MPCKMeans rejects vectors of unknown data", "statement": "cluster() returns only when the vectors are those of exactly the managed IDs.", "quantifier": "every reachable manager and vectors", "why_tests_cant": "All inputs.", "anchors": ["src/cognitivefactory/interactive_clustering/clustering/mpckmeans.py:MPCKMeansConstrainedClustering.cluster"]}
{"id": "C81", "title": "A session of the usage guide ends with the ground truth", "statement": "The session of docs/usage.md (cluster, sample, annotate by a fixed ground truth, choose int((min+max)/2) clusters, cluster again until the constraints are complete) with the random sampler ends within n(n-1)/2 iterations, refuses no annotation, never fails, and its last clustering is exactly the ground truth.", "quantifier": "every list of texts, vectors, ground truth, random draws, set orders and colouring orders; every consistent starting manager", "why_tests_cant": "A liveness property over whole histories of four interacting classes.", "anchors": ["docs/usage.md", "src/cognitivefactory/interactive_clustering/clustering/kmeans.py:KMeansConstrainedClustering.cluster", "src/cognitivefactory/interactive_clustering/constraints/binary.py:BinaryConstraintsManager.add_constraint", "src/cognitivefactory/interactive_clustering/constraints/binary.py:BinaryConstraintsManager.get_min_and_max_number_of_clusters", "src/cognitivefactory/interactive_clustering/constraints/binary.py:BinaryConstraintsManager.check_completude_of_constraints"]}
{"id": "C82", "title": "A session of the usage guide ends with every sampler", "statement": "With every sampling algorithm of the factory the session of docs/usage.md decides more pairs until all are decided.", "quantifier": "every sampling algorithm, texts, vectors, ground truth and random draws", "why_tests_cant": "A liveness property; a stalled session looks like a slow one.", "anchors": ["docs/usage.md", "src/cognitivefactory/interactive_clustering/clustering/kmeans.py:KMeansConstrainedClustering.cluster", "src/cognitivefactory/interactive_clustering/sampling/factory.py:sampling_factory", "src/cognitivefactory/interactive_clustering/sampling/clusters_based.py:ClustersBasedConstraintsSampling.sample"]}
{"id": "C83", "title": "Preprocessed texts hold no listed punctuation and no capitals", "statement": "A preprocessed text has no character of the list of punctuation and no upper-case letter.", "quantifier": "every text, language model and option", "why_tests_cant": "Needs all of Unicode: the exceptions come from characters whose decomposition holds punctuation or capitals.", "anchors": ["src/cognitivefactory/interactive_clustering/utils/preprocessing.py:preprocess"]}
{"id": "C84", "title": "Vectorization works on every set of texts", "statement": "vectorize returns vectors for every dictionary of texts when the vectorizer is tfidf, or spacy with an installed model; otherwise it raises ValueError.", "quantifier": "every dictionary of texts, vectorizer and language model", "why_tests_cant": "All inputs.", "anchors": ["src/cognitivefactory/interactive_clustering/utils/vectorization.py:vectorize"]}
{"id": "C85", "title": "Vectors do not depend on the order of the texts", "statement": "The same texts in another order give the same vector for each ID, or the same error.", "quantifier": "every dictionary of texts, every permutation of it, vectorizer and language model", "why_tests_cant": "All permutations of all inputs.", "anchors": ["src/cognitivefactory/interactive_clustering/utils/vectorization.py:vectorize"]}
{"id": "C86", "title": "tf-idf vectors have one column for each phrase common to two texts", "statement": "The columns are the sorted phrases of one to three words that occur in at least two texts; an entry is computed from the occurrences in the text, the number of texts that hold the phrase and the number of texts; all vectors have the same dimension.", "quantifier": "every dictionary of texts and word tokenizer", "why_tests_cant": "A functional description for all inputs.", "anchors": ["src/cognitivefactory/interactive_clustering/utils/vectorization.py:vectorize"]}
{"id": "C87", "title": "The usage guide leads from raw texts to the ground truth", "statement": "When preprocessing and vectorization succeed and the texts belong to at least two true clusters, the session of docs/usage.md on the IDs of the texts ends within n(n-1)/2 iterations without a refused annotation, and its last clustering is the ground truth over exactly these IDs.", "quantifier": "every dictionary of texts, options, ground truth, language model, random draws and orders", "why_tests_cant": "End-to-end liveness over all modules.", "anchors": ["docs/usage.md", "src/cognitivefactory/interactive_clustering/utils/preprocessing.py:preprocess", "src/cognitivefactory/interactive_clustering/utils/vectorization.py:vectorize", "src/cognitivefactory/interactive_clustering/clustering/kmeans.py:KMeansConstrainedClustering.cluster", "src/cognitivefactory/interactive_clustering/sampling/clusters_based.py:ClustersBasedConstraintsSampling.sample"]}
{"id": "C88", "title": "A clustering depends only on what is known", "statement": "The result of cluster() depends only on the managed IDs in their order, the inferred constraints and the vectors of the managed IDs; not on the order or number of the calls that led there, on a reload from a file, or on other entries of the vectors. The same added constraints give the same knowledge.", "quantifier": "every two reachable managers with the same IDs and inferred constraints, all six algorithms", "why_tests_cant": "Relates executions after arbitrary different histories.", "anchors": ["src/cognitivefactory/interactive_clustering/clustering/kmeans.py:KMeansConstrainedClustering.cluster", "src/cognitivefactory/interactive_clustering/clustering/hierarchical.py:HierarchicalConstrainedClustering.cluster", "src/cognitivefactory/interactive_clustering/clustering/spectral.py:SpectralConstrainedClustering.cluster", "src/cognitivefactory/interactive_clustering/clustering/affinity_propagation.py:AffinityPropagationConstrainedClustering.cluster", "src/cognitivefactory/interactive_clustering/clustering/dbscan.py:DBScanConstrainedClustering.cluster", "src/cognitivefactory/interactive_clustering/clustering/mpckmeans.py:MPCKMeansConstrainedClustering.cluster", "src/cognitivefactory/interactive_clustering/constraints/binary.py:BinaryConstraintsManager.get_connected_components"]}
{"id": "C89", "title": "A sample depends only on what is known", "statement": "The result of sample() depends only on the managed IDs, on which pairs have an added or inferred constraint, on the labels and vectors of the managed IDs and on the random draw; not on the history of the manager, on earlier calls of the sampler, or on other entries of the dictionaries.", "quantifier": "every two reachable managers with the same IDs and constraints, all sampler states", "why_tests_cant": "Relates executions after arbitrary different histories.", "anchors": ["src/cognitivefactory/interactive_clustering/sampling/clusters_based.py:ClustersBasedConstraintsSampling.sample"]}
{"id": "C90", "title": "The suggested minimum is small when CANNOT_LINK constraints are sparse, and exact without cycle", "statement": "The minimum returned by get_min_and_max_number_of_clusters is at most one more than the number k such that every set of components has one with at most k CANNOT_LINK to the others (networkx colours in smallest-last order), and at most one more than the largest number of components one may not join, in any order; it is exactly 2, the true minimum, when the CANNOT_LINK between components form no cycle and there is one.", "quantifier": "every reachable manager, every colouring order of networkx", "why_tests_cant": "All constraint graphs and all tie-breaks of the colouring orders.", "anchors": ["src/cognitivefactory/interactive_clustering/constraints/binary.py:BinaryConstraintsManager.get_min_and_max_number_of_clusters"]}
{"id": "C91", "title": "A cluster of the tree is described faithfully, up to Python's limit on nested calls", "statement": "Cluster.to_dict of a cluster tells its ID, iteration, level, members and, in order, the same for all its descendants, and no other tree has that description; written as JSON and read again, the description is the same. It succeeds if and only if Python allows more nested calls than there are levels below the cluster. For the tree of a hierarchical clustering as many nested calls as data IDs are enough, and in general fewer are not: with 1001 data the default limit of Python can be exceeded.", "quantifier": "every tree of clusters, every clustering that keeps one, every limit", "why_tests_cant": "Trees of any shape and depth; the bound and its tightness are for every number of data.", "anchors": ["src/cognitivefactory/interactive_clustering/clustering/hierarchical.py:HierarchicalConstrainedClustering.cluster", "src/cognitivefactory/interactive_clustering/clustering/hierarchical.py:Cluster.__init__", "src/cognitivefactory/interactive_clustering/clustering/hierarchical.py:Cluster.to_dict"]}
{"id": "C92", "title": "Adding children to a cluster keeps what it had and keeps the tree consistent", "statement": "After Cluster.add_new_children the cluster has its previous children and members and the new ones, its level is above all of them, its centroid is the mean of its members, the clusters above it know the new members, nothing changes if the call fails, no child is counted twice, and the cluster can still be described.", "quantifier": "all objects, all sequences of calls", "why_tests_cant": "Depends on which objects refer to the changed one and on all orders of calls.", "anchors": ["src/cognitivefactory/interactive_clustering/clustering/hierarchical.py:Cluster.add_new_children", "src/cognitivefactory/interactive_clustering/clustering/hierarchical.py:Cluster.update_centroid"]}
{"id": "C93", "title": "With a random seed, the same call gives the same result in every process", "statement": "The random_seed of an object lets the user redo the same clustering or sampling: with a seed, the result of the call does not depend on what was drawn from the generators of Python and numpy before, nor on how the process hashes strings.", "quantifier": "every two processes (states of both generators, orders of sets), every seed, the samplers and the six algorithms", "why_tests_cant": "A test sees one process and a few states of the generators; string hashes are constant within one process.", "anchors": ["src/cognitivefactory/interactive_clustering/clustering/kmeans.py:KMeansConstrainedClustering.initialize_centroids", "src/cognitivefactory/interactive_clustering/sampling/clusters_based.py:ClustersBasedConstraintsSampling.sample", "src/cognitivefactory/interactive_clustering/clustering/spectral.py:SpectralConstrainedClustering.cluster", "src/cognitivefactory/interactive_clustering/clustering/affinity_propagation.py:_affinity_propagation_constrained", "src/cognitivefactory/interactive_clustering/clustering/dbscan.py:DBScanConstrainedClustering.cluster", "src/cognitivefactory/interactive_clustering/clustering/mpckmeans.py:MPCKMeansConstrainedClustering.cluster"]}
{"id": "C94", "title": "Calls leave the generators of the program alone", "statement": "cluster() and sample() do not change what the rest of the program draws from the generators of Python and numpy, and without a seed they draw from the generators that the program has seeded.", "quantifier": "all states of the generators, all calls", "why_tests_cant": "About the state left behind for unrelated code, for every state before.", "anchors": ["src/cognitivefactory/interactive_clustering/clustering/kmeans.py:KMeansConstrainedClustering.initialize_centroids", "src/cognitivefactory/interactive_clustering/sampling/clusters_based.py:ClustersBasedConstraintsSampling.sample"]}
{"id": "C95", "title": "Sessions with any sound clustering reach the ground truth", "statement": "Call a clustering sound when, for every reachable manager with vectors for its IDs, it accepts every number of clusters from 2 and returns a canonical clustering of exactly the managed IDs that respects the constraints, and refuses smaller numbers with ValueError, leaving the manager unchanged. Constrained KMeans and hierarchical clustering (all four linkages) are sound. With any sound clustering, any sampler that does not look at the clusters and removes inferred constraints, and a consistent annotator, the loop of the usage guide decides all pairs within n(n-1)/2 iterations and refuses no annotation; it returns exactly the ground truth (canonically numbered) if some IDs have different true clusters or everything was decided beforehand, and ends with ValueError otherwise.", "quantifier": "for all managers, vectors, distances, random draws, shuffles, iteration orders, linkages, sampling parameters and ground truths", "why_tests_cant": "the number of sessions grows exponentially with the texts and the draws; tests run a few iterations of one algorithm with one seed", "anchors": ["src/cognitivefactory/interactive_clustering/clustering/hierarchical.py:HierarchicalConstrainedClustering.cluster", "src/cognitivefactory/interactive_clustering/clustering/kmeans.py:KMeansConstrainedClustering.cluster", "src/cognitivefactory/interactive_clustering/sampling/clusters_based.py:ClustersBasedConstraintsSampling.sample", "docs/usage.md"]}
{"id": "C96", "title": "Managers with the same IDs and constraints cannot be told apart", "statement": "Two managers that list the same data IDs and the same added constraints, whatever their histories, give the same answer or error to every call of every later history (up to the order of IDs inside one component or one conflict list), and no others do. A manager loaded from the JSON file of another one is told apart from it at most by asking for the added constraint of an ID with itself. With colouring strategies that do not look at component names the range of numbers of clusters is also the same.", "quantifier": "all pairs of reachable managers and all later histories of calls", "why_tests_cant": "Quantifies over pairs of histories and over all continuations; tests compare a few getters after one history.", "anchors": ["src/cognitivefactory/interactive_clustering/constraints/binary.py:BinaryConstraintsManager.add_data_ID", "src/cognitivefactory/interactive_clustering/constraints/binary.py:BinaryConstraintsManager.delete_data_ID", "src/cognitivefactory/interactive_clustering/constraints/binary.py:BinaryConstraintsManager.add_constraint", "src/cognitivefactory/interactive_clustering/constraints/binary.py:BinaryConstraintsManager.delete_constraint", "src/cognitivefactory/interactive_clustering/constraints/binary.py:BinaryConstraintsManager.get_added_constraint", "src/cognitivefactory/interactive_clustering/constraints/binary.py:BinaryConstraintsManager.get_inferred_constraint", "src/cognitivefactory/interactive_clustering/constraints/binary.py:BinaryConstraintsManager.get_connected_components", "src/cognitivefactory/interactive_clustering/constraints/binary.py:BinaryConstraintsManager.get_min_and_max_number_of_clusters", "src/cognitivefactory/interactive_clustering/constraints/binary.py:BinaryConstraintsManager.to_json"]}
{"id": "C97", "title": "A session can be saved and resumed", "statement": "Replacing the manager between two iterations of the session of docs/usage.md by one with the same IDs and the same added constraints between different IDs, in particular by one loaded from its JSON file, does not change the rest of the session: the iterations, the samples, the clusterings, the refused annotations, the errors and the constraints at the end are the same, for every clustering that reads of the manager only the IDs and inferred constraints (constrained KMeans; hierarchical clustering when sums do not depend on the order), with colouring strategies that do not look at component names.", "quantifier": "all reachable managers, vectors, sampling options, draws, numbers of iterations and ground truths", "why_tests_cant": "A property of pairs of whole sessions.", "anchors": ["docs/usage.md", "src/cognitivefactory/interactive_clustering/constraints/binary.py:BinaryConstraintsManager.to_json", "src/cognitivefactory/interactive_clustering/constraints/binary.py:load_constraints_manager_from_json", "src/cognitivefactory/interactive_clustering/clustering/kmeans.py:KMeansConstrainedClustering.cluster", "src/cognitivefactory/interactive_clustering/clustering/hierarchical.py:HierarchicalConstrainedClustering.cluster"]}
{"id": "C98", "title": "Managers that live in the same memory do not disturb each other", "statement": "The dictionaries of a manager are objects in memory, changed in place and shared (all data of a MUST_LINK component have the same dictionary). In a program that makes any number of managers and interleaves their calls, each manager answers every call exactly as it would alone if its dictionaries were values that nobody shares; no loop over a dictionary is disturbed by a change of its size (RuntimeError), no key is missing: the only exception is ValueError.", "quantifier": "all programs: any number of managers, any interleaving of calls, any data IDs", "why_tests_cant": "Aliasing errors appear only for particular interleavings, and a test that compares with the expected answers must reach the shared object first.", "anchors": ["src/cognitivefactory/interactive_clustering/constraints/binary.py:BinaryConstraintsManager.__init__", "src/cognitivefactory/interactive_clustering/constraints/binary.py:BinaryConstraintsManager.add_data_ID", "src/cognitivefactory/interactive_clustering/constraints/binary.py:BinaryConstraintsManager.delete_data_ID", "src/cognitivefactory/interactive_clustering/constraints/binary.py:BinaryConstraintsManager.add_constraint", "src/cognitivefactory/interactive_clustering/constraints/binary.py:BinaryConstraintsManager.delete_constraint", "src/cognitivefactory/interactive_clustering/constraints/binary.py:BinaryConstraintsManager._generate_constraints_transitivity", "src/cognitivefactory/interactive_clustering/constraints/binary.py:BinaryConstraintsManager._add_constraint_transitivity"]}
{"id": "C99", "title": "The conflict listing says where to look", "statement": "When a constraint is refused and get_list_of_involved_data_IDs_in_a_constraint_conflict lists IDs: no history of calls that keeps the listed IDs and the constraints between two different listed IDs makes the constraint acceptable; and when IDs other than the two and constraints are deleted until no added constraint is left between two different listed IDs, the constraint is accepted.", "quantifier": "all reachable managers, all refused constraints, all later histories of calls", "why_tests_cant": "The claim is about every later history of calls, which a test can only sample.", "anchors": ["src/cognitivefactory/interactive_clustering/constraints/binary.py:BinaryConstraintsManager.get_list_of_involved_data_IDs_in_a_constraint_conflict", "src/cognitivefactory/interactive_clustering/constraints/binary.py:BinaryConstraintsManager.add_constraint", "src/cognitivefactory/interactive_clustering/constraints/binary.py:BinaryConstraintsManager.delete_constraint", "src/cognitivefactory/interactive_clustering/constraints/binary.py:BinaryConstraintsManager.delete_data_ID"]}
{"id": "C100", "title": "How many annotations are needed", "statement": "With n data IDs in k components at least n-k MUST_LINK constraints were added, and at least one CANNOT_LINK for each pair of components known to be different, so complete constraints need at least (n-k)+k(k-1)/2 annotations. Annotating only pairs about which nothing is known wastes none: each annotation is accepted and kept, and exactly n-k are MUST_LINK. For every ground truth the bound is attained.", "quantifier": "all reachable managers; all sequences of annotations; all ground truths", "why_tests_cant": "A lower bound over all ways to annotate cannot be observed on examples.", "anchors": ["src/cognitivefactory/interactive_clustering/constraints/binary.py:BinaryConstraintsManager.add_constraint", "src/cognitivefactory/interactive_clustering/constraints/binary.py:BinaryConstraintsManager.get_connected_components", "src/cognitivefactory/interactive_clustering/constraints/binary.py:BinaryConstraintsManager.check_completude_of_constraints", "src/cognitivefactory/interactive_clustering/constraints/binary.py:BinaryConstraintsManager._add_constraint_transitivity"]}
{"id": "C101", "title": "The names of the data do not matter", "statement": "If every data ID is renamed by an injective function (which may change the alphabetical order), every history of calls on the renamed manager gives the same answers and the same errors with the new names; only the order of IDs inside a component or a conflict listing may differ.", "quantifier": "all injective renamings, all lists of IDs, all histories of calls", "why_tests_cant": "A test uses one naming; dependence on names (sorting, prefixes, equality of special values) shows only for others.", "anchors": ["src/cognitivefactory/interactive_clustering/constraints/binary.py:BinaryConstraintsManager.__init__", "src/cognitivefactory/interactive_clustering/constraints/binary.py:BinaryConstraintsManager.add_data_ID", "src/cognitivefactory/interactive_clustering/constraints/binary.py:BinaryConstraintsManager.delete_data_ID", "src/cognitivefactory/interactive_clustering/constraints/binary.py:BinaryConstraintsManager.add_constraint", "src/cognitivefactory/interactive_clustering/constraints/binary.py:BinaryConstraintsManager.delete_constraint", "src/cognitivefactory/interactive_clustering/constraints/binary.py:BinaryConstraintsManager.get_connected_components", "src/cognitivefactory/interactive_clustering/constraints/binary.py:BinaryConstraintsManager.get_list_of_involved_data_IDs_in_a_constraint_conflict"]}
{"id": "C102", "title": "MPCKMeans labels data whatever the characters of their IDs", "statement": "Each managed ID that has a vector gets a cluster. (The IDs go through an array of strings of numpy, which loses NUL characters at the end.)", "quantifier": "every reachable manager, vectors, parameters and arithmetic, all strings as IDs", "why_tests_cant": "Tests use short printable IDs.", "anchors": ["src/cognitivefactory/interactive_clustering/clustering/mpckmeans.py:MPCKMeansConstrainedClustering.cluster"]}
{"id": "C103", "title": "Only the alphabetical order of the names can matter to a manager", "statement": "If the data IDs that are used are renamed without changing their alphabetical order, every history of calls on the renamed manager gives exactly the same answers and errors with the new names, in the same order.", "quantifier": "all renamings that keep the order of the names that are used, all lists of IDs, all histories of calls (including calls with unknown IDs)", "why_tests_cant": "A test uses one naming.", "anchors": ["src/cognitivefactory/interactive_clustering/constraints/binary.py:BinaryConstraintsManager.__init__", "src/cognitivefactory/interactive_clustering/constraints/binary.py:BinaryConstraintsManager.add_data_ID", "src/cognitivefactory/interactive_clustering/constraints/binary.py:BinaryConstraintsManager.delete_data_ID", "src/cognitivefactory/interactive_clustering/constraints/binary.py:BinaryConstraintsManager.add_constraint", "src/cognitivefactory/interactive_clustering/constraints/binary.py:BinaryConstraintsManager.delete_constraint", "src/cognitivefactory/interactive_clustering/constraints/binary.py:BinaryConstraintsManager.get_connected_components", "src/cognitivefactory/interactive_clustering/constraints/binary.py:BinaryConstraintsManager.get_list_of_involved_data_IDs_in_a_constraint_conflict"]}
{"id": "C104", "title": "Only the alphabetical order of the names can matter to a sampler", "statement": "If the data IDs of the manager, the clustering and the vectors are renamed without changing their alphabetical order, a sampler (any restriction, any size, random.sample drawing positions) selects the same pairs with the new names, or fails with the same error.", "quantifier": "all renamings that keep the order of the names that are used, all histories of the manager, all clusterings, vectors and options", "why_tests_cant": "A test uses one naming.", "anchors": ["src/cognitivefactory/interactive_clustering/sampling/clusters_based.py:ClustersBasedConstraintsSampling.sample"]}
{"id": "C105", "title": "Only the alphabetical order of the names can matter to a clustering", "statement": "If the data IDs of the manager and of the vectors are renamed without changing their alphabetical order, each of the six algorithms returns the same clusters with the new names, or fails with the same error; so does rename_clusters_by_order. (For KMeans random.shuffle moves positions; for DBScan the ID NONE is not used, distances are ordered, and sets may be enumerated differently in the two runs; for MPCKMeans no ID ends with NUL.)", "quantifier": "all renamings that keep the order of the names that are used, all histories of the manager, all vectors and parameters, all arithmetics", "why_tests_cant": "A test uses one naming; an algorithm that compares names, builds keys from them or reserves one of them differs only for other names.", "anchors": ["src/cognitivefactory/interactive_clustering/clustering/kmeans.py:KMeansConstrainedClustering.cluster", "src/cognitivefactory/interactive_clustering/clustering/hierarchical.py:HierarchicalConstrainedClustering.cluster", "src/cognitivefactory/interactive_clustering/clustering/spectral.py:SpectralConstrainedClustering.cluster", "src/cognitivefactory/interactive_clustering/clustering/affinity_propagation.py:AffinityPropagationConstrainedClustering.cluster", "src/cognitivefactory/interactive_clustering/clustering/dbscan.py:DBScanConstrainedClustering.cluster", "src/cognitivefactory/interactive_clustering/clustering/mpckmeans.py:MPCKMeansConstrainedClustering.cluster", "src/cognitivefactory/interactive_clustering/clustering/abstract.py:rename_clusters_by_order"]}
{"id": "C106", "title": "The annotation loop survives any annotator", "statement": "Whatever is annotated in the loop of the usage guide (wrong or contradictory answers, unanswered pairs, unknown IDs or types): the loop never fails, the constraints added are exactly the accepted annotations, every accepted annotation is inferred as given at the end and the opposite of every well-formed refused one is. No annotation is refused exactly when all of them are well formed and agree with some labelling. When every sampled pair gets one of the two answers, even at random, everything is decided within n(n-1)/2 iterations, each first answer of an iteration is accepted, and with one pair at a time none is ever refused.", "quantifier": "all annotators (functions of the iteration and the selected pairs), all draws, all reachable managers, all samplers without cluster restriction, any number of iterations", "why_tests_cant": "The annotator is a human; a test fixes a script of answers.", "anchors": ["docs/usage.md", "src/cognitivefactory/interactive_clustering/constraints/binary.py:BinaryConstraintsManager.add_constraint", "src/cognitivefactory/interactive_clustering/sampling/clusters_based.py:ClustersBasedConstraintsSampling.sample"]}
{"id": "C107", "title": "Without constraints, more KMeans rounds never give a worse clustering", "statement": "In exact arithmetic, when nothing is kept apart and data that must be linked are at the same place: raising max_iteration never increases the sum of the squared distances of the data to the centres of their returned clusters, and the result is never worse than sending each data to any of the data drawn at the start. This needs the restriction: with one CANNOT_LINK, or one MUST_LINK between distant data, a second round can make the returned clustering worse.", "quantifier": "all rational vectors of any dimension, all managers without tension between constraints and vectors, all shuffles, numbers of clusters, tolerances and pairs of max_iteration", "why_tests_cant": "A test compares the clusters of a few fixed vectors, never the quality of two runs.", "anchors": ["src/cognitivefactory/interactive_clustering/clustering/kmeans.py:KMeansConstrainedClustering.cluster", "src/cognitivefactory/interactive_clustering/clustering/kmeans.py:KMeansConstrainedClustering._clustering_kmeans_model_COP", "src/cognitivefactory/interactive_clustering/clustering/kmeans.py:KMeansConstrainedClustering.compute_centroids"]}
{"id": "C108", "title": "Cutting the tree by iteration undoes the last merges", "statement": "After a clustering call, compute_predicted_clusters(k, by=\"iteration\") returns the clusters that the agglomeration had when it last had at least k clusters; when it never had that many, the connected components it started from.", "quantifier": "all managers, vectors, linkages, distances (any strict total order), all k", "why_tests_cant": "A test cuts a few small trees; that the cut from the top meets a state of the run from the bottom depends on the numbering of all merges.", "anchors": ["src/cognitivefactory/interactive_clustering/clustering/hierarchical.py:HierarchicalConstrainedClustering.compute_predicted_clusters", "src/cognitivefactory/interactive_clustering/clustering/hierarchical.py:HierarchicalConstrainedClustering.cluster"]}
{"id": "C109", "title": "Single linkage keeps the clusters as far apart as possible", "statement": "With single linkage and symmetric distances, cut by iteration: for every clustering that respects the constraints and has at least as many clusters, two data in different clusters are never closer than some two data in different clusters of the other one (maximum spacing, with any MUST_LINK and CANNOT_LINK constraints). Without CANNOT_LINK constraints, two data of one cluster are joined by steps no longer than the ones needed to go between any two clusters. The clustering that cluster() itself returns, cut by size, need not have the largest spacing.", "quantifier": "all managers, vectors, symmetric distances (any strict total order), all k, all rival clusterings", "why_tests_cant": "A test checks fixed clusters; optimality compares with all clusterings.", "anchors": ["src/cognitivefactory/interactive_clustering/clustering/hierarchical.py:HierarchicalConstrainedClustering.cluster", "src/cognitivefactory/interactive_clustering/clustering/hierarchical.py:HierarchicalConstrainedClustering.compute_predicted_clusters", "src/cognitivefactory/interactive_clustering/clustering/hierarchical.py:HierarchicalConstrainedClustering._compute_distance", "src/cognitivefactory/interactive_clustering/clustering/hierarchical.py:HierarchicalConstrainedClustering._get_the_two_clostest_clusters"]}
{"id": "C110", "title": "The clusters of DBScan hang together", "statement": "Two data in the same cluster are linked by a chain whose steps are either at most eps long or MUST_LINKs.", "quantifier": "every reachable manager without an ID named NONE, any constraints, vectors, parameters, ordered distance", "why_tests_cant": "Absorbing, core clusters and remaining local clusters interact; a fixed example shows one of their orders.", "anchors": ["src/cognitivefactory/interactive_clustering/clustering/dbscan.py:DBScanConstrainedClustering.cluster"]}
{"id": "C111", "title": "Without CANNOT_LINK, DBScan keeps dense data", "statement": "Without CANNOT_LINK, a data with min_samples data within eps (itself included) is put in a cluster with all the data within eps of it.", "quantifier": "every reachable manager without CANNOT_LINK, vectors, parameters, ordered distance", "why_tests_cant": "The remaining local clusters are compared with eps instead of min_samples, and core clusters stop absorbing at the first name that is too far; the tests have no such layout.", "anchors": ["src/cognitivefactory/interactive_clustering/clustering/dbscan.py:DBScanConstrainedClustering.cluster"]}
{"id": "C112", "title": "Merges come in the order of their distances", "statement": "Of two merges of the tree, the one made first is between clusters that are not farther apart (the tree has no inversion), with any constraints.", "quantifier": "every reachable manager, vectors, symmetric distances, linkage; every two inner nodes of the tree", "why_tests_cant": "A property of the whole run, for every layout of the data.", "anchors": ["src/cognitivefactory/interactive_clustering/clustering/hierarchical.py:HierarchicalConstrainedClustering.cluster", "src/cognitivefactory/interactive_clustering/clustering/hierarchical.py:HierarchicalConstrainedClustering._compute_distance", "src/cognitivefactory/interactive_clustering/clustering/hierarchical.py:HierarchicalConstrainedClustering._get_the_two_clostest_clusters"]}
{"id": "C113", "title": "How annotations move the range of cluster numbers", "statement": "An accepted add_constraint lowers the maximum of get_min_and_max_number_of_clusters by exactly one if it is a MUST_LINK about a pair of which nothing was known, leaves it as it is otherwise, and never makes another number of clusters possible. delete_constraint raises it by at most one, only if a MUST_LINK had been added, and keeps all that was possible. An added data ID is one more component and joins a cluster or makes another one; a deleted one loses at most one component and at most one cluster.", "quantifier": "every reachable manager, IDs, constraint, node order of the colourings, number of clusters", "why_tests_cant": "A test follows one session; the exact step of the maximum relates the components before and after any call.", "anchors": ["src/cognitivefactory/interactive_clustering/constraints/binary.py:BinaryConstraintsManager.get_min_and_max_number_of_clusters", "src/cognitivefactory/interactive_clustering/constraints/binary.py:BinaryConstraintsManager.add_constraint", "src/cognitivefactory/interactive_clustering/constraints/binary.py:BinaryConstraintsManager.delete_constraint", "src/cognitivefactory/interactive_clustering/constraints/binary.py:BinaryConstraintsManager.add_data_ID", "src/cognitivefactory/interactive_clustering/constraints/binary.py:BinaryConstraintsManager.delete_data_ID"]}
{"id": "C114", "title": "Spectral clustering on complete constraints depends on the constraints only", "statement": "When every pair of data is known, the result does not depend on the vectors nor on the kernel; with a solver that separates the blocks of a 0/1 matrix, asked for as many clusters as there are components, it is the ground truth.", "quantifier": "every reachable manager with complete constraints, all vectors, kernels, solvers, previous states", "why_tests_cant": "A test has one set of vectors; independence compares all of them.", "anchors": ["src/cognitivefactory/interactive_clustering/clustering/spectral.py:SpectralConstrainedClustering.cluster", "src/cognitivefactory/interactive_clustering/clustering/spectral.py:SpectralConstrainedClustering.clustering_spectral_model_SPEC"]}
{"id": "C115", "title": "A large enough weight makes MPCKMeans respect the constraints", "statement": "There is a weight from which a broken CANNOT_LINK or MUST_LINK costs more than any gain in distance, so that no constraint is broken unless no cluster is free.", "quantifier": "every weight, number of iterations, metric, centres, order of the points, set of constraints", "why_tests_cant": "Tests use a few weights; the claim is about all weights beyond a bound.", "anchors": ["src/cognitivefactory/interactive_clustering/clustering/mpckmeans.py:MPCKMeansConstrainedClustering.cluster", "src/cognitivefactory/interactive_clustering/clustering/mpckmeans.py:MPCKMeansConstrainedClustering.__init__"]}
{"id": "C116", "title": "Arguments of a wrong type are refused with a ValueError", "statement": "A call with an argument of a type other than the documented one raises ValueError and changes nothing; a call with arguments of the documented types is the documented call.", "quantifier": "every public function, all values of every argument, all states", "why_tests_cant": "Tests try one wrong value for some arguments; here each argument ranges over all kinds of values, alone and together.", "anchors": ["src/cognitivefactory/interactive_clustering/clustering/kmeans.py:KMeansConstrainedClustering.__init__", "src/cognitivefactory/interactive_clustering/clustering/kmeans.py:KMeansConstrainedClustering.cluster", "src/cognitivefactory/interactive_clustering/clustering/hierarchical.py:HierarchicalConstrainedClustering.__init__", "src/cognitivefactory/interactive_clustering/clustering/hierarchical.py:HierarchicalConstrainedClustering.cluster", "src/cognitivefactory/interactive_clustering/clustering/spectral.py:SpectralConstrainedClustering.__init__", "src/cognitivefactory/interactive_clustering/clustering/spectral.py:SpectralConstrainedClustering.cluster", "src/cognitivefactory/interactive_clustering/clustering/affinity_propagation.py:AffinityPropagationConstrainedClustering.__init__", "src/cognitivefactory/interactive_clustering/clustering/affinity_propagation.py:AffinityPropagationConstrainedClustering.cluster", "src/cognitivefactory/interactive_clustering/clustering/dbscan.py:DBScanConstrainedClustering.__init__", "src/cognitivefactory/interactive_clustering/clustering/dbscan.py:DBScanConstrainedClustering.cluster", "src/cognitivefactory/interactive_clustering/clustering/mpckmeans.py:MPCKMeansConstrainedClustering.__init__", "src/cognitivefactory/interactive_clustering/clustering/mpckmeans.py:MPCKMeansConstrainedClustering.cluster", "src/cognitivefactory/interactive_clustering/sampling/clusters_based.py:ClustersBasedConstraintsSampling.sample", "src/cognitivefactory/interactive_clustering/constraints/binary.py:BinaryConstraintsManager.add_data_ID", "src/cognitivefactory/interactive_clustering/constraints/binary.py:BinaryConstraintsManager.add_constraint"]}
{"id": "C117", "title": "KMeans settles when nothing constrains it, and may never settle when something does", "statement": "With a tolerance of zero, no CANNOT_LINK, MUST_LINK only between data at the same place, and in exact arithmetic: a KMeans call given more rounds than there are numberings of the data (nb_clusters to the power of the number of data) returns a clustering in which no data is closer to the centre of another cluster than to the centre of its own, and more rounds do not change the sum of squared distances. With two CANNOT_LINK or two MUST_LINK this is lost: for some data the call returns one clustering for every odd number of rounds and another for every even number.", "quantifier": "all reachable managers without tension, all rational vectors, numbers of clusters, draws, numbers of rounds above the bound, object states; for the second part all numbers of rounds", "why_tests_cant": "settling is about the limit of the loop; a test fixes max_iteration and sees one point of the sequence, and an oscillation looks like a normal result for each given number of rounds", "anchors": ["src/cognitivefactory/interactive_clustering/clustering/kmeans.py:KMeansConstrainedClustering._clustering_kmeans_model_COP", "src/cognitivefactory/interactive_clustering/clustering/kmeans.py:KMeansConstrainedClustering.cluster"]}
{"id": "C118", "title": "tf-idf vectors tell different texts apart", "statement": "Two texts with different words get different tf-idf vectors.", "quantifier": "every dictionary of texts, every pair of texts in it, every weighting and normalization", "why_tests_cant": "A test compares a few vectors; which texts are indistinguishable depends on all the other texts.", "anchors": ["src/cognitivefactory/interactive_clustering/utils/vectorization.py:vectorize"]}
{"id": "C119", "title": "Sampling with stale results fails exactly when a managed data is missing", "statement": "A sampling whose clustering or vectors were computed before data were added or deleted: entries of data that are not managed any more are ignored, and KeyError is raised exactly when a needed dictionary lacks a managed data (for the clustering: one that can be paired). ValueError is raised exactly for a negative number, a needed dictionary that is not given, or distances between no data. Nothing else is raised.", "quantifier": "all reachable managers, options accepted by the constructor, numbers, clusterings, vectors and states of the sampler", "why_tests_cant": "A test tries one missing entry; here every combination of options and missing entries is covered, with the converse (no other failure).", "anchors": ["src/cognitivefactory/interactive_clustering/sampling/clusters_based.py:ClustersBasedConstraintsSampling.sample"]}
{"id": "C120", "title": "Hierarchical clustering and sampling depend only on the order of the distances", "statement": "Replace all distances by others that compare alike (for instance their squares): with average, complete or single linkage, HierarchicalConstrainedClustering.cluster builds the same tree and gives the same clusters; sampling gives the same pairs. If moreover sums and divisions agree, as in a change of unit, 'ward' and KMeans (with its tolerance in the new unit) also give the same results.", "quantifier": "all managers, vectors, numbers of clusters, options, states of the objects; all pairs of distance functions related by an increasing injection", "why_tests_cant": "Two implementations of the distance must be compared on every run; a hidden constant or a mixed comparison shows up only for some values.", "anchors": ["src/cognitivefactory/interactive_clustering/clustering/hierarchical.py:HierarchicalConstrainedClustering.cluster", "src/cognitivefactory/interactive_clustering/sampling/clusters_based.py:ClustersBasedConstraintsSampling.sample", "src/cognitivefactory/interactive_clustering/clustering/kmeans.py:KMeansConstrainedClustering.cluster"]}
{"id": "C121", "title": "DBScan does not depend on the unit of the distances", "statement": "Replace distances and eps by the same quantities in another unit: DBScanConstrainedClustering.cluster gives the same clusters.", "quantifier": "all managers, vectors, parameters and states of the object; all pairs of distance functions related by an increasing injection", "why_tests_cant": "The comparison of eps with a number of data (line 525) is invisible as long as eps stays on the same side of the sizes.", "anchors": ["src/cognitivefactory/interactive_clustering/clustering/dbscan.py:DBScanConstrainedClustering.cluster"]}
{"id": "C122", "title": "KMeans treats identical data alike", "statement": "Two data with the same vector, for which no constraint with any other data is known or inferred, end in the same cluster of KMeansConstrainedClustering.cluster, whatever constraints bind the other data, whatever the shuffle, the tolerance and the number of iterations.", "quantifier": "all reachable managers, vectors, numbers of clusters, shuffles and set orders; all distances that depend on the two vectors only and are totally ordered", "why_tests_cant": "Ties between centroids are broken by position: a test with two equal vectors cannot show that no order of the data or of the centroids breaks them differently.", "anchors": ["src/cognitivefactory/interactive_clustering/clustering/kmeans.py:KMeansConstrainedClustering.cluster", "src/cognitivefactory/interactive_clustering/clustering/kmeans.py:KMeansConstrainedClustering._clustering_kmeans_model_COP"]}
{"id": "C123", "title": "Hierarchical clustering keeps identical data together", "statement": "Without constraints between different vectors, HierarchicalConstrainedClustering puts data with the same vector in the same cluster as long as the number of clusters is at most the number of different vectors.", "quantifier": "all reachable managers, vectors with repetitions, numbers of clusters, linkages and ways to cut", "why_tests_cant": "The tree joins identical data first, so a test that looks at the tree succeeds; the cut by size may undo these merges, for some sizes of the groups only.", "anchors": ["src/cognitivefactory/interactive_clustering/clustering/hierarchical.py:HierarchicalConstrainedClustering.cluster", "src/cognitivefactory/interactive_clustering/clustering/hierarchical.py:HierarchicalConstrainedClustering.compute_predicted_clusters"]}
{"id": "C124", "title": "DBScan treats identical data alike", "statement": "Without CANNOT_LINK, two data with the same vector, for which no constraint with any other data is known or inferred, end in the same cluster of DBScanConstrainedClustering.cluster, or are both ignored.", "quantifier": "all reachable managers, vectors, parameters, set orders and states of the object", "why_tests_cant": "The order of the data and of their names decides which core cluster takes a border point; a test fixes one order.", "anchors": ["src/cognitivefactory/interactive_clustering/clustering/dbscan.py:DBScanConstrainedClustering.cluster"]}
{"id": "C125", "title": "Results do not depend on the system of coordinates", "statement": "When all vectors are turned, mirrored or shifted alike (more generally: moved so that distances, and means where they are used, follow), KMeans, hierarchical (each linkage), DBScan, spectral and affinity propagation clustering give the same clusters or the same error, later cuts of the hierarchical tree included, and the sampler selects the same pairs.", "quantifier": "all managers, vectors, parameters, choices of the oracles and previous states of the objects; all isometries in exact arithmetic", "why_tests_cant": "There are infinitely many moves of the space; a test tries a few and cannot tell rounding from a dependence on the coordinates.", "anchors": ["src/cognitivefactory/interactive_clustering/clustering/hierarchical.py:HierarchicalConstrainedClustering.cluster", "src/cognitivefactory/interactive_clustering/clustering/kmeans.py:KMeansConstrainedClustering.cluster", "src/cognitivefactory/interactive_clustering/clustering/dbscan.py:DBScanConstrainedClustering.cluster", "src/cognitivefactory/interactive_clustering/clustering/spectral.py:SpectralConstrainedClustering.cluster", "src/cognitivefactory/interactive_clustering/clustering/affinity_propagation.py:AffinityPropagationConstrainedClustering.cluster", "src/cognitivefactory/interactive_clustering/sampling/clusters_based.py:ClustersBasedConstraintsSampling.sample"]}
{"id": "C126", "title": "One ranking of the pairs decides all distance-based samples", "statement": "With a closest or farthest restriction, the IDs, vectors and clusters fix one ranking of the pairs, and every sample is the beginning of what is still eligible in it, whatever is known and whatever was sampled before. So a smaller sample begins a larger one, a proposed pair is proposed again until something is known about it, and sampling in portions proposes the pairs of one large sample.", "quantifier": "all reachable managers with the same IDs, numbers of pairs, vectors, clusterings, states of the sampler, and distances compared by a strict weak order", "why_tests_cant": "It relates the results of calls on different managers and with different sizes, ties included; a test compares a few of them.", "anchors": ["src/cognitivefactory/interactive_clustering/sampling/clusters_based.py:ClustersBasedConstraintsSampling.sample"]}
{"id": "C127", "title": "The saved file is determined by the content", "statement": "The file written by to_json lists the IDs in the order in which they are managed and the added constraints sorted by the positions of their IDs in that order. So managers with the same IDs in the same order and the same added constraints write the same file whatever their histories, managers that write the same file have the same content, and loading and saving again reproduces the file.", "quantifier": "all reachable managers, whatever IDs and constraints were added and deleted before", "why_tests_cant": "The order inside the nested dictionaries depends on all insertions and deletions; a test compares the files of a few histories.", "anchors": ["src/cognitivefactory/interactive_clustering/constraints/binary.py:BinaryConstraintsManager.to_json", "src/cognitivefactory/interactive_clustering/constraints/binary.py:load_constraints_manager_from_json", "src/cognitivefactory/interactive_clustering/constraints/binary.py:BinaryConstraintsManager.add_data_ID", "src/cognitivefactory/interactive_clustering/constraints/binary.py:BinaryConstraintsManager.delete_data_ID", "src/cognitivefactory/interactive_clustering/constraints/binary.py:BinaryConstraintsManager.add_constraint", "src/cognitivefactory/interactive_clustering/constraints/binary.py:BinaryConstraintsManager.delete_constraint"]}
{"id": "C128", "title": "Every change can be taken back", "statement": "After any history without deleted ID, taking its effective calls back, the last one first, is never refused and restores the IDs, their order and all added constraints. An ID that was deleted can be managed again and given its constraints again, in any order, without a refusal: the answers are those of before, and only its position changes.", "quantifier": "all reachable managers and all histories, refused and useless calls included", "why_tests_cant": "It needs that no remaining constraint depends on what is deleted, in every state; a test takes back a few calls.", "anchors": ["src/cognitivefactory/interactive_clustering/constraints/binary.py:BinaryConstraintsManager.add_data_ID", "src/cognitivefactory/interactive_clustering/constraints/binary.py:BinaryConstraintsManager.delete_data_ID", "src/cognitivefactory/interactive_clustering/constraints/binary.py:BinaryConstraintsManager.add_constraint", "src/cognitivefactory/interactive_clustering/constraints/binary.py:BinaryConstraintsManager.delete_constraint", "src/cognitivefactory/interactive_clustering/constraints/binary.py:BinaryConstraintsManager.get_added_constraint"]}
{"id": "C129", "title": "KMeans runs that meet again stay together", "statement": "If the runs of KMeans with limits n and n + k on the number of rounds leave the same centroids, the results of all larger limits repeat with period k. In particular, as soon as one more round changes no centroid, larger limits change nothing at all.", "quantifier": "all managers, constraints, vectors, distances, tolerances, numbers of clusters and limits", "why_tests_cant": "It relates the runs for infinitely many limits; a test compares a few.", "anchors": ["src/cognitivefactory/interactive_clustering/clustering/kmeans.py:KMeansConstrainedClustering.cluster"]}
{"id": "C130", "title": "A sampler only sees which data are together", "statement": "Two clusterings that put the same managed IDs together, whatever the numbers of their clusters, the order of their entries and their entries for other IDs, make a sampler return the same pairs in the same order, or fail in the same way. When the number of pairs asked for is not reached, the pairs sampled in the same cluster and the pairs sampled in different clusters are together, without repetition, the pairs sampled without a restriction on clusters.", "quantifier": "all managers, samplers, options, numbers of pairs, clusterings, vectors and valid random draws", "why_tests_cant": "It compares runs on all renumberings of a clustering, and runs with three settings; a test compares a few outputs.", "anchors": ["src/cognitivefactory/interactive_clustering/sampling/clusters_based.py:ClustersBasedConstraintsSampling.sample"]}
{"id": "C131", "title": "Separate teams do not disturb each other", "statement": "Let the data be split in two sides, and let every call of a history of a manager be about data of one side only. The answers and errors of the calls of a side are those of a manager that has only the data of this side and gets only its calls. The manager of the whole history has the IDs of the two managers, knows nothing between the two sides, and has their components.", "quantifier": "all lists of IDs, all ways to split them, all histories of calls, in any interleaving", "why_tests_cant": "It compares every interleaving of two histories with the histories alone; a test compares a few.", "anchors": ["src/cognitivefactory/interactive_clustering/constraints/binary.py:BinaryConstraintsManager.add_constraint", "src/cognitivefactory/interactive_clustering/constraints/binary.py:BinaryConstraintsManager._add_constraint_transitivity", "src/cognitivefactory/interactive_clustering/constraints/binary.py:BinaryConstraintsManager.get_connected_components"]}
{"id": "C132", "title": "A larger eps and a smaller min_samples never make DBScan ignore more data", "statement": "Call DBScan twice on the same data and the same constraints, without CANNOT_LINK, the second time with a larger or equal eps and a smaller or equal min_samples. Data that are in a cluster the first time are in a cluster the second time.", "quantifier": "all managers without CANNOT_LINK, vectors, distances, values of eps and min_samples, and set orders", "why_tests_cant": "It compares two runs for all pairs of parameters; a test compares a few.", "anchors": ["src/cognitivefactory/interactive_clustering/clustering/dbscan.py:DBScanConstrainedClustering.cluster"]}
{"id": "C133", "title": "The iterations an annotation loop takes lie in an exact range", "statement": "When sampled pairs are annotated by a fixed ground truth (sampling without inferred constraints, no cluster restriction), the loop of the usage guide ends after at most (c - k) + u iterations, with c the current connected components, k the ground-truth groups and u the pairs of data of different groups not yet known to be different.  From an empty manager with n data, nb pairs at a time: rounds <= (n - k) + (pairs of data of different groups) and nb * rounds >= (n - k) + k(k-1)/2.  For every ground truth both bounds are attained with nb = 1 by some behaviour of random.sample.", "quantifier": "all reachable managers that agree with the ground truth, all ground truths, all nb >= 1, all valid random draws (different in every iteration), all distances and vectors, all sampler states", "why_tests_cant": "The bounds and that they are sharp concern all orders in which pairs can be drawn; tests run one draw of one ground truth.", "anchors": ["src/cognitivefactory/interactive_clustering/sampling/clusters_based.py:ClustersBasedConstraintsSampling.sample", "src/cognitivefactory/interactive_clustering/constraints/binary.py:BinaryConstraintsManager.add_constraint", "src/cognitivefactory/interactive_clustering/constraints/binary.py:BinaryConstraintsManager.check_completude_of_constraints"]}
{"id": "C134", "title": "A KMeans call that stops early is settled up to its tolerance", "statement": "For any distance that is a metric and any constraints: a KMeans call makes between 1 and max_iteration rounds, and when it makes fewer than max_iteration, the leader of each component (its last data) is at most tolerance farther from the mean of its cluster than from the mean of any other returned cluster that no CANNOT_LINK excludes for it. Without the tolerance this is false: with the default arguments and no constraint a call can stop although a data is closer to the mean of another cluster.", "quantifier": "all reachable managers, vectors, metrics with values in any ordered type of lengths, means, draws, set orders, tolerances, numbers of clusters and of rounds, object states", "why_tests_cant": "the guarantee holds for every point and every other cluster of every run that stops; a test checks some labels of one run and never compares distances to the final means", "anchors": ["src/cognitivefactory/interactive_clustering/clustering/kmeans.py:KMeansConstrainedClustering.cluster"]}
{"id": "C135", "title": "A change that is interrupted can be repeated or taken back", "statement": "KeyboardInterrupt or MemoryError can stop a method of the manager after any of its writes. A change that was stopped should be completed by calling the method again, and the manager should stay coherent. False: after a stopped add_constraint the same call returns True and changes nothing, and contradictory constraints are then accepted; after a stopped delete_data_ID the manager can refuse the ID, raise KeyError for other calls, and write a file that cannot be loaded. What holds: a stopped change of the constraint of a pair is repaired by delete_constraint on this pair, a stopped deletion of an ID by adding and deleting it, a stopped addition of an ID by deleting it; a stopped change of constraints is saved as before or as after; a stopped addition of a constraint keeps all earlier inferences and gives none that the whole addition would not give.", "quantifier": "all reachable managers, all changing methods with all arguments, all points between two writes", "why_tests_cant": "an interruption falls between two lines of one call; tests only see the manager after whole calls", "anchors": ["src/cognitivefactory/interactive_clustering/constraints/binary.py:BinaryConstraintsManager.add_constraint", "src/cognitivefactory/interactive_clustering/constraints/binary.py:BinaryConstraintsManager.delete_constraint", "src/cognitivefactory/interactive_clustering/constraints/binary.py:BinaryConstraintsManager.add_data_ID", "src/cognitivefactory/interactive_clustering/constraints/binary.py:BinaryConstraintsManager.delete_data_ID", "src/cognitivefactory/interactive_clustering/constraints/binary.py:BinaryConstraintsManager._add_constraint_transitivity", "src/cognitivefactory/interactive_clustering/constraints/binary.py:BinaryConstraintsManager._generate_constraints_transitivity"]}
{"id": "C136", "title": "Random choices are fair", "statement": "A sampler without distance restriction favours no pair: over the random integers drawn by random.sample, every list of min(nb_to_select, number of eligible pairs) eligible pairs is answered for exactly one run, so every eligible pair is selected at the same rate, number selected over number of eligible pairs. In the same way random.shuffle gives every order once, and the vector of every data ID is one of the first centroids of KMeans at the same rate, number of clusters over number of data, when the vectors are distinct.", "quantifier": "all reachable managers, all options without distance restriction, all clusterings, all numbers of pairs, both branches of random.sample; all lists of data IDs, all distinct vectors, all numbers of clusters", "why_tests_cant": "the tests fix one seed, that is one run of the generator, for each call", "anchors": ["src/cognitivefactory/interactive_clustering/sampling/clusters_based.py:ClustersBasedConstraintsSampling.sample", "src/cognitivefactory/interactive_clustering/clustering/kmeans.py:KMeansConstrainedClustering.initialize_centroids"]}
{"id": "C137", "title": "Complete linkage keeps the clusters as narrow as possible", "statement": "With complete linkage, no other clustering with as many clusters that respects the constraints has only narrower clusters. False without any constraint. What holds: after a cut by iteration, joining two clusters that no CANNOT_LINK separates would put together two data at least as far from each other as any two data that are together now without a MUST_LINK. This fails for the cut by size that cluster makes.", "quantifier": "all reachable managers, all vectors with a symmetric distance into a total order, all numbers of clusters, all cuts by iteration", "why_tests_cant": "needs every pair of clusters of every cut; the tests compare a few results with expected dictionaries", "anchors": ["src/cognitivefactory/interactive_clustering/clustering/hierarchical.py:HierarchicalConstrainedClustering.cluster", "src/cognitivefactory/interactive_clustering/clustering/hierarchical.py:HierarchicalConstrainedClustering.compute_predicted_clusters"]}
{"id": "C138", "title": "Distances that are floats compare as the numbers they stand for", "statement": "Python's comparisons of two binary64 floats that are not NaN are the comparisons of the numbers they stand for; they meet the hypotheses under which this development proves properties of the algorithms (a strict weak order; a strict total order without the second zero; infinity below nothing). Hence sampling with a distance restriction returns pairs sorted by the numbers their distances stand for and leaves out no strictly better pair, as soon as no eligible pair has a NaN distance.", "quantifier": "all pairs of binary64 floats; all reachable managers, vectors, matrices of floats, options and clustering results", "why_tests_cant": "Tests use a few small vectors; a NaN distance, which finite vectors may give by overflow, silently returns a pair that is not the closest.", "anchors": ["src/cognitivefactory/interactive_clustering/sampling/clusters_based.py:ClustersBasedConstraintsSampling.sample.sample", "src/cognitivefactory/interactive_clustering/clustering/hierarchical.py:HierarchicalConstrainedClustering.cluster", "src/cognitivefactory/interactive_clustering/clustering/kmeans.py:KMeansConstrainedClustering.cluster"]}
{"id": "C139", "title": "Merges come in the order of their distances with rounded distances", "statement": "With the distances as scikit-learn rounds them, the distance between two data does not depend on which comes first, and with single or complete linkage a later merge is never between closer clusters than an earlier one. False: the rounded matrix is not symmetric, and three points on a line without constraints give a second merge at a smaller distance than the first. What holds for every matrix: after a merge at some distance no later merge joins two data that are nearer than it in both directions (single linkage), or only such data (complete linkage).", "quantifier": "all reachable managers, all matrices of totally ordered distances, symmetric or not, all pairs of merges of a tree", "why_tests_cant": "the difference is in the last bits of a distance and shows only for some triples of points", "anchors": ["src/cognitivefactory/interactive_clustering/clustering/hierarchical.py:HierarchicalConstrainedClustering.cluster", "src/cognitivefactory/interactive_clustering/clustering/hierarchical.py:HierarchicalConstrainedClustering._compute_distance", "src/cognitivefactory/interactive_clustering/clustering/hierarchical.py:HierarchicalConstrainedClustering._get_the_two_clostest_clusters"]}
{"id": "C140", "title": "Constraints added at the same time by several threads end as if added one after another", "statement": "Calls of add_constraint, get_added_constraint and get_inferred_constraint that several threads make on one manager return, and leave, what they do one after the other. False without a lock: of two threads that add a = b and b = c both can return True while the manager infers nothing between a and b, and of two that add a = b and a different from b both can return True. What holds: when no data that one call can change is changed or asked about by another, every order of the reads and writes of any number of threads ends with the manager and the results of the calls one after the other; the same for threads with several calls that each stay in a part of the data of their own, when no inferred constraint leaves a part.", "quantifier": "all reachable managers, all numbers of threads and calls, all orders of their single reads and writes of dictionary entries", "why_tests_cant": "the outcome depends on when the interpreter switches threads, which tests do not control", "anchors": ["src/cognitivefactory/interactive_clustering/constraints/binary.py:BinaryConstraintsManager.add_constraint", "src/cognitivefactory/interactive_clustering/constraints/binary.py:BinaryConstraintsManager._add_constraint_transitivity", "src/cognitivefactory/interactive_clustering/constraints/binary.py:BinaryConstraintsManager.get_added_constraint", "src/cognitivefactory/interactive_clustering/constraints/binary.py:BinaryConstraintsManager.get_inferred_constraint"]}
{"id": "C141", "title": "Constraints that the clusters already meet leave the clusters as they are", "statement": "If the clusters of a hierarchical run meet every constraint of a second manager of the same data, and the second manager knows all that the first knows, then clustering with the second manager gives the same clusters. In particular right answers never make a right result wrong.", "quantifier": "every two managers of the same data, every vectors and distances, every linkage, every number of clusters", "why_tests_cant": "A test adds one constraint to one data set and looks at one result; whether an answer that agrees with the clusters can disturb them depends on the order of all merges.", "anchors": ["src/cognitivefactory/interactive_clustering/clustering/hierarchical.py:HierarchicalConstrainedClustering.cluster", "src/cognitivefactory/interactive_clustering/clustering/hierarchical.py:HierarchicalConstrainedClustering.compute_predicted_clusters"]}
{"id": "C142", "title": "Clearly separated clusters are found", "statement": "If any two data of one true cluster are nearer to each other than any two data of different true clusters, and every constraint is right, then clustering into the true number of clusters gives the true clusters. It is enough that this holds for the pairs that the constraints do not decide. DBScan finds them when eps lies between the distances within and across.", "quantifier": "every reachable manager, every vectors and distances, every true clusters that the constraints respect, every linkage and k-means run and DBScan parameters", "why_tests_cant": "A test clusters one small easy data set. Whether an easy data set can still be clustered wrongly depends on all sizes, positions and orders of the data.", "anchors": ["src/cognitivefactory/interactive_clustering/clustering/hierarchical.py:HierarchicalConstrainedClustering.cluster", "src/cognitivefactory/interactive_clustering/clustering/hierarchical.py:HierarchicalConstrainedClustering.compute_predicted_clusters", "src/cognitivefactory/interactive_clustering/clustering/kmeans.py:KMeansConstrainedClustering.cluster", "src/cognitivefactory/interactive_clustering/clustering/dbscan.py:DBScanConstrainedClustering.cluster"]}
{"id": "C143", "title": "KMeans is not disturbed by constraints that its clusters meet", "statement": "If the clusters that KMeans finds with one manager meet every constraint of a second manager of the same data, which knows all that the first knows, then the call with the second manager finds the same clusters. In particular right answers never make a right result wrong.", "quantifier": "every two managers of the same data, every vectors, distances, random choices, numbers of clusters and parameters", "why_tests_cant": "A test adds one constraint to one data set. Whether a constraint that is met in the end can disturb an earlier round, and so the end, depends on all rounds of all runs.", "anchors": ["src/cognitivefactory/interactive_clustering/clustering/kmeans.py:KMeansConstrainedClustering.cluster", "src/cognitivefactory/interactive_clustering/clustering/kmeans.py:KMeansConstrainedClustering._clustering_kmeans_model_COP"]}
{"id": "C144", "title": "Right constraints bound how wrong the clusters can be", "statement": "If every constraint is right, then clusters that respect the constraints are only wrong about pairs of data that the constraints do not decide, so they are wrong about at most as many pairs as are undecided. About each undecided pair every result is wrong for some truth that the constraints allow. The bound does not grow as constraints are added, and shrinks whenever one decides a pair. KMeans and hierarchical clustering, including later cuts in two or more clusters, give such clusters.", "quantifier": "every reachable manager, every true clusters that the constraints respect, every vectors, distances, linkages, random choices and parameters", "why_tests_cant": "A test compares one result with one truth. How wrong a result can be ranges over all truths that the constraints allow.", "anchors": ["src/cognitivefactory/interactive_clustering/clustering/hierarchical.py:HierarchicalConstrainedClustering.cluster", "src/cognitivefactory/interactive_clustering/clustering/hierarchical.py:HierarchicalConstrainedClustering.compute_predicted_clusters", "src/cognitivefactory/interactive_clustering/clustering/kmeans.py:KMeansConstrainedClustering.cluster", "src/cognitivefactory/interactive_clustering/constraints/binary.py:BinaryConstraintsManager.get_inferred_constraint"]}
{"id": "C145", "title": "Threads may ask while one thread changes the manager", "statement": "While one thread changes a manager (adds or deletes data and constraints, one call after the other), other threads may ask for added and inferred constraints: the changes end as if nobody asked, and every question is answered as it would be after some number of the changes, in order.", "quantifier": "every reachable manager, every list of changes, any number of asking threads with any number of questions, every interleaving of their single reads and writes of dictionary entries", "why_tests_cant": "A test with threads sees a few of the possible interleavings, and not the same ones each time.", "anchors": ["src/cognitivefactory/interactive_clustering/constraints/binary.py:BinaryConstraintsManager.add_data_ID", "src/cognitivefactory/interactive_clustering/constraints/binary.py:BinaryConstraintsManager.delete_data_ID", "src/cognitivefactory/interactive_clustering/constraints/binary.py:BinaryConstraintsManager.add_constraint", "src/cognitivefactory/interactive_clustering/constraints/binary.py:BinaryConstraintsManager.delete_constraint", "src/cognitivefactory/interactive_clustering/constraints/binary.py:BinaryConstraintsManager.get_added_constraint", "src/cognitivefactory/interactive_clustering/constraints/binary.py:BinaryConstraintsManager.get_inferred_constraint", "src/cognitivefactory/interactive_clustering/constraints/binary.py:BinaryConstraintsManager._generate_constraints_transitivity", "src/cognitivefactory/interactive_clustering/constraints/binary.py:BinaryConstraintsManager._add_constraint_transitivity"]}
{"id": "C146", "title": "What one answer teaches", "statement": "Take two data that nothing is known about. Among the undecided pairs of data, answering CANNOT_LINK about the two decides exactly those that take one data known to be with the first and one known to be with the second. Answering MUST_LINK decides these too, and exactly those that take one data known to be with the one and one known to be apart from the other. The numbers of pairs decided follow: every such answer decides at least one pair, and MUST_LINK never decides less than CANNOT_LINK.", "quantifier": "every reachable manager, every two managed data that no constraint decides, both answers, every pair of managed data", "why_tests_cant": "A test adds one constraint to one manager and looks at a few pairs. Which pairs change depends on everything that is known already.", "anchors": ["src/cognitivefactory/interactive_clustering/constraints/binary.py:BinaryConstraintsManager.add_constraint", "src/cognitivefactory/interactive_clustering/constraints/binary.py:BinaryConstraintsManager.get_inferred_constraint", "src/cognitivefactory/interactive_clustering/constraints/binary.py:BinaryConstraintsManager._add_constraint_transitivity"]}
{"id": "C147", "title": "How much some constraints can decide", "statement": "However they were chosen, k constraints between n data decide at least k and at most k(k+1)/2 of the n(n-1)/2 pairs of data. So fewer than n - 1 constraints never decide everything, and clusters that respect k right constraints are wrong about at most n(n-1)/2 - k pairs. Both bounds are reached for every k that is possible.", "quantifier": "every reachable manager, whatever was added and deleted; for reaching the bounds, every list of data and every possible number of constraints", "why_tests_cant": "A test looks at some constraints. The bounds are about every way to choose k constraints.", "anchors": ["src/cognitivefactory/interactive_clustering/constraints/binary.py:BinaryConstraintsManager.add_constraint", "src/cognitivefactory/interactive_clustering/constraints/binary.py:BinaryConstraintsManager.get_added_constraint", "src/cognitivefactory/interactive_clustering/constraints/binary.py:BinaryConstraintsManager.get_inferred_constraint"]}
{"id": "C148", "title": "What a call on the manager costs", "statement": "Counting tests, reads and assignments of entries of the two dictionaries of the manager, with n data and k constraints: a question about two data costs at most 4; adding a constraint at most 2n + 14; adding a data at most n + 5; deleting a constraint or a data at most 5 + 2n + n(n+1)/2 + (4n+6)(n+k), and never less than n(n+1)/2, because everything is inferred again.", "quantifier": "every reachable manager and every argument, refused calls included; n and k are those after the call for deletions", "why_tests_cant": "A test measures some calls on some managers. A bound is about all of them.", "anchors": ["src/cognitivefactory/interactive_clustering/constraints/binary.py:BinaryConstraintsManager.add_data_ID", "src/cognitivefactory/interactive_clustering/constraints/binary.py:BinaryConstraintsManager.delete_data_ID", "src/cognitivefactory/interactive_clustering/constraints/binary.py:BinaryConstraintsManager.add_constraint", "src/cognitivefactory/interactive_clustering/constraints/binary.py:BinaryConstraintsManager.delete_constraint", "src/cognitivefactory/interactive_clustering/constraints/binary.py:BinaryConstraintsManager.get_added_constraint", "src/cognitivefactory/interactive_clustering/constraints/binary.py:BinaryConstraintsManager.get_inferred_constraint", "src/cognitivefactory/interactive_clustering/constraints/binary.py:BinaryConstraintsManager._generate_constraints_transitivity", "src/cognitivefactory/interactive_clustering/constraints/binary.py:BinaryConstraintsManager._add_constraint_transitivity"]}
{"id": "C149", "title": "How many confirmations make clusters sure", "statement": "Take clusters that respect the known constraints. They are sure (no other clusters respect the constraints) exactly when the constraints are complete. To be sure of c clusters of n data takes at least (n - c) + c(c-1)/2 constraints, whatever they are; with fewer, other clusters respect the constraints too. And for every clusters of the data, some (n - c) + c(c-1)/2 right answers make them sure.", "quantifier": "every reachable manager, every clustering that respects its constraints; for the last part, every list of data and every clustering", "why_tests_cant": "A test shows that some answers leave other clusters possible. The bound is about every choice of the answers, and about every other clusters.", "anchors": ["src/cognitivefactory/interactive_clustering/constraints/binary.py:BinaryConstraintsManager.add_constraint", "src/cognitivefactory/interactive_clustering/constraints/binary.py:BinaryConstraintsManager.get_inferred_constraint", "src/cognitivefactory/interactive_clustering/constraints/binary.py:BinaryConstraintsManager.check_completude_of_constraints"]}
{"id": "C150", "title": "A sampler with nothing to ask certifies the clusters", "statement": "Take clusters that respect the known constraints, and any true clusters that respect them too. A sampler restricted to pairs of the same cluster (without inferred constraints) has nothing to ask exactly when every cluster is certainly a part of a true cluster; a sampler restricted to different clusters has nothing to ask exactly when every true cluster is certainly a part of a cluster. The clusters are sure exactly when neither has something to ask, and every pair the clusters may be wrong about can be asked by one of the two.", "quantifier": "every reachable manager, all clusters and true clusters that respect its constraints, every random choice and all distances", "why_tests_cant": "A test compares with one ground truth. The property is about every ground truth that the constraints leave possible.", "anchors": ["src/cognitivefactory/interactive_clustering/sampling/clusters_based.py:ClustersBasedConstraintsSampling.sample.sample", "src/cognitivefactory/interactive_clustering/constraints/binary.py:BinaryConstraintsManager.get_inferred_constraint"]}
{"id": "C151", "title": "Small errors in the distances do little harm", "statement": "If every computed distance is within delta of the exact one, then a sampled closest (farthest) pair is at most 2*delta worse than any eligible pair that was not sampled; single linkage cut by iteration keeps the clusters as far apart as possible up to 2*delta; single and complete linkage cut by iteration find clusters that are separated by more than 2*delta; DBScan finds clusters whose inner distances are at most eps - delta and whose outer distances exceed eps + delta.", "quantifier": "all exact distances, all errors up to delta, every reachable manager and every constraints", "why_tests_cant": "Tests have one machine and one rounding. The property is about every error up to delta.", "anchors": ["src/cognitivefactory/interactive_clustering/sampling/clusters_based.py:ClustersBasedConstraintsSampling.sample.sample", "src/cognitivefactory/interactive_clustering/clustering/hierarchical.py:HierarchicalConstrainedClustering.cluster", "src/cognitivefactory/interactive_clustering/clustering/hierarchical.py:HierarchicalConstrainedClustering.compute_predicted_clusters", "src/cognitivefactory/interactive_clustering/clustering/dbscan.py:DBScanConstrainedClustering.cluster"]}
{"id": "C152", "title": "Listing the components while constraints are added", "statement": "One thread adds constraints to a manager, others list the connected components or check that the constraints are complete. The additions end as when they are made alone; each check is right about the constraints after some number of the additions; a list of components is a partition of the data, namely the components after some number of the additions.", "quantifier": "every reachable manager, every number of threads, of additions of constraints and of questions, every interleaving of their reads and writes", "why_tests_cant": "A test runs few of the interleavings, and does not choose them.", "anchors": ["src/cognitivefactory/interactive_clustering/constraints/binary.py:BinaryConstraintsManager.get_connected_components", "src/cognitivefactory/interactive_clustering/constraints/binary.py:BinaryConstraintsManager.check_completude_of_constraints", "src/cognitivefactory/interactive_clustering/constraints/binary.py:BinaryConstraintsManager.add_constraint"]}
{"id": "C153", "title": "Sampling while constraints are added", "statement": "One thread adds constraints to a manager, others sample pairs from it, any number of times, with the documented arguments. The additions end as when they are made alone, and no sampling fails. What a sampling returns lies between two moments: its pairs are distinct and were all eligible at the first moment; there are at least as many as the pairs still eligible at the second moment (or the number asked for); with the closest or farthest restriction they are in order, and no pair still eligible at the second moment is left out for one that comes after it.", "quantifier": "every reachable manager, every number of threads, of additions of constraints and of samplings, all options and documented arguments, every random choice and all distances, every interleaving of the reads and writes of the manager", "why_tests_cant": "A test runs few of the interleavings, and does not choose them.", "anchors": ["src/cognitivefactory/interactive_clustering/sampling/clusters_based.py:ClustersBasedConstraintsSampling.sample.sample", "src/cognitivefactory/interactive_clustering/constraints/binary.py:BinaryConstraintsManager.add_constraint", "src/cognitivefactory/interactive_clustering/constraints/binary.py:BinaryConstraintsManager.get_added_constraint", "src/cognitivefactory/interactive_clustering/constraints/binary.py:BinaryConstraintsManager.get_inferred_constraint"]}
{"id": "C154", "title": "Clustering with KMeans while constraints are added", "statement": "One thread adds constraints to a manager, others cluster its data with KMeans, with the documented arguments. The additions end as when they are made alone, no clustering fails, and each clustering gives a cluster to each of the data and respects all the constraints that were known when it started.", "quantifier": "every reachable manager, every number of threads and of additions of constraints, all documented arguments, all distances, means and random choices, every interleaving of the reads and writes of the manager", "why_tests_cant": "A test runs few of the interleavings, and does not choose them.", "anchors": ["src/cognitivefactory/interactive_clustering/clustering/kmeans.py:KMeansConstrainedClustering.cluster", "src/cognitivefactory/interactive_clustering/constraints/binary.py:BinaryConstraintsManager.add_constraint", "src/cognitivefactory/interactive_clustering/constraints/binary.py:BinaryConstraintsManager.get_inferred_constraint"]}
{"id": "C155", "title": "Hierarchical clustering while constraints are added", "statement": "One thread adds constraints to a manager, others cluster its data with the hierarchical method, with the documented arguments. The additions end as when they are made alone, no clustering fails, and each clustering gives a cluster to each of the data and respects all the constraints that were known when the threads started, whatever is added meanwhile.", "quantifier": "every reachable manager, every number of threads and of additions of constraints, all documented arguments, all distances and means, every interleaving of the reads and writes of the manager", "why_tests_cant": "A test runs few of the interleavings, and does not choose them; a listing of the components that another thread changes meanwhile puts data in two of the lists.", "anchors": ["src/cognitivefactory/interactive_clustering/clustering/hierarchical.py:HierarchicalConstrainedClustering.cluster", "src/cognitivefactory/interactive_clustering/constraints/binary.py:BinaryConstraintsManager.add_constraint", "src/cognitivefactory/interactive_clustering/constraints/binary.py:BinaryConstraintsManager.get_inferred_constraint", "src/cognitivefactory/interactive_clustering/constraints/binary.py:BinaryConstraintsManager.get_connected_components"]}
{"id": "C156", "title": "Affinity propagation while constraints are added", "statement": "One thread adds constraints to a manager, others cluster its data with affinity propagation. The additions end as when they are made alone, no clustering fails, and each gives a cluster to each of the data. With absolute_must_links, and similarities that are not all equal, data that were known as MUST_LINK when the threads started are in the same cluster, whatever is added meanwhile.", "quantifier": "every reachable manager, every number of threads and of additions of constraints, all parameters of the object, all similarities and noise, every interleaving of the reads and writes of the manager", "why_tests_cant": "A test runs few of the interleavings, and does not choose them; a listing of the components that another thread changes meanwhile puts data in two of the lists, so that two labels are written for one datum.", "anchors": ["src/cognitivefactory/interactive_clustering/clustering/affinity_propagation.py:AffinityPropagationConstrainedClustering.cluster", "src/cognitivefactory/interactive_clustering/clustering/affinity_propagation.py:_affinity_propagation_constrained", "src/cognitivefactory/interactive_clustering/constraints/binary.py:BinaryConstraintsManager.add_constraint", "src/cognitivefactory/interactive_clustering/constraints/binary.py:BinaryConstraintsManager.get_added_constraint", "src/cognitivefactory/interactive_clustering/constraints/binary.py:BinaryConstraintsManager.get_connected_components"]}
{"id": "C157", "title": "DBScan while constraints are added", "statement": "One thread adds constraints to a manager, others cluster its data with DBScan. The additions end as when they are made alone, no clustering fails, and each gives one value to each of the data: the regular clusters, then the ignored data. Data that were known as CANNOT_LINK when the threads started are in different clusters.", "quantifier": "every reachable manager, every number of threads and of additions of constraints, all documented parameters of the object, all distances that put no datum farther than eps from itself, every order of the sets of Python, every interleaving of the reads and writes of the manager", "why_tests_cant": "A test runs few of the interleavings, and does not choose them; the method asks the manager for the same constraints in three phases and takes the answers for the answers of one state.", "anchors": ["src/cognitivefactory/interactive_clustering/clustering/dbscan.py:DBScanConstrainedClustering.cluster", "src/cognitivefactory/interactive_clustering/constraints/binary.py:BinaryConstraintsManager.add_constraint", "src/cognitivefactory/interactive_clustering/constraints/binary.py:BinaryConstraintsManager.get_inferred_constraint"]}
{"id": "C158", "title": "Spectral clustering while constraints are added", "statement": "One thread adds constraints to a manager, others cluster its data with the spectral method. The additions end as when they are made alone, and no clustering fails unless the solver does. Each entry of the matrix that the solver gets is what it would be in one of the managers between two additions, and so is its mirror image; what is inferred at the start counts, what is not inferred at the end has its kernel, and the matrix is symmetric when the kernel is. The result follows the labels of the solver.", "quantifier": "every reachable manager, every number of threads and of additions of constraints, all vectors and numbers of clusters, every kernel and solver, every interleaving of the reads and writes of the manager", "why_tests_cant": "A test runs few of the interleavings, and does not choose them; each pair is read twice, and a constraint can come between the two reads.", "anchors": ["src/cognitivefactory/interactive_clustering/clustering/spectral.py:SpectralConstrainedClustering.cluster", "src/cognitivefactory/interactive_clustering/clustering/spectral.py:SpectralConstrainedClustering.clustering_spectral_model_SPEC", "src/cognitivefactory/interactive_clustering/constraints/binary.py:BinaryConstraintsManager.add_constraint", "src/cognitivefactory/interactive_clustering/constraints/binary.py:BinaryConstraintsManager.get_inferred_constraint"]}
{"id": "C159", "title": "MPCKMeans while constraints are added", "statement": "One thread adds constraints to a manager, others cluster its data with MPCKMeans. The additions end as when they are made alone. The constraints that a clustering works with may never have held together, but they make sense: they contain what was inferred at the start and only what is inferred at the end, the neighborhoods are a partition, must-links are those within a neighborhood, and cannot-links hold for whole neighborhoods. \"Inconsistent constraints\" is never raised. A clustering that returns is a run of the algorithm with these constraints, renamed canonically and covering all the data; it fails only for reasons it has alone.", "quantifier": "every reachable manager, every number of threads and of additions of constraints, all vectors in the order of the manager with the same width and all numbers of clusters, all arithmetics with an exact argmin, every choice of the random draws, every interleaving of the reads and writes of the manager", "why_tests_cant": "A test runs few of the interleavings, and does not choose them; the must-links and the cannot-links are read one after the other, pair by pair, and an addition can come anywhere in between.", "anchors": ["src/cognitivefactory/interactive_clustering/clustering/mpckmeans.py:MPCKMeansConstrainedClustering.cluster", "src/cognitivefactory/interactive_clustering/constraints/binary.py:BinaryConstraintsManager.add_constraint", "src/cognitivefactory/interactive_clustering/constraints/binary.py:BinaryConstraintsManager.get_inferred_constraint"]}
{"id": "C160", "title": "Saving while constraints are changed", "statement": "One thread adds and deletes constraints, others save the manager. The changes end as when they are made alone, and no saving fails. Each file is one that could have been saved between two of the changes, and it can be loaded again. (True with at most one change. In general the file lists the data and, for the pairs in order, the constraint they had after some number of the changes, which never goes back; when constraints are only added it can be loaded and the loaded manager is between the manager at the start and the one at the end.)", "quantifier": "every reachable manager, every number of threads and of additions and deletions of constraints, every interleaving of the reads and writes of the manager", "why_tests_cant": "A test runs few of the interleavings, and does not choose them; a file can mix the constraints of two moments, which shows only when it is loaded.", "anchors": ["src/cognitivefactory/interactive_clustering/constraints/binary.py:BinaryConstraintsManager.to_json", "src/cognitivefactory/interactive_clustering/constraints/binary.py:BinaryConstraintsManager.add_constraint", "src/cognitivefactory/interactive_clustering/constraints/binary.py:BinaryConstraintsManager.delete_constraint", "src/cognitivefactory/interactive_clustering/constraints/binary.py:load_constraints_manager_from_json"]}
{"id": "C161", "title": "Number of clusters while constraints are added", "statement": "One thread adds constraints, others ask for the minimum and maximum number of clusters. The additions end as when they are made alone, no question fails, and every number in the range is feasible with the constraints at the start or with those at the end. (In general: the minimum is at least 2 and not above the maximum when this is at least 2, the maximum is between the number of components at the end and the number of data. When nothing new is inferred as MUST_LINK, the maximum is the number of components and the whole range is feasible with the constraints at the start.)", "quantifier": "every reachable manager with data, every number of threads and of additions of constraints, every choice of the visiting orders of the colourings, every interleaving of the reads and writes of the manager", "why_tests_cant": "A test runs few of the interleavings, and does not choose them; the components are read one by one and the CANNOT_LINKs again later, and an addition can come anywhere in between.", "anchors": ["src/cognitivefactory/interactive_clustering/constraints/binary.py:BinaryConstraintsManager.get_min_and_max_number_of_clusters", "src/cognitivefactory/interactive_clustering/constraints/binary.py:BinaryConstraintsManager.get_connected_components", "src/cognitivefactory/interactive_clustering/constraints/binary.py:BinaryConstraintsManager.add_constraint"]}
{"id": "C162", "title": "Conflicts while constraints are added", "statement": "One thread adds constraints, others ask which data are involved in a conflict. The additions end as when they are made alone, wrong arguments are refused, and each answer is the one of the method after some number of the additions. (In general: whether there is a conflict is right after some number of the additions; the list has at least the data that are involved one addition before and only data that are involved at the end, perhaps with repetitions. When nothing new is inferred as MUST_LINK, the answer is the one of such a moment. When constraints are also deleted, a conflict may be reported although there never is one.)", "quantifier": "every reachable manager, every number of threads and of additions of constraints, every pair of data and every type of constraint, every interleaving of the reads and writes of the manager", "why_tests_cant": "A test runs few of the interleavings, and does not choose them; the inferred constraint is read twice and the components one by one after that, and an addition can come anywhere in between.", "anchors": ["src/cognitivefactory/interactive_clustering/constraints/binary.py:BinaryConstraintsManager.get_list_of_involved_data_IDs_in_a_constraint_conflict", "src/cognitivefactory/interactive_clustering/constraints/binary.py:BinaryConstraintsManager.get_inferred_constraint", "src/cognitivefactory/interactive_clustering/constraints/binary.py:BinaryConstraintsManager.get_connected_components", "src/cognitivefactory/interactive_clustering/constraints/binary.py:BinaryConstraintsManager.add_constraint", "src/cognitivefactory/interactive_clustering/constraints/binary.py:BinaryConstraintsManager.delete_constraint"]}
{"id": "C163", "title": "What a thread was told stays so while constraints are added", "statement": "One thread adds constraints, others ask for inferred constraints, for the connected components, for the completeness of the constraints and for conflicts, any number of times. When a thread asks the same again, it is not told less: an inferred constraint is the same one again, complete constraints are complete again, data that were in one component are in one component again, and a conflict is a conflict again, that involves at least the same data. (For the same question only: asked with the two data in the other order, the constraint may not be inferred yet.)", "quantifier": "every reachable manager, every number of threads, of additions of constraints and of questions, every interleaving of the reads and writes of the manager", "why_tests_cant": "A test runs few of the interleavings, and does not choose them; the answers of several calls, made while the rows of the inferred constraints are written one by one, are compared.", "anchors": ["src/cognitivefactory/interactive_clustering/constraints/binary.py:BinaryConstraintsManager.get_inferred_constraint", "src/cognitivefactory/interactive_clustering/constraints/binary.py:BinaryConstraintsManager.get_connected_components", "src/cognitivefactory/interactive_clustering/constraints/binary.py:BinaryConstraintsManager.check_completude_of_constraints", "src/cognitivefactory/interactive_clustering/constraints/binary.py:BinaryConstraintsManager.get_list_of_involved_data_IDs_in_a_constraint_conflict", "src/cognitivefactory/interactive_clustering/constraints/binary.py:BinaryConstraintsManager.add_constraint"]}
{"id": "C164", "title": "What threads are told lies between before and after", "statement": "One thread adds constraints, others ask for inferred constraints, for the connected components, for the completeness of the constraints and for conflicts, any number of times. No thread is told less than what the method returns before the additions: what was inferred, linked, complete or in conflict then is told to be so. What a thread is told is still returned by the method after the additions. So a constraint that some thread is told is inferred in the end, and no two threads are told different constraints between the same two data, in whatever order the data are given.", "quantifier": "every reachable manager, every number of threads, of additions of constraints and of questions, every interleaving of the reads and writes of the manager", "why_tests_cant": "A test runs few of the interleavings, and does not choose them; the answers of all the threads are compared with each other, although some are neither those before nor those after any addition.", "anchors": ["src/cognitivefactory/interactive_clustering/constraints/binary.py:BinaryConstraintsManager.get_inferred_constraint", "src/cognitivefactory/interactive_clustering/constraints/binary.py:BinaryConstraintsManager.get_connected_components", "src/cognitivefactory/interactive_clustering/constraints/binary.py:BinaryConstraintsManager.check_completude_of_constraints", "src/cognitivefactory/interactive_clustering/constraints/binary.py:BinaryConstraintsManager.get_list_of_involved_data_IDs_in_a_constraint_conflict", "src/cognitivefactory/interactive_clustering/constraints/binary.py:BinaryConstraintsManager.add_constraint"]}
{"id": "C165", "title": "An added constraint stays told until it is deleted", "statement": "One thread changes the manager, by additions and deletions of data and of constraints; others ask for added and inferred constraints. None of the changes deletes the constraint between two managed data nor one of the two. If the constraint was added before the changes, every thread that asks for it is told it, with its type and value. Once a thread is told it, the thread is told the same each time it asks, in whatever order the two data are given, and the constraint is there after the changes: no later addition overwrites it and the deletions of other data and constraints do not hide it. When the changes do not add the constraint either, each answer is the one before the changes. (The constraint that a thread was told may not be inferred yet, or not be inferred for a while when the inferred constraints are computed again.)", "quantifier": "every manager, every two managed data, every number of threads, of changes and of questions, every interleaving of the reads and writes of the manager", "why_tests_cant": "A test runs few of the interleavings, and does not choose them; the dictionary is changed entry by entry, and the answers of several calls made meanwhile are compared.", "anchors": ["src/cognitivefactory/interactive_clustering/constraints/binary.py:BinaryConstraintsManager.get_added_constraint", "src/cognitivefactory/interactive_clustering/constraints/binary.py:BinaryConstraintsManager.add_constraint", "src/cognitivefactory/interactive_clustering/constraints/binary.py:BinaryConstraintsManager.delete_constraint", "src/cognitivefactory/interactive_clustering/constraints/binary.py:BinaryConstraintsManager.add_data_ID", "src/cognitivefactory/interactive_clustering/constraints/binary.py:BinaryConstraintsManager.delete_data_ID"]}
{"id": "C166", "title": "Listing the managed data while they are changed", "statement": "One thread adds and deletes data and constraints; others list the managed data and ask for constraints. The changes end as when they are made alone. Each list of managed data is the one that the method returns after some number of the changes, and these numbers only grow from one list of a thread to its next: no thread sees a change undone. (A data in the list may not be ready: asking for its inferred constraints may be refused and asking for its added ones may raise a KeyError, because the data is listed before its entries are written.)", "quantifier": "every manager, every number of threads, of changes and of questions, every interleaving of the reads and writes of the manager", "why_tests_cant": "A test runs few of the interleavings, and does not choose them; a list is right only because each change writes the keys once, wherever the others look.", "anchors": ["src/cognitivefactory/interactive_clustering/constraints/binary.py:BinaryConstraintsManager.get_list_of_managed_data_IDs", "src/cognitivefactory/interactive_clustering/constraints/binary.py:BinaryConstraintsManager.add_data_ID", "src/cognitivefactory/interactive_clustering/constraints/binary.py:BinaryConstraintsManager.delete_data_ID", "src/cognitivefactory/interactive_clustering/constraints/binary.py:BinaryConstraintsManager.add_constraint", "src/cognitivefactory/interactive_clustering/constraints/binary.py:BinaryConstraintsManager.delete_constraint", "src/cognitivefactory/interactive_clustering/constraints/binary.py:BinaryConstraintsManager.get_inferred_constraint", "src/cognitivefactory/interactive_clustering/constraints/binary.py:BinaryConstraintsManager.get_added_constraint"]}
{"id": "C167", "title": "An inferred constraint stays told while data and constraints are added", "statement": "One thread adds data and constraints; others ask for added and inferred constraints. A constraint that is inferred before the additions is told by each question about it. Once a thread is told an inferred constraint, possibly of a data that was unknown when the thread asked first, it is told the same each time it asks the same, and the constraint is inferred after the additions. No two threads are told that two data must link and that they cannot. (This holds for additions only: while a constraint of other data is deleted, a thread can be told that two data must link, then that nothing is known of them, though they must link before and after.)", "quantifier": "every manager, every number of threads, of additions and of questions, every interleaving of the reads and writes of the manager", "why_tests_cant": "A test runs few of the interleavings, and does not choose them; the inferred constraints are changed row by row, and the answers of several calls made meanwhile are compared.", "anchors": ["src/cognitivefactory/interactive_clustering/constraints/binary.py:BinaryConstraintsManager.get_inferred_constraint", "src/cognitivefactory/interactive_clustering/constraints/binary.py:BinaryConstraintsManager.add_constraint", "src/cognitivefactory/interactive_clustering/constraints/binary.py:BinaryConstraintsManager.delete_constraint", "src/cognitivefactory/interactive_clustering/constraints/binary.py:BinaryConstraintsManager.add_data_ID"]}
