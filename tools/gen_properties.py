#!/usr/bin/env python3
"""Writes /verif/properties.jsonl (one JSON object per line)."""
import json, os
P=[]
B="src/cognitivefactory/interactive_clustering/"
def p(id,title,statement,quantifier,why,anchors):
    P.append(dict(id=id,title=title,statement=statement,quantifier=quantifier,why_tests_cant=why,anchors=anchors))
BIN=B+"constraints/binary.py"
def b(*s): return [BIN+":BinaryConstraintsManager."+x for x in s]

p("C01","Inferred constraints are exactly the transitive closure of the added ones",
 "After any history of API calls, get_inferred_constraint(a,b) on two managed IDs returns 'MUST_LINK' exactly when a and b are joined by a chain of currently added MUST_LINK constraints, 'CANNOT_LINK' exactly when some ID joined to a and some ID joined to b carry a currently added CANNOT_LINK, and None exactly otherwise.",
 "every initial list of IDs, every finite history of API calls (successful or raising), every pair of managed IDs",
 "The transitivity structure is maintained incrementally by additions and rebuilt by deletions; agreement with the closure has to hold after every interleaving of them.",
 b("get_inferred_constraint","_add_constraint_transitivity","_generate_constraints_transitivity"))
p("C02","Inference is sound and complete for entailment",
 "get_inferred_constraint(a,b) returns 'MUST_LINK' iff every labelling of the data that satisfies all added constraints gives a and b the same label, 'CANNOT_LINK' iff every such labelling gives them different labels, and None iff satisfying labellings of both kinds exist.",
 "every reachable manager, every pair of managed IDs, every labelling function",
 "Quantifies over all labellings of the data.",
 b("get_inferred_constraint"))
p("C03","The set of added constraints is always satisfiable",
 "In every reachable manager some labelling of the data satisfies all added constraints; in particular no pair is inferred both MUST_LINK and CANNOT_LINK and get_inferred_constraint(x,x) is always 'MUST_LINK'.",
 "every initial list of IDs and every history of API calls",
 "A contradiction could be created by any interleaving of additions and deletions.",
 b("add_constraint","delete_constraint","delete_data_ID"))
p("C04","add_constraint refuses exactly the contradictory constraints",
 "On managed IDs and an allowed type, add_constraint raises ValueError iff no labelling satisfies the added constraints together with the new one, and returns True otherwise; on an unmanaged ID or another type it always raises ValueError.",
 "every reachable manager, every pair of IDs, every constraint type and value",
 "Exactness against satisfiability ranges over all labellings and all states.",
 b("add_constraint"))
p("C05","A call that raises leaves the manager unchanged",
 "Whenever a method of the manager raises, the answers of every query (managed IDs, added, inferred, components, completude) are the same as before the call.",
 "every reachable manager and every API call with every argument",
 "Partial updates before an exception are visible only in particular states.",
 b("add_data_ID","delete_data_ID","add_constraint","delete_constraint"))
p("C06","Only documented ValueErrors are raised",
 "No sequence of API calls makes add_data_ID, delete_data_ID, add_constraint, delete_constraint, the getters, get_connected_components, check_completude_of_constraints or the conflict listing raise anything but ValueError, and ValueError is raised exactly in the documented cases (in particular never KeyError from the internal dictionaries).",
 "every history of API calls and every arguments",
 "The two nested dictionaries must stay total and aligned after every history.",
 b("add_data_ID","delete_data_ID","add_constraint","delete_constraint","get_added_constraint","get_inferred_constraint","get_connected_components","check_completude_of_constraints","get_list_of_involved_data_IDs_in_a_constraint_conflict"))
p("C07","Getters do not depend on the order of their two arguments",
 "get_added_constraint(a,b)=get_added_constraint(b,a) and get_inferred_constraint(a,b)=get_inferred_constraint(b,a), including raised errors.",
 "every reachable manager, every pair of strings",
 "Constraints are stored in one orientation chosen by string comparison; symmetry must survive every history.",
 b("get_added_constraint","get_inferred_constraint"))
p("C08","The added constraints behave like a map over unordered pairs",
 "After any history, the manager's managed IDs and get_added_constraint answers are those of a simple abstract map: add_constraint writes the pair only when it is absent, delete_constraint erases it, add_data_ID creates only the self constraint, delete_data_ID erases every pair of that ID, and every other pair is untouched.",
 "every history of API calls and every pair of IDs",
 "Refinement of every operation sequence, including the frame condition on all other pairs.",
 b("add_data_ID","delete_data_ID","add_constraint","delete_constraint","get_added_constraint"))
p("C09","Managed IDs behave like an insertion-ordered set",
 "get_list_of_managed_data_IDs lists each managed ID once, in first-insertion order; an ID is in it iff it was given at construction or by a later add_data_ID and not deleted since; duplicates given to the constructor are ignored.",
 "every constructor list (duplicates included) and every history",
 "Must hold for every history.",
 b("__init__","add_data_ID","delete_data_ID","get_list_of_managed_data_IDs"))
p("C10","Answers depend only on the current IDs and constraints, not on the history",
 "Two managers that agree on managed IDs and on added constraints agree on every inferred constraint, on completude, on the connected components as sets of IDs and on conflict membership, whatever histories produced them.",
 "every pair of histories",
 "Quantifies over pairs of arbitrary histories; incremental and rebuilt structures must coincide.",
 b("_add_constraint_transitivity","_generate_constraints_transitivity"))
p("C11","Retracting a constraint forgets it completely",
 "After delete_constraint(a,b) the answers are those of a manager on which the constraint between a and b was never added and all other added constraints were; in particular the pair can be annotated again with the opposite type when the remaining constraints allow it.",
 "every reachable manager and every pair of managed IDs",
 "Removal of consequences must be exact for every graph of remaining constraints.",
 b("delete_constraint"))
p("C12","Deleting a data ID removes it and everything inferred through it",
 "After delete_data_ID(x), every query is that of a manager that never managed x and holds the constraints not involving x; managing x again starts with no constraint but its self MUST_LINK.",
 "every reachable manager and managed ID",
 "All chains going through x must disappear, in every graph.",
 b("delete_data_ID","add_data_ID"))
p("C13","Connected components form a partition by MUST_LINK",
 "get_connected_components returns non-empty, duplicate-free, pairwise disjoint lists whose union is the managed IDs, and two managed IDs are in a common list iff get_inferred_constraint says 'MUST_LINK'.",
 "every reachable manager",
 "Lists are deduplicated by ordered-list equality, so the order inside each component matters in every state.",
 b("get_connected_components"))
p("C14","Completude is exactly 'every pair is known'",
 "check_completude_of_constraints returns True iff get_inferred_constraint is not None for every pair of managed IDs.",
 "every reachable manager",
 "Computed by comparing lengths; correct only if lists are duplicate free and disjoint in every state.",
 b("check_completude_of_constraints"))
p("C15","The maximum number of clusters is exact",
 "The second component of get_min_and_max_number_of_clusters is the largest number of non-empty clusters of a clustering that respects all constraints.",
 "every reachable non-empty manager, every clustering of its IDs, every outcome of the random orderings",
 "Quantifies over all clusterings.",
 b("get_min_and_max_number_of_clusters"))
p("C16","Every cluster number in the returned range is feasible",
 "When there are at least two components, get_min_and_max_number_of_clusters returns (lo,hi) with 2<=lo<=hi and for every k with lo<=k<=hi there is a clustering into exactly k non-empty clusters that respects all added constraints.",
 "every reachable manager with at least two components, every outcome of the node orderings used for colouring, every k",
 "The estimate mixes node names and node indices and drops weakly linked components; feasibility must hold for every graph and ordering.",
 b("get_min_and_max_number_of_clusters"))
p("C17","The returned minimum is a true minimum",
 "No clustering with fewer than lo non-empty clusters respects all constraints.",
 "every reachable manager, every clustering",
 "Ranges over all clusterings and all graphs.",
 b("get_min_and_max_number_of_clusters"))
p("C18","The returned range is never empty and never fails",
 "On every reachable manager with at least one ID get_min_and_max_number_of_clusters returns (lo,hi) without error and lo<=hi.",
 "every reachable manager",
 "Boundary states (no ID, one component) must be covered.",
 b("get_min_and_max_number_of_clusters"))
p("C19","Conflict listing is exact",
 "get_list_of_involved_data_IDs_in_a_constraint_conflict(a,b,t) returns None iff add_constraint(a,b,t) would be accepted; otherwise it returns, without duplicates, exactly the IDs MUST_LINKed with a or with b.",
 "every reachable manager, every pair of managed IDs and allowed type",
 "Must agree with the acceptance decision in every state.",
 b("get_list_of_involved_data_IDs_in_a_constraint_conflict","add_constraint"))
p("C20","Adding a known constraint changes no inference",
 "If get_inferred_constraint(a,b) is already t, add_constraint(a,b,t) succeeds and changes no inferred constraint, component set or completude; repeating an accepted add_constraint changes nothing at all.",
 "every reachable manager",
 "Idempotence over all states.",
 b("add_constraint"))
p("C21","Acceptance of a batch of constraints does not depend on its order",
 "If add_constraint accepts every constraint of a list one after the other, it accepts every one of them in any other order, and the resulting inferred constraints are the same.",
 "every reachable manager, every list of constraints, every permutation",
 "Quantifies over permutations.",
 b("add_constraint"))
p("C22","JSON round trip preserves the manager",
 "load_constraints_manager_from_json on the file written by to_json succeeds and yields a manager with the same managed IDs in the same order, the same added constraints and the same inferred constraints.",
 "every reachable manager",
 "The serialised constraints are replayed in another order than they were added.",
 [BIN+":BinaryConstraintsManager.to_json",BIN+":load_constraints_manager_from_json"])
p("C23","The JSON text encodes every data ID losslessly",
 "Parsing the JSON text produced for a manager gives back exactly the list of IDs and constraints, whatever characters the IDs contain.",
 "every list of Unicode strings used as IDs",
 "Escaping must be injective over all strings.",
 [BIN+":BinaryConstraintsManager.to_json",BIN+":load_constraints_manager_from_json"])
p("C24","A torn file is never loaded as another manager",
 "If the process stops while to_json writes, load_constraints_manager_from_json on the truncated file raises; it never returns a manager that lacks some constraints.",
 "every reachable manager and every crash point during the write",
 "Quantifies over all prefixes of the written text.",
 [BIN+":BinaryConstraintsManager.to_json",BIN+":load_constraints_manager_from_json"])
p("C25","to_json is crash safe",
 "If the process stops during to_json over an existing file, a later load gives either the previously saved manager or the new one.",
 "every reachable manager, every previously saved manager, every crash point",
 "Quantifies over crash points.",
 [BIN+":BinaryConstraintsManager.to_json"])
p("C26","A loaded manager is always coherent",
 "Whatever JSON document of the expected shape is loaded, load_constraints_manager_from_json either raises or returns a manager whose added constraints are satisfiable and whose inferences are exact.",
 "every list of IDs and every list of constraint records, including contradictory ones",
 "Hand-edited files can contain anything.",
 [BIN+":load_constraints_manager_from_json"])
S=B+"sampling/clusters_based.py:ClustersBasedConstraintsSampling.sample"
p("C27","Sampled pairs respect the requested restrictions",
 "Every pair returned by sample is an ordered pair of distinct managed IDs; with the default options it has no added and no inferred constraint; with 'same_cluster' both IDs have the same cluster, with 'different_clusters' different ones; no pair is returned twice.",
 "every reachable manager, clustering result, vectors, seed and number to select",
 "Holds for all random draws.",
 [S])
p("C28","Sampling misses no eligible pair",
 "sample returns exactly min(nb_to_select, number of eligible pairs) pairs, where a pair of managed IDs is eligible when it meets the restrictions.",
 "every manager, options and nb_to_select",
 "Counts over all pairs.",
 [S])
p("C29","Distance based sampling is optimal",
 "With 'closest_neighbors' (resp. 'farthest_neighbors') the pairs come sorted by distance, and no eligible pair left out is strictly closer (resp. farther) than a returned one; ties follow the enumeration order.",
 "every manager and every distance function",
 "Optimality over all eligible pairs.",
 [S])
p("C30","Sampling is exhausted exactly when the constraints are complete",
 "With the default options and no cluster restriction, sample(nb>=1) returns [] iff check_completude_of_constraints() is True.",
 "every reachable manager, every seed",
 "Links two components in every state.",
 [S]+b("check_completude_of_constraints"))
p("C31","The annotation loop terminates with the ground truth",
 "If pairs are sampled (nb>=1, default options) and annotated according to a fixed ground-truth clustering until sample returns [], then no annotation is ever refused, the loop ends after at most n(n-1)/2 rounds, the constraints are then complete and the connected components are exactly the ground-truth clusters.",
 "every list of IDs, every ground-truth clustering, every sampler randomness",
 "A liveness property over whole histories.",
 [S]+b("add_constraint","get_connected_components","check_completude_of_constraints"))
p("C32","Sampling has no effect on the manager and no memory",
 "sample does not change the manager, and its result depends only on its arguments, the seed and the constructor options, not on previous calls.",
 "every history of calls on one sampler object",
 "History property: stored attributes could leak between calls.",
 [S])
A=B+"clustering/abstract.py:rename_clusters_by_order"
p("C33","Cluster renaming is canonical",
 "rename_clusters_by_order keeps the keys and the partition, numbers clusters 0..k-1 in order of first appearance over sorted IDs, is idempotent, and gives equal dictionaries on two clusterings iff they induce the same partition of the same IDs.",
 "every dictionary of cluster labels",
 "Canonicity quantifies over pairs of dictionaries.",
 [A])
K=B+"clustering/kmeans.py:KMeansConstrainedClustering"
p("C34","KMeans respects every constraint",
 "KMeans (COP) returns a clustering in which IDs inferred MUST_LINK share a cluster and IDs inferred CANNOT_LINK do not.",
 "every reachable manager, vectors, distances, seed, nb_clusters>=2, max_iteration, tolerance",
 "Greedy assignment with creation of new clusters must be right for every order, every distances.",
 [K+"._clustering_kmeans_model_COP"])
p("C35","KMeans returns a total, canonical clustering and never fails internally",
 "For a non-empty manager whose IDs all have vectors, cluster() raises nothing, terminates after at most max_iteration rounds, assigns exactly the managed IDs, and numbers clusters 0..k-1.",
 "every reachable non-empty manager, vectors, seeds, parameters accepted by the constructor",
 "KeyErrors in the convergence test depend on which clusters vanish between rounds.",
 [K+".cluster",K+"._clustering_kmeans_model_COP"])
p("C36","KMeans centroids describe the returned clusters",
 "After cluster(), the model's centroids attribute maps each returned cluster number to the mean of its members.",
 "every run",
 "Depends on renaming permutation of each run.",
 [K+"._clustering_kmeans_model_COP",K+".compute_centroids"])
H=B+"clustering/hierarchical.py:HierarchicalConstrainedClustering"
p("C37","Hierarchical clustering respects every constraint",
 "HierarchicalConstrainedClustering.cluster returns a clustering in which IDs inferred MUST_LINK share a cluster and IDs inferred CANNOT_LINK do not, for every linkage.",
 "every reachable manager with at least one ID, vectors, distances, linkage, nb_clusters>=2",
 "Incompatible clusters are merged at the root; the cut must always separate them.",
 [H+".cluster",H+".compute_predicted_clusters"])
p("C38","The dendrogram is well formed",
 "The final tree has the connected components as leaves, every inner node's members are the concatenation of its children's, the root holds every managed ID exactly once, and every node but a root of incompatible clusters contains no CANNOT_LINK pair.",
 "every run",
 "Invariant of the merge loop.",
 [H+".cluster",B+"clustering/hierarchical.py:Cluster"])
p("C39","Cuts of the dendrogram are nested",
 "compute_predicted_clusters(k) for k<=k' gives clusterings of which the second refines the first, for a fixed criterion.",
 "every tree, every k<=k', both criteria",
 "Relates all pairs of cuts.",
 [H+".compute_predicted_clusters"])
p("C40","The requested number of clusters is reached when possible",
 "cluster(nb_clusters=k) returns at least min(k, number of components) clusters.",
 "every run and both exploration criteria",
 "Depends on tree shape for all inputs.",
 [H+".compute_predicted_clusters"])
p("C41","A failed cluster() call does not corrupt the previous result",
 "If cluster() raises because of its parameters, compute_predicted_clusters still answers from the last successful clustering.",
 "every history of calls on one clustering object",
 "History property.",
 [H+".cluster",H+".compute_predicted_clusters"])
SP=B+"clustering/spectral.py:SpectralConstrainedClustering"
p("C42","Spectral clustering feeds the constraints to the affinity matrix",
 "The matrix given to the spectral solver has 1.0 at every MUST_LINK pair, 0.0 at every CANNOT_LINK pair, the kernel value elsewhere, and is symmetric when the kernel is.",
 "every reachable manager, every kernel matrix, every pair",
 "All index pairs and all managers.",
 [SP+".clustering_spectral_model_SPEC"])
p("C43","Spectral results are total and canonical",
 "Whatever labels the solver returns, the result assigns exactly the managed IDs, with numbers 0..k-1 in order of first appearance, and groups IDs exactly as the solver did.",
 "every solver output",
 "All solver outputs.",
 [SP+".clustering_spectral_model_SPEC"])
AP=B+"clustering/affinity_propagation.py:"
p("C44","Affinity propagation respects MUST_LINK with absolute_must_links",
 "With absolute_must_links=True IDs inferred MUST_LINK always share a cluster.",
 "every reachable manager, similarities, message passing outcome",
 "Special cases of the algorithm depend on the data.",
 [AP+"_affinity_propagation_constrained",AP+"AffinityPropagationConstrainedClustering.cluster"])
p("C45","Affinity propagation respects CANNOT_LINK",
 "IDs inferred CANNOT_LINK never share a cluster.",
 "every reachable manager, similarities, options",
 "All inputs.",
 [AP+"_affinity_propagation_constrained"])
DB=B+"clustering/dbscan.py:DBScanConstrainedClustering.cluster"
p("C46","DBScan labels every managed ID and counts its clusters rightly",
 "The result assigns exactly the managed IDs; regular clusters are numbered 0..r-1 with r=number_of_regular_clusters, ignored points get distinct negative labels, and number_of_clusters is the number of distinct labels.",
 "every reachable manager, distances, eps, min_samples",
 "Bookkeeping over several phases for all inputs.",
 [DB])
p("C47","DBScan respects the constraints",
 "IDs inferred CANNOT_LINK never share a cluster and IDs inferred MUST_LINK always do.",
 "every reachable manager, distances, eps, min_samples",
 "All inputs.",
 [DB])
M=B+"clustering/mpckmeans.py:MPCKMeansConstrainedClustering"
p("C48","MPCKMeans works on exactly the inferred constraints",
 "On every reachable manager preprocess_constraints never raises 'Inconsistent constraints'; its must-link and cannot-link graphs are exactly the inferred constraints and its neighborhoods are the connected components.",
 "every reachable manager (components within the recursion limit)",
 "Graph closure over all managers.",
 [M+".preprocess_constraints",M+"._dfs"])
p("C49","MPCKMeans applies constraints to the right data",
 "The penalty for a pair of data is charged exactly when the manager infers a constraint between these two data, whatever the order of the vectors dictionary.",
 "every manager and every ordering of the vectors",
 "Depends on the relative order of two dictionaries.",
 [M+".cluster"])
p("C50","MPCKMeans repairs empty clusters",
 "When some cluster is left empty by the assignment, a point is moved into it and all nb_clusters clusters are non-empty on return.",
 "every assignment of points to clusters, every nb_clusters",
 "All assignments.",
 [M+"._assign_clusters"])
p("C51","MPCKMeans works on identical vectors",
 "cluster() does not fail because all vectors are equal.",
 "every manager with all vectors equal",
 "Degenerate data.",
 [M+"._find_farthest_pairs_of_points"])
p("C52","Cluster frequencies are a distribution",
 "compute_clusters_frequency returns, for exactly the cluster numbers in use and in increasing order, the positive fraction of IDs in the cluster, and these fractions sum to 1; an empty clustering gives {}.",
 "every clustering dictionary",
 "All inputs.",
 [B+"utils/frequency.py:compute_clusters_frequency"])
p("C53","Factories accept exactly the documented names",
 "managing_factory, sampling_factory and clustering_factory raise ValueError on every other name, and the sampling factory maps each name to the documented restrictions.",
 "every string",
 "All strings.",
 [B+"constraints/factory.py:managing_factory",B+"sampling/factory.py:sampling_factory",B+"clustering/factory.py:clustering_factory"])
p("C54","The cluster number suggested by the usage guide is accepted",
 "nb_clusters=int((lo+hi)/2) computed from get_min_and_max_number_of_clusters is always accepted by the clustering algorithms.",
 "every reachable non-empty manager",
 "Boundary states of the manager.",
 b("get_min_and_max_number_of_clusters")+["docs/usage.md"])
p("C55","Clustering on complete constraints returns the ground truth",
 "When check_completude_of_constraints() is True, KMeans returns exactly the connected components as clusters, whatever the vectors and nb_clusters.",
 "every complete reachable manager, vectors, seed and nb_clusters",
 "All runs.",
 [K+".cluster"]+b("check_completude_of_constraints"))
U=B+"utils/"
p("C56","Preprocessing and vectorization keep the data IDs",
 "preprocess and vectorize return a dictionary with the same IDs in the same order, one result per text.",
 "every dictionary of texts, every language model",
 "All inputs.",
 [U+"preprocessing.py:preprocess",U+"vectorization.py:vectorize"])
p("C57","Preprocessed texts are clean",
 "A preprocessed text contains no combining mark and, apart from what the tokenizer's lemmas introduce, only kept tokens joined by single spaces; enabling an option only removes tokens.",
 "every text and every tokenizer outcome",
 "All inputs.",
 [U+"preprocessing.py:preprocess"])
p("C58","A KMeans run is a COP-KMeans run",
 "The returned clusters come from rounds that visit the data in order, send each not yet assigned data ID to the nearest cluster not blocked by a CANNOT_LINK (a new cluster when all are blocked), carry its MUST_LINK component along, and recompute each centroid as the mean of its members; rounds stop when the centroids are stable or max_iteration is used up.",
 "every reachable manager, vectors, distance, seed and parameters",
 "All runs against an independent description of the algorithm.",
 [K+".cluster"])
p("C59","A KMeans object can be reused",
 "The result of cluster() and the fields it leaves do not depend on earlier calls on the same object.",
 "every earlier state of the object",
 "All call histories.",
 [K+".cluster"])
p("C60","The number of clusters KMeans returns is feasible",
 "The returned number of clusters is realised by a labelling that satisfies all constraints and is at most the number of connected components.",
 "every call that returns",
 "Needs an argument over all colourings.",
 [K+".cluster"]+b("get_connected_components"))
p("C61","Hierarchical clustering is total and raises exactly on bad input",
 "With at least one ID, a vector for each and nb_clusters>=2, cluster() returns a clustering of exactly the managed IDs numbered by first appearance; otherwise it raises ValueError (nb_clusters None or below 2, no ID) or KeyError (missing vector), and nothing else.",
 "every reachable manager, vectors, linkage, nb_clusters and object state",
 "All inputs and all error paths.",
 [H+".cluster"])
p("C62","The tree comes from a constrained agglomeration",
 "Starting from the connected components, each step merges the closest pair of clusters without a CANNOT_LINK between them, the distance being that of the chosen linkage, until no pair can be merged; the clusters left are joined under the root. Ties go to the smallest, then the oldest pair, so this determines the tree.",
 "every run, every linkage, every distance with a total order",
 "All runs against an independent description of the algorithm, including incrementally updated distances.",
 [H+".cluster"])
p("C63","Hierarchical clustering on complete constraints returns the ground truth",
 "When check_completude_of_constraints() is True, the clusters are exactly the connected components, whatever the vectors, linkage and nb_clusters.",
 "every complete reachable manager and every call that returns",
 "All runs.",
 [H+".cluster"]+b("check_completude_of_constraints"))
p("C64","A hierarchical clustering object can be reused",
 "The result of cluster() and the state it leaves do not depend on earlier calls on the same object.",
 "every earlier state of the object",
 "All call histories.",
 [H+".cluster"])
p("C65","The number of clusters hierarchical clustering returns is feasible",
 "The returned number of clusters is realised by a labelling that satisfies all constraints and is at most the number of connected components.",
 "every call that returns",
 "Needs an argument over all colourings.",
 [H+".cluster"]+b("get_connected_components"))
p("C66","Cuts split the biggest cluster first",
 "cluster() and compute_predicted_clusters(k, by) start from the root and repeatedly replace the first cluster with the most members (by size) or the latest iteration (by iteration) by its children, until there are k clusters or that cluster has no children; cutting leaves the object unchanged.",
 "every run, k and criterion",
 "All trees.",
 [H+".cluster",H+".compute_predicted_clusters"])
SP=B+"clustering/spectral.py:SpectralConstrainedClustering"
p("C67","Spectral clustering raises exactly on bad input",
 "Apart from errors of the eigensolver, cluster() raises ValueError exactly for nb_clusters None or below 2 or no ID, KeyError exactly for a missing vector, and such a call leaves the object unchanged; the constructor accepts exactly the model SPEC with nb_components None or at least 2.",
 "every reachable manager, vectors, nb_clusters, object state and solver",
 "All inputs and all error paths.",
 [SP+".cluster",SP+".__init__"])
p("C68","A spectral clustering object can be reused",
 "The result of cluster() and the attributes it leaves do not depend on earlier calls on the same object.",
 "every earlier state of the object",
 "All call histories.",
 [SP+".cluster"])
p("C69","Affinity propagation returns a canonical labelling of every managed ID or raises a documented error",
 "A successful cluster() labels exactly the managed IDs with 0..k-1 by first appearance and stores the result; it raises ValueError exactly when a number of clusters is given or there is no ID, KeyError exactly when a vector is missing, and message passing itself never fails. The constructor accepts exactly positive iteration numbers.",
 "every manager, vectors, parameters, floating point arithmetic",
 "Message passing may oscillate or meet NaN on inputs no test has.",
 [AP+"AffinityPropagationConstrainedClustering.cluster",AP+"AffinityPropagationConstrainedClustering.__init__"])
p("C70","Affinity propagation needs more iterations than its convergence window",
 "When max_iteration does not exceed convergence_iteration no run converges and every data gets one common cluster.",
 "every manager, vectors, arithmetic and such parameters, apart from equal similarities",
 "A claim on all message values.",
 [AP+"AffinityPropagationConstrainedClustering.cluster",AP+"_affinity_propagation_constrained"])
p("C71","Affinity propagation computes the clusters of the published algorithm",
 "In exact arithmetic the clusters are those of affinity propagation run on the components (absolute_must_links) or on the data and one extra point per component (otherwise): responsibilities and availabilities follow the update equations with damping, the run stops at the first convergence, exemplars are refined, and non-convergence gives one cluster.",
 "every manager, vectors and parameters, exact arithmetic",
 "The result of an iteration of unbounded length.",
 [AP+"AffinityPropagationConstrainedClustering.cluster",AP+"_affinity_propagation_constrained"])
p("C72","An affinity propagation object can be reused",
 "The result of cluster() and the attributes it leaves do not depend on earlier calls on the same object.",
 "every earlier state of the object",
 "All call histories.",
 [AP+"AffinityPropagationConstrainedClustering.cluster"])
DBC=B+"clustering/dbscan.py:DBScanConstrainedClustering"
p("C73","DBScan raises exactly on bad input",
 "cluster() raises ValueError exactly when a number of clusters is given or there is no ID, KeyError exactly when a vector is missing, and nothing else; such a call leaves the object unchanged. The constructor accepts exactly positive eps and min_samples.",
 "every reachable manager, vectors, parameters and object state",
 "All inputs and all error paths.",
 [DBC+".cluster",DBC+".__init__"])
p("C74","DBScan has no hidden inputs",
 "The result of cluster() does not depend on earlier calls on the same object, nor on the order in which Python enumerates sets.",
 "every earlier state of the object, every enumeration order, every ordered distance",
 "Set order varies with the hash seed of the process; all call histories.",
 [DBC+".cluster"])
p("C75","DBScan computes the clusters its algorithm describes",
 "The clusters are those of the algorithm: at its turn each visible data with enough neighbours founds a local cluster, or singles its neighbours out if they clash; must-links make core clusters owned by the first who reaches a data; core clusters absorb local clusters in the order of the names until one is too far or incompatible; what remains is a cluster of its own if big enough, else each data is ignored.",
 "every reachable manager without an ID named NONE, vectors, parameters, ordered distance",
 "A functional description for all inputs.",
 [DBC+".cluster"])
p("C76","MPCKMeans fails only for listed reasons and leaves the object unchanged",
 "cluster() returns only with nb_clusters >= 2, as many vectors as IDs, at least two IDs and components within the recursion limit; every exception has one of the listed causes and leaves the object unchanged. The constructor accepts exactly the model MPC, max_iteration >= 1 and a weight that is not negative, and raises ValueError otherwise.",
 "every reachable manager, vectors, parameters and object state",
 "All inputs and all error paths.",
 [M+".cluster",M+".__init__"])
p("C77","MPCKMeans partitions the IDs into the requested number of clusters",
 "With vectors for exactly the managed IDs, none of which ends with the character NUL (see C102), a result is about exactly the managed IDs, is numbered canonically and has exactly min(nb_clusters, number of IDs) clusters.",
 "every reachable manager, vectors, parameters and arithmetic",
 "All inputs, all random draws.",
 [M+".cluster"])
p("C78","MPCKMeans computes what its algorithm describes",
 "The first centres come from the components (farthest-first traversal weighted by size, or all of them completed by random points); each iteration visits the points in the drawn order, gives each the cheapest cluster by distance plus penalties, repairs empty clusters, moves the centres to the means and updates the metric; it stops when the centres are stable or the iterations are used up. Two data are together exactly when their vectors have the same label (for IDs that do not end with the character NUL, see C102).",
 "every reachable manager, vectors of equal length, parameters, random draws, set orders, ordered arithmetic",
 "A functional description for all inputs.",
 [M+".cluster",M+"._initialize_cluster_centers",M+"._assign_clusters",M+"._get_cluster_centers",M+"._update_metrics"])
p("C79","An MPCKMeans object can be reused",
 "The result of cluster() and the attributes it leaves do not depend on earlier calls on the same object.",
 "every earlier state of the object",
 "All call histories.",
 [M+".cluster"])
p("C80","MPCKMeans rejects vectors of unknown data",
 "cluster() returns only when the vectors are those of exactly the managed IDs.",
 "every reachable manager and vectors",
 "All inputs.",
 [M+".cluster"])
p("C81","A session of the usage guide ends with the ground truth",
 "The session of docs/usage.md (cluster, sample, annotate by a fixed ground truth, choose int((min+max)/2) clusters, cluster again until the constraints are complete) with the random sampler ends within n(n-1)/2 iterations, refuses no annotation, never fails, and its last clustering is exactly the ground truth.",
 "every list of texts, vectors, ground truth, random draws, set orders and colouring orders; every consistent starting manager",
 "A liveness property over whole histories of four interacting classes.",
 ["docs/usage.md",K+".cluster",B+"constraints/binary.py:BinaryConstraintsManager.add_constraint",B+"constraints/binary.py:BinaryConstraintsManager.get_min_and_max_number_of_clusters",B+"constraints/binary.py:BinaryConstraintsManager.check_completude_of_constraints"])
p("C82","A session of the usage guide ends with every sampler",
 "With every sampling algorithm of the factory the session of docs/usage.md decides more pairs until all are decided.",
 "every sampling algorithm, texts, vectors, ground truth and random draws",
 "A liveness property; a stalled session looks like a slow one.",
 ["docs/usage.md",K+".cluster","src/cognitivefactory/interactive_clustering/sampling/factory.py:sampling_factory","src/cognitivefactory/interactive_clustering/sampling/clusters_based.py:ClustersBasedConstraintsSampling.sample"])
TP=B+"utils/preprocessing.py:preprocess"
TV=B+"utils/vectorization.py:vectorize"
p("C83","Preprocessed texts hold no listed punctuation and no capitals",
 "A preprocessed text has no character of the list of punctuation and no upper-case letter.",
 "every text, language model and option",
 "Needs all of Unicode: the exceptions come from characters whose decomposition holds punctuation or capitals.",
 [TP])
p("C84","Vectorization works on every set of texts",
 "vectorize returns vectors for every dictionary of texts when the vectorizer is tfidf, or spacy with an installed model; otherwise it raises ValueError.",
 "every dictionary of texts, vectorizer and language model",
 "All inputs.",
 [TV])
p("C85","Vectors do not depend on the order of the texts",
 "The same texts in another order give the same vector for each ID, or the same error.",
 "every dictionary of texts, every permutation of it, vectorizer and language model",
 "All permutations of all inputs.",
 [TV])
p("C86","tf-idf vectors have one column for each phrase common to two texts",
 "The columns are the sorted phrases of one to three words that occur in at least two texts; an entry is computed from the occurrences in the text, the number of texts that hold the phrase and the number of texts; all vectors have the same dimension.",
 "every dictionary of texts and word tokenizer",
 "A functional description for all inputs.",
 [TV])
p("C87","The usage guide leads from raw texts to the ground truth",
 "When preprocessing and vectorization succeed and the texts belong to at least two true clusters, the session of docs/usage.md on the IDs of the texts ends within n(n-1)/2 iterations without a refused annotation, and its last clustering is the ground truth over exactly these IDs.",
 "every dictionary of texts, options, ground truth, language model, random draws and orders",
 "End-to-end liveness over all modules.",
 ["docs/usage.md",TP,TV,K+".cluster",B+"sampling/clusters_based.py:ClustersBasedConstraintsSampling.sample"])
p("C88","A clustering depends only on what is known",
 "The result of cluster() depends only on the managed IDs in their order, the inferred constraints and the vectors of the managed IDs; not on the order or number of the calls that led there, on a reload from a file, or on other entries of the vectors. The same added constraints give the same knowledge.",
 "every two reachable managers with the same IDs and inferred constraints, all six algorithms",
 "Relates executions after arbitrary different histories.",
 [K+".cluster",H+".cluster",SP+".cluster",AP+"AffinityPropagationConstrainedClustering.cluster",DB,M+".cluster",B+"constraints/binary.py:BinaryConstraintsManager.get_connected_components"])
p("C89","A sample depends only on what is known",
 "The result of sample() depends only on the managed IDs, on which pairs have an added or inferred constraint, on the labels and vectors of the managed IDs and on the random draw; not on the history of the manager, on earlier calls of the sampler, or on other entries of the dictionaries.",
 "every two reachable managers with the same IDs and constraints, all sampler states",
 "Relates executions after arbitrary different histories.",
 [B+"sampling/clusters_based.py:ClustersBasedConstraintsSampling.sample"])
p("C90","The suggested minimum is small when CANNOT_LINK constraints are sparse, and exact without cycle",
 "The minimum returned by get_min_and_max_number_of_clusters is at most one more than the number k such that every set of components has one with at most k CANNOT_LINK to the others (networkx colours in smallest-last order), and at most one more than the largest number of components one may not join, in any order; it is exactly 2, the true minimum, when the CANNOT_LINK between components form no cycle and there is one.",
 "every reachable manager, every colouring order of networkx",
 "All constraint graphs and all tie-breaks of the colouring orders.",
 [B+"constraints/binary.py:BinaryConstraintsManager.get_min_and_max_number_of_clusters"])
p("C91","A cluster of the tree is described faithfully, up to Python's limit on nested calls",
 "Cluster.to_dict of a cluster tells its ID, iteration, level, members and, in order, the same for all its descendants, and no other tree has that description; written as JSON and read again, the description is the same. It succeeds if and only if Python allows more nested calls than there are levels below the cluster. For the tree of a hierarchical clustering as many nested calls as data IDs are enough, and in general fewer are not: with 1001 data the default limit of Python can be exceeded.",
 "every tree of clusters, every clustering that keeps one, every limit",
 "Trees of any shape and depth; the bound and its tightness are for every number of data.",
 [H+".cluster", B+"clustering/hierarchical.py:Cluster.__init__", B+"clustering/hierarchical.py:Cluster.to_dict"])
p("C92","Adding children to a cluster keeps what it had and keeps the tree consistent",
 "After Cluster.add_new_children the cluster has its previous children and members and the new ones, its level is above all of them, its centroid is the mean of its members, the clusters above it know the new members, nothing changes if the call fails, no child is counted twice, and the cluster can still be described.",
 "all objects, all sequences of calls",
 "Depends on which objects refer to the changed one and on all orders of calls.",
 [B+"clustering/hierarchical.py:Cluster.add_new_children", B+"clustering/hierarchical.py:Cluster.update_centroid"])
p("C93","With a random seed, the same call gives the same result in every process",
 "The random_seed of an object lets the user redo the same clustering or sampling: with a seed, the result of the call does not depend on what was drawn from the generators of Python and numpy before, nor on how the process hashes strings.",
 "every two processes (states of both generators, orders of sets), every seed, the samplers and the six algorithms",
 "A test sees one process and a few states of the generators; string hashes are constant within one process.",
 [K+".initialize_centroids",B+"sampling/clusters_based.py:ClustersBasedConstraintsSampling.sample",SP+".cluster",AP+"_affinity_propagation_constrained",DB,M+".cluster"])
p("C94","Calls leave the generators of the program alone",
 "cluster() and sample() do not change what the rest of the program draws from the generators of Python and numpy, and without a seed they draw from the generators that the program has seeded.",
 "all states of the generators, all calls",
 "About the state left behind for unrelated code, for every state before.",
 [K+".initialize_centroids",B+"sampling/clusters_based.py:ClustersBasedConstraintsSampling.sample"])
p("C95", "Sessions with any sound clustering reach the ground truth",
  "Call a clustering sound when, for every reachable manager with vectors for its IDs, it accepts every number of clusters from 2 and returns a canonical clustering of exactly the managed IDs that respects the constraints, and refuses smaller numbers with ValueError, leaving the manager unchanged. Constrained KMeans and hierarchical clustering (all four linkages) are sound. With any sound clustering, any sampler that does not look at the clusters and removes inferred constraints, and a consistent annotator, the loop of the usage guide decides all pairs within n(n-1)/2 iterations and refuses no annotation; it returns exactly the ground truth (canonically numbered) if some IDs have different true clusters or everything was decided beforehand, and ends with ValueError otherwise.",
  "for all managers, vectors, distances, random draws, shuffles, iteration orders, linkages, sampling parameters and ground truths",
  "the number of sessions grows exponentially with the texts and the draws; tests run a few iterations of one algorithm with one seed",
  [H+".cluster",K+".cluster",B+"sampling/clusters_based.py:ClustersBasedConstraintsSampling.sample","docs/usage.md"])
p("C96","Managers with the same IDs and constraints cannot be told apart",
 "Two managers that list the same data IDs and the same added constraints, whatever their histories, give the same answer or error to every call of every later history (up to the order of IDs inside one component or one conflict list), and no others do. A manager loaded from the JSON file of another one is told apart from it at most by asking for the added constraint of an ID with itself. With colouring strategies that do not look at component names the range of numbers of clusters is also the same.",
 "all pairs of reachable managers and all later histories of calls",
 "Quantifies over pairs of histories and over all continuations; tests compare a few getters after one history.",
 [BIN+":BinaryConstraintsManager."+x for x in ("add_data_ID","delete_data_ID","add_constraint","delete_constraint","get_added_constraint","get_inferred_constraint","get_connected_components","get_min_and_max_number_of_clusters","to_json")])
p("C97","A session can be saved and resumed",
 "Replacing the manager between two iterations of the session of docs/usage.md by one with the same IDs and the same added constraints between different IDs, in particular by one loaded from its JSON file, does not change the rest of the session: the iterations, the samples, the clusterings, the refused annotations, the errors and the constraints at the end are the same, for every clustering that reads of the manager only the IDs and inferred constraints (constrained KMeans; hierarchical clustering when sums do not depend on the order), with colouring strategies that do not look at component names.",
 "all reachable managers, vectors, sampling options, draws, numbers of iterations and ground truths",
 "A property of pairs of whole sessions.",
 ["docs/usage.md",BIN+":BinaryConstraintsManager.to_json",B+"constraints/binary.py:load_constraints_manager_from_json",K+".cluster",H+".cluster"])
p("C98","Managers that live in the same memory do not disturb each other",
 "The dictionaries of a manager are objects in memory, changed in place and shared (all data of a MUST_LINK component have the same dictionary). In a program that makes any number of managers and interleaves their calls, each manager answers every call exactly as it would alone if its dictionaries were values that nobody shares; no loop over a dictionary is disturbed by a change of its size (RuntimeError), no key is missing: the only exception is ValueError.",
 "all programs: any number of managers, any interleaving of calls, any data IDs",
 "Aliasing errors appear only for particular interleavings, and a test that compares with the expected answers must reach the shared object first.",
 [BIN+":BinaryConstraintsManager."+x for x in ("__init__","add_data_ID","delete_data_ID","add_constraint","delete_constraint","_generate_constraints_transitivity","_add_constraint_transitivity")])

p("C99","The conflict listing says where to look",
 "When a constraint is refused and get_list_of_involved_data_IDs_in_a_constraint_conflict lists IDs: no history of calls that keeps the listed IDs and the constraints between two different listed IDs makes the constraint acceptable; and when IDs other than the two and constraints are deleted until no added constraint is left between two different listed IDs, the constraint is accepted.",
 "all reachable managers, all refused constraints, all later histories of calls",
 "The claim is about every later history of calls, which a test can only sample.",
 [BIN+":BinaryConstraintsManager."+x for x in ("get_list_of_involved_data_IDs_in_a_constraint_conflict","add_constraint","delete_constraint","delete_data_ID")])
p("C100","How many annotations are needed",
 "With n data IDs in k components at least n-k MUST_LINK constraints were added, and at least one CANNOT_LINK for each pair of components known to be different, so complete constraints need at least (n-k)+k(k-1)/2 annotations. Annotating only pairs about which nothing is known wastes none: each annotation is accepted and kept, and exactly n-k are MUST_LINK. For every ground truth the bound is attained.",
 "all reachable managers; all sequences of annotations; all ground truths",
 "A lower bound over all ways to annotate cannot be observed on examples.",
 [BIN+":BinaryConstraintsManager."+x for x in ("add_constraint","get_connected_components","check_completude_of_constraints","_add_constraint_transitivity")])
p("C101","The names of the data do not matter",
 "If every data ID is renamed by an injective function (which may change the alphabetical order), every history of calls on the renamed manager gives the same answers and the same errors with the new names; only the order of IDs inside a component or a conflict listing may differ.",
 "all injective renamings, all lists of IDs, all histories of calls",
 "A test uses one naming; dependence on names (sorting, prefixes, equality of special values) shows only for others.",
 [BIN+":BinaryConstraintsManager."+x for x in ("__init__","add_data_ID","delete_data_ID","add_constraint","delete_constraint","get_connected_components","get_list_of_involved_data_IDs_in_a_constraint_conflict")])

p("C102","MPCKMeans labels data whatever the characters of their IDs",
 "Each managed ID that has a vector gets a cluster. (The IDs go through an array of strings of numpy, which loses NUL characters at the end.)",
 "every reachable manager, vectors, parameters and arithmetic, all strings as IDs",
 "Tests use short printable IDs.",
 [M+".cluster"])

p("C103","Only the alphabetical order of the names can matter to a manager",
 "If the data IDs that are used are renamed without changing their alphabetical order, every history of calls on the renamed manager gives exactly the same answers and errors with the new names, in the same order.",
 "all renamings that keep the order of the names that are used, all lists of IDs, all histories of calls (including calls with unknown IDs)",
 "A test uses one naming.",
 [BIN+":BinaryConstraintsManager."+x for x in ("__init__","add_data_ID","delete_data_ID","add_constraint","delete_constraint","get_connected_components","get_list_of_involved_data_IDs_in_a_constraint_conflict")])
p("C104","Only the alphabetical order of the names can matter to a sampler",
 "If the data IDs of the manager, the clustering and the vectors are renamed without changing their alphabetical order, a sampler (any restriction, any size, random.sample drawing positions) selects the same pairs with the new names, or fails with the same error.",
 "all renamings that keep the order of the names that are used, all histories of the manager, all clusterings, vectors and options",
 "A test uses one naming.",
 [B+"sampling/clusters_based.py:ClustersBasedConstraintsSampling.sample"])
p("C105","Only the alphabetical order of the names can matter to a clustering",
 "If the data IDs of the manager and of the vectors are renamed without changing their alphabetical order, each of the six algorithms returns the same clusters with the new names, or fails with the same error; so does rename_clusters_by_order. (For KMeans random.shuffle moves positions; for DBScan the ID NONE is not used, distances are ordered, and sets may be enumerated differently in the two runs; for MPCKMeans no ID ends with NUL.)",
 "all renamings that keep the order of the names that are used, all histories of the manager, all vectors and parameters, all arithmetics",
 "A test uses one naming; an algorithm that compares names, builds keys from them or reserves one of them differs only for other names.",
 [K+".cluster",H+".cluster",SP+".cluster",AP+"AffinityPropagationConstrainedClustering.cluster",DB,M+".cluster",A])

p("C106","The annotation loop survives any annotator",
 "Whatever is annotated in the loop of the usage guide (wrong or contradictory answers, unanswered pairs, unknown IDs or types): the loop never fails, the constraints added are exactly the accepted annotations, every accepted annotation is inferred as given at the end and the opposite of every well-formed refused one is. No annotation is refused exactly when all of them are well formed and agree with some labelling. When every sampled pair gets one of the two answers, even at random, everything is decided within n(n-1)/2 iterations, each first answer of an iteration is accepted, and with one pair at a time none is ever refused.",
 "all annotators (functions of the iteration and the selected pairs), all draws, all reachable managers, all samplers without cluster restriction, any number of iterations",
 "The annotator is a human; a test fixes a script of answers.",
 ["docs/usage.md",BIN+":BinaryConstraintsManager.add_constraint",B+"sampling/clusters_based.py:ClustersBasedConstraintsSampling.sample"])

p("C107","Without constraints, more KMeans rounds never give a worse clustering",
 "In exact arithmetic, when nothing is kept apart and data that must be linked are at the same place: raising max_iteration never increases the sum of the squared distances of the data to the centres of their returned clusters, and the result is never worse than sending each data to any of the data drawn at the start. This needs the restriction: with one CANNOT_LINK, or one MUST_LINK between distant data, a second round can make the returned clustering worse.",
 "all rational vectors of any dimension, all managers without tension between constraints and vectors, all shuffles, numbers of clusters, tolerances and pairs of max_iteration",
 "A test compares the clusters of a few fixed vectors, never the quality of two runs.",
 [K+".cluster",K+"._clustering_kmeans_model_COP",K+".compute_centroids"])

p("C108","Cutting the tree by iteration undoes the last merges",
 "After a clustering call, compute_predicted_clusters(k, by=\"iteration\") returns the clusters that the agglomeration had when it last had at least k clusters; when it never had that many, the connected components it started from.",
 "all managers, vectors, linkages, distances (any strict total order), all k",
 "A test cuts a few small trees; that the cut from the top meets a state of the run from the bottom depends on the numbering of all merges.",
 [H+".compute_predicted_clusters",H+".cluster"])
p("C109","Single linkage keeps the clusters as far apart as possible",
 "With single linkage and symmetric distances, cut by iteration: for every clustering that respects the constraints and has at least as many clusters, two data in different clusters are never closer than some two data in different clusters of the other one (maximum spacing, with any MUST_LINK and CANNOT_LINK constraints). Without CANNOT_LINK constraints, two data of one cluster are joined by steps no longer than the ones needed to go between any two clusters. The clustering that cluster() itself returns, cut by size, need not have the largest spacing.",
 "all managers, vectors, symmetric distances (any strict total order), all k, all rival clusterings",
 "A test checks fixed clusters; optimality compares with all clusterings.",
 [H+".cluster",H+".compute_predicted_clusters",H+"._compute_distance",H+"._get_the_two_clostest_clusters"])

p("C110","The clusters of DBScan hang together",
 "Two data in the same cluster are linked by a chain whose steps are either at most eps long or MUST_LINKs.",
 "every reachable manager without an ID named NONE, any constraints, vectors, parameters, ordered distance",
 "Absorbing, core clusters and remaining local clusters interact; a fixed example shows one of their orders.",
 [DBC+".cluster"])
p("C111","Without CANNOT_LINK, DBScan keeps dense data",
 "Without CANNOT_LINK, a data with min_samples data within eps (itself included) is put in a cluster with all the data within eps of it.",
 "every reachable manager without CANNOT_LINK, vectors, parameters, ordered distance",
 "The remaining local clusters are compared with eps instead of min_samples, and core clusters stop absorbing at the first name that is too far; the tests have no such layout.",
 [DBC+".cluster"])

p("C112","Merges come in the order of their distances",
 "Of two merges of the tree, the one made first is between clusters that are not farther apart (the tree has no inversion), with any constraints.",
 "every reachable manager, vectors, symmetric distances, linkage; every two inner nodes of the tree",
 "A property of the whole run, for every layout of the data.",
 [H+".cluster",H+"._compute_distance",H+"._get_the_two_clostest_clusters"])

p("C113","How annotations move the range of cluster numbers",
 "An accepted add_constraint lowers the maximum of get_min_and_max_number_of_clusters by exactly one if it is a MUST_LINK about a pair of which nothing was known, leaves it as it is otherwise, and never makes another number of clusters possible. delete_constraint raises it by at most one, only if a MUST_LINK had been added, and keeps all that was possible. An added data ID is one more component and joins a cluster or makes another one; a deleted one loses at most one component and at most one cluster.",
 "every reachable manager, IDs, constraint, node order of the colourings, number of clusters",
 "A test follows one session; the exact step of the maximum relates the components before and after any call.",
 [BIN+":BinaryConstraintsManager."+x for x in ("get_min_and_max_number_of_clusters","add_constraint","delete_constraint","add_data_ID","delete_data_ID")])

p("C114","Spectral clustering on complete constraints depends on the constraints only",
 "When every pair of data is known, the result does not depend on the vectors nor on the kernel; with a solver that separates the blocks of a 0/1 matrix, asked for as many clusters as there are components, it is the ground truth.",
 "every reachable manager with complete constraints, all vectors, kernels, solvers, previous states",
 "A test has one set of vectors; independence compares all of them.",
 [SP+".cluster",SP+".clustering_spectral_model_SPEC"])

p("C115","A large enough weight makes MPCKMeans respect the constraints",
 "There is a weight from which a broken CANNOT_LINK or MUST_LINK costs more than any gain in distance, so that no constraint is broken unless no cluster is free.",
 "every weight, number of iterations, metric, centres, order of the points, set of constraints",
 "Tests use a few weights; the claim is about all weights beyond a bound.",
 [M+".cluster",M+".__init__"])

p("C116","Arguments of a wrong type are refused with a ValueError",
 "A call with an argument of a type other than the documented one raises ValueError and changes nothing; a call with arguments of the documented types is the documented call.",
 "every public function, all values of every argument, all states",
 "Tests try one wrong value for some arguments; here each argument ranges over all kinds of values, alone and together.",
 [K+".__init__",K+".cluster",H+".__init__",H+".cluster",SP+".__init__",SP+".cluster",AP+"AffinityPropagationConstrainedClustering.__init__",AP+"AffinityPropagationConstrainedClustering.cluster",DB.replace(".cluster",".__init__"),DB,M+".__init__",M+".cluster",S,
  BIN+":BinaryConstraintsManager.add_data_ID",BIN+":BinaryConstraintsManager.add_constraint"])

p("C117","KMeans settles when nothing constrains it, and may never settle when something does",
"With a tolerance of zero, no CANNOT_LINK, MUST_LINK only between data at the same place, and in exact arithmetic: a KMeans call given more rounds than there are numberings of the data (nb_clusters to the power of the number of data) returns a clustering in which no data is closer to the centre of another cluster than to the centre of its own, and more rounds do not change the sum of squared distances. With two CANNOT_LINK or two MUST_LINK this is lost: for some data the call returns one clustering for every odd number of rounds and another for every even number.",
"all reachable managers without tension, all rational vectors, numbers of clusters, draws, numbers of rounds above the bound, object states; for the second part all numbers of rounds",
"settling is about the limit of the loop; a test fixes max_iteration and sees one point of the sequence, and an oscillation looks like a normal result for each given number of rounds",
[K+"._clustering_kmeans_model_COP", K+".cluster"])
p("C118","tf-idf vectors tell different texts apart",
"Two texts with different words get different tf-idf vectors.",
"every dictionary of texts, every pair of texts in it, every weighting and normalization",
"A test compares a few vectors; which texts are indistinguishable depends on all the other texts.",
[TV])

p("C119","Sampling with stale results fails exactly when a managed data is missing",
"A sampling whose clustering or vectors were computed before data were added or deleted: entries of data that are not managed any more are ignored, and KeyError is raised exactly when a needed dictionary lacks a managed data (for the clustering: one that can be paired). ValueError is raised exactly for a negative number, a needed dictionary that is not given, or distances between no data. Nothing else is raised.",
"all reachable managers, options accepted by the constructor, numbers, clusterings, vectors and states of the sampler",
"A test tries one missing entry; here every combination of options and missing entries is covered, with the converse (no other failure).",
[S])

p("C120","Hierarchical clustering and sampling depend only on the order of the distances",
"Replace all distances by others that compare alike (for instance their squares): with average, complete or single linkage, HierarchicalConstrainedClustering.cluster builds the same tree and gives the same clusters; sampling gives the same pairs. If moreover sums and divisions agree, as in a change of unit, 'ward' and KMeans (with its tolerance in the new unit) also give the same results.",
"all managers, vectors, numbers of clusters, options, states of the objects; all pairs of distance functions related by an increasing injection",
"Two implementations of the distance must be compared on every run; a hidden constant or a mixed comparison shows up only for some values.",
[H+".cluster",S,K+".cluster"])

p("C121","DBScan does not depend on the unit of the distances",
"Replace distances and eps by the same quantities in another unit: DBScanConstrainedClustering.cluster gives the same clusters.",
"all managers, vectors, parameters and states of the object; all pairs of distance functions related by an increasing injection",
"The comparison of eps with a number of data (line 525) is invisible as long as eps stays on the same side of the sizes.",
[DB])

p("C122","KMeans treats identical data alike",
"Two data with the same vector, for which no constraint with any other data is known or inferred, end in the same cluster of KMeansConstrainedClustering.cluster, whatever constraints bind the other data, whatever the shuffle, the tolerance and the number of iterations.",
"all reachable managers, vectors, numbers of clusters, shuffles and set orders; all distances that depend on the two vectors only and are totally ordered",
"Ties between centroids are broken by position: a test with two equal vectors cannot show that no order of the data or of the centroids breaks them differently.",
[K+".cluster", K+"._clustering_kmeans_model_COP"])

p("C123","Hierarchical clustering keeps identical data together",
"Without constraints between different vectors, HierarchicalConstrainedClustering puts data with the same vector in the same cluster as long as the number of clusters is at most the number of different vectors.",
"all reachable managers, vectors with repetitions, numbers of clusters, linkages and ways to cut",
"The tree joins identical data first, so a test that looks at the tree succeeds; the cut by size may undo these merges, for some sizes of the groups only.",
[H+".cluster", H+".compute_predicted_clusters"])

p("C124","DBScan treats identical data alike",
"Without CANNOT_LINK, two data with the same vector, for which no constraint with any other data is known or inferred, end in the same cluster of DBScanConstrainedClustering.cluster, or are both ignored.",
"all reachable managers, vectors, parameters, set orders and states of the object",
"The order of the data and of their names decides which core cluster takes a border point; a test fixes one order.",
[DB])

p("C125","Results do not depend on the system of coordinates",
"When all vectors are turned, mirrored or shifted alike (more generally: moved so that distances, and means where they are used, follow), KMeans, hierarchical (each linkage), DBScan, spectral and affinity propagation clustering give the same clusters or the same error, later cuts of the hierarchical tree included, and the sampler selects the same pairs.",
"all managers, vectors, parameters, choices of the oracles and previous states of the objects; all isometries in exact arithmetic",
"There are infinitely many moves of the space; a test tries a few and cannot tell rounding from a dependence on the coordinates.",
[H+".cluster",K+".cluster",DB,SP+".cluster",AP+"AffinityPropagationConstrainedClustering.cluster",S])

p("C126","One ranking of the pairs decides all distance-based samples",
"With a closest or farthest restriction, the IDs, vectors and clusters fix one ranking of the pairs, and every sample is the beginning of what is still eligible in it, whatever is known and whatever was sampled before. So a smaller sample begins a larger one, a proposed pair is proposed again until something is known about it, and sampling in portions proposes the pairs of one large sample.",
"all reachable managers with the same IDs, numbers of pairs, vectors, clusterings, states of the sampler, and distances compared by a strict weak order",
"It relates the results of calls on different managers and with different sizes, ties included; a test compares a few of them.",
[S])

p("C127","The saved file is determined by the content",
"The file written by to_json lists the IDs in the order in which they are managed and the added constraints sorted by the positions of their IDs in that order. So managers with the same IDs in the same order and the same added constraints write the same file whatever their histories, managers that write the same file have the same content, and loading and saving again reproduces the file.",
"all reachable managers, whatever IDs and constraints were added and deleted before",
"The order inside the nested dictionaries depends on all insertions and deletions; a test compares the files of a few histories.",
[BIN+":BinaryConstraintsManager.to_json",BIN+":load_constraints_manager_from_json",BIN+":BinaryConstraintsManager.add_data_ID",BIN+":BinaryConstraintsManager.delete_data_ID",BIN+":BinaryConstraintsManager.add_constraint",BIN+":BinaryConstraintsManager.delete_constraint"])

p("C128","Every change can be taken back",
"After any history without deleted ID, taking its effective calls back, the last one first, is never refused and restores the IDs, their order and all added constraints. An ID that was deleted can be managed again and given its constraints again, in any order, without a refusal: the answers are those of before, and only its position changes.",
"all reachable managers and all histories, refused and useless calls included",
"It needs that no remaining constraint depends on what is deleted, in every state; a test takes back a few calls.",
[BIN+":BinaryConstraintsManager.add_data_ID",BIN+":BinaryConstraintsManager.delete_data_ID",BIN+":BinaryConstraintsManager.add_constraint",BIN+":BinaryConstraintsManager.delete_constraint",BIN+":BinaryConstraintsManager.get_added_constraint"])

p("C129","KMeans runs that meet again stay together",
"If the runs of KMeans with limits n and n + k on the number of rounds leave the same centroids, the results of all larger limits repeat with period k. In particular, as soon as one more round changes no centroid, larger limits change nothing at all.",
"all managers, constraints, vectors, distances, tolerances, numbers of clusters and limits",
"It relates the runs for infinitely many limits; a test compares a few.",
[K+".cluster"])

p("C130","A sampler only sees which data are together",
"Two clusterings that put the same managed IDs together, whatever the numbers of their clusters, the order of their entries and their entries for other IDs, make a sampler return the same pairs in the same order, or fail in the same way. When the number of pairs asked for is not reached, the pairs sampled in the same cluster and the pairs sampled in different clusters are together, without repetition, the pairs sampled without a restriction on clusters.",
"all managers, samplers, options, numbers of pairs, clusterings, vectors and valid random draws",
"It compares runs on all renumberings of a clustering, and runs with three settings; a test compares a few outputs.",
[S])

p("C131","Separate teams do not disturb each other",
"Let the data be split in two sides, and let every call of a history of a manager be about data of one side only. The answers and errors of the calls of a side are those of a manager that has only the data of this side and gets only its calls. The manager of the whole history has the IDs of the two managers, knows nothing between the two sides, and has their components.",
"all lists of IDs, all ways to split them, all histories of calls, in any interleaving",
"It compares every interleaving of two histories with the histories alone; a test compares a few.",
[BIN+":BinaryConstraintsManager.add_constraint",BIN+":BinaryConstraintsManager._add_constraint_transitivity",BIN+":BinaryConstraintsManager.get_connected_components"])

p("C132","A larger eps and a smaller min_samples never make DBScan ignore more data",
"Call DBScan twice on the same data and the same constraints, without CANNOT_LINK, the second time with a larger or equal eps and a smaller or equal min_samples. Data that are in a cluster the first time are in a cluster the second time.",
"all managers without CANNOT_LINK, vectors, distances, values of eps and min_samples, and set orders",
"It compares two runs for all pairs of parameters; a test compares a few.",
[DB])

p("C133","The iterations an annotation loop takes lie in an exact range",
"When sampled pairs are annotated by a fixed ground truth (sampling without inferred constraints, no cluster restriction), the loop of the usage guide ends after at most (c - k) + u iterations, with c the current connected components, k the ground-truth groups and u the pairs of data of different groups not yet known to be different.  From an empty manager with n data, nb pairs at a time: rounds <= (n - k) + (pairs of data of different groups) and nb * rounds >= (n - k) + k(k-1)/2.  For every ground truth both bounds are attained with nb = 1 by some behaviour of random.sample.",
"all reachable managers that agree with the ground truth, all ground truths, all nb >= 1, all valid random draws (different in every iteration), all distances and vectors, all sampler states",
"The bounds and that they are sharp concern all orders in which pairs can be drawn; tests run one draw of one ground truth.",
[S]+b("add_constraint","check_completude_of_constraints"))

p("C134","A KMeans call that stops early is settled up to its tolerance",
"For any distance that is a metric and any constraints: a KMeans call makes between 1 and max_iteration rounds, and when it makes fewer than max_iteration, the leader of each component (its last data) is at most tolerance farther from the mean of its cluster than from the mean of any other returned cluster that no CANNOT_LINK excludes for it. Without the tolerance this is false: with the default arguments and no constraint a call can stop although a data is closer to the mean of another cluster.",
"all reachable managers, vectors, metrics with values in any ordered type of lengths, means, draws, set orders, tolerances, numbers of clusters and of rounds, object states",
"the guarantee holds for every point and every other cluster of every run that stops; a test checks some labels of one run and never compares distances to the final means",
[K+".cluster"])

p("C135","A change that is interrupted can be repeated or taken back",
"KeyboardInterrupt or MemoryError can stop a method of the manager after any of its writes. A change that was stopped should be completed by calling the method again, and the manager should stay coherent. False: after a stopped add_constraint the same call returns True and changes nothing, and contradictory constraints are then accepted; after a stopped delete_data_ID the manager can refuse the ID, raise KeyError for other calls, and write a file that cannot be loaded. What holds: a stopped change of the constraint of a pair is repaired by delete_constraint on this pair, a stopped deletion of an ID by adding and deleting it, a stopped addition of an ID by deleting it; a stopped change of constraints is saved as before or as after; a stopped addition of a constraint keeps all earlier inferences and gives none that the whole addition would not give.",
"all reachable managers, all changing methods with all arguments, all points between two writes",
"an interruption falls between two lines of one call; tests only see the manager after whole calls",
b("add_constraint","delete_constraint","add_data_ID","delete_data_ID","_add_constraint_transitivity","_generate_constraints_transitivity"))

p("C136","Random choices are fair",
"A sampler without distance restriction favours no pair: over the random integers drawn by random.sample, every list of min(nb_to_select, number of eligible pairs) eligible pairs is answered for exactly one run, so every eligible pair is selected at the same rate, number selected over number of eligible pairs. In the same way random.shuffle gives every order once, and the vector of every data ID is one of the first centroids of KMeans at the same rate, number of clusters over number of data, when the vectors are distinct.",
"all reachable managers, all options without distance restriction, all clusterings, all numbers of pairs, both branches of random.sample; all lists of data IDs, all distinct vectors, all numbers of clusters",
"the tests fix one seed, that is one run of the generator, for each call",
[S,K+".initialize_centroids"])

p("C137","Complete linkage keeps the clusters as narrow as possible",
"With complete linkage, no other clustering with as many clusters that respects the constraints has only narrower clusters. False without any constraint. What holds: after a cut by iteration, joining two clusters that no CANNOT_LINK separates would put together two data at least as far from each other as any two data that are together now without a MUST_LINK. This fails for the cut by size that cluster makes.",
"all reachable managers, all vectors with a symmetric distance into a total order, all numbers of clusters, all cuts by iteration",
"needs every pair of clusters of every cut; the tests compare a few results with expected dictionaries",
[H+".cluster",H+".compute_predicted_clusters"])

p("C138","Distances that are floats compare as the numbers they stand for",
  "Python's comparisons of two binary64 floats that are not NaN are the comparisons of the numbers they stand for; they meet the hypotheses under which this development proves properties of the algorithms (a strict weak order; a strict total order without the second zero; infinity below nothing). Hence sampling with a distance restriction returns pairs sorted by the numbers their distances stand for and leaves out no strictly better pair, as soon as no eligible pair has a NaN distance.",
  "all pairs of binary64 floats; all reachable managers, vectors, matrices of floats, options and clustering results",
  "Tests use a few small vectors; a NaN distance, which finite vectors may give by overflow, silently returns a pair that is not the closest.",
  [S+".sample", H+".cluster", K+".cluster"])

p("C139","Merges come in the order of their distances with rounded distances",
"With the distances as scikit-learn rounds them, the distance between two data does not depend on which comes first, and with single or complete linkage a later merge is never between closer clusters than an earlier one. False: the rounded matrix is not symmetric, and three points on a line without constraints give a second merge at a smaller distance than the first. What holds for every matrix: after a merge at some distance no later merge joins two data that are nearer than it in both directions (single linkage), or only such data (complete linkage).",
"all reachable managers, all matrices of totally ordered distances, symmetric or not, all pairs of merges of a tree",
"the difference is in the last bits of a distance and shows only for some triples of points",
[H+".cluster",H+"._compute_distance",H+"._get_the_two_clostest_clusters"])

p("C140","Constraints added at the same time by several threads end as if added one after another",
"Calls of add_constraint, get_added_constraint and get_inferred_constraint that several threads make on one manager return, and leave, what they do one after the other. False without a lock: of two threads that add a = b and b = c both can return True while the manager infers nothing between a and b, and of two that add a = b and a different from b both can return True. What holds: when no data that one call can change is changed or asked about by another, every order of the reads and writes of any number of threads ends with the manager and the results of the calls one after the other; the same for threads with several calls that each stay in a part of the data of their own, when no inferred constraint leaves a part.",
"all reachable managers, all numbers of threads and calls, all orders of their single reads and writes of dictionary entries",
"the outcome depends on when the interpreter switches threads, which tests do not control",
b("add_constraint","_add_constraint_transitivity","get_added_constraint","get_inferred_constraint"))

p("C141", "Constraints that the clusters already meet leave the clusters as they are",
  "If the clusters of a hierarchical run meet every constraint of a second manager of the same data, and the second manager knows all that the first knows, then clustering with the second manager gives the same clusters. In particular right answers never make a right result wrong.",
  "every two managers of the same data, every vectors and distances, every linkage, every number of clusters",
  "A test adds one constraint to one data set and looks at one result; whether an answer that agrees with the clusters can disturb them depends on the order of all merges.",
  [H+".cluster", H+".compute_predicted_clusters"])

p("C142", "Clearly separated clusters are found",
  "If any two data of one true cluster are nearer to each other than any two data of different true clusters, and every constraint is right, then clustering into the true number of clusters gives the true clusters. It is enough that this holds for the pairs that the constraints do not decide. DBScan finds them when eps lies between the distances within and across.",
  "every reachable manager, every vectors and distances, every true clusters that the constraints respect, every linkage and k-means run and DBScan parameters",
  "A test clusters one small easy data set. Whether an easy data set can still be clustered wrongly depends on all sizes, positions and orders of the data.",
  [H+".cluster", H+".compute_predicted_clusters", K+".cluster", DB])

p("C143", "KMeans is not disturbed by constraints that its clusters meet",
  "If the clusters that KMeans finds with one manager meet every constraint of a second manager of the same data, which knows all that the first knows, then the call with the second manager finds the same clusters. In particular right answers never make a right result wrong.",
  "every two managers of the same data, every vectors, distances, random choices, numbers of clusters and parameters",
  "A test adds one constraint to one data set. Whether a constraint that is met in the end can disturb an earlier round, and so the end, depends on all rounds of all runs.",
  [K+".cluster", K+"._clustering_kmeans_model_COP"])

p("C144", "Right constraints bound how wrong the clusters can be",
  "If every constraint is right, then clusters that respect the constraints are only wrong about pairs of data that the constraints do not decide, so they are wrong about at most as many pairs as are undecided. About each undecided pair every result is wrong for some truth that the constraints allow. The bound does not grow as constraints are added, and shrinks whenever one decides a pair. KMeans and hierarchical clustering, including later cuts in two or more clusters, give such clusters.",
  "every reachable manager, every true clusters that the constraints respect, every vectors, distances, linkages, random choices and parameters",
  "A test compares one result with one truth. How wrong a result can be ranges over all truths that the constraints allow.",
  [H+".cluster", H+".compute_predicted_clusters", K+".cluster"] + b("get_inferred_constraint"))

p("C145", "Threads may ask while one thread changes the manager",
  "While one thread changes a manager (adds or deletes data and constraints, one call after the other), other threads may ask for added and inferred constraints: the changes end as if nobody asked, and every question is answered as it would be after some number of the changes, in order.",
  "every reachable manager, every list of changes, any number of asking threads with any number of questions, every interleaving of their single reads and writes of dictionary entries",
  "A test with threads sees a few of the possible interleavings, and not the same ones each time.",
  b("add_data_ID", "delete_data_ID", "add_constraint", "delete_constraint", "get_added_constraint", "get_inferred_constraint", "_generate_constraints_transitivity", "_add_constraint_transitivity"))

p("C146", "What one answer teaches",
  "Take two data that nothing is known about. Among the undecided pairs of data, answering CANNOT_LINK about the two decides exactly those that take one data known to be with the first and one known to be with the second. Answering MUST_LINK decides these too, and exactly those that take one data known to be with the one and one known to be apart from the other. The numbers of pairs decided follow: every such answer decides at least one pair, and MUST_LINK never decides less than CANNOT_LINK.",
  "every reachable manager, every two managed data that no constraint decides, both answers, every pair of managed data",
  "A test adds one constraint to one manager and looks at a few pairs. Which pairs change depends on everything that is known already.",
  b("add_constraint", "get_inferred_constraint", "_add_constraint_transitivity"))

p("C147", "How much some constraints can decide",
  "However they were chosen, k constraints between n data decide at least k and at most k(k+1)/2 of the n(n-1)/2 pairs of data. So fewer than n - 1 constraints never decide everything, and clusters that respect k right constraints are wrong about at most n(n-1)/2 - k pairs. Both bounds are reached for every k that is possible.",
  "every reachable manager, whatever was added and deleted; for reaching the bounds, every list of data and every possible number of constraints",
  "A test looks at some constraints. The bounds are about every way to choose k constraints.",
  b("add_constraint", "get_added_constraint", "get_inferred_constraint"))

p("C148", "What a call on the manager costs",
  "Counting tests, reads and assignments of entries of the two dictionaries of the manager, with n data and k constraints: a question about two data costs at most 4; adding a constraint at most 2n + 14; adding a data at most n + 5; deleting a constraint or a data at most 5 + 2n + n(n+1)/2 + (4n+6)(n+k), and never less than n(n+1)/2, because everything is inferred again.",
  "every reachable manager and every argument, refused calls included; n and k are those after the call for deletions",
  "A test measures some calls on some managers. A bound is about all of them.",
  b("add_data_ID", "delete_data_ID", "add_constraint", "delete_constraint", "get_added_constraint", "get_inferred_constraint", "_generate_constraints_transitivity", "_add_constraint_transitivity"))

p("C149", "How many confirmations make clusters sure",
  "Take clusters that respect the known constraints. They are sure (no other clusters respect the constraints) exactly when the constraints are complete. To be sure of c clusters of n data takes at least (n - c) + c(c-1)/2 constraints, whatever they are; with fewer, other clusters respect the constraints too. And for every clusters of the data, some (n - c) + c(c-1)/2 right answers make them sure.",
  "every reachable manager, every clustering that respects its constraints; for the last part, every list of data and every clustering",
  "A test shows that some answers leave other clusters possible. The bound is about every choice of the answers, and about every other clusters.",
  b("add_constraint", "get_inferred_constraint", "check_completude_of_constraints"))

p("C150", "A sampler with nothing to ask certifies the clusters",
  "Take clusters that respect the known constraints, and any true clusters that respect them too. A sampler restricted to pairs of the same cluster (without inferred constraints) has nothing to ask exactly when every cluster is certainly a part of a true cluster; a sampler restricted to different clusters has nothing to ask exactly when every true cluster is certainly a part of a cluster. The clusters are sure exactly when neither has something to ask, and every pair the clusters may be wrong about can be asked by one of the two.",
  "every reachable manager, all clusters and true clusters that respect its constraints, every random choice and all distances",
  "A test compares with one ground truth. The property is about every ground truth that the constraints leave possible.",
  [S+".sample"] + b("get_inferred_constraint"))

p("C151", "Small errors in the distances do little harm",
  "If every computed distance is within delta of the exact one, then a sampled closest (farthest) pair is at most 2*delta worse than any eligible pair that was not sampled; single linkage cut by iteration keeps the clusters as far apart as possible up to 2*delta; single and complete linkage cut by iteration find clusters that are separated by more than 2*delta; DBScan finds clusters whose inner distances are at most eps - delta and whose outer distances exceed eps + delta.",
  "all exact distances, all errors up to delta, every reachable manager and every constraints",
  "Tests have one machine and one rounding. The property is about every error up to delta.",
  [S+".sample", H+".cluster", H+".compute_predicted_clusters", DB])

p("C152", "Listing the components while constraints are added",
  "One thread adds constraints to a manager, others list the connected components or check that the constraints are complete. The additions end as when they are made alone; each check is right about the constraints after some number of the additions; a list of components is a partition of the data, namely the components after some number of the additions.",
  "every reachable manager, every number of threads, of additions of constraints and of questions, every interleaving of their reads and writes",
  "A test runs few of the interleavings, and does not choose them.",
  b("get_connected_components", "check_completude_of_constraints", "add_constraint"))

p("C153", "Sampling while constraints are added",
  "One thread adds constraints to a manager, others sample pairs from it, any number of times, with the documented arguments. The additions end as when they are made alone, and no sampling fails. What a sampling returns lies between two moments: its pairs are distinct and were all eligible at the first moment; there are at least as many as the pairs still eligible at the second moment (or the number asked for); with the closest or farthest restriction they are in order, and no pair still eligible at the second moment is left out for one that comes after it.",
  "every reachable manager, every number of threads, of additions of constraints and of samplings, all options and documented arguments, every random choice and all distances, every interleaving of the reads and writes of the manager",
  "A test runs few of the interleavings, and does not choose them.",
  [S+".sample"] + b("add_constraint", "get_added_constraint", "get_inferred_constraint"))

p("C154", "Clustering with KMeans while constraints are added",
  "One thread adds constraints to a manager, others cluster its data with KMeans, with the documented arguments. The additions end as when they are made alone, no clustering fails, and each clustering gives a cluster to each of the data and respects all the constraints that were known when it started.",
  "every reachable manager, every number of threads and of additions of constraints, all documented arguments, all distances, means and random choices, every interleaving of the reads and writes of the manager",
  "A test runs few of the interleavings, and does not choose them.",
  [K+".cluster"] + b("add_constraint", "get_inferred_constraint"))

p("C155", "Hierarchical clustering while constraints are added",
  "One thread adds constraints to a manager, others cluster its data with the hierarchical method, with the documented arguments. The additions end as when they are made alone, no clustering fails, and each clustering gives a cluster to each of the data and respects all the constraints that were known when the threads started, whatever is added meanwhile.",
  "every reachable manager, every number of threads and of additions of constraints, all documented arguments, all distances and means, every interleaving of the reads and writes of the manager",
  "A test runs few of the interleavings, and does not choose them; a listing of the components that another thread changes meanwhile puts data in two of the lists.",
  [H+".cluster"] + b("add_constraint", "get_inferred_constraint", "get_connected_components"))

p("C156", "Affinity propagation while constraints are added",
  "One thread adds constraints to a manager, others cluster its data with affinity propagation. The additions end as when they are made alone, no clustering fails, and each gives a cluster to each of the data. With absolute_must_links, and similarities that are not all equal, data that were known as MUST_LINK when the threads started are in the same cluster, whatever is added meanwhile.",
  "every reachable manager, every number of threads and of additions of constraints, all parameters of the object, all similarities and noise, every interleaving of the reads and writes of the manager",
  "A test runs few of the interleavings, and does not choose them; a listing of the components that another thread changes meanwhile puts data in two of the lists, so that two labels are written for one datum.",
  [AP+"AffinityPropagationConstrainedClustering.cluster", AP+"_affinity_propagation_constrained"] + b("add_constraint", "get_added_constraint", "get_connected_components"))

p("C157", "DBScan while constraints are added",
  "One thread adds constraints to a manager, others cluster its data with DBScan. The additions end as when they are made alone, no clustering fails, and each gives one value to each of the data: the regular clusters, then the ignored data. Data that were known as CANNOT_LINK when the threads started are in different clusters.",
  "every reachable manager, every number of threads and of additions of constraints, all documented parameters of the object, all distances that put no datum farther than eps from itself, every order of the sets of Python, every interleaving of the reads and writes of the manager",
  "A test runs few of the interleavings, and does not choose them; the method asks the manager for the same constraints in three phases and takes the answers for the answers of one state.",
  [DB] + b("add_constraint", "get_inferred_constraint"))

p("C158", "Spectral clustering while constraints are added",
  "One thread adds constraints to a manager, others cluster its data with the spectral method. The additions end as when they are made alone, and no clustering fails unless the solver does. Each entry of the matrix that the solver gets is what it would be in one of the managers between two additions, and so is its mirror image; what is inferred at the start counts, what is not inferred at the end has its kernel, and the matrix is symmetric when the kernel is. The result follows the labels of the solver.",
  "every reachable manager, every number of threads and of additions of constraints, all vectors and numbers of clusters, every kernel and solver, every interleaving of the reads and writes of the manager",
  "A test runs few of the interleavings, and does not choose them; each pair is read twice, and a constraint can come between the two reads.",
  [SP+".cluster", SP+".clustering_spectral_model_SPEC"] + b("add_constraint", "get_inferred_constraint"))

p("C159", "MPCKMeans while constraints are added",
  "One thread adds constraints to a manager, others cluster its data with MPCKMeans. The additions end as when they are made alone. The constraints that a clustering works with may never have held together, but they make sense: they contain what was inferred at the start and only what is inferred at the end, the neighborhoods are a partition, must-links are those within a neighborhood, and cannot-links hold for whole neighborhoods. \"Inconsistent constraints\" is never raised. A clustering that returns is a run of the algorithm with these constraints, renamed canonically and covering all the data; it fails only for reasons it has alone.",
  "every reachable manager, every number of threads and of additions of constraints, all vectors in the order of the manager with the same width and all numbers of clusters, all arithmetics with an exact argmin, every choice of the random draws, every interleaving of the reads and writes of the manager",
  "A test runs few of the interleavings, and does not choose them; the must-links and the cannot-links are read one after the other, pair by pair, and an addition can come anywhere in between.",
  [M+".cluster"] + b("add_constraint", "get_inferred_constraint"))

p("C160", "Saving while constraints are changed",
  "One thread adds and deletes constraints, others save the manager. The changes end as when they are made alone, and no saving fails. Each file is one that could have been saved between two of the changes, and it can be loaded again. (True with at most one change. In general the file lists the data and, for the pairs in order, the constraint they had after some number of the changes, which never goes back; when constraints are only added it can be loaded and the loaded manager is between the manager at the start and the one at the end.)",
  "every reachable manager, every number of threads and of additions and deletions of constraints, every interleaving of the reads and writes of the manager",
  "A test runs few of the interleavings, and does not choose them; a file can mix the constraints of two moments, which shows only when it is loaded.",
  b("to_json", "add_constraint", "delete_constraint") + [BIN+":load_constraints_manager_from_json"])

p("C161", "Number of clusters while constraints are added",
  "One thread adds constraints, others ask for the minimum and maximum number of clusters. The additions end as when they are made alone, no question fails, and every number in the range is feasible with the constraints at the start or with those at the end. (In general: the minimum is at least 2 and not above the maximum when this is at least 2, the maximum is between the number of components at the end and the number of data. When nothing new is inferred as MUST_LINK, the maximum is the number of components and the whole range is feasible with the constraints at the start.)",
  "every reachable manager with data, every number of threads and of additions of constraints, every choice of the visiting orders of the colourings, every interleaving of the reads and writes of the manager",
  "A test runs few of the interleavings, and does not choose them; the components are read one by one and the CANNOT_LINKs again later, and an addition can come anywhere in between.",
  b("get_min_and_max_number_of_clusters", "get_connected_components", "add_constraint"))

p("C162", "Conflicts while constraints are added",
  "One thread adds constraints, others ask which data are involved in a conflict. The additions end as when they are made alone, wrong arguments are refused, and each answer is the one of the method after some number of the additions. (In general: whether there is a conflict is right after some number of the additions; the list has at least the data that are involved one addition before and only data that are involved at the end, perhaps with repetitions. When nothing new is inferred as MUST_LINK, the answer is the one of such a moment. When constraints are also deleted, a conflict may be reported although there never is one.)",
  "every reachable manager, every number of threads and of additions of constraints, every pair of data and every type of constraint, every interleaving of the reads and writes of the manager",
  "A test runs few of the interleavings, and does not choose them; the inferred constraint is read twice and the components one by one after that, and an addition can come anywhere in between.",
  b("get_list_of_involved_data_IDs_in_a_constraint_conflict", "get_inferred_constraint", "get_connected_components", "add_constraint", "delete_constraint"))

p("C163", "What a thread was told stays so while constraints are added",
  "One thread adds constraints, others ask for inferred constraints, for the connected components, for the completeness of the constraints and for conflicts, any number of times. When a thread asks the same again, it is not told less: an inferred constraint is the same one again, complete constraints are complete again, data that were in one component are in one component again, and a conflict is a conflict again, that involves at least the same data. (For the same question only: asked with the two data in the other order, the constraint may not be inferred yet.)",
  "every reachable manager, every number of threads, of additions of constraints and of questions, every interleaving of the reads and writes of the manager",
  "A test runs few of the interleavings, and does not choose them; the answers of several calls, made while the rows of the inferred constraints are written one by one, are compared.",
  b("get_inferred_constraint", "get_connected_components", "check_completude_of_constraints", "get_list_of_involved_data_IDs_in_a_constraint_conflict", "add_constraint"))

p("C164", "What threads are told lies between before and after",
  "One thread adds constraints, others ask for inferred constraints, for the connected components, for the completeness of the constraints and for conflicts, any number of times. No thread is told less than what the method returns before the additions: what was inferred, linked, complete or in conflict then is told to be so. What a thread is told is still returned by the method after the additions. So a constraint that some thread is told is inferred in the end, and no two threads are told different constraints between the same two data, in whatever order the data are given.",
  "every reachable manager, every number of threads, of additions of constraints and of questions, every interleaving of the reads and writes of the manager",
  "A test runs few of the interleavings, and does not choose them; the answers of all the threads are compared with each other, although some are neither those before nor those after any addition.",
  b("get_inferred_constraint", "get_connected_components", "check_completude_of_constraints", "get_list_of_involved_data_IDs_in_a_constraint_conflict", "add_constraint"))

p("C165", "An added constraint stays told until it is deleted",
  "One thread changes the manager, by additions and deletions of data and of constraints; others ask for added and inferred constraints. None of the changes deletes the constraint between two managed data nor one of the two. If the constraint was added before the changes, every thread that asks for it is told it, with its type and value. Once a thread is told it, the thread is told the same each time it asks, in whatever order the two data are given, and the constraint is there after the changes: no later addition overwrites it and the deletions of other data and constraints do not hide it. When the changes do not add the constraint either, each answer is the one before the changes. (The constraint that a thread was told may not be inferred yet, or not be inferred for a while when the inferred constraints are computed again.)",
  "every manager, every two managed data, every number of threads, of changes and of questions, every interleaving of the reads and writes of the manager",
  "A test runs few of the interleavings, and does not choose them; the dictionary is changed entry by entry, and the answers of several calls made meanwhile are compared.",
  b("get_added_constraint", "add_constraint", "delete_constraint", "add_data_ID", "delete_data_ID"))

p("C166", "Listing the managed data while they are changed",
  "One thread adds and deletes data and constraints; others list the managed data and ask for constraints. The changes end as when they are made alone. Each list of managed data is the one that the method returns after some number of the changes, and these numbers only grow from one list of a thread to its next: no thread sees a change undone. (A data in the list may not be ready: asking for its inferred constraints may be refused and asking for its added ones may raise a KeyError, because the data is listed before its entries are written.)",
  "every manager, every number of threads, of changes and of questions, every interleaving of the reads and writes of the manager",
  "A test runs few of the interleavings, and does not choose them; a list is right only because each change writes the keys once, wherever the others look.",
  b("get_list_of_managed_data_IDs", "add_data_ID", "delete_data_ID", "add_constraint", "delete_constraint", "get_inferred_constraint", "get_added_constraint"))

p("C167", "An inferred constraint stays told while data and constraints are added",
  "One thread adds data and constraints; others ask for added and inferred constraints. A constraint that is inferred before the additions is told by each question about it. Once a thread is told an inferred constraint, possibly of a data that was unknown when the thread asked first, it is told the same each time it asks the same, and the constraint is inferred after the additions. No two threads are told that two data must link and that they cannot. (This holds for additions only: while a constraint of other data is deleted, a thread can be told that two data must link, then that nothing is known of them, though they must link before and after.)",
  "every manager, every number of threads, of additions and of questions, every interleaving of the reads and writes of the manager",
  "A test runs few of the interleavings, and does not choose them; the inferred constraints are changed row by row, and the answers of several calls made meanwhile are compared.",
  b("get_inferred_constraint", "add_constraint", "delete_constraint", "add_data_ID"))

exec(open(os.path.join(os.path.dirname(__file__),"more_properties.py")).read()) if os.path.exists(os.path.join(os.path.dirname(__file__),"more_properties.py")) else None
with open(os.path.join(os.path.dirname(__file__),"..","properties.jsonl"),"w") as f:
    for x in P: f.write(json.dumps(x,ensure_ascii=False)+"\n")
print(len(P))
