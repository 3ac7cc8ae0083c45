# Formal model of interactive-clustering — design

Source: `/repo/src/cognitivefactory/interactive_clustering` (Python), read as text.
Model and proofs: `/verif/rocq/theories` (Coq 8.16.1, standard library only).

## Approach

* Each modelled Python function is a Gallina function that follows it branch by
  branch; the comment above each definition cites file and lines.
* Exceptions are values.  Methods that mutate an object are state transformers
  `M S A = S -> S * res A`: the state *left behind* is returned even when an
  exception is raised, so partial updates are visible.
* Python `str` = list of Unicode code points, ordered lexicographically.
  Python `dict` = insertion-ordered association list.  `Dict[str, None]` used as
  ordered set = list of keys.
* Randomness, iteration order of Python `set`s, numeric kernels (distances,
  centroids, eigen-solvers, message passing) and language models are *oracles*:
  universally quantified functions in the theorems.  A theorem then holds for every
  outcome of the oracle.
* Specifications (`Spec.v` and the small spec sections in front of each group of
  theorems) talk about the API (answers of public methods), chains of annotations
  and labellings; they do not use the model's helper functions.
* When the code does not have a property, the file contains a `..._refuted`
  theorem with a concrete witness (that is a finding about the code) and, where
  there is a useful weaker statement, a `..._partial` theorem.

## Trusted base

* Coq's kernel (and `coqchk`).
* What `Print Assumptions` lists for each theorem of the `Prop*.v` files (see the
  build log; expected: `Closed under the global context`).  Loading the standard library's `Setoid`
  brings in `Coq.ssr.ssrunder`, whose sealed module shows up as parameters in a listing of
  the whole context; no theorem depends on them.
* That the model mirrors the Python text: this is by reading.  Each file header lists
  its simplifications.
* Python semantics as encoded in `Base.v` (string order, dict order, stable `sorted`,
  `min`/`max` returning the first extremum, `json` text format in `Json*.v`).

Not modelled: numerical content of numpy/scipy/sklearn/networkx/spaCy calls (oracles),
logging, documentation, what a call does with an argument of a wrong type that its checks let
through (the checks are in `Arguments.v`), memory/time limits (C148 counts accesses to
entries of the manager, not the time one access takes or the copying of a dictionary)
(recursion depth is discussed for MPCKMeans), threads beyond `Threads.v`, `Readers.v`, `Listing.v`, `SampleThread.v`, `KMeansThread.v`, `HierThread.v`, `AffinityThread.v`, `DbscanThread.v`, `SpectralThread.v`, `MpckThread.v`, `SaveThread.v`, `MinMaxThread.v`, `ConflictThread.v`, `AskAgain.v` and `ManagedThread.v`
(the library starts none).

The libraries are taken to behave as in the versions the project names as validated
in `pyproject.toml` (numpy 1.23, scipy 1.7, scikit-learn 1.0, networkx 2.6, spaCy 3.4);
for instance `scipy.sparse.vstack` is taken to accept a generator.  Nothing here was run.

## Files and tools

* `rocq/theories/X.v`: model of a module; `XSpec.v`: what its statements mean, written
  without the model's helpers; `XProofs.v`, `XRun.v`, ...: lemmas; `XThms.v`: the
  theorems; `PropX.v`: the public statements, each followed by `Print Assumptions` and
  an example that meets its hypotheses.  `PropX.v` is generated from `XThms.v` by
  `tools/gen_props.py` and committed.
* `properties.jsonl`, `MANIFEST.json`: generated by `tools/gen_properties.py` and
  `tools/gen_manifest.py` (notes in `tools/manifest_notes.py`).
* `seeded/LOG.jsonl`: mutation tests.  `tools/mutate.py` edits a scratch copy of the
  model, rebuilds and reports the theorems that fail; `tools/log_mutants.py` logs.
  `tools/automutate.py` makes single-token edits of all the model files by itself.
* `Tests*.v`: 135 of the project's own tests (`/repo/tests`), run on the model.
  `tools/gen_tests.py` reads the test files with Python's `ast` module (nothing is
  imported or run) and writes each test as an `Example` checked by computation.  These
  are tests of the model, not proofs, and are not in the manifest.  `TestLib.v` says how
  numbers and draws are given: vectors are binary64 numbers (`SpecFloat`), distances follow
  scikit-learn's formula, `random.seed` draws are tables of positions obtained from Python's own
  `random` module.  Where a test does not seed its draws, several draws are tried (KMeans:
  two shuffles; MPCKMeans: three first centres; DBSCAN: two set orders).  The log of the
  determinant in MPCKMeans is taken to be 0.  Affinity propagation is run without the
  small noise.  The tests left out (arguments of a wrong type, the abstract classes,
  the eigenvectors of the spectral model) are listed at the end of each file; the text
  tests (`tests/utils`) need a spaCy model and are left out as a whole.

## What is modelled

| Code | Model | Left out |
|------|-------|----------|
| `constraints/binary.py` | `Manager.v` (all methods), `MinMax.v` (number of clusters), `Json.v` (serialization), `Heap.v` (dictionaries as shared objects, several managers), `Interrupt.v` (the managers between two writes of a method), `Threads.v` (`add_constraint` and the getters of one constraint, one read or write at a time), `Readers.v` (the other changes, likewise), `Listing.v` (components and completeness, likewise), `SaveThread.v` (`to_json`, likewise), `MinMaxThread.v` (number of clusters, likewise), `ConflictThread.v` (data involved in a conflict, likewise), `AskAgain.v` (several getters, one after the other, likewise), `ManagedThread.v` (`get_list_of_managed_data_IDs`, likewise) | values of arguments of a wrong type; networkx beyond greedy colouring |
| `sampling/clusters_based.py` | `Sampling.v`, `SampleThread.v` (`sample` while other threads change the manager) | vectors of different sizes |
| `docs/usage.md` | `Loop.v` (annotation loop), `Annotator.v` (annotation loop with any annotator), `Usage.v` (whole session) | in `Usage.v`, other annotators than a fixed ground truth |
| `clustering/abstract.py` | `Rename.v` | |
| `clustering/kmeans.py` | `KMeans.v`, `KMeansThread.v` (`cluster` while other threads change the manager) | numeric content of distances and means |
| `clustering/hierarchical.py` | `Hierarchical.v`, `HierThread.v` (`cluster` while other threads change the manager); `Objects.v` (clusters as objects that refer to each other: constructor, `add_new_children`, `to_dict`) | lists shared between a caller and a cluster |
| `clustering/spectral.py` | `Spectral.v`; `SpectralThread.v` (`cluster` while other threads change the manager) | the eigensolver (oracle); commented-out CCSR |
| `clustering/affinity_propagation.py` | `Affinity.v`, including message passing; `AffinityThread.v` (`cluster` while other threads change the manager) | float arithmetic is abstract; exact arithmetic is a hypothesis of C71 |
| `clustering/dbscan.py` | `Dbscan.v`; `DbscanThread.v` (`cluster` while other threads change the manager) | numeric content of distances |
| `clustering/mpckmeans.py` | `Mpckmeans.v`; `MpckThread.v` (`cluster` while other threads change the manager) | numeric content of distances, means, metric update; the recursion limit is a parameter |
| `utils/frequency.py` | `Frequency.v` | |
| `constraints/factory.py`, `sampling/factory.py`, `clustering/factory.py` | `Factories.v` | keyword arguments of wrong types |
| `utils/preprocessing.py`, `utils/vectorization.py` | `Text.v`, including the n-grams, vocabulary and pruning of `TfidfVectorizer` | spaCy, Unicode tables, word pattern, weights (oracles) |

## Properties

For each property: what is modelled and how it is proved.

| Id | Model | Proof |
|----|-------|-------|
| C01–C14, C19–C21 | `Manager.v` | invariant `Inv` over all reachable states (`ManagerProofs.v`, `ManagerInv.v`, `ManagerQueries.v`), theorems in `PropManager.v` |
| C15–C18 | `MinMax.v`: greedy colouring with arbitrary node orders as oracle | graph colouring argument over components; C17, C18 are refuted for the code as it is |
| C22–C26 | `Json.v`: record level and text level (`json.dump(indent=1)`, `json.load`), file = string, crash = prefix | replay argument on the invariant; parser/printer inversion; prefix argument; parts of C22, C23, C25 are refuted |
| C27–C30, C32 | `Sampling.v`: `sample`, `random.sample` as oracle, stable sort | list reasoning; link with completude through `Inv` |
| C31 | `Loop.v`: annotation loop | ground truth labelling satisfies all constraints; number of unknown pairs decreases |
| C33 | `Rename.v` | induction on sorted keys |
| C34–C36, C55, C58–C62 | `KMeans.v` with distances, centroids, shuffles as oracles | invariant of the assignment loop; C36 refuted |
| C37–C41, C63–C66 | `Hierarchical.v`: `cluster`, `compute_predicted_clusters`, `Cluster` trees | invariants of merge loop and of the cut; C40/C41 refuted in general |
| C42–C43, C67–C68 | `Spectral.v` | pointwise reasoning |
| C44–C45, C69–C72 | `Affinity.v` | meta-point argument; refuted in the degenerate branches; functional description in exact arithmetic |
| C46–C47, C73–C75 | `Dbscan.v` | phase invariants; must-link part of C47 refuted; functional description as a relation (`DbscanSpec.v`) |
| C48–C51, C76–C80 | `Mpckmeans.v`: arithmetic, set orders, shuffles, draws and the recursion limit as oracles | graph closure on the invariant (`MpckGraph.v`), iteration (`MpckRun.v`), functional description as a relation (`MpckSpec.v`); C49, C50, C51, C80 refuted |
| C52 | `Frequency.v`, `PropFrequency.v` | sums over Q; binary64 counterexample with SpecFloat; `RoundingProofs.v` proves that sums and quotients of positive binary64 numbers are exact up to a relative error of 2^-53, `FrequencyFloatThms.v` bounds the error of the frequencies |
| C53 | `Factories.v`, `PropFactories.v` | case analysis |
| C54, C81–C82, C95 | `Usage.v`: manager, sampler and KMeans or hierarchical clustering together (`UsageSpec.v`: what a clustering must provide) | one-iteration lemma of C31 for any sampler, KMeans theorems, number of undecided pairs; the failing parts are refuted |
| C56–C57, C83–C86 | `Text.v` | list reasoning with spaCy and Unicode as oracles; C83, C84 refuted |
| C87 | `Text.v`, `Usage.v` | C56 and C81 together |
| C88–C89 | all six algorithms, the sampler | `SameSpec.v`; the queries give equal answers, so the runs are equal; hierarchical trees related up to the order of the members; part refuted |
| C90 | `MinMax.v`, with the largest-first and smallest-last orders of networkx in `ColoringSpec.v` | a colour is at most the number of earlier neighbours; a limit is shown by a concrete bipartite case |
| C91–C92 | `Objects.v`, `Hierarchical.v`, `Json.v` | simulation between objects and trees, induction on trees; invariant over calls; a family of deep clusterings; C92 refuted in general |
| C93–C94 | `Seeds.v` over the models of the algorithms | the draws are functions of generator states and of the seed; DBScan through C74; concrete executions for the refuted parts |
| C96–C97 | `Manager.v`, `MinMax.v`, `Json.v`, `Usage.v` | `ResumeSpec.v`; a relation between managers kept by every call; only the nodes on edges get colours, so the names of components do not matter; C88, C89, C22 for the session |
| C98 | `Heap.v` | `HeapSpec.v`; a relation between a memory and a list of managers kept by every call, sets are never changed and tables have one owner |
| C99 | `Manager.v` | `RepairSpec.v`; through the abstract machine, the links that refuse a constraint lie inside the listed components |
| C100 | `Manager.v` | `EffortSpec.v`; adding a constraint joins at most two components, and a pair of components known to be different has its own added CANNOT_LINK |
| C101 | `Manager.v` | `NamesSpec.v`; a relation between a manager and its renamed version kept by every call; IDs only, not the clustering and sampling algorithms |
| C102 | `Mpckmeans.v` (`np_str`: strings in an array of numpy) | the keys of the raw result are stripped IDs; refuted for IDs that end with NUL |
| C103 | `Manager.v` | `MonoSpec.v`; `Rel.v`, `RelManager.v`: every method sends managers related by a renaming to related managers and answers |
| C104 | `Sampling.v` | `RelClusterings.v`; `random.sample` is any generator that chooses positions |
| C105 | `Rename.v`, `KMeans.v`, `Hierarchical.v`, `Spectral.v`, `Affinity.v`, `Dbscan.v`, `Mpckmeans.v` | `RelClusterings.v`, `RelHierDb.v`; fresh objects; DBScan uses C74 for the order of sets |
| C106 | `Annotator.v`, with `Manager.v` and `Sampling.v` | `AnnotatorSpec.v`; a log of all annotations with whether each was accepted |
| C107 | `KMeans.v` | `LloydSpec.v`, `LloydProofs.v`; vectors of rationals, squares compared instead of square roots, exact means |
| C108 | `Hierarchical.v` | `CutSpec.v`: the forests of a run, in order (`run_trace`), and the last one with at least k trees |
| C109 | `Hierarchical.v` | `CutSpec.v` (`joined`), `HierSpec.v`; single linkage, symmetric distances, rival clusterings that respect the constraints |
| C110 | `Dbscan.v` | `DensitySpec.v` (`hangs_together`), `DbscanSpec.v` (`within`) |
| C111 | `Dbscan.v` | `DensitySpec.v` (`dense`); refuted on points of a line, positive part for eps at most 1 |
| C112 | `Hierarchical.v` | `HierSpec.v` (`linkage_distance`, `subtree`); symmetric distances, single or complete linkage; refuted on points of the plane for the other two |
| C113 | `Manager.v`, `MinMax.v` | `RangeSpec.v` (`maximum`), `Spec.v` (`feasible`, `nb_components`) |
| C114 | `Spectral.v` | `BlockSpec.v` (`separates_blocks`), `SpectralSpec.v` |
| C115 | `Mpckmeans.v` | `WeightSpec.v` (`square_distance`, `exact_numbers`, `free_of_conflicts`), `MpckSpec.v` |
| C116 | `Arguments.v` | `ArgumentsSpec.v` (`integer`, `number`, `dictionary`, `no_key`, `checks_number`, `checks_none`) |
| C117 | `KMeans.v` | `ConvergeSpec.v` (`own_centre`, `settled`), `LloydSpec.v`; exact arithmetic as in C107, tolerance below every move |
| C118 | `Text.v` | `TellSpec.v` (`same_shared_counts`, `same_shared_phrases`, `weight_of_presence`, `keeps_zeros`), `TextSpec.v` |
| C119 | `Sampling.v` | `StaleSpec.v` (`given`, `cluster_missing`, `vector_missing`, `agree`) |
| C120, C121 | `Hierarchical.v`, `Sampling.v`, `KMeans.v`, `Dbscan.v` | `UnitSpec.v` (`increasing`, `in_unit`, `sampler_in_unit`) |
| C122, C123, C124 | `KMeans.v`, `Hierarchical.v`, `Dbscan.v` | `TwinSpec.v` (`twins`, `unconstrained`, `by_vectors`, `separates`, `linkage_separates`, `at_ease`, `different_vectors`, `dense`) |
| C125 | `Hierarchical.v`, `KMeans.v`, `Dbscan.v`, `Spectral.v`, `Affinity.v`, `Sampling.v` | `MoveSpec.v` (`moved`, `keeps_pairwise`, `keeps_mean`, `isometry`, `apart2`, `gravity`; `MPCKMeans.v` is left out, its metric weights the coordinates) |
| C126 | `Sampling.v` | `RankSpec.v` (`same_ids`, `knowing_nothing`, `enough`, `those`) |
| C127 | `Manager.v`, `Json.v` | `CanonSpec.v` (`records`), `ResumeSpec.v` (`same_content`), `JsonSpec.v` |
| C128 | `Manager.v` | `UndoSpec.v` (`undo_call`, `undo`, `keeps_IDs`, `succeeds`, `lists_constraints_of`), `ResumeSpec.v` (`same_content`, `outputs`) |
| C129 | `KMeans.v` | `KMeansSpec.v` (`valid_set_order`) |
| C130 | `Sampling.v` | `PartitionSpec.v` (`same_groups`, `with_clusters`), `SamplingSpec.v` (`valid_draw`) |
| C131 | `Manager.v` | `TeamsSpec.v` (`on_one_side`, `belongs`, `answers_of`), `ResumeSpec.v` (`outputs`, `same_output`) |
| C132 | `Dbscan.v` | `DensitySpec.v` (`dense`), `DbscanSpec.v` (`within`, `valid_setlist`) |
| C133 | `Loop.v` | `RoundsSpec.v` (`nb_different`, `nb_unknown_different`), `Spec.v` (`nb_of_clusters`) |
| C134 | `KMeans.v` | `StopSpec.v` (`full_rounds`, `nearly_settled`), `KMeansSpec.v` |
| C135 | `Interrupt.v`, `Manager.v`, `Json.v` | `InterruptSpec.v` (`of_pair`), `ResumeSpec.v`, `Spec.v` |
| C136 | `Sampling.v`, `KMeans.v` (`initialize_centroids`) | `FairSpec.v` (`random_sample`, `random_shuffle`, their runs, `how_many`), `SamplingSpec.v`; the runs of the random integers are taken to be equally likely |
| C137 | `Hierarchical.v` | `HierSpec.v`, `CutSpec.v` |
| C138 | `Sampling.v` | `FloatSpec.v` (what a binary64 stands for, from `Coq.Floats.SpecFloat`), `SamplingSpec.v`, `HierSpec.v` |
| C139 | `Hierarchical.v` | `HierSpec.v`, `FloatSpec.v` (`euclidean`: the formula of scikit-learn on one coordinate) |
| C140 | `Threads.v` | `ThreadSpec.v` |
| C141 | `Hierarchical.v` | `HierSpec.v`, `CutSpec.v`, `ClusterSpec.v` |
| C142 | `Hierarchical.v`, `KMeans.v`, `Dbscan.v` | `SepSpec.v`, `HierSpec.v`, `KMeansSpec.v`, `DbscanSpec.v` |
| C143 | `KMeans.v` | `KMeansSpec.v`, `ClusterSpec.v`, `HierSpec.v` |
| C144 | `Manager.v`, `KMeans.v`, `Hierarchical.v` | `WrongSpec.v`, `ClusterSpec.v` |
| C145 | `Readers.v`, `Threads.v` | `ReadersSpec.v`, `ThreadSpec.v` |
| C146 | `Manager.v` | `TeachSpec.v`, `WrongSpec.v`, `Spec.v` |
| C147 | `Manager.v` | `EffortSpec.v`, `WrongSpec.v`, `Spec.v` |
| C148 | `Readers.v`, `Threads.v` | `CostSpec.v`, `EffortSpec.v` |
| C149 | `Manager.v` | `SureSpec.v`, `EffortSpec.v`, `ClusterSpec.v` |
| C150 | `Sampling.v`, `Manager.v` | `ExhaustSpec.v`, `SureSpec.v`, `SamplingSpec.v` |
| C151 | `Sampling.v`, `Hierarchical.v`, `Dbscan.v` | `ApproxSpec.v`, `SamplingSpec.v`, `HierSpec.v` |
| C152 | `Listing.v`, `Readers.v`, `Threads.v` | `ListingSpec.v` |
| C153 | `SampleThread.v`, `Readers.v`, `Threads.v` | `SampleThreadSpec.v`, `SamplingSpec.v` |
| C154 | `KMeansThread.v`, `SampleThread.v`, `Readers.v`, `Threads.v` | `KMeansThreadSpec.v`, `ClusterSpec.v` |
| C155 | `HierThread.v`, `Listing.v`, `Readers.v`, `Threads.v` | `HierThreadSpec.v`, `ClusterSpec.v` |
| C156 | `AffinityThread.v`, `Listing.v`, `Readers.v`, `Threads.v` | `AffinityThreadSpec.v`, `AffinitySpec.v`, `ClusterSpec.v` |
| C157 | `DbscanThread.v`, `Readers.v`, `Threads.v` | `DbscanThreadSpec.v`, `DbscanSpec.v`, `KMeansThreadSpec.v`, `ClusterSpec.v` |
| C158 | `SpectralThread.v`, `Readers.v`, `Threads.v` | `SpectralThreadSpec.v`, `SpectralSpec.v`, `ClusterSpec.v` |
| C159 | `MpckThread.v`, `Readers.v`, `Threads.v` | `MpckThreadSpec.v`, `MpckSpec.v`, `ClusterSpec.v` |
| C160 | `SaveThread.v`, `Json.v`, `Readers.v`, `Threads.v` | `SaveThreadSpec.v`, `JsonSpec.v` |
| C161 | `MinMaxThread.v`, `MinMax.v`, `Listing.v`, `Threads.v` | `Spec.v`, `ListingSpec.v`, `KMeansThreadSpec.v` |
| C162 | `ConflictThread.v`, `Listing.v`, `Readers.v`, `Threads.v`, `Manager.v` | `ConflictThreadSpec.v` |
| C163 | `AskAgain.v`, `ConflictThread.v`, `Listing.v`, `Readers.v`, `Threads.v`, `Manager.v` | `AskAgainSpec.v` |
| C164 | `AskAgain.v`, `ConflictThread.v`, `Listing.v`, `Readers.v`, `Threads.v`, `Manager.v` | `AskAgainSpec.v`, `ToldSpec.v` |
| C165 | `Readers.v`, `Threads.v`, `Manager.v` | `KeepSpec.v` |
| C166 | `ManagedThread.v`, `Readers.v`, `Threads.v`, `Manager.v` | (none needed) |
| C167 | `Readers.v`, `Threads.v`, `Manager.v` | `KeepSpec.v` (`asks`), `Spec.v` (`inferred`) |
