# A Rocq model of ALiPy: design

The source modelled is `/repo/alipy` (Python). Nothing of it is executed here; every
definition of the model cites the file and lines it was read from.

## Layout

`rocq/theories/`

| file | role |
|---|---|
| `Base.v` | exceptions as values, outcomes with state, list/rational helpers shared by all models |
| `*Model.v` | the model: total computable functions, no proofs, each with a `/repo` citation |
| `*Spec.v` | (where the specification is more than a line) small independent specifications |
| `*Proofs*.v` | lemmas and proofs |
| `*Props*.v` | the property theorems `Cxx_...`, each followed by `Print Assumptions`, with non-vacuity `Example`s beside them; short proofs and helper lemmas are kept with them |

## Modelling conventions

* **Exceptions** are values: `Err exn`. A mutating method returns the new state *and* the
  outcome, so partial effects before a raise are visible.
* **Warnings** are returned as a list where a property speaks about them, ignored otherwise.
* **Integers** are `Z`; positions and lengths are `nat`.
* **Floating point** is modelled by exact rationals `Q` (comparison with `Qeq`, `Qle_bool`), or by `Z` where only
  order/sums matter; rounding, NaN and overflow are out of the model. Where infinity is used by the code
  (`np.infty`) it is a constructor of an extended type.
* **Randomness** (`random.sample`, `np.random.*`) is an argument: an arbitrary draw constrained only by the
  documented contract of the generator (e.g. "k distinct elements"). Theorems quantify over all draws.
* **Learned models, distances, decision functions** are arbitrary functions/matrices given as arguments.
* **Sorting** by numpy is modelled either by an explicit stable insertion sort, or (when tie-breaking is
  not specified by numpy, e.g. quicksort `argsort`) by an arbitrary permutation satisfying the sortedness contract.
* **Python sets** are duplicate-free lists; theorems about them are stated up to membership, or for every
  iteration order when the order is observable.
* **Loops** are folds or structural recursion; `while` loops use an explicit schedule (list of draws) or fuel whose
  exhaustion is a distinguished outcome excluded by the statement.
* **Threads** are an explicit interleaving: a list of scheduler/completion events.
* **Files** are an explicit disk state with crash events between the truncating open and the end of the write.

## Property plan

| id | what is modelled | how it is proved |
|---|---|---|
| C01 | IndexCollection ops on typed values | refinement to set membership by induction over op lists, NoDup invariant |
| C02 | `__init__` with `np.unique` | sortedness + membership + length characterisation |
| C03 | `element_type`, TypeError/warning paths | invariant over op lists; frame equations for rejected calls; numpy quirk as exact equation |
| C04 | `random_sampling` with arbitrary `randperm` draw | subset/NoDup/length from draw contract |
| C05 | MultiLabelIndexCollection ops | refinement to sets of pairs; range invariant; negative label witness |
| C06 | flatten / integrate | denotation function, both directions |
| C07 | C/F ravel/unravel | div/mod arithmetic with `lia`/`nia` |
| C08 | element mask, matrix mask | cellwise equality over all matrices |
| C09 | label matrix extraction | loop invariant over index list |
| C10 | integrate-based partition | from C06 lemmas |
| C11 | map_whole_index_to_train | positions by `index_of` lemmas |
| C12 | State as association list | last-write refinement to a function, protected keys invariant |
| C13-C15 | StateIO | replay fold; sums; rollback lemmas on `firstn` |
| C16 | check_batch_size | exact boolean characterisation |
| C17 | disk with crash events | induction over event lists |
| C18 | StoppingCriteria | exact iff after any update history; monotonicity |
| C19 | main loop with fuel and arbitrary strategy | measure |U|, loop invariant |
| C20-C23 | Oracle, OracleQueryMultiLabel, Oracles | association-map refinement, induction over histories |
| C24-C25 | repositories | alignment invariants by induction |
| C26 | Counter.most_common | argmax lemma |
| C27-C31 | split family | arbitrary permutations, `firstn/skipn`; retry loop over draw sequences; file naming |
| C32-C34 | misc | permutation/sortedness contracts |
| C35-C36 | preprocessing | field arithmetic over Q |
| C37-C44 | metrics | counting lemmas, cumulative sums vs pair counts |
| C45-C46 | aceThreading | transition system, invariants over all schedules |
| C47-C57 | query strategies | selection lemmas, DP optimality, invariants over random schedules |
| C58, C77, C78 | analyser: matrices, summaries, curves, histories of additions | prefix sums, minima, means over Q, induction over methods and folds |
| C59, C79, C80 | ToolBox: heap of lists, views and collections, settings files on disk, programs that make, split, read, mutate, restart and crash | history invariants: heap growth, separation of returned references, fold counts, one settings file per path |
| C81 | calc_performance_metric and the metric of AlExperiment: dispatch by name to the metric models, first column, keywords | theorems of C37-C44 carried through the dispatch; counting of pairs for hard predictions |
| C82 | configuration of AlExperiment: attributes, set_query_strategy, set_performance_metric, set_data_split, the way the main loop asks for a selection; any sequence of calls | case analysis per name, induction over histories |
| C83 | start_query without threads: the main loop per fold with a fresh recorder, results appended | loop invariant of C19 extended by what each entry records; induction over the folds |
| C84 | start_query with threads: machine with one program counter per fold and one shared model, any schedule | per-thread loop invariant kept under steps of the others; measure for termination; replay of the sequential loop |
| C85 | BMDR/SPAL select: rounds with solver, ADMM and argsort as parameters; a SPAL object over a sequence of calls | run relation extracted from the loop by induction on fuel; selection from the n-largest theorem |
| C86 | the matrices P and q built for the solver | weighted-sum functionals; expansion of the kernel energy; concrete kernel for the refuted clause |
| C87 | ADMM loop with linear systems A, r, soft threshold | quadratic expansion with vanishing gradient and semidefinite remainder; coordinatewise minimum of the z update |
| C88 | CEAL: the table of values over oracles and instances, neighbour search and predictions as arguments | table entry by entry, flattened argmax back to row and column; counterexamples quantified over geometries |
| C89 | IEthresh: history, votes and scores per oracle over any series of calls, oracles that fail | invariant over histories relating the records to the log of calls; mean and variance of zeros and ones |
| C90 | uncertainty choice, All and Random | C47 for a batch of one; dictionary lemmas |
| C91 | AURO: masks, choice of instance and two labels, models at addresses of a heap | mask rows counted; position in the sorted distances; frame for the heap |
| C92 | QUIRE's evaluation: the block computed as inverse, the update leaving one instance out, the value | sums over finite index sets; block inverse equivalences; two-variable minimisation; a four-instance counterexample |
| C93 | LAL: data files with interrupted downloads, selector life cycle, features, selection | induction over histories of calls on one disk; prefix lemma for the chunk loop |
| C94 | construction of the density graph | loop invariant over the entries visited; sums over the linked points |
| C95 | shaded areas and printed tables of the analysers | relation of the shaded loop to the plain one; invariant over histories of additions |
| C96 | kernel matrices of utils/misc.py, label arrays by type | sums over coordinates; induction on the degree with the product of a semidefinite kernel and an inner product; for the rbf kernel over the reals: limits of the series of the exponential, and the error of the rounding |
| C97 | pools of oracles with costs for each label, summary and full history | induction over histories; broadcasting sums characterised exactly |
| C98 | a round as a machine with a step for every statement of the loop, memory, result file, interruptions and recovery | invariant by cases on the program counter: the record replays to the sets, the file holds the record or one query less; counting of the selections |
| C99 | arrays of up to two dimensions, scipy's statistic as exact arithmetic, the distribution as a function with a contract | variance formula by induction over the sample; scaling of sums and sums of squares; cases on shapes |
| C100 | the silent StateIO of C13-C17 with round, verbose, interval and first-print flag; reports as records of numbers | simulation of the silent object; reverse induction over the queries for the schedule; a monoid of outputs for the header |
| C101 | Training of the label ranking model (multi_label.py 79-239): pairs, irrelevant labels, random search of a violator, gradient step on B and V, kept copies, get_BV. | Induction over the visits of a call and over the calls; the margin by a sum-of-squares identity; averages by an invariant on the sums. |
| C102 | the marking of C54 and the rounds of the cost-sensitive example; hierarchies as parent relations, settled labels as agreement of all consistent labellings | explicit alternative labellings (all descendants negative, all ancestors positive) by a computed reachability; induction over the rounds |
| C103 | the label array as an argument of every select: training on the labelled rows, all reads of the array with numpy indexing, learners as arbitrary functions; composed with the choices of QueryModel, MLQueryModel, BatchModel, LalModel, QuireModel, AuroModel and NoisyModel | equality of the runs from agreement on what is read; explicit arrays for the leaks |
| C104 | list iteration by position over the collection that the loop body changes, with a bound on the turns that is shown to suffice; rounds of update and difference_update with a new list or the pool itself | induction on the part of the list behind the iterator; positions of the survivors |
| C105 | the loop with fuel over the models of the multi-label collections, get_Xy_in_multilabel, State and StateIO; exceptions leave the changes made so far; strategy, model and performance are parameters | an invariant at the head of the loop (division of the entries, what was asked for, training history, record), and measures for the end |
| C106 | The loop (examples/AL_settings/noisy_oracles.py 61-92) on top of the models of collections, repository, oracle pool, saver and stopping criterion; strategy with own state and performance as parameters, exceptions keep the state reached | Invariant over the rounds linking the six records (NoisyLoopProofs2), a second one for alignment with any strategy, a progress argument for the end (NoisyLoopProofs3) |
| C107 | the loop as a fold of rounds over a state of six parts; the strategy is a function with its own state, the completion and the score are arbitrary functions that may fail | invariant at the head of the loop and a weaker one after an exception; the record is replayed one entry at a time; equality of two runs by induction on the rounds |
| C108 | the loop as a fold of turns over the two collections, the classifiers, the strategy's state, the record and the criterion; strategy, fit and score are arbitrary functions that may fail | invariant at the head of the loop indexed by the list of queries, and a weaker one after an exception; the marked pairs by C54, the strategies by C55 and C63 |
| C109 | the container of StateModel; indexing and iteration in RecordModel | case analysis of one call; the rest by induction over the history |
| C110 | the loop of examples/AL_settings/query_type.py in AuroLoopModel, on the models of AURO, the collections and StateIO | invariant over the rounds; the number of rounds by counting pairs per instance |
| C111 | the save, load and path rules of the four classes on one file system in SaveModel; contents of objects abstract | frame property of every event by cases, then induction over histories; file names by injectivity of decimal notation |
| C112 | the loop of labeling_real_data.py over the models of the collections, the repository and the uncertainty strategy | invariant over rounds naming the labels given so far; two runs compared through the choices, which depend only on the instances left |
| C113 | the main loop of query_instance.py with strategies, metrics and saves that may raise, over the models of StateIO, the criterion and the collections | a relation between criteria that decide alike, preserved by the loop; the loop without exceptions is that of C19 and C83 |
| C114 | the branches of both constructors on lists and collections, over the models of the collections and of StateIO | case analysis on the lists; induction over the recorded queries |
| C115 | one process and one disk; a round is an arbitrary function of target, number, parameters and record; events for making, starting, killing, saving and recovering | induction over the rounds for start and recover; case analysis over the histories |
| C116 | the constructor's check of the weights, the table of distances, uncertainty, votes and informativeness entry by entry; classifiers and argsort are arbitrary functions | entries of the mapped matrices by position; C33 for the nearest instances; the votes as counts; the selection of C64 on the computed matrix |
| C117 | DummyClf and _BinaryRelevance as an object with its list of classifiers, partly filled after a failure; base classifier as arbitrary functions | the list of classifiers column by column; constant or mixed columns; contract of the decision function for the agreement |
| C118 | the scheduler of ThreadModel with records, printed tables and an exception flag; printing is an event of the schedule | invariants over the event lists: prints that succeed leave the scheduler unchanged, prints that fail freeze it; C45_complete for the last table |
| C119 | the exported names with the signatures of the constructors; Python's binding of keyword arguments; the body of a constructor is an argument | finite comparison of the two tables, then reasoning over arbitrary keyword lists |
| C120 | the three methods over the objects modelled for the other claims | composition with the theorems about those objects |
| C121 | the history tables and clear over the repositories of C24 and C25, outcomes of every call kept | invariants of the history and of the total over every step |
| C122 | the model of C85; a relation between runs with opposite labels | the models of a round are opposite, the programs and scores equal, by induction over ADMM steps and rounds |
| C123 | MetricModel (the functions of metrics/performance.py); OrderSpec says what handing over the same instances differently means. | Permutation arguments on the sums, counts and the type check; the ranking loss is first turned into a count over (relevant, irrelevant) pairs; increasing functions commute with every comparison the code makes. |
| C124 | QueryModel (the score-based strategies); RationalSpec says what consistency between pools and batch sizes means, for any function from pools and batch sizes to selections. | Every such selection is one by a single score per instance; if a selected instance were dropped, the instances selected instead together with it and with those taken away would be more than the first batch holds. |
| C125 | IndexModel, MLModel, OracleModel and RepoModel; PartsSpec says what cutting a call in two means. | Induction over the first part; the repositories' loops do not look at the number of queries nor at the history. |
| C126 | AnalyserModel; FoldOrderSpec says what the same figures and the same curve are. | Permutation invariance of mean, variance and columns, on top of the exact figures of C58 and C77. |
| C127 | QueryModel; NamesSpec says when two ways of selecting agree up to ties. | Each strategy selects by a score that is invariant; selections by equal scores can only exchange tied instances. |
| C128 | SplitModel; DivideSpec says what naming the positions of a fold and extending a call mean. | Naturality of every step in the names; induction over the draws and the number of folds. |
| C129 | OracleModel, RepoModel, IndexModel; EntriesSpec says which indexes a call is about and when calls are apart. | The value recorded last for an index, over permuted histories of calls that are apart. |
| C130 | ExpModel, StateModel.al_loop; CausalSpec says when labellings agree on what a run has used. | Induction over the rounds of both runs at once. |
| C131 | MetricModel (C40-C43); AgreeSpec says when scores separate a row and when two rows of scores are alike. | From the row-wise characterisations of C41-C43: a mean is extreme only if every term is. |
| C132 | StateModel.al_loop, ExpModel.run_rounds; LongerSpec says what continuing a record is. | Induction over the rounds of both runs at once; the counters of the two criteria stay equal as long as both run. |
| C133 | ProxModel: one step of the search (206-237) and runs of steps; ProxSpec: the loss, the inner product, the curvature and the contract of the thresholding. | Invariant: the masked copies kept by the code are the masks of the kept arrays. Expansion of the loss as a quadratic; Cauchy-Schwarz for the bound on the remainder; induction over the doublings and over the steps. |
| C134 | QueryModel.coreset_select; CoverSpec says what a metric, covering within a radius and successive calls are. | The picks are farthest-first (C50); a point left farther than 2r makes all picks more than 2r apart, so by the pigeonhole principle no choice of as many points covers within r. |
| C135 | MiscModel.minmax_scale and standard_scale; UnitsProps says what data in other units are. | From the formulas of C35 and C36 and how smallest and largest value, mean and variance change under an affine map. |
| C136 | QueryModel.select_by_prediction_mat; TwoSpec says what predictions of two classes are, how far from one half they are and what is asked of the logarithm. | From C47: each measure is a decreasing function of the distance from one half, a best batch stays best under an increasing map of the scores, and without ties there is only one. |
| C137 | OracleModel.majority_vote and get_majority_vote_list with the specification of C26. | Counting: two different answers together have at most as many votes as there are answers; then by the characterisation of the winner in C26. |
| C138 | QueryModel.coreset_select and density_weighted; GaugeSpec says which measurements keep the order and what a series of calls returns. | A simulation: the two states correspond through the measurement, which leaves the mark of the chosen points alone; minimum, argmax and assignment commute with it. Density weighting from C47, all scores being multiplied by the same positive number. |
| C60-C62 | further metrics (precision-recall, micro-averages, curves) | counting lemmas, sorting |
| C63-C65 | budgeted pair selection, HALC tree terms | exchange/optimality lemmas over all shortlists, exact tree sums |
| C66 | the caller's prediction array | frame equation, exact condition for a change |
| C67-C70 | committee scores, expected error weights, QUIRE's choice, density weighting | order-independent sums, convexity inequality over Q, loop invariants |
| C71-C74 | label ranking life cycle, batch mode, multi-label QUIRE, MMC, Adaptive | induction over call histories, invariants, quadratic minimisation over Q, counterexamples |
| C75-C76 | matrix completion by AFASMC and iterative SVD, feature selection on top | the gradient steps and the decomposition as arbitrary functions, induction over the two loops, counterexamples |

## What is modelled, by source file

| source | modelled | left out |
|---|---|---|
| `index/index_collections.py` | IndexCollection, MultiLabelIndexCollection, FeatureIndexCollection, whole-to-train mapping | printing |
| `index/multi_label_tools.py` | all checks, flatten/integrate, label extraction, masks | |
| `experiment/state.py`, `state_io.py` | State, StateIO incl. files, crash points, recovery | table printing; the pickle byte format |
| `experiment/experiment_analyser.py` | StateIOContainer, summaries, both analysers up to the curves and areas drawn, tables before rounding | matplotlib, layout of tables; `interp1d` is an arbitrary function |
| `utils/interface.py` | `BaseAnalyser.paired_ttest` up to the p-value, indexing of repositories | the distribution function of the t statistic is an argument |
| `toolbox.py` | `ToolBox`: constructor, `split_AL`, `get_split`, `get_clean_oracle`, `get_stateio`, `get_repository`, `get_query_strategy` by name, `get_ace_threading`, label sets and multi-label oracles, `calc_performance_metric`, `save` and loading; sharing of lists, arrays, views | feature oracles and repositories; plotting |
| `experiment/stopping_criteria.py`, `al_experiment.py` | stopping criteria; `AlExperiment`: configuration, metrics, main loop, sequential and threaded `start_query` | model training and metric values are functions of the indexes; wall clock is an argument; plotting |
| `query_strategy/query_type.py` | AURO select, query types | matrices of relevance values beyond exact rationals, y_mat of another shape |
| `oracle/oracle.py`, `knowledge_repository.py`, `noisy_oracles.py` | oracles, pools and their history, repositories, majority vote, CEAL, IEthresh, All, Random | float labels, several costs for a single index, tuple indexes in MatrixRepository |
| `data_manipulate/al_split.py`, `datapreprocess.py` | the split family incl. files, scaling | exact rational ratios; ragged arrays are 1-D object arrays; text form of integers trusted; order of the unlabelled set |
| `utils/misc.py` | randperm, n-largest/n-smallest, unpack, gaussian parameters, kernel matrices | NaN/infinite inputs; gamma given as None |
| `metrics/performance.py` | all metrics, curves, ranking measures | exact rationals, integer labels; `rankdata`, csr, masked arrays, `np.average` as documented; `f1_score` is scikit-learn's |
| `utils/multi_thread.py` | threads, locks, saved state, recovery | printing, time; the round function is arbitrary |
| `query_strategy/cost_sensitive.py` | knapsack selection, HALC trees, performance strategy | costs taken from an oracle |
| `query_strategy/query_labels.py` | uncertainty, committees, expected error, QUIRE's evaluation and choice, random, graph density, coreset, density weighting, BMDR and SPAL, LAL | training of models; kernel values, matrix inverses, cvxpy's solver and the norms in the stopping test of ADMM are arguments |
| `query_strategy/multi_label.py` | label ranking (prediction, life cycle), AUDI, QUIRE, MMC, Adaptive, binary relevance, random strategy | gradient steps, classifier training, the kernel and pseudo-inverse are arguments |
| `query_strategy/query_features.py` | AFASMC completion (loops and mixing), iterative SVD, AFASMC and stability selection, random strategy | gradient steps, trace norm and the truncated SVD are arguments |

## Not modelled (no executable model expresses it here)

Training of scikit-learn models, plotting, `prettytable` output, numerical convergence of BMDR/SPAL/AFASMC/label
ranking optimisation, wall-clock time, pickling byte formats.

## Trusted base

* The Coq 8.16.1 kernel (and `coqc` compiling the files given in `_CoqProject`, no flags beyond `-Q`).
* Axioms: one theorem, `C96_rbf_semidefinite` (and the examples beside it), is about the exponential of the standard
  library's real numbers; its `Print Assumptions` lists `ClassicalDedekindReals.sig_not_dec`,
  `ClassicalDedekindReals.sig_forall_dec` and `FunctionalExtensionality.functional_extensionality_dep`, all of the standard
  library. Every other `Print Assumptions` in the `*Props*.v` files prints "Closed under the global context". The gate's
  list of library axioms may name `Coq.ssr.ssrunder.Under_rel`; it belongs to the standard library's ssreflect plugin
  files and no theorem here depends on it.
* The reading of the Python code into the `*Model.v` files, comment by comment.
* The contracts stated in the model comments: `np.argsort` and `np.partition` sort in any tie order, a random draw is any
  draw the generator's documentation allows, `np.log` is an arbitrary function (with its sign or inequality where a
  theorem says so), floating-point numbers are exact rationals.

Theorems ending in `_refuted` state that the documented or expected behaviour fails, with the exact condition under
which it does; they are part of the claim they are listed under in `MANIFEST.json`.
