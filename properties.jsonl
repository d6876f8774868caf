{"id": "C01", "title": "IndexCollection behaves as an ordered duplicate-free set", "statement": "After constructing an IndexCollection from any list and applying any sequence of add, discard, update and difference_update calls (including calls that raise or only warn), the collection holds no element twice, and its membership is exactly what the same history gives on a mathematical set; update(xs) is adding the elements of xs one by one and difference_update(xs) discarding them one by one.", "quantifier": "all initial lists, all finite histories of add/discard/update/difference_update, all element values", "why_tests_cant": "The claim is over unboundedly long histories mixing accepted, ignored and rejected calls; a test fixes one history.", "anchors": ["alipy/index/index_collections.py:IndexCollection.__init__", "alipy/index/index_collections.py:IndexCollection.add", "alipy/index/index_collections.py:IndexCollection.discard", "alipy/index/index_collections.py:IndexCollection.update", "alipy/index/index_collections.py:IndexCollection.difference_update"]}
{"id": "C02", "title": "IndexCollection construction sorts, deduplicates and preserves the element set", "statement": "IndexCollection(xs) for a non-empty list xs contains exactly the distinct elements of xs, each once, in increasing order, and a warning is issued exactly when xs had a repeated element; IndexCollection() and IndexCollection([]) are empty; IndexCollection(c) for a collection c has the same elements in the same order.", "quantifier": "all input lists of comparable elements", "why_tests_cant": "Ranges over every list and every multiplicity pattern.", "anchors": ["alipy/index/index_collections.py:IndexCollection.__init__"]}
{"id": "C03", "title": "IndexCollection is type-homogeneous and rejected calls have no effect", "statement": "At every point of every history all elements of an IndexCollection have one Python type once that type is fixed by the first element; adding a value of another type raises TypeError and leaves the collection unchanged; adding a present element or discarding an absent one only warns and leaves it unchanged; and (a quirk users hit) adding a numpy scalar to an empty collection fixes the numpy type, so the converted value is itself rejected.", "quantifier": "all collections reachable by any history, all values", "why_tests_cant": "Type state is history dependent: only an invariant over all histories settles it.", "anchors": ["alipy/index/index_collections.py:IndexCollection.add", "alipy/index/index_collections.py:IndexCollection.discard"]}
{"id": "C04", "title": "IndexCollection.random_sampling returns a duplicate-free subset of the requested size", "statement": "For 0<rate<1 and every outcome of the random generator, c.random_sampling(rate) is a collection of round(rate*len(c)) distinct elements, all of them from c, and c itself is unchanged; rates outside (0,1) are rejected.", "quantifier": "all collections, all rational rates, all permutations the generator may produce", "why_tests_cant": "The random outcome is universally quantified; a test sees finitely many seeds.", "anchors": ["alipy/index/index_collections.py:IndexCollection.random_sampling", "alipy/utils/misc.py:randperm"]}
{"id": "C05", "title": "MultiLabelIndexCollection behaves as a set of in-range (instance,label) pairs", "statement": "For every history of add/discard/update/difference_update with tuple indexes, lists of tuples or fully-labelled indexes (i,), the collection's pairs evolve exactly as the set union/difference of the expanded pairs, there are never duplicates, and a label at or above the label size is always rejected without effect; with non-negative labels every stored pair has its label in [0,label_size). A negative scalar label passed to add is accepted (the lower bound is not checked).", "quantifier": "all histories, all label sizes, all index shapes (i,), (i,j), (i,[j...])", "why_tests_cant": "Histories and shapes are unbounded, and rejected calls must leave no trace.", "anchors": ["alipy/index/index_collections.py:MultiLabelIndexCollection.__init__", "alipy/index/index_collections.py:MultiLabelIndexCollection.add", "alipy/index/index_collections.py:MultiLabelIndexCollection.discard", "alipy/index/index_collections.py:MultiLabelIndexCollection.update", "alipy/index/index_collections.py:MultiLabelIndexCollection.difference_update"]}
{"id": "C06", "title": "Flattening and integrating multi-label indexes are inverse up to order", "statement": "flattern_multilabel_index expands an index list to exactly the pairs it denotes (all labels for (i,), the in-range listed labels for (i,js)); integrate_multilabel_index of a list of in-range indexes yields one entry per instance, (i,) exactly when all labels of i are present, and flattening the integrated list denotes exactly the same set of pairs.", "quantifier": "all index lists and label sizes", "why_tests_cant": "Round trip over all lists, including repeated and overlapping indexes.", "anchors": ["alipy/index/multi_label_tools.py:flattern_multilabel_index", "alipy/index/multi_label_tools.py:integrate_multilabel_index", "alipy/index/multi_label_tools.py:infer_label_size_multilabel"]}
{"id": "C07", "title": "One-dimensional index conversion is a bijection in both storage orders", "statement": "For an n-by-m label matrix, get_onedim_index maps in-range pairs injectively to [0,n*m) in both 'F' (i + j*n) and 'C' (i*m + j) order, construct_by_1d_array inverts it in the same order, and indexes outside [0,n*m) are rejected.", "quantifier": "all matrix shapes, all pair lists, both orders", "why_tests_cant": "Arithmetic identity over all sizes.", "anchors": ["alipy/index/index_collections.py:MultiLabelIndexCollection.get_onedim_index", "alipy/index/index_collections.py:MultiLabelIndexCollection.construct_by_1d_array"]}
{"id": "C08", "title": "Element masks and collections convert to each other without loss", "statement": "construct_by_element_mask(M) contains exactly the positions of the ones of a 0/1 matrix M containing both values (other matrices are rejected), and the dense get_matrix_mask of that collection is M again; the dense mask of any in-range collection holds fill_value exactly at its pairs and 0 elsewhere. With sparse=True (the default) the returned matrix is all zero whatever the collection holds.", "quantifier": "all matrices, all collections, all fill values", "why_tests_cant": "Exactness at every cell of every matrix; also shows a defect for every input of the default mode.", "anchors": ["alipy/index/index_collections.py:MultiLabelIndexCollection.construct_by_element_mask", "alipy/index/index_collections.py:MultiLabelIndexCollection.get_matrix_mask"]}
{"id": "C09", "title": "Label matrix extraction reveals exactly the queried entries", "statement": "get_labelmatrix_in_multilabel returns one row per distinct instance in first-occurrence order; each cell equals the data matrix entry if that (instance,label) pair is denoted by some index of the list and unknown_element otherwise; get_Xy_in_multilabel returns the feature rows of the same instances in the same order.", "quantifier": "all index lists (with repeated instances), all matrices, all fill values", "why_tests_cant": "The row/cell bookkeeping depends on the whole index list; exactness must hold for every overlap pattern.", "anchors": ["alipy/index/multi_label_tools.py:get_labelmatrix_in_multilabel", "alipy/index/multi_label_tools.py:get_Xy_in_multilabel"]}
{"id": "C10", "title": "Instances split into fully and partially covered ones", "statement": "For every multi-label collection, get_unbroken_instances are exactly the instances whose every label is in the collection, get_break_instances exactly those with at least one but not every label, the two lists are disjoint and together equal get_instance_index.", "quantifier": "all collections with in-range labels, all label sizes", "why_tests_cant": "Universal over set contents.", "anchors": ["alipy/index/index_collections.py:MultiLabelIndexCollection.get_unbroken_instances", "alipy/index/index_collections.py:MultiLabelIndexCollection.get_break_instances", "alipy/index/index_collections.py:MultiLabelIndexCollection.get_instance_index", "alipy/index/multi_label_tools.py:integrate_multilabel_index"]}
{"id": "C11", "title": "Mapping whole-dataset indexes into the training set is position-faithful", "statement": "map_whole_index_to_train(train_idx, c) for a duplicate-free train_idx containing every element of c yields exactly the positions p with train_idx[p] in c; an element not in train_idx is rejected; for multi-label collections the label component is preserved, but the label size of the result is re-inferred and can be smaller than the original.", "quantifier": "all train index arrays and collections", "why_tests_cant": "Quantifies over all permutations and subsets.", "anchors": ["alipy/index/index_collections.py:map_whole_index_to_train"]}
{"id": "C12", "title": "State is a dictionary with protected keys", "statement": "For every history of add_element/set_value/del_element on a State, get_value returns the last value written to that key; select_index, queried_info, performance and cost can never be deleted; set_value on an unknown key is rejected; a rejected call changes nothing.", "quantifier": "all histories of State operations, all keys and values", "why_tests_cant": "Last-write semantics and protection over unbounded histories.", "anchors": ["alipy/experiment/state.py:State.add_element", "alipy/experiment/state.py:State.set_value", "alipy/experiment/state.py:State.del_element", "alipy/experiment/state.py:State.get_value"]}
{"id": "C13", "title": "StateIO workspace replay conserves and separates the labelled and unlabelled sets", "statement": "get_workspace(k) equals replaying the first k recorded queries on the initial collections: its labelled set is initial L plus everything queried in states 0..k-1 and its unlabelled set is initial U minus that; hence if L and U are disjoint and every query was drawn from U they stay disjoint and their union is constant for every k; the stored initial collections and the states are not modified.", "quantifier": "all initial L,U, all histories of states, all iterations k", "why_tests_cant": "Holds for arbitrary experiment histories and every roll-back point.", "anchors": ["alipy/experiment/state_io.py:StateIO.get_workspace", "alipy/experiment/state_io.py:StateIO.add_state"]}
{"id": "C14", "title": "recover_workspace rolls back exactly", "statement": "recover_workspace(k) returns the same sets as get_workspace(k), keeps exactly the first k states, makes a later get_workspace() equal to the pre-rollback get_workspace(k), and is idempotent; continuing with new states after roll-back behaves as if the dropped states had never been added, except that the cached cost and queried-count totals are not rolled back until refresh_info is called.", "quantifier": "all histories, all roll-back points, all continuations", "why_tests_cant": "History property with arbitrary continuation after roll-back.", "anchors": ["alipy/experiment/state_io.py:StateIO.recover_workspace", "alipy/experiment/state_io.py:StateIO.get_workspace", "alipy/experiment/state_io.py:StateIO.refresh_info"]}
{"id": "C15", "title": "StateIO cost and query-count totals equal the sums over recorded states", "statement": "After any history of add_state calls the running totals of cost and queried indexes equal the sums over the stored states; refresh_info recomputes them from the stored states for any history (including after roll-backs); after recover_workspace alone they are stale.", "quantifier": "all histories of add_state/recover_workspace/refresh_info", "why_tests_cant": "Invariant over unbounded histories; staleness appears only for particular histories.", "anchors": ["alipy/experiment/state_io.py:StateIO.add_state", "alipy/experiment/state_io.py:StateIO.refresh_info", "alipy/experiment/state_io.py:StateIO.recover_workspace"]}
{"id": "C16", "title": "check_batch_size detects unequal batches except in the last state", "statement": "check_batch_size returns True only if all recorded states but the last have the batch size of the first and there are at least two states; in particular a deviating last state is never detected, and a single-state record is reported as not equal.", "quantifier": "all state lists", "why_tests_cant": "Characterisation for all lists; the gap is at one position only.", "anchors": ["alipy/experiment/state_io.py:StateIO.check_batch_size"]}
{"id": "C17", "title": "A saved experiment can be reloaded; an interrupted save destroys the previous one", "statement": "For every history of state additions and saves, load of the file returns the StateIO as of the most recent completed save, later in-memory changes do not leak into it, and with save-after-every-add the loaded record contains all acknowledged states; but a crash between opening and finishing a save leaves no loadable file, losing also the previously saved states.", "quantifier": "all histories of add/save/crash events", "why_tests_cant": "Crash points are universally quantified.", "anchors": ["alipy/experiment/state_io.py:StateIO.save", "alipy/experiment/state_io.py:StateIO.load"]}
{"id": "C18", "title": "StoppingCriteria stops exactly at the configured limit", "statement": "After any sequence of updates, is_stop is True iff the unlabelled set is empty or: the number of recorded queries reached the value (num_of_queries), the accumulated cost reached it (cost_limit), the labelled fraction of the initial unlabelled pool reached it (percent_of_unlabel), the elapsed time reached it (time_limit); with None only the empty pool stops. Once true under continued querying it stays true (count, percent, non-negative cost). reset restores the initial state.", "quantifier": "all update histories, all limit values", "why_tests_cant": "Exact threshold behaviour over all histories.", "anchors": ["alipy/experiment/stopping_criteria.py:StoppingCriteria.is_stop", "alipy/experiment/stopping_criteria.py:StoppingCriteria.update_information", "alipy/experiment/stopping_criteria.py:StoppingCriteria.reset"]}
{"id": "C19", "title": "The active-learning main loop terminates and conserves the pool", "statement": "For any strategy that returns a non-empty subset of the unlabelled set, the experiment loop ends after at most |U0| queries for every criterion, after exactly min(n, queries needed to empty U0) for num_of_queries=n, and at every step labelled and unlabelled sets are disjoint with constant union; the saved record replays to the loop's final sets.", "quantifier": "all strategies (as arbitrary functions of the history), all pools, all limits", "why_tests_cant": "Termination and invariants for every strategy and schedule.", "anchors": ["alipy/experiment/al_experiment.py:AlExperiment.__al_main_loop", "alipy/experiment/stopping_criteria.py:StoppingCriteria", "alipy/experiment/state_io.py:StateIO"]}
{"id": "C20", "title": "Oracle answers with the most recently added knowledge, in query order", "statement": "For any history of add_knowledge calls, query_by_index(is) returns for each queried index, in order, the label (and cost, default 1) last stored for it and fails if some index is unknown; entries not mentioned are unchanged. The failure for an unknown index surfaces as TypeError rather than the documented missing-key behaviour.", "quantifier": "all histories of add_knowledge, all query lists", "why_tests_cant": "Last-write-wins over unbounded histories and arbitrary query lists.", "anchors": ["alipy/oracle/oracle.py:Oracle._add_one_entry", "alipy/oracle/oracle.py:Oracle.add_knowledge", "alipy/oracle/oracle.py:Oracle.query_by_index", "alipy/oracle/oracle.py:Oracle._do_missing"]}
{"id": "C21", "title": "Oracle answers by example as by index", "statement": "If every entry was supplied with its feature vector and distinct indexes have distinct vectors, query_by_example(x_i) gives exactly the answer of query_by_index(i) for every stored i, in query order, after any history; for the multi-label oracle query_by_example fails for every stored example.", "quantifier": "all oracles with examples, all query lists", "why_tests_cant": "Agreement of two lookup paths over all contents.", "anchors": ["alipy/oracle/oracle.py:Oracle.query_by_example", "alipy/oracle/oracle.py:OracleQueryMultiLabel.query_by_example"]}
{"id": "C22", "title": "The multi-label oracle returns the requested label entries and their costs", "statement": "For a label matrix with m columns, query_by_index of a list of (i,), (i,j), (i,[j...]) indexes returns for each, in order, the listed in-range entries of row i together with the matching per-label costs (1 by default); out-of-range scalar labels are rejected; entries added for existing indexes do not overwrite.", "quantifier": "all label matrices, cost matrices and query lists", "why_tests_cant": "Universal over shapes and contents.", "anchors": ["alipy/oracle/oracle.py:OracleQueryMultiLabel.query_by_index", "alipy/oracle/oracle.py:OracleQueryMultiLabel._add_one_entry"]}
{"id": "C23", "title": "Oracles bookkeeping accounts for every query", "statement": "For any history of queries through an Oracles pool, cost_inall equals the sum of all costs returned so far, and the recorded history lists every successful query with its oracle, labels and cost in order; a query to an unknown oracle or index changes nothing.", "quantifier": "all query histories over all pools", "why_tests_cant": "Accounting over unbounded histories.", "anchors": ["alipy/oracle/oracle.py:Oracles.query_from", "alipy/oracle/oracle.py:Oracles.query_from_s", "alipy/oracle/oracle.py:Oracles.add_oracle"]}
{"id": "C24", "title": "ElementRepository acts as an index-to-label map with an ordered key list", "statement": "For any history of add/update_query/discard by index, retrieve_by_indexes returns the last label stored for each index, get_training_data lists label (and example) per stored index in order; repeated adds duplicate the index so that a later discard leaves the repository unable to produce training data.", "quantifier": "all histories of repository operations", "why_tests_cant": "History-dependent consistency between three internal stores.", "anchors": ["alipy/oracle/knowledge_repository.py:ElementRepository.add", "alipy/oracle/knowledge_repository.py:ElementRepository.discard", "alipy/oracle/knowledge_repository.py:ElementRepository.update_query", "alipy/oracle/knowledge_repository.py:ElementRepository.retrieve_by_indexes", "alipy/oracle/knowledge_repository.py:ElementRepository.get_training_data"]}
{"id": "C25", "title": "MatrixRepository keeps labels, indexes, examples and costs aligned", "statement": "For any history of successful add/update_query/discard calls, row r of the label matrix, index list and example matrix always belong to the same entry, indexes stay unique, and retrieve_by_indexes returns the label and example stored for the index; an add that fails because the example is missing leaves the repository misaligned.", "quantifier": "all histories of repository operations", "why_tests_cant": "Alignment invariant over unbounded histories incl. failing calls.", "anchors": ["alipy/oracle/knowledge_repository.py:MatrixRepository.add", "alipy/oracle/knowledge_repository.py:MatrixRepository.discard", "alipy/oracle/knowledge_repository.py:MatrixRepository.update_query", "alipy/oracle/knowledge_repository.py:MatrixRepository.retrieve_by_indexes"]}
{"id": "C26", "title": "majority_vote returns a most frequent answer", "statement": "majority_vote of a non-empty list returns an answer whose number of occurrences is maximal, and among equally frequent answers the one that appears first; the weights argument has no influence; get_majority_vote asks every oracle once per index and its reported cost is the sum of all oracles' costs.", "quantifier": "all vote lists and oracle pools", "why_tests_cant": "Maximality and tie-breaking over all lists.", "anchors": ["alipy/query_strategy/noisy_oracles.py:majority_vote", "alipy/query_strategy/noisy_oracles.py:get_query_results", "alipy/query_strategy/noisy_oracles.py:get_majority_vote"]}
{"id": "C27", "title": "split partitions the data set", "statement": "In every fold returned by split, for every random outcome: train and test are disjoint and together contain every instance exactly once; labelled and unlabelled are disjoint and together are exactly the training set.", "quantifier": "all data sizes, ratios, fold counts, random permutations", "why_tests_cant": "Random outcome universally quantified; partition must hold for all sizes.", "anchors": ["alipy/data_manipulate/al_split.py:split"]}
{"id": "C28", "title": "split honours the requested proportions", "statement": "Each fold of split has round((1-test_ratio)*n) training instances and max(1, round(rate*train)) labelled instances (banker's rounding), for every random outcome and ratios in [0,1]; ratios outside that range are not rejected, their cut points act as Python slices do.", "quantifier": "all sizes and ratios, random permutations", "why_tests_cant": "Exact cut points for all sizes.", "anchors": ["alipy/data_manipulate/al_split.py:split"]}
{"id": "C29", "title": "split with all_class covers every class", "statement": "When all_class is requested and split returns, every fold's initially labelled set contains at least one instance of every class, regardless of the random draws; it is rejected up front exactly when round((1-test_ratio)*rate*n) is smaller than the number of classes, and if that check passes although fewer instances are really labelled, it never returns.", "quantifier": "all label vectors, random draw sequences", "why_tests_cant": "Rejection sampling loop: holds for all draw sequences.", "anchors": ["alipy/data_manipulate/al_split.py:split"]}
{"id": "C30", "title": "Multi-label and feature splits partition the entry grid", "statement": "For split_multi_label (fully labelled start) and split_features (partial start), for every random outcome, labelled and unlabelled entries of a fold are disjoint and together are exactly the (instance,label) grid of the fold's training instances; train/test partition the instances; partially labelled retries shrink the labelled set by the number of columns.", "quantifier": "all matrix shapes, ratios, random permutations", "why_tests_cant": "Partition of a product grid for all shapes and permutations.", "anchors": ["alipy/data_manipulate/al_split.py:split_multi_label", "alipy/data_manipulate/al_split.py:split_features", "alipy/data_manipulate/al_split.py:__split_data_matrix"]}
{"id": "C31", "title": "Saved splits round-trip", "statement": "split_save followed by split_load returns the saved train/test/label/unlabel sets when there are at least two folds and two members per set (dimensions of length one are dropped otherwise); label sets saved in the ragged (.npy) format cannot be found by split_load, which then returns None for them.", "quantifier": "all split contents", "why_tests_cant": "File naming decision logic for all shapes.", "anchors": ["alipy/data_manipulate/al_split.py:split_save", "alipy/data_manipulate/al_split.py:split_load"]}
{"id": "C32", "title": "randperm yields distinct in-range integers", "statement": "For every random outcome randperm(n,k) with k<=n+1 returns k distinct integers of [0,n], and all of them when k=n+1 or k is omitted; randperm((a,b),k) returns k distinct integers of [a,b]; larger k is rejected, and every selection in every order is a possible outcome.", "quantifier": "all bounds, all generator outcomes", "why_tests_cant": "Random outcome universally quantified.", "anchors": ["alipy/utils/misc.py:randperm"]}
{"id": "C33", "title": "nlargestarg and nsmallestarg return the positions of extreme values", "statement": "For n<=len(a), nlargestarg(a,n) returns n distinct positions such that no unreturned position has a larger value, in increasing order of value; nsmallestarg symmetrically; for n>len(a) nsmallestarg returns all positions but nlargestarg only min(len(a), n-len(a)) of them.", "quantifier": "all arrays, all n, all tie-breaking choices of the sort", "why_tests_cant": "Optimality for all arrays and ties.", "anchors": ["alipy/utils/misc.py:nlargestarg", "alipy/utils/misc.py:nsmallestarg"]}
{"id": "C34", "title": "check_one_to_one_correspondence accepts exactly equal-length inputs", "statement": "check_one_to_one_correspondence returns True iff all its non-None arguments have one common length, a single value counting as a list of length one; unpack turns a one-element list into its element and leaves others unchanged.", "quantifier": "all argument tuples", "why_tests_cant": "Characterisation over all argument shapes.", "anchors": ["alipy/utils/misc.py:check_one_to_one_correspondence", "alipy/utils/misc.py:unpack"]}
{"id": "C35", "title": "minmax_scale maps every column onto the requested range", "statement": "minmax_scale(X,(lo,hi)) maps each non-constant column monotonically (order preserving) into [lo,hi] with its minimum at lo and its maximum at hi; a constant column maps to lo; lo>=hi is rejected.", "quantifier": "all rational matrices and ranges", "why_tests_cant": "For all matrices.", "anchors": ["alipy/data_manipulate/datapreprocess.py:minmax_scale", "alipy/data_manipulate/datapreprocess.py:_handle_zeros_in_scale"]}
{"id": "C36", "title": "StandardScale centres columns but does not give unit variance", "statement": "StandardScale returns columns with mean 0; because it divides by the variance rather than the standard deviation the resulting variance is 1/var, which is 1 exactly when var=1 (documented unit variance fails otherwise).", "quantifier": "all rational matrices with non-constant columns", "why_tests_cant": "For all matrices.", "anchors": ["alipy/data_manipulate/datapreprocess.py:StandardScale"]}
{"id": "C37", "title": "accuracy_score and zero_one_loss count (mis)matches", "statement": "accuracy_score is the fraction (normalised) or number of positions where prediction equals truth, lies in [0,1], equals 1 iff identical; zero_one_loss(normalize=True)=1-accuracy; with normalize=False the code returns n minus a fraction, not the number of errors.", "quantifier": "all label vectors of equal length", "why_tests_cant": "For all vectors; unequal lengths rejected.", "anchors": ["alipy/metrics/performance.py:accuracy_score", "alipy/metrics/performance.py:zero_one_loss"]}
{"id": "C38", "title": "hamming_loss is the fraction of wrong label cells", "statement": "hamming_loss of two n-by-m label matrices is (number of differing cells)/(n*m), lies in [0,1], is 0 iff equal, symmetric, and satisfies the triangle inequality. (A column compared with a vector is broadcast, and matrices with more than two values are divided by the row count only, so the loss exceeds 1.)", "quantifier": "all label matrices", "why_tests_cant": "For all matrices.", "anchors": ["alipy/metrics/performance.py:hamming_loss"]}
{"id": "C39", "title": "Threshold counts of ROC/PR analysis are exact", "statement": "get_fps_tps_thresholds returns one threshold per sample, the scores in non-increasing order (repeated for equal scores, although the documentation says distinct); at each threshold tps (fps) is the exact number of positives (negatives) scored at or above it; both sequences are non-decreasing and end at the class totals.", "quantifier": "all score/label vectors with both classes", "why_tests_cant": "Exact counts for every vector incl. ties.", "anchors": ["alipy/metrics/performance.py:get_fps_tps_thresholds"]}
{"id": "C40", "title": "roc_auc_score is the probability of ranking a positive above a negative", "statement": "roc_auc_score equals (number of positive/negative pairs with the positive scored higher + half the ties)/(P*N), for any ordering of the input and any tie pattern; hence it is in [0,1], invariant under strictly increasing score transformations, and reversed scores give 1-AUC.", "quantifier": "all score/label vectors with both classes", "why_tests_cant": "Trapezoid area equals pair counting for every vector.", "anchors": ["alipy/metrics/performance.py:roc_curve", "alipy/metrics/performance.py:roc_auc_score", "alipy/metrics/performance.py:_auc"]}
{"id": "C41", "title": "label_ranking_loss counts misordered label pairs", "statement": "label_ranking_loss is the average over samples of (number of (relevant, irrelevant) label pairs where the irrelevant is scored at least as high)/(pairs), 0 for samples with all or no relevant labels.", "quantifier": "all label/score matrices", "why_tests_cant": "cumulative-count implementation equals pair counting for every input.", "anchors": ["alipy/metrics/performance.py:label_ranking_loss"]}
{"id": "C42", "title": "coverage_error is the mean worst rank of relevant labels", "statement": "coverage_error is the average over samples of the number of labels scored at least as high as the lowest-scored relevant label (0 if none is relevant).", "quantifier": "all label/score matrices", "why_tests_cant": "For all inputs.", "anchors": ["alipy/metrics/performance.py:coverage_error"]}
{"id": "C43", "title": "label_ranking_average_precision_score matches its definition", "statement": "LRAP is the average over samples of the mean, over relevant labels, of (relevant labels scored at least as high)/(labels scored at least as high), samples with all or none relevant counting 1; it lies in (0,1]. With sample weights those samples are added unweighted.", "quantifier": "all label/score matrices", "why_tests_cant": "For all inputs.", "anchors": ["alipy/metrics/performance.py:label_ranking_average_precision_score"]}
{"id": "C44", "title": "one_error does not measure the top-label error", "statement": "As implemented one_error returns the fraction of samples whose row sums of truth and prediction coincide; it is therefore 1 for perfect predictions and can be 1 for completely wrong ones.", "quantifier": "all label matrices", "why_tests_cant": "Characterisation for all inputs refutes the documented meaning.", "anchors": ["alipy/metrics/performance.py:one_error"]}
{"id": "C45", "title": "aceThreading never exceeds max_thread and runs every round exactly once", "statement": "For every interleaving of thread completions, at most max_thread rounds run simultaneously, no round is started twice, and when the scheduler returns all rounds have been started and finished.", "quantifier": "all round counts, all max_thread>0, all completion schedules", "why_tests_cant": "Concurrency: all schedules.", "anchors": ["alipy/utils/multi_thread.py:aceThreading.start_all_threads"]}
{"id": "C46", "title": "Recovering an interrupted multi-thread run restarts only unfinished rounds", "statement": "On recovery a round is rerun iff its thread was alive when the state was last saved or it left no (or an empty) result file; a round saved as not alive with a complete result file is kept; recovery fails iff the state file is missing or incomplete, some result file is incomplete, or a round saved as alive has no result file. For a crash at any moment not between starting a thread and the following save, every kept round had ended; crashes in that window, a round function that raised, or a second crash lose unfinished rounds.", "quantifier": "all combinations of thread state and file state of all rounds", "why_tests_cant": "All crash states.", "anchors": ["alipy/utils/multi_thread.py:aceThreading.recover"]}
{"id": "C47", "title": "Score-based strategies select the top-scored unlabelled instances", "statement": "Uncertainty (all measures), QBC, expected-error and density-weighted selection from a given score vector return min(batch,|U|) distinct members of the unlabelled index such that no unselected one has a better score; when |U|<=batch the whole set is returned.", "quantifier": "all index lists, scores, batch sizes, sort tie-breakings", "why_tests_cant": "For all inputs.", "anchors": ["alipy/query_strategy/query_labels.py:QueryInstanceUncertainty.select_by_prediction_mat", "alipy/query_strategy/query_labels.py:QueryInstanceQBC.select_by_prediction_mat", "alipy/query_strategy/query_labels.py:QueryInstanceDensityWeighted.select"]}
{"id": "C48", "title": "Margin and least-confidence scores are what they claim", "statement": "The margin score ranks by the difference of the two largest class probabilities (smallest difference first) and least_confident by 1 minus the largest probability, for any number of classes >=2 and any order of the classes.", "quantifier": "all probability rows", "why_tests_cant": "Partial-sort indexing for every row.", "anchors": ["alipy/query_strategy/query_labels.py:QueryInstanceUncertainty.select_by_prediction_mat"]}
{"id": "C49", "title": "Random selection draws distinct unlabelled items", "statement": "QueryInstanceRandom and QueryMultiLabelRandom return, for every random outcome, min(batch,|U|) distinct members of the unlabelled set (for select_type='ins', distinct fully-queried instances of it).", "quantifier": "all pools, batch sizes and random outcomes", "why_tests_cant": "All outcomes.", "anchors": ["alipy/query_strategy/query_labels.py:QueryInstanceRandom.select", "alipy/query_strategy/multi_label.py:QueryMultiLabelRandom.select"]}
{"id": "C50", "title": "Coreset greedy picks the farthest point at every step, across rounds", "statement": "For any metric values and any sequence of select calls in which the labelled set grows by the selected batches, every selected point is unlabelled, batches are duplicate-free, and each pick maximises over remaining points the minimum distance to all labelled and already picked points.", "quantifier": "all distance matrices, all round sequences", "why_tests_cant": "Cached distances must stay right over unbounded rounds.", "anchors": ["alipy/query_strategy/query_labels.py:QueryInstanceCoresetGreedy.select", "alipy/query_strategy/query_labels.py:QueryInstanceCoresetGreedy.update_distances"]}
{"id": "C51", "title": "Graph-density selection terminates with distinct unlabelled points", "statement": "When the training set is the disjoint union of labelled and unlabelled sets and |U|>batch, select never fails its internal assertion and returns exactly batch distinct unlabelled points for any graph, densities and call history.", "quantifier": "all graphs, densities, histories of calls", "why_tests_cant": "Density updates can be arbitrary; the loop must still terminate.", "anchors": ["alipy/query_strategy/query_labels.py:QueryInstanceGraphDensity.select"]}
{"id": "C52", "title": "select_Knapsack_01 is optimal and within budget", "statement": "For non-negative integer costs and capacity the returned flags select items of total cost <= capacity whose total value equals the returned maximum, and no subset within capacity has a larger value. A larger capacity or one more item is never worth less. Writing costs and budget in a smaller currency, or the values in another unit, does not change the choice. The maximum does not depend on the order in which the items are listed, but which of two equally good choices is returned does.", "quantifier": "all item lists, capacities", "why_tests_cant": "Optimality over all subsets of all instances.", "anchors": ["alipy/query_strategy/cost_sensitive.py:select_Knapsack_01"]}
{"id": "C53", "title": "select_POSS always returns a solution within budget, the best generated", "statement": "For non-negative costs and every random mutation sequence, the population never contains an over-budget solution, the returned selection costs at most the budget, the returned value is its value (infinity for the empty one), and no within-budget solution generated during the run is better. With integer costs the value is never better than the exact optimum that select_Knapsack_01 finds for the negated values, and equals it whenever that optimum (if it costs anything) is the first choice tried, whatever is tried afterwards. Further rounds never make the returned value worse.", "quantifier": "all items, budgets, mutation sequences", "why_tests_cant": "Random schedule universally quantified.", "anchors": ["alipy/query_strategy/cost_sensitive.py:select_POSS"]}
{"id": "C54", "title": "hierarchical_multilabel_mark adds exactly the implied unknown labels", "statement": "The result is the queried pairs plus, for each positive pair, the children labels and for each negative pair the parent labels of the same instance that are not already labelled; one level only; nothing else is added.", "quantifier": "all trees, label matrices, index sets", "why_tests_cant": "Exact set for all inputs.", "anchors": ["alipy/query_strategy/cost_sensitive.py:hierarchical_multilabel_mark"]}
{"id": "C55", "title": "QueryCostSensitiveRandom respects the budget", "statement": "For every random outcome the selected pairs are distinct, unlabelled, and cost at most the budget in total; if the whole pool fits in the budget the method fails instead of returning the pool.", "quantifier": "all pools, costs, budgets, random outcomes", "why_tests_cant": "All outcomes.", "anchors": ["alipy/query_strategy/cost_sensitive.py:QueryCostSensitiveRandom.select"]}
{"id": "C56", "title": "AUDI always returns an unlabelled instance-label pair", "statement": "For any model scores, QueryMultiLabelAUDI.select on a pool of at least two unlabelled pairs returns exactly one pair that belongs to the unlabelled set.", "quantifier": "all score matrices and pools", "why_tests_cant": "Masking logic for all scores.", "anchors": ["alipy/query_strategy/multi_label.py:QueryMultiLabelAUDI.select"]}
{"id": "C57", "title": "Feature acquisition picks the highest-variance entry but may pick a known one", "statement": "AFASMC/Stability selection returns an unobserved entry of maximal variance whenever some unobserved entry has positive variance; otherwise it returns entry (0,0) of the training matrix even if that is already observed; completed matrices agree with the data on observed entries. An entry that is not a number in some completion is asked for before all others, known or not.", "quantifier": "all variance matrices and masks", "why_tests_cant": "For all inputs.", "anchors": ["alipy/query_strategy/query_features.py:QueryFeatureAFASMC.select", "alipy/query_strategy/query_features.py:QueryFeatureStability.select_by_mask", "alipy/query_strategy/query_features.py:AFASMC_mask_mc"]}
{"id": "C58", "title": "The analyser aligns methods on the shortest run and accumulates cost", "statement": "StateIOContainer.extract_matrix returns exactly the per-state values of each run in order (for one key after the initial point, if there is one) and rejects a missing value; the effective length of a method is the minimum over its runs; the cost axis of a run is the prefix sum of its state costs, curves end at the smallest total cost of any fold and never use the filler of the interpolation. Runs with and without initial point cannot be mixed, the deviation depends on how the same table is given, and the cost curves of all folds start at the initial point of the last run.", "quantifier": "all sets of runs", "why_tests_cant": "For all histories.", "anchors": ["alipy/experiment/experiment_analyser.py:StateIOContainer.extract_matrix", "alipy/experiment/experiment_analyser.py:_ContentSummary", "alipy/experiment/experiment_analyser.py:ExperimentAnalyser"]}
{"id": "C59", "title": "ToolBox keeps one split", "statement": "After split_AL has succeeded (or splits were passed in), further split_AL calls return the same split for any arguments, get_split(r) returns fold r for every 0<=r<split_count and is rejected otherwise, and mutating a returned collection does not change later get_split results.", "quantifier": "all call histories", "why_tests_cant": "History property.", "anchors": ["alipy/toolbox.py:ToolBox.split_AL", "alipy/toolbox.py:ToolBox.get_split"]}
{"id": "C60", "title": "micro_auc_score averages the per-class pair shares", "statement": "micro_auc_score is the mean over the label columns of the share of (positive, negative) instance pairs with the positive scored strictly higher; it fails exactly when some class has no positive or no negative instance; equal scores count nothing, unlike roc_auc_score.", "quantifier": "all label/score matrices", "why_tests_cant": "For all inputs, including ties and one-sided classes.", "anchors": ["alipy/metrics/performance.py:micro_auc_score"]}
{"id": "C61", "title": "average_precision_score is tie-broken by position and ignores trivial rows", "statement": "For 0/1 label matrices average_precision_score is the average over all samples of the mean, over relevant labels, of the share of relevant labels among those ranked at or above it, ties being broken by position; samples with all or no relevant labels count 0, so a perfect ranking may score below 1.", "quantifier": "all 0/1 label matrices and score matrices", "why_tests_cant": "Sort-and-search implementation equals the definition for every input.", "anchors": ["alipy/metrics/performance.py:average_precision_score"]}
{"id": "C62", "title": "precision_recall_curve gives precision and recall at each threshold", "statement": "The thresholds ascend; entry i gives the exact precision and recall at threshold i; the curve starts at the highest threshold with full recall, drops all lower ones, and ends with the point (1, 0).", "quantifier": "all score/label vectors", "why_tests_cant": "Exact for every vector including ties and no positives.", "anchors": ["alipy/metrics/performance.py:precision_recall_curve"]}
{"id": "C63", "title": "QueryCostSensitivePerformance selects the best affordable unlabelled pairs of its shortlist", "statement": "With at least as many instances and as much budget as classes, the selected pairs are distinct, unlabelled, cost at most the budget, and no affordable set of unlabelled pairs taken from the budget-1 most uncertain instances of each class has a larger total uncertainty; with fewer instances or less budget than classes the call fails; with one class of cost 1 the budget is never used up.", "quantifier": "all label matrices, uncertainties, costs, budgets and tie-breakings", "why_tests_cant": "Optimality and safety over all inputs.", "anchors": ["alipy/query_strategy/cost_sensitive.py:QueryCostSensitivePerformance.select", "alipy/query_strategy/cost_sensitive.py:QueryCostSensitivePerformance.cal_uncertainty"]}
{"id": "C64", "title": "QueryCostSensitiveHALC may query labels that are already known", "statement": "The pairs selected by QueryCostSensitiveHALC are distinct, within the budget and of largest total informativeness among the budget-1 best of each class, but known labels count as pairs of value 0 instead of being excluded: whenever the shortlist fits in the budget all of it is selected, known labels included.", "quantifier": "all label matrices, informativeness values, costs and budgets", "why_tests_cant": "The claim is about every input; a test only sees cases where the known pairs are not shortlisted.", "anchors": ["alipy/query_strategy/cost_sensitive.py:QueryCostSensitiveHALC.select", "alipy/query_strategy/cost_sensitive.py:QueryCostSensitiveHALC.cal_Informativeness"]}
{"id": "C65", "title": "The descendant term of HALC does not follow the label tree", "statement": "cal_Udes is documented by the paper as the uncertainty of the leaf descendants: for a leaf it is the leaf's own uncertainty, but for a label whose children all have index >=2 it is 0 whatever their uncertainty, and a single leaf child 0 is counted once per label that is not a child.", "quantifier": "all trees and uncertainties", "why_tests_cant": "Holds for every tree of the given shape.", "anchors": ["alipy/query_strategy/cost_sensitive.py:QueryCostSensitiveHALC.cal_Udes"]}
{"id": "C66", "title": "Selecting from a prediction matrix leaves the matrix unchanged, except by entropy", "statement": "QueryInstanceUncertainty.select_by_prediction_mat does not modify the caller's array for least_confident, margin and distance_to_boundary; for entropy it overwrites every entry that is not positive with 1e-06, so the array changes exactly when it has such an entry.", "quantifier": "all measures, prediction arrays, index lists and batch sizes", "why_tests_cant": "Aliasing claim about every input array.", "anchors": ["alipy/query_strategy/query_labels.py:QueryInstanceUncertainty.select_by_prediction_mat"]}
{"id": "C67", "title": "Committee scores measure disagreement", "statement": "calc_vote_entropy of every committee is the entropy of the vote shares in whatever order votes are counted, at most 0 for an instance all members agree on and positive for any other; calc_avg_KL_divergence is never negative, 0 exactly where the members agree; committees of one, with members of different length, or with label matrices that do not contain exactly the values 0 and 1 are rejected.", "quantifier": "all committees, votes, probability matrices and logarithms with the usual inequalities", "why_tests_cant": "Inequalities over all committees of all sizes.", "anchors": ["alipy/query_strategy/query_labels.py:QueryInstanceQBC.calc_vote_entropy", "alipy/query_strategy/query_labels.py:QueryInstanceQBC.calc_avg_KL_divergence", "alipy/query_strategy/query_labels.py:QueryInstanceQBC._check_committee_results"]}
{"id": "C68", "title": "Expected error reduction weighs the loss of each class by its probability only for classes 0..k-1", "statement": "With classes 0..k-1 the score of a candidate is the sum over classes of probability times expected loss; with classes -1 and 1 both losses are weighed by the probability of class 1; with classes 1..k the call fails with IndexError.", "quantifier": "all probability matrices, losses and numbers of classes", "why_tests_cant": "Holds for every matrix; the usual tests use labels 0..k-1.", "anchors": ["alipy/query_strategy/query_labels.py:QueryExpectedErrorReduction.select"]}
{"id": "C69", "title": "QUIRE chooses an unlabelled instance of smallest evaluation unless no evaluation is finite", "statement": "QueryInstanceQUIRE.select returns one unlabelled instance whose evaluation is the smallest among the unlabelled ones whenever one is finite; when all are NaN or infinite it returns the last training instance even if that is labelled.", "quantifier": "all training sets, partitions and evaluations including NaN and infinity", "why_tests_cant": "Holds for every history of evaluations; the failing case needs a singular kernel.", "anchors": ["alipy/query_strategy/query_labels.py:QueryInstanceQUIRE.select"]}
{"id": "C70", "title": "Density weighting prefers diverse instances, except with the margin measure", "statement": "Between two equally uncertain instances QueryInstanceDensityWeighted never prefers the one with the smaller (powered) mean distance when the uncertainty is positive, but with the margin measure, whose value is negative, it never prefers the one with the larger.", "quantifier": "all predictions, distance matrices, exponents and tie-breakings", "why_tests_cant": "Ordering claim over all inputs.", "anchors": ["alipy/query_strategy/query_labels.py:QueryInstanceDensityWeighted.select"]}
{"id": "C71", "title": "Label ranking predicts by the best of its sub-models against the dummy class, and never refits from scratch", "statement": "LabelRankingModel.predict gives each class the largest score of its five sub-models and predicts a label as 1 exactly when its score exceeds the dummy class's, -1 otherwise. fit(is_incremental=False) on a trained model continues from the weights left by every earlier fit (only the running averages are reset), so fitting twice on the same data is not fitting once.", "quantifier": "all score matrices incl. NaN and infinities, all histories of fit calls and all training steps", "why_tests_cant": "A claim about every history of calls and every gradient step.", "anchors": ["alipy/query_strategy/multi_label.py:LabelRankingModel.lr_predict", "alipy/query_strategy/multi_label.py:LabelRankingModel.fit", "alipy/query_strategy/multi_label.py:LabelRankingModel.init_model_train"]}
{"id": "C72", "title": "Batch selection by MMC and Adaptive returns distinct unlabelled instances and updates the caller's collections", "statement": "With IndexCollections and a batch smaller than the pool, select returns batch distinct unlabelled indexes as 1-tuples; the caller's labelled collection has then gained and the caller's unlabelled collection has lost exactly these. Lists, arrays and multi-label collections stay unchanged, and a batch not smaller than the pool returns the pool as plain elements.", "quantifier": "all collections, batch sizes and sequences of choices", "why_tests_cant": "Every sequence of choices of the underlying strategy; aliasing of arguments.", "anchors": ["alipy/query_strategy/multi_label.py:QueryMultiLabelMMC.select", "alipy/query_strategy/multi_label.py:QueryMultiLabelAdaptive.select"]}
{"id": "C73", "title": "Multi-label QUIRE returns an unlabelled pair, and the best one only in small cases", "statement": "For every kernel and labelling QueryMultiLabelQUIRE.select returns one unlabelled pair. With exactly two unlabelled pairs and labels listed in column order it is the one with the smallest worst-case objective; with three or more it need not be, and the choice can depend on the order in which the labelled set is listed.", "quantifier": "all kernels, label matrices, labelled and unlabelled sets", "why_tests_cant": "Universal over kernels; the order dependence needs particular set orders.", "anchors": ["alipy/query_strategy/multi_label.py:QueryMultiLabelQUIRE.select"]}
{"id": "C74", "title": "MMC asks for maximal expected loss, Adaptive for minimal error among the best of each trade-off; both rest on 0/1 labels", "statement": "The MMC score is the expected loss of predicting the p most probable labels (p>=0) and the chosen instance has the greatest score, any such one being possible. Adaptive chooses among the instances that are best for some trade-off one with the smallest approximate error, and fails if there is none. The constant classifier used for labels constant in the training data is right for 0 and 1, but for labels -1 it predicts probability 1 of presence, and negative predicted label counts select all but the last labels. In Adaptive the margin of an instance is its smallest positive value minus its largest negative one (uncertainty zero when all are on one side), the cardinality compared is the mean number of labels of a labelled instance, and the error is the sum of how far the worst positive value is below 1 and the worst negative one above -1.", "quantifier": "all probabilities, scores incl. NaN, errors, random draws and set orders", "why_tests_cant": "Holds for every draw and set order; the failing cases need labels other than 0/1.", "anchors": ["alipy/query_strategy/multi_label.py:QueryMultiLabelMMC.sequential_select", "alipy/query_strategy/multi_label.py:QueryMultiLabelAdaptive.sequential_select", "alipy/query_strategy/multi_label.py:DummyClf", "alipy/query_strategy/multi_label.py:_BinaryRelevance.train"]}
{"id": "C75", "title": "Matrix completion keeps the observed values and should use nothing else", "statement": "The matrices returned by AFASMC_mask_mc and IterativeSVD_mc.impute agree with the data on every observed entry, imputed values respect min_value and max_value, and masks of another shape or without both a 0 and a 1 are rejected by the checks. The result of AFASMC does not depend on unobserved values as long as these are finite; a NaN at an unobserved entry reaches the search and the result. IterativeSVD starts from the unobserved values: when its first decomposition reproduces its argument the hidden data is returned, and with max_iters=0 the hidden values are returned with the observed ones zeroed.", "quantifier": "all matrices, masks, decompositions, search steps and limits", "why_tests_cant": "Independence from hidden values is a relation between all pairs of inputs.", "anchors": ["alipy/query_strategy/query_features.py:AFASMC_mask_mc", "alipy/query_strategy/query_features.py:IterativeSVD_mc.impute"]}
{"id": "C76", "title": "AFASMC returns the best of its rounds", "statement": "Every round of AFASMC_mask_mc ends with a matrix of smallest objective among its steps, and a completion is found for every 1 <= max_out_iter <= max_in_iter. But the result is that of the first round whenever no round converges within max_out_iter steps, however much better the later rounds are; max_in_iter=1 with two or more rounds fails with IndexError and zero iterations fail with UnboundLocalError.", "quantifier": "all sequences of objectives and matrices, all iteration limits", "why_tests_cant": "Claim over all sequences of objective values.", "anchors": ["alipy/query_strategy/query_features.py:AFASMC_mask_mc"]}
{"id": "C77", "title": "Curves against the number of queries show the averages over the folds at the right positions", "statement": "For every list of methods with rectangular finite results and every plot_interval k>0, plot_learning_curves draws for each method, in the order added, the average over the folds of query 0, k, 2k, ... at these positions plus the shift. The shift inferred from the first method is used for all, a start point works exactly if k divides the number of points and displaces the averages for k>1, and runs of different length cannot be plotted although the summary aligns them.", "quantifier": "all methods, tables, shifts, intervals and start points", "why_tests_cant": "All shapes of results and all intervals.", "anchors": ["alipy/experiment/experiment_analyser.py:_NumOfQueryAnalyser.plot_learning_curves", "alipy/experiment/experiment_analyser.py:_NumOfQueryAnalyser.add_method"]}
{"id": "C78", "title": "Adding a method to the analyser replaces only its own results and bad values are found", "statement": "add_method changes no other method; after a success the data and a summary of the results given are stored. A NaN or infinite value in any method is rejected when plotting if runs were added last, but not if lists were added last. A list of folds of different lengths is rejected when added but stays stored, and every later plot fails until it is replaced. Plotting without methods is rejected.", "quantifier": "all analysers, histories of additions and results", "why_tests_cant": "Depends on the order of additions and on all later calls.", "anchors": ["alipy/experiment/experiment_analyser.py:_NumOfQueryAnalyser.add_method", "alipy/experiment/experiment_analyser.py:_CostEffectiveAnalyser.add_method", "alipy/experiment/experiment_analyser.py:_NumOfQueryAnalyser.plot_learning_curves"]}
{"id": "C79", "title": "One split per saving path", "statement": "Once split_AL of the only toolbox in use on a saving directory has returned (or a toolbox with given splits was made there), every toolbox made with that path, in this or a later program and whatever its arguments, has exactly that split, and no later calls change it. Killing the program during split_AL leaves the old settings, the new split or a settings file that cannot be read, and in the last case no toolbox can be made with the path again. Two toolboxes made on one path before either is split get different splits; a path that is not a directory, string names, and copied directories do not get their split saved.", "quantifier": "all sequences of constructions, splits, reads, mutations, program restarts and kill points", "why_tests_cant": "Histories over several programs and all crash points.", "anchors": ["alipy/toolbox.py:ToolBox.__init__", "alipy/toolbox.py:ToolBox.split_AL", "alipy/toolbox.py:ToolBox.save"]}
{"id": "C80", "title": "The objects a toolbox makes use its labels and its folds", "statement": "get_clean_oracle of a single-label toolbox answers the position of every instance with its label and cost 1 (the costs given only with query_by_example), get_stateio(r) starts with the sets of fold r, and get_repository(r) starts with the labelled instances of fold r with their labels and features. Instance names are not used: with string names the oracle knows none of the instances and the repository cannot be made, and with permuted integer names the labels are those of other instances. 'PartLabels' gives no oracle, and a feature-querying toolbox with one label per instance cannot return a fold after split_AL.", "quantifier": "all data sets, names, splits and folds", "why_tests_cant": "Universal over data sets and folds; the failing cases need names that differ from positions.", "anchors": ["alipy/toolbox.py:ToolBox.get_clean_oracle", "alipy/toolbox.py:ToolBox.get_stateio", "alipy/toolbox.py:ToolBox.get_repository", "alipy/toolbox.py:ToolBox.get_split"]}
{"id": "C81", "title": "Metrics called by name compute what their name says", "statement": "ToolBox.calc_performance_metric and the metric of an AlExperiment return, for the label metrics, the value of that metric for the arrays given, and reject every other name with NotImplementedError. For score metrics the toolbox passes only the first column of the matrix: for the probabilities of a two-class model the AUC is one minus the AUC of the positive class, the three ranking metrics raise an exception for all arrays and a vector of scores is never accepted. An experiment computes the AUC of predicted labels, the mean of the accuracies on the two classes.", "quantifier": "all arrays of labels and scores, names and keywords", "why_tests_cant": "All arrays; the failures concern every possible input.", "anchors": ["alipy/toolbox.py:ToolBox.calc_performance_metric", "alipy/experiment/al_experiment.py:AlExperiment.set_performance_metric"]}
{"id": "C82", "title": "An experiment uses the strategy, metric and split set last", "statement": "After any sequence of configuration calls with strategies given by name, the selections are asked of the strategy set last, with its own arguments, and the metric is the last valid one; unknown names and splits of different lengths raise and change nothing; start_query raises unless a split and a metric were set. But the metric given to the constructor is ignored, a strategy set after a callable is asked with the callable's arguments and without the model (graph density and QUIRE are not used at all), a graph-density strategy refused before the split still replaces the strategy, qp_solver cannot be chosen, and setting a strategy twice is never refused.", "quantifier": "all sequences of configuration calls, names and keyword arguments", "why_tests_cant": "All histories of calls; the failures need particular orders of calls.", "anchors": ["alipy/experiment/al_experiment.py:AlExperiment.set_query_strategy", "alipy/experiment/al_experiment.py:AlExperiment.set_performance_metric", "alipy/experiment/al_experiment.py:AlExperiment.set_data_split", "alipy/experiment/al_experiment.py:AlExperiment.start_query"]}
{"id": "C83", "title": "A sequential experiment gives one faithful record per fold", "statement": "start_query(multi_thread=False) adds one result per fold, in order: the initial performance is that of the model fitted on the initial labelled set, each query has the strategy's selection and the performance on the fold's test set of the model fitted on the labelled set after it, the sets always partition the fold, and the record ends at the first step at which the stopping criterion holds. An exception in one fold keeps the results of the folds before it. A second call keeps the results of the first, so each fold appears twice, and a time limit counts from the construction of the experiment, so folds that start after it make no query.", "quantifier": "all folds, strategies, performance functions, criteria and clocks", "why_tests_cant": "Universal over strategies and data, with unbounded numbers of folds and queries.", "anchors": ["alipy/experiment/al_experiment.py:AlExperiment.start_query", "alipy/experiment/al_experiment.py:AlExperiment.__al_main_loop"]}
{"id": "C84", "title": "Folds run in threads keep their own sets but share the model", "statement": "For every schedule of start_query(multi_thread=True) no thread fails, every fold's record partitions its indexes at every step and the thread ends, after a bounded number of its own steps, at the first step at which the criterion holds. The performance a thread records is that of the model fitted last by any thread: for any two folds there is a schedule in which the performance of one is computed with the model of the other. A fold whose steps are not interleaved with others gives exactly the sequential result.", "quantifier": "all schedules, folds, strategies and performance functions", "why_tests_cant": "A race between threads shows only under some schedules.", "anchors": ["alipy/experiment/al_experiment.py:AlExperiment.start_query", "alipy/experiment/al_experiment.py:AlExperiment.__al_main_loop", "alipy/utils/multi_thread.py:aceThreading.start_all_threads"]}
{"id": "C85", "title": "Batches of BMDR and SPAL are the best by their weights, after at most sixteen rounds", "statement": "QueryInstanceBMDR.select and QueryInstanceSPAL.select return batch_size different unlabelled instances with the largest weights (for SPAL weight times easiness) of the last round, or all of them if there are no more; the weights of each round are the solver's answer to the program for the current model, loosened only if that has no finite answer; a call makes at most sixteen rounds and ends with the first that repeats the choice of the round before. Exactly two classes are accepted, and mapped to 1 and -1. SPAL's lambda never changes: lambda_pace has no effect on any sequence of queries.", "quantifier": "all kernels, labels, index sets, batch sizes, solvers, models and sequences of queries", "why_tests_cant": "Universal over solvers and data; the number of rounds cannot be bounded by examples.", "anchors": ["alipy/query_strategy/query_labels.py:QueryInstanceBMDR.select", "alipy/query_strategy/query_labels.py:QueryInstanceSPAL.select", "alipy/query_strategy/query_labels.py:QueryInstanceBMDR.__init__", "alipy/query_strategy/query_labels.py:QueryInstanceSPAL.__init__"]}
{"id": "C86", "title": "The quadratic program of BMDR and SPAL against the discrepancy and risk it stands for", "statement": "For every symmetric kernel matrix the objective handed to the solver equals, up to a constant, the scaled kernel discrepancy between labelled plus selected and remaining instances plus the worst-case risk of the selected ones, less a quarter of the scale times the energy of the selection; the feasible selections are shares in [0,1] summing to batch_size. Because of the last term the program can prefer another instance than the one minimising discrepancy and risk, however these are weighted.", "quantifier": "all symmetric kernel matrices, index sets, batch sizes, models and selections", "why_tests_cant": "An identity over all matrices and selections.", "anchors": ["alipy/query_strategy/query_labels.py:QueryInstanceBMDR.select", "alipy/query_strategy/query_labels.py:QueryInstanceSPAL.select"]}
{"id": "C87", "title": "ADMM steps of BMDR and SPAL are exact minimisations", "statement": "Between two rounds the model of BMDR and SPAL is trained by at most 1000 steps, each of which takes the model minimising the augmented Lagrangian for the current values, then the values minimising it for that model, then moves the multipliers; the Lagrangian is that of the squared loss on labelled instances, the kernel norm and the (weighted) worst-case risk of the chosen instances. For every positive semidefinite kernel and non-negative gamma and rho, provided the linear systems are solved.", "quantifier": "all kernels, labels, index sets, parameters and iterations", "why_tests_cant": "Optimality over all models and values at every step.", "anchors": ["alipy/query_strategy/query_labels.py:QueryInstanceBMDR.select", "alipy/query_strategy/query_labels.py:QueryInstanceSPAL.select"]}
{"id": "C88", "title": "CEAL asks the pair of instance and oracle of greatest value", "statement": "QueryNoisyOraclesCEAL returns the instance and oracle with the greatest value of (the oracle's skill near the instance) * (the model's uncertainty) / (the oracle's price, at least 0.0001), the earliest of equal pairs. Skill is the mean over the nearest initial instances of the distance where the oracle is right and zero where it is wrong, so that an oracle right only on the farther neighbours is preferred to one right only on the nearest, and copies of the instance count for nothing. An oracle is never asked when a cheaper one is right about every initial instance it is right about, unless no oracle is right about any neighbour. eval_cost has no effect, the last unlabelled instance cannot be asked for, fewer than two initial instances are refused, and the call fails when an oracle added to the pool later is the best.", "quantifier": "all oracles, lists or pools, neighbour structures, index sets, predictions and keyword arguments", "why_tests_cant": "An optimum over all oracles, instances and data; the defects need particular geometry or histories.", "anchors": ["alipy/query_strategy/noisy_oracles.py:QueryNoisyOraclesCEAL.select", "alipy/query_strategy/noisy_oracles.py:QueryNoisyOraclesCEAL.select_by_prediction_mat", "alipy/query_strategy/noisy_oracles.py:QueryNoisyOraclesCEAL._calc_Q_table"]}
{"id": "C89", "title": "IEthresh asks the oracles near the best score, over every history", "statement": "After any series of calls, select_by_given_instance of QueryNoisyOraclesIEthresh asks exactly the oracles whose score is at least epsilon (default 0.8) times the best score, records their majority vote, and returns them. The score is 1 until the oracle is first asked; then, as of the last call it took part in, the share p of the instances on which its latest label is the latest vote plus the critical value of Student's t times sqrt(p(1-p)) over the square root of the number of oracles. With two or more oracles that all know the instance a call always succeeds and asks at least one. An oracle that always agreed with the vote is dropped as soon as one that erred has a score above 1/epsilon; a strategy over a single oracle works only once; and after a call in which an oracle failed all calls about other instances fail.", "quantifier": "all sequences of calls, crowds of oracles, labels, epsilon and t quantiles", "why_tests_cant": "Depends on the whole history of calls and votes.", "anchors": ["alipy/query_strategy/noisy_oracles.py:QueryNoisyOraclesIEthresh.__init__", "alipy/query_strategy/noisy_oracles.py:QueryNoisyOraclesIEthresh._calc_uia", "alipy/query_strategy/noisy_oracles.py:QueryNoisyOraclesIEthresh.select_by_given_instance"]}
{"id": "C90", "title": "Uncertainty-based choice of the instance for noisy oracles; asking all or a random one", "statement": "select_by_prediction_mat of the IEthresh, All and Random strategies returns the unlabelled instance the model is least sure about with the oracles of select_by_given_instance for it; with at most one unlabelled instance it returns the indexes alone and asks nobody. All names every oracle present when the strategy was made and never one added later; Random names one of them, every one possible, and fails on a draw of one added later.", "quantifier": "all predictions, index sets, pools, additions and draws", "why_tests_cant": "Universal over predictions, draws and later changes of the pool.", "anchors": ["alipy/query_strategy/noisy_oracles.py:QueryNoisyOraclesSelectInstanceUncertainty.select_by_prediction_mat", "alipy/query_strategy/noisy_oracles.py:QueryNoisyOraclesAll.select_by_given_instance", "alipy/query_strategy/noisy_oracles.py:QueryNoisyOraclesRandom.select_by_given_instance", "alipy/query_strategy/base.py:BaseNoisyOracleQuery.__init__"]}
{"id": "C91", "title": "AURO asks for two unlabelled labels of the least labelled instance", "statement": "QueryTypeAURO.select returns the first of the instances with most unlabelled labels and two different labels of it. The second is always unlabelled; for finite scores the first is the unlabelled label with the highest score and the second is, of the other unlabelled ones, one closest to the dummy label. The scores come from the passed model, trained first if it was not, or else from the strategy's own one, trained anew. When pairs are left but no instance has two of them the call raises ValueError after training; a pool of one entry is returned as it is even when it stands for a whole instance; y_mat is ignored when a model is passed; and a model passed once replaces the strategy's own one, so that a later call without a model trains the user's model again in place.", "quantifier": "all label matrices, pools, models, score matrices and sequences of two calls", "why_tests_cant": "Universal over pools, scores and the history of passed models.", "anchors": ["alipy/query_strategy/query_type.py:QueryTypeAURO.select", "alipy/query_strategy/query_type.py:QueryTypeAURO.__init__", "alipy/query_strategy/query_type.py:check_query_type"]}
{"id": "C92", "title": "QUIRE evaluates an instance by the least worst-case energy", "statement": "QueryInstanceQUIRE is documented to choose the unlabelled instance whose worst-case label gives the least energy of the best completion. The inverse of the unlabelled block it computes is right exactly when the kernel between labelled instances annihilates the kernel from them to the unlabelled ones, so for a kernel with positive values, such as the default one, never; the matrix it uses for the other unlabelled instances is right exactly when there are at most two unlabelled instances or the left-out column is zero. When both are right the value is the published formula. With two unlabelled instances not related to the labelled ones the chosen instance has the least worst-case energy; in general it has not.", "quantifier": "all positive semidefinite kernels, regularisers, labels and splits", "why_tests_cant": "Equivalences over all kernels and splits; a test sees one kernel and no energies.", "anchors": ["alipy/query_strategy/query_labels.py:QueryInstanceQUIRE.select", "alipy/query_strategy/query_labels.py:QueryInstanceQUIRE.__init__"]}
{"id": "C93", "title": "LAL selects by the predicted error reduction; its data file is written once", "statement": "QueryInstanceLAL.select without a trained selector raises ValueError whatever is asked; with one it returns the unlabelled instances for which the selector predicts the largest error reduction from eight features of the learning state (tree average and deviation, share of positive labels, out-of-bag score, deviation of importances, average deviation, average depth, number labelled). A data file once present is never written again and makes requests unnecessary, over every history of objects, downloads and trainings; the other mode's file is never touched; a failing training leaves the selector as it was. A download that is interrupted anywhere leaves a truncated file which every later object uses without a new request; the announced length is not compared with what arrived.", "quantifier": "all pools, forests, selectors, responses, points of interruption and histories", "why_tests_cant": "Universal over where a download breaks off and what is done afterwards.", "anchors": ["alipy/query_strategy/query_labels.py:QueryInstanceLAL.select", "alipy/query_strategy/query_labels.py:QueryInstanceLAL.download_data", "alipy/query_strategy/query_labels.py:QueryInstanceLAL.train_selector_from_file", "alipy/query_strategy/query_labels.py:QueryInstanceLAL.__init__"]}
{"id": "C94", "title": "The density graph links nearest neighbours both ways", "statement": "The graph of QueryInstanceGraphDensity links two training points exactly when one is among the ten nearest of the other, with the weight exp(-distance/n_features) of the chosen metric, in both directions, and no point with itself. The density of each point is the average weight of its links; there are at least ten of them and the density lies in (0, 1], so it is never NaN. Whatever the metric, the neighbours are those of the manhattan distance. With at most ten training points construction raises ValueError.", "quantifier": "all training sets, metrics and neighbour structures", "why_tests_cant": "A loop that updates a matrix while walking over its entries, for all data.", "anchors": ["alipy/query_strategy/query_labels.py:QueryInstanceGraphDensity.__init__", "alipy/query_strategy/query_labels.py:QueryInstanceGraphDensity._compute_graph_density"]}
{"id": "C95", "title": "Shaded areas lie around the curves; the table shows the methods added", "statement": "Asking for shaded areas changes neither the learning curves nor whether plotting works. Without a start point the area of a method lies around its curve, one standard deviation over the folds to each side, at every shown query; with a start point it is placed at 1, k+1, 2k+1, ... while the curve has its points at k, 2k, ..., so it fits exactly for a plot interval of 1; against the cost it is not moved with x_shift, so it fits exactly without a shift. The printed table has, after any history of successful additions, one row per method name in the order of first use about the results added last under it, and the batch sizes exactly if the very last addition was of runs; the cost table shows the amount all folds of the method spend, or that they differ. A failing addition changes no row; but if it was under a new name and data had been stored, the table cannot be printed until that name is added successfully, and it may make the batch size column appear. An analyser without methods cannot be printed.", "quantifier": "all histories of additions, data, intervals, shifts and start points", "why_tests_cant": "Depends on the whole history of additions; alignment needs all intervals and shifts.", "anchors": ["alipy/experiment/experiment_analyser.py:_NumOfQueryAnalyser.plot_learning_curves", "alipy/experiment/experiment_analyser.py:_NumOfQueryAnalyser.__repr__", "alipy/experiment/experiment_analyser.py:_CostEffectiveAnalyser.plot_learning_curves", "alipy/experiment/experiment_analyser.py:_CostEffectiveAnalyser.__repr__", "alipy/experiment/experiment_analyser.py:_CostEffectiveAnalyser._check_and_get_total_cost"]}
{"id": "C96", "title": "Kernel matrices are the documented kernels and keep the programs convex", "statement": "get_gaussian_kernel_mat returns for every pair of rows the exponential of minus their squared distance over twice the squared width: a symmetric matrix with ones on the diagonal and entries between 0 and 1, equal to the rbf kernel with gamma one over twice the squared width; a width of zero gives NaN for equal rows and 0 for others. calc_kernel_matrix returns the documented rbf, poly or linear kernel for every pair of rows with the documented defaults, the unchecked result of a callable, and NotImplementedError otherwise. Linear kernels, and poly kernels with non-negative gamma and coef0, are symmetric positive semidefinite, as QUIRE, BMDR and SPAL need; rbf kernels with non-negative gamma are so up to the rounding of the exponential; poly kernels with a negative coef0 need not be. BMDR and SPAL recode boolean labels of two classes to one and the same value.", "quantifier": "all data matrices, widths, kernel parameters and label arrays", "why_tests_cant": "Positive semidefiniteness quantifies over all vectors, and the entries over all data.", "anchors": ["alipy/utils/misc.py:get_gaussian_kernel_mat", "alipy/utils/misc.py:calc_kernel_matrix", "alipy/query_strategy/query_labels.py:QueryInstanceBMDR.__init__", "alipy/query_strategy/query_labels.py:QueryInstanceSPAL.__init__"]}
{"id": "C97", "title": "A pool of oracles records every answered query; its total cost only when the costs form tables", "statement": "After any sequence of add_oracle, query_from and query_from_s on an Oracles object, query_history holds exactly the queries that all asked oracles answered, in order. If within every query the same number of labels is charged for each instance and oracle, cost_inall is the sum of all costs returned. Otherwise, with oracles that charge per label (multi-label or feature oracles), the query is recorded but cost_inall misses its cost and the call raises ValueError (recent numpy), or cost_inall turns into an array (older numpy). The printed summary always shows how often each oracle answered and the sum it charged, and full_history one column per query with the same counts.", "quantifier": "all oracles, pools, histories of additions and queries", "why_tests_cant": "Ranges over all histories and all shapes of the costs; the damage shows only in the total after a later query.", "anchors": ["alipy/oracle/oracle.py:Oracles.query_from", "alipy/oracle/oracle.py:Oracles.query_from_s", "alipy/oracle/oracle.py:Oracles.__repr__", "alipy/oracle/oracle.py:Oracles.full_history"]}
{"id": "C98", "title": "A round interrupted anywhere and recovered goes on from its last complete save", "statement": "Take a round of aceThreading running the documented loop (select, update both collections, add_state, save), with a strategy that selects distinct unlabelled indexes, interrupted any number of times at any statement and resumed with aceThreading.recover. Whenever it is about to select, the labelled collection holds the initially labelled and the recorded indexes, the unlabelled one all other initially unlabelled indexes, and no index is recorded twice; the loop never raises. An interruption outside save() loses at most the last query; one after save() has opened the file but before anything is written silently loses all queries of the round; one during the writing makes recover fail. If no save is interrupted, at most one query per interruption is missing from the record. Once nothing is unlabelled the record holds every initially unlabelled index exactly once.", "quantifier": "all initial collections, selections, performances, costs, numbers and positions of interruptions, liveness flags in the state file", "why_tests_cant": "Ranges over every crash point and any number of crashes and recoveries.", "anchors": ["alipy/utils/multi_thread.py:aceThreading.recover", "alipy/utils/multi_thread.py:aceThreading.start_all_threads", "alipy/experiment/state_io.py:StateIO.save", "alipy/experiment/state_io.py:StateIO.get_workspace", "test/test_recover_multithreads.py:run_thread"]}
{"id": "C99", "title": "The paired t-test decides by the differences alone, on equally sized vectors", "statement": "paired_ttest(a, b, alpha) returns 1 exactly when the two-sided p-value of the textbook paired t statistic is at most alpha, for vectors of two or more pairs whose differences are not all equal. If all differences are equal it returns 0 when they are zero and 1 at every non-negative alpha otherwise; for fewer than two pairs it returns 0. Only the differences count, up to a common non-zero factor, so swapping the samples, shifting both or changing the unit changes nothing; significance at a level is significance at every greater one. Vectors of equal length in the same shape (1-D, row, column) are always accepted and give the same answer; samples of different sizes always raise an exception. A column is accepted as first but not as second argument next to a 1-D array. The documented example returns 0, not the documented 1. Listing the pairs in another order changes nothing; pairing the same numbers otherwise may.", "quantifier": "all samples, shapes up to two dimensions, levels alpha and distribution functions meeting the contract of Student's distribution", "why_tests_cant": "Ranges over all real samples, transformations of them, shapes and levels.", "anchors": ["alipy/utils/interface.py:BaseAnalyser.paired_ttest"]}
{"id": "C100", "title": "The progress display shows the record and never changes it", "statement": "For a StateIO with verbose on, whatever calls are made, the record is exactly that of a silent object, even when printing raises. In an ordinary run a report is printed after the i-th query exactly if i is a multiple of print_interval; the first report is the table with header, all later ones single lines; each shows the round, the initially labelled data and their share, the number and total cost of the queries so far, and mean and standard deviation of their performances. A due report fails exactly if the initial sets are both empty or the recorded performances cannot be averaged (print_interval 0 always fails); the query is recorded nevertheless. A plain dict, which add_state rejects, stays in the record and makes every later due add_state raise. After recover_workspace the shown cost still counts the discarded queries while the shown number of queries does not.", "quantifier": "all histories of add_state, pop, recover_workspace, refresh_info and check_batch_size, all intervals, collections, performances and costs", "why_tests_cant": "Ranges over all histories of calls.", "anchors": ["alipy/experiment/state_io.py:StateIO.add_state", "alipy/experiment/state_io.py:StateIO.get_current_performance", "alipy/experiment/state_io.py:StateIO.__repr__"]}
{"id": "C101", "title": "Label ranking training learns exactly from the marked labels", "statement": "Training the label ranking model visits every (instance, relevant label) pair, the dummy label included, exactly once per call, in any random order. A visit changes the model only if one of the randomly tried labels that must rank lower (labels marked -1, and the dummy) scores within 1 of the relevant label; it then makes one gradient step with the first such label, weighted by the harmonic number of floor(candidates / trials). The step never reduces the difference of the two scores when (rate * norm of the instance)^2 <= 2, but it can on unscaled features. Labels that are 0 or 0.5 for every instance never change their sub-models; 0.5 ('less relevant') is never learned from: training is the same as if it were unknown. The averages used for prediction are over exactly the kept copies and exist after any history of one or more calls.", "quantifier": "every data and target matrix, every initial model, every order of the pairs, every sequence of random picks, every history of training calls", "why_tests_cant": "The result depends on random orders and picks at every visit and on the whole history of calls; tests see single random runs.", "anchors": ["alipy/query_strategy/multi_label.py:_LabelRankingModel_MatlabVer.init_model_train", "alipy/query_strategy/multi_label.py:_LabelRankingModel_MatlabVer.train_model", "alipy/query_strategy/multi_label.py:_LabelRankingModel_MatlabVer.get_BV"]}
{"id": "C102", "title": "Completing labels by the hierarchy reveals labels the hierarchy does not imply", "statement": "In a label hierarchy as documented (tree[i][j] = 1 when i is the parent of j; an instance with a label has its ancestors) the known labels settle a positive label exactly if a known label at or below it is positive, and a negative one exactly if a known label at or above it is negative. hierarchical_multilabel_mark goes the other way: what it adds to a single queried pair is never settled by it, so labels are revealed that were neither paid for nor implied. With the tree transposed everything it adds is settled. In rounds of select, mark, update and difference_update, whatever is selected, labelled and unlabelled pairs stay disjoint with a constant union, and the labelled pairs are exactly the first ones, the selected ones and the children of selected positive and parents of selected negative ones.", "quantifier": "all trees, all consistent labellings, all sets of known and queried pairs, all sequences of selections", "why_tests_cant": "Whether a label is implied ranges over all labellings that agree with the known labels; the rounds over all histories.", "anchors": ["alipy/query_strategy/cost_sensitive.py:hierarchical_multilabel_mark", "examples/AL_settings/cost_sensitive.py"]}
{"id": "C103", "title": "A selection does not use the labels of the unlabelled data", "statement": "examples/AL_settings/labeling_real_data.py promises that the labels of unlabelled data can be anything because the algorithm will not use them. For two label arrays of the same shape that agree on the labelled data, the selection (and any exception) is the same for uncertainty sampling, query by committee, LAL once constructed, BMDR and SPAL if both objects can be constructed and the labelled data show both classes, QUIRE, multi-label AUDI, AURO and QUIRE (per instance-label pair), Adaptive, the per-class models and neighbour votes of the hierarchical strategies, and CEAL. It is not kept by expected error reduction, which reads all labels occurring anywhere and uses each as a column number, so that marking unlabelled data with -1 changes the selection and a mark without a column makes it fail; nor by MMC, which looks at the number of labels of all instances and fails when only unlabelled instances differ; nor by the constructors of BMDR, SPAL and LAL, which refuse a third value anywhere.", "quantifier": "all data, all pairs of label arrays that agree on the labelled data, all learners as arbitrary functions of the rows and labels they are given, all pools and batch sizes", "why_tests_cant": "Independence of unknown labels compares the runs on every two label arrays that agree on the known part; a test sees one array.", "anchors": ["examples/AL_settings/labeling_real_data.py", "alipy/query_strategy/query_labels.py:QueryInstanceUncertainty.select", "alipy/query_strategy/query_labels.py:QueryInstanceQBC.select", "alipy/query_strategy/query_labels.py:QueryExpectedErrorReduction.select", "alipy/query_strategy/query_labels.py:QueryInstanceBMDR.__init__", "alipy/query_strategy/multi_label.py:QueryMultiLabelMMC.sequential_select", "alipy/query_strategy/multi_label.py:QueryMultiLabelAdaptive.sequential_select", "alipy/query_strategy/cost_sensitive.py:QueryCostSensitiveHALC.cal_relevance"]}
{"id": "C104", "title": "A collection given to its own methods", "statement": "IndexCollection.update with the collection itself changes nothing and warns once per element. IndexCollection.difference_update with the collection itself does not empty it: the iteration runs over the list that is being shortened, so exactly the elements at the second, fourth, sixth ... position stay (2^r, 2*2^r, ... after r calls), without error or warning; with a copy or a list of the elements it empties. A round of a loop that passes a new list moves exactly the selected items and keeps labelled and unlabelled items disjoint; a round that passes the pool object itself leaves every second item in both collections. MultiLabelIndexCollection flattens its argument first: with itself, update changes nothing and difference_update empties it, so the multi-label and feature strategies that return the caller's pool when at most one (or batch_size) entries are left are safe in this respect, and every round keeps the total number of entries.", "quantifier": "all collections reachable by construction and any calls, all sizes, any number of repeated calls, all pairs of collections and selections", "why_tests_cant": "Which elements survive depends on the positions in the whole list and on the number of calls; the usual tests pass other lists or one-element collections, where the effect is the documented one.", "anchors": ["alipy/index/index_collections.py:IndexCollection.difference_update", "alipy/index/index_collections.py:IndexCollection.update", "alipy/index/index_collections.py:MultiLabelIndexCollection.difference_update", "alipy/utils/interface.py:BaseCollection.__iter__", "alipy/query_strategy/multi_label.py:QueryMultiLabelRandom.select", "alipy/experiment/al_experiment.py:AlExperiment"]}
{"id": "C105", "title": "The multi-label main loop", "statement": "In the documented multi-label loop (select, update, difference_update, get_Xy_in_multilabel, incremental fit, State, add_state, until more than a budget of entries is labelled), for every strategy that asks for entries of the training set: no entry is ever lost, doubled or in both collections, also when a round raises; unless a round raised, the labelled entries are exactly the initial ones and those asked for, and the record rebuilds both collections; after an exception the record lacks at most the selection of the failing round. The model is fitted once on the entries labelled from the start and once per selection on what that selection reveals, with the unknown value wherever a label was not asked for. If strategies ask only for unlabelled entries, none is labelled twice, and the recorded cost is the number of entries labelled when a selection is a list of pairs or one whole instance; a selection of k >= 2 whole instances labels k*m entries and records m. The loop is left after at most budget+1 rounds with productive selections, with between budget+1 and budget+b entries labelled; when the pool has no more than budget entries it never ends by its condition: a strategy that returns the pool object for the last b entries makes it end with AttributeError, these entries never labelled.", "quantifier": "all data tables, numbers of labels, divisions into labelled and unlabelled entries, strategies (with state, randomness and any batch size), models and their failures, budgets and numbers of rounds", "why_tests_cant": "The claims are about every round of loops of any length with arbitrary strategies and models; the example is run with one data set that has more entries than the budget.", "anchors": ["examples/AL_settings/multi label.py:main_loop", "alipy/index/multi_label_tools.py:get_Xy_in_multilabel", "alipy/index/index_collections.py:MultiLabelIndexCollection", "alipy/experiment/state_io.py:StateIO.add_state", "alipy/query_strategy/multi_label.py:QueryMultiLabelRandom.select"]}
{"id": "C106", "title": "The main loop with noisy oracles trains on bought labels, accounts for them, and cannot label the last instance", "statement": "In the loop that selects an instance and oracles, takes the majority vote, stores the label in the repository, moves the instance between the two index collections, refits the model on the repository's training data, records a State and updates the stopping criterion: (1) however the loop is left, the repository holds exactly the labelled instances, in order, with one label each; (2) if the strategy selects unlabelled instances, the training set is the initial instances with their true labels followed by the instances asked for, each with the first label that most of the asked oracles gave, every model was fitted on such a set, and no other true label is used; (3) instances only move from unlabelled to labelled, none is asked for twice; (4) the cost the oracles charge is the cost of all lines of their history, the saver records the same total (when an exception ends the loop at most the last round is missing), its workspace is the pair of collections, and the repository's own cost stays 0; (5) with a cost limit every round is begun with less than the limit spent, so the number of rounds is bounded when answers have a minimal cost; (6) with the package's strategies the loop ends by its limit or, with one instance left, by a ValueError (the strategies then return one value instead of two), so one instance always stays unlabelled.", "quantifier": "all data, splits, strategies with any internal state, oracle pools, models (which may fail), stopping criteria, limits and numbers of rounds", "why_tests_cant": "the loop composes six stateful objects over an unbounded number of rounds and can be left by an exception in the middle of a round; the agreement of their records is an invariant over all histories", "anchors": ["examples/AL_settings/noisy_oracles.py:al_loop", "alipy/query_strategy/noisy_oracles.py:get_majority_vote", "alipy/oracle/knowledge_repository.py:MatrixRepository.update_query", "alipy/toolbox.py:ToolBox.get_repository", "alipy/experiment/stopping_criteria.py:StoppingCriteria.update_information"]}
{"id": "C107", "title": "The main loop that acquires feature values keeps its entries divided, trains on the known ones, and does not notice the last one", "statement": "In the loop that selects an entry of the feature matrix, moves it from the unknown to the known entries, maps the known entries to the training rows, completes those rows, refits the classifier, records a State and updates the stopping criterion: (1) however the loop is left, the known and unknown entries are a division of the entries of the training rows and no known entry is lost; (2) the i-th classifier was trained on the completion of the training rows with exactly the entries known after i+1 rounds marked as observed; (3) with a limit of m queries the loop runs exactly m rounds, even after every entry is known; (4) k rounds make at most k entries known, and exactly min(k, number of unknown entries) if the strategy asks for unknown entries only; (5) while unknown entries are left the record rebuilds the two collections; once none is left the record still counts exactly one entry as unknown, because the strategies return the collection itself, which is emptied before it is recorded; however the loop is left the record is at most one entry behind; (6) therefore without a limit, or with a percentage only reached by all entries, the loop never ends by itself; (7) nothing fails if strategy, completion and classifier do not; (8) with AFASMC as strategy and completion the values at entries unknown at the end change nothing and every classifier sees the true values of the entries known at that time; (9) with the iterative completion the loop cannot go on after the last entry (the completion refuses a full mask), and with a decomposition that reproduces its argument every classifier is trained on the complete hidden data.", "quantifier": "all data, training rows, divisions, strategies with any internal state that meet the contract of the package's strategies, completions and classifiers (which may fail), stopping criteria, clocks and numbers of rounds", "why_tests_cant": "the record falls behind only when the very last entry is acquired, and what the classifier sees depends on the whole history of rounds and on values that are hidden", "anchors": ["examples/AL_settings/feature_querying.py:while", "alipy/query_strategy/query_features.py:QueryFeatureAFASMC.select", "alipy/query_strategy/query_features.py:AFASMC_mc", "alipy/query_strategy/query_features.py:IterativeSVD_mc.impute", "alipy/index/multi_label_tools.py:map_whole_index_to_train", "alipy/experiment/stopping_criteria.py:StoppingCriteria.update_information", "alipy/experiment/state_io.py:StateIO.get_workspace"]}
{"id": "C108", "title": "The main loop of cost-sensitive experiments keeps its pairs divided, fits each classifier to the labels known of its class, and charges the full budget for every query", "statement": "In the loop that lets a cost-sensitive strategy select instance-label pairs, adds the pairs that the label tree implies, moves them from the unlabelled to the labelled pairs, refits one classifier per label, records a State with the budget as cost and updates the stopping criterion: (1) however the loop is left, the labelled and the unlabelled pairs are a division of the pairs of the training set and no label is lost; (2) the labelled pairs are exactly the initial ones, those asked for and those the tree adds, the record rebuilds both collections, except for a query in progress when an exception occurs, and the recorded cost is the number of queries times the budget; (3) each classifier is the one fitted to the instances whose label of its class is known, and each recorded performance is that of the classifiers so fitted after that query; (4) with a limit on the costs the loop goes on exactly while pairs are unlabelled and the number of queries times the budget is below the limit; (5) if no query costs more than the budget, the queries together cost at most what is recorded, but what is recorded is neither the price of what was asked nor of what was learnt; (6) with a strategy that always asks for something, and classifiers that can be fitted and judged, no exception occurs and the loop ends within the number of queries that the limit pays for; (7) the random strategy asks for unlabelled pairs within the budget, and raises a ValueError, which leaves everything as it was, as soon as all that is left can be paid for; the performance strategy asks for unlabelled pairs within the budget and always for something; (8) with HALC the loop may label pairs of the test set and fit classifiers to them; (9) when the loop ends by its criterion, the criterion is as new and the strategy was called once per record.", "quantifier": "all data, label trees, divisions, strategies with any internal state, classifiers (which may fail), budgets, limits, clocks and numbers of rounds", "why_tests_cant": "what is labelled depends on the whole history of queries, on the labels behind them and on the tree; the last query of a run is the one that fails", "anchors": ["examples/AL_settings/cost_sensitive.py:main_loop", "alipy/query_strategy/cost_sensitive.py:hierarchical_multilabel_mark", "alipy/query_strategy/cost_sensitive.py:QueryCostSensitiveRandom.select", "alipy/query_strategy/cost_sensitive.py:QueryCostSensitivePerformance.select", "alipy/query_strategy/cost_sensitive.py:QueryCostSensitiveHALC.select", "alipy/index/multi_label_tools.py:get_Xy_in_multilabel", "alipy/experiment/stopping_criteria.py:StoppingCriteria.update_information", "alipy/experiment/state_io.py:StateIO.get_workspace"]}
{"id": "C109", "title": "The container of recorded states is the list of what was added", "statement": "For every history of add_state, recover_workspace, refresh_info, check_batch_size and pop on a StateIO: the initial sets and folds never change; a State is appended, a dict is appended exactly if it has the three keys; recover_workspace keeps the first k states or, if it raises, everything; pop(i) removes and returns exactly the state at position i, counted from the end if negative, and refuses a position outside the list; get_state(i) gives the state at position i for 0 <= i < len and is refused otherwise, indexing also counts from the end, iteration gives all states in order. The documented default of pop (the last state) raises a TypeError. Adding a state and popping it again restores the list but not the totals of cost and queried indexes.", "quantifier": "all containers, histories of calls, states, dicts and positions", "why_tests_cant": "positions from the end, boundaries and the interplay of roll-back and removal over all histories", "anchors": ["alipy/experiment/state_io.py:StateIO.get_state", "alipy/experiment/state_io.py:StateIO.pop", "alipy/experiment/state_io.py:StateIO.add_state", "alipy/experiment/state_io.py:StateIO.__getitem__", "alipy/experiment/state_io.py:StateIO.num_of_query"]}
{"id": "C110", "title": "The main loop with AURO keeps its sets and its answers, and runs as long as two labels of one instance are unlabelled", "statement": "For the loop of the query-type example with QueryTypeAURO: however it is left, the labelled and unlabelled pairs are a division of the training pairs, exactly the pairs of the questions asked have moved, no pair is asked for twice, each completed question has one record and the records rebuild the sets. The label matrix used for training holds the answers (-1 and -1, or 1 and 0.5) at the pairs asked for and the given labels elsewhere; with labels 1 and -1 an answer of 1 is always a relevant label, -1 stands for two irrelevant ones, and 0.5 says nothing about the relevance of a label. The model is the one trained on the labels known at first and then taught one row per question, with only the two answers in it, and every recorded performance is that of the model after that question. Each question is about the first of the instances with most unlabelled labels. The loop runs for as many rounds as wanted up to the sum over instances of half the number of unlabelled labels, rounded down; after that it fails with a ValueError although single labels may still be unlabelled.", "quantifier": "all data, divisions, numbers of rounds, label ranking models with finite scores, performance functions and exceptions of training or judging", "why_tests_cant": "holds over every number of rounds and every order in which the scores lead to questions", "anchors": ["examples/AL_settings/query_type.py:main loop", "alipy/query_strategy/query_type.py:QueryTypeAURO.select", "alipy/index/multi_label_tools.py:get_Xy_in_multilabel", "alipy/experiment/state_io.py:StateIO.get_workspace"]}
{"id": "C111", "title": "A saved object is found in its file until something is saved to the same file, and which objects share a file", "statement": "Saving a StateIO, ToolBox, aceThreading or Oracle writes exactly one file, the path it was given or its own file name inside it if the path is a directory, and no other file changes; without a path nothing happens, and a missing directory or a directory in the way gives an exception and changes nothing. Over every history of constructions, changes in memory, saves, kills, loads and restarts the file holds that object until something is saved to the same file or it is deleted. In one directory only StateIOs of the same round, or two objects of another same class, share a file. So a second experiment on the same fold of one toolbox replaces the saved results of the first, and the folds of an experiment saved to a path that is not a directory all replace each other. A save that does not complete spoils the file and only it. A StateIO whose path becomes a directory after it was made can never be saved. Loading an oracle, a StateIO or a toolbox returns whatever object the file holds; only aceThreading.recover checks the class. A toolbox made with the path of the file of another object takes over its attributes without an error and replaces the file when saved.", "quantifier": "all file systems, histories, kill points, rounds and contents of objects", "why_tests_cant": "ranges over every history of several objects and programs on one file system, and all crash points", "anchors": ["alipy/experiment/state_io.py:StateIO.save", "alipy/experiment/state_io.py:StateIO.load", "alipy/oracle/oracle.py:Oracle.save_oracle", "alipy/oracle/oracle.py:Oracle.load_oracle", "alipy/toolbox.py:ToolBox.save", "alipy/toolbox.py:ToolBox.load", "alipy/toolbox.py:ToolBox.get_stateio", "alipy/utils/multi_thread.py:aceThreading.save", "alipy/utils/multi_thread.py:aceThreading.recover"]}
{"id": "C112", "title": "Labelling a pool by hand keeps its books, and never uses the labels to choose what to ask", "statement": "In the loop for labelling one's own data, whatever the labelling code does, the repository holds at the end the first examples and then the instances labelled by hand in order, each with its features, its label and its index, the history has one entry for each, and the strategy holds the same labels. With labelling code that never raises, the loop runs to its end exactly if it has at most as many rounds as the pool has instances; otherwise it labels the whole pool and stops by IndexError. If the labelling code raises, the instance it was shown counts as labelled and has left the pool, but no label of it is held anywhere. The model is trained on the first examples only in every round, so the instances asked and their order are the same whatever labels are given.", "quantifier": "all data sets, labelling codes, classifiers, uncertainty measures, sort orders among ties and numbers of rounds", "why_tests_cant": "ranges over all labelling codes, points at which they fail and numbers of rounds; independence of the labels compares two whole runs", "anchors": ["examples/AL_settings/labeling_real_data.py:main", "alipy/query_strategy/query_labels.py:QueryInstanceUncertainty.select", "alipy/oracle/knowledge_repository.py:MatrixRepository.update_query", "alipy/index/index_collections.py:IndexCollection.update"]}
{"id": "C113", "title": "Strategies compared on the same folds do not disturb each other", "statement": "In the experiment that compares strategies, which calls its main loop for one strategy and fold after another with one model and one stopping criterion: each call gives exactly the result it would give with a criterion of its own, made at the end of the last call that returned, whatever ran before and wherever earlier calls raised or were interrupted; so unless the criterion is a time limit the result of a strategy on a fold does not depend on the other strategies. All results for a fold have the same initial point and the same first sets. Calls in which nothing raises record each selection and the performance after it, and end at the first step at which the criterion holds; strategies that ask for one instance at a time make equally many queries on a fold. Two calls save to the same file exactly if their strategies have the same class and the same round. With a time limit, a call after one that raised has less time; with a percentage, a fold with an empty pool makes the next call stop before its first query.", "quantifier": "all sequences of calls, strategies, folds, criteria, performance functions, times, and points at which a call raises or is interrupted", "why_tests_cant": "ranges over all sequences of runs and all points of failure; independence compares a run inside a sequence with the run alone", "anchors": ["examples/AL_settings/query_instance.py:main_loop", "alipy/experiment/stopping_criteria.py:StoppingCriteria.reset", "alipy/experiment/stopping_criteria.py:StoppingCriteria.update_information", "alipy/toolbox.py:ToolBox.get_split", "alipy/toolbox.py:ToolBox.get_stateio"]}
{"id": "C114", "title": "The label sets made from lists of indexes", "statement": "A recorder (StateIO) and a threaded experiment (aceThreading) given lists of indexes instead of collections: lists of instance numbers make index collections that hold exactly these numbers, sorted and once each, whatever the labels are. A threaded experiment makes from two non-empty lists of tuples the multi-label collections of its label matrix that hold exactly the pairs the lists stand for, and refuses exactly a label outside of the matrix; so entries of features are refused unless the labels are a matrix with at least as many columns. A recorder reads the number of labels off each of its two lists by itself and cannot be made if one of them names no label; the workspace is then rebuilt, with the sets of the recorded queries, exactly if no recorded label is larger than all labels of the initially labelled list, and otherwise raises. If one list is empty, no multi-label collection is made of the other; a multi-label collection given beside a list of tuples is copied into one that refuses every new pair.", "quantifier": "all lists of indexes, label matrices, mixtures of lists and collections, and histories of recorded queries", "why_tests_cant": "ranges over all lists and all histories of queries recorded afterwards", "anchors": ["alipy/experiment/state_io.py:StateIO.__init__", "alipy/experiment/state_io.py:StateIO.get_workspace", "alipy/utils/multi_thread.py:aceThreading.__init__", "alipy/index/multi_label_tools.py:check_index_multilabel", "alipy/index/index_collections.py:MultiLabelIndexCollection", "alipy/index/index_collections.py:IndexCollection"]}
{"id": "C115", "title": "A threaded experiment over several processes", "statement": "A threaded experiment (aceThreading) that is not interrupted runs every round once, from the record of its own data and with the parameters of the call, and its results are the records of the rounds at their end. Killed while round k is running and recovered in another process: recovering raises exactly if there is no result file for round k, and otherwise the next start runs round k from the record in its file, every round without a file from the beginning, and no other round; for these the record in the file is the result. In a directory without older results this gives the results of the undisturbed experiment, if rounds save at their end and can be resumed. With result files of an earlier experiment in the same directory, rounds that were never run are taken as done and their old records are given as results, and a round that had not saved goes on from the old record. The parameters are not recovered: they are those of the new start. An experiment that has not been started in this process cannot be saved: saving raises and destroys the state file.", "quantifier": "all numbers of rounds, target functions, parameters, saved records, crash rounds, contents of the directory and histories of calls", "why_tests_cant": "ranges over all crash points, all earlier contents of the directory and all target functions", "anchors": ["alipy/utils/multi_thread.py:aceThreading.__init__", "alipy/utils/multi_thread.py:aceThreading.start_all_threads", "alipy/utils/multi_thread.py:aceThreading.save", "alipy/utils/multi_thread.py:aceThreading.recover", "alipy/utils/multi_thread.py:aceThreading.get_results"]}
{"id": "C116", "title": "What the hierarchical cost-sensitive strategy takes for informative", "statement": "QueryCostSensitiveHALC takes the informativeness of an unlabelled pair of an instance and a label from the votes of the five instances nearest to the instance, among all instances of the data and with the instance itself (or five at distance zero), each voting with its known label or with the prediction of the classifier: twice the uncertainty of the pair if the positive votes prevail, the uncertainty plus that of the descendants of the label if the negative ones prevail, and 0 for a tie and for every pair that is not unlabelled. The uncertainty is the weight of the label over the decision value, minus infinity for labelled pairs. With labels 1 and -1 and at least five instances there is no tie; with labels 0 and 1 the negative votes never prevail. The ancestors of a label voted relevant never count. The query returns distinct pairs of the data within the budget, worth at least as much as any other choice among the pairs considered. Weights are accepted only if there are as many as instances, not as classes, and then the query raises IndexError if the classes exceed the instances.", "quantifier": "all features, labels, trees, weights, classifiers, label sets, costs and budgets, and all ways the sort breaks ties", "why_tests_cant": "ranges over all data, all classifiers and all orders of equal distances", "anchors": ["alipy/query_strategy/cost_sensitive.py:QueryCostSensitiveHALC.__init__", "alipy/query_strategy/cost_sensitive.py:QueryCostSensitiveHALC._cal_Distance", "alipy/query_strategy/cost_sensitive.py:QueryCostSensitiveHALC.cal_uncertainty", "alipy/query_strategy/cost_sensitive.py:QueryCostSensitiveHALC.cal_relevance", "alipy/query_strategy/cost_sensitive.py:QueryCostSensitiveHALC.cal_Informativeness", "alipy/query_strategy/cost_sensitive.py:QueryCostSensitiveHALC.select"]}
{"id": "C117", "title": "One classifier per label: what it predicts, and for which labels its outputs agree", "statement": "The multi-label model behind MMC and Adaptive trains one classifier per label, from that label's column alone; only its last training counts, and after a training that failed no prediction succeeds until the next one. Before training, and for another number of features, predictions raise ValueError. A label that is 0, or 1, for all training instances is predicted so for every instance, with certainty. With labels 0 and 1 and an SVC or a logistic regression, predictions and real-valued predictions always succeed and agree: an instance has the label exactly if its value is positive. With labels 1 and -1 they do not: a label that is -1 for all training instances is predicted -1 with probability 1 of being positive and a positive value. A label that all training instances share with a value outside of -2..1 leaves no probabilities and no values, for no label. With any other kind of classifier the real-valued prediction of a mixed label is 0 whatever was learned.", "quantifier": "all training data and label matrices, all base classifiers, all instances predicted and all sequences of trainings", "why_tests_cant": "ranges over all data, all classifiers and all histories of trainings, failed ones among them", "anchors": ["alipy/query_strategy/multi_label.py:DummyClf", "alipy/query_strategy/multi_label.py:_BinaryRelevance.train", "alipy/query_strategy/multi_label.py:_BinaryRelevance.predict", "alipy/query_strategy/multi_label.py:_BinaryRelevance.predict_real", "alipy/query_strategy/multi_label.py:_BinaryRelevance.predict_proba"]}
{"id": "C118", "title": "The progress table of a threaded experiment", "statement": "While a threaded experiment (aceThreading) waits it prints a table. Under every schedule each table has one row for every round, with the number of queries recorded in that round so far and the mean and standard deviation of their performances at the moment of printing, and when the call returns every round that was to be run has ended and the last table shows the complete records. As long as all recorded performances are numbers printing changes nothing: the scheduler goes on exactly as without it. A round that records a performance that is neither a number nor a sequence, or something else after numbers, stops the experiment at the next print: the exception leaves start_all_threads, and whatever the schedule afterwards no further round is started, the state file is not written again and the call does not return.", "quantifier": "all numbers of rounds and thread limits, all interleavings of rounds, scheduler and prints, all recorded states", "why_tests_cant": "ranges over all schedules and all moments at which the refresh interval passes", "anchors": ["alipy/utils/multi_thread.py:aceThreading.__repr__", "alipy/utils/multi_thread.py:aceThreading._if_refresh", "alipy/utils/multi_thread.py:aceThreading.start_all_threads", "alipy/experiment/state_io.py:StateIO.get_current_performance"]}
{"id": "C119", "title": "Query strategies obtained from a toolbox by name", "statement": "ToolBox.get_query_strategy(name, **parameters) finds every documented strategy under its name and passes it the data of the toolbox and exactly the values given for its documented parameters. Every other name is refused with KeyError, except the names of modules and functions exported by the package, which give TypeError. A missing mandatory parameter, or a call that names X or y itself, is refused. A misspelt parameter is refused by the strategies with a fixed list of parameters, and silently ignored by the ten others: the strategy is then the one obtained without it. A toolbox made without features gives no strategy at all, not even the random ones (AttributeError). The initial labelled indexes documented for AUDI cannot be given.", "quantifier": "all names, all toolboxes with or without features, all sets of keyword parameters, all constructors", "why_tests_cant": "ranges over all names and keyword sets, not only the correct ones", "anchors": ["alipy/toolbox.py:ToolBox.get_query_strategy", "alipy/query_strategy/__init__.py", "alipy/query_strategy/query_labels.py", "alipy/query_strategy/cost_sensitive.py", "alipy/query_strategy/multi_label.py", "alipy/query_strategy/noisy_oracles.py", "alipy/query_strategy/query_features.py", "alipy/query_strategy/query_type.py"]}
{"id": "C120", "title": "Label sets, oracles and threaded experiments made by a toolbox", "statement": "ToolBox.MultiLabelIndexCollection makes from a list of index tuples the set of the pairs they stand for, with the label size of the label matrix or of the given shape, and refuses indexes outside it; the one-dimensional indexes its documentation offers are always refused (TypeError), and so is the empty list. get_clean_oracle of a toolbox with a label matrix answers every pair with the label at cost 1, even if costs are given; with examples it uses the costs but never answers a question by example; for features it answers with the features at the given costs. get_ace_threading gives one round per fold, with the training and testing instances and exactly the labelled and unlabelled instances or pairs of that fold, and as many threads as folds or as given; it is refused without features, without a split, with no thread, with a function that lacks a parameter, and for feature querying with one label per instance.", "quantifier": "all label matrices, index lists, shapes, costs, questions, splits and thread limits", "why_tests_cant": "ranges over all data, splits and questions", "anchors": ["alipy/toolbox.py:ToolBox.MultiLabelIndexCollection", "alipy/toolbox.py:ToolBox.get_clean_oracle", "alipy/toolbox.py:ToolBox.get_ace_threading", "alipy/utils/multi_thread.py:aceThreading.__init__"]}
{"id": "C121", "title": "The history a repository prints lists every query, but its costs and total may disagree", "statement": "full_history of a repository has one column for every query that was accepted since the repository was last cleared, in order, headed 0, 1, 2, ..., with the indexes, the responses and the costs given (a single one without brackets), and a last column with their number and the total cost. In an ElementRepository the total is the sum of the costs shown, unless entries were added by add, whose costs are in the total and in no column. In a MatrixRepository the total has the costs of the entries stored: a query about known indexes shows costs that are not in the total, and a query that fails for want of an example has no column although its first index is stored and paid for. A cleared MatrixRepository can never be used again.", "quantifier": "all initial data, all histories of add, update_query, discard and clear calls, all ways of printing values", "why_tests_cant": "ranges over all histories of calls", "anchors": ["alipy/oracle/knowledge_repository.py:ElementRepository.full_history", "alipy/oracle/knowledge_repository.py:MatrixRepository.full_history", "alipy/oracle/knowledge_repository.py:MatrixRepository.clear", "alipy/utils/interface.py:BaseRepository.__getitem__"]}
{"id": "C122", "title": "BMDR and SPAL do not depend on the names of the two classes", "statement": "For two labellings of the data that divide the instances into the same two classes, whatever the classes are called and whichever is larger: either both are accepted by QueryInstanceBMDR and QueryInstanceSPAL or neither, and select returns the same instances for both, although the code turns the smaller label into 1 and keeps -1 and 1 as they are. This needs a positive rho for BMDR, and routines that look at the numbers only and solve a linear system with the opposite right side by the opposite solution.", "quantifier": "all data, kernels, pairs of labellings, index sets, batch sizes and parameters; all solvers and numerical routines meeting the stated conditions", "why_tests_cant": "compares two runs for every pair of labellings", "anchors": ["alipy/query_strategy/query_labels.py:QueryInstanceBMDR.__init__", "alipy/query_strategy/query_labels.py:QueryInstanceBMDR.select", "alipy/query_strategy/query_labels.py:QueryInstanceSPAL.select"]}
{"id": "C123", "title": "Metrics do not depend on the order of the instances or labels, the scale of the scores or the names of the classes", "statement": "Handing the same instances to accuracy, zero-one loss, hamming loss, one error, coverage error, ranking loss, label ranking average precision, average precision or micro AUC in another order (every instance keeping its labels, its prediction and its weight) gives the same figure, or the same exception. Taking the label columns in another order gives the same figure too, for average precision only as long as no two labels of an instance have the same score (with ties it is refuted). Coverage error, ranking loss, label ranking average precision and average precision depend only on the order of each instance's scores, so any increasing change of scale of an instance's scores leaves them as they are; micro AUC has this per label but not per instance (refuted). Accuracy, zero-one loss and hamming loss do not depend on the names of the classes as long as different classes get different names; the multi-label figures do, because 0 means irrelevant (refuted).", "quantifier": "all label vectors and rectangular matrices, all predictions and scores, all weights, all permutations of instances and of columns, all increasing functions and all injective renamings", "why_tests_cant": "It compares two calls on all pairs of inputs related by an arbitrary permutation, rescaling or renaming; tests can only try a few.", "anchors": ["alipy/metrics/performance.py: accuracy_score, zero_one_loss, hamming_loss, one_error, coverage_error, label_ranking_loss, label_ranking_average_precision_score, micro_auc_score, average_precision_score, check_consistent_length, type_of_target, _check_targets"]}
{"id": "C124", "title": "Selections from different pools and with different batch sizes agree, up to ties", "statement": "For uncertainty sampling (least confident, margin, entropy, distance to the boundary), for committees by vote entropy and for scores that depend on the instance alone, a selected instance is selected again from every part of the pool that still contains it and with every batch size that is smaller by at most the number of the selected instances taken away, unless an instance selected instead has exactly the same score. So without ties the order of the unlabelled pool does not matter, a larger batch contains every smaller one, instances that were not selected may leave the pool without changing the selection, and selecting in two calls gives the same batch as selecting in one. With ties the order of the pool decides (refuted). Density weighting does not have the property, even without ties (refuted).", "quantifier": "all predictions, pools, sub-pools, batch sizes, committees and scores, and every way numpy breaks ties", "why_tests_cant": "It relates two calls on every pair of pools and batch sizes; tests can compare only a few pairs.", "anchors": ["alipy/query_strategy/query_labels.py: QueryInstanceUncertainty.select_by_prediction_mat, QueryInstanceQBC.select_by_prediction_mat, QueryInstanceQBC.calc_vote_entropy, QueryInstanceLAL.select, QueryInstanceDensityWeighted.select", "alipy/utils/misc.py: nlargestarg, nsmallestarg"]}
{"id": "C125", "title": "A batch gives the same as its parts one after the other", "statement": "Updating (or reducing) an index collection or a multi-label collection with a list, cut anywhere in two, succeeds exactly if doing it with the first and then the second part does, and gives the same collection and the warnings of both. Asking an oracle, by indexes or examples, for a batch gives the answers and costs of the parts joined, and fails exactly if one part does. Teaching an oracle a batch leaves it as teaching the parts does, and stops at the same entry with the same exception; but an example of a single feature is refused when it is taught alone and accepted in a list (refuted). Asking through a pool of oracles costs the same in one call as in two. Recording a batch in either kind of repository leaves the same labels, indexes, examples and costs as recording its parts; only the number of queries and the history differ.", "quantifier": "all states, all batches and all places to cut them, with and without examples and costs", "why_tests_cant": "It compares two ways of calling for every state, batch and cut.", "anchors": ["alipy/index/index_collections.py: IndexCollection.update, IndexCollection.difference_update, MultiLabelIndexCollection.update, MultiLabelIndexCollection.difference_update", "alipy/oracle/oracle.py: Oracle.query_by_index, Oracle.query_by_example, Oracle.add_knowledge, Oracles.query_from", "alipy/oracle/knowledge_repository.py: ElementRepository.update_query, MatrixRepository.update_query"]}
{"id": "C126", "title": "The analyser's figures do not depend on the order of the folds, except the start point", "statement": "Giving the folds of a method to the experiment analyser in another order, as saved runs, as lists of performances or as lists of (costs, performance), changes neither the number of queries, nor the number of folds, nor the mean, nor the variance, nor the reported batch size; the recorded costs are the same up to the order; and the learning curves drawn from them are the same. The reported start point is not one of these figures: it is that of the fold given last, so exchanging two runs whose initial points differ changes it (refuted).", "quantifier": "all runs and tables of performances, all orders of the folds, any number of methods, intervals and shifts", "why_tests_cant": "It compares two analyses for every table and every permutation of its rows.", "anchors": ["alipy/experiment/experiment_analyser.py: StateIOContainer, ExperimentAnalyser.add_method, _ContentSummary, plot_learning_curves"]}
{"id": "C127", "title": "Selections do not depend on the names and order of the classes, of the committee and of the pool", "statement": "Uncertainty sampling (least confident, margin, entropy) on predictions whose rows list the classes in another order, distance-to-boundary sampling with the two classes exchanged, committees by vote entropy with the classes renamed and the members in another order, and committees by divergence with the classes and the members in another order select, from the same pool listed in any order, equally many instances, and whatever only one of them selects is tied in its score with something only the other selects; without ties they select the same instances.", "quantifier": "all pools and their orders, predictions, committees, permutations and renamings of the classes, batch sizes, and all ways numpy may break ties", "why_tests_cant": "It compares two selections for every prediction and every renaming.", "anchors": ["alipy/query_strategy/query_labels.py: QueryInstanceUncertainty.select_by_prediction_mat, QueryInstanceQBC.select_by_prediction_mat, QueryInstanceQBC.calc_vote_entropy, QueryInstanceQBC.calc_avg_KL_divergence"]}
{"id": "C128", "title": "What a data split depends on: the shuffles and the sizes, not the data, the names or the number of folds", "statement": "Without all_class, splitting any data, labels and instance names gives, for the same shuffles, the split of so many positions with the names in place of the positions, or the same exception; with all_class this fails for named instances (refuted). Renaming the classes never changes a split. Asking for more folds does not change the first ones, in the plain, multi-label and feature splits, and an exception or endless search stays one. Without all_class every fold is made from its own shuffle alone. The entries of a feature matrix never matter, those of a label matrix only with all_class.", "quantifier": "all data, labels, names, ratios, numbers of folds and shuffles", "why_tests_cant": "It compares two calls for every input and every shuffle.", "anchors": ["alipy/data_manipulate/al_split.py: split, split_multi_label, split_features, __split_data_matrix"]}
{"id": "C129", "title": "The order in which entries about different indexes are given does not matter", "statement": "Calls that teach an oracle about different indexes can be made in any order: every later query has the same answer or the same exception. The entries of one call can be listed in any order when all of them are acceptable and their indexes differ; with an unacceptable entry the order does matter (refuted). The rows given to the constructor can be listed in any order when their indexes differ. The same holds of the calls to an element repository (what it retrieves and contains) and, for acceptable values, of the calls to an index collection and of the values of one update (the same elements, possibly listed in another order); with values of two types the first one decides (refuted).", "quantifier": "all oracles, repositories and collections that can arise, all histories and their reorderings, all queries", "why_tests_cant": "It compares every reordering of every history.", "anchors": ["alipy/oracle/oracle.py: Oracle.__init__, Oracle.add_knowledge, Oracle.query_by_index", "alipy/oracle/knowledge_repository.py: ElementRepository", "alipy/index/index_collections.py: IndexCollection.update, difference_update"]}
{"id": "C130", "title": "An experiment depends only on the labels it has bought, and not before it has bought them", "statement": "With a strategy that sees the labels of labelled instances only, and a performance that comes from the labels the model was fitted to and those of the test instances: two labellings that agree on the initially labelled, the test and all queried instances give the same experiment, fold by fold and as a whole, with the same queries, performances and end. If they agree on the first t queries of a run only, the first t records of the two runs are the same, and so is the query after them, or both stop there. Uncertainty sampling on the array of all labels is such a strategy. Folds run in threads do not have this property: they share the model, so that the record of a fold can depend on a label that only another fold has bought (refuted). In the multi-label main loop two tables of labels that agree on the entries labelled at the end give the same experiment, also when it ends by an exception.", "quantifier": "all labellings, strategies and performances of that kind, folds, stopping criteria, clocks and numbers of queries", "why_tests_cant": "It compares whole runs for every pair of labellings.", "anchors": ["alipy/experiment/al_experiment.py: start_query, __al_main_loop", "alipy/query_strategy/query_labels.py: QueryInstanceUncertainty.select"]}
{"id": "C131", "title": "The ranking measures agree on what a perfect ranking is, and look only at the order of the scores", "statement": "For every label matrix with two values and every score matrix of its shape, these say the same: every row scores its relevant labels above its irrelevant ones; the ranking loss is 0; the average precision is 1; the coverage error is the average number of relevant labels (below which it never goes). The area under the ROC curve of a score vector is 1 exactly when every positive sample is scored above every negative one. Replacing the scores by others that order the labels of each row alike, ties included, changes none of the three row-wise measures, weighted or not. The Hamming loss of a vector of predictions is one minus its accuracy; for a matrix with m labels the share of wrong rows lies between the Hamming loss and m times it.", "quantifier": "all label and score matrices with at least one row and two columns, all label and score vectors, all weights", "why_tests_cant": "The agreement ranges over all rankings, with ties, in tables of any size.", "anchors": ["alipy/metrics/performance.py: label_ranking_loss, label_ranking_average_precision_score, coverage_error, roc_auc_score"]}
{"id": "C132", "title": "An experiment with a higher limit continues the one with the lower limit", "statement": "Two finished runs of a fold with the same strategy and model, whatever their stopping criteria and clocks, record the same initial performance, and the record of one is the beginning of the record of the other: the criterion decides when to stop and nothing else. With two limits of one kind (queries, cost, percentage of the unlabelled data, time on the same clock) the higher one gives the longer record, for every fold of a whole experiment.", "quantifier": "all strategies, performances, folds, criteria, limits, clocks and run lengths", "why_tests_cant": "It compares whole runs for every pair of limits.", "anchors": ["alipy/experiment/al_experiment.py: start_query, __al_main_loop", "alipy/experiment/stopping_criteria.py: StoppingCriteria"]}
{"id": "C133", "title": "The matrix completion of AFASMC follows the gradient and its step size search ends", "statement": "At every step of the search of AFASMC_mc and AFASMC_mask_mc, whatever linear models the rounds fit and whatever the earlier thresholdings returned, the direction taken is the gradient, at the extrapolated point, of half the squared error on the observed entries plus lambda2/n times the squared error of the linear model. The array a step keeps is the thresholding of a gradient step of size 1/L, the loss there is at most the quadratic model with that L, and the value compared between the steps is the loss plus lambda1 times the reported trace norm. The doubling of L ends for every lambda2 >= 0 and every thresholding function, with L at most twice 1 + 2 (lambda2/n) |w|^2 unless it was larger before, so the completion does not hang. When the thresholding is the minimiser it stands for, a step never raises the objective above its value at the point it starts from.", "quantifier": "all data, masks, labels, trade-offs, linear models, thresholding functions, square root functions and numbers of steps", "why_tests_cant": "The bound on the step size and the gradient identity are inequalities over all real arrays and all runs; a test checks one data set, and a search that hangs cannot be observed to hang.", "anchors": ["alipy/query_strategy/query_features.py: AFASMC_mask_mc, AFASMC_mc, _svd_threshold"]}
{"id": "C134", "title": "The core-set selection covers the data at least half as tightly as the best one", "statement": "Let the distance of the training points be a metric. After any number of calls of QueryInstanceCoresetGreedy.select on one object, with any batch sizes, each answer being labelled before the next call: if some choice of at most as many points, together with the initially labelled ones, has every training point within r of a labelled point, then the points the strategy labelled have every training point within 2r. It is not the tightest choice, and the factor 2 is attained.", "quantifier": "all training sets, metrics, initial labelled sets, numbers of calls, batch sizes and competing choices", "why_tests_cant": "The guarantee compares with every other choice of points, over all histories of calls.", "anchors": ["alipy/query_strategy/query_labels.py: QueryInstanceCoresetGreedy.select, update_distances"]}
{"id": "C135", "title": "Scaled data and the units of the columns", "statement": "minmax_scale gives the same result whatever unit and zero point each column is written in; a unit that counts downwards mirrors the column in the middle of the range. StandardScale does not: it divides by the variance, so a column written with values a times as large comes out divided by a.", "quantifier": "all matrices, columns, units, zero points and target ranges", "why_tests_cant": "It compares the results for every pair of data sets that differ by units.", "anchors": ["alipy/data_manipulate/datapreprocess.py: minmax_scale, StandardScale"]}
{"id": "C136", "title": "Uncertainty measures for two classes", "statement": "With two classes QueryInstanceUncertainty takes the instances whose probability is closest to one half, whether it is asked for least_confident, margin or entropy. So these measures select the same instances when no two are equally uncertain, and distance_to_boundary selects them too when the decision values grow with the distance of the probability from one half. With three classes least_confident and margin can select different instances. Because zeros are replaced by a millionth, entropy can prefer an instance predicted with certainty to one predicted with a probability just below one.", "quantifier": "all pools, predictions of two classes without zeros, batch sizes smaller than the pool, and ways of breaking ties", "why_tests_cant": "It relates the selections of different measures on every prediction.", "anchors": ["alipy/query_strategy/query_labels.py: QueryInstanceUncertainty.select_by_prediction_mat"]}
{"id": "C137", "title": "What more than half of the oracles say wins the vote", "statement": "If more than half of the answers are the same, majority_vote returns this answer with its number of votes whatever the others are, so get_majority_vote returns the right label when more than half of the oracles know it, with the sum of all costs. The order of the answers never changes the number of votes of the winner, and changes the winner only if another answer has as many; one more vote for the winner keeps it. With half of the votes the order decides.", "quantifier": "all lists of answers and oracles, labels, and orders", "why_tests_cant": "It ranges over every set of answers, whatever the minority says.", "anchors": ["alipy/query_strategy/noisy_oracles.py: majority_vote, get_majority_vote, get_query_results"]}
{"id": "C138", "title": "Selections and the unit of the distances", "statement": "QueryInstanceCoresetGreedy looks only at the order of the distances: measured in another unit, or squared, they lead to the same answers and exceptions in every series of calls; ties made by the measurement can change them. QueryInstanceDensityWeighted with distances in another unit selects a batch that is also best for the distances as they were, for every power.", "quantifier": "all data, distances, order-preserving measurements, series of calls, units and powers", "why_tests_cant": "It compares two selectors over every history of calls.", "anchors": ["alipy/query_strategy/query_labels.py: QueryInstanceCoresetGreedy, QueryInstanceDensityWeighted"]}
