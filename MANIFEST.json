{
 "claims": [
  {
   "property": "C01",
   "status": "proved",
   "theorems": [
    "C01_set_semantics",
    "C01_order_of_add",
    "C01_order_of_discard",
    "C01_update_one_by_one",
    "C01_difference_update_one_by_one",
    "C01_pop"
   ],
   "note": "Elements are ints/strs (native or numpy scalars). Set semantics for well-typed histories; order, one-by-one update and pop for arbitrary ones."
  },
  {
   "property": "C02",
   "status": "proved",
   "theorems": [
    "C02_construction",
    "C02_construction_mixed",
    "C02_empty_and_copy"
   ],
   "note": "np.unique and numpy's int/str coercion are modelled; other element types are not."
  },
  {
   "property": "C03",
   "status": "proved",
   "theorems": [
    "C03_homogeneous",
    "C03_rejections",
    "C03_type_fixed",
    "C03_numpy_poisoning"
   ],
   "note": "Includes the numpy-scalar poisoning of an untyped collection."
  },
  {
   "property": "C04",
   "status": "proved",
   "theorems": [
    "C04_random_sampling",
    "C04_round"
   ],
   "note": "rate is an exact rational; floating-point error of rate*len is not modelled."
  },
  {
   "property": "C05",
   "status": "proved",
   "theorems": [
    "C05_one_call",
    "C05_history",
    "C05_only_pairs",
    "C05_construction",
    "C05_upper_bound",
    "C05_negative_label_stored_refuted",
    "C05_add_label_tuple_refuted",
    "C05_copy",
    "C05_feature_construction"
   ],
   "note": "Calls outside the set semantics (negative label, label tuple given to add, copies) have their own exact theorems."
  },
  {
   "property": "C06",
   "status": "proved",
   "theorems": [
    "C06_flatten",
    "C06_flatten_denotes",
    "C06_integrate",
    "C06_flatten_integrate",
    "C06_integrate_out_of_range_refuted",
    "C06_inferred_label_size",
    "C06_inferred_from_lists",
    "C06_inferred_mixed",
    "C06_inferred_whole",
    "C06_integrate_refused"
   ],
   "note": "Holds for in-range labels; the out-of-range case is refuted with a witness family."
  },
  {
   "property": "C07",
   "status": "proved",
   "theorems": [
    "C07_onedim",
    "C07_construct",
    "C07_roundtrip",
    "C07_out_of_range",
    "C07_bad_arguments"
   ],
   "note": "np.unravel_index modelled as div/mod with range check."
  },
  {
   "property": "C08",
   "status": "proved",
   "theorems": [
    "C08_dense_mask",
    "C08_mask_roundtrip",
    "C08_mask_rejected",
    "C08_sparse_mask_refuted"
   ],
   "note": "Sparse (default) masks are proved to be all zero; dense ones faithful."
  },
  {
   "property": "C09",
   "status": "proved",
   "theorems": [
    "C09_labelmatrix",
    "C09_rejections",
    "C09_no_index",
    "C09_get_Xy",
    "C09_get_Xy_lengths"
   ],
   "note": "Negative instance numbers (numpy wrap-around) are in the model but outside the theorem."
  },
  {
   "property": "C10",
   "status": "proved",
   "theorems": [
    "C10_instances"
   ],
   "note": ""
  },
  {
   "property": "C11",
   "status": "proved",
   "theorems": [
    "C11_instance_wise",
    "C11_rejection",
    "C11_multi_label",
    "C11_label_size_refuted",
    "C11_plain_list_refuted"
   ],
   "note": "Element comparison of a plain Python list with a native int is modelled (always fails)."
  },
  {
   "property": "C12",
   "status": "proved",
   "theorems": [
    "C12_last_write",
    "C12_untouched",
    "C12_protected_keys",
    "C12_outcomes",
    "C12_queried_labels_protected_refuted",
    "C12_batch_size"
   ],
   "note": "queried labels can be deleted (protected name differs from the stored one): refuted clause stated separately."
  },
  {
   "property": "C13",
   "status": "proved",
   "theorems": [
    "C13_workspace",
    "C13_conservation",
    "C13_multi_label",
    "C13_iteration_argument",
    "C13_dict_state_refuted",
    "C13_tuple_lists_refuted"
   ],
   "note": "Proved for IndexCollection and for multi-label collections with a common label size; dict states and tuple-list construction are refuted."
  },
  {
   "property": "C14",
   "status": "proved",
   "theorems": [
    "C14_rollback",
    "C14_failed_rollback",
    "C14_continuation"
   ],
   "note": "For any collection class."
  },
  {
   "property": "C15",
   "status": "proved",
   "theorems": [
    "C15_totals_after_adds",
    "C15_refresh",
    "C15_stale_refuted"
   ],
   "note": "Costs up to rational equality; staleness witnessed."
  },
  {
   "property": "C16",
   "status": "proved",
   "theorems": [
    "C16_check_batch_size",
    "C16_all_batches_equal_refuted"
   ],
   "note": "Exact: last state ignored."
  },
  {
   "property": "C17",
   "status": "proved",
   "theorems": [
    "C17_load_last_save",
    "C17_save_every_add",
    "C17_crash_in_save_refuted",
    "C17_file_names"
   ],
   "note": "Disk model: truncating open, then one write."
  },
  {
   "property": "C18",
   "status": "proved",
   "theorems": [
    "C18_decision",
    "C18_update_succeeds",
    "C18_initial",
    "C18_bad_configuration",
    "C18_monotone",
    "C18_monotone_querying",
    "C18_reset"
   ],
   "note": "The count is that of the recorded states; percent with an empty initial pool raises."
  },
  {
   "property": "C19",
   "status": "proved",
   "theorems": [
    "C19_main_loop",
    "C19_cost_limit_refuted",
    "C19_num_of_queries"
   ],
   "note": "Strategy and clock are arbitrary; model fitting is abstracted into the strategy and performance functions."
  },
  {
   "property": "C20",
   "status": "proved",
   "theorems": [
    "C20_answers",
    "C20_unknown_index",
    "C20_last_write",
    "C20_outcomes",
    "C20_construction"
   ],
   "note": "Unknown indexes raise TypeError (broken message formatting). Labels are ints or strings; float labels not modelled."
  },
  {
   "property": "C21",
   "status": "proved",
   "theorems": [
    "C21_by_example",
    "C21_refused",
    "C21_same_as_index",
    "C21_multilabel_refuted",
    "C21_multilabel_errors"
   ],
   "note": "Holds for Oracle; for the multi-label oracle query_by_example always fails (refuted clause)."
  },
  {
   "property": "C22",
   "status": "proved",
   "theorems": [
    "C22_answers",
    "C22_answered",
    "C22_no_overwrite",
    "C22_new_entry",
    "C22_list_costs_refuted",
    "C22_scalar_range"
   ],
   "note": "Costs given as nested lists are accepted but make queries fail (refuted clause)."
  },
  {
   "property": "C23",
   "status": "proved",
   "theorems": [
    "C23_accounting",
    "C23_failed_query",
    "C23_answers",
    "C23_report"
   ],
   "note": "Pools of single-label oracles; the randomly drawn oracle name is an arbitrary argument."
  },
  {
   "property": "C24",
   "status": "proved",
   "theorems": [
    "C24_getitem_refuted",
    "C24_retrieve",
    "C24_contains",
    "C24_training",
    "C24_training_fresh",
    "C24_duplicate_refuted",
    "C24_accounting",
    "C24_by_example",
    "C24_clear",
    "C24_clear_refuted"
   ],
   "note": "Adding a stored index again, then discarding it, breaks get_training_data; clear() fails without examples (refuted clauses, exact). full_history and printing not modelled."
  },
  {
   "property": "C25",
   "status": "proved",
   "theorems": [
    "C25_getitem_refuted",
    "C25_construction",
    "C25_aligned",
    "C25_successful",
    "C25_without_examples",
    "C25_retrieve",
    "C25_bare_index_refuted",
    "C25_missing_example_refuted",
    "C25_costs",
    "C25_history",
    "C25_retrieve_by_examples",
    "C25_broadcast_refuted"
   ],
   "note": "Aligned for every history of successful calls; a refused example-less add breaks alignment, a bare index of row 0 warns, one-element examples are broadcast (refuted clauses)."
  },
  {
   "property": "C26",
   "status": "proved",
   "theorems": [
    "C26_majority_vote",
    "C26_failures",
    "C26_weights_ignored",
    "C26_vote_of_list",
    "C26_vote_of_list_total",
    "C26_vote_of_pool"
   ],
   "note": ""
  },
  {
   "property": "C27",
   "status": "proved",
   "theorems": [
    "C27_partition",
    "C27_disjoint",
    "C27_returns",
    "C27_rejects"
   ],
   "note": "Permutations drawn are arbitrary arguments; ratios are exact rationals."
  },
  {
   "property": "C28",
   "status": "proved",
   "theorems": [
    "C28_sizes",
    "C28_proportions",
    "C28_validation_refuted"
   ],
   "note": "Exact sizes for all ratios; the absence of any ratio check is stated as a refuted clause."
  },
  {
   "property": "C29",
   "status": "proved",
   "theorems": [
    "C29_all_classes",
    "C29_named",
    "C29_all_labels",
    "C29_rejected",
    "C29_hangs_refuted",
    "C29_signs_refuted",
    "C29_names_refuted"
   ],
   "note": "Holds for position-named instances and non-negative label matrices; -1/1 labels, other names and the non-terminating case are refuted clauses."
  },
  {
   "property": "C30",
   "status": "proved",
   "theorems": [
    "C30_multi",
    "C30_multi_sizes",
    "C30_multi_cover",
    "C30_multi_returns",
    "C30_multi_rejects",
    "C30_multi_hangs_refuted",
    "C30_multi_shape_refuted",
    "C30_features",
    "C30_features_sizes",
    "C30_features_retry_refuted",
    "C30_features_rejects"
   ],
   "note": "Sizes after a retry differ (features) and a retry may never succeed (multi-label): refuted clauses."
  },
  {
   "property": "C31",
   "status": "proved",
   "theorems": [
    "C31_round_trip",
    "C31_exact",
    "C31_single_fold_refuted",
    "C31_tuples_refuted",
    "C31_tuples_kept",
    "C31_stale_refuted",
    "C31_strings_refuted",
    "C31_frame"
   ],
   "note": "Text printing and parsing of integers is trusted; the directory is a finite map."
  },
  {
   "property": "C32",
   "status": "proved",
   "theorems": [
    "C32_distinct",
    "C32_all",
    "C32_every_outcome",
    "C32_rejects",
    "C32_negative_refuted",
    "C32_positions"
   ],
   "note": "The shuffled array is an arbitrary argument; negative k is accepted (refuted clause)."
  },
  {
   "property": "C33",
   "status": "proved",
   "theorems": [
    "C33_largest",
    "C33_smallest",
    "C33_too_many_refuted",
    "C33_rejects"
   ],
   "note": "argsort is an arbitrary sorting permutation; n beyond the length is a refuted clause for nlargestarg."
  },
  {
   "property": "C34",
   "status": "proved",
   "theorems": [
    "C34_one_to_one",
    "C34_mixed",
    "C34_unpack"
   ],
   "note": ""
  },
  {
   "property": "C35",
   "status": "proved",
   "theorems": [
    "C35_range",
    "C35_formula",
    "C35_idempotent",
    "C35_rejects",
    "C35_vector"
   ],
   "note": "Exact rationals, no NaN entries."
  },
  {
   "property": "C36",
   "status": "proved",
   "theorems": [
    "C36_centred",
    "C36_unit_variance_refuted",
    "C36_constant"
   ],
   "note": "Exact rationals; the documented unit variance is a refuted clause."
  },
  {
   "property": "C37",
   "status": "proved",
   "theorems": [
    "C37_vectors",
    "C37_matrices",
    "C37_weighted",
    "C37_column",
    "C37_loss",
    "C37_count_refuted",
    "C37_rejects"
   ],
   "note": "Integer labels, exact rationals. normalize=False does not count errors (refuted clause)."
  },
  {
   "property": "C38",
   "status": "proved",
   "theorems": [
    "C38_vectors",
    "C38_matrices",
    "C38_metric",
    "C38_column_refuted",
    "C38_values_refuted",
    "C38_rows_refuted",
    "C38_rejects"
   ],
   "note": "Broadcast of a column against a vector and multi-valued matrices are refuted clauses."
  },
  {
   "property": "C39",
   "status": "proved",
   "theorems": [
    "C39_counts",
    "C39_totals",
    "C39_distinct_refuted",
    "C39_rejects"
   ],
   "note": "Repeated thresholds for equal scores and failure on Python lists are stated."
  },
  {
   "property": "C40",
   "status": "proved",
   "theorems": [
    "C40_pairs",
    "C40_range",
    "C40_monotone",
    "C40_reversed",
    "C40_reorder",
    "C40_curve",
    "C40_rejects"
   ],
   "note": "Stable argsort modelled by insertion sort; pair counting holds for any tie pattern."
  },
  {
   "property": "C41",
   "status": "proved",
   "theorems": [
    "C41_ranking_loss",
    "C41_range",
    "C41_rejects"
   ],
   "note": "Exact rationals; np.average, csr_matrix and bincount as documented."
  },
  {
   "property": "C42",
   "status": "proved",
   "theorems": [
    "C42_coverage",
    "C42_range",
    "C42_rejects",
    "C42_signs_refuted"
   ],
   "note": "-1 labels count as relevant (refuted clause)."
  },
  {
   "property": "C43",
   "status": "proved",
   "theorems": [
    "C43_precision",
    "C43_weights_refuted",
    "C43_rejects"
   ],
   "note": "Weighted trivial rows are a refuted clause with exact characterisation."
  },
  {
   "property": "C44",
   "status": "proved",
   "theorems": [
    "C44_row_sums",
    "C44_meaning_refuted",
    "C44_rejects"
   ],
   "note": "The documented meaning is refuted; the exact value is proved."
  },
  {
   "property": "C45",
   "status": "proved",
   "theorems": [
    "C45_limit",
    "C45_once",
    "C45_complete",
    "C45_terminates",
    "C45_foreign_threads_refuted",
    "C45_second_start_refuted",
    "C45_checks"
   ],
   "note": "All interleavings of scheduler and round threads; termination under fair schedules; foreign threads and a second start are refuted clauses."
  },
  {
   "property": "C46",
   "status": "proved",
   "theorems": [
    "C46_exact",
    "C46_state_file",
    "C46_finished",
    "C46_reruns",
    "C46_settled_crash",
    "C46_unsettled_crash_refuted",
    "C46_unsaved_round_refuted",
    "C46_failed_round_refuted",
    "C46_second_crash_refuted"
   ],
   "note": "Pickle formats trusted; the round function may save, raise or return at any time. Four loss scenarios are refuted clauses."
  },
  {
   "property": "C47",
   "status": "proved",
   "theorems": [
    "C47_members",
    "C47_uncertainty",
    "C47_boundary",
    "C47_scores",
    "C47_density_weighted",
    "C47_density_weighted_oversize_refuted",
    "C47_rejects",
    "C47_batches",
    "C47_select"
   ],
   "note": "numpy argsort and partition by contract, any tie-breaking; classifier outputs given. Density weighting with a batch above |U| is a refuted clause."
  },
  {
   "property": "C48",
   "status": "proved",
   "theorems": [
    "C48_margin",
    "C48_least",
    "C48_order",
    "C48_ranking",
    "C48_documented_refuted"
   ],
   "note": "The documented direction of the margin is refuted."
  },
  {
   "property": "C49",
   "status": "proved",
   "theorems": [
    "C49_flat",
    "C49_instances",
    "C49_any",
    "C49_iterable_refuted",
    "C49_multi_label",
    "C49_whole_instances_refuted"
   ],
   "note": "All shuffles. Lists and arrays, and whole instances counted by pairs, are refuted clauses."
  },
  {
   "property": "C50",
   "status": "proved",
   "theorems": [
    "C50_rounds",
    "C50_oversize_refuted",
    "C50_rejects"
   ],
   "note": "Distances above -100. A batch above |U| is a refuted clause."
  },
  {
   "property": "C51",
   "status": "proved",
   "theorems": [
    "C51_select",
    "C51_rest",
    "C51_history"
   ],
   "note": "The densities and the graph are arbitrary; loop fuel of batch size suffices."
  },
  {
   "property": "C52",
   "status": "proved",
   "theorems": [
    "C52_budget",
    "C52_more_items",
    "C52_currency",
    "C52_unit",
    "C52_optimal",
    "C52_ties",
    "C52_domain",
    "C52_order",
    "C52_order_refuted"
   ],
   "note": "Exact rationals; -infinity values allowed. Which of several best choices is returned is fully determined."
  },
  {
   "property": "C53",
   "status": "proved",
   "theorems": [
    "C53_budget",
    "C53_best",
    "C53_population",
    "C53_total",
    "C53_free_items_refuted",
    "C53_knapsack",
    "C53_reaches",
    "C53_longer"
   ],
   "note": "Every sequence of parents and masks; exact rationals. Zero-cost sets are never selected (refuted clause)."
  },
  {
   "property": "C54",
   "status": "proved",
   "theorems": [
    "C54_exact",
    "C54_caller",
    "C54_rejects",
    "C54_transitive_refuted"
   ],
   "note": "Arguments after conversion to collections. One level only (refuted clause); in-place update of a passed collection stated."
  },
  {
   "property": "C55",
   "status": "proved",
   "theorems": [
    "C55_budget",
    "C55_outcome",
    "C55_costs"
   ],
   "note": "Class costs given or default; the oracle path is left out."
  },
  {
   "property": "C56",
   "status": "proved",
   "theorems": [
    "C56_choice",
    "C56_single",
    "C56_wrong_width"
   ],
   "note": "argsort by contract; the scores of the label ranking model are arbitrary, NaN included for the pair claim. Scores for another number of classes are rejected (stated)."
  },
  {
   "property": "C57",
   "status": "proved",
   "theorems": [
    "C57_not_a_number",
    "C57_afasmc",
    "C57_by_mask",
    "C57_by_mask_rejects",
    "C57_one_left",
    "C57_unknown_ignored_refuted",
    "C57_plain_list_refuted",
    "C57_outside",
    "C57_stability",
    "C57_stability_rejects",
    "C57_random",
    "C57_known_refuted"
   ],
   "note": "The search steps of AFASMC and the truncated SVD are arbitrary functions of the observed part / of their argument giving matrices of the right shape. The general claim that unobserved entries are returned is refuted for zero variance."
  },
  {
   "property": "C58",
   "status": "proved",
   "theorems": [
    "C58_extract",
    "C58_extract_many",
    "C58_container",
    "C58_summary",
    "C58_mixed_refuted",
    "C58_lists",
    "C58_pairs",
    "C58_same_mean",
    "C58_std_refuted",
    "C58_cost_curves",
    "C58_shared_start_refuted",
    "C58_not_numbers",
    "C58_mixed_lists",
    "C58_zero_interval",
    "C58_no_data_refuted",
    "C58_unfit"
   ],
   "note": "np.std is represented by its square; the interpolation is an arbitrary function of axis, values and point. Mixing runs, the deviation and the shared start point are refuted clauses. Inputs that are not numbers, mixed lists and zero intervals are characterised."
  },
  {
   "property": "C59",
   "status": "proved",
   "theorems": [
    "C59_kept",
    "C59_split_again",
    "C59_get",
    "C59_get_single",
    "C59_get_multi",
    "C59_unsplit",
    "C59_first_single",
    "C59_first_multi",
    "C59_given",
    "C59_returned_refuted",
    "C59_shared_refuted"
   ],
   "note": "Lists, arrays, views and collections live in an explicit heap, so sharing is visible. The claim covers what get_split returns; for the lists returned by split_AL or given to the constructor it is refuted."
  },
  {
   "property": "C60",
   "status": "proved",
   "theorems": [
    "C60_classes",
    "C60_one_sided",
    "C60_ties_refuted"
   ],
   "note": ""
  },
  {
   "property": "C61",
   "status": "proved",
   "theorems": [
    "C61_precision",
    "C61_trivial_refuted",
    "C61_ties_refuted",
    "C61_range"
   ],
   "note": "0/1 labels."
  },
  {
   "property": "C62",
   "status": "proved",
   "theorems": [
    "C62_curve"
   ],
   "note": ""
  },
  {
   "property": "C63",
   "status": "proved",
   "theorems": [
    "C63_select",
    "C63_small_refuted",
    "C63_batch_refuted"
   ],
   "note": "argsort with any tie-breaking; the model's decision values are arbitrary."
  },
  {
   "property": "C64",
   "status": "proved",
   "theorems": [
    "C64_select",
    "C64_labelled_refuted"
   ],
   "note": "The known labels defect is a refuted clause with an exact condition."
  },
  {
   "property": "C65",
   "status": "proved",
   "theorems": [
    "C65_leaf",
    "C65_children_refuted",
    "C65_repeated_refuted"
   ],
   "note": "The documented sum is refuted for general trees."
  },
  {
   "property": "C66",
   "status": "proved",
   "theorems": [
    "C66_unchanged",
    "C66_entropy",
    "C66_entropy_refuted"
   ],
   "note": "float array, which np.asarray does not copy."
  },
  {
   "property": "C67",
   "status": "proved",
   "theorems": [
    "C67_votes",
    "C67_disagreement",
    "C67_label_votes",
    "C67_divergence",
    "C67_divergence_sign",
    "C67_rejects"
   ],
   "note": "The logarithm is any function with the sign respectively the inequality stated."
  },
  {
   "property": "C68",
   "status": "proved",
   "theorems": [
    "C68_weights",
    "C68_signed_refuted",
    "C68_out_of_range_refuted"
   ],
   "note": "The losses after retraining are arbitrary."
  },
  {
   "property": "C69",
   "status": "proved",
   "theorems": [
    "C69_minimal",
    "C69_not_finite_refuted",
    "C69_small"
   ],
   "note": "The evaluation of each instance is arbitrary, including NaN."
  },
  {
   "property": "C70",
   "status": "proved",
   "theorems": [
    "C70_diversity",
    "C70_margin_refuted"
   ],
   "note": "The exponent is any function."
  },
  {
   "property": "C71",
   "status": "proved",
   "theorems": [
    "C71_scores",
    "C71_rejects",
    "C71_refit",
    "C71_refit_refuted"
   ],
   "note": "Gradient step and initial weights arbitrary. The refit from scratch is refuted."
  },
  {
   "property": "C72",
   "status": "proved",
   "theorems": [
    "C72_collections",
    "C72_others_unchanged",
    "C72_rest",
    "C72_conversion"
   ],
   "note": "The single choices are any positions; C74 shows that the strategies give such positions."
  },
  {
   "property": "C73",
   "status": "proved",
   "theorems": [
    "C73_pair",
    "C73_two",
    "C73_three_refuted",
    "C73_order_refuted"
   ],
   "note": "Exact rationals, the pseudo-inverse is a given matrix. The general optimality is refuted for three pairs, and the order dependence is a refuted clause."
  },
  {
   "property": "C74",
   "status": "proved",
   "theorems": [
    "C74_margin",
    "C74_error",
    "C74_cardinality",
    "C74_constant_class",
    "C74_mmc_score",
    "C74_negative_count_refuted",
    "C74_mmc_choice",
    "C74_adaptive_choice",
    "C74_binary_relevance",
    "C74_binary_relevance_refuted"
   ],
   "note": "Classifier outputs given. Labels -1 are refuted clauses."
  },
  {
   "property": "C75",
   "status": "proved",
   "theorems": [
    "C75_afasmc",
    "C75_private",
    "C75_nan_refuted",
    "C75_impute",
    "C75_rounds",
    "C75_leak_refuted",
    "C75_no_iterations_refuted",
    "C75_rejects"
   ],
   "note": "Search steps and decomposition arbitrary; the rounds of IterativeSVD are characterised one by one. The privacy claim is refuted for IterativeSVD and for NaN."
  },
  {
   "property": "C76",
   "status": "proved",
   "theorems": [
    "C76_round",
    "C76_first_round_refuted",
    "C76_overrun_refuted"
   ],
   "note": "Objectives arbitrary. The claim about all rounds is refuted."
  },
  {
   "property": "C77",
   "status": "proved",
   "theorems": [
    "C77_curves",
    "C77_start",
    "C77_start_places_refuted",
    "C77_shift_refuted",
    "C77_ragged_refuted"
   ],
   "note": "Only the curves handed to matplotlib; exact rationals. The shift for later methods, the places after a start point and ragged runs are refuted clauses."
  },
  {
   "property": "C78",
   "status": "proved",
   "theorems": [
    "C78_frame",
    "C78_added",
    "C78_nan",
    "C78_nan_refuted",
    "C78_failed_add",
    "C78_empty",
    "C78_kinds",
    "C78_cost_added",
    "C78_accepts",
    "C78_accepts_pairs"
   ],
   "note": "The NaN check is refuted when lists are added last."
  },
  {
   "property": "C79",
   "status": "proved",
   "theorems": [
    "C79_saved",
    "C79_saved_given",
    "C79_one_split",
    "C79_two_users_refuted",
    "C79_crash",
    "C79_torn_refuted",
    "C79_file_path_refuted",
    "C79_moved_refuted",
    "C79_strings_refuted",
    "C79_new",
    "C79_one_row_refuted"
   ],
   "note": "A settings file is one stored toolbox or cannot be loaded; files of the splitters are kept but play no role. The refuted clauses are separate theorems."
  },
  {
   "property": "C80",
   "status": "proved",
   "theorems": [
    "C80_oracle",
    "C80_oracle_examples",
    "C80_part_labels_refuted",
    "C80_names_refuted",
    "C80_stateio",
    "C80_repository",
    "C80_repository_names_refuted",
    "C80_features_refuted"
   ],
   "note": "get_clean_oracle, get_stateio and get_repository for one label per instance; query strategies and metrics made by name are not modelled here."
  },
  {
   "property": "C81",
   "status": "proved",
   "theorems": [
    "C81_unknown",
    "C81_vectors",
    "C81_weights",
    "C81_matrices",
    "C81_auc",
    "C81_counts",
    "C81_auc_inverted_refuted",
    "C81_score_vector_refuted",
    "C81_ranking_refuted",
    "C81_keywords",
    "C81_experiment_names",
    "C81_experiment_vectors",
    "C81_experiment_ranking",
    "C81_experiment_auc",
    "C81_label_matrix",
    "C81_one_error_vector"
   ],
   "note": "f1_score is sklearn's and outside the model, as are matrices of true labels for the threshold metrics. Documented score metrics that never work or are inverted are the refuted clauses."
  },
  {
   "property": "C82",
   "status": "proved",
   "theorems": [
    "C82_last_strategy",
    "C82_callable",
    "C82_again_refuted",
    "C82_after_callable_refuted",
    "C82_refused_call_refuted",
    "C82_solver_refuted",
    "C82_ready",
    "C82_constructor_metric_refuted",
    "C82_last_metric",
    "C82_refused",
    "C82_accepted"
   ],
   "note": "Constructors of strategies are one arbitrary function that may raise; theorems about accepted calls assume that it does not. The refuted clauses are separate theorems."
  },
  {
   "property": "C83",
   "status": "proved",
   "theorems": [
    "C83_results",
    "C83_twice_refuted",
    "C83_exception",
    "C83_time_limit_refuted"
   ],
   "note": "Folds of integer indexes; strategy, performance and clock arbitrary. One result per fold after two calls, and a time limit per fold, are refuted."
  },
  {
   "property": "C84",
   "status": "proved",
   "theorems": [
    "C84_safe",
    "C84_ends",
    "C84_latest_model",
    "C84_own_model_refuted",
    "C84_serial"
   ],
   "note": "fit and predict are atomic, one shared model. That a fold's performances come from its own model is refuted."
  },
  {
   "property": "C85",
   "status": "proved",
   "theorems": [
    "C85_labels",
    "C85_kernel",
    "C85_direct",
    "C85_bmdr",
    "C85_returns",
    "C85_spal",
    "C85_easy_first",
    "C85_pace_refuted"
   ],
   "note": "Solver, matrix inverses, argsort and stopping test arbitrary under contracts. Theorems about results assume that the solver's values have one entry per variable. The documented growth of lambda is refuted."
  },
  {
   "property": "C86",
   "status": "proved",
   "theorems": [
    "C86_risk",
    "C86_feasible",
    "C86_objective",
    "C86_preference_refuted"
   ],
   "note": "Exact rationals. That the program minimises discrepancy and risk is refuted by a concrete kernel."
  },
  {
   "property": "C87",
   "status": "proved",
   "theorems": [
    "C87_start",
    "C87_bmdr",
    "C87_spal"
   ],
   "note": "Exact rationals; for SPAL the square roots used must be exact."
  },
  {
   "property": "C88",
   "status": "proved",
   "theorems": [
    "C88_dominated",
    "C88_choice",
    "C88_eval_cost_refuted",
    "C88_last_instance_refuted",
    "C88_no_neighbours",
    "C88_nearest_refuted",
    "C88_copies_refuted",
    "C88_later_oracle_refuted"
   ],
   "note": "Neighbour search is a contract. The stated skill is the code's; the surprising consequences, the ignored eval_cost and the failures are the refuted theorems."
  },
  {
   "property": "C89",
   "status": "proved",
   "theorems": [
    "C89_asked",
    "C89_vote",
    "C89_succeeds",
    "C89_dropped_refuted",
    "C89_single_refuted",
    "C89_abort_refuted"
   ],
   "note": "Square root and t quantile are contracts; exact rationals. The dropped-oracle, single-oracle and aborted-call failures are the refuted theorems."
  },
  {
   "property": "C90",
   "status": "proved",
   "theorems": [
    "C90_instance",
    "C90_last_instance_refuted",
    "C90_all",
    "C90_random",
    "C90_random_every",
    "C90_random_later_refuted"
   ],
   "note": "The draw is an argument. Missing oracles for the last instance and failing draws are the refuted theorems."
  },
  {
   "property": "C91",
   "status": "proved",
   "theorems": [
    "C91_choice",
    "C91_none_refuted",
    "C91_few",
    "C91_whole_instance_refuted",
    "C91_y_mat_refuted",
    "C91_frame",
    "C91_passed_model_refuted",
    "C91_types"
   ],
   "note": "Training, scores and argsort are arguments under contracts; models are objects in a heap. The failures and the capture of the passed model are the refuted theorems."
  },
  {
   "property": "C92",
   "status": "proved",
   "theorems": [
    "C92_shortcut",
    "C92_shortcut_refuted",
    "C92_object",
    "C92_inverse",
    "C92_inverse_refuted",
    "C92_left_out_refuted",
    "C92_formula",
    "C92_two",
    "C92_choice_refuted"
   ],
   "note": "Exact rationals; np.linalg.inv and det are arguments under contracts; kernel values are given. Evaluations with a zero divisor are arbitrary floats."
  },
  {
   "property": "C93",
   "status": "proved",
   "theorems": [
    "C93_choice",
    "C93_untrained",
    "C93_download",
    "C93_kept",
    "C93_requests",
    "C93_new",
    "C93_train",
    "C93_interrupted_refuted",
    "C93_length_refuted"
   ],
   "note": "Forest and regressor training, np.load and np.std are arguments; a file is its bytes; a response is a list of pieces with failures. Requests are counted."
  },
  {
   "property": "C94",
   "status": "proved",
   "theorems": [
    "C94_weights",
    "C94_density",
    "C94_few",
    "C94_object"
   ],
   "note": "kneighbors_graph, the metric and the exponential are arguments under contracts; floats are exact rationals, so underflow of the exponential to zero is outside the model."
  },
  {
   "property": "C95",
   "status": "proved",
   "theorems": [
    "C95_curves",
    "C95_area",
    "C95_area_start",
    "C95_cost_area",
    "C95_cost_shift_refuted",
    "C95_table",
    "C95_empty",
    "C95_failed",
    "C95_stuck",
    "C95_column_refuted",
    "C95_budget"
   ],
   "note": "An area is its x values, middle line and squared half width; a table is its rows before rounding and layout. The misplaced areas and the appearing column are stated as they are."
  },
  {
   "property": "C96",
   "status": "proved",
   "theorems": [
    "C96_gaussian",
    "C96_gaussian_symmetric",
    "C96_gaussian_rbf",
    "C96_zero_width",
    "C96_unsound",
    "C96_rbf",
    "C96_poly",
    "C96_linear",
    "C96_other",
    "C96_linear_semidefinite",
    "C96_poly_semidefinite",
    "C96_strategies",
    "C96_negative_refuted",
    "C96_int_labels",
    "C96_bool_refuted",
    "C96_rbf_semidefinite"
   ],
   "note": "The exponential is an argument with its order properties as contract; that the rbf matrix is positive semidefinite up to the rounding of the exponential is proved over the reals of the standard library, with their axioms. The sklearn kernels are their documented formulas. The recoding of boolean labels is stated as it is."
  },
  {
   "property": "C97",
   "status": "proved",
   "theorems": [
    "C97_history",
    "C97_cost",
    "C97_cost_missing",
    "C97_call",
    "C97_single",
    "C97_report",
    "C97_full",
    "C97_total_refuted",
    "C97_array_refuted"
   ],
   "note": "Oracles are arbitrary functions answering one row of costs for each index (proved of the multi-label oracle). Both behaviours of numpy on rows of different lengths are covered. Printing itself is not modelled."
  },
  {
   "property": "C98",
   "status": "proved",
   "theorems": [
    "C98_sets",
    "C98_no_exception",
    "C98_interruption",
    "C98_kept",
    "C98_complete"
   ],
   "note": "One round; the others have files of their own (C46 treats the scheduler and all rounds together). The liveness flag read back is arbitrary. The user loop is that of the documentation; single-label index collections with a non-empty labelled set."
  },
  {
   "property": "C99",
   "status": "proved",
   "theorems": [
    "C99_order",
    "C99_pairing_refuted",
    "C99_decision",
    "C99_spread",
    "C99_degenerate",
    "C99_invariant",
    "C99_symmetric",
    "C99_level",
    "C99_shapes_sound",
    "C99_accepts",
    "C99_sizes",
    "C99_shapes_refuted",
    "C99_example_refuted"
   ],
   "note": "Exact rational arithmetic; the tail of Student's distribution is an arbitrary function with the monotonicity and boundary contract, and for the documented example the closed form with two degrees of freedom."
  },
  {
   "property": "C100",
   "status": "proved",
   "theorems": [
    "C100_record",
    "C100_silent",
    "C100_header",
    "C100_shows",
    "C100_run",
    "C100_fails",
    "C100_poisoned",
    "C100_cost_refuted",
    "C100_asked"
   ],
   "note": "A report is the record of the numbers shown; their formatting by prettytable and % is not modelled. Exact rationals; the standard deviation by its square."
  },
  {
   "property": "C101",
   "status": "proved",
   "theorems": [
    "C101_visits",
    "C101_step",
    "C101_margin",
    "C101_overshoot_refuted",
    "C101_unmarked",
    "C101_marks",
    "C101_less_relevant",
    "C101_average",
    "C101_ready"
   ],
   "note": "Exact rationals; norm_up infinite and lmbda zero as set by the only caller. The overshoot on unscaled features is C101_overshoot_refuted; that 0.5 is ignored is C101_less_relevant."
  },
  {
   "property": "C102",
   "status": "proved",
   "theorems": [
    "C102_settled",
    "C102_unsettled",
    "C102_transposed",
    "C102_rounds"
   ],
   "note": "C54 gives the exact set that is added; here it is compared with what a hierarchy implies. C102_unsettled is the defect: the direction of the completion is reversed with respect to the documented tree."
  },
  {
   "property": "C103",
   "status": "proved",
   "theorems": [
    "C103_uncertainty",
    "C103_committee",
    "C103_error_reduction",
    "C103_error_reduction_refuted",
    "C103_error_reduction_columns",
    "C103_learned",
    "C103_batch_mode",
    "C103_marked_refuted",
    "C103_quire",
    "C103_pairs",
    "C103_adaptive",
    "C103_mmc",
    "C103_mmc_refuted",
    "C103_hierarchical",
    "C103_ceal"
   ],
   "note": "Two-run theorems. C103_error_reduction and C103_mmc give what besides the labelled labels is read; the _refuted theorems give the leaks."
  },
  {
   "property": "C104",
   "status": "proved",
   "theorems": [
    "C104_update_self",
    "C104_difference_self",
    "C104_difference_self_refuted",
    "C104_difference_self_repeated",
    "C104_round_listed",
    "C104_round_itself",
    "C104_multi_label_self",
    "C104_multi_label_round"
   ],
   "note": "The live list iterator is modelled by its position; the loop is shown to end."
  },
  {
   "property": "C105",
   "status": "proved",
   "theorems": [
    "C105_pool",
    "C105_record",
    "C105_failed",
    "C105_training",
    "C105_shown_once",
    "C105_cost",
    "C105_cost_refuted",
    "C105_ends",
    "C105_done",
    "C105_small_pool",
    "C105_last_entries"
   ],
   "note": "Strategy, model and performance are arbitrary functions; the writing of the record to a file is C17 and C98."
  },
  {
   "property": "C106",
   "status": "proved",
   "theorems": [
    "C106_starts",
    "C106_aligned",
    "C106_training",
    "C106_pool",
    "C106_accounts",
    "C106_limit",
    "C106_rounds",
    "C106_ends",
    "C106_unfit",
    "C106_reset",
    "C106_done_refuted"
   ],
   "note": "C106_done_refuted: the loop does not always end by its condition; with a limit larger than the price of all instances it raises ValueError at the last instance. The strategy and the model are arbitrary functions; the clock is an arbitrary function of the round."
  },
  {
   "property": "C107",
   "status": "proved",
   "theorems": [
    "C107_pool",
    "C107_training",
    "C107_rounds",
    "C107_acquired",
    "C107_record",
    "C107_record_refuted",
    "C107_behind",
    "C107_endless_refuted",
    "C107_total",
    "C107_blind",
    "C107_strategies",
    "C107_afasmc",
    "C107_last_refuted",
    "C107_leak_refuted"
   ],
   "note": "(5), (6) and (9) are defects stated as _refuted theorems."
  },
  {
   "property": "C108",
   "status": "proved",
   "theorems": [
    "C108_pool",
    "C108_marked",
    "C108_training",
    "C108_rounds",
    "C108_next_run",
    "C108_spent",
    "C108_total",
    "C108_random",
    "C108_random_last",
    "C108_performance",
    "C108_recorded_cost_refuted",
    "C108_halc_refuted"
   ],
   "note": "The recorded cost in (5) and the test pairs in (8) are defects stated as _refuted theorems; the failing last query of the random strategy is C108_random_last."
  },
  {
   "property": "C109",
   "status": "proved",
   "theorems": [
    "C109_history",
    "C109_read",
    "C109_pop",
    "C109_pop_outside",
    "C109_pop_default_refuted",
    "C109_add_pop"
   ],
   "note": "The default of pop is a defect stated as C109_pop_default_refuted."
  },
  {
   "property": "C110",
   "status": "proved",
   "theorems": [
    "C110_pool",
    "C110_answers",
    "C110_meaning",
    "C110_training",
    "C110_training_failed",
    "C110_rounds"
   ],
   "note": "C110_rounds states the ValueError at the end; the training is a function with contracts; scores are assumed finite."
  },
  {
   "property": "C111",
   "status": "proved",
   "theorems": [
    "C111_save",
    "C111_kept",
    "C111_interrupted",
    "C111_names",
    "C111_one_file",
    "C111_folds_refuted",
    "C111_rerun_refuted",
    "C111_late_directory",
    "C111_load",
    "C111_class_refuted",
    "C111_takes_over",
    "C111_nowhere",
    "C111_not_a_path",
    "C111_sound"
   ],
   "note": "C111_folds_refuted, C111_rerun_refuted and C111_class_refuted are the cases in which saved results are lost or a loader returns an object of another class; links, permissions and full disks are not modelled."
  },
  {
   "property": "C112",
   "status": "proved",
   "theorems": [
    "C112_books",
    "C112_rounds",
    "C112_asked",
    "C112_same_questions",
    "C112_lost"
   ],
   "note": "C112_same_questions is the independence of the labels given (a finding: line 41 of the example trains on the first examples and does not use the training data of line 40); C112_lost is the instance without a label. Training by the model of scikit-learn is an arbitrary function that does not fail on the first examples after having succeeded on them."
  },
  {
   "property": "C113",
   "status": "proved",
   "theorems": [
    "C113_each",
    "C113_alone",
    "C113_same_start",
    "C113_results",
    "C113_equal_length",
    "C113_files",
    "C113_time_refuted",
    "C113_empty_refuted"
   ],
   "note": "C113_time_refuted and C113_empty_refuted are the two cases in which an exception in one call changes the next. The shared model is the indexes it was fitted on last, as in C83; an interruption between the update of the criterion and its next test is not modelled."
  },
  {
   "property": "C114",
   "status": "proved",
   "theorems": [
    "C114_instances",
    "C114_threads_pairs",
    "C114_threads_features_refuted",
    "C114_one_side_empty_refuted",
    "C114_mixture_refuted",
    "C114_recorder_pairs",
    "C114_replay"
   ],
   "note": "Statements for recorders range over lists of (i,) and (i, j) with labels that are not negative. What an index collection of rows does later is not modelled."
  },
  {
   "property": "C115",
   "status": "proved",
   "theorems": [
    "C115_complete",
    "C115_save_unstarted_refuted",
    "C115_saved",
    "C115_interrupted",
    "C115_resumed",
    "C115_stale_refuted",
    "C115_parameters_refuted"
   ],
   "note": "Interruption is modelled with max_thread=1 and between writes of files (C46 and C98 for several threads and for torn files)."
  },
  {
   "property": "C116",
   "status": "proved",
   "theorems": [
    "C116_weights_refuted",
    "C116_distances",
    "C116_uncertainty",
    "C116_few_weights_refuted",
    "C116_relevance",
    "C116_majority",
    "C116_zero_one_refuted",
    "C116_information",
    "C116_finished",
    "C116_ancestors_refuted",
    "C116_select"
   ],
   "note": "Distances are squared; decision values are not zero; the sum over the descendants is that of C65, the knapsack that of C62 to C64."
  },
  {
   "property": "C117",
   "status": "proved",
   "theorems": [
    "C117_last",
    "C117_refused",
    "C117_failed_refuted",
    "C117_independent",
    "C117_constant",
    "C117_negative_refuted",
    "C117_outside_refuted",
    "C117_fitted",
    "C117_other_refuted",
    "C117_agree"
   ],
   "note": "The base classifier is arbitrary; for the agreement it has the contract of a two-class SVC or logistic regression (the case shows a classifier that meets it). Its fit depends on the data only."
  },
  {
   "property": "C118",
   "status": "proved",
   "theorems": [
    "C118_table",
    "C118_harmless",
    "C118_records",
    "C118_final",
    "C118_unshowable",
    "C118_stopped_refuted",
    "C118_returns",
    "C118_when"
   ],
   "note": "On top of the scheduler of C45 and the displayed performance of C100. Elapsed times are not modelled; a row is read at once."
  },
  {
   "property": "C119",
   "status": "proved",
   "theorems": [
    "C119_documented",
    "C119_unknown",
    "C119_not_a_strategy_refuted",
    "C119_no_features_refuted",
    "C119_data_fixed",
    "C119_missing",
    "C119_misspelt",
    "C119_misspelt_refuted",
    "C119_audi_refuted"
   ],
   "note": "The table of documented parameters is in StratSpec, that of the signatures in StratModel. Names are identifiers. What a constructor does with its parameters is arbitrary."
  },
  {
   "property": "C120",
   "status": "proved",
   "theorems": [
    "C120_pairs",
    "C120_flat_refuted",
    "C120_empty_refuted",
    "C120_vector",
    "C120_oracle",
    "C120_oracle_examples_refuted",
    "C120_features",
    "C120_threads",
    "C120_threads_pairs",
    "C120_threads_features_refuted",
    "C120_threads_refused"
   ],
   "note": "On top of the collections (C05, C07), the multi-label oracle (C22), the sets of C114 and the checks of C45."
  },
  {
   "property": "C121",
   "status": "proved",
   "theorems": [
    "C121_element",
    "C121_balance",
    "C121_added_refuted",
    "C121_matrix",
    "C121_matrix_total",
    "C121_matrix_balance",
    "C121_matrix_repeat_refuted",
    "C121_matrix_failed_refuted",
    "C121_matrix_cleared_refuted"
   ],
   "note": "repository[index] is stated under C24 and C25 (C24_getitem_refuted, C25_getitem_refuted): unknown indexes do not raise."
  },
  {
   "property": "C122",
   "status": "proved",
   "theorems": [
    "C122_signs",
    "C122_bmdr",
    "C122_spal",
    "C122_accepted"
   ],
   "note": "A relation between two runs, on top of the model of C85-C87."
  },
  {
   "property": "C123",
   "status": "proved",
   "theorems": [
    "C123_vectors",
    "C123_matrices",
    "C123_scores",
    "C123_labels",
    "C123_labels_precision",
    "C123_labels_precision_refuted",
    "C123_scale",
    "C123_scale_labels",
    "C123_scale_micro_refuted",
    "C123_names",
    "C123_names_ranking_refuted"
   ],
   "note": "Relational claims over the metric models of C37-C44, C60 and C61; roc_auc_score has the same in C40_monotone, C40_reversed and C40_reorder. Vector against matrix is not covered."
  },
  {
   "property": "C124",
   "status": "proved",
   "theorems": [
    "C124_uncertainty",
    "C124_boundary",
    "C124_votes",
    "C124_scores",
    "C124_consequences",
    "C124_ties_refuted",
    "C124_density_weighted_refuted"
   ],
   "note": "Predictions are a function of the instance, as they are from one fitted model; expected error reduction is not covered, its score depends on the whole pool."
  },
  {
   "property": "C125",
   "status": "proved",
   "theorems": [
    "C125_sets",
    "C125_label_sets",
    "C125_questions",
    "C125_teaching",
    "C125_teaching_alone_refuted",
    "C125_pool",
    "C125_repository",
    "C125_matrix_repository"
   ],
   "note": "Multi-label collections with a known number of labels and lists that are not empty (an empty list is refused). Columns of costs and examples are given for both parts or for neither."
  },
  {
   "property": "C126",
   "status": "proved",
   "theorems": [
    "C126_runs",
    "C126_start_refuted",
    "C126_lists",
    "C126_pairs",
    "C126_curves"
   ],
   "note": "The curves against the number of queries; finite performances."
  },
  {
   "property": "C127",
   "status": "proved",
   "theorems": [
    "C127_classes",
    "C127_boundary",
    "C127_votes",
    "C127_divergence",
    "C127_same"
   ],
   "note": "Both runs use the same logarithm; for the divergence it must respect equality of rationals."
  },
  {
   "property": "C128",
   "status": "proved",
   "theorems": [
    "C128_names",
    "C128_names_all_class_refuted",
    "C128_classes",
    "C128_more",
    "C128_independent",
    "C128_shape"
   ],
   "note": "Randomness is given as the sequence of shuffles, the same for both calls (as with the same seed)."
  },
  {
   "property": "C129",
   "status": "proved",
   "theorems": [
    "C129_oracle",
    "C129_one_call",
    "C129_one_call_refuted",
    "C129_built",
    "C129_repository",
    "C129_collection",
    "C129_update",
    "C129_update_refuted"
   ],
   "note": "Calls that share an index are excluded: there the last one wins (C20, C24, C01)."
  },
  {
   "property": "C130",
   "status": "proved",
   "theorems": [
    "C130_fold",
    "C130_until",
    "C130_experiment",
    "C130_uncertainty",
    "C130_threads_refuted",
    "C130_multi_label"
   ],
   "note": "Which strategies see only the labels of labelled instances is C103. Folds one after another (multi_thread=False), fit and predict deterministic."
  },
  {
   "property": "C131",
   "status": "proved",
   "theorems": [
    "C131_ranking_loss",
    "C131_precision",
    "C131_coverage",
    "C131_agree",
    "C131_auc",
    "C131_order",
    "C131_vectors",
    "C131_matrices"
   ],
   "note": "A label counts as relevant when it is not 0, as in the code; for labels -1/1 see C42_signs_refuted. The average precision is compared without weights (C43_weights_refuted)."
  },
  {
   "property": "C132",
   "status": "proved",
   "theorems": [
    "C132_fold",
    "C132_limit"
   ],
   "note": "Folds one after another (multi_thread=False), fit and predict deterministic; folds in threads share the model (C84)."
  },
  {
   "property": "C133",
   "status": "proved",
   "theorems": [
    "C133_gradient",
    "C133_step",
    "C133_ends",
    "C133_run",
    "C133_descent"
   ],
   "note": "Exact rationals; the thresholding, the square root and the linear model of each round are arguments. The loops around the steps are those of FeatureModel."
  },
  {
   "property": "C134",
   "status": "proved",
   "theorems": [
    "C134_coverage",
    "C134_tightest_refuted"
   ],
   "note": "Distances are exact rationals satisfying the triangle inequality; rounding of computed distances is not modelled."
  },
  {
   "property": "C135",
   "status": "proved",
   "theorems": [
    "C135_minmax",
    "C135_standard"
   ],
   "note": "Exact rationals; columns of variance zero give NaN (C36)."
  },
  {
   "property": "C136",
   "status": "proved",
   "theorems": [
    "C136_closest",
    "C136_same",
    "C136_boundary",
    "C136_three_refuted",
    "C136_certain_refuted"
   ],
   "note": "Exact rationals; the logarithm is any function for which the entropy of two probabilities falls with their distance from one half."
  },
  {
   "property": "C137",
   "status": "proved",
   "theorems": [
    "C137_majority",
    "C137_oracles",
    "C137_order",
    "C137_more",
    "C137_half_refuted"
   ],
   "note": "The vote is on the first label each oracle returns."
  },
  {
   "property": "C138",
   "status": "proved",
   "theorems": [
    "C138_coreset",
    "C138_ties_refuted",
    "C138_density"
   ],
   "note": "Exact rationals; distances are not negative."
  }
 ]
}