{
 "claims": [
  {
   "property": "C01",
   "status": "proved",
   "theorems": [
    "C01_triplets_exact",
    "C01_triplets_exact_no_filter",
    "C01_task_made",
    "C01_generation_succeeds"
   ],
   "note": "For every table, on/across/by choice, set and group order. The theorem with filters asks that the items kept by generic filters come first (see C06) and that item numbers fit the stored type (see C07); without filters nothing is asked. Creation of the task and generation succeed when the checks pass."
  },
  {
   "property": "C02",
   "status": "proved",
   "theorems": [
    "C02_rows_announced",
    "C02_announced_count",
    "C02_announced_count_by",
    "C02_block_sizes",
    "C02_by_groups",
    "C02_item_counts",
    "C02_across_counts",
    "C02_no_across_counts",
    "C02_pair_counts"
   ],
   "note": "Total and per-by numbers are those of the rows for any filters; total, per-by and per-block numbers also count the triplets of the definition. The statistics about items, groups, across values and on/across pairs are the numbers of the listed items, values and pairs."
  },
  {
   "property": "C03",
   "status": "proved",
   "theorems": [
    "C03_filters_by_meaning",
    "C03_stages_meaning",
    "C03_filtered_triplets"
   ],
   "note": "From the column names to the rows: classification of the filters by the manager, contexts given at each stage, and generation. The filters are those that can be evaluated (usable), elementwise, on a table in which a column determines those below it in the hierarchy; same conditions on generic filters and stored type as C01."
  },
  {
   "property": "C04",
   "status": "proved",
   "theorems": [
    "C04_vector_filters",
    "C04_block_filters",
    "C04_stages_elementwise"
   ],
   "note": "The cascade on survivors is a conjunction, for any list of elementwise filters, and what each stage evaluates on columns is what it would evaluate line by line."
  },
  {
   "property": "C05",
   "status": "partial",
   "theorems": [
    "C05_column_filter_refuted",
    "C05_column_filter_accepts_all",
    "C05_item_column_refuted"
   ],
   "note": "Refuted: at the block stages a column name accepts everything (proved for all by columns), at the item stages it keeps the first item several times."
  },
  {
   "property": "C06",
   "status": "partial",
   "theorems": [
    "C06_block_values_refuted",
    "C06_block_values_raise_refuted",
    "C06_emptied_group_refuted",
    "C06_block_values_partial"
   ],
   "note": "False of the code (three refuted theorems); holds when the items kept by the generic filters come first in their by group."
  },
  {
   "property": "C07",
   "status": "partial",
   "theorems": [
    "C07_storage_refuted",
    "C07_storage_partial"
   ],
   "note": "False of the code (refuted theorem); what is read back is the conversion of the triplets to the type fitted to their number."
  },
  {
   "property": "C08",
   "status": "proved",
   "theorems": [
    "C08_by_index_partition"
   ],
   "note": "Any threshold; rows of each range are triplets of that by (exactly those, without threshold: C01)."
  },
  {
   "property": "C09",
   "status": "partial",
   "theorems": [
    "C09_regressors_aligned_partial",
    "C09_A_regressors_not_sorted_refuted",
    "C09_A_regressors_lost_refuted",
    "C09_triplet_regressors_raise"
   ],
   "note": "Regressors of the by group, the block, B and X: proved for any threshold. Regressors of A: only when there is an ABX filter and a B or X regressor, or neither; false otherwise (two refuted theorems). Regressors of whole triplets always raise ValueError (C09_triplet_regressors_raise)."
  },
  {
   "property": "C10",
   "status": "partial",
   "theorems": [
    "C10_threshold_partial",
    "C10_threshold_repeats_refuted",
    "C10_threshold_ignored",
    "C10_threshold_without_regressors_refuted"
   ],
   "note": "Proved when the positions of the triplets of a block fit the integer type chosen for the number of regressor combinations; false otherwise (refuted theorem: repeated triplets). Without regressors of B and X the threshold has no effect at all (proved), so that triplets of a block sharing their regressors are not limited (refuted theorem). When the generation with a threshold ends is in C74."
  },
  {
   "property": "C11",
   "status": "proved",
   "theorems": [
    "C11_distinct_sorted_in_range",
    "C11_never_raises",
    "C11_returns"
   ],
   "note": "Every random source, both algorithms, any element type that holds N-1; termination for every source in which each integer keeps coming up."
  },
  {
   "property": "C12",
   "status": "partial",
   "theorems": [
    "C12_feasible",
    "C12_never_raises",
    "C12_returns",
    "C12_every_feasible_count_possible",
    "C12_empty_piece_refuted"
   ],
   "note": "Proved in all cases but one (a request of no item when one item remains and it must be drawn), where the code returns 1 (refuted theorem). The float comparisons of the acceptance test are arbitrary outcomes."
  },
  {
   "property": "C13",
   "status": "proved",
   "theorems": [
    "C13_exactly_K",
    "C13_pieces_in_place",
    "C13_never_raises",
    "C13_next",
    "C13_constructor"
   ],
   "note": "Every list of requests, every random source, every outcome of the acceptance tests; populations up to 2^63. Conditional on the random loops returning."
  },
  {
   "property": "C14",
   "status": "proved",
   "theorems": [
    "C14_fit_is_narrowest",
    "C14_values_up_to_n_survive"
   ],
   "note": "For every n and signedness; numpy conversions modelled as reduction modulo 2^bits."
  },
  {
   "property": "C15",
   "status": "proved",
   "theorems": [
    "C15_codes_do_not_overflow",
    "C15_codes_decode",
    "C15_codes_injective",
    "C15_block_codes"
   ],
   "note": "Whenever a type is found for the codes (any by with at most 2^32 items): the stored codes are exact, decode to the two items and are distinct for distinct pairs; numpy conversions modelled as reduction modulo 2^bits."
  },
  {
   "property": "C16",
   "status": "proved",
   "theorems": [
    "C16_pairs_of_every_by",
    "C16_decoded_pairs"
   ],
   "note": "For every list of triplets of every by, any argsort, any buffer lengths of at least one row: the block of each by holds each A-X and B-X pair exactly once, the blocks are consecutive, and decoding gives the pairs back."
  },
  {
   "property": "C17",
   "status": "proved",
   "theorems": [
    "C17_keys_sorted"
   ],
   "note": "Any stable or unstable argsort; any chunk and output buffer lengths that let the sort return."
  },
  {
   "property": "C18",
   "status": "proved",
   "theorems": [
    "C18_companions_follow",
    "C18_rows_permuted"
   ],
   "note": "All companion datasets, as one list of whole rows; multiset and row pairing."
  },
  {
   "property": "C19",
   "status": "partial",
   "theorems": [
    "C19_sort_outcome",
    "C19_length_mismatch_raises",
    "C19_tiny_budget_never_returns_refuted"
   ],
   "note": "The outcome is characterised for every budget of at least one row; when the budget rounds to zero rows the chunk loop never ends (refuted theorem)."
  },
  {
   "property": "C20",
   "status": "proved",
   "theorems": [
    "C20_iteration_yields_the_rows",
    "C20_read_returns_the_next_rows",
    "C20_reading_zero_rows_raises",
    "C20_buffer_uses_the_budget"
   ],
   "note": "H52NP and H5dataset2NP readers, for every dataset, sub-range, buffer length >= 1 and sequence of requests; file access itself is a list."
  },
  {
   "property": "C21",
   "status": "proved",
   "theorems": [
    "C21_growable_holds_what_was_written",
    "C21_resized_holds_what_was_written",
    "C21_buffer_uses_the_budget",
    "C21_empty_buffer_never_returns_refuted"
   ],
   "note": "Growable datasets, fixed-size datasets and the write-then-resize use of the task generator; an empty buffer (row larger than twice the budget) makes write loop for ever (refuted case)."
  },
  {
   "property": "C22",
   "status": "proved",
   "theorems": [
    "C22_complete_fixed_size_is_accepted",
    "C22_incomplete_fixed_size_is_reported"
   ],
   "note": "Success exactly when the announced number of rows was written."
  },
  {
   "property": "C23",
   "status": "partial",
   "theorems": [
    "C23_dataset_survives_a_failure_refuted",
    "C23_second_attempt_fails_refuted"
   ],
   "note": "False of the code: the datasets stay in the file and a second attempt raises (both refuted theorems); nothing weaker is claimed."
  },
  {
   "property": "C24",
   "status": "proved",
   "theorems": [
    "C24_jobs_cover",
    "C24_jobs_created"
   ],
   "note": "Every list of by sizes, every number of cpus, every argsort; the sizes are int64 in the code and unbounded here."
  },
  {
   "property": "C25",
   "status": "proved",
   "theorems": [
    "C25_jobs_balanced"
   ],
   "note": "Stated pair by pair: no range exceeds the rounded up share, and without any one of its ranges a cpu has no more pairs than any other cpu, which gives the bound of the property."
  },
  {
   "property": "C26",
   "status": "proved",
   "theorems": [
    "C26_returned_complete",
    "C26_same_distances",
    "C26_returns"
   ],
   "note": "Every interleaving of the steps of the workers (the lock is modelled), every number of cpus, every deterministic distance function that may raise; features and times are arbitrary types. A run that ends without raising wrote every row; it cannot raise when the features are there and the distance function does not raise."
  },
  {
   "property": "C27",
   "status": "partial",
   "theorems": [
    "C27_done_complete",
    "C27_not_done_at_start",
    "C27_done_one_cpu",
    "C27_never_done",
    "C27_done_on_return_refuted"
   ],
   "note": "done implies complete at every moment, and done is set with one cpu. False with more cpus: done is never set (general theorem, and a refuted theorem with a concrete run)."
  },
  {
   "property": "C28",
   "status": "partial",
   "theorems": [
    "C28_ranges_slices_partial",
    "C28_ranges_floats",
    "C28_ranges_slices_refuted"
   ],
   "note": "Holds when the share of a cpu or every by fits in the buffer (12,500,000 pairs). Otherwise all bounds are floats (general theorem) and reading the pairs raises TypeError (refuted theorem)."
  },
  {
   "property": "C29",
   "status": "partial",
   "theorems": [
    "C29_exclusive",
    "C29_bounded_moves",
    "C29_no_deadlock_partial",
    "C29_no_deadlock_refuted"
   ],
   "note": "Mutual exclusion, boundedness and absence of deadlock for every schedule provided that nothing is raised while the lock is held. An exception there blocks the other workers for ever (refuted theorem, with a missing dataframe)."
  },
  {
   "property": "C30",
   "status": "proved",
   "theorems": [
    "C30_frames_of_item"
   ],
   "note": "Any ordered type of times; the h5features reader itself is not modelled: a features file is a list of files with their times and frames."
  },
  {
   "property": "C31",
   "status": "proved",
   "theorems": [
    "C31_optimal",
    "C31_empty"
   ],
   "note": "For every totally ordered set of costs with a monotone addition (hence also rounded additions), every cost matrix and every initial contents of the work array; empty sequences raise."
  },
  {
   "property": "C32",
   "status": "proved",
   "theorems": [
    "C32_normalised"
   ],
   "note": "The value returned with normalized=True is the minimal cost divided by the length of an alignment of minimal cost."
  },
  {
   "property": "C33",
   "status": "partial",
   "theorems": [
    "C33_symmetric",
    "C33_normalised_partial",
    "C33_normalised_refuted"
   ],
   "note": "Proved without normalisation, and with it when all alignments of minimal cost have the same length. Refuted otherwise by a 2-valued cost matrix: 3/4 one way and 3/5 the other."
  },
  {
   "property": "C34",
   "status": "partial",
   "theorems": [
    "C34_scores_partial",
    "C34_scores_refuted"
   ],
   "note": "Proved for at most 94,906,265 items per by, any sorting rank and any tie order. Beyond that the pair codes are uint64 and np.searchsorted against them goes through float64, and C34_scores_refuted shows a wrong score on such a by."
  },
  {
   "property": "C35",
   "status": "proved",
   "theorems": [
    "C35_exchanged_opposite"
   ],
   "note": "Exchanging A and B of a triplet gives the opposite score, for any asymmetric comparison of the distances."
  },
  {
   "property": "C36",
   "status": "proved",
   "theorems": [
    "C36_score_refuses",
    "C36_score_keeps_files",
    "C36_task_refuses",
    "C36_distances_refuse"
   ],
   "note": "The API functions generate_triplets, score and compute_distances on outputs that exist. compute_distances refuses the file but first sets its 'done' flag to False, which the theorem says. The command line mains, which remove existing outputs, are the subject of C64."
  },
  {
   "property": "C37",
   "status": "partial",
   "theorems": [
    "C37_groups_partial",
    "C37_groups_refuted",
    "C37_analysed_refuted"
   ],
   "note": "Proved up to 2^53 combinations of levels within a by, for every argsort and every rounding exact on integers up to 2^53. Beyond, false: 64 binary regressors merge two combinations into one line, 54 make the analysis raise IndexError. Means are exact rationals; the text of the result file is in C69."
  },
  {
   "property": "C38",
   "status": "proved",
   "theorems": [
    "C38_every_triplet_counted",
    "C38_total",
    "C38_proportions"
   ],
   "note": "C38_every_triplet_counted and C38_total hold for any number of combinations; C38_proportions ties each line to its combination."
  },
  {
   "property": "C39",
   "status": "partial",
   "theorems": [
    "C39_keys",
    "C39_decode_partial",
    "C39_decode_refuted"
   ],
   "note": "npdecode inverts the keys up to 2^53 combinations with float64 arithmetic; C39_decode_refuted shows a wrong decoding at 2^54."
  },
  {
   "property": "C40",
   "status": "proved",
   "theorems": [
    "C40_result",
    "C40_task_file_made",
    "C40_distances_return",
    "C40_threshold_chosen",
    "C40_threshold_result",
    "C40_threshold_distances_return",
    "C40_result_file",
    "C40_threshold_file"
   ],
   "note": "make_file composes task creation, triplet generation, regressor groups and unique pairs; then compute_distances, score and analyze of their own models run on the file. Without a threshold, or without regressors of B and X, the lines are those for all the triplets; with a threshold and such regressors they are those for the triplets listed in the file, which are min(t, number) for each block and values of the regressors (under the width condition of C10). Conditions: the conditions of C01 on filters, item numbers and the order of kept items; at most 94906265 items; regressors of A in order or absent (C09); at most 2^53 combinations; 64 bytes per triplet fit in 3 times the memory given, or 10^9 bytes and 10^14 triplets; no two bys have the same str(); < is asymmetric on distances (so nan is allowed and counts as a tie). The names of the regressors and the labels must be in ASCII (C68). The text of the result file is in C69. C40_result_file adds the text of the result file (C69). C40_threshold_file is the text with a threshold."
  },
  {
   "property": "C41",
   "status": "partial",
   "theorems": [
    "C41_header",
    "C41_load",
    "C41_load_total",
    "C41_trailing_lines_partial",
    "C41_blocks",
    "C41_inner_line_refuted",
    "C41_wrong_place_refuted"
   ],
   "note": "Proved when the dropped lines are the last ones; with a dropped line before a kept one the task cannot be built (IndexError), or, when a by filter drops the block of the last line, items silently get the place of another line: refuted. Text parsing by pandas is not modelled."
  },
  {
   "property": "C42",
   "status": "proved",
   "theorems": [
    "C42_extended_names_unique",
    "C42_parse",
    "C42_parse_only",
    "C42_names_checked"
   ],
   "note": "Unicity, parsing, rejection, and the link with the check of the item file."
  },
  {
   "property": "C43",
   "status": "partial",
   "theorems": [
    "C43_columns",
    "C43_accepted_partial",
    "C43_rejected",
    "C43_extensions_refuted"
   ],
   "note": "The exact condition of acceptance and the exceptions are proved; that _AB and _AX are accepted exactly where the two items share the value is refuted (comparison with 'AB' without underscore, _AX restricted to across columns)."
  },
  {
   "property": "C44",
   "status": "partial",
   "theorems": [
    "C44_matching",
    "C44_symmetric",
    "C44_same_length",
    "C44_ideal_partial",
    "C44_ideal_refuted",
    "C44_empty"
   ],
   "note": "The matching, its order, symmetry, equal lengths and exceptions are proved for every rounding of relative precision 2^-53. That the matched frames are those around the middle is proved without rounding and refuted for float64 (lengths 14 and 25)."
  },
  {
   "property": "C45",
   "status": "proved",
   "theorems": [
    "C45_angle",
    "C45_range",
    "C45_symmetric",
    "C45_extremes",
    "C45_types",
    "C45_normalized",
    "C45_not_a_number",
    "C45_normalized_zero_sum"
   ],
   "note": "In real arithmetic (the code's rounding is not modelled): the distance is the angle in half turns; zero frames, range, symmetry, when it is 0, 1/2 and 1; refused arguments; the normalised variant."
  },
  {
   "property": "C46",
   "status": "proved",
   "theorems": [
    "C46_kl_value",
    "C46_kl_laws",
    "C46_kl_symmetric",
    "C46_js_value",
    "C46_sqrt_js_value",
    "C46_js_laws",
    "C46_sqrt_js_laws",
    "C46_hellinger_value",
    "C46_hellinger_laws",
    "C46_kl_points",
    "C46_js_points",
    "C46_kl_zero",
    "C46_js_zero",
    "C46_refused_types",
    "C46_refused_sums",
    "C46_refused_width",
    "C46_itakura_saito",
    "C46_itakura_saito_types"
   ],
   "note": "In real arithmetic: values of all the variants, bounds, symmetry, when they are 0 (or 1), refused arguments, and that zeros without threshold give no number."
  },
  {
   "property": "C47",
   "status": "proved",
   "theorems": [
    "C47_history",
    "C47_effect"
   ],
   "note": "In real arithmetic, for arrays without zero-sum frame, any sequence of calls with any of the metrics on shared arrays, also a pair of an array with itself. In floating point a second division by a sum close to 1 may change the last digits."
  },
  {
   "property": "C48",
   "status": "partial",
   "theorems": [
    "C48_labels_partial",
    "C48_positions_partial",
    "C48_declared_list",
    "C48_declared_dict_partial",
    "C48_rejected",
    "C48_not_ascii",
    "C48_shared_index_refuted",
    "C48_fused_refuted",
    "C48_other_names_rejected",
    "C48_short_list_rejected",
    "C48_unknown_label_rejected"
   ],
   "note": "Labels and positions, any number of batches, any widths; keys of fused datasets are injective up to 2^64 combinations. False beyond that (C48_fused_refuted: the check of the code is dead), and two datasets that share an index and are not fused cannot be written (C48_shared_index_refuted). HDF5 and the write buffers (property C20) are taken as rows written in order. Data under other names, short lists, unknown labels and numbers for indexed datasets are refused with ValueError. Names or labels out of ASCII are refused with ValueError (C48_not_ascii). Fused datasets and datasets without index are unreachable with h5py 2, see C72."
  },
  {
   "property": "C49",
   "status": "partial",
   "theorems": [
    "C49_answers_partial",
    "C49_fills_partial",
    "C49_iterate_partial",
    "C49_unknown_partial",
    "C49_after_partial",
    "C49_missing_partial",
    "C49_unpacked_partial",
    "C49_refill_partial",
    "C49_misfit_partial",
    "C49_specs_partial",
    "C49_creation_refuted",
    "C49_creation_raises",
    "C49_python3_refuted",
    "C49_failed_fill_refuted"
   ],
   "note": "Tables whose synopsis is consistent, filled in any number of batches (iterate or not), packed and queried: the answers are those of an entry stored for the queried inputs, in query order; unknown labels, missing inputs, unpacked tables raise (IndexError for inputs after all entries, since the boundary test comes too late). False of new files: creation never succeeds (C49_creation_refuted), an empty table cannot be filled with Python 3 (C49_python3_refuted), and a fill that raises leaves keys that are later answered with zeros (C49_failed_fill_refuted). Computing missing entries with the code is not modelled: the code stored in the file is never loaded."
  },
  {
   "property": "C50",
   "status": "proved",
   "theorems": [
    "C50_generation_repeatable"
   ],
   "note": "From the state left by the first call; triplets, by_index and bys (the pairs are a function of them: C16)."
  },
  {
   "property": "C51",
   "status": "proved",
   "theorems": [
    "C51_all_files_once",
    "C51_convert",
    "C51_failure"
   ],
   "note": "Batches, names and order; the loader and the writer are parameters."
  },
  {
   "property": "C52",
   "status": "proved",
   "theorems": [
    "C52_balanced",
    "C52_table",
    "C52_named_balanced",
    "C52_named_table",
    "C52_sources_distinct",
    "C52_verified"
   ],
   "note": "Both generators, from the text of the file; random features are not modelled, only their file names."
  },
  {
   "property": "C53",
   "status": "partial",
   "theorems": [
    "C53_always_equal_refuted"
   ],
   "note": "Refuted: `list.sort()` returns None, so any two readable files are found equal."
  },
  {
   "property": "C54",
   "status": "proved",
   "theorems": [
    "C54_pre_order",
    "C54_post_order",
    "C54_find_child",
    "C54_find_forwards",
    "C54_find_backwards",
    "C54_next",
    "C54_previous",
    "C54_path_to_root",
    "C54_path_from_root",
    "C54_depth",
    "C54_count",
    "C54_names",
    "C54_built"
   ],
   "note": "Navigation, search, counting, depth and construction. Methods that modify a tree and the selection by attributes are the subject of C83."
  },
  {
   "property": "C55",
   "status": "proved",
   "theorems": [
    "C55_sequential_uniform",
    "C55_rejection_equivariant"
   ],
   "note": "Sequential algorithm: exact counting for draws with a denominator divisible by 1..N; rejection algorithm: equivariance under every permutation."
  },
  {
   "property": "C56",
   "status": "partial",
   "theorems": [
    "C56_auxiliary_file_refuted",
    "C56_first_auxiliary_file"
   ],
   "note": "Refuted: the recursive call lacks an argument, so an auxiliary file always makes the loading fail. Which exception is raised is proved exactly."
  },
  {
   "property": "C57",
   "status": "partial",
   "theorems": [
    "C57_check",
    "C57_sources_partial",
    "C57_tabulation_refuted"
   ],
   "note": "The exact condition of acceptance is proved; sources followed by a tabulation are refused: refuted."
  },
  {
   "property": "C58",
   "status": "proved",
   "theorems": [
    "C58_value",
    "C58_empty",
    "C58_laws",
    "C58_symmetric",
    "C58_self",
    "C58_types"
   ],
   "note": "dtw (C29) composed with the cosine metric (C45, real numbers). Arrays are of a floating point type; symmetry with normalisation is false in general because the number of steps of the alignment that is found depends on the order (C30). Other types and different widths raise exceptions (C58_types)."
  },
  {
   "property": "C59",
   "status": "proved",
   "theorems": [
    "C59_value",
    "C59_empty",
    "C59_laws",
    "C59_symmetric"
   ],
   "note": "dtw (C29) composed with the Kullback-Leibler metric (C46, real numbers) on a heap of arrays, so that both items may be the same array; the arrays then hold the distributions. Symmetry without normalisation."
  },
  {
   "property": "C60",
   "status": "partial",
   "theorems": [
    "C60_names",
    "C60_module",
    "C60_directory_partial",
    "C60_directory_refuted",
    "C60_parts",
    "C60_other_name",
    "C60_normalisation",
    "C60_levenshtein"
   ],
   "note": "Names, module.function and directory/module.function are proved. False when the directory has a dot in its name: the argument is split at its first dot (C60_directory_refuted). Without -n the default distance raises TypeError, as does levenshtein with -n (C60_normalisation). Import is a parameter; the Levenshtein distance of frames is that of the editdistance library (a parameter)."
  },
  {
   "property": "C61",
   "status": "partial",
   "theorems": [
    "C61_runs",
    "C61_fails",
    "C61_exits",
    "C61_kept_refuted"
   ],
   "note": "The first half is proved (C61_runs; C61_fails for the exceptions of the choice of a distance). The second half is false: the output file is removed before the options are tested (C61_kept_refuted). Parsing of the command line is not modelled: the options are a record, -n and -j are integers."
  },
  {
   "property": "C62",
   "status": "partial",
   "theorems": [
    "C62_raises",
    "C62_steps_raise",
    "C62_complete_run_refuted"
   ],
   "note": "False: the program raises KeyError for all arguments, because it reads an argument that argparse stores under another name (C62_raises, C62_complete_run_refuted), and the function for the four steps raises TypeError, because the task has no argument called features (C62_steps_raise)."
  },
  {
   "property": "C63",
   "status": "partial",
   "theorems": [
    "C63_levels",
    "C63_levels_no_across",
    "C63_levels_several_partial",
    "C63_two_across_refuted",
    "C63_item_filters",
    "C63_summary",
    "C63_all_statistics",
    "C63_new_pandas_refuted"
   ],
   "note": "Proved for one across column (C63_levels) and, with A itself in place of its values, for none (C63_levels_no_across), and what is printed (C63_summary, C63_all_statistics). False with two across columns, where pairs that make no triplet are counted (C63_two_across_refuted; what is counted is C63_levels_several_partial), and with pandas from 1.0 on, where printing raises AttributeError (C63_new_pandas_refuted). With item filters the levels are not computed (C63_item_filters)."
  },
  {
   "property": "C64",
   "status": "partial",
   "theorems": [
    "C64_task",
    "C64_task_stops",
    "C64_stats_only",
    "C64_stats_only_refuted",
    "C64_task_kept_refuted",
    "C64_score",
    "C64_score_omitted_refuted",
    "C64_score_name",
    "C64_score_name_refuted",
    "C64_analyze",
    "C64_analyze_missing"
   ],
   "note": "Proved: what each command computes from and writes to (C64_task, C64_task_stops, C64_stats_only, C64_score, C64_score_name, C64_analyze, C64_analyze_missing). False: --stats-only and refused tasks remove the named output (C64_stats_only_refuted, C64_task_kept_refuted), the score file cannot be omitted on the command line (C64_score_omitted_refuted), and its default name in the function score joins both directories (C64_score_name_refuted)."
  },
  {
   "property": "C65",
   "status": "partial",
   "theorems": [
    "C65_value",
    "C65_value_refuted",
    "C65_unbound",
    "C65_builtin_refuted",
    "C65_inputs",
    "C65_depends",
    "C65_inputs_refuted",
    "C65_no_value",
    "C65_imports_only",
    "C65_with_refuted",
    "C65_file",
    "C65_kinds"
   ],
   "note": "Proved when comprehensions use only their own variables and builtins, or with Python 3.12 or later (C65_value), with the inputs and what is refused. False otherwise: a column, an import or an assigned variable read inside a comprehension raises NameError (C65_value_refuted, C65_unbound) or is taken as a builtin (C65_builtin_refuted); a variable of a comprehension named as a column becomes an input (C65_inputs_refuted); with statements raise AttributeError (C65_with_refuted). Python is restricted to imports, assignments, expressions with primitives, conditionals and list comprehensions with one for, on values not modified in place."
  },
  {
   "property": "C66",
   "status": "partial",
   "theorems": [
    "C66_rows",
    "C66_complete_refuted"
   ],
   "note": "The number and range of the scores are proved for every outcome (C66_rows). That the file is complete is false after a failure: the file stays with zeros for the triplets not scored (C66_complete_refuted)."
  },
  {
   "property": "C67",
   "status": "partial",
   "theorems": [
    "C67_index_partial",
    "C67_stored_refuted",
    "C67_any_threshold",
    "C67_threshold_refuted"
   ],
   "note": "The index is given exactly for tasks without threshold, up to the type it is stored in (C67_index_partial): it is that for the number of blocks, too small when a block has many triplets (C67_stored_refuted). With a threshold the bounds are those before the choice of triplets (C67_threshold_refuted). With any threshold and random source the index is that of the file without (C67_any_threshold)."
  },
  {
   "property": "C68",
   "status": "partial",
   "theorems": [
    "C68_only_ascii",
    "C68_others_rejected",
    "C68_any_label_refuted"
   ],
   "note": "The names and labels are converted to byte strings, which raises UnicodeEncodeError (a ValueError) out of ASCII. Proved: a task file is never made with such names or labels (C68_only_ascii), ValueError is raised as soon as there is a triplet (C68_others_rejected, without a threshold or without regressors of B and X); a task with ASCII labels that works fails after one accent is added (C68_any_label_refuted). Names and labels in ASCII are accepted and found as they are: C40. Which labels can be held is a parameter (plain); for strings it is plain_text, equal to ASCII only. NUL characters at the end of labels, which bytes arrays drop, are not modelled."
  },
  {
   "property": "C69",
   "status": "partial",
   "theorems": [
    "C69_readable",
    "C69_failed",
    "C69_tab_refuted"
   ],
   "note": "The text is modelled write by write, with the exception that ends it. Proved when no label, name, by or text of a number has a tab or a newline; labels of item files never have, since these separate the columns. Texts of labels and of scores are parameters; the integers are read by the decimal reader of the standard library. False of labels with tabs, which regressor scripts can give (C69_tab_refuted): nothing is quoted. The encoding of the file is not modelled."
  },
  {
   "property": "C70",
   "status": "partial",
   "theorems": [
    "C70_evaluated_partial",
    "C70_by_and_plain_refuted",
    "C70_lone_AB_refuted"
   ],
   "note": "Exact on computed filters: accepted filters are evaluated without exception unless they use a column determined by the by columns together with a plain column (the by columns are never added to the context of generic filters) or _AB of a column that nothing determines (compared with 'AB' without underscore): these always raise NameError. One filter at a time; filters that are columns are C05."
  },
  {
   "property": "C71",
   "status": "partial",
   "theorems": [
    "C71_groups_partial",
    "C71_evaluation_partial",
    "C71_by_refuted",
    "C71_column_refuted"
   ],
   "note": "Proved for labels and names that are not empty and have no slash, for any file that has no group of regressors yet. C71_evaluation_partial says it of the groups of the task made from any item file, so that the result file of C40_result_file is the one made from the HDF5 groups. The groups are written with the model of H5IO files (C72) and the names are resolved as HDF5 does. False of a by label with a slash, unless another by comes before it in alphabetical order (C71_by_refuted: KeyError and an empty result file), and of a column name with a slash (C71_column_refuted: the task cannot be written). The exceptions are those of h5py 2."
  },
  {
   "property": "C72",
   "status": "partial",
   "theorems": [
    "C72_created_partial",
    "C72_written_partial",
    "C72_closed",
    "C72_refused",
    "C72_missing",
    "C72_raw",
    "C72_kinds_refuted",
    "C72_again_refuted",
    "C72_again",
    "C72_iterate_refuted"
   ],
   "note": "Creation, loading and writing of groups whose datasets are all indexed and not fused, which is how ABXpy uses them. False otherwise: with h5py 2 datasets without index and fused datasets cannot be declared (TypeError), and fused datasets that are written cannot be opened again (misspelt key_weigths) with any h5py (C72_kinds_refuted); creating a group again raises RuntimeError but marks it as empty, after which its data cannot be written (C72_again_refuted); iterate=True never works on a new group (C72_iterate_refuted). Completing a closed group is refused with ValueError (C72_closed). Rows are in the file as soon as they are written (C21 for the buffers)."
  },
  {
   "property": "C73",
   "status": "partial",
   "theorems": [
    "C73_complete_run",
    "C73_examples_raise",
    "C73_examples_refuted"
   ],
   "note": "Proved of the distance of examples/complete_run.py (C73_complete_run). False of those of example_distances.py and of ABXrun.py: they call dtw without its argument normalized, so TypeError is raised as soon as both items have frames (C73_examples_raise, C73_examples_refuted); only items without frames have a distance. Real numbers as in C58."
  },
  {
   "property": "C74",
   "status": "partial",
   "theorems": [
    "C74_never_raises",
    "C74_ends",
    "C74_never_ends",
    "C74_ends_refuted"
   ],
   "note": "No exception is raised (C74_never_raises). The generation ends when no group is overfull (C74_ends, for random numbers that go on giving all values) and never ends when one is (C74_never_ends): a group of more than 100 triplets, less than three fifths of which are asked for, with a threshold above the number of values of the integer type chosen for the regressor combinations. Witness: 448 triplets with the same regressors and a threshold of 257 (C74_ends_refuted)."
  },
  {
   "property": "C75",
   "status": "proved",
   "theorems": [
    "C75_answers",
    "C75_counts",
    "C75_others",
    "C75_same_file",
    "C75_empty_file"
   ],
   "note": "C75_answers, C75_counts, C75_others, C75_same_file and C75_empty_file, under the conditions of C01 on filters and item numbers."
  },
  {
   "property": "C76",
   "status": "partial",
   "theorems": [
    "C76_repeat",
    "C76_order",
    "C76_order_refuted"
   ],
   "note": "C76_repeat and C76_order, under the conditions of C40; in both orders the lines kept by the generic filters must come first in each by. Without this an order can make the generation fail (C76_order_refuted). The levels of the regressors and their codes are the same in both evaluations."
  },
  {
   "property": "C77",
   "status": "proved",
   "theorems": [
    "C77_distances",
    "C77_features"
   ],
   "note": "C77_distances and C77_features, under the conditions of C40."
  },
  {
   "property": "C78",
   "status": "proved",
   "theorems": [
    "C78_bys"
   ],
   "note": "C78_bys, under the conditions of C40 for both item files, with the same levels of the regressors."
  },
  {
   "property": "C79",
   "status": "proved",
   "theorems": [
    "C79_default_refuses",
    "C79_default_number",
    "C79_kl_nan",
    "C79_score_ties"
   ],
   "note": "C79_default_refuses and C79_default_number are the exact condition for the default distance; C79_kl_nan and C79_score_ties (under the conditions of C34). Numbers are ideal: overflows of finite values are not modelled."
  },
  {
   "property": "C80",
   "status": "proved",
   "theorems": [
    "C80_range",
    "C80_extremes",
    "C80_perfect",
    "C80_inverted",
    "C80_blind",
    "C80_reversed"
   ],
   "note": "C80_range, C80_extremes, C80_perfect, C80_inverted, C80_blind and C80_reversed, under the conditions of C40."
  },
  {
   "property": "C81",
   "status": "proved",
   "theorems": [
    "C81_total",
    "C81_regressors",
    "C81_whole"
   ],
   "note": "C81_total, C81_regressors and C81_whole, under the conditions of C40."
  },
  {
   "property": "C82",
   "status": "partial",
   "theorems": [
    "C82_scale_default",
    "C82_scale_kl",
    "C82_columns_default",
    "C82_columns_kl",
    "C82_backwards",
    "C82_backwards_refuted",
    "C82_evaluation",
    "C82_louder",
    "C82_columns",
    "C82_same_way"
   ],
   "note": "C82_scale_default, C82_scale_kl, C82_columns_default, C82_columns_kl for the distances; C82_louder and C82_columns for the lines of an evaluation with the default distance (conditions of C40), C82_evaluation for any relation between features and C82_same_way. C82_backwards for the distance that is not normalised; C82_backwards_refuted: two sequences whose normalised distance is 1/12, and 1/10 read backwards. Numbers are ideal."
  },
  {
   "property": "C83",
   "status": "partial",
   "theorems": [
    "C83_add_child",
    "C83_not_a_tree",
    "C83_remove",
    "C83_index",
    "C83_root",
    "C83_clear",
    "C83_replace",
    "C83_inject",
    "C83_reparent",
    "C83_somewhere",
    "C83_walks",
    "C83_siblings",
    "C83_descendant",
    "C83_descendant_refuted",
    "C83_find_child",
    "C83_find_parent",
    "C83_find_forwards",
    "C83_find_backwards",
    "C83_neighbours",
    "C83_find_attr",
    "C83_attrs_to_root",
    "C83_tree_prop",
    "C83_set_prop",
    "C83_add_children",
    "C83_add_children_refused",
    "C83_refused_list_refuted",
    "C83_new_tree",
    "C83_construct",
    "C83_construct_refused",
    "C83_second_parent_refuted",
    "C83_cycle_refuted",
    "C83_dump_refuted"
   ],
   "note": "Modifications, walks, searches, attributes and nested lists are proved for all memories that hold trees. Four expected clauses and dump are refuted."
  },
  {
   "property": "C84",
   "status": "partial",
   "theorems": [
    "C84_range",
    "C84_empty",
    "C84_types",
    "C84_widths",
    "C84_angles",
    "C84_exact",
    "C84_self_refuted",
    "C84_nearest_refuted",
    "C84_overflow_refuted",
    "C84_underflow_refuted",
    "C84_formats",
    "C84_integers",
    "C84_rounding_error",
    "C84_float_range"
   ],
   "note": "C84_range, C84_empty, C84_types, C84_widths, C84_angles and C84_exact are proved. What is assumed of the rounding (record format) is derived for every rounding to nearest in a format with p digits, a least exponent and subnormal numbers, so for float32 and float64 (C84_formats, C84_integers, C84_float_range); overflow is not part of it (see C85_no_overflow for features in a range). The four refuted clauses are computed with the numbers float64 of the standard library (SpecFloat), for any functions arccos and division by pi."
  },
  {
   "property": "C85",
   "status": "partial",
   "theorems": [
    "C85_error",
    "C85_float64",
    "C85_normalised",
    "C85_compare",
    "C85_normalised_refuted",
    "C85_formats",
    "C85_ranges",
    "C85_no_overflow",
    "C85_float_error",
    "C85_float_compare"
   ],
   "note": "C85_error, C85_normalised, C85_compare and C85_float64 are proved for any operations with the stated relative errors. C85_formats: such operations are those rounded to nearest to p digits. C85_no_overflow, C85_float_error and C85_float_compare: the same in formats with underflow and overflow, for features whose values are 0 or in a range (C85_ranges: from 2^-150 to 2^250 for float64, from 2^-12 to 2^16 for float32 and 1024 values in a frame); the additions and divisions of the alignments are taken without underflow. C85_normalised_refuted: items for which the normalised distance jumps."
  },
  {
   "property": "C86",
   "status": "partial",
   "theorems": [
    "C86_displays",
    "C86_terminal",
    "C86_terminal_refuted",
    "C86_same_task",
    "C86_task_text",
    "C86_quiet_task",
    "C86_closed_task",
    "C86_stdin_refuted",
    "C86_same_file",
    "C86_file_text",
    "C86_quiet_file",
    "C86_finished",
    "C86_again_refuted",
    "C86_closed_file",
    "C86_same_whole_file",
    "C86_whole_text",
    "C86_quiet_whole",
    "C86_same_levels",
    "C86_levels_text",
    "C86_levels_closed"
   ],
   "note": "Same results: C86_same_task, C86_same_file, C86_same_whole_file (item file to task file), C86_same_levels; messages: C86_displays, C86_task_text, C86_file_text, C86_finished, C86_whole_text (with those of the pairs), C86_levels_text, C86_quiet_task, C86_quiet_file, C86_quiet_whole. With a closed standard input: C86_closed_task, C86_closed_file, C86_levels_closed. C86_terminal: on a terminal the same lines are shown as elsewhere. Three expected clauses are refuted. What has been printed before an exception is modelled but only stated for a closed standard input."
  },
  {
   "property": "C87",
   "status": "proved",
   "theorems": [
    "C87_float_formats",
    "C87_answers",
    "C87_same_answers",
    "C87_rounding",
    "C87_settled",
    "C87_alignment",
    "C87_compare"
   ],
   "note": "C87_answers and C87_same_answers are for any two evaluations; C87_rounding and C87_settled for the default distance, without overflow and underflow; C87_float_formats with them, for features in a range; C87_alignment and C87_compare are the distances they rest on. Triplets whose distances are equal as real numbers but whose items differ are doubtful: C84_nearest_refuted has such a pair for which rounding decides."
  },
  {
   "property": "C88",
   "status": "proved",
   "theorems": [
    "C88_samples",
    "C88_files_even",
    "C88_every_choice"
   ],
   "note": "C88_samples for the samples, C88_files_even and C88_every_choice for the files. Draws are uniform integers below a number L that is a multiple of all the integers up to the number of triplets, so that random integers are uniform; probabilities are limits of proportions of the vectors of draws. Numbers of triplets and of combinations of regressors are limited as in C10 (room, storable); beyond, C10_threshold_repeats_refuted. Without regressors of B and X the threshold is ignored (C10) and the only file is the whole one. C88_samples says as a probability what C55 says of the draws."
  },
  {
   "property": "C89",
   "status": "proved",
   "theorems": [
    "C89_files_by_triplets",
    "C89_kept_probability",
    "C89_kept_mean"
   ],
   "note": "C89_kept_probability, C89_kept_mean and C89_files_by_triplets. Draws and limits are those of C88. A line of the results of an evaluation gathers triplets by all its regressors, also those of A; the statement is about the groups of the threshold, which are the groups it samples."
  },
  {
   "property": "C90",
   "status": "partial",
   "theorems": [
    "C90_file_made",
    "C90_whole_groups",
    "C90_expected_score",
    "C90_unbiased",
    "C90_unequal_refuted"
   ],
   "note": "C90_expected_score for the weighted mean, C90_unbiased for equal shares, C90_whole_groups and C90_file_made. Partial because of the refuted clause only: C90_unequal_refuted has a line whose groups have shares 1 and 1/2, and its expected score. Draws and limits are those of C88. The mean is over all the results that can be obtained from the files drawn: the number of processes, the interleavings, the buffers and the names of the files can be different for each; C90_expected_score also says that such results exist."
  },
  {
   "property": "C91",
   "status": "partial",
   "theorems": [
    "C91_negative_file",
    "C91_negative_raises",
    "C91_negative_empty",
    "C91_negative_threshold_refused_refuted"
   ],
   "note": "C91_negative_raises and C91_negative_empty, which between them cover every task with a triplet and a regressor of B or X; C91_negative_file for the whole task file and what the distances, the scores and the analysis do with it. Partial because of the refuted clause only: C91_negative_threshold_refused_refuted. That h5py accepts to write empty datasets is assumed, as elsewhere in the model. The half made distance file counts as a file that is there; its absent data are not read by the scores."
  },
  {
   "property": "C92",
   "status": "partial",
   "theorems": [
    "C92_counted",
    "C92_kept",
    "C92_all",
    "C92_bounds",
    "C92_zero_refuted"
   ],
   "note": "C92_kept, C92_all, C92_bounds, C92_counted. Partial because of the refuted clause only (C92_zero_refuted). The conversion of the positions to the type of the codes is the reason for the last condition, see C10 for what happens without it."
  },
  {
   "property": "C93",
   "status": "proved",
   "theorems": [
    "C93_forms",
    "C93_accepted",
    "C93_refused",
    "C93_overlap",
    "C93_same_columns"
   ],
   "note": "C93_forms, C93_accepted, C93_refused, C93_overlap, C93_same_columns. Tuples and other iterables given for across or by are not modelled. That pandas groups by a repeated column as by one column, with repeated keys, is part of what is assumed of it."
  },
  {
   "property": "C94",
   "status": "proved",
   "theorems": [
    "C94_lines",
    "C94_threshold",
    "C94_finer_by",
    "C94_more_across",
    "C94_exchange"
   ],
   "note": "C94_lines, C94_threshold, C94_finer_by, C94_more_across, C94_exchange. Item numbers must fit in the dataset (C07). The conditions on filters are those of C01."
  },
  {
   "property": "C95",
   "status": "proved",
   "theorems": [
    "C95_whole",
    "C95_fewer",
    "C95_same"
   ],
   "note": "C95_whole, C95_fewer, C95_same, under the conditions of C76 to C81 (exact arithmetic of scores, by names distinct for distinct groups)."
  },
  {
   "property": "C96",
   "status": "proved",
   "theorems": [
    "C96_extended_names",
    "C96_column",
    "C96_table",
    "C96_script",
    "C96_known",
    "C96_functions",
    "C96_triplets",
    "C96_accepted",
    "C96_default_regressors",
    "C96_regressor",
    "C96_regressors_accepted",
    "C96_regressors_kept",
    "C96_codes",
    "C96_codes_other"
   ],
   "note": "C96_extended_names, C96_column, C96_table, C96_script, C96_known, C96_functions, C96_triplets, C96_accepted, C96_default_regressors, C96_regressor, C96_regressors_accepted, C96_regressors_kept, C96_codes, C96_codes_other. What the extensions should allow is C43 (partial); that a column given as filter does not filter is C05 (refuted)."
  },
  {
   "property": "C97",
   "status": "partial",
   "theorems": [
    "C97_names",
    "C97_indexes",
    "C97_columns",
    "C97_twice",
    "C97_without_index",
    "C97_script",
    "C97_script_refuted",
    "C97_apart_refuted"
   ],
   "note": "Names, lists of values, regressors given as columns and the column asked for twice are proved. That a regressor given by a script can be stored is refuted. With h5py 2, where a list of texts cannot be an item of a file, declaring the group of regressors raises TypeError as soon as one dataset has no list of values (C97_without_index and C97_script, for every task file; C97_script_refuted, a witness). With an h5py that stores such lists and reads them back as texts (h5py 3 reads bytes, which is not modelled) the values are written at the root of the file, the analysis does not read them, and a second by cannot be written (C97_apart_refuted). The values a script computes are not modelled here."
  }
 ]
}
