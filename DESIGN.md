# Formal model of ABXpy: design

Everything under `rocq/theories` is Coq 8.16.1 (logical name `Verif`), built by
`coq_makefile -f _CoqProject -o Makefile && make -j4` inside `rocq/`.

## Layout

* `Prelude.v` - Python/numpy/h5py primitives used by every model (exceptions as
  values, slices, fancy indexing, `np.unique`, `np.searchsorted`, rounding,
  fixed-width integers), with the lemmas about them.
* `<Module>.v` - the model of one ABXpy module: definitions only (plus notations),
  each with a comment citing `/repo` file and lines.
* `<Module>_spec.v` - small specification vocabulary used to state properties. It
  does not use the model's helpers (only lists, integers, orders, `Permutation`).
* `<Module>_proofs.v` - lemmas.
* `Props_*.v` - only property theorems, each closed by `exact lemma`, with
  `Print Assumptions` beneath and an `Example` beside showing that a concrete
  non-trivial case meets the hypotheses.

Naming: a theorem about property C17 starts with `C17_`. `_partial`: the theorem
does not cover the full property text (the note in `MANIFEST.json` says what is
missing). `_refuted`: the property is false of the (faithful) model; the theorem
exhibits a witness.

## Conventions of the model

* Python exceptions are values: `res A := Ok a | Err e`. Loops that may not
  terminate are run with explicit fuel; out-of-fuel is a distinct error that the
  theorems exclude (or, for non-termination findings, show for every fuel).
* Indices and lengths are `nat`; data values, keys and counts that meet integer
  types are `Z`. Where a numpy fixed-width type can wrap, the wrap is written
  explicitly (`cast`), elsewhere the integers are unbounded.
* What Python/numpy leaves unspecified is universally quantified: the order in
  which `list(set(..))` enumerates (any permutation), the order in which
  `np.argsort` puts equal keys (any sorting permutation; numpy's default sort is
  not stable), the random streams, the distance function, the features, the
  user's filter scripts (arbitrary functions; theorems about filters assume they
  are elementwise), process schedules.
* Floats: lengths/rounding computations on floats that are exact in the relevant
  range are modelled with integers/rationals; cost domains (DTW) are an arbitrary
  ordered domain with monotone addition; metrics (cosine, KL family) are modelled
  over the real numbers of the standard library, the default distance also with rounded
  operations (C84, C85).
* h5py files are modelled as finite maps from dataset names to lists of rows; the
  operating system as the set of existing files.
* Python 3 semantics, numpy < 2 value-based casting, h5py 2.x.

## Trusted base

* The Coq kernel (and `coqc`/`coq_makefile`).
* `Print Assumptions` is written under each property theorem. Theorems print
  "Closed under the global context" except those over the real numbers
  (C45, C46, C47 in `Props_Metrics*.v`, C58, C59 in `Props_DefaultDistance.v`, and C60_normalisation, C60_levenshtein), which list only the standard library's
  axioms of the classical reals (`ClassicalDedekindReals.sig_forall_dec`,
  `ClassicalDedekindReals.sig_not_dec`, `FunctionalExtensionality.functional_extensionality_dep`,
  and `Classical_Prop.classic` where trigonometry is used). Witnesses computed with the kernel's
  binary64 numbers list the primitive float/int operations. There are no axioms of
  our own.
* The reading of the code: every definition cites the lines it transcribes. The
  code is not executed here.

## Properties: what is modelled and how it is proved

* **C01** Triplets are exactly the ABX triplets of the task definition. `Task.v` models the whole path from the item table to the file (`task_init`, `generate_triplets`). Model `_init_prepare_database`'s groupings and `on_across_triplets` over item frames (label, row); group keys sorted; Python set order is an oracle. Spec: a predicate on three rows. Proof: membership of each of A,B,X lists, index arithmetic i -> (iA,iB,iX) is a bijection with the product, blocks are disjoint.
  *proved*: For every table, on/across/by choice, set and group order. The theorem with filters asks that the items kept by generic filters come first (see C06) and that item numbers fit the stored type (see C07); without filters nothing is asked. Creation of the task and generation succeed when the checks pass.
  Theorems: `C01_triplets_exact`, `C01_triplets_exact_no_filter`, `C01_task_made`, `C01_generation_succeeds`.
* **C02** Announced number of triplets equals the number generated. Model `compute_statistics` (both branches) and compare with the length of the generated list; arithmetic of group sizes by counting lemmas. No assumption on the filters for the comparison with the rows. `Task_stats_spec.v` states what the other numbers count, as lists without repetition of items, values and pairs; `Task_stats.v` proves it.
  *proved*: Total and per-by numbers are those of the rows for any filters; total, per-by and per-block numbers also count the triplets of the definition. The statistics about items, groups, across values and on/across pairs are the numbers of the listed items, values and pairs.
  Theorems: `C02_rows_announced`, `C02_announced_count`, `C02_announced_count_by`, `C02_block_sizes`, `C02_by_groups`, `C02_item_counts`, `C02_across_counts`, `C02_no_across_counts`, `C02_pair_counts`.
* **C03** Filtered task = unfiltered task with the non-matching triplets removed. Model `SideOperationsManager.add` classification and all evaluate_* stages with filter scripts as arbitrary functions satisfying an elementwise law; prove that the staged result equals `List.filter` of the unfiltered list.
  *proved*: From the column names to the rows: classification of the filters by the manager, contexts given at each stage, and generation. The filters are those that can be evaluated (usable), elementwise, on a table in which a column determines those below it in the hierarchy; same conditions on generic filters and stored type as C01.
  Theorems: `C03_filters_by_meaning`, `C03_stages_meaning`, `C03_filtered_triplets`.
* **C04** Cascaded vector filters compute a conjunction. Model `vectorial_filter` literally (kept indices, context filtering), induction over the filter list.
  *proved*: The cascade on survivors is a conjunction, for any list of elementwise filters, and what each stage evaluates on columns is what it would evaluate line by line.
  Theorems: `C04_vector_filters`, `C04_block_filters`, `C04_stages_elementwise`.
* **C05** A column name used as a filter keeps the items whose column is true. Model `DBfun_Column.evaluate` returning a nested list and Python truthiness / `np.where` of a 2-D array; refuted by witness.
  *partial*: Refuted: at the block stages a column name accepts everything (proved for all by columns), at the item stages it keeps the first item several times.
  Theorems: `C05_column_filter_refuted`, `C05_column_filter_accepts_all`, `C05_item_column_refuted`.
* **C06** Block-level values are those of the block after generic filtering. The frame keeps labels after generic filtering and `iloc` is positional: refuted by witness (wrong row, and IndexError); positive theorem when labels are positions.
  *partial*: False of the code (three refuted theorems); holds when the items kept by the generic filters come first in their by group.
  Theorems: `C06_block_values_refuted`, `C06_block_values_raise_refuted`, `C06_emptied_group_refuted`, `C06_block_values_partial`.
* **C07** Item indices survive storage in the task file. `cast` of indices to the type fitted to the number of triplets: refuted by a witness task; positive theorem under max index representable.
  *partial*: False of the code (refuted theorem); what is read back is the conversion of the triplets to the type fitted to their number.
  Theorems: `C07_storage_refuted`, `C07_storage_partial`.
* **C08** by_index partitions the triplet table. Model the generate_triplets loop with by_block_indices and deletion of empty blocks; invariant by induction on by blocks.
  *proved*: Any threshold; rows of each range are triplets of that by (exactly those, without threshold: C01).
  Theorems: `C08_by_index_partition`.
* **C09** Regressors are aligned with the triplets. `Task.v` models `_compute_regressors` and the gathers of every stage; `Task_reg_spec.v` states the columns of a block as functions of the three items of each triplet; proved by composing the gathers (`Task_align.v`). A regressors: two refuted theorems. Regressors of whole triplets: `Task_abx.v`.
  *partial*: Regressors of the by group, the block, B and X: proved for any threshold. Regressors of A: only when there is an ABX filter and a B or X regressor, or neither; false otherwise (two refuted theorems). Regressors of whole triplets always raise ValueError (C09_triplet_regressors_raise).
  Theorems: `C09_regressors_aligned_partial`, `C09_A_regressors_not_sorted_refuted`, `C09_A_regressors_lost_refuted`, `C09_triplet_regressors_raise`.
* **C10** Threshold caps every regressor group and samples without replacement. `sort_and_threshold` is modelled with the wrap to the index type and the real samplers; the mixed-radix code is injective when the combinations fit 63 bits, runs of equal codes are the groups, and the sampler theorems (C11-C13) count what is kept. Under the width condition `room`; refuted without. Without regressors of B and X generation does not depend on the threshold (Pipeline_thr.v, Threshold_ex.v).
  *partial*: Proved when the positions of the triplets of a block fit the integer type chosen for the number of regressor combinations; false otherwise (refuted theorem: repeated triplets). Without regressors of B and X the threshold has no effect at all (proved), so that triplets of a block sharing their regressors are not limited (refuted theorem). When the generation with a threshold ends is in C74.
  Theorems: `C10_threshold_partial`, `C10_threshold_repeats_refuted`, `C10_threshold_ignored`, `C10_threshold_without_regressors_refuted`.
* **C11** Sampling without replacement. Model both algorithms on arbitrary streams of draws; invariant of the loops.
  *proved*: Every random source, both algorithms, any element type that holds N-1; termination for every source in which each integer keeps coming up.
  Theorems: `C11_distinct_sorted_in_range`, `C11_never_raises`, `C11_returns`.
* **C12** Hypergeometric draws are feasible. Model the symmetry reductions and the bound on the accepted proposal; arithmetic.
  *partial*: Proved in all cases but one (a request of no item when one item remains and it must be drawn), where the code returns 1 (refuted theorem). The float comparisons of the acceptance test are arbitrary outcomes.
  Theorems: `C12_feasible`, `C12_never_raises`, `C12_returns`, `C12_every_feasible_count_possible`, `C12_empty_piece_refuted`.
* **C13** Incremental sampling draws exactly K items in total. State machine (N,K); invariant over the request list, using C11/C12 as the only facts about draws; the edge case N=1,n=0 is refuted.
  *proved*: Every list of requests, every random source, every outcome of the acceptance tests; populations up to 2^63. Conditional on the random loops returning.
  Theorems: `C13_exactly_K`, `C13_pieces_in_place`, `C13_never_raises`, `C13_next`, `C13_constructor`.
* **C14** Chosen integer type holds the value and is the smallest one. Direct case analysis over Z.
  *proved*: For every n and signedness; numpy conversions modelled as reduction modulo 2^bits.
  Theorems: `C14_fit_is_narrowest`, `C14_values_up_to_n_survive`.
* **C15** Pair codes are a bijection. Arithmetic over Z with explicit casts.
  *proved*: Whenever a type is found for the codes (any by with at most 2^32 items): the stored codes are exact, decode to the two items and are distinct for distinct pairs; numpy conversions modelled as reduction modulo 2^bits.
  Theorems: `C15_codes_do_not_overflow`, `C15_codes_decode`, `C15_codes_injective`, `C15_block_codes`.
* **C16** unique_pairs lists every needed pair exactly once. Model pair writing, chunked counting and chunked unique over an arbitrary chunking; strictly sorted + same set.
  *proved*: For every list of triplets of every by, any argsort, any buffer lengths of at least one row: the block of each by holds each A-X and B-X pair exactly once, the blocks are consecutive, and decoding gives the pairs back.
  Theorems: `C16_pairs_of_every_by`, `C16_decoded_pairs`.
* **C17** External sort sorts. Model chunk extraction, the k-way merge on buffers (using the H52NP model for reading) and final flush; invariant 'written <= everything left'.
  *proved*: Any stable or unstable argsort; any chunk and output buffer lengths that let the sort return.
  Theorems: `C17_keys_sorted`.
* **C18** Companion datasets follow the sort keys. Same model on rows (key, payload): permutation of rows.
  *proved*: All companion datasets, as one list of whole rows; multiset and row pairing.
  Theorems: `C18_companions_follow`, `C18_rows_permuted`.
* **C19** External sort terminates. Measure argument for positive buffer rows; refuted for zero buffer rows (fuel-independent loop).
  *partial*: The outcome is characterised for every budget of at least one row; when the budget rounds to zero rows the chunk loop never ends (refuted theorem).
  Theorems: `C19_sort_outcome`, `C19_length_mismatch_raises`, `C19_tiny_budget_never_returns_refuted`.
* **C20** Buffered reading is transparent. State machine (dataset_ix, buf_ix, buffer); abstraction = remaining rows; refinement for every sequence of reads.
  *proved*: H52NP and H5dataset2NP readers, for every dataset, sub-range, buffer length >= 1 and sequence of requests; file access itself is a list.
  Theorems: `C20_iteration_yields_the_rows`, `C20_read_returns_the_next_rows`, `C20_reading_zero_rows_raises`, `C20_buffer_uses_the_budget`.
* **C21** Buffered writing is transparent. State machine of the write buffer; abstraction = rows written so far; refinement for every sequence of writes.
  *proved*: Growable datasets, fixed-size datasets and the write-then-resize use of the task generator; an empty buffer (row larger than twice the budget) makes write loop for ever (refuted case).
  Theorems: `C21_growable_holds_what_was_written`, `C21_resized_holds_what_was_written`, `C21_buffer_uses_the_budget`, `C21_empty_buffer_never_returns_refuted`.
* **C22** Incomplete fixed-size datasets are reported. Same model, `__exit__`.
  *proved*: Success exactly when the announced number of rows was written.
  Theorems: `C22_complete_fixed_size_is_accepted`, `C22_incomplete_fixed_size_is_reported`.
* **C23** Datasets are removed when writing fails. Same model, error exit: refuted.
  *partial*: False of the code: the datasets stay in the file and a second attempt raises (both refuted theorems); nothing weaker is claimed.
  Theorems: `C23_dataset_survives_a_failure_refuted`, `C23_second_attempt_fails_refuted`.
* **C24** Distance jobs cover every pair exactly once. Model splitting and greedy assignment; every (by,index) counted once.
  *proved*: Every list of by sizes, every number of cpus, every argsort; the sizes are int64 in the code and unbounded here.
  Theorems: `C24_jobs_cover`, `C24_jobs_created`.
* **C25** Distance jobs are balanced. Greedy invariant on loads.
  *proved*: Stated pair by pair: no range exceeds the rounded up share, and without any one of its ranges a cpu has no more pairs than any other cpu, which gives the bound of the property.
  Theorems: `C25_jobs_balanced`.
* **C26** Distance file does not depend on the number of cpus or their interleaving. Labelled transition system of workers; commuting disjoint writes; any schedule.
  *proved*: Every interleaving of the steps of the workers (the lock is modelled), every number of cpus, every deterministic distance function that may raise; features and times are arbitrary types. A run that ends without raising wrote every row; it cannot raise when the features are there and the distance function does not raise.
  Theorems: `C26_returned_complete`, `C26_same_distances`, `C26_returns`.
* **C27** 'done' means complete. File states as events; every prefix; refuted for n_cpu > 1.
  *partial*: done implies complete at every moment, and done is set with one cpu. False with more cpus: done is never set (general theorem, and a refuted theorem with a concrete run).
  Theorems: `C27_done_complete`, `C27_not_done_at_start`, `C27_done_one_cpu`, `C27_never_done`, `C27_done_on_return_refuted`.
* **C28** Job ranges are usable as slices. Python numbers int/float as a sum type; refuted above the float cap, positive below.
  *partial*: Holds when the share of a cpu or every by fits in the buffer (12,500,000 pairs). Otherwise all bounds are floats (general theorem) and reading the pairs raises TypeError (refuted theorem).
  Theorems: `C28_ranges_slices_partial`, `C28_ranges_floats`, `C28_ranges_slices_refuted`.
* **C29** No deadlock among distance workers. Lock transition system; mutual exclusion invariant, progress; refuted with an exception inside a critical section.
  *partial*: Mutual exclusion, boundedness and absence of deadlock for every schedule provided that nothing is raised while the lock is held. An exception there blocks the other workers for ever (refuted theorem, with a missing dataframe).
  Theorems: `C29_exclusive`, `C29_bounded_moves`, `C29_no_deadlock_partial`, `C29_no_deadlock_refuted`.
* **C30** Item features are the frames between onset and offset. List filter characterisation with inclusive bounds.
  *proved*: Any ordered type of times; the h5features reader itself is not modelled: a features file is a list of files with their times and frames.
  Theorems: `C30_frames_of_item`.
* **C31** DTW returns the cost of an optimal alignment. Generic ordered cost domain; DP table = minimum over inductively defined paths.
  *proved*: For every totally ordered set of costs with a monotone addition (hence also rounded additions), every cost matrix and every initial contents of the work array; empty sequences raise.
  Theorems: `C31_optimal`, `C31_empty`.
* **C32** Normalised DTW divides by the length of an optimal alignment. Trace-back returns the length of an optimal path; bounds on path lengths.
  *proved*: The value returned with normalized=True is the minimal cost divided by the length of an alignment of minimal cost.
  Theorems: `C32_normalised`.
* **C33** DTW is symmetric. Transposition of paths; normalised version refuted by a witness matrix.
  *partial*: Proved without normalisation, and with it when all alignments of minimal cost have the same length. Refuted otherwise by a 2-valued cost matrix: 3/4 one way and 3/5 the other.
  Theorems: `C33_symmetric`, `C33_normalised_partial`, `C33_normalised_refuted`.
* **C34** Score is the sign of the distance comparison. Binary search on the strictly sorted pair slice; composed with C16 and C26.
  *partial*: Proved for at most 94,906,265 items per by, any sorting rank and any tie order. Beyond that the pair codes are uint64 and np.searchsorted against them goes through float64, and C34_scores_refuted shows a wrong score on such a by.
  Theorems: `C34_scores_partial`, `C34_scores_refuted`.
* **C35** Score of exchanged triplets is opposite. Corollary of C34.
  *proved*: Exchanging A and B of a triplet gives the opposite score, for any asymmetric comparison of the distances.
  Theorems: `C35_exchanged_opposite`.
* **C36** Outputs are never overwritten. File-system guard model.
  *proved*: The API functions generate_triplets, score and compute_distances on outputs that exist. compute_distances refuses the file but first sets its 'done' flag to False, which the theorem says. The command line mains, which remove existing outputs, are the subject of C64.
  Theorems: `C36_score_refuses`, `C36_score_keeps_files`, `C36_task_refuses`, `C36_distances_refuse`.
* **C37** Analysis groups triplets by regressor values. Model collapse/unique/npdecode; run lengths of a sorted key list are the fibres of the key.
  *partial*: Proved up to 2^53 combinations of levels within a by, for every argsort and every rounding exact on integers up to 2^53. Beyond, false: 64 binary regressors merge two combinations into one line, 54 make the analysis raise IndexError. Means are exact rationals; the text of the result file is in C69.
  Theorems: `C37_groups_partial`, `C37_groups_refuted`, `C37_analysed_refuted`.
* **C38** Analysis accounts for every triplet and scores are proportions. Corollary with sums over rationals.
  *proved*: C38_every_triplet_counted and C38_total hold for any number of combinations; C38_proportions ties each line to its combination.
  Theorems: `C38_every_triplet_counted`, `C38_total`, `C38_proportions`.
* **C39** Group keys decode to the regressor indices. Mixed radix encode/decode; wrap at 2^64 and float rounding beyond 2^53 refuted.
  *partial*: npdecode inverts the keys up to 2^53 combinations with float64 arithmetic; C39_decode_refuted shows a wrong decoding at 2^54.
  Theorems: `C39_keys`, `C39_decode_partial`, `C39_decode_refuted`.
* **C40** Whole pipeline computes the ABX error definition. Pipeline.v: the task file made from an item table, as the other three steps read it. Composition of C01, C09, C15, C16, C26, C34, C37 against a specification on the item table, the features and the distance function only (Pipeline_spec.v). Pipeline_file.v is stated for any selection of triplets that the file lists; Pipeline_thr.v gives the selection with and without a threshold.
  *proved*: make_file composes task creation, triplet generation, regressor groups and unique pairs; then compute_distances, score and analyze of their own models run on the file. Without a threshold, or without regressors of B and X, the lines are those for all the triplets; with a threshold and such regressors they are those for the triplets listed in the file, which are min(t, number) for each block and values of the regressors (under the width condition of C10). Conditions: the conditions of C01 on filters, item numbers and the order of kept items; at most 94906265 items; regressors of A in order or absent (C09); at most 2^53 combinations; 64 bytes per triplet fit in 3 times the memory given, or 10^9 bytes and 10^14 triplets; no two bys have the same str(); < is asymmetric on distances (so nan is allowed and counts as a tie). The names of the regressors and the labels must be in ASCII (C68). The text of the result file is in C69. C40_result_file adds the text of the result file (C69). C40_threshold_file is the text with a threshold.
  Theorems: `C40_result`, `C40_task_file_made`, `C40_distances_return`, `C40_threshold_chosen`, `C40_threshold_result`, `C40_threshold_distances_return`, `C40_result_file`, `C40_threshold_file`.
* **C41** Item features stay attached to their labels when incomplete rows are dropped. Model row dropping and positional re-indexing: refuted; positive when only trailing rows are dropped.
  *partial*: Proved when the dropped lines are the last ones; with a dropped line before a kept one the task cannot be built (IndexError), or, when a by filter drops the block of the last line, items silently get the place of another line: refuted. Text parsing by pandas is not modelled.
  Theorems: `C41_header`, `C41_load`, `C41_load_total`, `C41_trailing_lines_partial`, `C41_blocks`, `C41_inner_line_refuted`, `C41_wrong_place_refuted`.
* **C42** Extended column names are unambiguous. Strings; underscore-free prefix lemma.
  *proved*: Unicity, parsing, rejection, and the link with the check of the item file.
  Theorems: `C42_extended_names_unique`, `C42_parse`, `C42_parse_only`, `C42_names_checked`.
* **C43** Extensions are rejected unless they make sense. Decision table; refuted for _AX and _AB.
  *partial*: The exact condition of acceptance and the exceptions are proved; that _AB and _AX are accepted exactly where the two items share the value is refuted (comparison with 'AB' without underscore, _AX restricted to across columns).
  Theorems: `C43_columns`, `C43_accepted_partial`, `C43_rejected`, `C43_extensions_refuted`.
* **C44** Uniform time warping uses each frame of the longer sequence once. Rational model of the coordinates; weights per frame; index bounds.
  *partial*: The matching, its order, symmetry, equal lengths and exceptions are proved for every rounding of relative precision 2^-53. That the matched frames are those around the middle is proved without rounding and refuted for float64 (lengths 14 and 25).
  Theorems: `C44_matching`, `C44_symmetric`, `C44_same_length`, `C44_ideal_partial`, `C44_ideal_refuted`, `C44_empty`.
* **C45** Cosine distance is a bounded symmetric angle. Real numbers, Cauchy-Schwarz for lists.
  *proved*: In real arithmetic (the code's rounding is not modelled): the distance is the angle in half turns; zero frames, range, symmetry, when it is 0, 1/2 and 1; refused arguments; the normalised variant.
  Theorems: `C45_angle`, `C45_range`, `C45_symmetric`, `C45_extremes`, `C45_types`, `C45_normalized`, `C45_not_a_number`, `C45_normalized_zero_sum`.
* **C46** Kullback-Leibler family. Real numbers, ln x <= x-1.
  *proved*: In real arithmetic: values of all the variants, bounds, symmetry, when they are 0 (or 1), refused arguments, and that zeros without threshold give no number.
  Theorems: `C46_kl_value`, `C46_kl_laws`, `C46_kl_symmetric`, `C46_js_value`, `C46_sqrt_js_value`, `C46_js_laws`, `C46_sqrt_js_laws`, `C46_hellinger_value`, `C46_hellinger_laws`, `C46_kl_points`, `C46_js_points`, `C46_kl_zero`, `C46_js_zero`, `C46_refused_types`, `C46_refused_sums`, `C46_refused_width`, `C46_itakura_saito`, `C46_itakura_saito_types`.
* **C47** In-place normalisation does not change later distances. Normalisation is idempotent in exact arithmetic; state machine over a feature store.
  *proved*: In real arithmetic, for arrays without zero-sum frame, any sequence of calls with any of the metrics on shared arrays, also a pair of an array with itself. In floating point a second division by a sum close to 1 may change the last digits.
  Theorems: `C47_history`, `C47_effect`.
* **C48** Indexed storage round-trips. Model of H5IO key computation; injectivity below 2^64, refuted above.
  *partial*: Labels and positions, any number of batches, any widths; keys of fused datasets are injective up to 2^64 combinations. False beyond that (C48_fused_refuted: the check of the code is dead), and two datasets that share an index and are not fused cannot be written (C48_shared_index_refuted). HDF5 and the write buffers (property C20) are taken as rows written in order. Data under other names, short lists, unknown labels and numbers for indexed datasets are refused with ValueError. Names or labels out of ASCII are refused with ValueError (C48_not_ascii). Fused datasets and datasets without index are unreachable with h5py 2, see C72.
  Theorems: `C48_labels_partial`, `C48_positions_partial`, `C48_declared_list`, `C48_declared_dict_partial`, `C48_rejected`, `C48_not_ascii`, `C48_shared_index_refuted`, `C48_fused_refuted`, `C48_other_names_rejected`, `C48_short_list_rejected`, `C48_unknown_label_rejected`.
* **C49** Lookup tables answer with the entry stored under the queried key. Model of creation, fill, write, get_keys, pack and evaluate with the state an exception leaves; mixed radix keys are injective; binary search on sorted keys.
  *partial*: Tables whose synopsis is consistent, filled in any number of batches (iterate or not), packed and queried: the answers are those of an entry stored for the queried inputs, in query order; unknown labels, missing inputs, unpacked tables raise (IndexError for inputs after all entries, since the boundary test comes too late). False of new files: creation never succeeds (C49_creation_refuted), an empty table cannot be filled with Python 3 (C49_python3_refuted), and a fill that raises leaves keys that are later answered with zeros (C49_failed_fill_refuted). Computing missing entries with the code is not modelled: the code stored in the file is never loaded.
  Theorems: `C49_answers_partial`, `C49_fills_partial`, `C49_iterate_partial`, `C49_unknown_partial`, `C49_after_partial`, `C49_missing_partial`, `C49_unpacked_partial`, `C49_refill_partial`, `C49_misfit_partial`, `C49_specs_partial`, `C49_creation_refuted`, `C49_creation_raises`, `C49_python3_refuted`, `C49_failed_fill_refuted`.
* **C50** Task generation is repeatable. Two runs of the C08 model on the mutated state.
  *proved*: From the state left by the first call; triplets, by_index and bys (the pairs are a function of them: C16).
  Theorems: `C50_generation_repeatable`.
* **C51** Feature conversion writes every file once, in order. Loop over batches, with the posix path functions on texts (`Text.v`).
  *proved*: Batches, names and order; the loader and the writer are parameters.
  Theorems: `C51_all_files_once`, `C51_convert`, `C51_failure`.
* **C52** Synthetic item files are balanced. Counting digits of i in base b.
  *proved*: Both generators, from the text of the file; random features are not modelled, only their file names.
  Theorems: `C52_balanced`, `C52_table`, `C52_named_balanced`, `C52_named_table`, `C52_sources_distinct`, `C52_verified`.
* **C53** Result comparison detects differences. `list.sort()` returns None: refuted.
  *partial*: Refuted: `list.sort()` returns None, so any two readable files are found equal.
  Theorems: `C53_always_equal_refuted`.
* **C54** Column hierarchy traversal visits every node once. Inductive trees; traversals are permutations of the nodes.
  *proved*: Navigation, search, counting, depth and construction. Methods that modify a tree and the selection by attributes are the subject of C83.
  Theorems: `C54_pre_order`, `C54_post_order`, `C54_find_child`, `C54_find_forwards`, `C54_find_backwards`, `C54_next`, `C54_previous`, `C54_path_to_root`, `C54_path_from_root`, `C54_depth`, `C54_count`, `C54_names`, `C54_built`.
* **C55** Sampling without replacement favours no subset. Counting vectors of draws by induction over the sequential loop (binomial coefficients by Pascal's rule); equivariance of the rejection loop under relabelling.
  *proved*: Sequential algorithm: exact counting for draws with a denominator divisible by 1..N; rejection algorithm: equivariance under every permutation.
  Theorems: `C55_sequential_uniform`, `C55_rejection_equivariant`.
* **C56** Auxiliary files give attributes to the items. Model of load_aux_dbs: refuted; the exception is proved exactly.
  *partial*: Refuted: the recursive call lacks an argument, so an auxiliary file always makes the loading fail. Which exception is raised is proved exactly.
  Theorems: `C56_auxiliary_file_refuted`, `C56_first_auxiliary_file`.
* **C57** Verification accepts the item files whose sources have features. Model of check on texts; tabulations refuted.
  *partial*: The exact condition of acceptance is proved; sources followed by a tabulation are refused: refuted.
  Theorems: `C57_check`, `C57_sources_partial`, `C57_tabulation_refuted`.
* **C58** The default distance is the cosine distance along the best alignment. `default_distance` calls the models of dtw and of the cosine metric; costs of pairs of frames are mapped to real numbers (`Dtw_hom.v`) so that the theorems on least alignments apply; laws follow from those of the metric.
  *proved*: dtw (C29) composed with the cosine metric (C45, real numbers). Arrays are of a floating point type; symmetry with normalisation is false in general because the number of steps of the alignment that is found depends on the order (C30). Other types and different widths raise exceptions (C58_types).
  Theorems: `C58_value`, `C58_empty`, `C58_laws`, `C58_symmetric`, `C58_self`, `C58_types`.
* **C59** The dtw_kl distance compares the frames as distributions along the best alignment. `dtw_kl_distance` on a heap of arrays, as the metric changes its arguments.
  *proved*: dtw (C29) composed with the Kullback-Leibler metric (C46, real numbers) on a heap of arrays, so that both items may be the same array; the arrays then hold the distributions. Symmetry without normalisation.
  Theorems: `C59_value`, `C59_empty`, `C59_laws`, `C59_symmetric`.
* **C60** The option -d chooses the distance, the option -n its normalisation. Model of `run` on texts (`DistanceCommand.v`, os.path.split of posix) and of the calls with and without the keyword (`PyCall.v` binds arguments as Python does).
  *partial*: Names, module.function and directory/module.function are proved. False when the directory has a dot in its name: the argument is split at its first dot (C60_directory_refuted). Without -n the default distance raises TypeError, as does levenshtein with -n (C60_normalisation). Import is a parameter; the Levenshtein distance of frames is that of the editdistance library (a parameter).
  Theorems: `C60_names`, `C60_module`, `C60_directory_partial`, `C60_directory_refuted`, `C60_parts`, `C60_other_name`, `C60_normalisation`, `C60_levenshtein`.
* **C61** The distance command computes to a new file, and keeps the old one when refused. Model of `main` on a map from names to files.
  *partial*: The first half is proved (C61_runs; C61_fails for the exceptions of the choice of a distance). The second half is false: the output file is removed before the options are tested (C61_kept_refuted). Parsing of the command line is not modelled: the options are a record, -n and -j are integers.
  Theorems: `C61_runs`, `C61_fails`, `C61_exits`, `C61_kept_refuted`.
* **C62** ABXrun runs the four steps. Model of `bin/ABXrun.py` with Python values, dictionaries and the binding of arguments; the steps are parameters that change a state.
  *partial*: False: the program raises KeyError for all arguments, because it reads an argument that argparse stores under another name (C62_raises, C62_complete_run_refuted), and the function for the four steps raises TypeError, because the task has no argument called features (C62_steps_raise).
  Theorems: `C62_raises`, `C62_steps_raise`, `C62_complete_run_refuted`.
* **C63** The announced number of levels counts the types of triplets. Model of `compute_nb_levels` and `print_stats_to_stream` (`Levels.v`); whether pandas has `.ix` is a parameter; the specification lists the types of the triplets of the item file.
  *partial*: Proved for one across column (C63_levels) and, with A itself in place of its values, for none (C63_levels_no_across), and what is printed (C63_summary, C63_all_statistics). False with two across columns, where pairs that make no triplet are counted (C63_two_across_refuted; what is counted is C63_levels_several_partial), and with pandas from 1.0 on, where printing raises AttributeError (C63_new_pandas_refuted). With item filters the levels are not computed (C63_item_filters).
  Theorems: `C63_levels`, `C63_levels_no_across`, `C63_levels_several_partial`, `C63_two_across_refuted`, `C63_item_filters`, `C63_summary`, `C63_all_statistics`, `C63_new_pandas_refuted`.
* **C64** The task, score and analyze commands write to a new file, and keep the old one when they compute nothing. Model of the three `main` functions on a map from names to files (`StepCommands.v`), with the names and checks at the start of `generate_triplets` and `score`; the computations themselves are parameters here, they are the models of the other properties.
  *partial*: Proved: what each command computes from and writes to (C64_task, C64_task_stops, C64_stats_only, C64_score, C64_score_name, C64_analyze, C64_analyze_missing). False: --stats-only and refused tasks remove the named output (C64_stats_only_refuted, C64_task_kept_refuted), the score file cannot be omitted on the command line (C64_score_omitted_refuted), and its default name in the function score joins both directories (C64_score_name_refuted).
  Theorems: `C64_task`, `C64_task_stops`, `C64_stats_only`, `C64_stats_only_refuted`, `C64_task_kept_refuted`, `C64_score`, `C64_score_omitted_refuted`, `C64_score_name`, `C64_score_name_refuted`, `C64_analyze`, `C64_analyze_missing`.
* **C65** Filters and regressors given by a script have the value of the script. Model of `DBfun_Compute` on the syntax tree of the script (`Compute.v`), with the scopes of `exec` and `eval`; the specification is the usual meaning of the script with one environment (`Compute_spec.v`); calls and operators are any functions.
  *partial*: Proved when comprehensions use only their own variables and builtins, or with Python 3.12 or later (C65_value), with the inputs and what is refused. False otherwise: a column, an import or an assigned variable read inside a comprehension raises NameError (C65_value_refuted, C65_unbound) or is taken as a builtin (C65_builtin_refuted); a variable of a comprehension named as a column becomes an input (C65_inputs_refuted); with statements raise AttributeError (C65_with_refuted). Python is restricted to imports, assignments, expressions with primitives, conditionals and list comprehensions with one for, on values not modified in place.
  Theorems: `C65_value`, `C65_value_refuted`, `C65_unbound`, `C65_builtin_refuted`, `C65_inputs`, `C65_depends`, `C65_inputs_refuted`, `C65_no_value`, `C65_imports_only`, `C65_with_refuted`, `C65_file`, `C65_kinds`.
* **C66** A score file has one score per triplet. The model of `score` (C34) returns the score file together with the exception.
  *partial*: The number and range of the scores are proved for every outcome (C66_rows). That the file is complete is false after a failure: the file stays with zeros for the triplets not scored (C66_complete_refuted).
  Theorems: `C66_rows`, `C66_complete_refuted`.
* **C67** The index of a task file bounds the groups of triplets with the same regressors. The model of the task file (C01) with its index; the specification says when two rows of a block are separated by a bound. `TaskIndex_thr.v`: two generations with any thresholds write the same index.
  *partial*: The index is given exactly for tasks without threshold, up to the type it is stored in (C67_index_partial): it is that for the number of blocks, too small when a block has many triplets (C67_stored_refuted). With a threshold the bounds are those before the choice of triplets (C67_threshold_refuted). With any threshold and random source the index is that of the file without (C67_any_threshold).
  Theorems: `C67_index_partial`, `C67_stored_refuted`, `C67_any_threshold`, `C67_threshold_refuted`.
* **C68** Labels may contain any character. `H5io.v` refuses names and labels as `get_array` does; `Pipeline_ascii.v` follows the refusal to the task file.
  *partial*: The names and labels are converted to byte strings, which raises UnicodeEncodeError (a ValueError) out of ASCII. Proved: a task file is never made with such names or labels (C68_only_ascii), ValueError is raised as soon as there is a triplet (C68_others_rejected, without a threshold or without regressors of B and X); a task with ASCII labels that works fails after one accent is added (C68_any_label_refuted). Names and labels in ASCII are accepted and found as they are: C40. Which labels can be held is a parameter (plain); for strings it is plain_text, equal to ASCII only. NUL characters at the end of labels, which bytes arrays drop, are not modelled.
  Theorems: `C68_only_ascii`, `C68_others_rejected`, `C68_any_label_refuted`.
* **C69** The result file is a table of the lines of the analysis. `AnalyzeText.v` writes the text of `Analyze.v`'s lines; `AnalyzeText_spec.v` is a reader of tab separated tables, independent of the writer.
  *partial*: The text is modelled write by write, with the exception that ends it. Proved when no label, name, by or text of a number has a tab or a newline; labels of item files never have, since these separate the columns. Texts of labels and of scores are parameters; the integers are read by the decimal reader of the standard library. False of labels with tabs, which regressor scripts can give (C69_tab_refuted): nothing is quoted. The encoding of the file is not modelled.
  Theorems: `C69_readable`, `C69_failed`, `C69_tab_refuted`.
* **C70** A filter that is accepted can be evaluated. On the model of the managers of filters (C03): the names each stage is given are compared with those the filter uses.
  *partial*: Exact on computed filters: accepted filters are evaluated without exception unless they use a column determined by the by columns together with a plain column (the by columns are never added to the context of generic filters) or _AB of a column that nothing determines (compared with 'AB' without underscore): these always raise NameError. One filter at a time; filters that are columns are C05.
  Theorems: `C70_evaluated_partial`, `C70_by_and_plain_refuted`, `C70_lone_AB_refuted`.
* **C71** Labels and names of columns may contain slashes. `TaskGroups.v`: the groups of regressors written by `H5ioFile.v` under the paths of task.py and read back by analyze.py from the names; compared with the text of `AnalyzeText.v`; `TaskGroups_pipeline.v` applies it to the file made by `Pipeline.v`.
  *partial*: Proved for labels and names that are not empty and have no slash, for any file that has no group of regressors yet. C71_evaluation_partial says it of the groups of the task made from any item file, so that the result file of C40_result_file is the one made from the HDF5 groups. The groups are written with the model of H5IO files (C72) and the names are resolved as HDF5 does. False of a by label with a slash, unless another by comes before it in alphabetical order (C71_by_refuted: KeyError and an empty result file), and of a column name with a slash (C71_column_refuted: the task cannot be written). The exceptions are those of h5py 2.
  Theorems: `C71_groups_partial`, `C71_evaluation_partial`, `C71_by_refuted`, `C71_column_refuted`.
* **C72** H5IO files are created, written, closed and opened again without loss. Model of the names of HDF5 (`H5Names.v`: groups, attributes, datasets, resolution of paths, alphabetical listing) and of the constructor, loading and writing of H5IO as steps on a file (`H5ioFile.v`), whose values are those of `H5io.v`. Whether h5py can store a list of Python strings is a parameter (h5py 2 cannot).
  *partial*: Creation, loading and writing of groups whose datasets are all indexed and not fused, which is how ABXpy uses them. False otherwise: with h5py 2 datasets without index and fused datasets cannot be declared (TypeError), and fused datasets that are written cannot be opened again (misspelt key_weigths) with any h5py (C72_kinds_refuted); creating a group again raises RuntimeError but marks it as empty, after which its data cannot be written (C72_again_refuted); iterate=True never works on a new group (C72_iterate_refuted). Completing a closed group is refused with ValueError (C72_closed). Rows are in the file as soon as they are written (C21 for the buffers).
  Theorems: `C72_created_partial`, `C72_written_partial`, `C72_closed`, `C72_refused`, `C72_missing`, `C72_raw`, `C72_kinds_refuted`, `C72_again_refuted`, `C72_again`, `C72_iterate_refuted`.
* **C73** The distances given as examples compute distances. `ExampleDistances.v` binds the arguments of the calls as Python does (`PyCall.v`), with the models of dtw and of the metrics.
  *partial*: Proved of the distance of examples/complete_run.py (C73_complete_run). False of those of example_distances.py and of ABXrun.py: they call dtw without its argument normalized, so TypeError is raised as soon as both items have frames (C73_examples_raise, C73_examples_refuted); only items without frames have a distance. Real numbers as in C58.
  Theorems: `C73_complete_run`, `C73_examples_raise`, `C73_examples_refuted`.
* **C74** Generating triplets with a threshold ends, and without exception. On the model of C10 with its fuel: the results of generation are followed through the blocks (`Task_thr_total.v`), and every sampling is shown to end for fair random numbers or to be stuck for lack of distinct values of the integer type (`Task_thr_ends.v`); `overfull` (`Task_thr_spec.v`) says it of the item table.
  *partial*: No exception is raised (C74_never_raises). The generation ends when no group is overfull (C74_ends, for random numbers that go on giving all values) and never ends when one is (C74_never_ends): a group of more than 100 triplets, less than three fifths of which are asked for, with a threshold above the number of values of the integer type chosen for the regressor combinations. Witness: 448 triplets with the same regressors and a threshold of 257 (C74_ends_refuted).
  Theorems: `C74_never_raises`, `C74_ends`, `C74_never_ends`, `C74_ends_refuted`.
* **C75** Approximate statistics bound the exact ones and do not change what is generated. The model of the statistics (C02) with its flag: one step of the loop with the flag is a step of the task without item filters, so the counts are those of C02 for that task (`Task_approx.v`); the type of the file only grows.
  *proved*: C75_answers, C75_counts, C75_others, C75_same_file and C75_empty_file, under the conditions of C01 on filters and item numbers.
  Theorems: `C75_answers`, `C75_counts`, `C75_others`, `C75_same_file`, `C75_empty_file`.
* **C76** The result does not depend on how the evaluation is run nor on the order of the item file. `Pipeline_same_spec.v` says what one evaluation is (`evaluated`: the four models of C40 one after the other, everything that is not an input being arbitrary) and when results say the same. C40 gives the result of each evaluation as a function of the items; `Pipeline_same.v` carries the triplets of a by from one order of its items to the other.
  *partial*: C76_repeat and C76_order, under the conditions of C40; in both orders the lines kept by the generic filters must come first in each by. Without this an order can make the generation fail (C76_order_refuted). The levels of the regressors and their codes are the same in both evaluations.
  Theorems: `C76_repeat`, `C76_order`, `C76_order_refuted`.
* **C77** Only the order of the distances and the frames of the items count. As C76: the answers of C40 are compared triplet by triplet (`Pipeline_same_main.v`).
  *proved*: C77_distances and C77_features, under the conditions of C40.
  Theorems: `C77_distances`, `C77_features`.
* **C78** The lines of a by depend on the items of this by. As C76, for one by.
  *proved*: C78_bys, under the conditions of C40 for both item files, with the same levels of the regressors.
  Theorems: `C78_bys`.
* **C79** What features that are not finite numbers do to the distances. `Metrics.v` and `Dtw.v` with numbers that may be missing (`num`); a missing value is followed through the norms, the sums and the table of costs (`NotFinite_proofs.v`). The minimum of `Dtw.v` is the one of Cython, where a later argument is kept only when strictly less, so that it is right for nan.
  *proved*: C79_default_refuses and C79_default_number are the exact condition for the default distance; C79_kl_nan and C79_score_ties (under the conditions of C34). Numbers are ideal: overflows of finite values are not modelled.
  Theorems: `C79_default_refuses`, `C79_default_number`, `C79_kl_nan`, `C79_score_ties`.
* **C80** What the scores say about the features. `Pipeline_scores_spec.v` says when categories are apart and when items have the same frames, in terms of the distance function and of the frames inside the items. The scores are those of C40, written with the answers of the triplets (`Pipeline_scores.v`).
  *proved*: C80_range, C80_extremes, C80_perfect, C80_inverted, C80_blind and C80_reversed, under the conditions of C40.
  Theorems: `C80_range`, `C80_extremes`, `C80_perfect`, `C80_inverted`, `C80_blind`, `C80_reversed`.
* **C81** Regressors split the scores, they do not change their totals. As C80: the triplets of a by are split by their combinations of regressors, each being in one line.
  *proved*: C81_total, C81_regressors and C81_whole, under the conditions of C40.
  Theorems: `C81_total`, `C81_regressors`, `C81_whole`.
* **C82** Changes of the features that must not change the result. `Invariance_spec.v` says when features are rescaled, reordered and read backwards. The norms, products and sums of `Metrics.v` are followed through these changes; alignments are turned round for the last clause (`Invariance_proofs.v`). `Pipeline_map.v` carries a whole evaluation step by step to other frames and distances, which also makes the examples with real numbers possible: they are computed with rationals.
  *partial*: C82_scale_default, C82_scale_kl, C82_columns_default, C82_columns_kl for the distances; C82_louder and C82_columns for the lines of an evaluation with the default distance (conditions of C40), C82_evaluation for any relation between features and C82_same_way. C82_backwards for the distance that is not normalised; C82_backwards_refuted: two sequences whose normalised distance is 1/12, and 1/10 read backwards. Numbers are ideal.
  Theorems: `C82_scale_default`, `C82_scale_kl`, `C82_columns_default`, `C82_columns_kl`, `C82_backwards`, `C82_backwards_refuted`, `C82_evaluation`, `C82_louder`, `C82_columns`, `C82_same_way`.
* **C83** Trees of nodes stay trees when they are modified. `TreeHeap.v` models tinytree.py with objects in a memory (a function from numbers to fields), one definition per method; a method gives the memory when it ends and what it returns or raises. `TreeHeap_spec.v` has mathematical trees (`shape`), places inside a tree (`way`), and says when a memory holds trees that share no object (`forest`). Each method is proved to take a memory holding some trees to one holding the described trees (`TreeHeap_proofs.v`), and each query to give what it should of the tree at that place (`TreeHeap_walk.v`). Recursions along the objects have fuel; the number of objects of the tree is enough. Attributes called children or parent in searches are not covered; selectors are functions without effects.
  *partial*: Modifications, walks, searches, attributes and nested lists are proved for all memories that hold trees. Four expected clauses and dump are refuted.
  Theorems: `C83_add_child`, `C83_not_a_tree`, `C83_remove`, `C83_index`, `C83_root`, `C83_clear`, `C83_replace`, `C83_inject`, `C83_reparent`, `C83_somewhere`, `C83_walks`, `C83_siblings`, `C83_descendant`, `C83_descendant_refuted`, `C83_find_child`, `C83_find_parent`, `C83_find_forwards`, `C83_find_backwards`, `C83_neighbours`, `C83_find_attr`, `C83_attrs_to_root`, `C83_tree_prop`, `C83_set_prop`, `C83_add_children`, `C83_add_children_refused`, `C83_refused_list_refuted`, `C83_new_tree`, `C83_construct`, `C83_construct_refused`, `C83_second_parent_refuted`, `C83_cycle_refuted`, `C83_dump_refuted`.
* **C84** The default distance in the arithmetic of the machine is a number between its bounds. `FloatDistance.v` is the code of the default distance for any arithmetic (a record of operations); sums and dot products are functions of their numbers. `FloatDistance_spec.v` has the real numbers with a rounding of each operation, sums being made of rounded additions in any order; `Binary64.v` has the numbers float64 of the standard library. The product of two rounded norms that are not 0 is shown not to be rounded to 0, so quotients are defined; the alignments are those of C29 with rounded additions (`FloatDistance_proofs.v`, `FloatDistance_exact.v`).
  *partial*: C84_range, C84_empty, C84_types, C84_widths, C84_angles and C84_exact are proved. What is assumed of the rounding (record format) is derived for every rounding to nearest in a format with p digits, a least exponent and subnormal numbers, so for float32 and float64 (C84_formats, C84_integers, C84_float_range); overflow is not part of it (see C85_no_overflow for features in a range). The four refuted clauses are computed with the numbers float64 of the standard library (SpecFloat), for any functions arccos and division by pi.
  Theorems: `C84_range`, `C84_empty`, `C84_types`, `C84_widths`, `C84_angles`, `C84_exact`, `C84_self_refuted`, `C84_nearest_refuted`, `C84_overflow_refuted`, `C84_underflow_refuted`, `C84_formats`, `C84_integers`, `C84_rounding_error`, `C84_float_range`.
* **C85** How far rounding takes the default distance from the one with real numbers. As C84, with relative errors instead of a format. Rounded sums in any order are bounded by induction on how they are built, the cosine by the Cauchy-Schwarz inequality, the angle by Jordan's inequality, the costs along the alignments (`FloatDistance_error.v`). `FloatDistance_jump.v` computes the example for the normalised distance. `FloatFormat_spec.v` has the numbers of a format and the roundings to nearest, `FloatFormat_proofs.v` derives from their definition what C84 and C85 assume of a rounding. `FloatRange_spec.v` adds overflow (a result above the largest number is no number). `FloatRange_proofs.v`: for features in the range, all the numbers of the computation are multiples of a power of 2 and below another one, so nothing underflows or overflows, and the distance is that of an arithmetic with relative errors.
  *partial*: C85_error, C85_normalised, C85_compare and C85_float64 are proved for any operations with the stated relative errors. C85_formats: such operations are those rounded to nearest to p digits. C85_no_overflow, C85_float_error and C85_float_compare: the same in formats with underflow and overflow, for features whose values are 0 or in a range (C85_ranges: from 2^-150 to 2^250 for float64, from 2^-12 to 2^16 for float32 and 1024 values in a frame); the additions and divisions of the alignments are taken without underflow. C85_normalised_refuted: items for which the normalised distance jumps.
  Theorems: `C85_error`, `C85_float64`, `C85_normalised`, `C85_compare`, `C85_normalised_refuted`, `C85_formats`, `C85_ranges`, `C85_no_overflow`, `C85_float_error`, `C85_float_compare`.
* **C86** The verbose option only adds messages, and these say how far the task is. `Progress.v` is the class of progress_display.py, with dictionaries as lists of pairs and the result of `os.isatty(sys.stdin.fileno())` as a parameter that may be an exception. `Verbose.v` is the making of a task and the generation of triplets of `Task.v` again, with the messages, in a monad of texts and exceptions. `Progress_spec.v` says what is shown from the history of the calls, and has a small terminal (control sequences, cursor, lines). `Verbose_spec.v` has the messages expected from the numbers of groups and blocks and from the sizes of the blocks. Induction on the loops: the display is a function of the number of blocks done and of the triplets counted (`Verbose_proofs.v`, `Verbose_gen.v`, `Verbose_main.v`). `VerboseFile.v` adds the messages of the pairs, of a whole task file and of `compute_nb_levels`; `VerboseFile_main.v` proves that nothing else changes and what is printed.
  *partial*: Same results: C86_same_task, C86_same_file, C86_same_whole_file (item file to task file), C86_same_levels; messages: C86_displays, C86_task_text, C86_file_text, C86_finished, C86_whole_text (with those of the pairs), C86_levels_text, C86_quiet_task, C86_quiet_file, C86_quiet_whole. With a closed standard input: C86_closed_task, C86_closed_file, C86_levels_closed. C86_terminal: on a terminal the same lines are shown as elsewhere. Three expected clauses are refuted. What has been printed before an exception is modelled but only stated for a closed standard input.
  Theorems: `C86_displays`, `C86_terminal`, `C86_terminal_refuted`, `C86_same_task`, `C86_task_text`, `C86_quiet_task`, `C86_closed_task`, `C86_stdin_refuted`, `C86_same_file`, `C86_file_text`, `C86_quiet_file`, `C86_finished`, `C86_again_refuted`, `C86_closed_file`, `C86_same_whole_file`, `C86_whole_text`, `C86_quiet_whole`, `C86_same_levels`, `C86_levels_text`, `C86_levels_closed`.
* **C87** What rounding, or another change of the answers, does to the results of an evaluation. The two evaluations are any that end in the pipeline of C42 (`evaluated`), so nothing new is modelled. `RoundEval_spec.v` has the bounds of what can be computed for an alignment, the triplets that are settled, and lines that are near. `RoundEval_lines.v`: a score is the mean of the weights of the answers of the triplets of the line, so it changes by the proportion of the changed answers at most. `RoundEval_proofs.v`: from the bounds of C85 along alignments, the answers of settled triplets are those with real numbers.
  *proved*: C87_answers and C87_same_answers are for any two evaluations; C87_rounding and C87_settled for the default distance, without overflow and underflow; C87_float_formats with them, for features in a range; C87_alignment and C87_compare are the distances they rest on. Triplets whose distances are equal as real numbers but whose items differ are doubtful: C84_nearest_refuted has such a pair for which rounding decides.
  Theorems: `C87_float_formats`, `C87_answers`, `C87_same_answers`, `C87_rounding`, `C87_settled`, `C87_alignment`, `C87_compare`.
* **C88** With a threshold, no selection of triplets is favoured. Nothing new is modelled: the samplers of `Sampler.v` and the generation of `Task.v` are run on the draws of `Chance_spec.v`. `Chance_law.v` follows the probability of the results of a computation that reads draws one after the other: what a sequence of two gives is the product, by a convolution of the numbers of draws read, so independent uniform choices make a uniform choice. `Chance_sample.v`: both algorithms favour no sample (the vectors of draws that give two samples are in bijection, and those that give none vanish in the limit). `Chance_runs.v`, `Chance_core.v`, `Chance_block.v` and `Chance_task.v` carry this from a group to the block, the by and the file; different choices give different files as no number is changed when stored.
  *proved*: C88_samples for the samples, C88_files_even and C88_every_choice for the files. Draws are uniform integers below a number L that is a multiple of all the integers up to the number of triplets, so that random integers are uniform; probabilities are limits of proportions of the vectors of draws. Numbers of triplets and of combinations of regressors are limited as in C10 (room, storable); beyond, C10_threshold_repeats_refuted. Without regressors of B and X the threshold is ignored (C10) and the only file is the whole one. C88_samples says as a probability what C55 says of the draws.
  Theorems: `C88_samples`, `C88_files_even`, `C88_every_choice`.
* **C89** With a threshold, the triplets of a group are kept with equal chances, so means over the kept ones are unbiased. Nothing new is modelled. `Expect_spec.v`: the mean of a number over the vectors of draws, its limit, and what a file lists. `Expect.v`: over equally likely results the expected value is the mean over the results, and a counting argument by exchange. `Expect_task.v`: two triplets of a group can be exchanged in a file, which gives another file that can be written (C88), so each triplet of the group is in as many files; the sum over the group is known from C10.
  *proved*: C89_kept_probability, C89_kept_mean and C89_files_by_triplets. Draws and limits are those of C88. A line of the results of an evaluation gathers triplets by all its regressors, also those of A; the statement is about the groups of the threshold, which are the groups it samples.
  Theorems: `C89_files_by_triplets`, `C89_kept_probability`, `C89_kept_mean`.
* **C90** With a threshold, the expected score of a line of the results is a weighted mean over all its triplets. Nothing new is modelled: the file is made by `Pipeline.make_file` on the draws of `Chance_spec.v`, then distances, scores and analysis are those of C40. `Unbiased_spec.v`: what an evaluation from a given task file can return, the score of a line, and the limit of the means of a number that may have several results for each vector of draws. `Unbiased_made.v`: from generated triplets the file is completed, and the rest of the evaluation can end. `Unbiased.v`: the score of a line is the mean of what the answers of the listed triplets of its combination are worth (C81), the number listed is the same for all draws (C10), so the expected value is that of a sum of indicators (C89). `Unbiased_main.v`: lines are made of whole groups, and equal weights give the score of C81 without threshold.
  *partial*: C90_expected_score for the weighted mean, C90_unbiased for equal shares, C90_whole_groups and C90_file_made. Partial because of the refuted clause only: C90_unequal_refuted has a line whose groups have shares 1 and 1/2, and its expected score. Draws and limits are those of C88. The mean is over all the results that can be obtained from the files drawn: the number of processes, the interleavings, the buffers and the names of the files can be different for each; C90_expected_score also says that such results exist.
  Theorems: `C90_file_made`, `C90_whole_groups`, `C90_expected_score`, `C90_unbiased`, `C90_unequal_refuted`.
* **C91** A negative threshold either fails or leaves no triplet at all. Nothing new is modelled: `Task.generate_triplets` takes any threshold, and `Sampler.sample_without_replacement` any number. `Task_neg.v`: both branches of the sampler on a negative number (`np.zeros` of a negative size raises, the loop of the rejection sampling is not entered), then by induction on the groups, blocks and by values, as in `Task_thr_ends.v`. The groups are those of the specification (`same_group`), not the runs of the program. `NegFile.v` follows the empty task through `Pipeline.make_file`, `Distances.compute_distances`, `Score.score` and `Analyze.analyze`.
  *partial*: C91_negative_raises and C91_negative_empty, which between them cover every task with a triplet and a regressor of B or X; C91_negative_file for the whole task file and what the distances, the scores and the analysis do with it. Partial because of the refuted clause only: C91_negative_threshold_refused_refuted. That h5py accepts to write empty datasets is assumed, as elsewhere in the model. The half made distance file counts as a file that is there; its absent data are not read by the scores.
  Theorems: `C91_negative_file`, `C91_negative_raises`, `C91_negative_empty`, `C91_negative_threshold_refused_refuted`.
* **C92** Sorting and thresholding codes keeps the right number of each, and counting in advance agrees. `Task.sort_and_threshold` and `Task.count_after_threshold` (the branch with count_only, which the program does not use). Proved in `Task_count.v` from the run lengths of `Task_sort.v`; the statements only count codes in the given list.
  *partial*: C92_kept, C92_all, C92_bounds, C92_counted. Partial because of the refuted clause only (C92_zero_refuted). The conversion of the positions to the type of the codes is the reason for the last condition, see C10 for what happens without it.
  Theorems: `C92_counted`, `C92_kept`, `C92_all`, `C92_bounds`, `C92_zero_refuted`.
* **C93** The columns of a task may be given in any order and form, and a column given twice leaves no triplet. `TaskArgs.v` models the constructor of `Task` on any arguments (`new_task`), with the check of the item file and of the columns; after the checks it is `task_init` of `Task.v`. Reading the item file is a parameter here (`Database.v` models it). Proved in `TaskArgs_main.v` from the exact triplets of C01: `wanted` only asks which columns are in across and by. Statements in `TaskArgs_spec.v`.
  *proved*: C93_forms, C93_accepted, C93_refused, C93_overlap, C93_same_columns. Tuples and other iterables given for across or by are not modelled. That pandas groups by a repeated column as by one column, with repeated keys, is part of what is assumed of it.
  Theorems: `C93_forms`, `C93_accepted`, `C93_refused`, `C93_overlap`, `C93_same_columns`.
* **C94** Found back in the item file, the triplets are the ABX triples of lines, and more by or across columns only remove some. No new model. `TaskLines_spec.v` numbers the lines of the item table and says when a file has the triplet made of three lines; `TaskLines_main.v` turns the exact triplets of C01, which count items inside by groups, into triples of lines, after which the relations between tasks are short.
  *proved*: C94_lines, C94_threshold, C94_finer_by, C94_more_across, C94_exchange. Item numbers must fit in the dataset (C07). The conditions on filters are those of C01.
  Theorems: `C94_lines`, `C94_threshold`, `C94_finer_by`, `C94_more_across`, `C94_exchange`.
* **C95** The overall score is that of the ABX triples of lines of the item file, whatever the by columns and regressors that split it. No new model. `TotalLines_spec.v` defines the answer for three lines of the item file without naming a task; `TotalLines_main.v` adds up the totals by by of C81 and carries them to lines with C94.
  *proved*: C95_whole, C95_fewer, C95_same, under the conditions of C76 to C81 (exact arithmetic of scores, by names distinct for distinct groups).
  Theorems: `C95_whole`, `C95_fewer`, `C95_same`.
* **C96** A filter or regressor is read from its text as a column, a lookup table or a script, and a task always has the regressors of its on and across columns. `FilterTexts.v` models the constructors of the filter and regressor managers on texts (`filter_fun`, `texts_manager`, `regressor_fun`, `default_regressors`, `regressor_manager`) and the indexed column function; it joins `Compute.v` (scripts) with `SideOps.v` (stages). Reading files, parsing Python and lookup tables are parameters here. Proved in `FilterTexts_main.v`; `FilterTexts_file.v` carries C03 over to texts (the triplets of the task file are those on which the filters given as texts are true); `FilterTexts_regressors.v` says which regressors given as texts are accepted and kept. A text given instead of a list of texts (which Python would take letter by letter) is not modelled.
  *proved*: C96_extended_names, C96_column, C96_table, C96_script, C96_known, C96_functions, C96_triplets, C96_accepted, C96_default_regressors, C96_regressor, C96_regressors_accepted, C96_regressors_kept, C96_codes, C96_codes_other. What the extensions should allow is C43 (partial); that a column given as filter does not filter is C05 (refuted).
  Theorems: `C96_extended_names`, `C96_column`, `C96_table`, `C96_script`, `C96_known`, `C96_functions`, `C96_triplets`, `C96_accepted`, `C96_default_regressors`, `C96_regressor`, `C96_regressors_accepted`, `C96_regressors_kept`, `C96_codes`, `C96_codes_other`.
* **C97** Regressors are named after their columns, numbered when they have no name, and one given by a script can be stored. RegressorInfo.v models what functions say of their outputs (column_specs, script_specs), fetch_regressor_info and get_regressor_info; TaskGroups.v (C71) models the groups declared with the result. RegressorInfo_main.v: the names are the concatenation of one block per function (info_names), the dictionary of indexes is characterised by the last occurrence of each key (info_indexes), RegressorInfo_texts.v: for a task whose regressors are texts of columns the names are those of the texts and of the default regressors and each has the values of its column (regressors_named); a second occurrence of a column leaves the group of regressors as it is (regressor_twice), and a name without values, in particular that of a script, makes the declaration of the group fail (without_index, script_regressor, C97_script_refuted). Trusted simplification: a function is reduced to the three values its output_specs returns.
  *partial*: Names, lists of values, regressors given as columns and the column asked for twice are proved. That a regressor given by a script can be stored is refuted. With h5py 2, where a list of texts cannot be an item of a file, declaring the group of regressors raises TypeError as soon as one dataset has no list of values (C97_without_index and C97_script, for every task file; C97_script_refuted, a witness). With an h5py that stores such lists and reads them back as texts (h5py 3 reads bytes, which is not modelled) the values are written at the root of the file, the analysis does not read them, and a second by cannot be written (C97_apart_refuted). The values a script computes are not modelled here.
  Theorems: `C97_names`, `C97_indexes`, `C97_columns`, `C97_twice`, `C97_without_index`, `C97_script`, `C97_script_refuted`, `C97_apart_refuted`.

## Checks of the model against runs of the program

`Frozen_data.v` holds the contents of the files in /repo/test/frozen_files, which a run of the program wrote.
`Frozen_ex.v` shows by computation that the model gives them: the item file; the triplets with their regressors
(equal as multisets for each by, since the program sorts the triplets of a block since then); the pairs, exactly; the scores, exactly, both from the
frozen distances and from the features (a distance is the arc cosine of a cosine there; the order of the cosines, which are compared exactly, gives the scores); and the text of the result of the analysis, character by character. The orders of sets and dictionaries, which
the model leaves open, are chosen as Python 2 had them.
`Tests_ex.v` shows by computation that the model passes the tests of test_task.py and test_dtw.py.

## What is modelled and what is not

Modelled: the whole chain from the item table to the analysed lines (`Pipeline.v`, composing the models below); `task.py` (database preparation, statistics, triplet and pair
generation, regressors, thresholding, sort_pairs; in `Task.v`, `Pairs.v`), with the
filter stages and regressor columns of `sideop/*` as lists of elementwise functions there, and
`sideop/side_operations_manager.py`, `sideop/filter_manager.py`, `sideop/regressor_manager.py` (`get_regressor_info` in `RegressorInfo.v`), `dbfun/dbfun_column.py` and the
evaluation of `dbfun/dbfun_compute.py` (a script is a function of the lines of its columns) in `SideOps.v`,
`misc/tinytree.py` (`Tree.v`: navigation and search in a tree that does not change; `TreeHeap.v`: all methods, on objects),
`h5tools/np2h5.py`, `h5tools/h52np.py`, `h5tools/h5_handler.py` (external sort),
`distances/distances.py` (jobs, workers, lock, output file, features of items),
`score.py` (function `score`; `os.path.splitext` is a parameter),
`analyze.py` (npdecode, collapse, unique, analyze; means are exact rationals; the text of the result file is
in `AnalyzeText.v`; `unique_rows` is unused),
`h5tools/h5io.py` (a new group: declarations, writing of labels and positions, fused keys in `H5io.v`; files, creation,
loading and writing in `H5ioFile.v`; `find` and sorting are not modelled),
`distances/metrics/dtw/dtw.pyx` (`_dtw`, with the cost matrix as data),
`distances/metrics/dtw.py`, `distances/metrics/utw.py` (frame distances as a parameter),
`sampling/sampler.py`, `misc/type_fitting.py`, `database/database.py` and the splitting of the
item table into by blocks with their features (`Database.v`; cells are codes, the parser is not
modelled), `distances/metrics/cosine.py` and `distances/metrics/kullback_leibler.py` (`Metrics.v`: real
numbers, anything that is not a finite number is one value; arrays with a single column are not
broadcast), `dbfun/dbfun_lookuptable.py` (`LookupTable.v`; element types of outputs that are not indexed and
the arrays resized in place are not modelled), `misc/any2h5features.py`, `misc/items.py` and `verify.py` on texts,
`distance.py` (`DefaultDistance.v`, `DistanceCommand.v`; the options as argparse leaves them) and `bin/ABXrun.py` (`RunAll.v`); `distances/example_distances.py` (`ExampleDistances.v`); the number of levels and the printed statistics (`Levels.v`); the commands of task.py, score.py and analyze.py (`StepCommands.v`; the options as argparse leaves them); `dbfun_compute.py` on syntax trees (`Compute.v`).


Not modelled: command line parsing by argparse, the parsing of scripts
into syntax trees (outside `Compute.v` a script is an arbitrary function),
`lookuptable_connector.py` (not reachable with Python 3, see C65), pandas' text parser, HDF5 itself (compression, chunk cache, on-disk
format), the h5features reader, multiprocessing's transport, the external
`editdistance` library, floating-point rounding inside the Kullback-Leibler and
Jensen-Shannon metrics (for the cosine and the default distance see C84 and C85: `FloatDistance.v`,
roundings to nearest in formats of floats; the functions arccos of the machine are arbitrary).
