{"id": "C01", "title": "Triplets are exactly the ABX triplets of the task definition", "statement": "For a task without filters and threshold, the rows written to /triplets/data for a 'by' value are exactly the index triples (A,B,X) of that by block with on(A)=on(X), on(B)!=on(A), and: with one ACROSS column across(A)=across(B) and across(X)!=across(A); with several ACROSS columns all of them equal between A and B and every one of them different between X and A; with no ACROSS column no further condition than A, B, X being items of the block with A!=X. Every such triple appears exactly once. (Provided the item indices fit the type of the dataset, which is the subject of C07.)", "quantifier": "every item table, every choice of ON / ACROSS (none, one, several) / BY columns, every by block, every enumeration order of Python sets, every triple of item indices", "why_tests_cant": "the set of item tables is unbounded; a test compares one table with one precomputed list, and set iteration order is not under the test's control", "anchors": ["ABXpy/task.py:Task.on_across_triplets", "ABXpy/task.py:Task._compute_triplets", "ABXpy/task.py:Task._init_prepare_database", "doc/FilesFormat.rst"]}
{"id": "C02", "title": "Announced number of triplets equals the number generated", "statement": "task.stats['nb_triplets'] (and the per-by nb_triplets and block_sizes) equals the number of rows that generate_triplets writes when no threshold is given, both in the closed-form counting branch and in the exact counting branch.", "quantifier": "every item table, task columns, staged filters, set enumeration order", "why_tests_cant": "two different algorithms (a product formula from group sizes and the actual enumeration) have to agree for every table", "anchors": ["ABXpy/task.py:Task.compute_statistics", "ABXpy/task.py:Task.generate_triplets"]}
{"id": "C03", "title": "Filtered task = unfiltered task with the non-matching triplets removed", "statement": "With computed (scripted) filters the generated triplets are exactly the triplets of the unfiltered task all of whose filters evaluate to true on that triplet, whatever internal stage (by, on/across/by, A, B, X, ABX) each filter is applied at. (When generic filters keep a prefix of each by block, see C06, and the item indices fit the type of the dataset, see C07.)", "quantifier": "every item table, every list of elementwise filters over extended columns, every triplet", "why_tests_cant": "filters are evaluated at seven different places by different code; tests only try a handful of filter strings", "anchors": ["ABXpy/sideop/side_operations_manager.py:SideOperationsManager.add", "ABXpy/sideop/filter_manager.py:FilterManager", "ABXpy/task.py:Task.on_across_triplets"]}
{"id": "C04", "title": "Cascaded vector filters compute a conjunction", "statement": "A list of vector filters applied one after the other, each one only to the survivors of the previous ones, keeps exactly the positions on which all of them are true, in increasing order and without repetition.", "quantifier": "every list of elementwise filters and every context of columns", "why_tests_cant": "the lazily evaluated generator reads a context that is mutated between two evaluations; only a proof covers all numbers of filters and survivors", "anchors": ["ABXpy/sideop/filter_manager.py:vectorial_filter"]}
{"id": "C05", "title": "A column name used as a filter keeps the items whose column is true", "statement": "Giving the name of a boolean database column as filter keeps exactly the items (or blocks) for which that column is true.", "quantifier": "every item table and boolean column", "why_tests_cant": "no test uses a column-name filter; the defect depends on truthiness of nested lists", "anchors": ["ABXpy/dbfun/dbfun_column.py:DBfun_Column.evaluate", "ABXpy/sideop/filter_manager.py:singleton_filter", "ABXpy/sideop/filter_manager.py:vectorial_filter"]}
{"id": "C06", "title": "Block-level values are those of the block after generic filtering", "statement": "The values handed to on/across/by filters and regressors for an on/across block are the values of an item of that block, also when a generic filter removed items of the by block.", "quantifier": "every item table and generic filter", "why_tests_cant": "depends on which items the generic filter removes; a filter keeping a prefix of the table (as in the test-suite) hides it", "anchors": ["ABXpy/task.py:Task.compute_statistics", "ABXpy/task.py:Task._compute_triplets", "ABXpy/task.py:Task._init_prepare_database"]}
{"id": "C07", "title": "Item indices survive storage in the task file", "statement": "Reading /triplets/data back gives the item indices that were generated.", "quantifier": "every number of triplets and item count of a by block", "why_tests_cant": "the storage type is chosen from the number of triplets, so the failure needs few triplets over many items", "anchors": ["ABXpy/task.py:Task.generate_triplets", "ABXpy/misc/type_fitting.py:fit_integer_type"]}
{"id": "C08", "title": "by_index partitions the triplet table", "statement": "After generate_triplets, 'bys' lists the by values that have at least one triplet, and /triplets/by_index gives for the k-th of them consecutive row ranges that start at 0, are non-empty, end at the number of rows, and contain exactly the triplets of that by value.", "quantifier": "every sequence of by blocks, including empty ones at any place", "why_tests_cant": "interaction of empty by blocks with positional numbering of the others", "anchors": ["ABXpy/task.py:Task.generate_triplets"]}
{"id": "C09", "title": "Regressors are aligned with the triplets", "statement": "Row i of every regressor stored for a by value is the value of that regressor for the triplet in row i of that by value (by, on/across/by, B and X regressors; A regressors too).", "quantifier": "every item table, regressor list, ABX filter, argsort tie-breaking, threshold sampling", "why_tests_cant": "alignment goes through three gather permutations whose composition differs by regressor kind; tie-breaking of the sort is unspecified", "anchors": ["ABXpy/task.py:Task._compute_regressors", "ABXpy/task.py:Task.on_across_triplets"]}
{"id": "C10", "title": "Threshold caps every regressor group and samples without replacement", "statement": "generate_triplets(threshold=t) keeps, for each combination of B and X regressors in an on/across/by block, min(count, t) distinct triplets of that combination, all of them taken from the unthresholded ones.", "quantifier": "every block, every grouping, every threshold, every random stream", "why_tests_cant": "random sampling: a test sees one stream; index arithmetic is done in a small integer type chosen from something else", "anchors": ["ABXpy/task.py:sort_and_threshold", "ABXpy/sampling/sampler.py:sample_without_replacement"]}
{"id": "C11", "title": "Sampling without replacement", "statement": "sample_without_replacement(n, N) with n <= N returns n distinct integers of [0,N) in increasing order, in both the sequential and the rejection algorithm, for every random stream.", "quantifier": "every n <= N, every stream of uniform draws", "why_tests_cant": "randomness; extreme draws (0, or just below 1) have negligible probability in a test", "anchors": ["ABXpy/sampling/sampler.py:sample_without_replacement", "ABXpy/sampling/sampler.py:Knuth_sampling", "ABXpy/sampling/sampler.py:rejection_sampling"]}
{"id": "C12", "title": "Hypergeometric draws are feasible", "statement": "hypergeometric_sample(N, K, n) always returns a k with max(0, n-(N-K)) <= k <= min(n, K).", "quantifier": "every 0<=K<=N, 0<=n<=N, every accepted proposal of the rejection loop", "why_tests_cant": "the symmetry reductions give four cases and the proposals are random", "anchors": ["ABXpy/sampling/sampler.py:hypergeometric_sample"]}
{"id": "C13", "title": "Incremental sampling draws exactly K items in total", "statement": "Calling IncrementalSampler(N,K).sample(n1), sample(n2), ... with sum(ni)=N returns increasing, distinct, in-range (relative or absolute) items, and exactly K of them in total.", "quantifier": "every N, K, every way to cut N into requests, every random stream, every internal chunking", "why_tests_cant": "history-dependent and random; the property is about all request sequences", "anchors": ["ABXpy/sampling/sampler.py:IncrementalSampler.sample", "ABXpy/sampling/sampler.py:IncrementalSampler.simple_sample"]}
{"id": "C14", "title": "Chosen integer type holds the value and is the smallest one", "statement": "fit_integer_type(n, is_signed) returns the smallest 8/16/32/64-bit type in which n (n>=0) is representable, and raises ValueError exactly if there is none.", "quantifier": "every integer n and both signednesses", "why_tests_cant": "boundary values and minimality over an infinite domain", "anchors": ["ABXpy/misc/type_fitting.py:fit_integer_type"]}
{"id": "C15", "title": "Pair codes are a bijection", "statement": "For item indices a, x below n, the stored pair code a + n*x is computed without overflow in the chosen type, distinct ordered pairs have distinct codes, and distance computation recovers (a, x) from it.", "quantifier": "every n below 2^32 and all a, x < n", "why_tests_cant": "overflow appears only at type boundaries; injectivity is universal", "anchors": ["ABXpy/task.py:Task._generate_pairs", "ABXpy/distances/distances.py:run_distance_job", "ABXpy/score.py:score"]}
{"id": "C16", "title": "unique_pairs lists every needed pair exactly once", "statement": "For each by value the recorded slice of /unique_pairs/data is strictly increasing and contains exactly the codes of the (A,X) and (B,X) pairs of that by value's triplets; slices are consecutive and cover the dataset; the announced count is exact.", "quantifier": "every triplet table, every buffer size (hence every way the data are cut into chunks)", "why_tests_cant": "duplicates may straddle chunk borders; all chunkings must be considered", "anchors": ["ABXpy/task.py:Task._generate_pairs"]}
{"id": "C17", "title": "External sort sorts", "statement": "H5Handler.sort leaves the key dataset sorted, as a permutation of its original content, for every dataset size and memory budget for which it does not raise.", "quantifier": "every dataset, every buffer_size, o_buffer_size, every tie-breaking of argsort", "why_tests_cant": "multi-chunk merging is only entered for data bigger than memory; tests use small data with one or two chunks", "anchors": ["ABXpy/h5tools/h5_handler.py:H5Handler.sort", "ABXpy/h5tools/h5_handler.py:H5Handler.extract_chunk"]}
{"id": "C18", "title": "Companion datasets follow the sort keys", "statement": "When several datasets are sorted together, each row (key, values...) of the result is a row of the input and the rows are a permutation of the input rows.", "quantifier": "every number of companion datasets, sizes, budgets, tie-breaking", "why_tests_cant": "ties make the row permutation non unique, so a fixed expected output cannot express it", "anchors": ["ABXpy/h5tools/h5_handler.py:H5Handler.sort"]}
{"id": "C19", "title": "External sort terminates", "statement": "H5Handler.sort terminates (normally or by exception) for every dataset and memory budget.", "quantifier": "every n_rows, line width and buffer size", "why_tests_cant": "non-termination cannot be tested, and the loop condition depends on a rounded quotient", "anchors": ["ABXpy/h5tools/h5_handler.py:H5Handler.sort"]}
{"id": "C20", "title": "Buffered reading is transparent", "statement": "Iterating over a dataset (or a sub-range of it) with H52NP yields non-empty blocks whose concatenation is exactly the rows of the dataset (sub-range); read(k) returns the next min(k, remaining) rows.", "quantifier": "every dataset, sub-range, buffer size, and every sequence of read amounts", "why_tests_cant": "unbounded histories of read sizes against a sliding refill policy", "anchors": ["ABXpy/h5tools/h52np.py:H52NPbuffer.read", "ABXpy/h5tools/h52np.py:H52NPbuffer.refill_buffer", "ABXpy/h5tools/h52np.py:H5dataset2NPbuffer"]}
{"id": "C21", "title": "Buffered writing is transparent", "statement": "After any sequence of writes, leaving the NP2H5 context makes the dataset equal to the concatenation of the written blocks (followed by untouched pre-allocated rows, if fewer rows than announced were written to a growable dataset).", "quantifier": "every buffer length, every sequence of block sizes, fixed or growable datasets", "why_tests_cant": "unbounded histories of block sizes relative to the buffer length", "anchors": ["ABXpy/h5tools/np2h5.py:NP2H5buffer.write", "ABXpy/h5tools/np2h5.py:NP2H5buffer.flush", "ABXpy/h5tools/np2h5.py:NP2H5.__exit__"]}
{"id": "C22", "title": "Incomplete fixed-size datasets are reported", "statement": "Leaving the NP2H5 context raises exactly if some fixed-size dataset did not receive all its announced rows.", "quantifier": "every set of datasets and write histories", "why_tests_cant": "all histories; the check runs after the flush of all buffers", "anchors": ["ABXpy/h5tools/np2h5.py:NP2H5.__exit__", "ABXpy/h5tools/np2h5.py:NP2H5buffer.iscomplete"]}
{"id": "C23", "title": "Datasets are removed when writing fails", "statement": "If an exception leaves the NP2H5 context, the datasets created in it are deleted from the file, so the operation can be run again.", "quantifier": "every failure point", "why_tests_cant": "needs fault injection at every point", "anchors": ["ABXpy/h5tools/np2h5.py:NP2H5.__exit__", "ABXpy/h5tools/np2h5.py:NP2H5buffer.delete", "ABXpy/task.py:Task.generate_triplets"]}
{"id": "C24", "title": "Distance jobs cover every pair exactly once", "statement": "For every number of cpus, the (by, start, stop) ranges of all jobs returned by create_distance_jobs are within bounds, pairwise disjoint, and cover all unique pairs of all by values.", "quantifier": "every list of by sizes, n_cpu >= 1, every tie-breaking of argsort", "why_tests_cant": "splitting, sorting and greedy assignment are composed; bounds errors show only for some divisibility patterns", "anchors": ["ABXpy/distances/distances.py:create_distance_jobs"]}
{"id": "C25", "title": "Distance jobs are balanced", "statement": "No block is larger than ceil(total/n_cpu), and the most loaded cpu gets at most one maximal block more than the least loaded one (so at most total/n_cpu + ceil(total/n_cpu) pairs).", "quantifier": "every list of by sizes, n_cpu >= 1", "why_tests_cant": "a worst-case bound over all inputs", "anchors": ["ABXpy/distances/distances.py:create_distance_jobs"]}
{"id": "C26", "title": "Distance file does not depend on the number of cpus or their interleaving", "statement": "After compute_distances, entry p of /distances/data is the distance between the features of the two items of pair p, whatever n_cpu and however the jobs' atomic reads and writes are interleaved.", "quantifier": "every n_cpu, every interleaving of the jobs' critical sections, every (deterministic) distance function", "why_tests_cant": "schedules cannot be enumerated by tests", "anchors": ["ABXpy/distances/distances.py:run_distance_job", "ABXpy/distances/distances.py:compute_distances"]}
{"id": "C27", "title": "'done' means complete", "statement": "At every moment (hence after a crash at any point) the distance file's attribute done is True only if all distances are written; when compute_distances returns it is True.", "quantifier": "every n_cpu and every crash point", "why_tests_cant": "all intermediate states of the file", "anchors": ["ABXpy/distances/distances.py:compute_distances", "ABXpy/distances/distances.py:create_distance_jobs"]}
{"id": "C28", "title": "Job ranges are usable as slices", "statement": "The start/stop bounds computed for the jobs are integers, so that reading and writing the corresponding rows is possible.", "quantifier": "every total number of pairs and n_cpu", "why_tests_cant": "the violation needs more than 12.5 million pairs per cpu", "anchors": ["ABXpy/distances/distances.py:create_distance_jobs", "ABXpy/distances/distances.py:run_distance_job"]}
{"id": "C29", "title": "No deadlock among distance workers", "statement": "Workers never hold the file lock simultaneously, and from every reachable state all workers can finish.", "quantifier": "every number of workers and blocks, every schedule, exceptions at any step", "why_tests_cant": "schedules and faults", "anchors": ["ABXpy/distances/distances.py:run_distance_job"]}
{"id": "C30", "title": "Item features are the frames between onset and offset", "statement": "The feature matrix used for an item consists, in order, of exactly those frames of its file whose time t satisfies onset <= t <= offset.", "quantifier": "every file, frame times, onset/offset", "why_tests_cant": "inclusive boundaries over all times", "anchors": ["ABXpy/distances/distances.py:Features_Accessor.get_features_from_raw"]}
{"id": "C31", "title": "DTW returns the cost of an optimal alignment", "statement": "The unnormalised DTW value is the minimum, over all monotone alignments from (0,0) to (N-1,M-1) with steps (1,0),(0,1),(1,1), of the summed local distances.", "quantifier": "every pair of non-empty sequences, every local distance matrix, every ordered cost domain with monotone addition (so also for rounded arithmetic)", "why_tests_cant": "exponentially many alignments per input; tests check a few numbers", "anchors": ["ABXpy/distances/metrics/dtw/dtw.pyx:_dtw"]}
{"id": "C32", "title": "Normalised DTW divides by the length of an optimal alignment", "statement": "With normalized, the cost is divided by the length of an alignment of minimal cost; that length lies between max(N,M) and N+M-1.", "quantifier": "every pair of sequences and local distance matrix", "why_tests_cant": "trace-back on ties; universal bounds", "anchors": ["ABXpy/distances/metrics/dtw/dtw.pyx:_dtw"]}
{"id": "C33", "title": "DTW is symmetric", "statement": "dtw(x, y) = dtw(y, x) for a symmetric local distance, with and without normalisation.", "quantifier": "every pair of sequences", "why_tests_cant": "the violation needs a tie between the two non-diagonal predecessors and optimal paths of different lengths", "anchors": ["ABXpy/distances/metrics/dtw/dtw.pyx:_dtw"]}
{"id": "C34", "title": "Score is the sign of the distance comparison", "statement": "Entry i of the score file is 1 if d(A,X) < d(B,X), -1 if d(A,X) > d(B,X), 0 otherwise, for the triplet (A,B,X) in row i of the task file.", "quantifier": "every task file produced by task generation and every distance file for it", "why_tests_cant": "relies on binary search in the pair table finding each pair of each triplet", "anchors": ["ABXpy/score.py:score"]}
{"id": "C35", "title": "Score of exchanged triplets is opposite", "statement": "If both (A,B,X) and (B,A,X) are scored, their scores are opposite.", "quantifier": "every triplet, every distance function", "why_tests_cant": "universal relation", "anchors": ["ABXpy/score.py:score"]}
{"id": "C36", "title": "Outputs are never overwritten", "statement": "generate_triplets, score and compute_distances leave an already existing output file's triplets, scores and distances untouched and raise.", "quantifier": "every state of the file system", "why_tests_cant": "all states", "anchors": ["ABXpy/task.py:Task.generate_triplets", "ABXpy/score.py:score", "ABXpy/distances/distances.py:create_distance_jobs"]}
{"id": "C37", "title": "Analysis groups triplets by regressor values", "statement": "Each line of the analysis of a by value corresponds to one distinct combination of regressor values occurring among its triplets, each combination has one line, n is the number of its triplets and score is (mean+1)/2 of their scores.", "quantifier": "every regressor table and score vector, every argsort tie-breaking", "why_tests_cant": "grouping goes through an integer encoding, an unstable sort and a decoding", "anchors": ["ABXpy/analyze.py:collapse", "ABXpy/analyze.py:unique", "ABXpy/analyze.py:npdecode"]}
{"id": "C38", "title": "Analysis accounts for every triplet and scores are proportions", "statement": "The n column sums to the number of triplets and every score lies between 0 and 1 and is the proportion of correct answers with ties counting one half.", "quantifier": "every task and score file", "why_tests_cant": "universal sums and bounds", "anchors": ["ABXpy/analyze.py:collapse", "ABXpy/analyze.py:unique"]}
{"id": "C39", "title": "Group keys decode to the regressor indices", "statement": "npdecode applied to the mixed-radix keys built in collapse gives back the regressor indices, also for large numbers of combinations.", "quantifier": "every radix list and digit list", "why_tests_cant": "floating-point division and 64-bit wrap-around only matter for very large products", "anchors": ["ABXpy/analyze.py:npdecode", "ABXpy/analyze.py:collapse", "ABXpy/h5tools/h5io.py"]}
{"id": "C40", "title": "Whole pipeline computes the ABX error definition", "statement": "Running task generation, distance computation, scoring and analysis yields, for each by value that has triplets and each combination of values of the regressors analysed, one line with the labels, the number of its ABX triplets and the proportion of them with d(A,X) < d(B,X) (ties 1/2); with a threshold t, the same for a choice of the triplets that depends neither on the features nor on the distances: t of each on/across/by block and values of the B and X regressors, or all of them if they are fewer. Outside the cases reported as false under C06, C07, C09, C10, C16 and C37 (items kept by generic filters not first, item numbers above the stored type, regressors of A out of order, blocks too long for the index type of the threshold, too many items, more than 2^53 combinations) no step after task generation fails.", "quantifier": "every item table, filters, regressors, features, distance function, cpu count and schedule, and every order of sets, groups and equal keys", "why_tests_cant": "composition of all stages", "anchors": ["ABXpy/task.py", "ABXpy/distances/distances.py", "ABXpy/score.py", "ABXpy/analyze.py"]}
{"id": "C41", "title": "Item features stay attached to their labels when incomplete rows are dropped", "statement": "When lines of the item file with missing labels are dropped, the remaining items keep their own file, onset and offset.", "quantifier": "every item file with missing entries at any place", "why_tests_cant": "depends on the position of the incomplete rows and on the by filters", "anchors": ["ABXpy/database/database.py:load", "ABXpy/task.py:Task._init_prepare_database"]}
{"id": "C42", "title": "Extended column names are unambiguous", "statement": "For column names without underscore, an extended column name (column + extension) determines the column and the extension, and parsing returns them.", "quantifier": "every set of column names", "why_tests_cant": "all strings", "anchors": ["ABXpy/sideop/side_operations_manager.py:SideOperationsManager.parse_extended_column", "ABXpy/task.py:Task._init_check_database"]}
{"id": "C43", "title": "Extensions are rejected unless they make sense", "statement": "Extensions _AB, _AX are accepted exactly on columns whose value is shared by the two named items by construction of the triplets; _1 and _2 exactly on on/across determined columns; plain names cannot be mixed with extended ones.", "quantifier": "every column hierarchy and combination of extended names", "why_tests_cant": "decision table over all roles and extensions", "anchors": ["ABXpy/sideop/side_operations_manager.py:SideOperationsManager.check_extensions"]}
{"id": "C44", "title": "Uniform time warping uses each frame of the longer sequence once", "statement": "utw gives the sum, over the frames of the longer sequence, of the mean distance to the one or two frames of the shorter sequence matched with it: the frame in which its middle falls, or the two frames on either side when its middle is a boundary. All matched frames exist and are matched in order; the value does not depend on the order of the sequences, and sequences of the same length are compared frame by frame.", "quantifier": "every pair of lengths", "why_tests_cant": "index arithmetic with floors and exact-equality tests over all length pairs", "anchors": ["ABXpy/distances/metrics/utw.py:utw", "ABXpy/distances/metrics/utw.py:distance_coordinates"]}
{"id": "C45", "title": "Cosine distance is a bounded symmetric angle", "statement": "cosine_distance gives values in [0,1], is symmetric, is 0 for a non-zero frame and any positive multiple of it, 0 for two zero frames and 1 for a zero and a non-zero frame.", "quantifier": "all real vectors", "why_tests_cant": "continuum of inputs", "anchors": ["ABXpy/distances/metrics/cosine.py:cosine_distance"]}
{"id": "C46", "title": "Kullback-Leibler family", "statement": "On positive vectors: kl_divergence >= 0 and 0 on equal distributions, its symmetrised version is symmetric, Jensen-Shannon is symmetric and between 0 and ln 2 up to scaling, Hellinger is symmetric and in [0,1].", "quantifier": "all positive real vectors", "why_tests_cant": "continuum of inputs", "anchors": ["ABXpy/distances/metrics/kullback_leibler.py"]}
{"id": "C47", "title": "In-place normalisation does not change later distances", "statement": "Metrics that normalise their arguments in place give the same distance for a pair whatever pairs were computed before on the same items.", "quantifier": "every sequence of earlier distance evaluations on shared feature matrices", "why_tests_cant": "history dependence", "anchors": ["ABXpy/distances/metrics/kullback_leibler.py:kl_divergence", "ABXpy/distances/metrics/cosine.py:normalize_cosine_distance", "ABXpy/distances/distances.py:run_distance_job"]}
{"id": "C48", "title": "Indexed storage round-trips", "statement": "Values written through H5IO with indexes are recovered by looking the stored numbers up in the stored index; fused datasets' keys are injective.", "quantifier": "every index list, every data within it, every set of fused columns", "why_tests_cant": "key overflow and injectivity are universal statements", "anchors": ["ABXpy/h5tools/h5io.py:H5IO.write", "ABXpy/h5tools/h5io.py:H5IO.__initialize_datasets__"]}
{"id": "C49", "title": "Lookup tables answer with the entry stored under the queried key", "statement": "For keys present in the table, evaluate returns the outputs stored for them, in query order; absent keys raise.", "quantifier": "every table and query list", "why_tests_cant": "binary search with boundary keys", "anchors": ["ABXpy/dbfun/dbfun_lookuptable.py:DBfun_LookupTable.evaluate", "ABXpy/dbfun/dbfun_lookuptable.py:DBfun_LookupTable.get_keys"]}
{"id": "C50", "title": "Task generation is repeatable", "statement": "Calling generate_triplets twice on the same Task without threshold (to two outputs) writes the same triplets, by_index, bys and pairs.", "quantifier": "every task, including ones with empty by blocks", "why_tests_cant": "the first call mutates the Task object", "anchors": ["ABXpy/task.py:Task.generate_triplets"]}
{"id": "C51", "title": "Feature conversion writes every file once, in order", "statement": "convert() with batching hands all input files to the writer exactly once, in order, in batches of at most the batch size.", "quantifier": "every number of files and batch size", "why_tests_cant": "off-by-one errors at batch boundaries", "anchors": ["ABXpy/misc/any2h5features.py:convert"]}
{"id": "C52", "title": "Synthetic item files are balanced", "statement": "generate_testitems writes every combination of the n factors with base values the same number of times.", "quantifier": "every base, n, repeats", "why_tests_cant": "universal counting", "anchors": ["ABXpy/misc/items.py:generate_testitems"]}
{"id": "C53", "title": "Result comparison detects differences", "statement": "csv_cmp returns True only for files with the same lines up to order.", "quantifier": "every pair of files", "why_tests_cant": "a comparison helper that always succeeds makes every test using it pass", "anchors": ["ABXpy/misc/items.py:csv_cmp"]}
{"id": "C54", "title": "Column hierarchy traversal visits every node once", "statement": "Pre-order and post-order traversal, descendant collection and search over the column hierarchy visit each node exactly once, and search returns the first match in pre-order.", "quantifier": "every tree", "why_tests_cant": "all tree shapes", "anchors": ["ABXpy/misc/tinytree.py:Tree", "ABXpy/sideop/side_operations_manager.py"]}
{"id": "C55", "title": "Sampling without replacement favours no subset", "statement": "sample_without_replacement(n, N) gives each of the C(N, n) subsets the same chance: in the sequential algorithm all subsets come from the same number of vectors of uniform draws, in the rejection algorithm relabelling the draws relabels the sample.", "quantifier": "every n <= N, every subset, every permutation of the population", "why_tests_cant": "statistical tests only detect large biases, on the few sizes tried", "anchors": ["ABXpy/sampling/sampler.py:Knuth_sampling", "ABXpy/sampling/sampler.py:rejection_sampling"]}
{"id": "C56", "title": "Auxiliary files give attributes to the items", "statement": "When file.item comes with file.<attribute> files, loading attaches the columns of these files to the items with the value.", "quantifier": "every item file and auxiliary file", "why_tests_cant": "needs every combination of files and attributes; existing tests use no auxiliary file", "anchors": ["ABXpy/database/database.py:load_aux_dbs", "ABXpy/database/database.py:load"]}
{"id": "C57", "title": "Verification accepts the item files whose sources have features", "statement": "check() accepts an item file exactly when its header is the documented one and the source of every line is in the features file.", "quantifier": "every item file and features file", "why_tests_cant": "all separators and line contents", "anchors": ["ABXpy/verify.py:check"]}
{"id": "C58", "title": "The default distance is the cosine distance along the best alignment", "statement": "The default distance of the distance command is 0 between two items without frames and infinite when only one has frames; otherwise it is the least sum of the angles (in units of pi) of the frames along an alignment, divided by the number of steps when normalised. It is never negative, at most 1 when normalised, 0 exactly when the frames can be aligned with frames of the same direction, and symmetric without normalisation.", "quantifier": "every pair of floating point arrays of the same width, with or without normalisation", "why_tests_cant": "a minimum over exponentially many alignments, laws for all arrays", "anchors": ["ABXpy/distance.py:default_distance", "ABXpy/distances/metrics/dtw/dtw.pyx:dtw", "ABXpy/distances/metrics/cosine.py:cosine_distance"]}
{"id": "C59", "title": "The dtw_kl distance compares the frames as distributions along the best alignment", "statement": "The dtw_kl distance is 0 between two items without frames and infinite when only one has frames; otherwise it is the least sum of the symmetric divergences of the distributions given by the frames along an alignment, divided by the number of steps when normalised. It is never negative, 0 exactly when the frames can be aligned with frames of the same distribution, and symmetric without normalisation.", "quantifier": "every pair of floating point arrays of the same positive width, the same array or different ones, with or without normalisation", "why_tests_cant": "the arrays are normalised in place; laws for all arrays", "anchors": ["ABXpy/distance.py:dtw_kl_distance", "ABXpy/distances/metrics/kullback_leibler.py:kl_divergence", "ABXpy/distances/metrics/dtw/dtw.pyx:dtw"]}
{"id": "C60", "title": "The option -d chooses the distance, the option -n its normalisation", "statement": "Without -d the default distance is used, levenshtein and dtw_kl name the other ones, and path/module.function is the function of that module of that directory. With -n 1 or -n 0 the default and dtw_kl distances are computed with or without normalisation.", "quantifier": "every name given to -d, every value of -n, every pair of items", "why_tests_cant": "all paths, module and function names", "anchors": ["ABXpy/distance.py:run", "ABXpy/distance.py:edit_distance", "ABXpy/distances/distances.py:run_distance_job"]}
{"id": "C61", "title": "The distance command computes to a new file, and keeps the old one when refused", "statement": "The distance command computes the distances of the named files with the chosen distance, to an output file that does not contain anything of an earlier one. A command that is refused for its options leaves the files as they are.", "quantifier": "every command line and every state of the files", "why_tests_cant": "effects on files for all combinations of options", "anchors": ["ABXpy/distance.py:main", "ABXpy/distance.py:run"]}
{"id": "C62", "title": "ABXrun runs the four steps", "statement": "The program ABXrun creates the task, the triplets, the distances, the scores and the analysis of the named item and features files.", "quantifier": "every command line, every configuration and every state of the files", "why_tests_cant": "there is no test of this program, and a test is about one configuration", "anchors": ["bin/ABXrun.py:main", "bin/ABXrun.py:test_analyze"]}
{"id": "C63", "title": "The announced number of levels counts the types of triplets", "statement": "The number of levels that the task prints for each by group with its other statistics is the number of types of its triplets: the on and across values of A, the on value of B and the across value of X. The total is their sum.", "quantifier": "every task and item file, every order of the groups", "why_tests_cant": "the count multiplies groups of pairs and does not list the triplets; all tasks", "anchors": ["ABXpy/task.py:Task.compute_nb_levels", "ABXpy/task.py:Task.print_stats", "ABXpy/task.py:Task.print_stats_to_stream"]}
{"id": "C64", "title": "The task, score and analyze commands write to a new file, and keep the old one when they compute nothing", "statement": "The task, score and analyze commands compute from the named files to an output that contains nothing of an earlier one. An omitted output is named after the input files, beside them, and is not overwritten. A command that is refused, or asked for statistics only, leaves the files as they are.", "quantifier": "every command line and every state of the files", "why_tests_cant": "effects on files for all combinations of options", "anchors": ["ABXpy/task.py:main", "ABXpy/task.py:Task.generate_triplets", "ABXpy/score.py:main", "ABXpy/score.py:score", "ABXpy/analyze.py:main"]}
{"id": "C65", "title": "Filters and regressors given by a script have the value of the script", "statement": "A filter or regressor that is neither a column nor a lookup table is a script, or the file of one when it ends by .py. Its value is that of the script run on the columns: imports, assignments, then a final expression. Its inputs are the columns it names, and its value depends on no other.", "quantifier": "every script, every values of the columns, every behaviour of the functions it calls", "why_tests_cant": "all programs; names are resolved by the rules of exec and eval with two dictionaries, which differ inside comprehensions", "anchors": ["ABXpy/dbfun/dbfun_compute.py:DBfun_Compute", "ABXpy/sideop/filter_manager.py:FilterManager.__init__", "ABXpy/sideop/regressor_manager.py:RegressorManager.__init__"]}
{"id": "C66", "title": "A score file has one score per triplet", "statement": "When scoring starts, the score file has exactly one score, 1, -1 or 0, for each triplet of the task, and a score file found on disk is complete.", "quantifier": "every task, distances and outcome of the scoring", "why_tests_cant": "failures at any by and any block", "anchors": ["ABXpy/score.py:score"]}
{"id": "C67", "title": "The index of a task file bounds the groups of triplets with the same regressors", "statement": "The dataset triplets/on_across_block_index of a task file lists, block after block, where the groups of triplets with the same values of the B and X regressors start and end within the block, and two triplets of a block have the same values of these regressors exactly when there is no bound between them.", "quantifier": "every item file, filters and regressors, every order of the groups, any sort, with and without threshold", "why_tests_cant": "the type of the dataset depends on the number of blocks, its content on the number of triplets; small tests do not see it", "anchors": ["ABXpy/task.py:Task.on_across_triplets", "ABXpy/task.py:sort_and_threshold", "ABXpy/task.py:Task.generate_triplets"]}
{"id": "C68", "title": "Labels may contain any character", "statement": "A task can be generated whatever the characters of the labels and names of its regressors, and they are found as they are in the task file.", "quantifier": "every task, every labels and names", "why_tests_cant": "test data are in ASCII; what is stored depends on every label of the item file", "anchors": ["ABXpy/h5tools/h5io.py:get_array", "ABXpy/h5tools/h5io.py:H5IO.__init__", "ABXpy/task.py:Task.generate_triplets"]}
{"id": "C69", "title": "The result file is a table of the lines of the analysis", "statement": "Read as lines of fields separated by tabs, the file written by analyze is a header with the names of the regressors, by, score and n, and one row per line of the analysis with its labels, its by, its score and its number of triplets in decimal. A failed analysis leaves a table with the first lines.", "quantifier": "every task file and score file, every labels and texts of numbers", "why_tests_cant": "all labels; failures at any line", "anchors": ["ABXpy/analyze.py:analyze", "ABXpy/analyze.py:collapse"]}
{"id": "C70", "title": "A filter that is accepted can be evaluated", "statement": "A filter whose columns are accepted when the task is declared is evaluated on the items without exception when the triplets are generated.", "quantifier": "every hierarchy of columns, every choice of on, across and by, every script and columns it uses, every item file", "why_tests_cant": "all combinations of columns and extensions; the exception comes at generation, whose stage depends on all the columns used", "anchors": ["ABXpy/sideop/filter_manager.py:FilterManager.classify_generic", "ABXpy/sideop/side_operations_manager.py:SideOperationsManager.check_extensions", "ABXpy/sideop/side_operations_manager.py:SideOperationsManager.add"]}
{"id": "C71", "title": "Labels and names of columns may contain slashes", "statement": "Whatever the labels of the by column and the names of the columns, the regressors written in the task file for every by are those that analyze reads, and nothing else of the task file is changed by writing them.", "quantifier": "every by labels and column names, every regressors, every number of blocks", "why_tests_cant": "HDF5 reads slashes as paths; the failure depends on all labels of the by column and their alphabetical order", "anchors": ["ABXpy/task.py:Task.generate_triplets", "ABXpy/analyze.py:analyze", "ABXpy/analyze.py:collapse", "ABXpy/h5tools/h5io.py:H5IO.__init__"]}
{"id": "C72", "title": "H5IO files are created, written, closed and opened again without loss", "statement": "A group declared with H5IO is created in a new or existing file without touching the rest; its declarations are found again when it is opened; what is written is in it once it is closed; calls that are refused change nothing. Datasets with and without index and fused datasets can be declared, and data can be given one by one.", "quantifier": "every declarations, every file, every group name, every number of calls of write", "why_tests_cant": "all sequences of creation, writing and opening; all contents of the file around the group", "anchors": ["ABXpy/h5tools/h5io.py:H5IO.__init__", "ABXpy/h5tools/h5io.py:H5IO.__load_metadata__", "ABXpy/h5tools/h5io.py:H5IO.write", "ABXpy/h5tools/h5io.py:H5IO.__enter__"]}
{"id": "C73", "title": "The distances given as examples compute distances", "statement": "The functions dtw_cosine and dtw_kl_divergence of ABXpy/distances/example_distances.py and the function dtw_cosine_distance of bin/ABXrun.py and of examples/complete_run.py, given to compute_distances, return for two items the cosine distance or the Kullback-Leibler divergence along the best alignment, 0 between two items without frames.", "quantifier": "For all pairs of items with any numbers of frames, with and without the argument normalized of compute_distances.", "why_tests_cant": "The tests define their own distance; no test calls the functions of example_distances.py or of ABXrun.py, and one pair of items would not show what happens to items without frames.", "anchors": ["ABXpy/distances/example_distances.py:7-35", "examples/complete_run.py:15-16", "bin/ABXrun.py:27-28", "ABXpy/distances/metrics/dtw/dtw.pyx:26-30", "ABXpy/distances/distances.py:254-257"]}
{"id": "C74", "title": "Generating triplets with a threshold ends, and without exception", "statement": "For every threshold, generate_triplets ends and writes the task file; there is no file exactly when there is no triplet.", "quantifier": "every task with regressors, every item file, every threshold of 0 or more, every random numbers", "why_tests_cant": "all sizes of groups against all thresholds; the sampling is a loop that stops on a random event, and a run that never ends is not seen on the small tables of the tests", "anchors": ["ABXpy/task.py:Task.generate_triplets", "ABXpy/task.py:sort_and_threshold", "ABXpy/sampling/sampler.py:sample_without_replacement", "ABXpy/sampling/sampler.py:rejection_sampling"]}
{"id": "C75", "title": "Approximate statistics bound the exact ones and do not change what is generated", "statement": "compute_statistics(approximate=True), called on a task, gives the statistics of the task without its filters of A, B, X and triplets (the exact ones with several across columns), marked as approximate exactly when there is such a filter. The number of triplets is never below the exact one, the other statistics are unchanged, and the task file generated afterwards is the same as without the call, or a file without triplets when the task has none.", "quantifier": "every task, filters and item file, every threshold and random numbers", "why_tests_cant": "the counts and the types of the file depend on all sizes of blocks; no test calls it", "anchors": ["ABXpy/task.py:Task.compute_statistics", "ABXpy/task.py:Task.generate_triplets"]}
{"id": "C76", "title": "The result does not depend on how the evaluation is run nor on the order of the item file", "statement": "Two evaluations of the same items with the same features and distance have the same result: the same lines, in the same order inside a by, whatever the number of processes, the memory, the random numbers and the orders the libraries choose; and also when the lines of the item file are in another order.", "quantifier": "every task, item file and order of its lines, features, distance, number of processes and interleaving, memory, buffers and orders of sets and groups", "why_tests_cant": "two runs of a test only compare two of all orders and interleavings", "anchors": ["ABXpy/task.py:Task.generate_triplets", "ABXpy/distances/distances.py:compute_distances", "ABXpy/score.py:score", "ABXpy/analyze.py:analyze"]}
{"id": "C77", "title": "Only the order of the distances and the frames of the items count", "statement": "The result of an evaluation does not change when the distances are replaced by the images of them by a function that keeps their order, nor when the feature files are replaced by others that have the same frames inside the items.", "quantifier": "every task, items and features, every two distances with the same order, every two sets of feature files with the same frames inside the items", "why_tests_cant": "all distance functions and all features", "anchors": ["ABXpy/distances/distances.py:compute_distances", "ABXpy/score.py:score", "ABXpy/analyze.py:analyze"]}
{"id": "C78", "title": "The lines of a by depend on the items of this by", "statement": "The lines of the result for a by are the same in two evaluations where this by has the same items, whatever the items of the other bys.", "quantifier": "every task, every two item files with the same items, in any order, in one by, every features and distance", "why_tests_cant": "the item numbers, pairs, offsets and ranges of a by are computed after those of all the others", "anchors": ["ABXpy/task.py:Task.generate_triplets", "ABXpy/distances/distances.py:compute_distances", "ABXpy/score.py:score", "ABXpy/analyze.py:analyze"]}
{"id": "C79", "title": "What features that are not finite numbers do to the distances", "statement": "The default distance of two items never is nan: it is refused with an exception when a frame of one item has a value that is not finite and a frame of the other one is not zero, and is a number in all other cases. The Kullback-Leibler distance gives nan, without exception, as soon as one frame of one of the items has a value that is not finite or a sum of zero; score counts such triplets as ties.", "quantifier": "every two items with frames, every values, numbers of frames and dimensions, with and without normalisation by the length of the path", "why_tests_cant": "a nan can be hidden by a comparison of the alignment, depending on its position among the frames and on all the other values", "anchors": ["ABXpy/distance.py:default_distance", "ABXpy/distance.py:dtw_kl_distance", "ABXpy/distances/metrics/cosine.py:cosine_distance", "ABXpy/distances/metrics/kullback_leibler.py:kl_divergence", "ABXpy/distances/metrics/dtw/dtw.pyx:_dtw", "ABXpy/score.py:score"]}
{"id": "C80", "title": "What the scores say about the features", "statement": "Every score of the result of an evaluation is between 0 and 1 and counts at least one triplet. It is 1 exactly when A is nearer to X than B for all the triplets of the line, 0 exactly when B is nearer for all of them. When the items with the same value of the on column are nearer to each other than to the others, all the scores are 1; when they are farther, all are 0; when all the items have the same frames, all are one half; and a distance with the opposite order turns each score s into 1 - s.", "quantifier": "every task, item file, features and distance, every line of the result", "why_tests_cant": "a test checks the scores of some features; these are statements about all features and distances, through all four steps", "anchors": ["ABXpy/task.py:Task.generate_triplets", "ABXpy/distances/distances.py:compute_distances", "ABXpy/score.py:score", "ABXpy/analyze.py:analyze", "ABXpy/analyze.py:collapse"]}
{"id": "C81", "title": "Regressors split the scores, they do not change their totals", "statement": "The numbers of triplets of the lines of a by sum to the number of its triplets, and the scores weighted by these numbers sum to the number of its right answers, ties counting one half. So both sums are the same with other regressors, or without some of them.", "quantifier": "every two tasks that differ in their regressors only, every item file, features and distance", "why_tests_cant": "all sets of regressors and all ways of splitting the triplets", "anchors": ["ABXpy/task.py:Task.generate_triplets", "ABXpy/score.py:score", "ABXpy/analyze.py:analyze", "ABXpy/analyze.py:collapse"]}
{"id": "C82", "title": "Changes of the features that must not change the result", "statement": "With the default distance, multiplying frames by positive numbers (each its own) or taking the columns of all features in another order changes no distance, no exception and so no line of the result of an evaluation; the same holds for the Kullback-Leibler distance, with factors other than 0. Reading both items of a pair backwards does not change the default distance either. [This last clause is false of the normalised distance: the cost is divided by the length of one of the best alignments, and the one that is chosen depends on the direction.]", "quantifier": "every two matrices of features of any lengths, every positive factors, every permutation of the columns; every task, item file and features in an evaluation", "why_tests_cant": "all features, factors and orders of columns; the lines of a whole evaluation", "anchors": ["ABXpy/distances/metrics/cosine.py:cosine_distance", "ABXpy/distances/metrics/kullback_leibler.py:kl_divergence", "ABXpy/distances/metrics/dtw/dtw.pyx:_dtw", "ABXpy/distance.py:default_distance", "ABXpy/distances/distances.py:compute_distances", "ABXpy/analyze.py:analyze"]}
{"id": "C83", "title": "Trees of nodes stay trees when they are modified", "statement": "Adding, removing, clearing, replacing, injecting and reparenting nodes of a tree gives exactly the tree that the documentation describes, wherever in a tree the node is: children keep their order, what is below a node moves with it, a removed node is the root of a tree of its own, and no other node changes. Traversals, paths to the root, depths, neighbours, siblings, searches and inherited attributes are at any time those of the present tree. A nested list of nodes gives the trees it spells, and a list that spells none is refused. [Four clauses that a user would expect are false: a refused list can have changed the tree; a node that has a parent can be added elsewhere and is then in two trees; a root can be added below itself and traversals then never end; isDescendantOf tells whether a node is above another. dump always raises NameError with Python 3.]", "quantifier": "every memory that holds any number of trees of any shapes, every node of them, every nested list, every selectors and attributes", "why_tests_cant": "all shapes of trees and all nodes in them; that nothing else changes is a statement about all other objects", "anchors": ["ABXpy/misc/tinytree.py:Tree", "ABXpy/misc/tinytree.py:constructFromList"]}
{"id": "C84", "title": "The default distance in the arithmetic of the machine is a number between its bounds", "statement": "Between two items with frames of finite values, the same float type and the same number of columns, the default distance computed with rounded operations is a number, at least 0, at most 1 when it is normalised and at most the number of frames of both items less 1 otherwise; it never is nan nor an exception, whatever the order in which the sums are computed. Items without frames are at distance 0 of each other and infinitely far from the others; other types, other widths and angles that are not numbers are refused. Without rounding, all this is the distance with real numbers. [Clauses that hold with real numbers and that a user expects are false with float64: an item can be at a positive distance of itself; it can be nearer to an item with another direction than to itself; with values of which the squares overflow, frames with the same direction are orthogonal or the distance is an exception; with values of which the squares underflow, they are at distance 1.]", "quantifier": "every rounding like those of the formats of floats, every order of the additions and with fused products, every two items", "why_tests_cant": "all features: overflows of intermediate results, cancellations and quotients by a rounded product of norms occur for some values only; the order of the additions depends on the machine", "anchors": ["ABXpy/distance.py:default_distance", "ABXpy/distances/metrics/cosine.py:cosine_distance", "ABXpy/distances/metrics/dtw/dtw.pyx:_dtw"]}
{"id": "C85", "title": "How far rounding takes the default distance from the one with real numbers", "statement": "When each operation on the features has a relative error of u, each operation on the costs one of u' and the angle functions an error of ua, each local distance is within ua + sqrt(e/2) half turns of the exact angle, with e = (1+u)^(w+1)/(1-u)^(w+3) - 1 for frames of w values (for float64 and 13 values, e is at most 2^-48), and the distance without normalisation is within these errors, along at most N+M-1 matched frames, and N+M-2 rounded additions, of the exact one. So items of which the exact distances differ by more are compared as with exact numbers. With normalisation the same holds up to the length of the alignment. [That the normalised distance is close to the exact one is false: for any error of the angles there are items for which it is less than the exact one by at least 1/24, because another alignment is found.]", "quantifier": "every relative errors, every order of the additions and with fused products, every two or three items with finite values, provided that no operation overflows or underflows", "why_tests_cant": "all features and all roundings; a test compares with a tolerance on a few values", "anchors": ["ABXpy/distance.py:default_distance", "ABXpy/distances/metrics/cosine.py:cosine_distance", "ABXpy/distances/metrics/dtw/dtw.pyx:_dtw"]}
{"id": "C86", "title": "The verbose option only adds messages, and these say how far the task is", "statement": "A task made with verbose=True, and the file it generates, are those made without it, and without it nothing is printed. What is printed while the task is made counts the by groups, the by groups kept and the blocks, one message each; while triplets are generated, each message gives the number of blocks and of triplets done so far and in all, and the last one of the first generation says that all are done; then there is one message for the pairs of each by value of the file. Counting the levels gives the same counts, with one message for each by value. A progress display gives, for each thing added, its last message, the sum of the amounts since it was added and its total, in the order of the additions. [False: when the standard input is closed or is not a file, verbose tasks raise an exception; in a second generation by the same task the count of blocks stops short of its total; on a terminal the displays do not replace each other, because the control sequence has < and > in it and does nothing.]", "quantifier": "all item tables, tasks, thresholds, orders of the groups, whether the standard input is a terminal, a file or closed, all sequences of calls on a display", "why_tests_cant": "that an option changes nothing is about all tasks; tests do not read what is printed", "anchors": ["ABXpy/misc/progress_display.py:ProgressDisplay", "ABXpy/task.py:Task._init_prepare_database", "ABXpy/task.py:Task.compute_statistics", "ABXpy/task.py:Task._compute_triplets", "ABXpy/task.py:Task._generate_pairs", "ABXpy/task.py:Task.compute_nb_levels"]}
{"id": "C87", "title": "What rounding, or another change of the answers, does to the results of an evaluation", "statement": "Two evaluations of a task, with any features and distances, in which all triplets but some doubtful ones have equal answers, report lines for the same values and the same numbers of triplets, and the two scores of a line differ by at most the proportion of its triplets that are doubtful. For the default distance in the arithmetic of the machine and with real numbers, only the triplets of which the two distances are so close that the errors of the operations can exchange them are doubtful; so when there is none, the results are the same. With normalisation as well the machine computes the distance of an alignment of which the sum is nearly the least.", "quantifier": "every item table, task, features and places of items, every order of the groups, every error of the operations, every order of the additions and with fused products, provided that no operation overflows or underflows", "why_tests_cant": "all features and roundings; running the same tests on the same machine always rounds in the same way", "anchors": ["ABXpy/distance.py:default_distance", "ABXpy/score.py:score", "ABXpy/analyze.py:collapse", "ABXpy/distances/metrics/cosine.py:cosine_distance", "ABXpy/distances/metrics/dtw/dtw.pyx:_dtw"]}
{"id": "C88", "title": "With a threshold, no selection of triplets is favoured", "statement": "Generating a task with a threshold ends with probability one, and all the files that it can write have the same probability. Any choice of triplets that takes from each group (same on and across of A, same regressors of B and X) as many as the threshold, or all of a smaller group, is the content of one of these files. The same holds of sampling n of N positions without replacement: every set of n positions comes out, each with probability one over their number.", "quantifier": "every item table, task, filters and regressors within the limits of C10, every order of the groups and of equal keys, every threshold above 0, every choice of triplets", "why_tests_cant": "a probability is about all series of draws; a test sees the results of a few seeds", "anchors": ["ABXpy/sampling/sampler.py:sample_without_replacement", "ABXpy/task.py:Task.on_across_triplets", "ABXpy/task.py:Task.generate_triplets"]}
{"id": "C89", "title": "With a threshold, the triplets of a group are kept with equal chances, so means over the kept ones are unbiased", "statement": "In a task with at least one regressor of B or X and a threshold t, take a group of n triplets (same on and across of A, same regressors of B and X). Each of them is in the generated file with probability min(t, n)/n. Whatever number is attached to each triplet, such as whether its answer is right, the expected value of the mean of this number over the triplets of the group that are in the file is its mean over all the n triplets. The draws decide which triplets are kept and nothing else: two files that can be written and list the same triplets are the same file.", "quantifier": "every item table, task, filters and regressors within the limits of C10, every order of the groups and of equal keys, every threshold above 0, every group, every number attached to the triplets", "why_tests_cant": "an expected value is about all series of draws; a test sees the results of a few seeds", "anchors": ["ABXpy/task.py:Task.on_across_triplets", "ABXpy/task.py:Task.generate_triplets", "ABXpy/sampling/sampler.py:sample_without_replacement"]}
{"id": "C90", "title": "With a threshold, the expected score of a line of the results is a weighted mean over all its triplets", "statement": "In a task with at least one regressor of B or X and a threshold t, a line of the results is made of whole groups (same on and across of A, same regressors of B and X), unless there is an across column and a regressor of A is analysed. The expected score of such a line is the mean, over all its triplets and not only the kept ones, of 1 for a right answer, 0 for a wrong one and one half for equal distances, each with the weight min(t, n) / n, where n is the size of the group. So when the groups of a line have the same share kept (one group only, or equal sizes, or all at most t), the expected score is exactly the score without the threshold. Once triplets are generated the task file is always completed, and there is no file exactly when there is no triplet. [False: when the shares differ the threshold is biased, small groups count more than without it; on an example 2/3 is expected instead of 7/10.]", "quantifier": "every item table, task, filters and regressors within the limits of C10, features, places of items, distance functions whose distances can be computed, orders of the groups, numbers of processes and interleavings, every threshold above 0, every line of the results", "why_tests_cant": "an expected value is about all series of draws, and the comparison is between all the files that can be drawn; a test sees the results of a few seeds", "anchors": ["ABXpy/task.py:Task.generate_triplets", "ABXpy/task.py:Task.on_across_triplets", "ABXpy/sampling/sampler.py:sample_without_replacement", "ABXpy/score.py:score", "ABXpy/analyze.py:collapse"]}
{"id": "C91", "title": "A negative threshold either fails or leaves no triplet at all", "statement": "The command accepts a negative threshold. In a task with at least one regressor of B or X and at least one triplet, generating the triplets with a negative threshold raises a ValueError when some group of triplets (same on and across of A, same regressors of B and X) has 100 triplets or fewer; when every group has more than 100, it writes a file without triplets and without by values, and the task forgets its by groups. Neither depends on the random numbers. Computing the distances for such a file raises UnboundLocalError and leaves a distance file without distances, marked as not done; yet scores and analysis accept these files and give a result with a header and no line. [False: that a negative threshold is always refused; a task that announces 448 triplets in one group writes an empty file without any error.]", "quantifier": "every item table, task, filters and regressors within the limits of C10, every order of the groups and of equal keys, every threshold below 0, every random numbers", "why_tests_cant": "the border between the two depends on the sizes of all groups; tests use one or two thresholds above 0", "anchors": ["ABXpy/task.py:Task.generate_triplets", "ABXpy/task.py:sort_and_threshold", "ABXpy/sampling/sampler.py:sample_without_replacement", "ABXpy/sampling/sampler.py:Knuth_sampling", "ABXpy/sampling/sampler.py:rejection_sampling"]}
{"id": "C92", "title": "Sorting and thresholding codes keeps the right number of each, and counting in advance agrees", "statement": "sort_and_threshold, given codes and an order that sorts them, returns with a threshold t above 0 different positions in the order of their codes, min(t, number of occurrences) of each code; without a threshold, or with 0, the order as it is, without drawing a random number. The second result is the increasing list of the bounds of the runs of equal codes in the full order, whatever the threshold. With count_only=True it returns the sum over the codes of min(t, number of occurrences), for every integer t, which for t above 0 is the number of positions that are kept. [False: for the threshold 0 the count is 0 although everything is kept.]", "quantifier": "every non-empty list of codes, every order that sorts it, every integer threshold, every random numbers, every integer type that holds the positions", "why_tests_cant": "all lists and thresholds; no test calls the function with count_only", "anchors": ["ABXpy/task.py:sort_and_threshold"]}
{"id": "C93", "title": "The columns of a task may be given in any order and form, and a column given twice leaves no triplet", "statement": "For across and by, a column alone is the same as the list of this column, and nothing the same as an empty list. The task is made when on, across and by name columns of the item file and no column of it has '_' or '#' in its name; otherwise, and when the item file is missing or on is not a string, an AssertionError is raised (a TypeError when across or by is neither a string nor a list). The order of the columns of across and of by, and naming one several times, change neither the announced number of triplets nor the triplets of each by group. A column named for two of on, across and by is accepted, but then no triplet is announced and no task file is written, whatever the threshold.", "quantifier": "every item table, filters and regressors within the limits of C01, every arguments on, across and by, every order of the groups", "why_tests_cant": "all tables and all ways of naming the same columns, with two code paths for one and several across columns; the code has a FIXME for columns given twice and no test for them", "anchors": ["ABXpy/task.py:Task.__init__", "ABXpy/task.py:Task._init_as_list", "ABXpy/task.py:Task._init_check_database", "ABXpy/task.py:Task.on_across_triplets", "ABXpy/task.py:Task.generate_triplets"]}
{"id": "C94", "title": "Found back in the item file, the triplets are the ABX triples of lines, and more by or across columns only remove some", "statement": "Each triplet of a task file gives numbers of items inside a by group. Found back as lines of the item file, the triplets generated without threshold are exactly the triples of lines with the same by values, where A and X have the same on value and B another one, B has the values of A in the across columns and X other ones in each, X is another line than A, and the filters accept them; the announced number is the number of such triples. With a threshold, every triplet of the file is such a triple. With more by columns, the triplets are those whose three lines agree on these columns too; with more across columns, those where also B agrees with A and X differs from it in each; in both cases no more are announced. Without across columns and without filters A and X can be exchanged, so the number of triplets is even.", "quantifier": "every item table, task and filters within the limits of C01, every further columns, every order of the groups and of equal keys", "why_tests_cant": "relates the files of different tasks whose items are numbered differently; tests look at one task at a time and at the numbers inside the groups", "anchors": ["ABXpy/task.py:Task.__init__", "ABXpy/task.py:Task._init_prepare_database", "ABXpy/task.py:Task.on_across_triplets", "ABXpy/task.py:Task.generate_triplets", "ABXpy/task.py:Task.compute_statistics"]}
{"id": "C95", "title": "The overall score is that of the ABX triples of lines of the item file, whatever the by columns and regressors that split it", "statement": "Summed over all the lines of a result, the numbers give the number of triples of lines of the item file that are triplets of the task, and the scores weighted by these numbers give the right answers for these triples, equal distances counting one half; the answer for three lines only depends on their places and features, not on the task. So two tasks with the same triples have the same totals, however they are written and whatever splits their results. A task with a part of the triples of another has no more triplets, right answers and wrong answers.", "quantifier": "every item table, pair of tasks, features, distance and regressors within the limits of C76, every order, number of processes and interleaving", "why_tests_cant": "compares whole evaluations of different tasks whose files, pairs and groups are numbered differently; tests run one task", "anchors": ["ABXpy/task.py:Task.generate_triplets", "ABXpy/distances/distances.py:compute_distances", "ABXpy/score.py:score", "ABXpy/analyze.py:analyze"]}
{"id": "C96", "title": "A filter or regressor is read from its text as a column, a lookup table or a script, and a task always has the regressors of its on and across columns", "statement": "A filter given as the name of a column of the item file (or of its side files), maybe followed by an extension such as _A or _1, is that column; another text that ends by .dbfun is a lookup table; any other is a script, read from a file when it ends by .py. The inputs of a script are the extended column names that occur in it, so no column or script is ever refused for an unknown column; it is refused only when it cannot be read or parsed, or for its extensions. The filters of a task are these functions in the order of the texts, and the triplets of the task file are those on which all of them are true (within the limits of C03). Without any regressor given, a task has the regressors _1 and _2 of its on column and of each column determined by its across columns: _1 is constant on a block of triplets, _2 is a value of B for what on determines and of X for the rest. A regressor that is given is read like a filter, and is refused when it cannot be read, for its extensions, or for a plain name of a column that by does not determine. The value of a column regressor is the place of the value in the list of the distinct values of the column.", "quantifier": "every hierarchy of columns without underscore, every texts, scripts, order of the sets and of the values", "why_tests_cant": "quantifies over all texts, all scripts and all hierarchies of columns; tests give a few column names and scripts", "anchors": ["ABXpy/sideop/filter_manager.py:FilterManager.__init__", "ABXpy/sideop/regressor_manager.py:RegressorManager.__init__", "ABXpy/sideop/side_operations_manager.py:SideOperationsManager.add", "ABXpy/dbfun/dbfun_column.py:DBfun_Column", "ABXpy/dbfun/dbfun_compute.py:DBfun_Compute.__init__"]}
{"id": "C97", "title": "Regressors are named after their columns, numbered when they have no name, and one given by a script can be stored", "statement": "The regressors of a task are listed in the order by, on/across/by, A, B, X, ABX. A regressor that is a column of the item file bears the name of the column and its values are stored as positions in the list of the values of the column; a regressor that has no name is called reg_k, where k counts the nameless outputs before it over all the stages. For each name one list of values is kept. Asking once more for a column that already is a regressor changes nothing to what is written. A regressor given by a script is stored in the task file as the others are.", "quantifier": "For all lists of regressors of the six stages, all label types and texts of numbers; for the last claims, all task files without regressors and all blocks of regressors.", "why_tests_cant": "Tests use the default regressors only, so neither the numbering over several stages, nor a column asked for twice, nor a script is ever run.", "anchors": ["ABXpy/sideop/regressor_manager.py:RegressorManager.get_regressor_info", "ABXpy/sideop/regressor_manager.py:RegressorManager.fetch_regressor_info", "ABXpy/dbfun/dbfun_column.py:DBfun_Column.output_specs", "ABXpy/dbfun/dbfun_compute.py:DBfun_Compute.output_specs", "ABXpy/h5tools/h5io.py:H5IO.__init__"]}
