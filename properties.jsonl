{"id": "C01", "title": "Redundant cross sections stay balanced", "statement": "After any editing history on an opened ACE table, finishing with a sum-rule pass, every redundant reaction that has at least one edited constituent reads, at each of its own energies, exactly its evaluated value plus the total change of its edited constituents (each read at that energy). Hence if the evaluated redundant reaction was the sum of its present constituents at an energy, it still is after the edit.", "quantifier": "every ACE table (any set of reactions, grids, values), every finite history of set_sigma / apply_sum_rules calls, every redundant MT in {1,3,4,16,18,27,101,103..107}, every energy of its grid", "why_tests_cant": "the pass order and the overlap of the constituent lists matter; tests try one edited MT on one file, the claim ranges over all subsets of edited MTs, grids and call histories", "anchors": ["ASAPy/AceIO.py:AceEditor.apply_sum_rules", "ASAPy/AceIO.py:AceEditor.set_sigma", "ASAPy/AceIO.py:AceEditor.get_sigma"]}
{"id": "C02", "title": "A second sum-rule pass changes nothing", "statement": "Calling apply_sum_rules twice in a row leaves the table, the adjusted set and the recorded originals exactly as calling it once.", "quantifier": "every state reachable by any finite history of edits and passes", "why_tests_cant": "needs all states reachable by unbounded edit histories, including ones where several redundant MTs feed each other", "anchors": ["ASAPy/AceIO.py:AceEditor.apply_sum_rules"]}
{"id": "C03", "title": "Edit order and intermediate sum-rule passes do not matter", "statement": "For a set of edits to pairwise different reactions, any order of the edits, with sum-rule passes interleaved anywhere, followed by a final pass gives the same cross sections as applying all edits first and running one pass.", "quantifier": "every permutation of every finite list of edits with distinct MTs, every placement of passes", "why_tests_cant": "quantifies over all interleavings; write_sampled_data relies on it because it runs the pass after each MT", "anchors": ["ASAPy/AceIO.py:AceEditor.apply_sum_rules", "ASAPy/AceIO.py:AceEditor.set_sigma", "ASAPy/XsecSampler.py:write_sampled_data"]}
{"id": "C04", "title": "Edits are confined", "statement": "Whatever sequence of edits and sum-rule passes is run: no energy grid changes, the unadjusted view of every reaction always equals the evaluated file, and a reaction that was never set and is not a redundant reaction reached from an edited one keeps its evaluated values.", "quantifier": "every finite history on every table, every MT", "why_tests_cant": "a frame property over unbounded histories", "anchors": ["ASAPy/AceIO.py:AceEditor.set_sigma", "ASAPy/AceIO.py:AceEditor.apply_sum_rules", "ASAPy/AceIO.py:AceEditor.get_sigma"]}
{"id": "C05", "title": "set_sigma is atomic and reads back", "statement": "set_sigma either raises (unknown MT, or a number of values different from the number of energies) and leaves the editor completely unchanged, or afterwards get_sigma returns exactly the given values, the MT is marked adjusted, the first-ever previous value stays recorded as the original, and no other MT is touched.", "quantifier": "every editor state, MT and value list", "why_tests_cant": "all error paths and all prior histories", "anchors": ["ASAPy/AceIO.py:AceEditor.set_sigma", "ASAPy/AceIO.py:AceEditor.get_energy", "ASAPy/AceIO.py:AceEditor.get_sigma"]}
{"id": "C06", "title": "Values returned by get_sigma are private copies", "statement": "Writing into an array returned by get_sigma never changes what the editor holds. True for ordinary MTs; for MT=452 the returned array is the table's own storage, so the claim fails there (and with it the guarantee that the stored original equals the evaluated data once write_sampled_data has overwritten zeros in place). An array handed to set_sigma is likewise stored without copying.", "quantifier": "every heap (aliasing) state, every MT, every in-place write by the caller", "why_tests_cant": "aliasing: the bad effect appears only through a later mutation by the caller", "anchors": ["ASAPy/AceIO.py:AceEditor.get_sigma", "ASAPy/AceIO.py:AceEditor.get_nu_distro", "ASAPy/AceIO.py:AceEditor.set_sigma", "ASAPy/XsecSampler.py:write_sampled_data"]}
{"id": "C07", "title": "Absorption and disappearance follow edits of their parts", "statement": "If the (n,p)..(n,alpha) totals (103-107) or total fission (18) are edited directly, the absorption sums 101 and 27 follow after a sum-rule pass. The lists for 101 and 27 name only the level MTs (600-849, 19-21, 38), so this fails whenever a file carries 103-107 (or 18) without, or edited separately from, its levels.", "quantifier": "every table and edit", "why_tests_cant": "depends on which MTs a file happens to carry", "anchors": ["ASAPy/AceIO.py:AceEditor.apply_sum_rules"]}
{"id": "C08", "title": "Editing the fission spectrum keeps it a normalised distribution", "statement": "After setting prompt chi, each outgoing distribution has the requested pdf up to one common factor, its cdf ends at exactly 1 and starts at the old start divided by that factor, each cdf step equals (old step + pdf change x bin width)/factor; setting the pdf already present on a normalised distribution changes nothing; a wrong number of distributions or a wrong first length is rejected before anything is written; any other raising edit stops at the first distribution with a length that does not fit or a negative new value, the earlier ones being rewritten and the later ones untouched; for a right-rectangle-consistent old cdf and non-negative requested pdf the new cdf is non-decreasing.", "quantifier": "every number of incident energies, every grid length, every pdf, every non-zero normalisation", "why_tests_cant": "numeric identity over all lengths and values; the shape check covers only the first distribution", "anchors": ["ASAPy/AceIO.py:AceEditor.set_chi_distro", "ASAPy/AceIO.py:AceEditor.get_chi_distro"]}
{"id": "C09", "title": "A requested temperature is found iff the file has it", "statement": "Opening an ACE file with an explicit temperature succeeds exactly when the file contains it; without one it succeeds exactly when the file has one temperature. The explicit branch tests membership in the characters of the request itself, so it rejects every real temperature.", "quantifier": "every list of file temperatures and every requested string", "why_tests_cant": "claims every input is rejected, a universal statement", "anchors": ["ASAPy/AceIO.py:AceEditor.__init__"]}
{"id": "C10", "title": "Writing an ACE file preserves every value", "statement": "Reading an ACE file into the one-line form and writing it out again keeps the header lines and the exact sequence of data words, at most four words per line, provided no word is 20 characters or longer; a word of 20+ characters that does not start a line fuses with its neighbour and the sequence is corrupted.", "quantifier": "every file content (any characters, any number of words and lines)", "why_tests_cant": "all word counts mod 4, widths and spacings; real files have 10^5-10^6 words", "anchors": ["ASAPy/AceIO.py:WriteAce.write_ace", "ASAPy/AceIO.py:WriteAce._read_ace_to_a_line"]}
{"id": "C11", "title": "replace_array changes only the targeted block", "statement": "On success exactly the first occurrence(s) of the formatted old block are replaced by the formatted new block and every other character is kept; if the block starts and ends on word boundaries the number of words is unchanged and only those words change; an absent block or a length mismatch raises and changes nothing. Word boundaries are not checked by the code, so a positive first value can match inside a negative number.", "quantifier": "every file line, old block, new block and max_replaces", "why_tests_cant": "string search over arbitrary content", "anchors": ["ASAPy/AceIO.py:WriteAce.replace_array", "ASAPy/AceIO.py:WriteAce.format_mcnp"]}
{"id": "C12", "title": "Group values land on the right energies", "statement": "For decreasing group upper bounds h1>...>hn and min_e<hn, max_e>=h1, map_groups_to_continuous gives an energy E with min_e<E<=max_e the value of the unique group whose (lower,upper] interval contains it (top group extended to max_e), gives energies outside [min_e,max_e] the outside value, keeps length and order, and raises exactly when min_e equals the lowest upper bound or max_e is below h1. An energy exactly equal to min_e gets the non-existent group n+1.", "quantifier": "every group structure, every list of energies, every min_e/max_e", "why_tests_cant": "off-by-one behaviour at group edges for all n and all energies", "anchors": ["ASAPy/XsecSampler.py:map_groups_to_continuous"]}
{"id": "C13", "title": "Parallel runs produce the serial result", "statement": "For every number of MPI ranks the rank loops together handle every sample exactly once, and the collection of sample files produced equals that of a serial run, whatever order the ranks execute in.", "quantifier": "every number of ranks, every number of samples, every rank schedule", "why_tests_cant": "schedules and rank counts are unbounded", "anchors": ["ASAPy/XsecSampler.py:write_sampled_data"]}
{"id": "C14", "title": "Every drawn sample can be written for every MT", "statement": "Iterating over the first MT's sample numbers, each number exists for all other MTs. Sampling drops negative samples per MT independently, so later MTs can have fewer and the run aborts with KeyError; conversely surplus samples of later MTs are silently ignored.", "quantifier": "all tuples of per-MT sample tables", "why_tests_cant": "depends on which random samples go negative", "anchors": ["ASAPy/XsecSampler.py:write_sampled_data", "ASAPy/XsecSampler.py:XsecSampler._sample_check"]}
{"id": "C15", "title": "Negative-sample filtering keeps exactly the good samples", "statement": "With remove_neg, the kept samples are exactly those with no negative relative value, in the original order, unaltered; without it all samples are kept. If no relative value is undefined all groups are kept under labels 1..n; a group with an undefined value in a kept sample is dropped.", "quantifier": "every sample matrix, mean vector and flag", "why_tests_cant": "all patterns of negative and undefined entries", "anchors": ["ASAPy/XsecSampler.py:XsecSampler._sample_check"]}
{"id": "C16", "title": "sample() contract", "statement": "sample accepts exactly the five distribution names in any letter case and raises on anything else; returned samples are numbered 0..k-1 with k<=requested; with raise_on_bad_sample it raises iff some sample was dropped; set_neg_to_zero leaves no negative value and changes only negative values.", "quantifier": "every name, flag combination and drawn sample matrix", "why_tests_cant": "all flag combinations and draws", "anchors": ["ASAPy/XsecSampler.py:XsecSampler.sample"]}
{"id": "C17", "title": "Relative and full sample values agree", "statement": "sample_xsec returns tables with relative x mean = full wherever the mean is non-zero; a 0/0 entry becomes the full value. A zero mean with a non-zero full value gives an infinite relative value that is not replaced.", "quantifier": "every drawn table and mean vector", "why_tests_cant": "division corner cases over all values", "anchors": ["ASAPy/XsecSampler.py:sample_xsec"]}
{"id": "C18", "title": "Loaded covariance data are normalised", "statement": "Loading divides the correlation by its largest diagonal entry, so the largest diagonal becomes 1 and ratios are kept; bounds columns are swapped exactly when group 1 has low>high, so afterwards group 1 has low<=high, and loading data twice flipped gives the same result as loading it unflipped.", "quantifier": "every stored table with positive largest diagonal", "why_tests_cant": "all matrices", "anchors": ["ASAPy/XsecSampler.py:XsecSampler.load_zaid_mt"]}
{"id": "C19", "title": "Covariance from correlation", "statement": "correlation_to_cov returns a symmetric matrix with std^2 on the diagonal and corr[i,j]*std[i]*std[j] off it (upper triangle decides), and it is positive semi-definite whenever the correlation matrix is symmetric, unit-diagonal and positive semi-definite.", "quantifier": "every size, std vector and matrix", "why_tests_cant": "matrix identity and PSD claim for all sizes", "anchors": ["ASAPy/CovManipulation.py:correlation_to_cov", "ASAPy/XsecSampler.py:XsecSampler.calc_cov"]}
{"id": "C20", "title": "Correlation from covariance", "statement": "cov_to_correlation returns a symmetric unit-diagonal matrix; for symmetric covariances with positive diagonal converting to correlation and back with std=sqrt(diag) returns the covariance; for positive semi-definite covariances with positive diagonal all entries lie in [-1,1].", "quantifier": "every size and matrix", "why_tests_cant": "all sizes, real arithmetic", "anchors": ["ASAPy/CovManipulation.py:cov_to_correlation", "ASAPy/CovManipulation.py:correlation_to_cov"]}
{"id": "C21", "title": "Modified Cholesky factorises a diagonal shift of the input", "statement": "For every real symmetric A, gmw_cholesky returns a permutation matrix P, a lower-triangular L with positive diagonal and a non-negative e such that P L L^T P^T = A + P diag(e) P^T exactly.", "quantifier": "every size n and symmetric A", "why_tests_cant": "loop with pivoting; invariant over all n", "anchors": ["ASAPy/CovManipulation.py:gmw_cholesky"]}
{"id": "C22", "title": "Size of the factor and the shift of the modified Cholesky factorisation", "statement": "If A is symmetric positive semi-definite every shift satisfies 0<=e_j<=eps*max(gamma+xi,1), in particular no off-diagonal-driven shift ever occurs, and there is none at all when the smallest eigenvalue reaches that bound. For any symmetric A of size n>=2 the squares of the off-diagonal entries of L are at most beta^2=max(gamma, xi/sqrt(n^2-1), eps), those of the diagonal at least delta=eps*max(gamma+xi,1), and the shift is at most max(gamma+(n-1)beta^2, (xi+(n-1)beta^2)^2/beta^2, delta)+gamma+(n-1)beta^2.", "quantifier": "every size and symmetric matrix", "why_tests_cant": "needs Schur-complement induction", "anchors": ["ASAPy/CovManipulation.py:gmw_cholesky"]}
{"id": "C23", "title": "Fallback sampling uses a factor of the requested correlation", "statement": "When the plain Cholesky fails, the factor used for inducing correlations reproduces the requested off-diagonal correlations. The code drops the permutation: the factor reproduces them with variables permuted, so variable pairs get each other's correlations.", "quantifier": "every non-positive-definite correlation matrix", "why_tests_cant": "needs a failing Cholesky and a pivot; tests only check the factorisation itself", "anchors": ["ASAPy/CovManipulation.py:sample_with_corr", "ASAPy/CovManipulation.py:gmw_cholesky"]}
{"id": "C24", "title": "Rank reordering preserves marginals and order", "statement": "order(rank(N), S): each output column is a rearrangement of the same column of S, and within a column larger scores get larger-or-equal values (ties in input order); rank columns are permutations of 0..n-1.", "quantifier": "every shape and all matrices incl. ties", "why_tests_cant": "all permutations", "anchors": ["ASAPy/CovManipulation.py:rank", "ASAPy/CovManipulation.py:order", "ASAPy/CovManipulation.py:sample_with_corr"]}
{"id": "C25", "title": "Only samplable groups are sampled", "statement": "In sample_with_corr the result has one row per sample and one column per input group; groups with std<=1e-30 (and zero-mean groups for lognormal when the smallest mean is zero) are returned constant at their mean; every other column is a rearrangement of its own draws. Groups with zero correlation diagonal are skipped only if some other group is already skipped.", "quantifier": "every input vector, matrix and drawn randomness", "why_tests_cant": "mask bookkeeping over all patterns", "anchors": ["ASAPy/CovManipulation.py:sample_with_corr"]}
{"id": "C26", "title": "Lognormal parameters reproduce the requested moments", "statement": "The (mu,sigma) used for lognormal sampling satisfy exp(mu+sigma^2/2)=mean and (exp(sigma^2)-1)exp(2mu+sigma^2)=std^2; the correlation transform maps a unit diagonal to a unit diagonal, keeps symmetry and sign, and every lognormal value is positive.", "quantifier": "every positive mean and std", "why_tests_cant": "real-analytic identity", "anchors": ["ASAPy/CovManipulation.py:sample_with_corr"]}
{"id": "C27", "title": "Eigenvalue repair yields a positive definite matrix", "statement": "For a symmetric correlation block with positive diagonal, given an orthonormal eigendecomposition, the repaired block is symmetric positive definite, is unchanged if all eigenvalues exceed 1e-8, and groups with non-positive diagonal are left untouched; with no positive diagonal entry the routine raises.", "quantifier": "every size and matrix", "why_tests_cant": "linear algebra over all sizes", "anchors": ["ASAPy/XsecSampler.py:XsecSampler._fix_non_pos_semi_def_matrix_eigen", "ASAPy/XsecSampler.py:XsecSampler.__init__"]}
{"id": "C28", "title": "Matrix text is parsed field by field", "statement": "A file consisting of four header lines (first word an integer) each followed by lines of 10-character fields is split into exactly those blocks and fields: the returned bounds, cross sections, deviations and matrix rows are the printed numbers in order, for any number of groups and any line breaks at field boundaries.", "quantifier": "every number of groups, field values and line layout", "why_tests_cant": "fixed-width parsing for all lengths", "anchors": ["ASAPy/EndfToCov.py:read_boxer_out_matrix"]}
{"id": "C29", "title": "Stored covariance data are clean and contiguous", "statement": "When processing succeeds the stored correlation has every entry in [-1,1], unit diagonal and no undefined entry, is symmetric; the stored group table has e_high[i]=bounds[i], e_low[i]=bounds[i+1], so neighbouring groups share a bound, no undefined value, and zero cross-section groups are stored as 0 +- 1e-7.", "quantifier": "every parsed covariance file", "why_tests_cant": "NaN/zero corner cases for all matrices", "anchors": ["ASAPy/EndfToCov.py:process_cov_to_h5", "ASAPy/AsapyCovStorage.py"]}
{"id": "C30", "title": "A failed processing step leaves the store as it was", "statement": "process_cov_to_h5 touches only the keys of its own nuclide and MT, and if it raises nothing was written. The correlation is written before the group table is checked, so a group table that is not strictly decreasing leaves a correlation without its standard deviations.", "quantifier": "every store content and every input, every failure point", "why_tests_cant": "crash points", "anchors": ["ASAPy/EndfToCov.py:process_cov_to_h5", "ASAPy/AsapyCovStorage.py:check_stddev_df", "ASAPy/AsapyCovStorage.py:add_stddev_to_store"]}
{"id": "C31", "title": "Store keys identify nuclide and MT", "statement": "Different (mat1,mt1,mat2,mt2,kind) never share a key, and reading MT numbers back from the store's keys yields exactly the MTs stored.", "quantifier": "all numbers and all store contents", "why_tests_cant": "injectivity over all integers", "anchors": ["ASAPy/AsapyCovStorage.py:df_key_corr_formatter", "ASAPy/XsecSampler.py:main", "ASAPy/XsecSampler.py:XsecSampler.load_zaid_mt"]}
{"id": "C32", "title": "NJOY decks have sound data flow", "statement": "In every deck built by make_njoy_run each unit read by a module is the input tape or was written by an earlier module, no unit is written twice, and the tapes in tapeout are exactly the results written (plus the PENDF tape if asked for). Every module finds the kind of data it needs unless covariances are made with heatr off and purr or acer on (they then read a covariance or plot tape); every module told to use a user weight table gets one except the nu/chi groupr run. A deck is built exactly for consistent options.", "quantifier": "every number of temperatures and every flag combination", "why_tests_cant": "counter arithmetic over unbounded loops and flag combinations", "anchors": ["ASAPy/njoy.py:make_njoy_run"]}
{"id": "C33", "title": "The covariance tapes picked are the covariance tapes", "statement": "run_cover_chain's every-other-entry selection of tapeout picks exactly the covariance outputs (one per temperature, plus nu and chi) if and only if an MT or chi is requested, or there is at most one temperature and no nu.", "quantifier": "every number of temperatures, nu/chi flags", "why_tests_cant": "dictionary order over unbounded runs", "anchors": ["ASAPy/EndfToCov.py:run_cover_chain", "ASAPy/njoy.py:make_njoy_run"]}
{"id": "C34", "title": "PENDF generation works by default", "statement": "make_pendf with its defaults builds a deck: false, it always raises, because covariance processing stays on while no energy groups are passed (with covariances off the single reconr module would be built). Also, make_njoy_run never returns when run=True, since the argument shadows the function.", "quantifier": "all inputs", "why_tests_cant": "universal failure claim", "anchors": ["ASAPy/njoy.py:make_pendf", "ASAPy/njoy.py:make_njoy_run"]}
{"id": "C35", "title": "ENDF numbers are read with their written value", "statement": "An ENDF number field written with or without an exponent letter is rewritten to a Python literal with the same mantissa and exponent; fields already in Python syntax are unchanged.", "quantifier": "all mantissas, exponents, signs", "why_tests_cant": "regex semantics over all strings", "anchors": ["ASAPy/endf.py:float_endf"]}
{"id": "C36", "title": "ENDF records consume exactly their lines", "statement": "Reading a LIST (or TAB1/TAB2) record laid out six values per line returns exactly the declared values in order and leaves the file at the line following the record, for every count including zero and multiples of six.", "quantifier": "all counts and values", "why_tests_cant": "all counts mod 6", "anchors": ["ASAPy/endf.py:get_list_record", "ASAPy/endf.py:get_tab1_record", "ASAPy/endf.py:get_tab2_record"]}
{"id": "C37", "title": "INTG correlation records are placed where they belong", "statement": "Reading an INTG record places every stored integer in the matrix entry it belongs to. In the code the column offset of the second and later integers of a line is dropped: only the pair a line starts with is ever set (to the line's last non-zero integer), later pairs stay zero; with one integer per line the placement is right, and the matrix is always symmetric.", "quantifier": "all records", "why_tests_cant": "position semantics over all lines", "anchors": ["ASAPy/data/endf.py:get_intg_record"]}
{"id": "C38", "title": "ENDF files are cut into sections losslessly", "statement": "An evaluation's (MF,MT) sections contain exactly the text lines of that section, for any number and order of sections, and reaction_list matches the directory; every descriptive datum is the field of section (1,451) it comes from. Of sections given more than once the last counts.", "quantifier": "all well-formed files", "why_tests_cant": "stream state machine over unbounded files", "anchors": ["ASAPy/endf.py:Evaluation"]}
{"id": "C39", "title": "Tabulated functions interpolate", "statement": "A tabulated function on a strictly increasing grid returns the tabulated value at every grid point, the scheme's value between (lin-lin stays between neighbours), and zero outside the grid; sums of functions are pointwise.", "quantifier": "every grid, region layout, energy", "why_tests_cant": "all grids", "anchors": ["ASAPy/data/function.py:Tabulated1D.__call__", "ASAPy/data/function.py:sum_functions"]}
{"id": "C40", "title": "Integrals of tabulated functions add up the segments", "statement": "The cumulative integral starts at 0 and each increment is the exact integral of that segment for histogram and lin-lin regions (so it is non-decreasing for non-negative data); the linear-log formula is not the integral.", "quantifier": "every grid", "why_tests_cant": "calculus identity", "anchors": ["ASAPy/data/function.py:Tabulated1D.integral"]}
{"id": "C41", "title": "ACE text to binary and back is lossless", "statement": "Converting an ASCII ACE library (old or new-style headers, any number of tables, any data length) to binary succeeds and reading the result gives the same tables (name, mass, temperature, pairs, NXS, JXS, data), all of them or exactly those asked for by name; each table takes one 4096-byte record plus as many as its data needs.", "quantifier": "all table contents, lengths", "why_tests_cant": "padding arithmetic for all lengths", "anchors": ["ASAPy/data/ace.py:ascii_to_binary", "ASAPy/data/ace.py:Library._read_binary"]}
{"id": "C42", "title": "ZAID metadata", "statement": "get_metadata recovers Z, A and state for ground states (A <= 3Z), first isomers coded with A+400, the state-first MCNP codes and the Am242 exceptions; its mass number never exceeds 3Z and differs from the last three digits by whole hundreds. Not recovered (refuted): the documented NNDC code A+100m below 300, second isomers, and nuclides with A > 3Z (negative mass numbers).", "quantifier": "all ZAIDs", "why_tests_cant": "arithmetic over all codes", "anchors": ["ASAPy/data/ace.py:get_metadata"]}
{"id": "C43", "title": "Nuclide names round-trip", "statement": "zam(gnd_name(Z,A,m))=(Z,A,m) for every tabulated element, mass number and state; names are injective and exist exactly for Z = 0..118; everything zam accepts has a name read alike. Refuted: zam accepts only names (trailing text is ignored).", "quantifier": "all Z in the table, all A and m", "why_tests_cant": "string round trip over all integers", "anchors": ["ASAPy/data/data.py:gnd_name", "ASAPy/data/data.py:zam"]}
{"id": "C44", "title": "Components of a redundant reaction", "statement": "get_reaction_components ends for every set of reactions and MT, and returns, each once, exactly the reactions within the given one (by SUM_RULES, at any depth, itself included) that are present and have no present part.", "quantifier": "all reaction sets and MTs", "why_tests_cant": "recursion over all subsets", "anchors": ["ASAPy/data/neutron.py:IncidentNeutron.get_reaction_components", "ASAPy/data/endf.py:SUM_RULES"]}
{"id": "C45", "title": "Thinning respects the tolerance", "statement": "For positive tolerance, thin returns the table at increasing indices from first to last; each removed point is non-zero and within the relative tolerance of the line through its kept neighbours; of points on one line (none zero inside) only the ends are kept. With tolerance 0 a zero-valued point is removed (refuted).", "quantifier": "all grids and tolerances", "why_tests_cant": "two-pointer loop invariant", "anchors": ["ASAPy/data/grid.py:thin"]}
{"id": "C46", "title": "Linearisation keeps the grid and meets its midpoint criterion", "statement": "When linearize returns, the output abscissae are strictly increasing, contain every initial abscissa, ordinates are the function's values, and between every two neighbouring outputs the midpoint interpolation error was within tolerance.", "quantifier": "all functions and grids for which the loop ends", "why_tests_cant": "stack algorithm with unbounded refinement", "anchors": ["ASAPy/data/grid.py:linearize"]}
{"id": "C47", "title": "Continuous energy distributions survive HDF5", "statement": "Writing a continuous tabular distribution and reading it back gives the same incident energies, breakpoints and distributions (lines, continuous points, cdf, scheme, mixture weights), when each distribution is non-empty with non-negative probabilities, uses histogram or lin-lin, and mixture weights are the last line's cdf; the points alone come back for any scheme and weights. Distributions read from ACE are of that kind when the lines' cdf is their sum. Refuted without the conditions: an empty distribution reads back as the previous one, log schemes become lin-lin, mixture weights change or reading fails.", "quantifier": "all numbers and lengths of distributions", "why_tests_cant": "offset arithmetic over all lengths", "anchors": ["ASAPy/data/energy_distribution.py:ContinuousTabular.to_hdf5", "ASAPy/data/energy_distribution.py:ContinuousTabular.from_hdf5"]}
{"id": "C48", "title": "Automatic IDs are fresh", "statement": "In any history of automatic and explicit ID assignments and reservations (without reset), an automatically assigned ID differs from every ID assigned or reserved before.", "quantifier": "all histories", "why_tests_cant": "unbounded histories", "anchors": ["ASAPy/data/mixin.py:IDManagerMixin"]}
{"id": "C49", "title": "Equality is symmetric", "statement": "a==b implies b==a for data objects of the same class with the same attributes; reflexive exactly without NaN; transitive without None. In general symmetry fails: only the left object's attributes are compared, so an extra attribute (such as a cdf) on the right is ignored.", "quantifier": "all attribute dictionaries", "why_tests_cant": "needs objects with different attribute sets", "anchors": ["ASAPy/data/mixin.py:EqualityMixin.__eq__"]}
{"id": "C50", "title": "Nested iterables are validated at every depth", "statement": "check_iterable_type accepts a nested structure iff every leaf has the expected type at a depth between min_depth and max_depth and no nesting exceeds max_depth; it terminates on every finite structure.", "quantifier": "all finite nested structures", "why_tests_cant": "explicit-stack traversal over all trees", "anchors": ["ASAPy/data/checkvalue.py:check_iterable_type"]}
{"id": "C51", "title": "BOXER matrices are decompressed faithfully", "statement": "Decoding run-length BOXER data yields the original matrix for any encoding consistent with it; with the symmetric flag the result is symmetric; a stream of the wrong length stops with an error and is never written.", "quantifier": "all matrices and run-length encodings", "why_tests_cant": "codec over all sizes", "anchors": ["boxer2mat/boxer2mat.f:BOXR"]}
{"id": "C52", "title": "Score matrix has exactly the requested correlation", "statement": "When both Cholesky factorisations succeed, the score matrix used to rank the samples has column means zero and sample covariance equal to the requested correlation matrix, whatever accidental correlation the shuffled columns had.", "quantifier": "every sample count, every number of groups, every permutation of the columns, every correlation matrix", "why_tests_cant": "exact linear-algebra identity over all sizes and shuffles", "anchors": ["ASAPy/CovManipulation.py:sample_with_corr", "ASAPy/CovManipulation.py:col_independent_matrix"]}
{"id": "C53", "title": "All materials of a tape are returned", "statement": "get_evaluations returns one evaluation per material of a well-formed tape, in order, each holding exactly that material's sections. This holds in ASAPy/data/endf.py; in ASAPy/endf.py the constructor closes the shared file handle, so every tape with at least one material raises.", "quantifier": "all well-formed tapes, any number of materials", "why_tests_cant": "the result depends on the stream position after every material", "anchors": ["ASAPy/endf.py:get_evaluations", "ASAPy/data/endf.py:get_evaluations"]}
{"id": "C54", "title": "Redundant reactions are rebuilt as sums on reading", "statement": "After from_hdf5, stored reactions are unchanged and every other sum reaction is present iff one of its parts is and equals the sum of its parts at every energy, hence (if stored sums are consistent) the sum of its components - provided MT 18 is stored whenever MT 19, 20, 21 or 38 is. Without that proviso refuted: MT 27 is built before MT 18, so MT 27, 3 and the total lack fission.", "quantifier": "all sets of stored reactions and cross sections", "why_tests_cant": "order of dependent sums over all subsets of reactions", "anchors": ["ASAPy/data/neutron.py:IncidentNeutron.from_hdf5", "ASAPy/data/endf.py:SUM_RULES"]}
{"id": "C55", "title": "Leaving out redundant reactions loses nothing", "statement": "For a library in which every reaction equals the sum of its components and only reactions with proper components are marked redundant, exporting to HDF5 and reading back gives every reaction its cross section again, provided MT 18 is written or there are no partial fission reactions. Without the proviso refuted (total cross section lacks fission).", "quantifier": "all libraries", "why_tests_cant": "all combinations of flags and reactions", "anchors": ["ASAPy/data/neutron.py:IncidentNeutron.export_to_hdf5", "ASAPy/data/neutron.py:IncidentNeutron.from_hdf5"]}
{"id": "C56", "title": "Text and binary readers agree", "statement": "For a library written evenly (all lines of data of a table but the last equally long, at least two of them) reading the text gives the tables that reading its binary conversion gives. Refuted beyond that: a table can be picked by name from text only if the file begins with it; a table with one line of data followed by another cannot be read; a last number without the letter of its exponent is silently read as its mantissa.", "quantifier": "all evenly written libraries, all tables", "why_tests_cant": "seek/readlines arithmetic over all table sizes", "anchors": ["ASAPy/data/ace.py:Library._read_ascii", "ASAPy/data/ace.py:Library._read_binary", "ASAPy/data/ace.py:ascii_to_binary"]}
{"id": "C57", "title": "Cross sections of a sampled file", "statement": "For one sample, write_sampled_data leaves in the editor, for each sampled reaction (or nu-bar) that is not redundant to another sampled one, the evaluated value at each energy times the factor of the group holding the energy (1 outside the groups; an evaluated 0 counts as 1); a sampled fission spectrum has every pdf multiplied by the factors of its groups and renormalised; every redundant reaction above a sampled one moves by the sum of the changes of its parts, even if it was sampled itself, whose own factors are then lost; everything else is as evaluated; exactly the sampled reactions and those above them are marked for writing; the order of the reactions does not matter; well formed group data never raise.", "quantifier": "every table, list of sampled reactions, group structure and factors", "why_tests_cant": "tables, reaction sets, orders and factors are unbounded; interaction between sampled and redundant reactions", "anchors": ["ASAPy/XsecSampler.py:write_sampled_data", "ASAPy/AceIO.py:AceEditor.apply_sum_rules", "ASAPy/XsecSampler.py:map_groups_to_continuous"]}
{"id": "C58", "title": "Angular distributions are what the ACE words and the ENDF lines describe, and survive HDF5", "statement": "AngleDistribution.from_ace returns, for each incident energy, the distribution the locator describes (isotropic; 32 equiprobable bins with the cosines given, each holding 1/32 of the probability and cdf i/32; a table with its scheme, cosines, densities and cdf), with energies in eV. from_endf returns the energies, Legendre coefficients and tables of the file-4 section in all four representations (isotropic, Legendre, tables, Legendre then tables). to_hdf5 followed by from_hdf5 returns the same energies and points for tables without negative densities and for uniform distributions.", "quantifier": "all XSS arrays and locations holding a well-formed angular block with any number of energies and any mixture of representations; all well-formed file-4 sections; all lists of distributions", "why_tests_cant": "locators, counts and offsets are data; any mixture and any length of tables is possible", "anchors": ["ASAPy/data/angle_distribution.py:AngleDistribution.from_ace", "ASAPy/data/angle_distribution.py:AngleDistribution.from_endf", "ASAPy/data/angle_distribution.py:AngleDistribution.to_hdf5", "ASAPy/data/angle_distribution.py:AngleDistribution.from_hdf5", "ASAPy/data/univariate.py:Legendre.coefficients"]}
{"id": "C59", "title": "The text of a sampled file holds the sampled values", "statement": "After write_sampled_data, the written ACE text has the header of the evaluated file and as many data words; where the evaluated file has the values of a sampled reaction (or one kept in step with it) it has the current values, and every other word is as evaluated, provided that the values of each such reaction are met first at its own place when its turn comes (reactions are written in order of their numbers).", "quantifier": "every evaluated table, ACE text, layout, list of sampled reactions and factors, and every printer of numbers with eleven decimals", "why_tests_cant": "replacement is by text search: whether another word sequence matches earlier depends on the data of the whole file", "anchors": ["ASAPy/XsecSampler.py:write_sampled_data", "ASAPy/AceIO.py:WriteAce.replace_array", "ASAPy/AceIO.py:WriteAce.write_ace"]}
{"id": "C60", "title": "A whole sampling run writes the right files", "statement": "A run of the sampling script, on any number of MPI processes and with any interleaving of their writes, writes for every n with an n-th sample free of negative values a file './<symbol><A>_<n>' that is the evaluated file with every requested reaction (given with -mts, or all stored ones, as far as the file has them) multiplied, group by group, by the n-th kept drawn value over the stored mean; files with other numbers are left alone. With too few oversamples, nothing to sample, a reaction without stored data, or --plot-only, no file is touched.", "quantifier": "every argument set, store, evaluated table and text, every random draw, number of processes and interleaving", "why_tests_cant": "needs all draws, stores and schedules; the chain from option parsing over loading, sampling, filtering and editing to the parallel writing is only exercised end to end on data that are not shipped", "anchors": ["ASAPy/XsecSampler.py:__main__", "ASAPy/XsecSampler.py:sample_xsec", "ASAPy/XsecSampler.py:write_sampled_data"]}
{"id": "C61", "title": "The covariance-store generator stores the right matrices", "statement": "A run of EndfToCov.py that finishes has run NJOY on the given ENDF file and, for every reaction asked for (all with MF 33 data by default) and nu-bar and chi of a fissionable target, stored under <1000Z+A>/<MT> in the store named after the nuclide (or option) and the number of groups what BOXER makes of the tape of that reaction, or left the store unchanged there when BOXER found nothing; the sampler loads it from there. Nothing else in any store is touched however a run ends; asking for a reaction without covariances, or an evaluation without any, is refused before anything is written; with working programs a run finishes.", "quantifier": "every evaluation, option set, directory, store, and behaviour of NJOY and BOXER (BOXER writing only its output unit)", "why_tests_cant": "needs all behaviours of two external programs and all prior contents of the directory and stores; neither program is available in a test", "anchors": ["ASAPy/EndfToCov.py:__main__", "ASAPy/EndfToCov.py:run_cover_chain", "ASAPy/EndfToCov.py:_run_cover_chain", "ASAPy/EndfToCov.py:run_program", "ASAPy/EndfToCov.py:process_cov_to_h5"]}
{"id": "C62", "title": "An NJOY deck says what was asked for", "statement": "make_njoy_run builds a deck whose text, read card by card as NJOY reads it, is exactly: reconr, broadr, for every temperature groupr/errorr/covr (and covr/viewr plots of the MTs asked for), groupr/errorr/covr/viewr for nu and chi, heatr, purr, one acer per temperature, stop, as far as switched on, each with the material, units, titles, tolerances, temperatures, group bounds and weights given; every group structure and weight table is read back exactly from its cards; the units are those of the module sequence of C32 and tapes are moved to files named after reaction type and temperature. It fails just when groups, weights or broadening needed are missing, or with run=True. Covariances of nu and chi are made at the last temperature only, and temperatures equal to a tenth share one ACE file name.", "quantifier": "every material, target name, library, list of temperatures, group structure, weight table, MT list and combination of switches", "why_tests_cant": "needs all combinations of switches and numbers of temperatures, groups and reactions; NJOY itself is not available in a test, and a deck with a misplaced card still is a text", "anchors": ["ASAPy/njoy.py:make_njoy_run", "ASAPy/njoy.py:_TEMPLATE_RECONR", "ASAPy/njoy.py:_TEMPLATE_GROUPR_FOR_XSEC", "ASAPy/njoy.py:_TEMPLATE_COVR_FOR_PLOT"]}
{"id": "C63", "title": "Running NJOY, and thermal ACE files", "statement": "njoy.run gives NJOY exactly the input files as tapes, and when NJOY ends with code 0 every output file holds the tape NJOY left for it and no other file changes; when an input file is missing, NJOY cannot be started or ends with another code, nothing changes but the copy of the input, and the error says which. make_ace_thermal gives NJOY a deck that, read card by card, is reconr, broadr, thermr for the free gas and for the bound material, and one acer per temperature with the data of the material from the table; materials that are not in the table and sections that are too short are refused before anything is written. The file named by `ace` is never written, only one per temperature; nuclides beyond the third are left out for the four materials that have more.", "quantifier": "every pair of evaluations, temperatures, names and tolerance; every behaviour of NJOY and all prior files", "why_tests_cant": "needs all behaviours of an external program that is not available in a test, and all prior contents of the directory", "anchors": ["ASAPy/njoy.py:run", "ASAPy/njoy.py:make_ace_thermal", "ASAPy/njoy.py:_THERMAL_DATA"]}
{"id": "C64", "title": "Cross sections read from an ACE table", "statement": "IncidentNeutron.from_ace reads for total, elastic, (non-zero) absorption and every listed reaction the energies of the grid in eV from its threshold on and its values, with its Q value in eV and frame; negative values of elastic and listed reactions become 0, in XSS itself, and nothing else of XSS changes. The reactions of the result are exactly those given (without gas production 201-218 and damage 444) and the sums made: (n,2n), the charged-particle sums and sums with photons (never MT 3), if a part is given. A sum is, at every energy of the grid from the lowest threshold on, the sum of its components; reactions are marked redundant exactly if they are absorption or have components other than themselves. A table of cross sections alone is always read. It fails for photons of MT 3 if there is no absorption; the values read need not be in the file; total and absorption keep negative values; a sum takes the first value of a component already within 1e-5 below its threshold.", "quantifier": "every table, whatever reads its secondary distributions", "why_tests_cant": "needs all tables of any size, with all placements of their blocks, and all subsets of the sum rules", "anchors": ["ASAPy/data/neutron.py:IncidentNeutron.from_ace", "ASAPy/data/neutron.py:IncidentNeutron._get_redundant_reaction", "ASAPy/data/reaction.py:Reaction.from_ace"]}
{"id": "C65", "title": "Neutrons read from an ACE table", "statement": "Fission read by IncidentNeutron.from_ace has as first product the neutrons that are not delayed, with the number of the NU block as a function of the energy in eV (polynomial or table): all neutrons if the table gives one number and no delayed ones, else the prompt ones; a second number becomes the one derived product (all neutrons). Delayed neutrons follow group by group with decay constants in 1/s; with probabilities that do not depend on the energy each gets its share, and at every energy of the table they add up to the number of delayed neutrons. Other reactions emit |TYR| neutrons or the function TYR points to, none delayed; those beyond NXS[5] emit none; elastic scattering emits one. The energy laws are those of the chain in DLW, in order, each with its applicability in eV, and the angles of the reaction go to every one. The editor gets the number of all neutrons exactly if it is the second number, a table, with at least two different values. TYR = 19 without a NU block or for another reaction is an error. A constant number, or a single one, does not reach the editor; if the probabilities of some groups depend on the energy and those of others do not, the delayed neutrons do not add up.", "quantifier": "every table, whatever reads its secondary distributions", "why_tests_cant": "needs all tables of any size with all placements of their blocks, all numbers of precursor groups and chains of laws of any length", "anchors": ["ASAPy/data/reaction.py:_get_fission_products_ace", "ASAPy/data/reaction.py:Reaction.from_ace", "ASAPy/data/neutron.py:IncidentNeutron.from_ace", "ASAPy/AceIO.py:AceEditor.get_nu_distro"]}
{"id": "C66", "title": "Photons read from an ACE table", "statement": "The photons of elastic scattering and of every listed reaction read by IncidentNeutron.from_ace are exactly those the table lists for it, in the table's order, each prompt, with its number per reaction as a function of the energy in eV, the energy law and the angles the table points to (isotropic over the range of the number if it points to none). Where the table gives a cross section for making photons instead of a number, number times cross section of the reaction is that cross section again at every energy of the grid where the reaction's cross section is positive, and the number is 0 elsewhere. A reaction made as a sum has the photons listed for it and no other product; total and absorption have none. Photons made where the reaction itself has no cross section are lost, and photons listed for MT 3 are in no reaction.", "quantifier": "every table, whatever reads its secondary distributions", "why_tests_cant": "needs all tables of any size with all placements of their blocks and any number of photons in all forms", "anchors": ["ASAPy/data/reaction.py:_get_photon_products_ace", "ASAPy/data/neutron.py:IncidentNeutron.from_ace"]}
{"id": "C67", "title": "Probability tables read from an ACE table", "statement": "The probability tables of the unresolved range that IncidentNeutron.from_ace keeps have the energies of the table in eV and every entry (energy, quantity, band) at its place, heating numbers in eV and the other quantities unchanged, with interpolation and flags as given; a table without such a block yields none; interpolation other than 2 or 5 is an error.", "quantifier": "every table with any number of energies and bands", "why_tests_cant": "needs all numbers of energies and bands, all entries and all placements of the block", "anchors": ["ASAPy/data/urr.py:ProbabilityTables.from_ace", "ASAPy/data/neutron.py:IncidentNeutron.from_ace"]}
{"id": "C68", "title": "Plots of a sampled reaction", "statement": "With groups from high to low energies without gaps, what plot_sampled_info and plot_xsec draw is what the names say: inside each group the variance curves show the squared standard deviation of the store and the sample variance (below half the last upper bound nothing); inside each pair of groups the correlation plots show the correlation of the store and that of the samples (0 for groups not sampled or without a value; on request the absolute difference), with positive edges; with the widest range every value has its own colour; at most ten sampled curves are drawn, each the base curve times the factors of the groups, and the same as the values of the sample's file wherever the cross section is not 0; the deviations are in percent, down to the first energy of the reaction; the scale is logarithmic exactly when the values span more than three decades. Without the widest range the ends of the colours are swapped, so values may lie outside; the last group is drawn to half its upper bound instead of its lower one; where the cross section is 0 plot and file differ.", "quantifier": "every table, every number of groups and samples, every correlation matrix", "why_tests_cant": "plots are pictures: no test looks at them, and the claims are over all group structures and matrices", "anchors": ["ASAPy/XsecSampler.py:plot_sampled_info", "ASAPy/XsecSampler.py:plot_xsec", "ASAPy/XsecSampler.py:get_mt_from_ace"]}
{"id": "C69", "title": "Secondary energies and angles read from an ACE table", "statement": "A law (2, 3, 33, 4, 7, 9, 11, 44, 61, 66) standing in a block of an ACE table is read by AngleEnergy.from_ace as what the table says, in eV: the photon's or level's energy, the regions and incident energies, lines and continuous densities of every spectrum with the weight of the lines, temperature functions with their restriction energy, Watt's a times and b over 10^6, the Kalbach-Mann parameters along the energies of the spectrum, the cosine tables of correlated laws with their interpolation (isotropic where no table is given), the bodies, mass and the reaction's Q value of an N-body law. The probability under every continuous part is that of the table. Reading a whole table, the laws of a reaction's chain become the distributions of its first product in order. Any other law, law 5 included, is refused; so are an N-body law without a reaction and a negative density in law 4 (laws 44 and 61 take it).", "quantifier": "every table, block, law, number of incident and outgoing energies, lines and regions", "why_tests_cant": "tests read a few files; the claim is over every layout of a block, every mix of lines and continuum, every law", "anchors": ["ASAPy/data/angle_energy.py:from_ace", "ASAPy/data/energy_distribution.py:ContinuousTabular.from_ace", "ASAPy/data/energy_distribution.py:WattEnergy.from_ace", "ASAPy/data/kalbach_mann.py:from_ace", "ASAPy/data/correlated.py:from_ace", "ASAPy/data/nbody.py:from_ace"]}
{"id": "C70", "title": "Products of reactions survive HDF5", "statement": "A product (Product.to_hdf5, from_hdf5) whose tables have as many ordinates as abscissae, whose decay rate is not negative, with no applicability function or at least one for each distribution, and whose distributions are fit for the file is written and read back as that product: particle, emission mode, decay rate, yield, one applicability function per distribution, and each distribution with its kind, incident energies, interpolation regions, lines, continuous points, parameters and cosines. Schemes other than histogram come back as linear, an isotropic cosine as a table, line weights as the last cumulative probability; a product without those comes back identical. The laws read from an ACE table with non-empty, non-negative spectra can be so stored. Not true: what is written can be read (Madland-Nix, negative densities taken from ACE law 44); what is read can be written (general evaporation, arbitrary tabulated, correlated spectra of lines and continuum); angles set on other than uncorrelated distributions are in the file.", "quantifier": "every product, number of distributions, law and table within", "why_tests_cant": "tests store a few nuclides; the claim is over every product and every mix of laws, spectra, lines and cosines, through shared arrays and offsets", "anchors": ["ASAPy/data/product.py:to_hdf5", "ASAPy/data/product.py:from_hdf5", "ASAPy/data/angle_energy.py:from_hdf5", "ASAPy/data/uncorrelated.py:to_hdf5", "ASAPy/data/kalbach_mann.py:to_hdf5", "ASAPy/data/correlated.py:from_hdf5", "ASAPy/data/nbody.py:from_hdf5", "ASAPy/data/energy_distribution.py:MadlandNix.to_hdf5"]}
{"id": "C71", "title": "Data of a nuclide survive HDF5", "statement": "The data of a nuclide read from ACE (IncidentNeutron.export_to_hdf5, from_hdf5) with distinct temperature names, a grid for each temperature, tabulated cross sections at every temperature and products fit for the file are exported and read back: name, Z, A, metastable state, atomic weight ratio, the temperatures, the grids of those and of 0K, the probability tables, and every reaction that is not redundant, has photons, or is MT 4, 16, 103-107, with Q value, frame, flag, products and, at each temperature, its values against the grid from its first energy on. For a number not in the file the reaction is the sum, at each temperature, of those of its parts that are in time for it, or absent. Every table of cross sections that from_ace reads, with non-negative numbers and products fit for the file, is so stored: elastic scattering and each reaction listed that is not a sum of others listed comes back with its Q value, frame and values. Another nuclide of the file stays; ENDF data and a name taken are refused. Not true: reading gives the nuclide just written (the first by name); temperatures that round to the same kelvin can be exported; temperatures keep their order; what was read can be exported again; absorption made again includes fission that is in the file in parts only, or total does; all derived products come back; cross sections come back with their own energies; every reaction comes back.", "quantifier": "every nuclide, number of temperatures, reactions, products and tables; every ACE table of C64", "why_tests_cant": "the suite has no test of storing nuclides; the claim is over every mix of reactions in and out of the file and over the order in which sums are made again", "anchors": ["ASAPy/data/neutron.py:IncidentNeutron.export_to_hdf5", "ASAPy/data/neutron.py:IncidentNeutron.from_hdf5", "ASAPy/data/reaction.py:Reaction.to_hdf5", "ASAPy/data/reaction.py:Reaction.from_hdf5", "ASAPy/data/urr.py:ProbabilityTables.to_hdf5", "ASAPy/data/urr.py:ProbabilityTables.from_hdf5", "ASAPy/data/neutron.py:SUM_RULES"]}
{"id": "C72", "title": "The sampling program does what its command line says, and so does the job it writes", "statement": "XsecSampler.py accepts its three arguments and its options mixed in any order (arguments not directly after the list of reactions), options abbreviated to any beginning of no other option; the values used are those given, the last one counting, and the defaults for the rest. A misspelt option anywhere ends the program. An accepted line contains the base file, the store and the number of samples in this order, and the distribution is one of the five. With --writepbs, for files whose names have no characters special to the shell, the job's command starts the script with arguments that are read as the same files, number of samples, reactions, oversampling, distribution and plots, and that job samples (it writes no further job). Not true: --plot-only reaches the job; files with blanks in their names reach it (the job ends with an error); reactions may be listed before the files.", "quantifier": "every list of arguments, options, spellings and integers; every shell that splits lines without special characters at blanks", "why_tests_cant": "the suite has no test of the script; the claim is over every order and abbreviation of options and every value written into the job", "anchors": ["ASAPy/XsecSampler.py:create_argparser", "ASAPy/XsecSampler.py:__main__"]}
{"id": "C73", "title": "The covariance generator's command line: paths stay put, groups are those chosen", "statement": "EndfToCov.parse_args accepts its file and options in any order, abbreviated or not, with the values given and the defaults for the rest. The ENDF file and a given output path become absolute paths without detours that lead to the same place from every later working directory and do not change when made absolute again. The weighting is between 2 and 12. The structure SCALE_n accepted selects a table of n groups: n+1 strictly ascending boundaries from 1e-5 eV to 20 MeV. Not true: the output goes to a fixed place when no path is given; every weighting of the help text is accepted (1 is not).", "quantifier": "every list of arguments, spelling, absolute working directory and path (without links)", "why_tests_cant": "paths and directories are unbounded; the suite runs no command lines", "anchors": ["ASAPy/EndfToCov.py:parse_args", "ASAPy/EndfToCov.py:__main__", "ASAPy/njoy.py:energy_groups_252"]}
{"id": "C74", "title": "Sampled values keep their distribution: the stratified draws survive the correlating", "statement": "In each sampled group of sample_with_corr, exactly j of the n values lie below the j/n quantile of the distribution asked for (normal or lognormal with the group's mean and deviation, or uniform), for every j between 1 and n-1, whatever the correlation; a group not sampled holds its mean in every sample. A normal run of an even number of samples has exactly half of the values of each group below the mean. lhs_normal_sample does the same for each of its columns. Not true: uniform samples scatter around the mean: all of them lie above it, by less than one deviation, on average half a deviation, so that with positive means every factor sample_xsec gives for the type uniform is at least one and no sample lowers a cross section.", "quantifier": "every mean, deviation and correlation diagonal, every score matrix, number of samples and every outcome of the stratified sampler", "why_tests_cant": "the suite looks at averages of one random run within a tolerance; the claim holds exactly for every outcome of the random generator", "anchors": ["ASAPy/CovManipulation.py:lhs_uniform_sample", "ASAPy/CovManipulation.py:lhs_normal_sample", "ASAPy/CovManipulation.py:sample_with_corr", "ASAPy/XsecSampler.py:sample_xsec"]}
{"id": "C75", "title": "Resonance-parameter covariances are read as the evaluation states them", "statement": "ResonanceCovariances.from_endf returns the resolved ranges of all isotopes of File 32 in order. In the general format with one block of short-range covariances the matrix has exactly the listed upper triangle and the number of parameters per resonance of the file; in the compact format an entry is the correlation (as get_intg_record reads it) times the two deviations; in the compatible format with one l-value each listed (co)variance is at its place and nothing links two resonances. The table has the resonances in File 32's order, with the l and competitive width of the resonance of that energy in File 2, whose own table has all resonances of all l-values in order. An unresolved range at the end is passed over. Not true: of several blocks more than the last matrix is kept; the covariance of neutron and capture width of the compatible format is kept; two l-values with resonances can be read in it; a deviation of zero can be read in the compact format; covariances of only some of the resonances can be read; the second isotope is combined with its own part of File 2; an unresolved range may stand elsewhere than at the end.", "quantifier": "every text of the stated layout, any number of isotopes, ranges, resonances and any lines behind it", "why_tests_cant": "the tests read two evaluations and compare a few entries; the layouts with several blocks, several l-values, zero deviations or several isotopes do not occur in them", "anchors": ["ASAPy/data/resonance_covariance.py:ResonanceCovariances.from_endf", "ASAPy/data/resonance_covariance.py:MultiLevelBreitWignerCovariance.from_endf", "ASAPy/data/resonance_covariance.py:ReichMooreCovariance.from_endf", "ASAPy/data/resonance_covariance.py:_add_file2_contributions", "ASAPy/data/resonance.py:MultiLevelBreitWigner.from_endf", "ASAPy/data/resonance.py:ReichMoore.from_endf"]}
{"id": "C76", "title": "Subsets and samples of resonance parameters use the right covariances", "statement": "subset returns the rows of File 2's table within the bounds and, in the upper triangle, the entries of the covariance matrix at the index labels of these rows. sample hands the parameters of the table and the symmetric matrix of the upper triangle to the normal generator and makes of each draw a table in which the sampled parameters of row i are the i-th part of the draw, the other ones are unchanged and the total width is the sum of the partial widths. Not true: a subset of a subset can be taken (its rows keep labels beyond the new matrix); rows have their own variances if File 32 orders the resonances otherwise than File 2; the matrix handed on is a covariance matrix for the compact format (the off-diagonal entries are doubled, so that a correlation above one half becomes one above 1); Reich-Moore ranges with four parameters per resonance can be sampled.", "quantifier": "every range, bounds, column and number of samples, and every normal generator returning vectors of the right length", "why_tests_cant": "the tests take one subset and look at the shape of random samples; doubled covariances and shifted labels change numbers only", "anchors": ["ASAPy/data/resonance_covariance.py:ResonanceCovarianceRange.subset", "ASAPy/data/resonance_covariance.py:ResonanceCovarianceRange.sample"]}
{"id": "C77", "title": "Decay chains, daughters and fission product yields mean what ENDF says", "statement": "get_decay_modes returns, for an RTYP number whose digits are a chain of decays, the names of these decays in their order. The daughter of a DecayMode is the nuclide whose charge and mass number are those of the parent changed as the decays say, whatever their order, in the stated isomeric state. FissionProductYields returns the energies of the section and for each of them a dictionary with the yield and its uncertainty of each nuclide (of a nuclide given twice, the last); independent and cumulative yields with other energies are refused. Not true: RTYP 0 gives gamma; RTYP 10 gives unknown (it gives beta- and gamma; no number gives unknown); a nuclide is never its own daughter (after spontaneous fission it is); cumulative yields can be read without independent ones.", "quantifier": "every chain of up to ten decays, every nuclide, every text of the stated layout with any number of energies and fragments", "why_tests_cant": "the tests read two evaluations and look at a few entries; the chains, orders and energies that do not occur there are not seen", "anchors": ["ASAPy/data/decay.py:get_decay_modes", "ASAPy/data/decay.py:FissionProductYields.__init__", "ASAPy/data/decay.py:DecayMode.daughter"]}
{"id": "C78", "title": "Decay data of a nuclide are read as they stand", "statement": "Decay of a section MT=457 has the nuclide's name, charge, mass number, states, mass, half-life with uncertainty, spin (None if unknown) and parity, the three or seventeen average energies under their names, each decay mode in order with its chain, state, energy and branching ratio and the right daughter, and for each type of radiation the spectrum with its normalisations, its discrete lines (with the fields of that type only) and its continuous part with covariances. A stable nuclide has its spin and parity, no modes and no spectra. The decay constant times the half-life is ln 2, its relative uncertainty that of the half-life. Not true: of two spectra of one type both are kept; the unknown spin of a stable nuclide is None.", "quantifier": "every text of the stated layout, any number of modes, spectra and lines, any lines behind it", "why_tests_cant": "the tests read one evaluation; flags, lengths and types that do not occur in it are not exercised", "anchors": ["ASAPy/data/decay.py:Decay.__init__", "ASAPy/data/decay.py:Decay.decay_constant", "ASAPy/data/decay.py:DecayMode.__init__"]}
{"id": "C79", "title": "Names, nuclides and coherent elastic scattering of thermal scattering data", "statement": "get_thermal_name keeps a proper name, turns an alias in any mixture of cases into the one name it stands for, and otherwise returns a proper name or the given one with c_ in front. The nuclides of a table are exactly those its pairs stand for: H and Fe with their mass number, of other elements the natural one and every natural isotope. CoherentElastic returns, between two Bragg edges, the partial sum at the edge above, divided by the energy. Not true: each nuclide is listed once; the value is the documented one (the sum of the edges below the energy - it never is, if the sums grow); there is a value above the last edge (IndexError).", "quantifier": "every text, every result of difflib among the possibilities, every list of pairs, every ascending table of edges and energy", "why_tests_cant": "there is no test of this module; a shift by one edge looks like a plausible cross section", "anchors": ["ASAPy/data/thermal.py:get_thermal_name", "ASAPy/data/thermal.py:CoherentElastic.__call__", "ASAPy/data/thermal.py:ThermalScattering.from_ace"]}
{"id": "C80", "title": "Thermal scattering tables are read as they stand", "statement": "ThermalScattering.from_ace returns, at the temperature of the table, the inelastic cross section, the outgoing energies and cosines of each bin (equal or skewed) or the correlated continuous spectra with their equally likely cosines, coherent elastic scattering or the elastic cross section with its cosines, all in eV, and name, weight and nuclides of the table. A table whose name has not exactly one dot is refused, as is coherent elastic scattering with cosines. The tables of a library of one material at different temperatures are there each at its temperature as if read alone; data of another material at a new temperature are refused. Not true: the argument name is the name; data of another material are refused at a temperature there is (rounded to 1 K: nothing happens); the secondary mode is that of the data added (it is that of the first table).", "quantifier": "every table of the stated layout with any numbers of energies, bins and cosines, every number of tables", "why_tests_cant": "there is no test of this module; offsets by one in strides of any length only show for tables of some shapes", "anchors": ["ASAPy/data/thermal.py:ThermalScattering.from_ace", "ASAPy/data/thermal.py:ThermalScattering.add_temperature_from_ace"]}
{"id": "C81", "title": "Thermal scattering data survive HDF5", "statement": "Data that have at each temperature what they have at any (elastic, inelastic, and what the secondary mode asks for) can be exported with export_to_hdf5, and from_hdf5 returns the same name, weight, mode, nuclides, temperatures, and at each temperature the same data, in an empty file as well as with other materials behind it; a table just read comes back exactly. A material that is in the file, temperatures that round to one name, and another version of the format are refused. Not true: libraries that can be read can be exported (two tables of different kinds of elastic scattering or of outgoing energies are put together without error and then cannot be written); the temperatures come back in their order (it is that of their names: 1000K before 294K).", "quantifier": "every data set, every number of temperatures, every file", "why_tests_cant": "there is no test of this module; the failure needs two tables of different kinds", "anchors": ["ASAPy/data/thermal.py:ThermalScattering.export_to_hdf5", "ASAPy/data/thermal.py:ThermalScattering.from_hdf5", "ASAPy/data/thermal.py:CoherentElastic.to_hdf5"]}
{"id": "C82", "title": "Fission energy release is read from ENDF as it stands", "statement": "FissionEnergyRelease.from_endf returns for each of the seven quantities the last table of it, if the section has tables, and else the polynomial of its coefficients (the second coefficient of three divided by 1e6 exactly when it would shift the energy by more than 100 MeV at 5 MeV), or for a single coefficient the formulas of Sher and Beck: -0.075 E for delayed photons and betas, -0.105 E for neutrinos, and 1.307 E - 8.07e6 (nu(E) - nu at the start) for prompt neutrons, also between the points of a linear table of nu; nu is that of the only prompt or total neutron of MT 18, or of MT 19 if 18 is missing or redundant. Data of different nuclides, of a nuclide that does not fission, without the section, or without exactly one nu when it is needed are refused. Not true: every section allowed by ENDF-6 can be read (tables of the two sums, numbers 8 and 9, end in a TypeError).", "quantifier": "every number of orders, every set of tables, every list of reactions, every energy", "why_tests_cant": "there is no test of this module; the failure needs an evaluation with tables of the sums", "anchors": ["ASAPy/data/fission_energy.py:FissionEnergyRelease.from_endf"]}
{"id": "C83", "title": "Derived fission energies are sums", "statement": "recoverable, total, q_prompt, q_recoverable and q_total have at every energy the sum of the values of their parts (less the energy, for the last three) when all parts are polynomials; when the parts are linear tables over one range and straight lines they have it within that range, except within numpy's tolerance of its ends, and are 0 outside it. A table with another interpolation is refused by every function that contains it. Not true: the sum is right wherever the parts have values (outside the range of a table the polynomials are lost), or with curved polynomials next to a table (only at the points of the table).", "quantifier": "every release, every energy", "why_tests_cant": "no finite set of energies shows the sum everywhere", "anchors": ["ASAPy/data/fission_energy.py:FissionEnergyRelease.recoverable", "ASAPy/data/fission_energy.py:FissionEnergyRelease.q_prompt", "ASAPy/data/function.py:sum_functions"]}
{"id": "C84", "title": "Fission energy release survives HDF5", "statement": "If FissionEnergyRelease.to_hdf5 succeeds, from_hdf5 returns the same seven functions, the datasets q_prompt and q_recoverable hold these two functions, and nothing else in the group is changed. It succeeds whenever each table has as many ordinates as abscissae, the two sums exist and the nine names are free; it fails when one of them is taken.", "quantifier": "every release, every group", "why_tests_cant": "there is no test of this module", "anchors": ["ASAPy/data/fission_energy.py:FissionEnergyRelease.to_hdf5", "ASAPy/data/fission_energy.py:FissionEnergyRelease.from_hdf5"]}
{"id": "C85", "title": "Atomic masses are those of the file", "statement": "With a complete mass file, atomic_mass returns for every nuclide the mass printed in its line (whole units plus micro-units), however the letters are cased and whatever metastable suffix follows an underscore, whatever was asked before; for C0, Zn0, Pt0, Os0 and Tl0 it returns the mean over the natural isotopes; any other name raises. Once the cache holds anything the file is no longer looked at. It is not true that a call after a failed one fails again: after an unreadable line, or a missing natural isotope, later calls answer out of the half-filled cache, for C0 even with 0.", "quantifier": "every file of the format, every name, every sequence of earlier calls", "why_tests_cant": "the tests ask for single nuclides of one intact file; they neither vary the order of calls nor damage the file", "anchors": ["ASAPy/data/data.py:atomic_mass"]}
{"id": "C86", "title": "Atomic weights are means of isotopes", "statement": "In the table of natural abundances the abundances of each element are positive and add up to exactly 1. atomic_weight of an element is the mean of its isotopes' masses with these weights, so it lies between the smallest and the largest of them; for an element without natural isotopes it raises without reading the file. It is not true that what is not an element is refused: Os19 yields a part of the weight of osmium.", "quantifier": "every element, every complete mass file, every sequence of earlier calls", "why_tests_cant": "the tests compare a few elements with known weights", "anchors": ["ASAPy/data/data.py:atomic_weight", "ASAPy/data/data.py:NATURAL_ABUNDANCE"]}
{"id": "C87", "title": "Temperatures are added to a nuclide without touching what is there", "statement": "add_temperature_from_ace with a table of the same nuclide at a new temperature adds the energy grid, the cross sections of the reactions the nuclide has and the probability tables at that temperature, and changes nothing else; with several tables each is there at its temperature as if it were alone. At a temperature that is there (rounded to 1 K) nothing happens; a table of another nuclide is refused. If the table has every reaction that goes into a file, the result can be exported and comes back as it was. It is not true that every reaction of the table is kept (one the nuclide lacks is dropped), that every reaction has a cross section at every temperature afterwards, or that what was added can always be read back: a table that lacks a reaction makes a file that cannot be read.", "quantifier": "every nuclide, every table from_ace can read, every sequence of tables", "why_tests_cant": "the tests add one temperature of one nuclide and look at the list of temperatures", "anchors": ["ASAPy/data/neutron.py:IncidentNeutron.add_temperature_from_ace"]}
{"id": "C88", "title": "Elastic scattering at 0 K is tabulated from the resonances", "statement": "add_elastic_0K_from_endf evaluates elastic scattering over each resolved range, one after the other, on a grid that increases from the lower to the upper limit and is made of the equidistant points and of points at fixed multiples of the width next to each resonance inside the range, those of different resonances not overlapping when they are in order; the table holds exact values and meets the tolerances of linearize and thin; nothing but the energies and cross section at 0 K of MT 2 changes, data that are there are refused unless overwrite is set, and with one resolved range it works whenever bisection ends. It is not true that the grid includes the peaks (they are on it only by chance), that points extend on both sides of every resonance when these are not sorted (as with two angular momenta), that a range without resonances inside it or with only a scattering radius is handled (it raises), that an evaluation without resonances is (it raises), that something is tabulated with unresolved resonances only (an empty table), that energies strictly increase (they repeat where ranges meet), or that it ends: where ranges meet both contribute, and bisection towards the jump never ends.", "quantifier": "every list of ranges, background, reconstructed cross section, grid of factors and equidistant points, every nuclide", "why_tests_cant": "the tests check that a key exists for one nuclide; the grid, the borders of ranges and unusual evaluations are never looked at", "anchors": ["ASAPy/data/neutron.py:IncidentNeutron.add_elastic_0K_from_endf", "ASAPy/data/neutron.py:IncidentNeutron.from_endf"]}
{"id": "C89", "title": "A cross section with resonances is background plus resolved ranges", "statement": "ResonancesWithBackground at an energy is the background there plus the reconstructed cross section of every resolved range whose closed interval holds the energy; unresolved ranges and scattering radii contribute nothing; at an array it is what it is at each element. from_endf builds it (or the bare background) whenever there is a resonance file. It is not true that from_endf works without one (it raises), or that an energy belongs to one range: where two meet both contribute.", "quantifier": "every list of ranges, every reconstruction, every background, every energy and array of energies", "why_tests_cant": "tests evaluate a few energies inside ranges; the border energy is a single point", "anchors": ["ASAPy/data/function.py:ResonancesWithBackground.__call__", "ASAPy/data/neutron.py:IncidentNeutron.from_endf"]}
{"id": "C90", "title": "A catalogue of data files leads back to the same files", "statement": "register_file appends path, kind and materials; get_by_material returns the first entry that holds a material. A catalogue exported with export_to_xml and read with from_xml, from any working directory and under any spelling of the XML file's path, has the same files in the same order with the same kinds, and materials without white space are found in the same files. If XML and files are in one folder, the folder can be moved and renamed. If not, the files are looked for where they were, wherever the XML is. It is not true that what is read equals what was written (relative paths become absolute), that a folder with the XML and a subfolder of files can be moved, or that names of materials with white space survive.", "quantifier": "every working directory, every path of the XML file and of the data files (with dots, double dots, repeated slashes), every list of entries", "why_tests_cant": "the test writes and reads one catalogue in one directory; relative paths have infinitely many shapes", "anchors": ["ASAPy/data/library.py:DataLibrary.register_file", "ASAPy/data/library.py:DataLibrary.get_by_material", "ASAPy/data/library.py:DataLibrary.export_to_xml", "ASAPy/data/library.py:DataLibrary.from_xml"]}
{"id": "C91", "title": "Functions made of functions: regions, sums, combinations", "statement": "Regions1D uses, with ascending breakpoints, the function numbered by how many breakpoints are below the argument, a breakpoint belonging to the function below it; it has a value for every argument exactly if there are more functions than breakpoints; at an array of floats it has the values at the elements. Sum is the sum of the values, at numbers and element by element at arrays. Combination can be built with exactly one operation less than functions and applies them from left to right. It is not true that breakpoints i and i+1 limit function i, as documented (with documented breakpoints the next function is used, and the last interval raises), that integer arrays give the values (they are truncated), that an empty Sum of an array is an array, or that functions and operations keep matching when functions are exchanged.", "quantifier": "every list of functions, breakpoints, operations, every argument and array", "why_tests_cant": "no test calls Regions1D on more than isolated points; claims are about all functions and breakpoints", "anchors": ["ASAPy/data/function.py:Regions1D.__call__", "ASAPy/data/function.py:Sum.__call__", "ASAPy/data/function.py:Combination.__call__", "ASAPy/data/function.py:Combination.operations"]}
{"id": "C92", "title": "Data made with NJOY: each temperature as in its table, 0 K from the PENDF file", "statement": "What from_njoy makes of a library of ACE tables at different temperatures and a PENDF file has exactly those temperatures, the reactions of the first table, and at each temperature the energy grid, the cross sections of common reactions and the probability tables of its table; at 0 K it has the elastic cross section of the PENDF file on its own grid, and no other reaction gets anything at 0 K. If one of the tables is at 0 K the PENDF file does not matter. Without elastic scattering in the tables or the PENDF file it raises. If every table can be stored and has the reactions of the first that are stored, the whole can be stored and comes back as in C71, with the grid at 0 K. It is not true that there are data at each temperature asked for: of temperatures equal to 1 K only the first is kept, with a warning.", "quantifier": "every library of any number of tables at any temperatures, every PENDF cross section", "why_tests_cant": "a test runs NJOY for one nuclide and a few temperatures, if NJOY is installed at all", "anchors": ["ASAPy/data/neutron.py:IncidentNeutron.from_njoy", "ASAPy/data/neutron.py:IncidentNeutron.add_temperature_from_ace"]}
{"id": "C93", "title": "Photon data are read from ACE tables as the format lays them out", "statement": "IncidentPhoton.from_ace gives, for every photoatomic table in the old or new format, coherent, incoherent, pair production and photoelectric cross sections and one of each subshell (MT 533 plus its number), on the energies whose logarithms are stored, with the stored logarithms undone and zeros left as zeros, interpolated logarithmically; the scattering functions of coherent and incoherent scattering against stored or agreed arguments; Compton profiles; and under each subshell's name its binding energy, electrons and transitions. Probabilities of transitions are single ones: they add up to the cumulative ones of the table, and none is negative if those do not fall. The reaction of each subshell is named after it. A subshell number 0 or above 39 makes the table unreadable. It is not true that every cross section is the one whose logarithm was stored: 1 b becomes 0.", "quantifier": "every table of the format: any number of energies, subshells, transitions and profiles, any values, anywhere in XSS", "why_tests_cant": "the repository has no photon tables; the layout has places that depend on the data", "anchors": ["ASAPy/data/photon.py:IncidentPhoton.from_ace", "ASAPy/data/photon.py:PhotonReaction.from_ace", "ASAPy/data/photon.py:AtomicRelaxation.from_ace"]}
{"id": "C94", "title": "Photon data are read from ENDF files as the format lays them out, and agree with those of ACE tables", "statement": "AtomicRelaxation.from_endf gives, for every section (28, 533) of the format with different known subshells, the binding energy, the electrons and the transitions of each under its name, with energies and probabilities as they are in the file, no entry of transitions for a subshell that has none, and nothing else; it raises without the section. If an ACE table and such a file describe the same atom, energies in MeV and probabilities added up in the table, IncidentPhoton.from_ace and AtomicRelaxation.from_endf give the same binding energies, electrons and transitions. PhotonReaction.from_endf gives the tables of (23, mt) and (27, mt), for coherent scattering the real and imaginary factors of (27, 506) and (27, 505), and binding energy (MT 534-599) and fluorescence yield (MT 534-572) of subshells. IncidentPhoton.from_endf has exactly the reactions listed in file 23, each once. It is not true that each has a cross section: one listed and not there is made without.", "quantifier": "every evaluation whose sections follow the format: any number of subshells, transitions, points and reactions, any values", "why_tests_cant": "the repository has no photon files; agreement of two formats concerns all atoms", "anchors": ["ASAPy/data/photon.py:AtomicRelaxation.from_endf", "ASAPy/data/photon.py:PhotonReaction.from_endf", "ASAPy/data/photon.py:IncidentPhoton.from_endf"]}
{"id": "C95", "title": "Opening an ACE library gives the table asked for, from text and from binary", "statement": "get_table gives, for every evenly written text library whose first ten lines are ASCII, the first table, or the first that has the name asked for, and raises if there is no table or none of that name; it gives the same for the binary conversion of any library, provided a byte above 127 is in the first ten lines of that. So text and its conversion give the same table. It is not true that every conversion can be opened: one whose first lines happen to be ASCII is taken for text and raises.", "quantifier": "all evenly written libraries of any number of tables, all names, all behaviours of the repair of text", "why_tests_cant": "concerns all libraries and where bytes above 127 stand in their binary form", "anchors": ["ASAPy/data/ace.py:get_table", "ASAPy/data/ace.py:Library.__init__"]}
