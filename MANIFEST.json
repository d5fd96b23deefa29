{
 "claims": [
  {
   "property": "C01",
   "status": "proved",
   "theorems": [
    "C01_redundant_balanced",
    "C01_balance_preserved",
    "C01_redundant_balanced_grid",
    "C01_pass_never_raises",
    "C01_tabulated_value_refuted"
   ],
   "note": "Exact identity in terms of get_sigma(at_energies); on grids with no point inside the reader's closeness tolerance of an end point also in terms of tabulated values; the tabulated-value form is refuted without that separation."
  },
  {
   "property": "C02",
   "status": "proved",
   "theorems": [
    "C02_second_pass_noop"
   ],
   "note": "Leibniz-equal editor states."
  },
  {
   "property": "C03",
   "status": "proved",
   "theorems": [
    "C03_edit_order_irrelevant"
   ],
   "note": "Whole current table equal, adjusted reactions equal."
  },
  {
   "property": "C04",
   "status": "proved",
   "theorems": [
    "C04_grids_unchanged",
    "C04_unadjusted_view",
    "C04_unadjusted_view_chi",
    "C04_untouched_keeps"
   ],
   "note": ""
  },
  {
   "property": "C05",
   "status": "proved",
   "theorems": [
    "C05_rejects",
    "C05_accepts",
    "C05_recorded_is_evaluated",
    "C05_chi_atomic_refuted"
   ],
   "note": "Proved for cross sections and nu-bar; for MT=1018 the atomicity half is refuted."
  },
  {
   "property": "C06",
   "status": "proved",
   "theorems": [
    "C06_private_copy",
    "C06_private_copy_nu_refuted",
    "C06_private_copy_chi_refuted",
    "C06_set_copies_refuted"
   ],
   "note": "Proved for ordinary MTs over all histories; refuted for MT 452, MT 1018 and for the array handed to set_sigma (counterexamples proved)."
  },
  {
   "property": "C07",
   "status": "proved",
   "theorems": [
    "C07_absorption_follows_refuted",
    "C07_absorption_never_follows"
   ],
   "note": "The claim is false of the code: refuted with a witness and for every file."
  },
  {
   "property": "C08",
   "status": "proved",
   "theorems": [
    "C08_renormalised",
    "C08_accepts",
    "C08_same_pdf_noop",
    "C08_rejects_upfront",
    "C08_stops",
    "C08_rejects_atomically_refuted",
    "C08_negative_refuted",
    "C08_wrong_length_refuted",
    "C08_right_consistent",
    "C08_monotone",
    "C08_histogram_consistency_refuted",
    "C08_linear_consistency_refuted"
   ],
   "note": "The consistency of the new cdf with the interpolations an ACE file declares is refuted, and so is 'wrong shapes or values are rejected before anything is written': only the number of distributions and the first length are checked up front. C08_stops gives the exact effect of an edit that raises later."
  },
  {
   "property": "C09",
   "status": "proved",
   "theorems": [
    "C09_default_iff",
    "C09_default_value",
    "C09_finds_iff_present_refuted",
    "C09_explicit_always_rejected",
    "C09_explicit_accepts_iff"
   ],
   "note": "Default branch proved as stated; the explicit branch is refuted: every request except the bare string K is rejected."
  },
  {
   "property": "C10",
   "status": "proved",
   "theorems": [
    "C10_write_roundtrip_iff",
    "C10_read_words",
    "C10_four_per_line",
    "C10_formatted_fits",
    "C10_header"
   ],
   "note": "Exact condition (iff) for the words to survive; a word of 20+ characters outside the first column fuses."
  },
  {
   "property": "C11",
   "status": "proved",
   "theorems": [
    "C11_replace_frame",
    "C11_raises_iff",
    "C11_words_frame",
    "C11_room_kept",
    "C11_only_block_words_change_refuted"
   ],
   "note": "Frame proved at character and word level; the boundary-free claim is refuted by a witness (match inside a negative number)."
  },
  {
   "property": "C12",
   "status": "proved",
   "theorems": [
    "C12_group_values",
    "C12_groups_partition",
    "C12_raises_iff",
    "C12_lowest_energy_fails"
   ],
   "note": "Values, partition, argument errors, and the failing lowest energy."
  },
  {
   "property": "C13",
   "status": "proved",
   "theorems": [
    "C13_parallel_is_serial",
    "C13_serial_content",
    "C13_one_owner",
    "C13_crash_prefix",
    "C13_parallel_is_serial_on_failure_refuted"
   ],
   "note": "All interleavings of append-level file operations; crash points give prefixes; needs every sample to be buildable (refuted otherwise)."
  },
  {
   "property": "C14",
   "status": "proved",
   "theorems": [
    "C14_completes_iff",
    "C14_all_written_refuted",
    "C14_surplus_ignored"
   ],
   "note": "The positive claim is refuted; exact completion condition proved."
  },
  {
   "property": "C15",
   "status": "proved",
   "theorems": [
    "C15_keeps_exactly_good",
    "C15_goodb_is_good",
    "C15_keeps_all_without_flag",
    "C15_all_groups_kept",
    "C15_undefined_group_dropped"
   ],
   "note": "Exact equality with the table of the good samples."
  },
  {
   "property": "C16",
   "status": "proved",
   "theorems": [
    "C16_accepts_iff",
    "C16_drawn",
    "C16_numbered",
    "C16_raises_iff_dropped",
    "C16_set_neg_to_zero"
   ],
   "note": ""
  },
  {
   "property": "C17",
   "status": "proved",
   "theorems": [
    "C17_relative_cell",
    "C17_same_shape",
    "C17_always_finite_refuted"
   ],
   "note": "Finite cells agree; the infinite-factor case is exhibited."
  },
  {
   "property": "C18",
   "status": "proved",
   "theorems": [
    "C18_corr_normalised",
    "C18_lmax_is_largest",
    "C18_bounds_ordered",
    "C18_flip_irrelevant"
   ],
   "note": ""
  },
  {
   "property": "C19",
   "status": "proved",
   "theorems": [
    "C19_entries",
    "C19_psd",
    "C19_read_back"
   ],
   "note": "Real arithmetic."
  },
  {
   "property": "C20",
   "status": "proved",
   "theorems": [
    "C20_unit_symmetric",
    "C20_round_trip",
    "C20_bounded",
    "C20_is_corr",
    "C20_round_trip_any_refuted"
   ],
   "note": "Real arithmetic; way back refuted for negative variances."
  },
  {
   "property": "C21",
   "status": "proved",
   "theorems": [
    "C21_factorises",
    "C21_offdiag_exact"
   ],
   "note": "Real arithmetic, all sizes, with pivoting."
  },
  {
   "property": "C22",
   "status": "proved",
   "theorems": [
    "C22_psd_shift",
    "C22_no_shift",
    "C22_bounded"
   ],
   "note": ""
  },
  {
   "property": "C23",
   "status": "proved",
   "theorems": [
    "C23_cholesky_induces",
    "C23_fallback_permutes",
    "C23_first_gets_last",
    "C23_induces_refuted",
    "C23_with_permutation_induces"
   ],
   "note": "The claim is refuted; the exact permuted result and the repair are proved."
  },
  {
   "property": "C24",
   "status": "proved",
   "theorems": [
    "C24_rank_is_permutation",
    "C24_rank_counts",
    "C24_columns_rearranged",
    "C24_ranks_transferred"
   ],
   "note": "No NaN among the scores or draws."
  },
  {
   "property": "C25",
   "status": "proved",
   "theorems": [
    "C25_columns",
    "C25_zero_diagonal_skipped_refuted",
    "C25_zero_mean_skipped_refuted",
    "C25_raises"
   ],
   "note": "Randomness, factor and percent-point functions are arguments."
  },
  {
   "property": "C26",
   "status": "proved",
   "theorems": [
    "C26_moments",
    "C26_values",
    "C26_transform",
    "C26_shape",
    "C26_requested_correlation_refuted"
   ],
   "note": "Textbook lognormal moments; the intended use of the transform (scores with the transformed correlation give values with the requested one) is refuted"
  },
  {
   "property": "C27",
   "status": "proved",
   "theorems": [
    "C27_positive_definite",
    "C27_untouched",
    "C27_unchanged",
    "C27_raises",
    "C27_unit_diagonal_refuted"
   ],
   "note": "eigh and inv are arguments with contracts; unit diagonal of the result refuted"
  },
  {
   "property": "C28",
   "status": "proved",
   "theorems": [
    "C28_fields",
    "C28_wrong_size",
    "C28_report",
    "C28_square",
    "C28_three_digit_exponent_refuted",
    "C28_padded_minus_refuted"
   ],
   "note": "Reading of boxer text output: shape, block lengths, report, errors; two spellings of numbers refuted. Model: EndfToCov.py:164-285."
  },
  {
   "property": "C29",
   "status": "proved",
   "theorems": [
    "C29_clean",
    "C29_succeeds",
    "C29_loads_back",
    "C29_load_any"
   ],
   "note": "EndfToCov.py process_cov_to_h5, AsapyCovStorage.py, load_zaid_mt; real arithmetic with IEEE special values."
  },
  {
   "property": "C30",
   "status": "proved",
   "theorems": [
    "C30_other_keys",
    "C30_failure",
    "C30_skipped",
    "C30_atomic_refuted",
    "C30_skipped_when"
   ],
   "note": "Frame and failure behaviour proved; atomicity refuted (correlation written before the group table is checked)."
  },
  {
   "property": "C31",
   "status": "proved",
   "theorems": [
    "C31_keys_injective",
    "C31_listed",
    "C31_process_keyed",
    "C31_listed_loadable_refuted"
   ],
   "note": "Key injectivity and listing proved; that every listed MT can be loaded for the sampled nuclide is refuted."
  },
  {
   "property": "C32",
   "status": "proved",
   "theorems": [
    "C32_flow",
    "C32_tapes",
    "C32_kinds",
    "C32_weight_tables",
    "C32_builds"
   ],
   "note": "units and kinds of every deck; exceptions (stray tapes, missing weight table) stated as exact conditions; cards other than units and weight table not modelled"
  },
  {
   "property": "C33",
   "status": "proved",
   "theorems": [
    "C33_picked"
   ],
   "note": "exact condition for the selection to be right"
  },
  {
   "property": "C34",
   "status": "proved",
   "theorems": [
    "C34_pendf_refuted",
    "C34_without_covariances",
    "C34_run_refuted"
   ],
   "note": "refuted as a positive claim: make_pendf always raises"
  },
  {
   "property": "C35",
   "status": "proved",
   "theorems": [
    "C35_value",
    "C35_fortran_fields_refuted"
   ],
   "note": "Exact decimal value for every written form; Fortran blanks, missing fraction digits and D exponents raise (refuted as legal input)."
  },
  {
   "property": "C36",
   "status": "proved",
   "theorems": [
    "C36_cont",
    "C36_list",
    "C36_tab1",
    "C36_tab2"
   ],
   "note": "For every count; file left at the following line."
  },
  {
   "property": "C37",
   "status": "proved",
   "theorems": [
    "C37_stored",
    "C37_symmetric",
    "C37_one_per_line",
    "C37_placed_refuted"
   ],
   "note": "Placement refuted for second and later integers of a line; what is stored is characterised exactly."
  },
  {
   "property": "C38",
   "status": "proved",
   "theorems": [
    "C38_sections",
    "C38_repeated",
    "C38_truncated_hangs"
   ],
   "note": "Files that stop inside a section are never read to an end."
  },
  {
   "property": "C39",
   "status": "proved",
   "theorems": [
    "C39_law",
    "C39_grid",
    "C39_last",
    "C39_between",
    "C39_outside",
    "C39_near_ends",
    "C39_exact_refuted",
    "C39_arrays",
    "C39_integer_arrays_refuted",
    "C39_sum_pointwise",
    "C39_sum_grid",
    "C39_sum_polynomials",
    "C39_sum_pointwise_refuted"
   ],
   "note": "Laws, grid values, bounds, zero outside and near-end behaviour of Tabulated1D for all tables; sums pointwise on a common range and at every grid point; the unconditional claims (exact near the ends, integer arrays, sums over different ranges) are false and refuted by witnesses"
  },
  {
   "property": "C40",
   "status": "proved",
   "theorems": [
    "C40_increments",
    "C40_nan",
    "C40_monotone",
    "C40_linear_log"
   ],
   "note": "Increments are Riemann integrals of the segment law for schemes 1, 2, 4, 5; characterisation of NaN; the linear-log formula is the integral only for a zero left ordinate or unit width"
  },
  {
   "property": "C41",
   "status": "proved",
   "theorems": [
    "C41_round_trip",
    "C41_records"
   ],
   "note": "ascii_to_binary then _read_binary; floats are abstract with a stated contract (8 bytes, invertible)."
  },
  {
   "property": "C42",
   "status": "proved",
   "theorems": [
    "C42_ground",
    "C42_isomer",
    "C42_state_first",
    "C42_americium",
    "C42_bounded",
    "C42_documented_refuted",
    "C42_second_isomer_refuted",
    "C42_mass_refuted"
   ],
   "note": "documented NNDC scheme, second isomers and A > 3Z refuted"
  },
  {
   "property": "C43",
   "status": "proved",
   "theorems": [
    "C43_round_trip",
    "C43_named",
    "C43_injective",
    "C43_normal",
    "C43_trailing_refuted",
    "C43_symbols"
   ],
   "note": ""
  },
  {
   "property": "C44",
   "status": "proved",
   "theorems": [
    "C44_ends",
    "C44_exact"
   ],
   "note": ""
  },
  {
   "property": "C45",
   "status": "proved",
   "theorems": [
    "C45_tolerance",
    "C45_line",
    "C45_zero_tolerance_refuted"
   ],
   "note": "exact arithmetic; abscissae finite and increasing; the tolerance-0 case is refuted (a zero-valued point is dropped)"
  },
  {
   "property": "C46",
   "status": "proved",
   "theorems": [
    "C46_sound",
    "C46_exact",
    "C46_ends",
    "C46_line"
   ],
   "note": "exact arithmetic; the function maps finite numbers to finite numpy floats"
  },
  {
   "property": "C47",
   "status": "proved",
   "theorems": [
    "C47_round_trip",
    "C47_points",
    "C47_ace",
    "C47_ace_read",
    "C47_empty_refuted",
    "C47_scheme_refuted",
    "C47_weights_refuted",
    "C47_unreadable_refuted",
    "C47_ace_values"
   ],
   "note": "arrays survive HDF5 unchanged (assumed); x, p and c of a distribution have equal length"
  },
  {
   "property": "C48",
   "status": "proved",
   "theorems": [
    "C48_fresh",
    "C48_warned",
    "C48_first_free",
    "C48_distinct_refuted",
    "C48_reset_refuted"
   ],
   "note": "one class; histories without reset (reset refuted)"
  },
  {
   "property": "C49",
   "status": "proved",
   "theorems": [
    "C49_symmetric",
    "C49_turned",
    "C49_reflexive",
    "C49_transitive",
    "C49_symmetry_refuted",
    "C49_transitivity_refuted"
   ],
   "note": "refuted in general, proved with equal attribute names; attribute values None, number arrays or texts"
  },
  {
   "property": "C50",
   "status": "proved",
   "theorems": [
    "C50_terminates",
    "C50_exact",
    "C50_maximum_refuted",
    "C50_minimum_refuted"
   ],
   "note": "finite trees of sequences (no strings)"
  },
  {
   "property": "C51",
   "status": "proved",
   "theorems": [
    "C51_served",
    "C51_accepted",
    "C51_no_leftovers",
    "C51_wrong_length",
    "C51_first_match",
    "C51_end",
    "C51_any_order_refuted"
   ],
   "note": "boxer2mat.f:1-149 without the text formats and the table of contents; the claim that requests may come in any order is refuted."
  },
  {
   "property": "C52",
   "status": "proved",
   "theorems": [
    "C52_independent_columns",
    "C52_scores_correlation"
   ],
   "note": "cholesky and inverse enter through their contracts"
  },
  {
   "property": "C53",
   "status": "proved",
   "theorems": [
    "C53_all_materials",
    "C53_closing_refuted"
   ],
   "note": "Holds for data/endf.py, refuted for ASAPy/endf.py."
  },
  {
   "property": "C54",
   "status": "proved",
   "theorems": [
    "C54_closed",
    "C54_values",
    "C54_closed_refuted"
   ],
   "note": "one energy and temperature at a time; the general claim is refuted (fission summed too late)"
  },
  {
   "property": "C55",
   "status": "proved",
   "theorems": [
    "C55_round_trip",
    "C55_fission_refuted",
    "C55_written"
   ],
   "note": "one energy and temperature at a time; products other than the presence of photons not modelled"
  },
  {
   "property": "C56",
   "status": "proved",
   "theorems": [
    "C56_agree",
    "C56_selection_refuted",
    "C56_short_refuted",
    "C56_last_refuted",
    "C56_header",
    "C56_header_refuted"
   ],
   "note": "Agreement for evenly written libraries; three refutations outside it."
  },
  {
   "property": "C57",
   "status": "proved",
   "theorems": [
    "C57_values",
    "C57_spectrum",
    "C57_marked",
    "C57_succeeds",
    "C57_redundant",
    "C57_untouched",
    "C57_order",
    "C57_lost",
    "C57_neutral_refuted",
    "C57_own_factor_refuted"
   ],
   "note": "Model of lines 739-767 on top of the editor (C01-C05), the spectrum update (C08) and the group mapping (C12). Refuted: factors all 1 leave the file unchanged (zeros become 1); a sampled redundant reaction shows its own factors when a part is sampled too."
  },
  {
   "property": "C58",
   "status": "proved",
   "theorems": [
    "C58_ace",
    "C58_ace_stored",
    "C58_round_trip",
    "C58_legendre",
    "C58_endf_isotropic",
    "C58_endf_legendre",
    "C58_endf_tables",
    "C58_endf_both",
    "C58_endf_stored_refuted",
    "C58_readable_refuted",
    "C58_scheme_refuted",
    "C58_lengths_refuted"
   ],
   "note": "Distributions read from ENDF other than isotropic cannot be written; negative densities cannot be read back; log schemes become linear."
  },
  {
   "property": "C59",
   "status": "proved",
   "theorems": [
    "C59_sampled",
    "C59_words",
    "C59_blocks",
    "C59_fenced",
    "C59_equal_values_refuted",
    "C59_nu_refuted",
    "C59_missing_refuted",
    "C59_spectrum_refuted"
   ],
   "note": "For tables whose printed arrays are found first at their own place; the claims without that hypothesis are refuted with concrete files (equal arrays, nu-bar, arrays printed otherwise, a half rewritten spectrum). Printing of numbers is a parameter with the 12E20.11 shape as contract."
  },
  {
   "property": "C60",
   "status": "proved",
   "theorems": [
    "C60_files",
    "C60_values",
    "C60_nothing",
    "C60_oversamples",
    "C60_oversamples_refuted",
    "C60_other_nuclide_refuted",
    "C60_repeated_refuted"
   ],
   "note": "Composition of the store, sampling, editing and parallel-writing models; the random draw is an argument with the contract that it returns finite values of the right shape. The spectrum (1018) is excluded here and treated in C57/C59. The number of oversamples, stores with several nuclides and repeated MTs are recorded as refuted claims."
  },
  {
   "property": "C61",
   "status": "proved",
   "theorems": [
    "C61_stored",
    "C61_others",
    "C61_nothing",
    "C61_refused",
    "C61_finishes",
    "C61_zaid",
    "C61_sampler",
    "C61_requests",
    "C61_answered",
    "C61_units",
    "C61_default_names",
    "C61_fission_refuted",
    "C61_given_names_refuted",
    "C61_isomers_refuted",
    "C61_stale_refuted"
   ],
   "note": "whole runs of the store generator with arbitrary behaviour of NJOY and BOXER; refuted claims listed with _refuted"
  },
  {
   "property": "C62",
   "status": "proved",
   "theorems": [
    "C62_deck",
    "C62_no_deck",
    "C62_modules",
    "C62_group_structure",
    "C62_weight_table",
    "C62_temperatures",
    "C62_last_temperature_only",
    "C62_ace_names_refuted",
    "C62_covariance_files"
   ],
   "note": "Texts of numbers are arguments; names without quotes and newlines, numerals without blanks, slashes and braces; NJOY's reading of a card is the independent reader of Deck_Spec. C62_ace_names_refuted records a finding."
  },
  {
   "property": "C63",
   "status": "proved",
   "theorems": [
    "C63_run",
    "C63_each_tape",
    "C63_run_fails",
    "C63_run_ends",
    "C63_deck",
    "C63_no_deck",
    "C63_thermal",
    "C63_thermal_fails",
    "C63_ace_refuted",
    "C63_zaids_refuted",
    "C63_temperatures",
    "C63_too_few"
   ],
   "note": "NJOY is an arbitrary function of commands and tapes that ends; what is read from the ENDF files is an argument. C63_ace_refuted and C63_zaids_refuted record findings."
  },
  {
   "property": "C64",
   "status": "proved",
   "theorems": [
    "C64_read",
    "C64_channel",
    "C64_xss",
    "C64_xss_kept",
    "C64_reactions",
    "C64_sums",
    "C64_flags",
    "C64_succeeds",
    "C64_every_content",
    "C64_nonelastic_photons_fail",
    "C64_found_in_file_refuted",
    "C64_nonnegative_refuted",
    "C64_near_threshold_refuted"
   ],
   "note": "Reading of the cross sections of a whole ACE table: what is read, what is added, what is marked, what happens to XSS; success for tables of cross sections alone"
  },
  {
   "property": "C65",
   "status": "proved",
   "theorems": [
    "C65_fission",
    "C65_delayed",
    "C65_delayed_sum",
    "C65_no_delayed",
    "C65_multiplicity",
    "C65_silent",
    "C65_elastic",
    "C65_laws",
    "C65_editor",
    "C65_fission_needs_nu",
    "C65_constant_nu_refuted",
    "C65_one_nu_refuted",
    "C65_mixed_groups_refuted"
   ],
   "note": "Readers of the secondary distributions are arguments; shares of delayed groups for energy-independent probabilities"
  },
  {
   "property": "C66",
   "status": "proved",
   "theorems": [
    "C66_photons",
    "C66_sums",
    "C66_none",
    "C66_production",
    "C66_conserved_refuted",
    "C66_mt3_refuted"
   ],
   "note": "Photons of listed reactions, elastic scattering and sums; production cross sections. Refuted: photons made where the reaction has no cross section, photons of MT 3."
  },
  {
   "property": "C67",
   "status": "proved",
   "theorems": [
    "C67_tables",
    "C67_none",
    "C67_interpolation"
   ],
   "note": "All entries of the probability tables; none without a block; interpolation checked."
  },
  {
   "property": "C68",
   "status": "proved",
   "theorems": [
    "C68_variances",
    "C68_correlations",
    "C68_difference",
    "C68_edges",
    "C68_colours",
    "C68_samples",
    "C68_base",
    "C68_same_as_file",
    "C68_deviations",
    "C68_log",
    "C68_colours_refuted",
    "C68_variances_refuted",
    "C68_same_as_file_refuted"
   ],
   "note": "Plots of sampled reactions: curves, cells, colours and scales; three _refuted theorems for what does not hold."
  },
  {
   "property": "C69",
   "status": "proved",
   "theorems": [
    "C69_read",
    "C69_area",
    "C69_unsupported",
    "C69_nbody_alone",
    "C69_negative",
    "C69_products"
   ],
   "note": "Model of AngleEnergy.from_ace and every law it reads; numbers exact"
  },
  {
   "property": "C70",
   "status": "proved",
   "theorems": [
    "C70_product",
    "C70_law",
    "C70_ace",
    "C70_some",
    "C70_madland_refuted",
    "C70_negative_refuted",
    "C70_unwritten_refuted",
    "C70_angle_refuted",
    "C70_rate"
   ],
   "note": "Round trip of products and distributions through a modelled HDF5 tree; false readings of the claim are the refuted theorems."
  },
  {
   "property": "C71",
   "status": "proved",
   "theorems": [
    "C71_round_trip",
    "C71_group",
    "C71_refused",
    "C71_same",
    "C71_ace",
    "C71_first_refuted",
    "C71_collide_refuted",
    "C71_again_refuted",
    "C71_fission_refuted",
    "C71_nu_refuted",
    "C71_grid_refuted",
    "C71_lost_refuted",
    "C71_order_refuted",
    "C71_total_refuted",
    "C71_unflagged",
    "C71_first",
    "C71_names",
    "C71_sections"
   ],
   "note": "Round trip of a nuclide through a modelled HDF5 tree, and of every table read from ACE; false readings of the claim are the refuted theorems."
  },
  {
   "property": "C72",
   "status": "proved",
   "theorems": [
    "C72_line",
    "C72_refused",
    "C72_accepted",
    "C72_job",
    "C72_plot_only_refuted",
    "C72_blank_refuted",
    "C72_swallow_refuted"
   ],
   "note": "argparse and the job's command; qsub_helper's own text is outside the repository"
  },
  {
   "property": "C73",
   "status": "proved",
   "theorems": [
    "C73_line",
    "C73_path",
    "C73_accepted",
    "C73_groups",
    "C73_fixed_refuted",
    "C73_weight_refuted"
   ],
   "note": "paths without symbolic links; exact numbers"
  },
  {
   "property": "C74",
   "status": "proved",
   "theorems": [
    "C74_quantiles",
    "C74_half",
    "C74_lhs_normal",
    "C74_uniform_refuted",
    "C74_uniform_factors_refuted"
   ],
   "note": "SALib's latin sampler and SciPy's quantile are external with stated contracts; exact numbers; NaN draws do not occur"
  },
  {
   "property": "C75",
   "status": "proved",
   "theorems": [
    "C75_file2",
    "C75_general",
    "C75_blocks_refuted",
    "C75_compact",
    "C75_known_refuted",
    "C75_compatible",
    "C75_pair_refuted",
    "C75_waves_refuted",
    "C75_some_refuted",
    "C75_section",
    "C75_isotopes_refuted",
    "C75_unresolved",
    "C75_unresolved_refuted"
   ],
   "note": "Refuted parts proved as such: several blocks, neutron/capture covariance, several l-values, zero deviations, partial coverage, several isotopes, unresolved range not last."
  },
  {
   "property": "C76",
   "status": "proved",
   "theorems": [
    "C76_subset",
    "C76_twice_refuted",
    "C76_order_refuted",
    "C76_sample",
    "C76_doubled_refuted",
    "C76_four_refuted"
   ],
   "note": "Refuted parts proved as such: subset of a subset, order of resonances, doubled covariances, Reich-Moore with four parameters."
  },
  {
   "property": "C77",
   "status": "proved",
   "theorems": [
    "C77_modes",
    "C77_gamma_refuted",
    "C77_unknown_refuted",
    "C77_daughter",
    "C77_fission_refuted",
    "C77_yields",
    "C77_independent",
    "C77_cumulative_refuted",
    "C77_energies",
    "C77_each"
   ],
   "note": "Chains of decays, daughters and yields; the false parts are refuted."
  },
  {
   "property": "C78",
   "status": "proved",
   "theorems": [
    "C78_decay",
    "C78_daughters",
    "C78_spectra_refuted",
    "C78_stable",
    "C78_stable_spin_refuted",
    "C78_constant",
    "C78_constant_zero"
   ],
   "note": "Decay data of radioactive and stable nuclides; the false parts are refuted."
  },
  {
   "property": "C79",
   "status": "proved",
   "theorems": [
    "C79_proper",
    "C79_alias",
    "C79_form",
    "C79_nuclides",
    "C79_twice_refuted",
    "C79_bragg",
    "C79_bragg_refuted",
    "C79_bragg_beyond_refuted"
   ],
   "note": "Names are decided by the table of the source; the Bragg refutation holds for every table with growing sums."
  },
  {
   "property": "C80",
   "status": "proved",
   "theorems": [
    "C80_table",
    "C80_name_refuted",
    "C80_library",
    "C80_added",
    "C80_other",
    "C80_again_refuted",
    "C80_mode_refuted",
    "C80_refused"
   ],
   "note": "Library theorem by induction over the tables."
  },
  {
   "property": "C81",
   "status": "proved",
   "theorems": [
    "C81_round_trip",
    "C81_group",
    "C81_table",
    "C81_library",
    "C81_mixed_refuted",
    "C81_refused",
    "C81_version",
    "C81_order_refuted"
   ],
   "note": "Spectra come back exactly when linear-linear or histogram, as from_ace makes them; otherwise as kept_law says (C70)."
  },
  {
   "property": "C82",
   "status": "proved",
   "theorems": [
    "C82_read",
    "C82_between",
    "C82_refused",
    "C82_neutrons",
    "C82_sums_refuted"
   ],
   "note": "Reading of (1, 458) for every number of orders and set of tables; tables 8 and 9 refuted"
  },
  {
   "property": "C83",
   "status": "proved",
   "theorems": [
    "C83_polynomials",
    "C83_tables",
    "C83_interpolation",
    "C83_outside_refuted",
    "C83_curved_refuted"
   ],
   "note": "All five derived functions; tables need one common range; two refutations"
  },
  {
   "property": "C84",
   "status": "proved",
   "theorems": [
    "C84_back",
    "C84_written",
    "C84_taken"
   ],
   "note": "Round trip for every release that can be written"
  },
  {
   "property": "C85",
   "status": "proved",
   "theorems": [
    "C85_mass",
    "C85_mixture",
    "C85_unknown",
    "C85_cached",
    "C85_failure_refuted",
    "C85_zero_refuted"
   ],
   "note": "For every file of the format with the natural isotopes of the five elements; two refuted parts"
  },
  {
   "property": "C86",
   "status": "proved",
   "theorems": [
    "C86_abundances",
    "C86_weight",
    "C86_none",
    "C86_element_refuted"
   ],
   "note": "For every element; refuted for what is not one"
  },
  {
   "property": "C87",
   "status": "proved",
   "theorems": [
    "C87_added",
    "C87_ace",
    "C87_again",
    "C87_other",
    "C87_library",
    "C87_stored",
    "C87_lost_refuted",
    "C87_missing_refuted",
    "C87_unreadable_refuted"
   ],
   "note": "For every nuclide and table; three refutations"
  },
  {
   "property": "C88",
   "status": "proved",
   "theorems": [
    "C88_grid",
    "C88_apart",
    "C88_added",
    "C88_works",
    "C88_kept",
    "C88_peak_refuted",
    "C88_empty_refuted",
    "C88_radius_refuted",
    "C88_none_refuted",
    "C88_unresolved_refuted",
    "C88_joint_refuted",
    "C88_endless_refuted",
    "C88_order_refuted"
   ],
   "note": "Grid, table, frame, refusal and success are theorems; the refuted claims are stated as theorems about every such input, C88_order_refuted by a witness."
  },
  {
   "property": "C89",
   "status": "proved",
   "theorems": [
    "C89_value",
    "C89_arrays",
    "C89_evaluation",
    "C89_none_refuted",
    "C89_border_refuted"
   ],
   "note": "Value and array form for every list of ranges; double counting at borders and failure without resonances are stated for every input."
  },
  {
   "property": "C90",
   "status": "proved",
   "theorems": [
    "C90_registered",
    "C90_found",
    "C90_exported",
    "C90_round_trip",
    "C90_materials",
    "C90_words_refuted",
    "C90_moved",
    "C90_fixed",
    "C90_subfolder_refuted",
    "C90_equal_refuted"
   ],
   "note": "Round trip, moving, lookup and refusals for every path; the refuted claims are theorems about every such catalogue."
  },
  {
   "property": "C91",
   "status": "proved",
   "theorems": [
    "C91_regions",
    "C91_everywhere",
    "C91_documented_refuted",
    "C91_array",
    "C91_integers_refuted",
    "C91_sum",
    "C91_sums",
    "C91_sums_refuted",
    "C91_combination",
    "C91_exchanged_refuted"
   ],
   "note": "All functions, breakpoints and operations; refuted claims stated for every such input."
  },
  {
   "property": "C92",
   "status": "proved",
   "theorems": [
    "C92_njoy",
    "C92_identity",
    "C92_own",
    "C92_none",
    "C92_stored",
    "C92_rounded_refuted"
   ],
   "note": "Tables are arguments; NJOY itself is not modelled."
  },
  {
   "property": "C93",
   "status": "proved",
   "theorems": [
    "C93_read",
    "C93_relaxation",
    "C93_cumulative",
    "C93_probabilities",
    "C93_named",
    "C93_none",
    "C93_one_refuted"
   ],
   "note": "The exponential is an argument; the name of the table is not looked at."
  },
  {
   "property": "C94",
   "status": "proved",
   "theorems": [
    "C94_relaxation",
    "C94_agree",
    "C94_none",
    "C94_reaction",
    "C94_listed",
    "C94_missing_refuted"
   ],
   "note": "Compton profiles, stopping powers and bremsstrahlung, read from files of the package, are not modelled."
  },
  {
   "property": "C95",
   "status": "proved",
   "theorems": [
    "C95_text",
    "C95_binary",
    "C95_agree",
    "C95_ascii_refuted"
   ],
   "note": "C95_ascii_refuted is shown with stand-in floats."
  }
 ]
}