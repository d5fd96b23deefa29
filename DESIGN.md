# Design of the formal model of ASAPy

Code under study: `/repo` (ASAPy at the pinned commit), read as text only.
Prover: Coq 8.16.1, sources in `rocq/theories`, logical prefix `Verif`.

## 1. How the model is organised

One *area* per cluster of Python functions.  Each area `X` has

* `X_Model.v` - shallow functional model, one Gallina function per Python
  function (or loop), branch by branch, exceptions as values.  Each definition
  carries a comment with the file and lines it models and any simplification.
* `X_Spec.v` - (where the statement needs vocabulary) independent
  specification predicates that do not use the model's helpers.
* `X_Proofs.v` - lemmas and proofs.
* `X_Props.v` - the theorems named in `MANIFEST.json`, their
  `Print Assumptions`, and next to each theorem an `Example` showing a
  concrete non-trivial case satisfying the hypotheses (or a direct instance).

Findings (claims of the code that are false of a faithful model) are theorems
whose name ends in `_refuted`, with a concrete witness.  Theorems that prove
only part of a property end in `_partial`.

### Numbers

* `Qc` (canonical rationals from the standard library) is used where only
  field operations and comparisons are needed: Leibniz equality, computable,
  no axioms.
* `R` (standard-library reals) where `sqrt`, `exp`, `ln` are needed.
  This brings in the standard library's own axioms for the reals
  (listed per theorem in section 4).
* Python floats are modelled by exact numbers.  Rounding, overflow, and NaN
  that comes from overflow are *not* modelled.  Where NaN or inf arising from
  division by zero matters (C15, C17, C29) an explicit extended number type
  with `NaN`/`Inf` values is used.

### External calls

Random draws (`np.random.permutation`, SALib latin hypercube), `ppf`,
`LA.eigh`, `scipy.linalg.cholesky`, HDF5/pandas storage, NJOY and the file
system are not modelled as code.  They appear as function arguments or as
hypotheses that state their contract inside the theorem statement (never as
axioms).

## 2. Areas and properties

| Id | Area (files `X_*.v`) | Modelled source | Proof idea |
|----|------|------|-----------|
| C01-C05, C07 | `AceEdit` (+`AceEdit2`, `AceRead`) | AceIO.py:7-410, data/function.py | editor state = original table, current table, originals dictionary, adjusted set; literal MT lists and pass order; history invariant, closed form of one pass |
| C06 | `AceHeap` | AceIO.py:84-310 | arrays in a heap; frame lemma for fresh locations; witnesses |
| C08 | `Chi` | AceIO.py (update of the prompt spectrum) | list induction, telescoping prefix sums |
| C09 | `AceOpen` | AceIO.py:29-44 | case analysis |
| C10-C11 | `AceText` | AceIO.py:413-510 | induction on token list / string; witnesses |
| C12 | `MapGroups` | XsecSampler.py:241-334 | sortedness lemmas |
| C13-C14 | `Mpi` | XsecSampler.py:721-804, 15-19 | any interleaving of the ranks; witness |
| C15-C18 | `Sampler` | XsecSampler.py:60-200, 336-387 | extended numbers, labelled rows/columns |
| C19-C20 | `CovCorr` | CovManipulation.py:55-94 | quadratic forms over R |
| C21-C23, C52 | `Gmw` (+`Gmw2`), `Mat` | CovManipulation.py:99-210, 240-270 | loop invariant on the trailing block; witness |
| C24-C25 | `SampleCorr` | CovManipulation.py:32-50, 273-436 | permutation of ordinal ranks; masks |
| C26 | `LogNormal` | CovManipulation.py:20-30, 337-417 | exp/ln identities |
| C27 | `EigFix` | XsecSampler.py:52-56, 202-238 | quadratic form in the eigenbasis |
| C28 | `Boxer` | EndfToCov.py:164-285 | list induction over fields |
| C29-C31 | `Store` | EndfToCov.py:350-395, AsapyCovStorage.py, XsecSampler.py:60-95, 897-901 | finite-map store; decimal printing injective |
| C32-C34 | `Njoy` | njoy.py:96-330, 396-686; EndfToCov.py:287-347 | induction over temperatures, units read/written |
| C35-C36, C38, C53 | `Endf` (+`Endf2`) | endf.py:66-440 and data/endf.py | list induction over lines |
| C37 | `Intg` | data/endf.py:95-110, 292-333 | column arithmetic |
| C39-C40 | `Tab1d` (+`Tab1dInt`, `Tab1dSum`) | data/function.py:17-54, 142-313 | order lemmas, segment induction |
| C41, C56 | `Lib` (+`Lib_Text`) | data/ace.py:96-165, 250-431 | byte segments; readlines arithmetic |
| C57 | `Samp` | XsecSampler.py:739-763 | composition of the editor (AceEdit) and the group mapping (MapGroups); final table determined by the reactions not above another sampled one |
| C59 | `Wr` | XsecSampler.py:765-792 | composition of the text editor (AceText) and the sampled editor (Samp); blocks of words rewritten in turn |
| C60 | `Run` | XsecSampler.py:871-936, 735-748 | composition of the store, the tables of factors, one sampled file and the parallel writer; drawing and csv text are arguments |
| C61 | `Gen` | EndfToCov.py:26-162, 287-347, 350-395, 462-557, njoy.py:532-626 (names of tapes), boxer2mat.f:46-48, 162 (reading requests) | NJOY and BOXER are arbitrary programs on a directory of files (BOXER writes only fort.21); decks, reading of the evaluation and writing to HDF5 as in `Njoy`, `Endf`, `Store`; option parsing and absolute paths are in `Path` |
| C62 | `Deck` | njoy.py:96-328 (templates), 421-686 | templates as texts, `str.format` with field names; an independent reader of cards; the deck tied to the module sequence of `Njoy`; str(e) and {:.1f} of numbers are arguments |
| C63 | `Therm` | njoy.py:42-80, 330-393, 705-827 | files as a function of names, NJOY as an arbitrary program on its own directory; what is read from the ENDF files and printed numbers are arguments; templates and reader of cards from `Deck` |
| C64 | `Neut` | data/neutron.py:571-705, 841-869; data/reaction.py:188-322, 554-649, 958-1092; data/function.py:154-210, 357-400; data/urr.py:172-215 | one temperature; readers of secondary distributions and logarithmic interpolation are arguments; numbers exact |
| C65 | `Nubar` (model in `Neut`) | data/reaction.py:188-322, 1001-1085; data/product.py:50-63; AceIO.py:189-229 | as C64; delayed groups whose probabilities depend on the energy are in the model, the theorems on shares are for constant ones |
| C66 | `Photon` (model in `Neut`) | data/reaction.py:554-649; data/neutron.py:571-705 | as C64; how the secondary distributions are read is an argument of the model |
| C67 | `Urr` (model in `Neut`) | data/urr.py:172-215 | negative numbers of energies or bands raise (numpy takes -1 in a shape as a number to be worked out) |
| C68 | `Plot` | `ASAPy/XsecSampler.py` 389-423, 444-620, 623-718 | what is handed to the plotting library only (curves, edges, matrices, range of colours, scales); `np.corrcoef` of the samples is an argument; NaN is `None`; both loads of the covariance data give the same; colours, labels, axes' limits and file names are left out |
| C69 | `Law` | `ASAPy/data/angle_energy.py` 37-103, `energy_distribution.py` 193-195, 303-329, 436-462, 584-622, 875-894, 972-991, 1192-1277, `kalbach_mann.py` 259-352, `correlated.py` 296-411, `nbody.py` 37-76, 121-143 | an exception is `None`; warnings are left out; a negative number of points raises |
| C70 | `Hdf` | `ASAPy/data/product.py` 95-187, `angle_energy.py` 12-35, `uncorrelated.py` 57-96, `energy_distribution.py` 26-57, 121-122, 190-191, 270-301, 403-434, 549-582, 702-754, 840-873, 939-970, 1068-1190, `kalbach_mann.py` 124-257, `correlated.py` 105-294, `nbody.py` 58-119, `angle_distribution.py` 61-140, `function.py` 77-95, 315-355, 404-436 | an exception is `None`; values come back from HDF5 as written; the particle is a neutron or a photon; a number of parameter functions or cosines other than that of the points is `None` |
| C71 | `Nuc` | `ASAPy/data/reaction.py` 799-807, 873-956, 993-999, `urr.py` 69-173, `neutron.py` 100-235, 401-568, 601-634, 699-704, `data.py` 370, `function.py` 500-512 | an exception is `None`; iterating over a group goes by name; label, version and fission energy release are left out; indices of grids are not negative; the ACE bridge takes name, numbers and temperature as given |
| C72 | `Cli` | XsecSampler.py:806-828 (create_argparser), 830-869 (the job) | argparse as of CPython 3.6-3.11 (positionals, flags, one value, one or more values, abbreviations, `=`, help); `--` is not special; ending the program is `None`; the text qsub_helper puts around the command is outside the repository; the shell is any function that splits lines of harmless characters at blanks |
| C73 | `Path` | EndfToCov.py:397-461 (parse_args), 524-533, njoy.py:82-94 (tables, copied as text and read by the model of `float`) | parser as in `Cli`; posixpath.abspath, join, normpath; no symbolic links; exact numbers |
| C74 | `Lhs` | CovManipulation.py:213-252 (lhs_uniform_sample, lhs_normal_sample), 383-420 (draws), with `SampleCorr` and `Sampler` | SALib's sampler: any numbers of which one lies in each of n equal parts; SciPy's normal quantile strictly increasing, zero at 1/2; exp increasing; NaN draws do not occur; exact numbers |
| C75 | `Rcov` | data/resonance_covariance.py:14-43, 72-128, 350-497, 583-708; data/resonance.py:313-403, 574-662 | exact numbers; radii and flags that play no part are not kept; equal energies sort in their order; INTG lines as in C37 |
| C76 | `Rcov` | data/resonance_covariance.py:164-306 (subset, sample) | the normal generator is any function returning vectors of the right length; the column of subset is any function of a row |
| C77 | `Dcy` | data/decay.py:19-154, 206-284 (modes, yields, daughters) | `str` of a float is the number itself (at most sixteen decimals); ufloat is a pair and refuses a negative or missing uncertainty; the nuclide of the evaluation is not kept |
| C78 | `Dcy` | data/decay.py:287-465 (Decay) | the same; the logarithm of 2 is any number; the covariance of a continuous part is the list the iterator yields the first time |
| C79 | `Sab` | data/thermal.py:26-113, 116-166, 574-592; data/data.py:13-111, 209 | get_close_matches is any function whose results are among the possibilities; texts are ASCII |
| C80 | `Sab` | data/thermal.py:319-368, 454-644 | an ACE table is its name, weight, temperature, pairs, NXS, JXS and XSS; slices that reach beyond XSS raise at once; numbers of points are not negative |
| C81 | `Sab` | data/thermal.py:169-201, 281-317, 390-451 | HDF5 as for C70 and C71; a file is its version and its groups |
| C82 | `Fer` | data/fission_energy.py:16-20, 93-101, 196-333; neutron.py:114-121 | exact rationals; an evaluation is its target and the text of section (1, 458); yields are polynomials or tables |
| C83 | `Fer` | data/fission_energy.py:131-159; function.py:17-54 | as for C39, in rational numbers; the proofs for tables go through the real numbers of `Tab1d` |
| C84 | `Fer` | data/fission_energy.py:335-380 | HDF5 as for C70 |
| C85 | `Mass` | data/data.py:141-191 | The file is a list of lines; sums are exact |
| C86 | `Mass` | data/data.py:13-111 (table, shared with `Sab`), 194-215 | as for C85; the element is plain text, not a regular expression |
| C87 | `Temp` | data/neutron.py:236-283, on the nuclides of C71 and the `from_ace` of C64 | warnings; sharing of objects with the table that was read |
| C88 | `Cold` | data/neutron.py:32, 284-375, on the nuclides of C71, `linearize` of C46 and `thin` of C45 | a range is its kind, limits, energies and widths; `np.logspace`, the reconstructed cross section and the background are arguments; fuel for bisection, theorems for every fuel |
| C89 | `Cold` | data/function.py:592-640; neutron.py:740-760; resonance.py:20-120, 1064-1071 (kinds) | reconstruction is an argument, one value per energy; numpy's repetition of a single value is an error in the model |
| C90 | `Cat` | data/library.py:23-149, posixpath's `dirname`, `commonprefix`, `relpath`, `join` | no links in the file system; XML as its tree; `path` given, not from the environment |
| C91 | `Comp` | data/function.py:439-589; checkvalue.py:135-165 | functions are total and elementwise on arrays; numpy's bisection as such, theorems for ascending breakpoints; type checks of arguments left out |
| C92 | `Pendf` | data/neutron.py:791-838 (with 257-282 of `Temp`) | running NJOY and reading its files left out: tables and PENDF cross section are arguments; energy release of fission apart (C82) |
| C93 | `Atom` | data/photon.py:22-89, 161-265, 427-521, 814-949 | exponential is an argument; the atomic number from the name is left out; data frames are lists of rows; a designator 0 raises at once |
| C94 | `Phe` | data/photon.py:267-327, 522-551, 951-1004 | an evaluation is its directory and its sections; Compton profiles, stopping powers and bremsstrahlung (files of the package) left out |
| C95 | `Get` | data/ace.py:170-197, 222-248 | as `Lib`; text without carriage returns, ASCII after its first ten lines |
| C42-C43 | `Name` | data/data.py:113-138, 319-363; data/ace.py:31-93 | decimal printing, arithmetic |
| C44, C54, C55 | `Sums` | data/neutron.py:377-399, 447-465, 529-556 | well-founded recursion on the sum rules |
| C45 | `Thin` | data/grid.py:61-114 | loop invariant |
| C46 | `Linz` | data/grid.py:4-59 | stack invariant |
| C47 | `Cont` | data/energy_distribution.py:1023-1277, data/univariate.py | offset arithmetic |
| C58 | `Ang` | data/angle_distribution.py, data/univariate.py | layout of words and lines, offset arithmetic |
| C48-C49 | `Mixin` | data/mixin.py:9-117, checkvalue.py | history induction |
| C50 | `Nest` | data/checkvalue.py:58-132 | tree traversal |
| C51 | `Box` | boxer2mat/boxer2mat.f:1-149 | codec induction |

`Num.v`, `XNum.v`, `Text.v`, `Dec.v`, `PyNum.v`, `Mat.v` are shared: exact rationals,
numbers with NaN and infinities, `str` methods, decimal printing, `int`/`float` of a
text, matrices over R.

## 3. What is not modelled

* Everything about floats beyond exact values: rounding, overflow, signed zero; NaN and
  infinity only where a model says so.
* Random draws (`np.random.permutation`, latin hypercube), `ppf` of distributions,
  `LA.eigh`, `cholesky`, `inv`, `h5py`, `pandas`, regular expressions as such: function
  arguments with a contract in the statement, or the effect of the particular call.
* NJOY, the Fortran runtime, MPI beyond rank/size and order of writes, file permissions
  and disk errors, memory.
* Plotting beyond the numbers handed to the library, notebooks, logging text, the pbs
  script around the job's command and its submission.
* Data modules not named in the table: photon data from ENDF files and their export,
  multipole; of resonances all but the tables and
  covariances of C75 and C76 (penetration, reconstruction, R-matrix limited).

## 4. Trusted base

* Coq's kernel (8.16.1).
* The correspondence between the cited Python lines and the model, by reading.
* The contracts of external calls, written as hypotheses in theorem statements.
* What `Print Assumptions` lists (below).  These are axioms of the standard library:
  real numbers (`sig_forall_dec`, `sig_not_dec`), functional extensionality, excluded
  middle.  No axiom is added here.  The checker also lists the opaque constants of
  modules of the library (`Coq.Reals.Rdefinitions.RbaseSymbolsImpl`, `RinvImpl`,
  `Coq.ssr.ssrunder.Under_rel`), which are module-sealed definitions, not assumptions.

<!-- assumptions:begin -->
| Assumptions printed | Theorems |
|---|---|
| closed under the global context (no assumptions) | C01_redundant_balanced, C01_balance_preserved, C01_redundant_balanced_grid, C01_pass_never_raises, C01_tabulated_value_refuted, C02_second_pass_noop, C03_edit_order_irrelevant, C04_grids_unchanged, C04_unadjusted_view, C04_unadjusted_view_chi, C04_untouched_keeps, C05_rejects, C05_accepts, C05_recorded_is_evaluated, C05_chi_atomic_refuted, C06_private_copy, C06_private_copy_nu_refuted, C06_private_copy_chi_refuted, C06_set_copies_refuted, C07_absorption_follows_refuted, C07_absorption_never_follows, C08_renormalised, C08_accepts, C08_same_pdf_noop, C08_rejects_upfront, C08_stops, C08_rejects_atomically_refuted, C08_negative_refuted, C08_wrong_length_refuted, C08_right_consistent, C08_monotone, C08_histogram_consistency_refuted, C08_linear_consistency_refuted, C09_default_iff, C09_default_value, C09_finds_iff_present_refuted, C09_explicit_always_rejected, C09_explicit_accepts_iff, C10_write_roundtrip_iff, C10_read_words, C10_four_per_line, C10_formatted_fits, C10_header, C11_replace_frame, C11_raises_iff, C11_words_frame, C11_room_kept, C11_only_block_words_change_refuted, C12_group_values, C12_groups_partition, C12_raises_iff, C12_lowest_energy_fails, C13_parallel_is_serial, C13_serial_content, C13_one_owner, C13_crash_prefix, C13_parallel_is_serial_on_failure_refuted, C14_completes_iff, C14_all_written_refuted, C14_surplus_ignored, C15_keeps_exactly_good, C15_goodb_is_good, C15_keeps_all_without_flag, C15_all_groups_kept, C15_undefined_group_dropped, C16_accepts_iff, C16_drawn, C16_numbered, C16_raises_iff_dropped, C16_set_neg_to_zero, C17_relative_cell, C17_same_shape, C17_always_finite_refuted, C18_corr_normalised, C18_lmax_is_largest, C18_bounds_ordered, C18_flip_irrelevant, C24_rank_is_permutation, C24_rank_counts, C24_columns_rearranged, C24_ranks_transferred, C25_columns, C25_zero_diagonal_skipped_refuted, C25_zero_mean_skipped_refuted, C25_raises, C28_fields, C28_wrong_size, C28_report, C28_square, C28_three_digit_exponent_refuted, C28_padded_minus_refuted, C31_keys_injective, C31_listed, C32_flow, C32_tapes, C32_kinds, C32_weight_tables, C32_builds, C33_picked, C34_pendf_refuted, C34_without_covariances, C34_run_refuted, C35_value, C35_fortran_fields_refuted, C36_cont, C36_list, C36_tab1, C36_tab2, C37_stored, C37_symmetric, C37_one_per_line, C37_placed_refuted, C38_sections, C38_repeated, C38_truncated_hangs, C41_round_trip, C41_records, C42_ground, C42_isomer, C42_state_first, C42_americium, C42_bounded, C42_documented_refuted, C42_second_isomer_refuted, C42_mass_refuted, C43_round_trip, C43_named, C43_injective, C43_normal, C43_trailing_refuted, C43_symbols, C44_ends, C44_exact, C45_tolerance, C45_line, C45_zero_tolerance_refuted, C46_sound, C46_exact, C46_ends, C46_line, C47_round_trip, C47_points, C47_ace, C47_ace_read, C47_empty_refuted, C47_scheme_refuted, C47_weights_refuted, C47_unreadable_refuted, C47_ace_values, C48_fresh, C48_warned, C48_first_free, C48_distinct_refuted, C48_reset_refuted, C49_symmetric, C49_turned, C49_reflexive, C49_transitive, C49_symmetry_refuted, C49_transitivity_refuted, C50_terminates, C50_exact, C50_maximum_refuted, C50_minimum_refuted, C51_served, C51_accepted, C51_no_leftovers, C51_wrong_length, C51_first_match, C51_end, C51_any_order_refuted, C53_all_materials, C53_closing_refuted, C54_closed, C54_values, C54_closed_refuted, C55_round_trip, C55_fission_refuted, C55_written, C56_agree, C56_selection_refuted, C56_short_refuted, C56_last_refuted, C56_header, C56_header_refuted, C57_values, C57_spectrum, C57_marked, C57_succeeds, C57_redundant, C57_untouched, C57_order, C57_lost, C57_neutral_refuted, C57_own_factor_refuted, C58_ace, C58_ace_stored, C58_round_trip, C58_legendre, C58_endf_isotropic, C58_endf_legendre, C58_endf_tables, C58_endf_both, C58_endf_stored_refuted, C58_readable_refuted, C58_scheme_refuted, C58_lengths_refuted, C59_sampled, C59_words, C59_blocks, C59_fenced, C59_equal_values_refuted, C59_nu_refuted, C59_missing_refuted, C59_spectrum_refuted, C61_zaid, C61_requests, C61_answered, C61_units, C61_default_names, C61_given_names_refuted, C61_isomers_refuted, C62_deck, C62_no_deck, C62_modules, C62_group_structure, C62_weight_table, C62_temperatures, C62_last_temperature_only, C62_ace_names_refuted, C62_covariance_files, C63_run, C63_each_tape, C63_run_fails, C63_run_ends, C63_deck, C63_no_deck, C63_thermal, C63_thermal_fails, C63_ace_refuted, C63_zaids_refuted, C63_temperatures, C63_too_few, C64_read, C64_channel, C64_xss, C64_xss_kept, C64_reactions, C64_sums, C64_flags, C64_succeeds, C64_every_content, C64_nonelastic_photons_fail, C64_found_in_file_refuted, C64_nonnegative_refuted, C64_near_threshold_refuted, C65_fission, C65_delayed, C65_delayed_sum, C65_no_delayed, C65_multiplicity, C65_silent, C65_elastic, C65_laws, C65_editor, C65_fission_needs_nu, C65_constant_nu_refuted, C65_one_nu_refuted, C65_mixed_groups_refuted, C66_photons, C66_sums, C66_none, C66_production, C66_conserved_refuted, C66_mt3_refuted, C67_tables, C67_none, C67_interpolation, C68_variances, C68_correlations, C68_difference, C68_edges, C68_colours, C68_samples, C68_base, C68_same_as_file, C68_deviations, C68_log, C68_colours_refuted, C68_variances_refuted, C68_same_as_file_refuted, C69_read, C69_area, C69_unsupported, C69_nbody_alone, C69_negative, C69_products, C70_product, C70_law, C70_ace, C70_some, C70_madland_refuted, C70_negative_refuted, C70_unwritten_refuted, C70_angle_refuted, C70_rate, C71_round_trip, C71_group, C71_refused, C71_same, C71_ace, C71_first_refuted, C71_collide_refuted, C71_again_refuted, C71_fission_refuted, C71_nu_refuted, C71_grid_refuted, C71_lost_refuted, C71_order_refuted, C71_total_refuted, C71_unflagged, C71_first, C71_names, C71_sections, C72_line, C72_refused, C72_accepted, C72_job, C72_plot_only_refuted, C72_blank_refuted, C72_swallow_refuted, C73_line, C73_path, C73_accepted, C73_groups, C73_fixed_refuted, C73_weight_refuted, C74_quantiles, C74_half, C74_lhs_normal, C74_uniform_refuted, C74_uniform_factors_refuted, C75_file2, C75_general, C75_blocks_refuted, C75_compact, C75_known_refuted, C75_compatible, C75_pair_refuted, C75_waves_refuted, C75_some_refuted, C75_section, C75_isotopes_refuted, C75_unresolved, C75_unresolved_refuted, C76_subset, C76_twice_refuted, C76_order_refuted, C76_sample, C76_doubled_refuted, C76_four_refuted, C77_modes, C77_gamma_refuted, C77_unknown_refuted, C77_daughter, C77_fission_refuted, C77_yields, C77_independent, C77_cumulative_refuted, C77_energies, C77_each, C78_decay, C78_daughters, C78_spectra_refuted, C78_stable, C78_stable_spin_refuted, C78_constant, C78_constant_zero, C79_proper, C79_alias, C79_form, C79_nuclides, C79_twice_refuted, C79_bragg, C79_bragg_refuted, C79_bragg_beyond_refuted, C80_table, C80_name_refuted, C80_library, C80_added, C80_other, C80_again_refuted, C80_mode_refuted, C80_refused, C81_round_trip, C81_group, C81_table, C81_library, C81_mixed_refuted, C81_refused, C81_version, C81_order_refuted, C82_read, C82_refused, C82_neutrons, C82_sums_refuted, C83_polynomials, C83_interpolation, C83_curved_refuted, C84_back, C84_written, C84_taken, C85_mass, C85_mixture, C85_unknown, C85_cached, C85_failure_refuted, C85_zero_refuted, C86_abundances, C86_weight, C86_none, C86_element_refuted, C87_added, C87_ace, C87_again, C87_other, C87_library, C87_stored, C87_lost_refuted, C87_missing_refuted, C87_unreadable_refuted, C88_grid, C88_apart, C88_added, C88_works, C88_kept, C88_peak_refuted, C88_empty_refuted, C88_radius_refuted, C88_none_refuted, C88_unresolved_refuted, C88_joint_refuted, C88_endless_refuted, C88_order_refuted, C89_value, C89_arrays, C89_evaluation, C89_none_refuted, C89_border_refuted, C90_registered, C90_found, C90_exported, C90_round_trip, C90_materials, C90_words_refuted, C90_moved, C90_fixed, C90_subfolder_refuted, C90_equal_refuted, C91_regions, C91_everywhere, C91_documented_refuted, C91_array, C91_integers_refuted, C91_sum, C91_sums, C91_sums_refuted, C91_combination, C91_exchanged_refuted, C92_njoy, C92_identity, C92_own, C92_none, C92_stored, C92_rounded_refuted, C93_read, C93_relaxation, C93_cumulative, C93_probabilities, C93_named, C93_none, C93_one_refuted, C94_relaxation, C94_agree, C94_none, C94_reaction, C94_listed, C94_missing_refuted, C95_text, C95_binary, C95_agree, C95_ascii_refuted |
| `ClassicalDedekindReals.sig_forall_dec`, `FunctionalExtensionality.functional_extensionality_dep` | C19_entries, C19_psd, C27_positive_definite, C27_untouched, C27_unchanged, C27_raises, C29_load_any, C31_listed_loadable_refuted, C60_files, C60_values, C60_nothing, C60_oversamples, C60_oversamples_refuted, C60_other_nuclide_refuted, C60_repeated_refuted |
| `ClassicalDedekindReals.sig_forall_dec`, `ClassicalDedekindReals.sig_not_dec`, `FunctionalExtensionality.functional_extensionality_dep` | C19_read_back, C20_unit_symmetric, C20_round_trip, C20_bounded, C20_is_corr, C20_round_trip_any_refuted, C21_factorises, C21_offdiag_exact, C22_psd_shift, C22_no_shift, C22_bounded, C23_cholesky_induces, C23_fallback_permutes, C23_first_gets_last, C23_induces_refuted, C23_with_permutation_induces, C29_clean, C29_succeeds, C29_loads_back, C30_other_keys, C30_failure, C30_skipped, C30_atomic_refuted, C30_skipped_when, C31_process_keyed, C52_independent_columns, C52_scores_correlation, C61_stored, C61_others, C61_nothing, C61_refused, C61_finishes, C61_sampler, C61_fission_refuted, C61_stale_refuted |
| `ClassicalDedekindReals.sig_forall_dec`, `Classical_Prop.classic`, `FunctionalExtensionality.functional_extensionality_dep` | C27_unit_diagonal_refuted |
| `ClassicalDedekindReals.sig_forall_dec`, `ClassicalDedekindReals.sig_not_dec`, `Classical_Prop.classic`, `FunctionalExtensionality.functional_extensionality_dep` | C26_moments, C26_values, C26_transform, C26_shape, C26_requested_correlation_refuted, C39_law, C39_grid, C39_last, C39_between, C39_outside, C39_near_ends, C39_exact_refuted, C39_arrays, C39_integer_arrays_refuted, C39_sum_pointwise, C39_sum_grid, C39_sum_polynomials, C39_sum_pointwise_refuted, C40_increments, C40_nan, C40_monotone, C40_linear_log, C82_between, C83_tables, C83_outside_refuted |

568 theorems in all.
<!-- assumptions:end -->

## 5. Findings

Claims one would make of the code that are false of the model.  Those with a theorem
name it; the others were met while reading and are recorded only.


### ACE editing

* (C07, C06, C09, C10, C11: see the `_refuted` theorems.)
* `np.isclose(..., atol=1e-14)` keeps the default rtol 1e-5, so points near either end of a table read the end value (`C39_near_ends`, `C39_exact_refuted`).
* The update of chi is not atomic: a wrong length in a later distribution raises after earlier ones are changed, a negative value also leaves the new cdf with the old pdf (`C08_negative_refuted`), and a single value is spread over the whole grid (`C08_wrong_length_refuted`); the cumulative distribution is a right-rectangle sum.
* An explicit temperature is always rejected unless it is "K".
* `get_sigma(452)` and `get_sigma(1018)` return aliases; `set_sigma` keeps the caller's array; the original of 1018 shares arrays.
* Words of 20 characters or more not in the first column fuse on writing; `replace_array` may match inside a negative number.
* `neutron.from_ace`, MT 3 branch, may use an unbound `absorption`.

### Sampling

* `write_sampled_data` sets zero cross sections to 1 before multiplying (`C57_neutral_refuted`); a redundant MT sampled together with one of its parts silently loses its own factors (`C57_lost`, `C57_own_factor_refuted`).
* Writing searches by value: a reaction whose array equals an earlier one changes that one (`C59_equal_values_refuted`); nu-bar replaces every equal array (`C59_nu_refuted`); an array printed otherwise in the file is skipped without an exception (`C59_missing_refuted`), so a spectrum can be rewritten by half (`C59_spectrum_refuted`).
* An energy equal to the lowest boundary maps to group n+1 (KeyError).
* Zero mean with a nonzero sample gives an infinite factor; filtering per MT may abort with KeyError; on abort in parallel, rank 0 may still write its csv (C13).
* The oversamples are checked for number and never drawn, so a run with `-num_oversamples` can write fewer files than asked for (`C60_oversamples`, `C60_oversamples_refuted`).
* Without `-mts` the reactions of all nuclides in the store are taken; one the file has but its nuclide has no data for stops the run before anything is written (`C60_other_nuclide_refuted`). A reaction given twice is scaled twice (`C60_repeated_refuted`).
* The generator converts MT 18 of a fissionable target for chi but does not store it unless it was asked for (`C61_fission_refuted`). A name given with `-output_store` gets the number of groups without the documented underscore, so that `lib` with 252 groups and `lib2` with 52 are one file (`C61_given_names_refuted`; default names are unique, `C61_default_names`). Isomers share keys and store with the ground state (`C61_isomers_refuted`). Tapes left in the output directory by an earlier run are used when NJOY writes none (`C61_stale_refuted`).
* `get_mt_from_ace` uses `os`, imported only under `__main__`.
* The gmw fallback drops the permutation (`C23_induces_refuted`); negative variances break the round trip (`C20_round_trip_any_refuted`).
* Groups with zero diagonal are sampled if nothing else is skipped; zero-mean groups are not skipped for lognormal when some mean is negative; 'LogNormal' in mixed case skips transform and mask.
* The lognormal correlation transform goes the wrong way (`C26_requested_correlation_refuted`); the eigenvalue repair loses the unit diagonal (`C27_unit_diagonal_refuted`).

### NJOY

* Nu-bar and chi covariances are made at the last temperature only (`C62_last_temperature_only`); ACE files of temperatures that agree to a tenth of a kelvin get one name (`C62_ace_names_refuted`); an odd number of weights loses the last (`C62_weight_table`).
* `make_ace_thermal` never writes the file named by `ace`, only `<ace>_<T>` (`C63_ace_refuted`), and passes only the first three nuclides of MAT 47, 49, 58 and 59 (`C63_zaids_refuted`).
* Cross sections read from an ACE table are views of XSS in which negative values have been set to 0, so the words looked for when the table is written again need not be in the file (`C64_found_in_file_refuted`); negative total and absorption stay (`C64_nonnegative_refuted`); a sum made from components takes a component's first value at any energy within 1e-5 below its threshold (`C64_near_threshold_refuted`); photons of MT 3 in a table without absorption raise UnboundLocalError, and otherwise are lost (`C64_nonelastic_photons_fail`).
* A number of neutrons per fission that does not depend on the energy, or that is the only one of the table, is not found by the editor (`C65_constant_nu_refuted`, `C65_one_nu_refuted`). If some precursor groups have probabilities that depend on the energy and others do not, all are divided by the sum of the constant ones alone, so that too many delayed neutrons are read (`C65_mixed_groups_refuted`).
* Photons for which the table gives a production cross section are lost at energies where the cross section of their reaction is 0 (`C66_conserved_refuted`). Photons listed for MT 3, which is not itself in the list, are worked out and thrown away: `absorption` is stored under 101 instead (`C66_mt3_refuted`).
* The correlation plots without the widest range start from a range with its ends swapped
  (`vmin` from `np.amax`, `vmax` from `np.amin`): correlations of the store can lie outside the
  colours (`C68_colours_refuted`).
* The variance plot draws the last group down to half its upper bound, not to its lower one
  (`C68_variances_refuted`). A sampled curve shows 0 where the file of the sample holds the
  factor, if the cross section is 0 there (`C68_same_as_file_refuted`).
* `AngleEnergy.from_ace` lists law 5, whose reader always raises (`C69_unsupported`); law 66 without
  a reaction (photons, delayed neutrons) raises an AttributeError (`C69_nbody_alone`); a negative density
  is refused in law 4 (`C69_negative`) and taken in laws 44 and 61 (`C69_read`).
* A Madland-Nix spectrum is written under `xy` and looked for under `tm`: it is never read back
  (`C70_madland_refuted`). Negative densities that `from_ace` takes for a Kalbach-Mann law make a file that
  cannot be read (`C70_negative_refuted`). A correlated law with lines and a continuous part is read from ACE and
  cannot be written, nor can two laws of ENDF (`C70_unwritten_refuted`). Angles attached to other than
  uncorrelated distributions are left out of the file (`C70_angle_refuted`).
* `SUM_RULES[27] = [18, 101]` breaks the premise of `from_hdf5` (neutron.py:543-545) that no sum depends on a lower number: with fission in the file as 19, 20, 21, 38 only, absorption 27, non-elastic 3 and total 1 are made without fission (`C71_fission_refuted`, `C71_total_refuted`).
* A nuclide read from HDF5 cannot always be exported again: a rebuilt MT 4, 16, 103-107 is a `Sum`, which has no `y` (`C71_again_refuted`). Temperatures rounding to the same kelvin stop the export (`C71_collide_refuted`); reading takes the first group by name (`C71_first_refuted`); temperatures come back in the order of their names (`C71_order_refuted`); redundant reactions without photons and without parts are lost (`C71_lost_refuted`); at most one derived product survives, given to every fission reaction (`C71_nu_refuted`); a cross section ending before the grid comes back with more energies than values (`C71_grid_refuted`).
* The job written with `--writepbs` does not pass `--plot-only` on: it samples and writes files although only plots were asked for (`C72_plot_only_refuted`). Names are not quoted, so a file with a blank in its name makes the job fail (`C72_blank_refuted`). `-mts` before the files takes them as reactions and the program ends (`C72_swallow_refuted`).
* The generator's comment promises a full path for the output; without `-output_path` it is `./` (`C73_fixed_refuted`). The help text offers weighting 1, the parser refuses it (`C73_weight_refuted`).
* Samples of the type `uniform` all lie between the mean and one deviation above it, SciPy's `loc` being the lower end and not the middle: every factor is at least one (`C74_uniform_refuted`, `C74_uniform_factors_refuted`).
* `MultiLevelBreitWignerCovariance.from_endf` and `ReichMooreCovariance.from_endf` (data/resonance_covariance.py:394-418, 630-654) keep the matrix of the last block of short-range covariances only (`C75_blocks_refuted`) and leave long-range covariances unread; the compatible format loses the covariance of neutron and capture width (`C75_pair_refuted`) and fails for two l-values (`C75_waves_refuted`); a deviation 0 makes the compact format fail (`C75_known_refuted`); so do covariances of only some of the resonances (`C75_some_refuted`).
* `ResonanceCovariances.from_endf` combines every isotope with the first ranges of File 2 (`C75_isotopes_refuted`), and takes the lines of an unresolved range for what follows (`C75_unresolved_refuted`; at the end of the section this is harmless, `C75_unresolved`).
* `ResonanceCovarianceRange.subset` of a subset fails (`C76_twice_refuted`); it pairs rows in the order of File 2 with a matrix in the order of File 32 (`C76_order_refuted`).  `sample` doubles the off-diagonal entries of the symmetric matrix of the compact format (`C76_doubled_refuted`), and fails for Reich-Moore with four parameters per resonance (`C76_four_refuted`).
* `get_decay_modes`: RTYP 0 (gamma) gives an empty list; RTYP 10 (unknown) gives beta- and gamma, entry 10 of the table is never reached (C77).
* `DecayMode.daughter` of a nuclide that fissions spontaneously is the nuclide itself (C77).
* `FissionProductYields` with MT=459 but not MT=454 raises (`self.energies` is not set); with one energy in one section and several equal ones in the other, the check of the energies passes (C77).
* `Decay`: a second spectrum of one radiation type replaces the first; a stable nuclide keeps -77.777 as its spin; the covariances of a continuous spectrum are a `zip` iterator and can be read once only (C78).
* `CoherentElastic.__call__` takes the partial sum at the edge above the energy instead of the one below, and raises above the last edge (C79); `from_ace` overwrites its argument `name` (C80); a nuclide of hydrogen or iron given twice is listed twice (C79).
* `add_temperature_from_ace` does not look whether the new table is of the same kind (secondary mode, elastic scattering): the result cannot be exported, or is stored under the mode of the first table; at a temperature there is, another material passes silently (C80, C81).
* `FissionEnergyRelease.from_endf` hands tables of the two sums (IFC 8 and 9, allowed by ENDF-6) to a constructor that has no such parameters: TypeError (`C82_sums_refuted`).
* The derived fission energies are 0 outside the range of a table, although the polynomial parts are not, and are not exact between its points when a part is a polynomial of higher degree (`C83_outside_refuted`, `C83_curved_refuted`); a table with any interpolation but linear-linear makes them, and `to_hdf5`, fail (`C83_interpolation`).
* `atomic_mass` fills its cache before it knows that the file is good: after one failure, later calls answer out of what was read (C85_failure_refuted), and the mass of natural carbon can then be 0 (C85_zero_refuted).
* `atomic_weight` matches a prefix: `Os19` is answered with a part of osmium (C86_element_refuted).
* Observed in the data, not a theorem: the mass file names elements 113, 115, 117 and 118 by `Ed`, `Ef`, `Eh` and `Ei`, `ATOMIC_SYMBOL` by `Nh`, `Mc`, `Ts` and `Og`; none of their masses is found by name.
* `add_temperature_from_ace` drops reactions the nuclide does not have, and leaves a reaction the table does not have
  without a cross section at the new temperature; exporting such a nuclide makes a file `from_hdf5` fails on
  (C87_lost_refuted, C87_missing_refuted, C87_unreadable_refuted).
* 0 K elastic scattering: the grid of multiples of the width starts at 1e-3 instead of 0 while the right side drops its first element, so peaks are
  never on it and the left side has one point more (C88_peak_refuted). Resonances of different angular momentum are taken as one sorted list, so midpoints
  are wrong and points above a resonance are lost (C88_order_refuted). A range without resonances inside it, one with a scattering radius only, and an
  evaluation without resonances raise (C88_empty_refuted, C88_radius_refuted, C88_none_refuted, C89_none_refuted: the `else` branch cannot be reached);
  with unresolved ones only the table is empty. Adjoining ranges both count at their border (C89_border_refuted), which repeats an energy
  (C88_joint_refuted) and makes bisection endless (C88_endless_refuted).
* A catalogue next to its files can be moved with them; one in the folder above cannot, as the absolute path of the subfolder is written to it
  (C90_subfolder_refuted), and reading a catalogue gives other paths than were written (C90_equal_refuted). Names with blanks are split (C90_words_refuted).
* `Regions1D` indexes functions by `searchsorted` of breakpoints that, as documented, include the lower limit: the neighbouring function is used, and in the
  last interval an IndexError raised (C91_documented_refuted); integer arrays truncate values (C91_integers_refuted).
* `from_njoy` keeps only the first of temperatures that are the same to 1 K, with a warning (C92_rounded_refuted).
* Photon cross sections of exactly 1 b, stored as logarithm 0, are read as 0 (C93_one_refuted).
* `PhotonReaction.from_endf` makes a reaction without a cross section, and without an error, if the section the directory lists is not there (C94_missing_refuted).
* `Library` takes a binary library for text, and fails, if its first ten lines happen to be ASCII (C95_ascii_refuted).
* `make_njoy_run`'s parameter `run` shadows the function (run=True always raises); `make_pendf` always raises; `nbroadr` is unbound with broadr off and errorr or heatr on.
* purr/acer read a covariance or plot tape with errorr on and heatr off; the nu/chi groupr run lacks the user's weight table with iwt=1 and uses only the last temperature; no temperatures with nu/chi raises; equal temperatures give equal file names; the every-other selection of cover tapes loses temperatures when no MT is requested.

### ENDF and covariance text

* `ASAPy/endf.py` `Evaluation` closes the file, so `get_evaluations` always raises (C53); a truncated file makes `Evaluation` loop for ever, a half-life below one second counts as stable (C38); blank number fields, "1.+5" and D exponents raise (C35); the INTG column offset is dropped (C37).
* Boxer text: three-digit exponents are read as mantissa, a padded minus sign loses data, lines of blanks add zeros, more than 4 headers pollute the block.
* boxer2mat: NVMAX/NCMAX are not checked on continuation pages; requests must be in file order; empty continuation pages are accepted.
* `process_cov_to_h5` writes the correlation before checking the group table (`C30_atomic_refuted`); the skip message looks up an unknown MT; the MT listing ignores the nuclide (`C31_listed_loadable_refuted`).

### Functions and grids

* `Tabulated1D` called with integer arrays truncates (`C39_integer_arrays_refuted`); `sum_functions` is not pointwise across different thresholds (`C39_sum_pointwise_refuted`); the lin-log integral formula is wrong and can be negative; the log-linear integral of a constant segment is NaN and spreads (C40).
* `thin` with tolerance 0 removes points of value zero (`C45_zero_tolerance_refuted`); x and y are filtered by finiteness separately.

### Names, objects, checks

* `zam` ignores trailing text and reads "_e1" as isomer; `get_metadata` loses the NNDC 100m code, reads second isomers as first, gives negative mass for A>3Z.
* `EqualityMixin` is asymmetric, not reflexive with NaN, not transitive with None; numbers given by hand may repeat, reset forgets them; `check_iterable_type` ignores the outermost depth, the minimum depth of empty sequences, and descends strings to max_depth.

### Libraries

* MT 27 is summed before MT 18, so total, MT 3 and MT 27 lack fission when MT 18 is not stored (`C54_closed_refuted`, `C55_fission_refuted`); export drops redundant MT 101 and 1 without components.
* ContinuousTabular through HDF5: an empty distribution reads back as the previous one, log schemes become lin-lin, weights come from the cdf, cdf above 1 is unreadable; fewer energies than distributions merges the rest (C47).
* AngleDistribution: Legendre series and tables read from ENDF cannot be written (`to_hdf5` raises after writing the energies, `C58_endf_stored_refuted`); negative densities are written but cannot be read (`C58_readable_refuted`); log schemes become lin-lin, distributions without energy are joined to the previous (C58); distributions read from ACE are views into the XSS array of the table.
* `ascii_to_binary` rejects numbers without 'e' and blank lines at the end; picking tables by name from text raises (`C56_selection_refuted`); one-line tables (`C56_short_refuted`); a last "1.0-120" reads as 1.0 (`C56_last_refuted`); a binary file is recognised only by non-ASCII bytes in its first ten lines.
