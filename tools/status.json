{
 "C01": {
  "status": "proved",
  "note": "Over every field with 1+1<>0; floating-point rounding is not modelled."
 },
 "C02": {
  "status": "proved",
  "note": ""
 },
 "C03": {
  "status": "proved",
  "note": "transition_matrix (numpy pinv) is not modelled."
 },
 "C12": {
  "status": "proved",
  "note": ""
 },
 "C13": {
  "status": "proved",
  "note": "Up to name and label order, over every field."
 },
 "C14": {
  "status": "proved",
  "note": ""
 },
 "C15": {
  "status": "proved",
  "note": "Two-step theorem also covers the other order, by exchanging the sets."
 },
 "C16": {
  "status": "proved",
  "note": "Over every field; also shown: a failing second inversion with ret_copy=False leaves a half-updated object."
 },
 "C17": {
  "status": "proved",
  "note": ""
 },
 "C18": {
  "status": "proved",
  "note": "Includes the counterexample with a shared nuisance parameter."
 },
 "C19": {
  "status": "proved",
  "note": "Over every ordered field with square roots."
 },
 "C20": {
  "status": "partial",
  "note": "False of the code (C20_stale_errors_refuted); C20_reported_errors_partial proves it for every history in which the matrix is not edited while an inverse is held."
 },
 "C21": {
  "status": "partial",
  "note": "False of the code (C21_copy_unchanged_refuted): the stored inverse of the original changes; C21_copy_changes_inverse_only proves nothing else does."
 },
 "C22": {
  "status": "partial",
  "note": "False of the code after a marginalisation (C22_after_marginalising_refuted); proved whenever the inverse has the labels of the matrix in the same order."
 },
 "C23": {
  "status": "proved",
  "note": ""
 },
 "C24": {
  "status": "partial",
  "note": "First half proved; the rejection of unknown names is false of the code (C24_unknown_rejected_refuted)."
 },
 "C31": {
  "status": "proved",
  "note": ""
 },
 "C32": {
  "status": "proved",
  "note": "SmartKeyDict and ClSmartKeyDict; a ClSmartKeyDict built from a ClSmartKeyDict object (which yields an empty dictionary) is outside the statement and listed as a finding."
 },
 "C33": {
  "status": "partial",
  "note": "Proved for every non-empty data vector; the empty data vector's name and brief string do not parse back (C33_empty_refuted)."
 },
 "C34": {
  "status": "partial",
  "note": "Refuted as stated: zip-equality accepts a prefix (C34_prefix_refuted) and the key pattern accepts trailing text (C34_garbage_accepted_refuted); the exact conditions are proved."
 },
 "C04": {
  "status": "proved",
  "note": ""
 },
 "C05": {
  "status": "proved",
  "note": "The 'fails otherwise' part is C05_unsorted_misaligned_refuted."
 },
 "C06": {
  "status": "proved",
  "note": "Per block and for the assembled covariance, over every field."
 },
 "C07": {
  "status": "proved",
  "note": "Symmetry hypotheses only on stored auto spectra; each unordered probe pair stored in one orientation."
 },
 "C08": {
  "status": "proved",
  "note": "Symmetry, labels, values, parameter-order independence and success conditions; the combined vector's total is C10."
 },
 "C09": {
  "status": "proved",
  "note": "Stronger: from positive semi-definite covariance; also derived from positive semi-definite spectra."
 },
 "C10": {
  "status": "proved",
  "note": ""
 },
 "C11": {
  "status": "proved",
  "note": ""
 },
 "C25": {
  "status": "partial",
  "note": "Round trip, flag cases and frame condition proved for consistent objects with h5py 2. Refuted: columns ordered differently from rows are accepted by checkAttributes and lost on disk; with h5py 3 (allowed by pyproject) names come back as printed byte strings."
 },
 "C26": {
  "status": "partial",
  "note": "Exact collision criterion and injectivity on the project's own names proved; false for arbitrary names."
 },
 "C27": {
  "status": "proved",
  "note": ""
 },
 "C28": {
  "status": "proved",
  "note": ""
 },
 "C29": {
  "status": "partial",
  "note": "Holds for dictionaries and duplicate-free orders. Refuted: a list of matrices is dropped, an order naming a matrix twice is accepted."
 },
 "C30": {
  "status": "proved",
  "note": ""
 },
 "C71": {
  "status": "partial",
  "note": "Proved for interruptions before the last dataset group; refuted for one before the nuisance dataset."
 },
 "C72": {
  "status": "proved",
  "note": ""
 },
 "C73": {
  "status": "partial",
  "note": "Methods change only their own object, but useBaseFishers shares the objects, so base matrices change (refuted)."
 },
 "C74": {
  "status": "proved",
  "note": ""
 },
 "C35": {
  "status": "proved",
  "note": "Displacements are assumed non-zero and distinct up to sign for the strict ordering; for a negative fiducial the order is reversed."
 },
 "C36": {
  "status": "proved",
  "note": "Also over any history of updates; beside it, a refused update (both densities free) is shown to displace the parameter before raising."
 },
 "C37": {
  "status": "partial",
  "note": "Proved for runs that succeed and, up to a reset, for all; refuted after an exception: the parameter stays displaced and the next run is computed there."
 },
 "C38": {
  "status": "partial",
  "note": "Proved when no displacement is zero and parameters are stored under their names; refuted otherwise, and for descriptions. Interrupted writes leave an unreadable file."
 },
 "C39": {
  "status": "partial",
  "note": "Files: proved for up to nine displacements, refuted for ten. In memory: proved; anything but seven displacements raises."
 },
 "C40": {
  "status": "proved",
  "note": "Scalar, vectorised (other columns arbitrary) and end-to-end; exact arithmetic."
 },
 "C41": {
  "status": "partial",
  "note": "Termination proved for all inputs. Agreement proved for positive data that becomes linear while more than three points are left; refuted for negative data, zero entries and the last window."
 },
 "C42": {
  "status": "proved",
  "note": "The zero result of computeDerivative and, for the pipeline that bypasses the test, zero for spectra that do not move."
 },
 "C43": {
  "status": "partial",
  "note": "Proved exactly for |step| <= 9; refuted for every other step."
 },
 "C44": {
  "status": "proved",
  "note": ""
 },
 "C45": {
  "status": "partial",
  "note": "Fully proved for one-dimensional data and the last axis. With another axis the leftover weights are paired with the last axis, which gives a wrong value or a ValueError (refuted theorems). Unequal spacing is only logged."
 },
 "C46": {
  "status": "proved",
  "note": ""
 },
 "C47": {
  "status": "proved",
  "note": ""
 },
 "C48": {
  "status": "partial",
  "note": "Arrays and tables of positive sums: proved. For tables with negative sums the result is negative, and 100|x-y| when the values are opposite (refuted theorems)."
 },
 "C49": {
  "status": "proved",
  "note": ""
 },
 "C50": {
  "status": "proved",
  "note": ""
 },
 "C51": {
  "status": "partial",
  "note": "Proved for whole-number ranges (linear) and positive ranges with at least one bin (logarithmic). A fractional range overshoots l_max; zero bins or a non-positive l_min are not rejected (refuted theorems)."
 },
 "C52": {
  "status": "partial",
  "note": "Pairs, common multipoles and alignment proved for increasing grids. The widths are those of the first probe named, so the spelling matters exactly when the probes' widths differ; unsorted grids misalign (refuted theorems)."
 },
 "C53": {
  "status": "partial",
  "note": "Exact condition of equality proved. Sky fractions are never compared (only tested for being non-zero), nor are free flags or the shot noise file (refuted theorems)."
 },
 "C75": {
  "status": "proved",
  "note": ""
 },
 "C76": {
  "status": "proved",
  "note": "File names for whole bin numbers and the same date."
 },
 "C77": {
  "status": "partial",
  "note": "Proved for complete valid options in the usual order; the identifier depends on the order of the options and different options may share it (refuted theorems)."
 },
 "C54": {
  "status": "partial",
  "note": "E(0)=1, Omega_m(0)=Omm and closure at every redshift hold; the reported OmK is rounded to 10 digits, so the three reported densities close only to 5e-11 and a flat cosmology is accepted up to that (C54_rounded_refuted)."
 },
 "C55": {
  "status": "proved",
  "note": "Exact for CAMB and CLASS; CLASS's Omega_k is rounded to 6 digits; a negative cold dark matter density is passed on (C55_negative)."
 },
 "C56": {
  "status": "proved",
  "note": "For every non-empty grid; an empty grid is a ValueError (C56_empty)."
 },
 "C57": {
  "status": "partial",
  "note": "Exact condition: keys and values without line breaks or surrounding blanks, keys not starting with '#', values without '='. A value with '=' is misread (C57_equals_refuted). Whatever was read from a file round-trips."
 },
 "C58": {
  "status": "partial",
  "note": "At most two evaluations, exact result, for every target except one within 1e-12 (relative) of the hard-coded start 10, which is never tuned (C58_target_refuted)."
 },
 "C78": {
  "status": "proved",
  "note": ""
 },
 "C79": {
  "status": "partial",
  "note": "First evaluation correct, repeated evaluation changes nothing; after a parameter change the arrays stay stale (C79_stale_refuted)."
 },
 "C59": {
  "status": "proved",
  "note": ""
 },
 "C68": {
  "status": "partial",
  "note": "Proved equal to the true derivative of the computed spectra for bins 0-9; the bin is taken from the last character of the name, so bin 10 is confused with bin 0 (C68_two_digits_refuted)."
 },
 "C80": {
  "status": "proved",
  "note": ""
 },
 "C60": {
  "status": "partial",
  "note": "Proved for the interactive stage interrupted between writes (C60_restart_exact, C60_existing_not_recomputed). Refuted: an interruption inside a file write leaves a torn file that is skipped for ever, and the batch form treats an existing store as complete (C60_interrupted_write_refuted, C60_batch_restart_refuted)."
 },
 "C61": {
  "status": "partial",
  "note": "Exact condition proved (C61_restart_exact): re-running completes iff nothing was done or the pickle was already written. Refuted in general (C61_interrupted_refuted); a failing derivative also blocks every later run."
 },
 "C62": {
  "status": "partial",
  "note": "Exact outcome proved for listings in the usual form (C62_listed, C62_before_limit). Refuted in general: jobs missing from the listing or owned by a user whose name has a digit count as done, the time limit ends the wait normally, and the rest of a line can be read as another job."
 },
 "C63": {
  "status": "partial",
  "note": "The outcome depends on standard error alone (C63_exact), so the statement holds for commands that print there exactly when they fail, and is refuted in both directions."
 },
 "C64": {
  "status": "partial",
  "note": "Proved when external_dirs.json does not replace the directories (C64_one_each); a power spectrum directory given there replaces every run's own (C64_external_directory_refuted)."
 },
 "C65": {
  "status": "partial",
  "note": "Nothing is missed (C65_complete); exactness is proved equivalent to no foreign directory starting with one of the identifiers (C65_exact), and fails otherwise (C65_prefix_refuted)."
 },
 "C66": {
  "status": "partial",
  "note": "Proved for batch and interactive execution (C66_stages); with execution 'no' the densities are still computed when the power spectrum stage is absent (C66_no_execution_refuted)."
 },
 "C81": {
  "status": "proved",
  "note": ""
 },
 "C82": {
  "status": "partial",
  "note": "Proved for versions of one-digit numbers; 1.10.0 is not recognised (C82_two_digit_version_refuted)."
 },
 "C67": {
  "status": "partial",
  "note": "Cosmological parameters, known physical parameters, the four probes and their combinations have different TeX names; cosmological parameters and combinations of two or more probes are recovered; unknown cosmological parameters and probes raise. Refuted: a single probe's TeX name is never recovered, GCsp and IST_GCsp share one, unknown physical parameters give an empty text, bins from ten on collide."
 },
 "C70": {
  "status": "partial",
  "note": "Proved for all file states and names, with the exact condition under which other formats are rejected. Refuted: an unknown format is accepted in silence when the file exists and overwrite is not set."
 },
 "C69": {
  "status": "partial",
  "note": "Round trips are proved for densities, bias functions, kernels, power spectra, weight functions, Delta C_l blocks and collections, with the exact condition for equality, and second saves of single objects are refused with every dataset kept. Refuted as stated: a refused second save still changes attributes, collections and weight functions without common datasets are merged, a kernel that knows its weight functions cannot be compared after loading."
 },
 "C84": {
  "status": "partial",
  "note": "an array with a side of 1 is broadcast over all bins instead of being refused (C84_wrong_shape_refuted, C84_one_by_one); everything else holds"
 },
 "C90": {
  "status": "partial",
  "note": "The last sentence is false: C90_reload_refuted; true after setUp is called again (C90_set_up_after_reload) and for a new object (C90_loaded_not_ready)."
 },
 "C87": {
  "status": "proved",
  "note": "Under the properties of scipy listed in DensSpec.ideal; C87_undershoot shows the proviso about the interpolated counts is needed."
 },
 "C92": {
  "status": "partial",
  "note": "Proved for parameter names without the word central and steps of one digit; C92_central_name_refuted and C92_two_digits_refuted show both conditions are needed."
 },
 "C93": {
  "status": "partial",
  "note": "Proved when the files have distinct names, none is params.json and none already lies in the directory of copies; the refuted theorems show the first two conditions are needed, C93_own_file the third (an error)."
 },
 "C94": {
  "status": "partial",
  "note": "Proved for run directories that are not behind a link and relative links (or absolute sources); the refuted theorems give the cases outside, and powerspectrum_dir, which prepare_workspace ignores. C94_prepared covers prepare_workspace in an existing run directory."
 },
 "C95": {
  "status": "partial",
  "note": "Proved for runs that saved their results (values kept as in C69 and C96) and for failed computations. Refuted for interrupted runs: the next run silently goes on with the densities or blocks written so far, or fails for ever; results of another configuration are taken up without notice."
 },
 "C96": {
  "status": "partial",
  "note": "Proved for collections as the program builds them (every spectrum with a kernel, one weight function per probe) saved to a new file. Refuted as stated: spectra without kernels cannot be saved and leave a file that cannot be loaded; of two weight functions of a probe the first wins; a second collection in the file gets the weights of the first; weights that no spectrum uses are dropped; the comparison ignores spectra only the other collection has."
 },
 "C97": {
  "status": "proved",
  "note": "The quadrature is an argument; the adaptive method is any function of bin and redshift."
 },
 "C98": {
  "status": "partial",
  "note": "Proved: everything is back after saving and loading (C98_round_trip), the exact condition for equality, the checks made on loading (C98_checks, C98_invalid), what loading into an object gives (C98_load_into), no second cosmology at one place (C98_once). False: a cosmology saved without spectrum, without parameters or with refused parameters cannot be loaded, one without grid leaves a file nothing can be saved to, loading into a cosmology keeps its old parameters, equality ignores the grids (refuted theorems)."
 },
 "C99": {
  "status": "partial",
  "note": "Proved: which file is read, what is reported, the file of the run's own cosmology is read without a report, also for nuisance variations. False: a file with other values is reported but used (C99_inconsistent_refuted)."
 },
 "C100": {
  "status": "proved",
  "note": "C100_result_set gives the content, C100_positive_definite that the set is created, C100_free_parameters the varying parameters and the KeyError. The writing of the analysis to its directory is not modelled here."
 },
 "C101": {
  "status": "partial",
  "note": "Proved over the real numbers: ranges, ellipses (covered set, shadows, order, growth), masks and what they need. False of the code, and proved so: an ellipse holds less than the probability of its level, at every level, because the one-dimensional factor sqrt(2) erfinv(CL) is used for two parameters (C101_ellipse_below_level); the plot range shows every 99 % range only if all matrices have the same error (C101_plot_range_shows)."
 },
 "C102": {
  "status": "partial",
  "note": "Proved for values without spaces and quotes that do not begin with a dash: submission text, shell words, options read back, the one forecast of a job, order, modes, failures. False of the code, and proved so: --test_batch False is a test run, a working directory with a space gives jobs that cannot start, equal file names in the same second share a directory."
 },
 "C103": {
  "status": "partial",
  "note": "Proved for any disk: nothing outside is touched, contents of the files and tables, success for positive definite matrices and sums into a new directory. False of the code, and proved so: running it again raises FileExistsError (C103_rerun, C103_rerun_raises), and a result set cannot be loaded when a free cosmological parameter of the run is fixed in the cosmology, or for LCDM without w0 and wa (C103_reload gives the exact conditions)."
 },
 "C104": {
  "status": "partial",
  "note": "File names whose probe is followed by letters of the name pattern raise KeyError (C104_name_refuted), and two spellings of one parameter collide (C104_spellings_refuted)."
 },
 "C105": {
  "status": "partial",
  "note": "A displacement written with another number of digits is taken as the fiducial case (C105_digits_refuted); everything else is proved."
 },
 "C106": {
  "status": "partial",
  "note": "Bin numbers written without separator are misread (C106_no_separator_refuted); entries listed both ways in an auto correlation file are exchanged (C106_mirrored)."
 },
 "C107": {
  "status": "partial",
  "note": "Tables with rising redshifts are accepted and read in the opposite order (C107_rising, C107_order_refuted); proved for falling redshifts."
 },
 "C108": {
  "status": "partial",
  "note": "With eleven or more bins a constant bias gives the third bin the parameter of number 10 (C108_eleven_bins_refuted); everything else holds for all inputs."
 },
 "C109": {
  "status": "partial",
  "note": "Both searches are proved in full (which directories, in which order, with which groups; runs of the pipeline are recognised). Refuted parts: with additional patterns the mandatory ones are not required, and links are judged by different names in the two searches."
 },
 "C111": {
  "status": "partial",
  "note": "Frame, replacement, selection by numbers and truth values, table of errors and loading are proved. Refuted parts: options in another order end under wrong names, relative errors become stale, selection by a text fails; after a failure the frame stays indexed."
 },
 "C112": {
  "status": "partial",
  "note": "look-ups, membership, tuples and deletions as stated; the text of a tuple is wrong for pairs stored in the other order, storing under an exchanged pair or a tuple makes a second entry, and copies are empty"
 },
 "C113": {
  "status": "partial",
  "note": "round trip, order, refusal and sums as stated; the milliseconds can be a full second, and the duration in the metadata is wrong for runs of a day or more"
 },
 "C114": {
  "status": "partial",
  "note": "Holds for the status of a job, the counters and status of a stage, the status of a run and the contents of a report that is completed. Refuted: jobs of a batch run are not found, listing order matters with several error files, text order of identifiers, double evaluation, runs without stages, stages not completed, jobs without error file, and the condition of the submitter; a stage without jobs fails."
 },
 "C115": {
  "status": "partial",
  "note": "Proved: both ways of computing derivatives agree, zero for other probes, methods, round trip of the file, reading by the Fisher stage. Refuted: a missing step is noticed only by the number of files, and a second run with other probes makes the Fisher stage fail."
 },
 "C116": {
  "status": "partial",
  "note": "C116_row, C116_table, C116_time, C116_figure, C116_name and C116_empty hold for all texts for logs named in 2020 or 2021 and jobs of less than a day; false of the code otherwise: from 2022 on no table is ever written (C116_later_refuted, C116_later_name), one log without a figure leaves no table (C116_missing_refuted), durations lose whole days (C116_row)"
 },
 "C117": {
  "status": "partial",
  "note": "True of the single spectra and of the blocks of single probes, which are all that the Fisher matrices use (C117_noise, C117_entries, C117_probes, C117_saved). False of the matrices of several probes in the collection: they keep the saved noise (C117_several_refuted). A collection without an entry or with a single block cannot be read back (C117_empty_refuted)."
 },
 "C118": {
  "status": "partial",
  "note": "The tests are exact for entries with a positive sum; entries with a negative sum always pass, runs without results and the results written by the code cannot be compared (refuted)."
 },
 "C119": {
  "status": "partial",
  "note": "Jobs, directories, files found, contents, agreement with the computation in memory and scripts are proved for at most nine displacements. False beyond: with ten or more a step of two digits is computed as another step; with fewer than seven the computation in memory fails where the jobs work."
 },
 "C120": {
  "status": "partial",
  "note": "Flags on the command line, precedence of the ini file, errors, checks, paths, names and the removal of variations are proved for all inputs. False of the code, and refuted: other texts start a stage, values of the ini file are not converted, leading zeros of identifiers are lost, numeric paths are refused, directories are removed although nothing was executed."
 },
 "C121": {
  "status": "partial",
  "note": "New runs, the stored inputs used by runs on existing directories, the grid of spectra computed alone and repeated runs are proved for all inputs. False of the code, and refuted: the input data of densities, the grid when power spectra are recomputed with another configuration, the metadata."
 },
 "C122": {
  "status": "partial",
  "note": "false with bins 1 and 10 together, whose biases have one symbol, and with the intrinsic alignment parameters, whose texts are no symbols; proved for all matrices with distinct symbols, among them all subsets of the cosmological parameters and the first ten biases"
 },
 "C123": {
  "status": "partial",
  "note": "Rows, displacements, probes, multipoles, files and settings are proved for all windows; refuted: alignment parameters belong to the probe WL, void pages cannot be loaded, the box for external multipoles is ignored, inner .json extensions count."
 },
 "C124": {
  "status": "partial",
  "note": "Selections, differences, figures of merit, four-bin rows and LaTeX rows are proved for all tables; refuted: unknown options, empty queries, constant result columns, single index level, signs of decreases, rows without bins."
 },
 "C125": {
  "status": "partial",
  "note": "Choice of the reader and contents are proved for all versions and files; refuted: growth factor, files written in the old layout, the option for the power spectrum, the grid of old spectra, other letters."
 },
 "C126": {
  "status": "partial",
  "note": "The conversion of spectra always fails, which is proved (C126_never_refuted, C126_begun_refuted); two files of one variation are not noticed (C126_twice_refuted). The grouping of the files and the reading of derivatives are proved in full."
 },
 "C127": {
  "status": "partial",
  "note": "When it passes and the two assertions are proved for all collections; the removal of other parameters is refuted: it ends with a RuntimeError after the first (C127_removal_refuted)."
 },
 "C128": {
  "status": "proved",
  "note": "Over the real numbers; rounding is not modelled."
 },
 "C129": {
  "status": "partial",
  "note": "Making and reading are proved for all contents and orders, and that all five files given are read again from a new directory (C129_again); refuted for optional files left out, other suffixes, directories used before and paths given as texts."
 }
}