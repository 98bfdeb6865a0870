# Formal model of SEYFERT (Rocq/Coq 8.16.1)

The model is in `rocq/theories`.  `*Model.v` files transcribe the Python source
and contain no proofs.  `*Props*.v` files contain the property theorems, named
`Cnn_...` after the line of `properties.jsonl` they belong to, an `Example
Cnn_instance...` for each property that shows a non-trivial case meeting the
hypotheses, and a `Print Assumptions` for each theorem.  All other files hold
lemmas, or definitions of the mathematics the properties are stated in
(`*Spec.v`, `LabLin.v`, `MatInv.v`, `Wick.v`).

## Trusted base

* Coq's kernel, and `coqchk`, which accepts every compiled file.
* The axioms `Print Assumptions` lists.  They are the standard library's only:
  most theorems use none; those about the real numbers use `sig_forall_dec`,
  `sig_not_dec`, `functional_extensionality_dep` and (through the library's
  analysis) `classic`.  The list per theorem is at the end of this file.  The
  development declares no axiom, parameter, or section-less variable, and
  switches off no check.
* The reading of the Python source: each definition in a `*Model.v` file cites
  the file and lines in /repo that it transcribes, and says what it leaves out.
  Nothing checks that the transcription is right except reading.
* The behaviour of numpy, pandas, h5py, re, json and pathlib as written down in
  the model's comments (`FrameModel`, `FsModel`, `H5Model`, `IniModel`,
  `TableModel` hold most of it), for the versions requirements.txt pins.

## Conventions

* Python exceptions are values (`Err e`), never defaults.  A method that mutates
  its object returns the new object also when it raises.
* IEEE doubles are replaced by exact elements of a field (`Fld`), of an ordered
  field (`OFld`), of an ordered field with square roots (`SqrtFld`) or, where the
  program calls round, logarithms or powers, by the real numbers.  Rounding
  errors, overflow and infinities are outside the model; NaN is modelled where
  pandas or a comparison introduces it (`None` entries).  Theorems hold over
  every instance of the class; witnesses are rational numbers.
* pandas frames are labelled matrices: lists of labels and an entry function.
* Python sets are duplicate-free lists; their iteration order is an arbitrary
  function (class `SetOrder`), so theorems hold for all orders.
* Python dictionaries are insertion-ordered association lists.
* The file system is a finite map from paths to contents (`FsModel`).  Programs
  that touch it are sequences of atomic operations; a crash stops one after any
  number of them (`PipeModel`).  An operation that can be torn is split.
* Objects shared by reference live on a heap (`HeapModel`), and the value-level
  methods are related to it by a simulation proof (`HeapLemmas`).
* Where the code violates a property as stated, a theorem named `..._refuted`
  gives the witness, a positive theorem states the exact condition under which
  the property does hold, and the status is "partial".  A name ending in
  `_partial` marks a theorem that covers only part of its property.

## What is modelled

| model | code |
|---|---|
| `LinalgModel` | `fisher/linalg_tools.py`, all but `transition_matrix` (numpy pinv) |
| `FrameModel` | the pandas and set operations used, `fisher_utils.py:81-82` |
| `FisherModel` | `fisher/fisher_matrix.py`, all but TeX names; `from_ISTfile` is in `IstModel` |
| `HeapModel` | the same methods on shared objects |
| `FisherFileModel` | `fisher_matrix.py:313-393`, `general_utils.py:215-218` |
| `ResultsModel` | `fisher/fisher_analysis.py:34-266`, `fisher/final_results_core.py:20-138` without file saving |
| `KeyModel` | `utils/shortcuts.py:28-266`, `fisher/datavector.py` |
| `EvalModel` | `fisher/fisher_evaluator.py`, `array_utils.py:5-25`, `fisher_utils.py:109-118` |
| `ParamModel`, `ParamFileModel` | `cosmology/parameter.py` |
| `StemModel` | SteM in `derivatives/differentiator.py`, `main/cl_core.py`, `main/cl_derivative_core.py` |
| `NameModel` | `filesystem_utils.py:92-146`, `general_utils.py:115-136`, `workspace.py:180-188`, `differentiator.py:146-160` |
| `NumModel` | `numeric/integration.py`, `numeric/general.py`, `redshift_density.py:256-268` |
| `BiasModel` | `cosmology/bias.py:190-236` |
| `EllGridModel` | `array_utils.py:28-55` |
| `ConfigModel` | `config/forecast_config.py`, `config/probe_config.py`, `shortcuts.py:269-329`, `json_io.py:100-114` |
| `CosmoModel` | `cosmology/cosmology.py` background, `power_spectrum.py:63-67`, `boltzmann_solver.py` inputs |
| `IniModel` | `boltzmann_solver.py:78-82, 170-191` |
| `ClModel` | `c_ells.py` evaluation, `kernel_functions.py`, `weight_functions.py` evaluation, `differentiator.py:163-213` |
| `DeltaModel` | `fisher/delta_cl.py` without its HDF5 classes, `fisher_utils.py:21-69`, shot noise in `redshift_density.py` and `weight_functions.py`, `main/cl_core.py:102-118` |
| `DensModel` | `cosmology/redshift_density.py:23-204, 256-290` without the HDF5 class (in `H5Model`), `main/cl_core.py:42-52` |
| `WsModel` | `utils/workspace.py:102-124, 163-191` |
| `LinkModel`, `PrepModel` | `utils/workspace.py:60-66, 126-161, 201-253`, `main/seyfert_core.py:24-63` |
| `SpectraModel` | `cosmology/c_ells.py:62-84, 285-291, 328-343, 426-545`, `file_io/hdf5_io.py` findGroup |
| `StageModel` | `main/seyfert_core.py:66-94, 172-177` |
| `WeightModel` | `cosmology/weight_functions.py:150-218` |
| `CosmoFileModel` | `cosmology/cosmology.py:58-74, 186-199, 356-446`, `main/cl_core.py:21-39` |
| `EllipseModel` | `fisher/fisher_analysis.py:247-248, 268-306`, `fisher/fisher_plot.py:477-487` |
| `RunModel` | `bin/run_seyfert`, `config/cmd_line.py:133-236`, `main/seyfert_core.py:186-250`, `main/bsub_utils.py:41-62, 79-123`; of argparse the options `--name value` written out, of the shell spaces and double quotes |
| `OutModel` | `fisher/final_results_core.py:27-103` with files, `fisher/fisher_analysis.py:70-97, 160-175, 228-231, 309-330`, `utils/workspace.py:193-200`; not the metadata and the names of analyses |
| `IstModel` | `file_io/ext_input.py:16-64, 74-117, 208-300`, `fisher/fisher_matrix.py:101-117`, `filesystem_utils.py:157-162`, `seyfert_core.py:151-153`; text files as lists of lines and numbers, the saved spectra as values |
| `CollModel` | `cosmology/c_ells.py:227-262, 370-409`, `cosmology/weight_functions.py:185-265, 350-360`, `cosmology/bias.py:64-98, 124-149, 239-335`, `main/cl_core.py:55-79`; the densities on the grid, splines, scipy's quadratures, the logistic curve, the void size function and the luminosities are arguments |
| `SelectModel` | `utils/dir_explorer.py:13-98`; regular expressions given by the caller are functions from a name to the groups found; run metadata are C65 |
| `GatherModel` | `fisher/results_collector.py:38-149`; pandas frames are lists of rows, csv and pickle files are the tables and frames in them; a text in a selection is a name or no name of a column (no other expressions) |
| `FlexModel` | `base_structs/cl_dict.py`, `base_structs/generic_dict.py:8-45`, `utils/general_utils.py:112-122`; not `__eq__`, `__repr__` and the sharing of the dictionary given to the constructor |
| `TimeModel` | `utils/formatters.py:5-8,18-42`, `main/task_runners.py:605-612`; seconds are exact rationals, `strptime` is modelled field by field for the formats in use; not `str_to_float` |
| `ReportModel` | `main/report_maker.py:16-295`, `main/bsub_utils.py:96-110` (log names), `bin/job_submitter:100-105`; what is read from a batch log is a parameter, texts of reports are sequences of pieces, sizes in bytes |
| `DerModel` | `derivatives/cl_derivative.py:17-134`, `bin/compute_derivatives:29-57` (in a run), `main/fisher_core.py:23-25`; what a file of spectra gives for two probes, loading the cosmology and the analytic derivative are arguments; not `collect_cl_derivatives` |
| `UsageModel` | `main/bsub_utils.py:185-226`, `main/task_runners.py:348-353`; texts are ASCII, figures are rationals, months have their English names |
| `InputModel` | `main/fisher_core.py:17-35`; the file of the noisy spectra is read back as in `H5Model`, its loaded blocks have no forecast_config, which is not used |
| `CompareModel` | `utils/run_loader.py:77-84, 148-167, 207-210, 333-349, 380-403`, `fisher/fisher_results.py:155-172`; the metrics of cosmologies, spectra and derivatives, which are computed but not tested, and the reading of the other files of a run are left out |
| `JobModel` | `main/task_runners.py:86-117, 186-270`, `bin/compute_pmm:26-50`, `bin/compute_cls:36-65`; logging, the copied configuration files, the submission and the computations themselves (parameters of the model) are left out |
| `SubmitModel` | `bin/job_submitter:67-131`, `utils/general_utils.py:47-58`, `config/cmd_line.py:18-68`, `main/task_runners.py:449-463, 492-498`; the parser of the command line (its result is given), ConfigParser (an ini file is its sections), logging and the stages are left out |
| `RerunModel` | `main/task_runners.py:90-97, 399-472, 492-616`, `bin/compute_pmm:26-50`, `bin/compute_cls:36-65`, `main/cl_core.py:42-52, 108-119`, `utils/workspace.py:78-87, 129-161`; the inputs each result was computed from, not the results; paths stand for the contents they lead to; the derivative and Fisher stages are left out |
| `ProdBiasModel` | `utils/ist_comparison.py:91-142`; exact arithmetic, symbols are TeX texts, fiducial values substituted before the inversion |
| `GuiModel` | `gui/interface_window.py:44-210` the saving of configurations, widgets as values; `gui/gui_core.py:839-953` the pages and their widgets; `config/forecast_config.py:113-142`, `config/probe_config.py:71-120` the loading; drawing, file dialogs and the reading of files into the window are not modelled |
| `ResTabModel` | `notebook_helpers/table_helpers.py:26-43`, `80-102`, `141-155`, `167-286`: frames as lists of rows, unique indexes, no missing values in the input; sorting, printing of numbers and the TeX translation are not modelled |
| `RetroModel` | `file_io/retro_comp.py`, `utils/run_loader.py:126-130` the grid; versions of three digits and a letter, file trees of groups and datasets; the present format is a parameter |
| `ScamModel` | `file_io/ext_input.py:39-43, 118-206`; directories as lists of files with their lines and numbers; the time in the name of the output directory is left out |
| `IstCheckModel` | `file_io/ext_input.py:65-72`, `generic_dict.py:27-28, 36-37` |
| `UnitModel` | `utils/converters.py`; real numbers without rounding |
| `CfgTreeModel` | `main/orchestration.py:19-63`; directories as lists of files in the order of the file system |
| `PipeModel` | `main/fisher_core.py:37-98`, `main/seyfert_core.py:97-155`, `task_runners.py:302-350` |
| `BatchModel` | `main/bsub_utils.py:39-183`, `task_runners.py:128-172, 531-577`, `main/orchestration.py:66-276`, `general_utils.py:187-198` |
| `TexModel` | `utils/tex_utils.py:6-105` |
| `TableModel` | `utils/table_utils.py` |
| `H5Model` | `file_io/hdf5_io.py`; saving and loading of densities, bias functions, kernels, power spectra, weight functions, Delta C_l; `general_utils.py:138-160` |

## What is not modelled

* Splines, scipy's quadratures and root finders, the Boltzmann codes (CAMB,
  CLASS): they are arguments of the model where it needs them.  C87 to C90 assume
  of scipy only what the record `ideal` of `DensSpec` lists (the quadrature
  depends on the values between the limits, is homogeneous, positive and additive
  over adjacent intervals; the interpolation passes through its nodes, is
  homogeneous and zero outside; the exponential is positive); `model_ideal` in
  `DensProps4` gives an instance.  C87_undershoot also assumes that four points
  are interpolated by their cubic (`cubic`; instance `exN_cubic`).  C101 assumes
  of the error function what `is_erf` of `ErfLib` lists (`erf_exists` gives one),
  and reads the probabilities of the normal distribution off it.
* Plotting (`plot/`), notebooks, documentation, logging, timing, progress bars.
* The command-line parsers of programs other than run_seyfert; abbreviated options.
* Operating-system behaviour below the file operations listed (permissions,
  several processes writing one file; symbolic links only in `LinkModel`).
* In files listed above, the functions the model's header comment excludes; in
  particular the Flagship and void bias models, the void catalogue inputs, `ext_input.py:65-72, 118-206`, `retro_comp.py`.

## Findings

Behaviour of the code that a reader of the API would not expect, each a theorem
(the names are in the sections below) unless marked "(reading)".

* Fisher matrix object: errors and correlations are computed from an inverse
  that fixParameters and addPrior leave stale (C20); marginalising with
  ret_copy=True inverts the original in place (C21); after a marginalisation
  whose set order is not alphabetical the correlation matrix is wrong (C22); a
  prior on an unknown parameter adds a NaN row, a relative prior on a zero
  fiducial divides by zero (C24); columns in another order than the rows pass
  checkAttributes and are lost on disk (C25); file names of different matrices
  collide (C26); a file cut before the nuisance dataset loads without complaint
  (C71); a failing second inversion leaves a half-updated object (C16).
* Analyses: a list of matrices is dropped and an order naming one twice accepted
  (C29); base matrices are shared, so changing an analysis changes them (C73).
* Evaluation: spectra on unsorted multipoles are masked against the wrong rows
  (C05); a single common multipole raises.
* Noisy spectra: a 1x1 array in a shot-noise file is spread over all pairs of bins
  (C84); matrices of several probes are copies that a later evaluation of the
  single blocks leaves as they were (C85).
* Run directory: prepare_workspace ignores powerspectrum_dir, and the forecast then
  finds no power spectrum (C94); a failed link of delta_cls.h5 is never repaired by
  repeating the call, a relative source with src_relative_to_rundir=False and a run
  directory behind a link give dangling links (C94); two configuration files of one
  name, or one named params.json, overwrite each other (C93); a parameter with
  "central" in its name is not found, steps 1 and 10 share a key (C92).
* Files of spectra: a collection with a spectrum that has no kernel - which is
  what `ext_input.py:127-144` builds - cannot be saved (AttributeError), and the
  file left behind cannot be loaded (C96).  Weight functions are kept once per
  probe and file, found by name anywhere in the file, so a second collection in
  a file gets those of the first.
* Restarts: a run interrupted while it saves densities or Delta C_l is continued
  with what was written so far, silently; a changed configuration is ignored
  when the files of an earlier run are there (C95).
* Lensing: a redshift grid that starts at comoving distance zero divides zero by
  zero in the efficiency at its first node (outside the model, C97).
* Cosmologies in files (C98): saved without a power spectrum, a cosmology cannot be
  loaded with the default arguments (KeyError); without parameters it cannot be
  loaded at all; without a redshift grid saving raises TypeError and leaves a file
  in which saving again raises ValueError.  Refused parameters are saved but not
  loaded.  `loadFromHDF5` on a cosmology replaces the arrays and keeps parameters,
  flatness and model name.  Equality ignores the grids and raises AttributeError if
  only one of the two has a power spectrum.
* Cosmology of a variation (C99): a power spectrum file with other parameters than
  the run's is reported in the log and used.
* Book-keeping of HDF5 files: a file that is only ever written below its root
  (the collections of densities, weights and blocks are) carries no creation
  date, author or version, and a later save at the root adds a date of the last
  update only (`C69_member_says_nothing`, `C69_update_says_when`).
* Confidence regions: the ellipse of two parameters is drawn with the factor of
  one, so at every level it holds less than its probability (39 % where 68 % is
  asked for); the range of a plot is the mean of the ranges of the matrices, so it
  cuts the wider ones (C101).
* run_seyfert (C102): `--test_batch False` turns the test mode on, because the word
  is not converted (`C102_test_batch_refuted`); the words of the command of a batch
  job are not quoted, so a directory with a space gives jobs that cannot start
  (`C102_space_refuted`); two configurations with the same file name started in the
  same second get the same directory (`C102_shared_refuted`).
* Final results: running create_final_results a second time without
  overwrite raises FileExistsError on the first matrix
  (C103_rerun_raises), and do_forecast never asks to overwrite
  (seyfert_core.py:181), so restarting a forecast that was completed, or
  interrupted in its last stage, ends in an error after all stages were
  skipped.  Tables of errors that exist are kept without a word instead
  (C103_tables), so they can belong to other matrices.
* Final results: fromRundir raises FisherMatrixError when a free cosmological
  parameter of the run is not one of the cosmology (OmDE, gamma), and KeyError
  for LCDM when w0 or wa is not a parameter of the run (C103_reload).
* IST Fisher matrices: a file name that goes on with letters of the pattern's
  class, such as `EuclidISTF_GCsp_LCDM_...` or `EuclidISTF_GCsp_pessimistic`,
  raises KeyError (C104_name_refuted). Columns Omegam and Omm become one name
  (C104_spellings_refuted). All parameters, bias included, count as cosmological
  unless the caller says otherwise (C104_run).
* IST variations: a displacement written with another number of digits,
  `1p25E-2`, is silently taken as the fiducial case (C105_digits_refuted).
* IST angular spectra: bin numbers written together are misread, `C1010` as
  (101, 0), and plain `11 12` as the pair (11, 12)
  (C106_no_separator_refuted). If an auto correlation file lists both (i, j) and
  (j, i), the two columns are exchanged (C106_mirrored). A file with a single
  multipole raises IndexError (C106_refused).
* IST power spectra: a table with rising redshifts is accepted and its values
  are attached to the redshifts in the opposite order (C107_rising).
* Constant bias: the values are taken in the alphabetical order in which h5py
  lists the parameters, so from eleven bins on the third bin has parameter 10
  (C108_eleven_bins_refuted); with at most ten, numbered from 0, the order is
  right (C108_ten_bins). Piecewise bias sorts by number (C108_piecewise).
* Bin edges in a bias file silently replace those of the density, whatever they
  are (C108_edges).
* Collecting runs: the patterns of run names are called mandatory but a directory
  with any other name is taken as soon as an additional pattern matches
  (C109_mandatory_refuted). A link is judged by the name of its target in the
  flat search and by its own name in the recursive one (C109_link_refuted). A
  root that is missing gives FileNotFoundError, or nothing in the recursive
  search (C109_missing).
* Frame of analyses: the names of the columns come from the first run and the
  values of each run are put in by position, so options in another order end
  under wrong names (C111_frame_order_refuted).
* Replacing the matrices with Pk: the relative errors are left as they were and
  no longer fit the errors (C111_stale_refuted); the matrix is shared by the two
  analyses (C111_replaced); an error in between leaves the options in the index,
  and every later call fails with KeyError (C111_failed_again); two rows with the
  same options make it fail even if they are not concerned (C111_duplicates).
* Choosing analyses by a text, such as the scenario, always fails: the text is
  put into the query without quotes (C111_select_text_refuted).
* Dictionaries of spectra: `tuple_key_to_str_key` asks `key in self`, which is true
  also when only the exchanged pair is stored; the text it gives is then stored
  nowhere, and deleting it fails (C112_text_refuted). Storing under the exchanged
  pair or under a tuple makes a second entry, and the spellings then disagree
  (C112_set_exchanged_refuted, C112_set_tuple_refuted). A dictionary made from
  another such dictionary is empty (C112_copy_refuted). Asking whether a text
  without exactly one underscore is there raises ValueError (C112_bad).
* Durations: `(end - start).seconds` leaves the days out, so the metadata of a run of
  a day or more have a wrong duration (C113_duration_refuted); the same attribute is
  used for the duration of batch jobs. The milliseconds of `time_format` can be
  1000.0 (C113_time_full_second_refuted).
* Batch reports: the logs of batch jobs are `out_job_<time>.out` and
  `err_job_<time>.err`, the report looks for `job*.out` and `job*.err`: every batch job
  is reported as not executed (C114_batch_refuted). With several error files the
  listing order decides (C114_resubmitted_refuted); identifiers are sorted as texts, 10
  before 9 (C114_order_refuted); a stage without jobs is a ZeroDivisionError
  (C114_no_jobs); evaluating a stage twice turns success into not completed
  (C114_again_refuted); a run without stages is a success, one with a stage that is not
  completed is undefined (C114_nothing_refuted, C114_not_completed_refuted); a job with
  an output log but no error file ends the report with AttributeError
  (C114_report_refuted); the submitter's condition `tasks["Fisher"] and not
  any(tasks.values())` is never true (C114_never_refuted).
* Derivative stage: the number of files, not their steps, is compared with the number of
  values: a step with two files and one without any give a wrong derivative
  (C115_misaligned_refuted). The name of the output has the probes: after a second run with
  other probes there are two files and the Fisher stage fails (C115_other_probes_refuted).
* Resources: the name of a log is read with an expression that knows only the years 2020
  and 2021: since 2022 the table is never written and only a warning is given
  (C116_later_refuted). One log without one of the figures, and no job has a row
  (C116_missing_refuted). The duration of a job of a day or more is too short (C116_row).
* Inputs of the Fisher stage: with another shot-noise file the matrices of several probes
  (names with +XC) in the collection keep the noise they were saved with
  (C117_several_refuted). The Fisher matrices use only the single spectra, which are right.
* Comparison of runs: two entries whose sum is negative pass however different they are,
  since the difference is divided by their signed mean (C118_negative_refuted). Without a
  directory results, which the current version does not write (it writes final_results),
  the comparison ends in AttributeError before anything is tested
  (C118_no_results_refuted). The files of errors that the code writes are not found by the
  code that reads results (C118_own_results_refuted). A run directory whose name has no
  version cannot be loaded, and one whose identifier looks like a version gets that version
  (C118_no_version_refuted, C118_version).
* Jobs: with ten or more displacements the job of a step of two digits computes, and stores
  under its own name, the variation of another step (C119_many_refuted). With fewer than
  seven displacements the batch run works and the computation in memory ends in KeyError,
  since it always uses seven (C119_few_refuted).
* Job submitter: any other text (no, off, FALSE) starts the stage (C120_word_refuted). Values
  of the ini file are not converted, so `angular = False` starts the stage
  (C120_ini_false_refuted) and a number of cores there always ends in an error
  (C120_ini_cores_refuted). Zeros in front of a numeric identifier are lost, so two runs can
  share a name (C120_zeros_refuted), and a path of digits on the command line is refused
  (C120_number_as_path_refuted). With execution "no" the variations of an earlier run are
  removed (C120_cleanup_not_executed_refuted); with ten or more steps some of them stay
  (C120_cleanup_steps_refuted).
* Runs on existing directories: the densities and the list of jobs come from the input data
  of the command line (or their default), spectra and noise from the stored ones
  (C121_data_refuted). A power spectrum configuration given for an existing directory is used
  by the jobs but not for the densities, so the two grids can differ (C121_grid_refuted). The
  metadata lose the name of the run and never record external directories
  (C121_metadata_refuted).
* Biases multiplied by sigma8: the symbols are the TeX texts, which keep one digit of the bin,
  so with bins 1 and 10 two biases are one symbol and the Jacobian is singular
  (C122_same_symbol_refuted, C122_eleven_bins_refuted); texts with spaces, as those of the
  intrinsic alignment parameters, are no symbols (C122_alignment_refuted).
* The window: the intrinsic alignment parameters are saved with the probe WL, but everywhere
  else the name is Lensing, so no lensing weight with intrinsic alignments can be computed and
  their derivatives are zero (C123_no_lensing_parameters_refuted, C123_alignment_refuted,
  C123_zero_derivative_refuted); the page of voids has no derivative method of the bias, so a
  configuration with voids cannot be loaded (C123_void_refuted); the box that chooses a file of
  multipoles is not read (C123_box_refuted); x.json.bak is not extended
  (C123_file_inner_refuted).
* Tables of results: unknown options of a query are dropped without notice
  (C124_unknown_option_refuted), an empty query is an error (C124_empty_query_refuted), a result
  column that is constant in a selection of two or more rows is lost
  (C124_constant_result_refuted), the table of figures of merit needs a second index level
  (C124_fom_flat_refuted); a LaTeX row prints a decrease with two minus signs
  (C124_decrease_refuted) and without a column of bins leaves out the first error
  (C124_no_bins_refuted).
* Earlier versions: the growth factor of an old file is read and thrown away
  (C125_growth_refuted); the old layout that is written lacks the Hubble parameter and the
  distances and cannot be read (C125_rewritten_refuted); the power spectrum is never loaded from
  files of 1.1.0 and always from older ones (C125_power_spectrum_refuted); spectra of old runs
  have no redshift grid (C125_grid_refuted); letters other than a, b, c and r in a version, which
  the pattern for directories takes, are refused (C125_letters_refuted).
* Conversion of spectra of the comparison: it can never end normally. The spectra have no kernel
  and cannot be saved (C126_never_refuted); if the files can be read, it ends with an
  AttributeError after making the first file (C126_begun_refuted). Of two files of one variation in
  a directory only the last is used, without an error (C126_twice_refuted).
* Inputs of existing runs: a collection without an entry or with a single block cannot be read
  back (C117_empty_refuted).
* Check of the parameters of the comparison: parameters to be removed are deleted from the
  dictionary that is iterated over, so the first one is removed and the check ends with a
  RuntimeError (C127_removal_refuted).
* Directory of configurations: without a configuration of power spectra, derivatives or results,
  which are optional on the command line, the directory made cannot be read, an IndexError
  (C129_optional_refuted); a configuration of spectra not named .json is copied and never read
  (C129_suffix_refuted); in a directory used before, an earlier file may be read instead of the
  one given (C129_stale_refuted); the directory may not be a text (C129_text_refuted).
* Densities: the interpolated counts, and with them the densities, can be negative
  although all counts are positive (C87); a bin without galaxies gives NaN (C87);
  loading another file into an object that is set up keeps the old interpolation,
  and evaluate returns the old densities without complaint (C90).
* Data vectors: the empty vector's name does not parse back (C33); equality zips
  and so accepts prefixes, keys accept trailing text (C34).
* Parameters: a refused flat update leaves the parameter displaced (C36), as
  does any exception while spectra are computed (C37); a zero displacement or a
  description is not written (C38); ten or more steps are read back wrongly
  (C39, C43); the vectorised SteM uses a signed denominator, skips zeros and
  stops one window early (C41).
* Numerics: composite integration along another axis than the last pairs weights
  wrongly (C45); percentage differences of tables are signed (C48); a fractional
  multipole range overshoots (C51); bin widths come from the first probe named
  (C52).
* Configuration: sky fractions are only tested for being non-zero (C53); the
  identifier depends on the order of the options and collides (C77).
* Cosmology: the curvature is rounded to 10 digits, to 6 for CLASS (C54, C55); a
  value containing '=' is misread from an INI file (C57); an amplitude target of
  10 is never tuned (C58); arrays stay stale after a parameter change (C79);
  bias bins are read from the last digit of a name, so bin 10 is bin 0 (C68).
* Pipeline: a torn Fisher file is skipped for ever and re-running a complete
  stage raises FileExistsError (C60); an interrupted derivative stage can never be
  resumed (C61); jobs missing from the listing count as done and time-outs return
  normally (C62); success of a command is judged by standard error alone (C63);
  an external directory overrides every run's own (C64); run identifiers match
  by prefix (C65); execution 'no' still computes densities (C66); two-digit
  versions are not recognised (C82); a refused submission surfaces as
  AttributeError with earlier jobs submitted (C81).
* Names and files: the TeX name of a single probe is never recovered and unknown
  physical parameters silently become empty (C67); an unknown table format is
  accepted when the file exists (C70); refused HDF5 saves change attributes,
  collections and weight functions merge, loaded kernels cannot be compared, an
  empty collection cannot be loaded (C69).
* WeightFunction.loadFromHDF5 passes its root where the file mode is expected, so
  it raises ValueError (reading).

## Testing the theorems

`seeded/LOG.jsonl` records, one line per attempt, wrong programs tried against
the theorems: a definition of the model was edited in a copy, the development
rebuilt, and the theorems that no longer went through noted; theorems were
tightened where none failed.

<!-- generated by tools/design.py from here on -->

## Property by property

### C01 Half-vectorisation round trip (proved)

vecp followed by unvecp returns the original matrix for every symmetric matrix; unvecp followed by vecp returns the original vector whenever its length is a triangular number; unvecp always returns a symmetric matrix; vecp rejects every non-square matrix.

Code: seyfert/fisher/linalg_tools.py:vecp, seyfert/fisher/linalg_tools.py:unvecp, seyfert/fisher/linalg_tools.py:triu_idxs_by_col.

`theories/LinalgProps.v`: `C01_unvecp_vecp`, `C01_vecp_unvecp`, `C01_unvecp_defined`, `C01_unvecp_symmetric`, `C01_vecp_rejects_non_square`.

Instances: `C01_C02_C03_hypotheses_hold`, `C01_rejects_example`.

Over every field with 1+1<>0; floating-point rounding is not modelled.

### C02 Row numbering agrees with vectorisation order (proved)

The row number that get_enumeration_map assigns to a pair (i,j) is exactly the position of entry (i,j) in vecp (symmetric enumeration) or vec (full enumeration); the numbering is a bijection onto 0..N-1 with N = n(n+1)/2 or nA*nB; symmetric enumeration of a non-square shape is rejected.

Code: seyfert/fisher/linalg_tools.py:get_enumeration_map, seyfert/fisher/linalg_tools.py:vec, seyfert/fisher/linalg_tools.py:vecp.

`theories/LinalgProps.v`: `C02_symmetric_enumeration`, `C02_full_enumeration`, `C02_enumeration_defined`.

### C03 Duplication, elimination and commutation matrices (proved)

For every n and symmetric A: duplication_matrix(n) @ vecp(A) = vec(A); for every square A elimination_matrix(n) @ vec(A) = vecp(A); for every p x q matrix A commutation_matrix(p,q) @ vec(A) = vec(A^T).

Code: seyfert/fisher/linalg_tools.py:duplication_matrix, seyfert/fisher/linalg_tools.py:elimination_matrix, seyfert/fisher/linalg_tools.py:commutation_matrix.

`theories/LinalgProps.v`: `C03_duplication`, `C03_elimination`, `C03_commutation`, `C03_unvec_vec`.

transition_matrix (numpy pinv) is not modelled.

### C04 Common multipoles are the exact intersection (proved)

Given any list of at least two multipole arrays the computed common array contains exactly the values present in all of them, sorted and without repetition, and does not depend on the order of the arrays; an empty list is rejected; a single array is returned as given. Likewise the union of at least two arrays contains exactly the values of any of them, sorted and without repetition, in whatever order they are given; fewer than two are rejected.

Code: seyfert/utils/array_utils.py:compute_arrays_intersection1d, seyfert/utils/array_utils.py:compute_arrays_union1d.

`theories/EvalProps.v`: `C04_exact_intersection`, `C04_any_order`, `C04_empty_rejected`, `C04_single_as_given`.

`theories/UnionProps.v`: `C04_exact_union`, `C04_union_any_order`, `C04_union_needs_two`.

Instances: `C04_union_instance`.

### C05 Masked blocks stay aligned with the common multipoles (proved)

After restricting spectra to common multipoles, row r of every block is the row the original block had at the r-th common multipole, so all blocks have the same length; this needs each multipole array to be strictly increasing and fails otherwise.

Code: seyfert/fisher/fisher_evaluator.py:mask_cl_blocks_to_common_ells.

`theories/EvalProps.v`: `C05_aligned`, `C05_succeeds`, `C05_unsorted_misaligned_refuted`.

The 'fails otherwise' part is C05_unsorted_misaligned_refuted.

### C06 Covariance entries follow the Gaussian formula (proved)

For every data vector and every multipole common to the four spectra involved, the covariance entry between (A_i,B_j) and (C_k,D_m) is (dC_AC[i,k] dC_BD[j,m] + dC_AD[i,m] dC_BC[j,k])/(2l+1), whichever orientation of each probe pair is stored.

Code: seyfert/fisher/fisher_evaluator.py:ClCovarianceMatrix.computeCovBlock, seyfert/utils/shortcuts.py:ClSmartKeyDict.

`theories/EvalProps.v`: `C06_block`, `C06_assembled`.

Instances: `C06_C11_ex`.

Per block and for the assembled covariance, over every field.

### C07 Covariance matrix is symmetric (proved)

When auto spectra are symmetric, the assembled covariance matrix is symmetric at each multipole, and assembling never reads a block that has not been computed.

Code: seyfert/fisher/fisher_evaluator.py:ClCovarianceMatrix.evaluateAllBlocks, seyfert/fisher/fisher_evaluator.py:ClCovarianceMatrix.buildMatrix.

`theories/EvalProps.v`: `C07_symmetric`.

Symmetry hypotheses only on stored auto spectra; each unordered probe pair stored in one orientation.

### C08 Fisher elements (proved)

The Fisher matrix computed for a data vector is symmetric, has one row and column per free parameter, and entry (a,b) is the sum over the common multipoles of d_a^T Cov^-1 d_b; with a symmetric inverse covariance it does not depend on the order in which parameters are listed.

Code: seyfert/fisher/fisher_evaluator.py:FisherEvaluator.computeFisherOfMultipole, seyfert/fisher/fisher_evaluator.py:FisherEvaluator.sumFisherOverMultipoles.

`theories/EvalProps.v`: `C08_terms`, `C08_symmetric_terms`, `C08_order_of_parameters`, `C08_succeeds`.

Instances: `C08_ex`.

Symmetry, labels, values, parameter-order independence and success conditions; the combined vector's total is C10.

### C09 Fisher matrix is positive semi-definite (proved)

If the inverse covariance is positive semi-definite at each multipole then so is the Fisher matrix returned for the data vector, also after single-probe contributions are added.

Code: seyfert/fisher/fisher_evaluator.py:FisherEvaluator.computeFisherMatrix.

`theories/EvalProps.v`: `C09_positive_semidefinite`, `C09_positive_covariance`.

Instances: `C09_ex`.

Stronger: from positive semi-definite covariance; also derived from positive semi-definite spectra.

### C10 Single-probe multipoles are counted exactly once (proved)

For a combined data vector, the result is the joint sum over common multipoles plus, for each auto-correlated probe in the vector, that probe's own terms at exactly those multipoles that are not common; parameters absent from a probe contribute nothing.

Code: seyfert/fisher/fisher_evaluator.py:FisherEvaluator.addInvolvedProbesContribution.

`theories/EvalProps.v`: `C10_counted_once`.

Instances: `C10_ex`.

### C11 Free parameters of a data vector (proved)

The parameters of a Fisher matrix are exactly the free cosmological ones plus the free nuisance ones of a probe occurring in the data vector, each once.

Code: seyfert/fisher/fisher_evaluator.py:FisherEvaluator.selectFreeParameters, seyfert/cosmology/parameter.py:PhysicalParametersCollection.

`theories/EvalProps.v`: `C11_free_parameters`.

Instances: `C11_ex`.

### C12 Sum of Fisher matrices (proved)

F1 + F2 is defined over the union of the parameters; its entry (a,b) is the sum of the entries of the operands with 0 for a missing parameter; its cosmological and nuisance sets are the unions; operands are left unchanged.

Code: seyfert/fisher/fisher_matrix.py:FisherMatrix.__add__, seyfert/fisher/fisher_matrix.py:FisherMatrix.zeroPadMatrices.

`theories/FisherProps.v`: `C12_sum`.

`theories/ResultsProps.v`: `C12_operands_unchanged`.

Instances: `C12_C13_C14_ex`, `C12_C27_C29_C72_ex`.

### C13 Fisher sums commute and associate (proved)

Up to the name, + is commutative and associative, and summing any list in any order gives the same matrix and parameter sets.

Code: seyfert/fisher/fisher_matrix.py:FisherMatrix.__add__, seyfert/fisher/fisher_analysis.py:FisherAnalysis.evaluateFishersFromAddendsList.

`theories/FisherProps.v`: `C13_commutes`, `C13_associates`, `C13_any_order`.

Up to name and label order, over every field.

### C14 Subtraction undoes addition (proved)

(F1 + F2) - F2 has the entries of F1 on the parameters of F1 and zero elsewhere; F1 - F2 is antisymmetric in its operands.

Code: seyfert/fisher/fisher_matrix.py:FisherMatrix.__sub__.

`theories/FisherProps.v`: `C14_subtraction`, `C14_subtraction_undoes_addition`, `C14_antisymmetric`.

`theories/ResultsProps.v`: `C14_operands_unchanged`.

### C15 Fixing parameters (proved)

fixParameters removes exactly the rows and columns of the given parameters from matrix and parameter sets, leaves other entries unchanged, raises (changing nothing) if one is unknown, and fixing in two steps equals fixing at once, in any order.

Code: seyfert/fisher/fisher_matrix.py:FisherMatrix.fixParameters.

`theories/FisherProps.v`: `C15_fix`, `C15_unknown_raises_unchanged`, `C15_two_steps`.

Instances: `C15_C17_ex`.

Two-step theorem also covers the other order, by exchanging the sets.

### C16 Marginalisation keeps the other parameters' covariance (proved)

marginalizeParameters leaves the inverse restricted to the kept parameters unchanged: every kept error and covariance read afterwards equals the one before; the matrix becomes the Schur complement; asking for an unknown parameter raises and changes nothing.

Code: seyfert/fisher/fisher_matrix.py:FisherMatrix.marginalizeParameters, seyfert/fisher/fisher_utils.py:invert_dataframe.

`theories/FisherProps.v`: `C16_covariance_kept`, `C16_schur_complement`, `C16_unknown_raises_unchanged`, `C16_succeeds`, `C16_posdef_succeeds`, `C16_posdef_kept`, `C16_failed_marginalisation_half_updates`.

Instances: `C16_C18_ex`.

Over every field; also shown: a failing second inversion with ret_copy=False leaves a half-updated object.

### C17 Marginalisation composes (proved)

Marginalising over S then T equals marginalising over S and T at once, in either order; marginalising over nothing leaves the matrix unchanged.

Code: seyfert/fisher/fisher_matrix.py:FisherMatrix.marginalizeParameters.

`theories/FisherProps.v`: `C17_composes`, `C17_either_order`, `C17_nothing`.

### C18 Marginalise before or after combining (proved)

If two Fisher matrices share no nuisance parameter then marginalising each over its nuisance parameters and adding equals adding and marginalising; with a shared nuisance parameter it can differ.

Code: seyfert/fisher/final_results_core.py:create_results_for_cosmology, seyfert/fisher/fisher_matrix.py:FisherMatrix.marginalizeNuisance.

`theories/FisherEqProps.v`: `C18_marginalize_nuisance`, `C18_nuisance_flag_off`, `C18_nuisance_before_or_after`.

`theories/FisherProps.v`: `C18_before_or_after`, `C18_sum_posdef`, `C18_shared_nuisance_differs`.

Instances: `C18_nuisance_instance`.

Includes the counterexample with a shared nuisance parameter.

### C19 Marginalised errors are never smaller than conditional ones (proved)

For a positive definite Fisher matrix the marginalised error of every parameter is at least its unmarginalised error, and fixing parameters never increases an error.

Code: seyfert/fisher/fisher_matrix.py:FisherMatrix.getMarginalizedErrors, seyfert/fisher/fisher_matrix.py:FisherMatrix.getUnmarginalizedErrors.

`theories/FisherProps.v`: `C19_marginalised_ge_unmarginalised`, `C19_fixing_never_increases`.

Instances: `C19_C20_C22_C23_ex`.

Over every ordered field with square roots.

### C20 Reported errors belong to the current matrix (partial)

After any sequence of operations on a Fisher matrix object the marginalised errors it reports are those of the matrix it currently holds.

Code: seyfert/fisher/fisher_matrix.py:FisherMatrix.getMarginalizedErrors, seyfert/fisher/fisher_matrix.py:FisherMatrix.fixParameters, seyfert/fisher/fisher_matrix.py:FisherMatrix.addPriorToParameters, seyfert/fisher/fisher_matrix.py:FisherMatrix.selectRelevantFisherSubMatrix.

`theories/FisherProps.v`: `C20_reported_errors_partial`, `C20_fresh_errors`, `C20_stale_errors_refuted`.

False of the code (C20_stale_errors_refuted); C20_reported_errors_partial proves it for every history in which the matrix is not edited while an inverse is held.

### C21 Copy-returning marginalisation leaves the object alone (partial)

marginalizeParameters(..., ret_copy=True) does not change anything observable on the object it is called on.

Code: seyfert/fisher/fisher_matrix.py:FisherMatrix.marginalizeParameters.

`theories/FisherProps.v`: `C21_copy_changes_inverse_only`, `C21_copy_unchanged_refuted`.

`theories/ResultsProps2.v`: `C21_objects`.

False of the code (C21_copy_unchanged_refuted): the stored inverse of the original changes; C21_copy_changes_inverse_only proves nothing else does.

### C22 Correlation matrix (partial)

The correlation matrix has unit diagonal, is symmetric, and entry (a,b) is C_ab/(s_a s_b) for the labels a and b shown.

Code: seyfert/fisher/fisher_matrix.py:FisherMatrix.evaluateCorrelationMatrix.

`theories/FisherProps.v`: `C22_correlation`, `C22_unit_diagonal_symmetric`, `C22_after_marginalising_refuted`.

False of the code after a marginalisation (C22_after_marginalising_refuted); proved whenever the inverse has the labels of the matrix in the same order.

### C23 Figure of merit (proved)

The figure of merit is the inverse square root of the determinant of the 2x2 covariance of the two parameters, does not depend on their order, and is unchanged by marginalising over other parameters.

Code: seyfert/fisher/fisher_matrix.py:FisherMatrix.getFigureOfMerit.

`theories/FisherProps.v`: `C23_figure_of_merit`, `C23_unchanged_by_marginalising`.

### C24 Adding priors (partial)

addPriorToParameters adds 1/(f*value)^2 to the diagonal entries of the named parameters and changes nothing else; a name that is not in the matrix is rejected.

Code: seyfert/fisher/fisher_matrix.py:FisherMatrix.addPriorToParameters.

`theories/FisherProps.v`: `C24_prior`, `C24_zero_raises_unchanged`, `C24_known_names_keep_consistency`, `C24_unknown_rejected_refuted`.

Instances: `C24_ex`.

First half proved; the rejection of unknown names is false of the code (C24_unknown_rejected_refuted).

### C25 Fisher files (partial)

Writing a Fisher matrix and loading it gives the same name, labels, entries and parameter sets; an existing file is left untouched, replaced, or causes FileExistsError exactly according to the flags; no other file changes.

Code: seyfert/fisher/fisher_matrix.py:FisherMatrix.writeToFile, seyfert/fisher/fisher_matrix.py:FisherMatrix.loadFromFile.

`theories/FileProps.v`: `C25_round_trip`, `C25_existing_file`, `C25_no_path_raises`, `C25_other_paths_unchanged`, `C25_permuted_columns_refuted`, `C25_h5py3_refuted`.

Instances: `C25_C71_ex`.

Round trip, flag cases and frame condition proved for consistent objects with h5py 2. Refuted: columns ordered differently from rows are accepted by checkAttributes and lost on disk; with h5py 3 (allowed by pyproject) names come back as printed byte strings.

### C26 Different Fisher matrices go to different files (partial)

Two Fisher matrices with different names are written to different files.

Code: seyfert/fisher/fisher_matrix.py:FisherMatrix.getFilename.

`theories/FileProps.v`: `C26_same_file_iff_same_words`, `C26_project_names_distinct`, `C26_all_names_refuted`.

Instances: `C26_ex`.

Exact collision criterion and injectivity on the project's own names proved; false for arbitrary names.

### C27 A posteriori combinations (proved)

A combination name 'X1 op X2 op ...' yields the left-to-right sum/difference of the named matrices, is skipped with no effect if an operand is missing, and no other matrix of the dictionary changes.

Code: seyfert/fisher/final_results_core.py:evaluate_a_posteriori_fisher_combinations, seyfert/fisher/final_results_core.py:_compute_a_posteriori_fisher_comb_from_name.

`theories/ResultsProps.v`: `C27_combination`, `C27_missing_operand_skipped`, `C27_dictionary`, `C27_result_name`.

### C28 Result sets are independent (proved)

Each result set (cosmology x nuisance treatment) depends only on the base matrices and not on the result sets created before it; base matrices are unchanged.

Code: seyfert/fisher/final_results_core.py:create_results_for_cosmology, seyfert/fisher/final_results_core.py:create_final_results.

`theories/ResultsProps.v`: `C28_depends_on_base_only`, `C28_independent_of_history`, `C28_base_unchanged`, `C28_session_keeps_base`.

Instances: `C28_C30_ex`.

### C29 A Fisher analysis holds the matrices it was given (partial)

Building an analysis from a dictionary or a list of Fisher matrices keeps all of them; an explicit order is a permutation of them.

Code: seyfert/fisher/fisher_analysis.py:FisherAnalysis.__init__, seyfert/fisher/fisher_analysis.py:FisherAnalysis.fishers_order.

`theories/ResultsProps.v`: `C29_dictionary_kept`, `C29_order_is_permutation`, `C29_list_kept_refuted`, `C29_order_refuted`.

`theories/ResultsProps2.v`: `C29_subset`.

Holds for dictionaries and duplicate-free orders. Refuted: a list of matrices is dropped, an order naming a matrix twice is accepted.

### C30 Relative errors (proved)

The relative error of a parameter is |sigma/fiducial|, or sigma for a zero fiducial, and is never negative; the FoM column is unchanged.

Code: seyfert/fisher/fisher_analysis.py:FisherAnalysis.evaluateRelativeMarginalizedErrors.

`theories/ResultsProps.v`: `C30_relative_error`, `C30_never_negative`, `C30_fom_unchanged`, `C30_no_fiducial_is_nan`, `C30_tables`.

Instances: `C30_cells_ex`.

### C31 Probe-pair key conversions (proved)

For every pair of known probes, long, short and tuple spellings convert into each other without loss, compare equal and hash equal; reversing twice is the identity and commutes with conversion.

Code: seyfert/utils/shortcuts.py:ClKey.

`theories/KeyProps.v`: `C31_accepted`, `C31_conversion`, `C31_equal_and_hash`, `C31_reverse`, `C31_reverse_commutes`.

Instances: `C31_ex`.

### C32 Orientation-blind lookup (proved)

Looking up a probe pair in a spectra dictionary returns the stored array for any spelling, the transposed array if only the reversed pair is stored, and raises if neither is stored.

Code: seyfert/utils/shortcuts.py:SmartKeyDict.__getitem__, seyfert/utils/shortcuts.py:ClSmartKeyDict.

`theories/KeyProps.v`: `C32_lookup`, `C32_malformed_key_rejected`.

Instances: `C32_ex`.

SmartKeyDict and ClSmartKeyDict; a ClSmartKeyDict built from a ClSmartKeyDict object (which yields an empty dictionary) is outside the statement and listed as a finding.

### C33 Data vector names (partial)

For every data vector of known probe pairs the name, the brief string and the printed form can be parsed back into an equal data vector of the same length.

Code: seyfert/fisher/datavector.py:ClDataVector.

`theories/KeyProps.v`: `C33_name`, `C33_brief`, `C33_printed`, `C33_empty_refuted`.

Instances: `C33_ex`.

Proved for every non-empty data vector; the empty data vector's name and brief string do not parse back (C33_empty_refuted).

### C34 Data vectors compare equal only if they are (partial)

Two data vectors are equal only when they have the same entries; a probe-pair key is accepted only when the whole text is a key.

Code: seyfert/fisher/datavector.py:ClDataVector.__eq__, seyfert/utils/shortcuts.py:ClKey.inferKind.

`theories/KeyProps.v`: `C34_same_length_partial`, `C34_prefix_refuted`, `C34_accepted_texts`, `C34_garbage_accepted_refuted`.

Refuted as stated: zip-equality accepts a prefix (C34_prefix_refuted) and the key pattern accepts trailing text (C34_garbage_accepted_refuted); the exact conditions are proved.

### C35 Parameter displacement (proved)

The value for displacement eps is fiducial*(1+eps*factor), or eps*factor for a zero fiducial; it is strictly monotone in eps for positive factor and fiducial, and stem values are ordered with the fiducial in the middle.

Code: seyfert/cosmology/parameter.py:PhysicalParameter.computeValueForDisplacement, seyfert/cosmology/parameter.py:PhysicalParameter.computeSteMValues.

`theories/ParamProps.v`: `C35_value`, `C35_monotone`, `C35_monotone_negative_fiducial`, `C35_ordered`, `C35_distinct_values`.

Instances: `C35_ex`.

Displacements are assumed non-zero and distinct up to sign for the strict ordering; for a negative fiducial the order is reversed.

### C36 Flat universe (proved)

In a flat universe, after any successful update of Omm or OmDE the current values sum to 1.

Code: seyfert/cosmology/parameter.py:PhysicalParametersCollection.updatePhysicalParametersForDvarStep.

`theories/ParamProps.v`: `C36_sum_to_one`, `C36_history`, `C36_refused_update_displaces`.

Instances: `C36_ex`, `C36_history_ex`.

Also over any history of updates; beside it, a refused update (both densities free) is shown to displace the parameter before raising.

### C37 Variations start from the fiducial (partial)

While spectra are computed for (parameter, step), exactly that parameter (and its flatness partner) differs from its fiducial, and at the end all parameters are back at the fiducial.

Code: seyfert/cosmology/parameter.py:PhysicalParametersCollection.resetPhysicalParametersToFiducial, seyfert/main/cl_core.py:compute_cls_variations.

`theories/ParamProps.v`: `C37_one_step`, `C37_run`, `C37_all_parameters`, `C37_reset_restores`, `C37_after_an_error_refuted`.

Instances: `C37_ex`.

Proved for runs that succeed and, up to a reset, for all; refuted after an exception: the parameter stays displaced and the next run is computed there.

### C38 Parameter files (partial)

Writing the parameter collection and reading it back gives equal parameters, displacements and flatness flag.

Code: seyfert/cosmology/parameter.py:PhysicalParametersCollection.writeJSON, seyfert/cosmology/parameter.py:PhysicalParametersCollection.fromJSON.

`theories/ParamProps.v`: `C38_round_trip`, `C38_only_cosmological`, `C38_interrupted_write`, `C38_zero_displacement_refuted`, `C38_key_differs_from_name_refuted`, `C38_description_refuted`.

Instances: `C38_ex`.

Proved when no displacement is zero and parameters are stored under their names; refuted otherwise, and for descriptions. Interrupted writes leave an unreadable file.

### C39 Variation files line up with displacements (partial)

For every set of displacements the n-th spectrum handed to the differentiator belongs to the n-th parameter value.

Code: seyfert/derivatives/differentiator.py:SteMClDifferentiator.collectClVariationsFiles, seyfert/cosmology/parameter.py:PhysicalParametersCollection.loadStemDisplacements.

`theories/StemProps.v`: `C39_files`, `C39_pipeline`, `C39_ten_displacements_refuted`, `C39_only_seven_displacements_refuted`.

Instances: `C39_ex`.

Files: proved for up to nine displacements, refuted for ten. In memory: proved; anything but seven displacements raises.

### C40 Derivative of a linear spectrum is exact (proved)

If a spectrum depends linearly on the parameter, the computed derivative is exactly the slope, in both implementations.

Code: seyfert/derivatives/differentiator.py:SteMClDifferentiator.STEM_derivative, seyfert/derivatives/differentiator.py:SteMClDifferentiator.vectorizedSteM.

`theories/StemProps.v`: `C40_scalar`, `C40_vectorised`, `C40_pipeline`.

Instances: `C40_ex`.

Scalar, vectorised (other columns arbitrary) and end-to-end; exact arithmetic.

### C41 Derivative loop terminates; both implementations agree (partial)

The derivative computation terminates on every input, and the vectorised implementation gives the same result as the scalar one.

Code: seyfert/derivatives/differentiator.py:SteMClDifferentiator.STEM_derivative, seyfert/derivatives/differentiator.py:SteMClDifferentiator.vectorizedSteM.

`theories/StemProps.v`: `C41_terminates`, `C41_succeeds`, `C41_scalar_window`, `C41_vectorised_window`, `C41_agree`, `C41_negative_data_refuted`, `C41_zero_entry_refuted`, `C41_last_window_refuted`.

Instances: `C41_ex`.

Termination proved for all inputs. Agreement proved for positive data that becomes linear while more than three points are left; refuted for negative data, zero entries and the last window.

### C42 Unrelated nuisance parameters have zero derivative (proved)

The derivative of a spectrum with respect to a nuisance parameter of a probe that is in neither slot is identically zero with the shape of the spectrum.

Code: seyfert/derivatives/differentiator.py:ClDifferentiator.computeDerivative.

`theories/StemProps.v`: `C42_zero`, `C42_related`, `C42_pipeline`.

Instances: `C42_ex`.

The zero result of computeDerivative and, for the pipeline that bypasses the test, zero for spectra that do not move.

### C43 Job directory names (partial)

The directory name written for (parameter, step) decodes to the same parameter and step.

Code: seyfert/utils/filesystem_utils.py:get_cosmology_jobdir_name, seyfert/utils/filesystem_utils.py:get_dvar_step_from_cosmology_jobdir_name.

`theories/StemProps.v`: `C43_round_trip`, `C43_two_digits_refuted`, `C43_distinct_names`.

`theories/WsProps.v`: `C43_name`.

Instances: `C43_ex`, `C43_name_instance`.

Proved exactly for |step| <= 9; refuted for every other step.

### C44 Pair names (proved)

Fisher job directory names and probe combination keys decode to the pair they encode; reversing a combination key swaps the probes and is involutive.

Code: seyfert/utils/filesystem_utils.py:get_fisher_jobdir_name_from_dvar1_dvar2, seyfert/utils/general_utils.py:reverse_probes_comb_key.

`theories/StemProps.v`: `C44_fisher_directories`, `C44_combination_keys`, `C44_reverse_involutive`.

Instances: `C44_ex`.

### C45 Composite Newton-Cotes integration (partial)

Every sampled interval is integrated exactly once (with the leftover rule on the final points), so that the rule is linear, exact on linear functions for every number of points and any order from 1 to 6, and the trapezoid rule for order 1.

Code: seyfert/numeric/integration.py:CompositeNewtonCotesIntegrator.doIntegrate.

`theories/NumProps.v`: `C45_panels`, `C45_linear`, `C45_exact`, `C45_exact_linear`, `C45_trapezoid`, `C45_rows`, `C45_rejects`, `C45_cols_whole`, `C45_axis0_refuted`, `C45_axis0_fails_refuted`, `C45_spacing_unchecked`.

Instances: `C45_instance`.

Fully proved for one-dimensional data and the last axis. With another axis the leftover weights are paired with the last axis, which gives a wrong value or a ValueError (refuted theorems). Unequal spacing is only logged.

### C46 Stencil derivative (proved)

The five-point derivative is exact for all polynomials of degree up to four, at all points and non-zero steps.

Code: seyfert/numeric/general.py:callable_stencil_derivative.

`theories/NumProps.v`: `C46_exact`, `C46_degree_five`.

Instances: `C46_instance`.

### C47 Smooth step (proved)

The smooth step of order N is 0 below x_min, 1 above x_max, and S(x)+S(1-x)=1 in between; the filter is 1 inside and 0 outside.

Code: seyfert/numeric/general.py:smoothstep, seyfert/numeric/general.py:top_hat_filter.

`theories/NumProps.v`: `C47_ends`, `C47_symmetric`, `C47_monotone`, `C47_top_hat`.

Instances: `C47_instance`.

### C48 Percentage difference (partial)

The percentage absolute difference is symmetric, non-negative, zero for equal inputs, and the same for arrays and tables.

Code: seyfert/numeric/general.py:pad.

`theories/NumProps.v`: `C48_array`, `C48_table_positive`, `C48_table_symmetric`, `C48_table_negative`, `C48_sign_refuted`, `C48_opposite_refuted`.

Instances: `C48_instance`.

Arrays and tables of positive sums: proved. For tables with negative sums the result is negative, and 100|x-y| when the values are opposite (refuted theorems).

### C49 Bin overlap (proved)

The overlap of two redshift bins is the intersection interval, symmetric in its arguments, and is absent exactly when the bins have no common interior.

Code: seyfert/cosmology/redshift_density.py:get_bins_overlap.

`theories/NumProps.v`: `C49_overlap`, `C49_absent_iff`, `C49_symmetric`, `C49_rejects`.

Instances: `C49_instance`.

### C50 Piecewise bias (proved)

The piecewise bias is defined at all redshifts, equals the value of the bin containing z (the right-hand bin on an interior edge), and is constant beyond the first and last edge; bin values are taken in numerical order of the parameter names.

Code: seyfert/cosmology/bias.py:PiecewiseBias.

`theories/BiasProps.v`: `C50_defined`, `C50_value`, `C50_order`, `C50_order_independent`, `C50_accepts`, `C50_constant_not_sorted`.

`theories/ConfigProps2.v`: `C50_number`, `C50_no_number`.

Instances: `C50_instance`, `C50_errors`, `C50_number_instance`.

### C51 Multipole grids (partial)

For linear spacing the grid has l_max-l_min unit-width bins centred at half integers and covering the range; the widths of a logarithmic grid are positive and sum to l_max-l_min; invalid ranges and spacings are rejected.

Code: seyfert/utils/array_utils.py:compute_multipoles_arrays.

`theories/EllGridProps.v`: `C51_linear`, `C51_linear_integral`, `C51_linear_overshoot_refuted`, `C51_log`, `C51_widths_from_centers`, `C51_rejects`, `C51_empty_accepted_refuted`, `C51_nan_accepted_refuted`.

Instances: `C51_instance`.

Proved for whole-number ranges (linear) and positive ranges with at least one bin (logarithmic). A fractional range overshoots l_max; zero bins or a non-positive l_min are not rejected (refuted theorems).

### C52 Multipoles of a probe pair (partial)

Each unordered pair of probes is listed exactly once; the multipoles of a pair are those common to both probes, with widths that belong to them, whichever way the pair is spelled.

Code: seyfert/config/forecast_config.py:ForecastConfig.getMultipoleArraysForProbeComb, seyfert/config/forecast_config.py:ForecastConfig.loadProbeConfigurations.

`theories/ConfigProps.v`: `C52_present`, `C52_pairs`, `C52_multipoles`, `C52_spelling`, `C52_spelling_refuted`, `C52_unsorted_refuted`.

`theories/ConfigProps2.v`: `C52_loaded`, `C52_check`, `C52_checked`.

Instances: `C52_instance`, `C52_check_instance`.

Pairs, common multipoles and alignment proved for increasing grids. The widths are those of the first probe named, so the spelling matters exactly when the probes' widths differ; unsorted grids misalign (refuted theorems).

### C53 Forecast configurations compare equal only if they are (partial)

Two forecast configurations with different sky fractions, flags or probes are not equal.

Code: seyfert/config/forecast_config.py:ForecastConfig.__eq__.

`theories/ConfigProps.v`: `C53_equal_iff`, `C53_flag`, `C53_probes`, `C53_marginalize`, `C53_half_loaded`, `C53_fsky_refuted`, `C53_zero_fsky_refuted`, `C53_free_refuted`, `C53_shot_noise_refuted`.

Instances: `C53_instance`.

Exact condition of equality proved. Sky fractions are never compared (only tested for being non-zero), nor are free flags or the shot noise file (refuted theorems).

### C54 Background cosmology closure (partial)

For every set of density parameters the dimensionless Hubble rate is 1 and the matter fraction Omm at z=0, and matter, dark energy and curvature fractions sum to 1.

Code: seyfert/cosmology/cosmology.py:Cosmology.

`theories/CosmoProps.v`: `C54_today`, `C54_closure`, `C54_positive`, `C54_lambda`, `C54_curvature`, `C54_accepted`, `C54_rounded_refuted`.

Instances: `C54_instance`.

E(0)=1, Omega_m(0)=Omm and closure at every redshift hold; the reported OmK is rounded to 10 digits, so the three reported densities close only to 5e-11 and a flat cosmology is accepted up to that (C54_rounded_refuted).

### C55 Density budget for the Boltzmann codes (proved)

The physical densities passed to the solver (baryons, cold dark matter, neutrinos) add up to the total matter density of the parameters.

Code: seyfert/cosmology/boltzmann_solver.py.

`theories/CosmoProps.v`: `C55_camb`, `C55_class`, `C55_negative`.

Instances: `C55_instance`.

Exact for CAMB and CLASS; CLASS's Omega_k is rounded to 6 digits; a negative cold dark matter density is passed on (C55_negative).

### C56 Redshift batching (proved)

The redshift grid is split into consecutive batches none of which exceeds the limit of 150, whose concatenation is the grid.

Code: seyfert/cosmology/boltzmann_solver.py:computeCAMBRedshiftGroupsNumber.

`theories/CosmoProps.v`: `C56_batches`, `C56_empty`, `C56_few`.

Instances: `C56_instance`.

For every non-empty grid; an empty grid is a ValueError (C56_empty).

### C57 INI files (partial)

A settings dictionary written to an INI file is read back unchanged.

Code: seyfert/cosmology/boltzmann_solver.py:readCAMBIniFileToDict, seyfert/cosmology/boltzmann_solver.py:writeDictToIniFile.

`theories/IniProps.v`: `C57_roundtrip`, `C57_reread`, `C57_updated`, `C57_equals_refuted`.

Instances: `C57_instance`.

Exact condition: keys and values without line breaks or surrounding blanks, keys not starting with '#', values without '='. A value with '=' is misread (C57_equals_refuted). Whatever was read from a file round-trips.

### C58 Amplitude tuning (partial)

If sigma8 scales as the square root of the scalar amplitude then tuning stops with the requested sigma8.

Code: seyfert/cosmology/boltzmann_solver.py:finetuneScalarAmpFromSigma8.

`theories/CosmoProps.v`: `C58_tuned`, `C58_finetune`, `C58_ten`, `C58_target_refuted`.

Instances: `C58_instance`.

At most two evaluations, exact result, for every target except one within 1e-12 (relative) of the hard-coded start 10, which is never tuned (C58_target_refuted).

### C59 Assembly of angular spectra (proved)

Auto spectra are symmetric; with off-diagonals switched off they are exactly zero off the diagonal; cross spectra fill every bin pair once.

Code: seyfert/cosmology/c_ells.py:AngularCoefficient.evaluateAngularCorrelation.

`theories/ClProps.v`: `C59_auto`, `C59_once`, `C59_cross`, `C59_total`, `C59_kernel`, `C59_swap`.

Instances: `C59_instance`.

### C60 Fisher stage can be restarted (partial)

Interrupting the Fisher stage at any point and running it again leads to the same set of files as an uninterrupted run, files already complete are not recomputed.

Code: seyfert/main/fisher_core.py:compute_and_save_fishers, seyfert/main/seyfert_core.py:compute_fishers.

`theories/PipeProps.v`: `C60_restart_exact`, `C60_existing_not_recomputed`, `C60_cut_file_never_repaired`, `C60_second_run_raises`, `C60_batch_restart_refuted`, `C60_interrupted_write_refuted`.

`theories/PipeProps2.v`: `C60_overwrite`, `C60_selected`.

Instances: `C60_instance`, `C60_restart_instance`, `C60_batch_instance`, `C60_selected_ex`, `C60_overwrite_ex`.

Proved for the interactive stage interrupted between writes (C60_restart_exact, C60_existing_not_recomputed). Refuted: an interruption inside a file write leaves a torn file that is skipped for ever, and the batch form treats an existing store as complete (C60_interrupted_write_refuted, C60_batch_restart_refuted).

### C61 Derivative stage can be restarted (partial)

Interrupting the derivative stage at any point and running it again completes the stage.

Code: seyfert/main/seyfert_core.py:compute_cl_derivatives.

`theories/PipeProps.v`: `C61_completes`, `C61_restart_exact`, `C61_interrupted_refuted`, `C61_failure_blocks_reruns`.

Instances: `C61_instance`.

Exact condition proved (C61_restart_exact): re-running completes iff nothing was done or the pickle was already written. Refuted in general (C61_interrupted_refuted); a failing derivative also blocks every later run.

### C62 Waiting for batch jobs (partial)

Waiting for submitted jobs returns normally only when all of them are done, and raises when one has failed.

Code: seyfert/main/bsub_utils.py:BsubInterface.waitForJobsToComplete.

`theories/WaitProps.v`: `C62_listed`, `C62_before_limit`, `C62_empty_listing_refuted`, `C62_not_all_done_refuted`, `C62_spurious_row_refuted`, `C62_no_job`.

Instances: `C62_instance`.

Exact outcome proved for listings in the usual form (C62_listed, C62_before_limit). Refuted in general: jobs missing from the listing or owned by a user whose name has a digit count as done, the time limit ends the wait normally, and the rest of a line can be read as another job.

### C63 External commands (partial)

Running an external command raises exactly when the command fails.

Code: seyfert/main/task_runners.py:TaskRunner.executeCommand.

`theories/WaitProps.v`: `C63_exact`, `C63_honest_command`, `C63_silent_failure_refuted`, `C63_warning_refuted`, `C63_jobs_in_order`.

Instances: `C63_instance`.

The outcome depends on standard error alone (C63_exact), so the statement holds for commands that print there exactly when they fail, and is refuted in both directions.

### C64 Batches of runs (partial)

A batch launches each combination of configuration and power spectrum directory exactly once, in order, each with its own power spectrum directory.

Code: seyfert/main/orchestration.py:do_multiple_new_seyfert_runs.

`theories/BatchProps.v`: `C64_one_each`, `C64_dry_run`, `C64_order`, `C64_nothing_to_run`, `C64_power_spectra`, `C64_external_directory_refuted`, `C64_equal_identifiers`, `C64_bad_name`.

`theories/BatchProps2.v`: `C64_identifiers`, `C64_stem`, `C64_command`, `C64_options`.

Instances: `C64_instance`, `C64_stem_instance`, `C64_command_instance`.

Proved when external_dirs.json does not replace the directories (C64_one_each); a power spectrum directory given there replaces every run's own (C64_external_directory_refuted).

### C65 Collecting run directories (partial)

Collecting the run directories of a list of run identifiers returns exactly the directories of these runs.

Code: seyfert/main/orchestration.py:collect_rundirs.

`theories/BatchProps.v`: `C65_complete`, `C65_no_duplicates`, `C65_exact`, `C65_prefix_refuted`.

Instances: `C65_instance`.

Nothing is missed (C65_complete); exactness is proved equivalent to no foreign directory starting with one of the identifiers (C65_exact), and fails otherwise (C65_prefix_refuted).

### C66 Order of the pipeline stages (partial)

A run executes exactly the requested stages in the order densities, power spectrum, spectra, noise, derivatives, Fisher, results.

Code: seyfert/main/task_runners.py:ForecastRunner.run.

`theories/WaitProps.v`: `C66_stages`, `C66_no_execution`, `C66_no_execution_refuted`.

Instances: `C66_instance`.

Proved for batch and interactive execution (C66_stages); with execution 'no' the densities are still computed when the power spectrum stage is absent (C66_no_execution_refuted).

### C67 TeX names (partial)

Different parameters and probes have different TeX names, and probe names can be recovered from them; unknown names raise.

Code: seyfert/utils/tex_utils.py:TeXTranslator.

`theories/TexProps.v`: `C67_cosmological`, `C67_cosmological_unknown`, `C67_physical`, `C67_unknown_refuted`, `C67_never_raises`, `C67_two_digits_refuted`, `C67_probes`, `C67_unknown_probe`, `C67_combination_recovered`, `C67_single_probe_refuted`, `C67_shared_name_refuted`, `C67_cosmologies`.

Instances: `C67_instance`.

Cosmological parameters, known physical parameters, the four probes and their combinations have different TeX names; cosmological parameters and combinations of two or more probes are recovered; unknown cosmological parameters and probes raise. Refuted: a single probe's TeX name is never recovered, GCsp and IST_GCsp share one, unknown physical parameters give an empty text, bins from ten on collide.

### C68 Analytic bias derivative (partial)

For a constant bias model the analytic derivative with respect to the bias of bin k is (number of slots of the probe equal to k)/b_k times the spectrum, for every bin.

Code: seyfert/derivatives/differentiator.py:AnalyticClDifferentiator.doComputeDerivative.

`theories/ClProps.v`: `C68_newton_cotes`, `C68_value`, `C68_other`, `C68_auto`, `C68_cross`, `C68_two_digits_refuted`.

`theories/ClProps2.v`: `C68_piecewise`.

Instances: `C68_instance`, `C68_instance_piecewise`.

Proved equal to the true derivative of the computed spectra for bins 0-9; the bin is taken from the last character of the name, so bin 10 is confused with bin 0 (C68_two_digits_refuted).

### C69 Saving to HDF5 (partial)

Saving an object and loading it gives an equal object, and saving twice to the same place is either refused or replaces the content.

Code: seyfert/file_io/hdf5_io.py:AbstractH5FileIO.

`theories/H5Props.v`: `C69_density_round_trip`, `C69_density_equal`.

`theories/H5Props2.v`: `C69_kernel_round_trip`, `C69_kernel_equality_raises`, `C69_kernel_equal`, `C69_power_round_trip`.

`theories/H5Props3.v`: `C69_delta_round_trip`, `C69_bias_round_trip`.

`theories/H5Props4.v`: `C69_other_places`, `C69_second_save_refused`, `C69_collection_round_trip`, `C69_empty_collection`.

`theories/H5Props5.v`: `C69_weight_round_trip`, `C69_densities_file`, `C69_second_save_refuted`, `C69_collections_merge_refuted`, `C69_weights_merge_refuted`, `C69_weight_refuted`, `C69_kernel_refuted`.

`theories/H5Props6.v`: `C69_new_file_says_when`, `C69_update_says_when`, `C69_member_says_nothing`.

Instances: `C69_instance_density`, `C69_instance_collection`, `C69_instance_weight`, `C69_ex_new`, `C69_ex_member`.

Round trips are proved for densities, bias functions, kernels, power spectra, weight functions, Delta C_l blocks and collections, with the exact condition for equality, and second saves of single objects are refused with every dataset kept. Refuted as stated: a refused second save still changes attributes, collections and weight functions without common datasets are merged, a kernel that knows its weight functions cannot be compared after loading.

### C70 Table files (partial)

Writing a table creates or replaces exactly the requested file when it is absent or overwrite is set, and otherwise changes nothing; unknown formats are rejected.

Code: seyfert/utils/table_utils.py:write_dataframe_table.

`theories/TableProps.v`: `C70_nothing_else`, `C70_written`, `C70_kept`, `C70_formats`, `C70_unknown_format_refuted`.

Instances: `C70_hidden`, `C70_instance`.

Proved for all file states and names, with the exact condition under which other formats are rejected. Refuted: an unknown format is accepted in silence when the file exists and overwrite is not set.

### C71 Interrupted Fisher file writes are detected (partial)

If writing a Fisher file is interrupted at any point, loading the file raises instead of returning a different matrix.

Code: seyfert/fisher/fisher_matrix.py:323-385.

`theories/FileProps.v`: `C71_early_interruption_detected`, `C71_late_interruption_undetected`, `C71_interruption_detected_refuted`.

Proved for interruptions before the last dataset group; refuted for one before the nuisance dataset.

### C72 Fisher matrices from lists of addends (proved)

For each list of addends the analysis holds, under the names joined by '+', the sum of the named base matrices; base matrices are unchanged; an unknown addend raises.

Code: seyfert/fisher/fisher_analysis.py:210-226.

`theories/ResultsProps.v`: `C72_sums`, `C72_missing_addend_raises`.

### C73 Marginalising an analysis keeps its base matrices (partial)

Marginalising the matrices of an analysis changes no other matrix, in particular not the base matrices it was made from.

Code: seyfert/fisher/fisher_analysis.py:190-208.

`theories/ResultsProps.v`: `C73_other_objects_unchanged`, `C73_base_kept_refuted`.

`theories/ResultsProps2.v`: `C73_marginalised`.

Instances: `C73_C74_ex`, `C73_C29_C21_ex`.

Methods change only their own object, but useBaseFishers shares the objects, so base matrices change (refuted).

### C74 Selecting the relevant parameters (proved)

selectRelevantFisherSubMatrix keeps exactly the declared parameters (without the nuisance ones when they are not marginalised), sorted, with unchanged entries; a declared parameter without a row raises and nothing changes.

Code: seyfert/fisher/fisher_matrix.py:195-208.

`theories/ResultsProps.v`: `C74_select`, `C74_missing_raises_unchanged`.

### C75 Probe names (proved)

Exactly the twelve names (long, short, alias) of the four probes are accepted; every accepted name converts to each kind, conversions compose, and two names compare equal exactly when they name the same probe.

Code: seyfert/utils/shortcuts.py:269-329.

`theories/ConfigProps.v`: `C75_accepts`, `C75_convert`, `C75_equality`.

Instances: `C75_instance`.

### C76 Configuration editor (proved)

An editor is created exactly for complete and valid options; updating sets the multipole range, density and bias files the options ask for and leaves every other setting as it was; contradictory switches are refused; options that differ are written to files with different names.

Code: seyfert/config/forecast_config.py:185-301.

`theories/EditorProps.v`: `C76_accepts`, `C76_updates`, `C76_conflict`, `C76_file_names`.

Instances: `C76_instance`.

File names for whole bin numbers and the same date.

### C77 Configuration identifiers (partial)

Two configurations have the same identifier exactly when their options are the same.

Code: seyfert/file_io/json_io.py:100-114.

`theories/EditorProps.v`: `C77_distinct`, `C77_none`, `C77_order_refuted`, `C77_collision_refuted`.

Proved for complete valid options in the usual order; the identifier depends on the order of the options and different options may share it (refuted theorems).

### C78 Growth rescaling (proved)

After the power spectra are rescaled to a given growth factor, the growth read off the linear spectrum is that growth (normalised to its first entry), and linear and non-linear spectra keep their shapes and ratio.

Code: seyfert/cosmology/cosmology.py:rescalePowerSpectrumByComputedGrowth, seyfert/cosmology/power_spectrum.py:getGrowthFromLinearPowerSpectrum.

`theories/CosmoProps.v`: `C78_growth`, `C78_normalised`, `C78_identity`.

Instances: `C78_instance`.

### C79 Redshift-grid evaluation (partial)

After evaluation over the redshift grid the stored arrays are those of the cosmology's current parameters at every grid point, and evaluating again changes nothing.

Code: seyfert/cosmology/cosmology.py:evaluateOverRedshiftGrid.

`theories/CosmoProps.v`: `C79_grid`, `C79_again`, `C79_kept`, `C79_stale_refuted`.

Instances: `C79_instance`.

First evaluation correct, repeated evaluation changes nothing; after a parameter change the arrays stay stale (C79_stale_refuted).

### C80 Void scale cut (proved)

The void cut leaves the power spectrum untouched below the cut window, removes it above, and never amplifies it or changes its sign in between, decreasing with wavenumber.

Code: seyfert/cosmology/c_ells.py:AngularCoefficient.applyVoidsCutToLimberPowerSpectrum.

`theories/ClProps.v`: `C80_cut`.

Instances: `C80_instance`.

### C81 Submitting the jobs of a stage (proved)

Submitting the jobs of a stage submits every script once, in order, and then waits for exactly the numbers the queue gave them; a refused submission, or a stage without scripts, raises.

Code: seyfert/main/task_runners.py:TaskRunner.submitBatchJobs, seyfert/main/bsub_utils.py:BsubInterface.getJobID.

`theories/BatchProps.v`: `C81_all_submitted`, `C81_refused`, `C81_no_scripts`.

Instances: `C81_instance`.

### C82 Names of run directories (partial)

Splitting the name of a run directory gives back the run identifier, version and time it was made from; other names come back whole.

Code: seyfert/utils/general_utils.py:split_run_id, seyfert/main/task_runners.py:ForecastRunner.createRundir.

`theories/BatchProps.v`: `C82_round_trip`, `C82_only_run_names`, `C82_impossible_date`, `C82_two_digit_version_refuted`.

Instances: `C82_instance`.

Proved for versions of one-digit numbers; 1.10.0 is not recognised (C82_two_digit_version_refuted).

### C83 Noisy spectra (proved)

Evaluating the noisy spectra of a pair of probes gives, at every multipole and pair of bins, sqrt(1/(width f_sky)) times the sum of the spectrum and of the shot noise. The shot noise is zero between different probes and between different bins, and 0.3^2 (lensing) or 1 (other probes) divided by the galaxies per unit solid angle of the bin otherwise, times the ratio of the galaxy numbers when the reduced spectroscopic noise is asked for. Auto-correlations are inverted. Evaluating again with another f_sky is the same as evaluating with that one only, and the covariance made from such spectra is the Gaussian covariance for that width and f_sky.

Code: seyfert/fisher/delta_cl.py:DeltaCl.evaluate, seyfert/fisher/delta_cl.py:DeltaCl.computeNoise, seyfert/fisher/delta_cl.py:DeltaClCollection.evaluateSingleBlocks, seyfert/main/cl_core.py:compute_delta_cls.

`theories/DeltaProps.v`: `C83_entries`, `C83_auto_succeeds`, `C83_inverse`, `C83_last_f_sky`, `C83_collection`, `C83_stage`, `C83_covariance`.

Instances: `C83_instance`.

### C84 Shot-noise files (partial)

A run that reads the shot noise written by another run gets the same noisy spectra and matrices, whatever its own galaxy densities; a file without one of the pairs of the run, and an array whose shape is not that of the spectra, are refused.

Code: seyfert/fisher/delta_cl.py:DeltaClCollection.loadShotNoiseFromFile, seyfert/fisher/delta_cl.py:DeltaClCollection.writeShotNoiseToFile.

`theories/DeltaProps2.v`: `C84_replay`, `C84_densities_unused`, `C84_missing_pair`, `C84_no_file`, `C84_loaded`, `C84_wrong_shape`, `C84_one_by_one`, `C84_wrong_shape_refuted`.

Instances: `C84_instance`.

an array with a side of 1 is broadcast over all bins instead of being refused (C84_wrong_shape_refuted, C84_one_by_one); everything else holds

### C85 Matrices of several probes (proved)

For the list of all probes, and for every pair of probes when there are more than two, the collection gets an entry whose matrix has, at exactly the multipoles common to all pairs, the noisy spectrum of every two (probe, bin) positions, read from whichever orientation of the pair is stored, and its inverse. It is symmetric when the auto-correlations are. A pair stored in neither orientation is an error. Distinct groups get distinct names, from which the probes can be read back.

Code: seyfert/fisher/fisher_utils.py:buildXCBlockMatrixForProbes, seyfert/fisher/fisher_utils.py:get_probes_xc_fisher_name, seyfert/fisher/fisher_utils.py:get_probes_from_fisher_name, seyfert/fisher/delta_cl.py:DeltaClCollection.buildXCBlocks.

`theories/DeltaProps2.v`: `C85_matrix`, `C85_symmetric`, `C85_missing_pair`, `C85_names`, `C85_distinct_names`, `C85_groups`, `C85_single`, `C85_built`, `C85_invertible`, `C85_stage`, `C85_not_updated`, `C85_stage_succeeds`.

Instances: `C85_instance`, `C85_instance_R`.

### C86 Comparing and checking Fisher matrices (proved)

Two Fisher matrices compare equal exactly when they have the same parameters, the same entry for every two of them, the same name and the same declared parameters, whatever the order of rows; this is an equivalence, and a copy equals its original. Comparing matrices of other parameters raises ValueError. The consistency check accepts exactly objects whose rows, columns and declared parameters are the same sets, and otherwise says which of the two conditions fails by the kind of exception.

Code: seyfert/fisher/fisher_matrix.py:FisherMatrix.__eq__, seyfert/fisher/fisher_matrix.py:FisherMatrix.checkAttributes, seyfert/fisher/fisher_matrix.py:FisherMatrix.marginalizeNuisance.

`theories/FisherEqProps.v`: `C86_equal_iff`, `C86_other_parameters`, `C86_reflexive`, `C86_symmetric`, `C86_transitive`, `C86_check`, `C86_check_errors`, `C86_consistent_accepted`, `C86_kinds_not_compared`.

Instances: `C86_instance`.

### C87 Normalised redshift densities (proved)

After setUp and evaluate, the density of bin i at redshift z is the interpolated number of galaxies at z times the probability that a galaxy at z is measured between the edges of bin i, divided by the integral of this product over the domain; it therefore integrates to one, vanishes outside the domain, does not change when all counts are multiplied by a constant, and is not negative where the interpolated counts are not. The bins lose and repeat no galaxy: without normalisation they add up to the counts measured between the first and the last edge. Densities that are given directly are interpolated through their values.

Code: seyfert/cosmology/redshift_density.py:RedshiftDensity.computeNormalizedDensityAtBinAndRedshift, seyfert/cosmology/redshift_density.py:RedshiftDensity.computeBinNormFactor, seyfert/cosmology/redshift_density.py:RedshiftDensity.convolvedNdzdOmegaWithInstrumentResponse, seyfert/cosmology/redshift_density.py:RedshiftDensity.computeInstrumentResponse, seyfert/cosmology/redshift_density.py:RedshiftDensity.modifiedGaussianResponse, seyfert/cosmology/redshift_density.py:RedshiftDensity.evaluate.

`theories/DensProps.v`: `C87_values`, `C87_unit_integral`, `C87_outside`, `C87_nonnegative`, `C87_scale_free`, `C87_bins_add_up`, `C87_outliers`, `C87_given`.

`theories/DensProps4.v`: `C87_undershoot`.

Instances: `C87_instance`.

Under the properties of scipy listed in DensSpec.ideal; C87_undershoot shows the proviso about the interpolated counts is needed.

### C88 Galaxy numbers (proved)

evaluateSurfaceDensity stores for every bin the integral of the counts between its edges, so the bins add up to the integral between the first and last edge; numbers that are given are kept, and missing ones raise. The shot noise of a bin times its number is one. The total number of galaxies is the sum over bins times the solid angle when the bins span the domain; an object that is not set up or an unknown method is refused.

Code: seyfert/cosmology/redshift_density.py:RedshiftDensity.evaluateSurfaceDensity, seyfert/cosmology/redshift_density.py:RedshiftDensity.computeSurfaceDensityAtBin, seyfert/cosmology/redshift_density.py:RedshiftDensity.shot_noise, seyfert/cosmology/redshift_density.py:RedshiftDensity.computeTotalGalaxyNumber.

`theories/DensProps2.v`: `C88_bins`, `C88_given`, `C88_given_without_numbers`, `C88_shot_noise`, `C88_total`, `C88_total_refused`.

### C89 Shot noise between photometric and spectroscopic galaxies (proved)

Entry (i,j) times the numbers of photometric bin i and spectroscopic bin j is the number of spectroscopic galaxies in the overlap of the two bins, hence zero for bins that do not overlap; when the photometric bins cover spectroscopic bin j, the entries of its column times the photometric numbers add up to one. Densities of other probes are refused.

Code: seyfert/cosmology/redshift_density.py:compute_photoXspectro_shotnoise_ij, seyfert/cosmology/redshift_density.py:get_bins_overlap.

`theories/DensProps2.v`: `C89_entries`, `C89_covered`, `C89_probes`.

Instances: `C89_instance`.

### C90 Life cycle of a density object (partial)

Evaluating a density or its total number before setUp raises and changes nothing; setUp succeeds exactly for an increasing domain of at least four points with counts on it and a complete instrument response of non-zero width; it keeps the input; evaluating changes only grid and values, and a second evaluation gives what a first one would. The stage that prepares all densities sets up and evaluates every one. The values always belong to the data last loaded.

Code: seyfert/cosmology/redshift_density.py:RedshiftDensity.setUp, seyfert/cosmology/redshift_density.py:RedshiftDensity.evaluate, seyfert/cosmology/redshift_density.py:RedshiftDensity.loadFromHDF5, seyfert/main/cl_core.py:compute_densities.

`theories/DensProps3.v`: `C90_not_set_up`, `C90_set_up_keeps`, `C90_set_up_iff`, `C90_evaluate_keeps`, `C90_evaluate_again`, `C90_stage`.

`theories/DensProps4.v`: `C90_set_up_after_reload`, `C90_loaded_not_ready`, `C90_reload_refuted`.

The last sentence is false: C90_reload_refuted; true after setUp is called again (C90_set_up_after_reload) and for a new object (C90_loaded_not_ready).

### C91 Making, reading and selecting parameters (proved)

A parameter is made exactly when its kind is one of the two and a nuisance parameter names its probe; a missing current value is the fiducial. In a file, absent entries take the documented defaults and the last entry of a name counts. Reading a file into a collection replaces the parameters of the file's names in place, adds the new ones behind, leaves the others, and takes displacements and flatness from the file; reading it again changes nothing. Each selection (cosmological, nuisance, free, of a probe, and their combinations) holds exactly the parameters that qualify.

Code: seyfert/cosmology/parameter.py:PhysicalParameter.__init__, seyfert/cosmology/parameter.py:PhysicalParameter.from_dict, seyfert/cosmology/parameter.py:PhysicalParametersCollection.readJSON, seyfert/cosmology/parameter.py:PhysicalParametersCollection.getParamsDictFromDictList, seyfert/cosmology/parameter.py:PhysicalParametersCollection.getFreePhysicalParametersForProbe.

`theories/ParamProps2.v`: `C91_make`, `C91_made`, `C91_entry`, `C91_file`, `C91_merge`, `C91_merged_values`, `C91_merged_order`, `C91_read_twice`, `C91_selections`.

Instances: `C91_instance`.

### C92 Workspace discovery (partial)

The parameters, pairs of parameters, directories and files a workspace reports are exactly those for which a task wrote a directory: every parameter of a job directory and no other, each once; the spectra of a parameter and step are the one file of that parameter and step; derivatives are found for every directory or the search fails; the directory map has an entry for every (parameter, step).

Code: seyfert/utils/workspace.py:WorkSpace.collectClVariationParams, seyfert/utils/workspace.py:WorkSpace.collectPmmVariationParams, seyfert/utils/workspace.py:WorkSpace.getClFile, seyfert/utils/workspace.py:WorkSpace.collectClDerivativeFiles, seyfert/utils/workspace.py:WorkSpace.collectClVariationDirectories, seyfert/utils/workspace.py:WorkSpace.collectFisherParamsPairs.

`theories/WsProps.v`: `C92_power_spectra`, `C92_spectra`, `C92_foreign_directory`, `C92_file`, `C92_derivative_files`, `C92_fisher_pairs`, `C92_directories`, `C92_central_name_refuted`, `C92_two_digits_refuted`.

Instances: `C92_instance`.

Proved for parameter names without the word central and steps of one digit; C92_central_name_refuted and C92_two_digits_refuted show both conditions are needed.

### C93 A run keeps its input files (partial)

After createInputFilesDir every configuration file read through the workspace has the content of the file passed in for that task, the parameters file holds the parameters passed in, the data directory is the one given, and nothing outside the input files is changed.

Code: seyfert/utils/workspace.py:WorkSpace.createInputFilesDir, seyfert/utils/workspace.py:WorkSpace.getTaskJSONPath, seyfert/utils/workspace.py:WorkSpace.getInputDataDirPath, seyfert/utils/filesystem_utils.py:get_input_files_dict_for_rundir.

`theories/PrepProps.v`: `C93_read_back`, `C93_own_file`, `C93_same_name_refuted`, `C93_params_name_refuted`.

Instances: `C93_instance`.

Proved when the files have distinct names, none is params.json and none already lies in the directory of copies; the refuted theorems show the first two conditions are needed, C93_own_file the third (an error).

### C94 External results are used (partial)

After symlinkToExternalDirs every task directory that was missing leads to the external directory given for it (and delta_cls.h5 to the other run's), an existing one is left alone, nothing else changes, an unknown task changes nothing, and a failed call can be repeated; prepare_workspace makes the power spectra, spectra and derivatives it is given available in the run directory.

Code: seyfert/utils/workspace.py:WorkSpace.symlinkToExternalDirs, seyfert/utils/workspace.py:WorkSpace.createSymlink, seyfert/main/seyfert_core.py:prepare_workspace.

`theories/PrepProps2.v`: `C94_unknown_task`, `C94_linked`, `C94_prepared`, `C94_missing_directory`, `C94_retry_refuted`, `C94_relative_source_refuted`, `C94_linked_run_directory_refuted`, `C94_power_spectra_refuted`, `C94_power_spectra_ignored`.

Instances: `C94_instance`.

Proved for run directories that are not behind a link and relative links (or absolute sources); the refuted theorems give the cases outside, and powerspectrum_dir, which prepare_workspace ignores. C94_prepared covers prepare_workspace in an existing run directory.

### C95 A repeated run takes up earlier results (partial)

A forecast that is run again in the same directory uses the densities, fiducial spectra and Delta C_l that the first run left in its files: it gets the values the first run computed, for every probe and pair of probes, and leaves the files as they are; a stage whose computation failed leaves no file and is computed again; a run that was interrupted is completed by the next one.

Code: seyfert/main/seyfert_core.py:compute_densities, seyfert/main/seyfert_core.py:compute_fiducial_cls, seyfert/main/seyfert_core.py:do_forecast.

`theories/StageProps.v`: `C95_densities`, `C95_spectra`, `C95_deltas`, `C95_failed_computation`, `C95_interrupted`, `C95_interrupted_refuted`, `C95_configuration_refuted`, `C95_stuck_refuted`, `C95_deltas_cut_refuted`.

Instances: `C95_instance`.

Proved for runs that saved their results (values kept as in C69 and C96) and for failed computations. Refuted for interrupted runs: the next run silently goes on with the densities or blocks written so far, or fails for ever; results of another configuration are taken up without notice.

### C96 Files of spectra (partial)

A collection of angular spectra saved to a file and loaded again has the same redshift grid, the same spectra under the same keys with the same multipoles and kernels, and the same weight function for every probe; it compares equal to the one saved, in both orders, when no value is NaN; two collections can be kept in one file under different roots; a collection that is saved can be loaded.

Code: seyfert/cosmology/c_ells.py:H5Cl.writeObjectToFile, seyfert/cosmology/c_ells.py:H5Cl.writeToObject, seyfert/cosmology/c_ells.py:H5ClCollection.writeObjectToFile, seyfert/cosmology/c_ells.py:H5ClCollection.writeToObject, seyfert/file_io/hdf5_io.py:AbstractH5FileIO.findGroup, seyfert/cosmology/c_ells.py:AngularCoefficientsCollector.__eq__.

`theories/SpectraProps.v`: `C96_round_trip`.

`theories/SpectraProps2.v`: `C96_equal`, `C96_no_kernel`, `C96_no_kernel_refuted`, `C96_weights_refuted`, `C96_second_collection_refuted`, `C96_unused_weight_refuted`, `C96_equal_refuted`.

Instances: `C96_instance`.

Proved for collections as the program builds them (every spectrum with a kernel, one weight function per probe) saved to a new file. Refuted as stated: spectra without kernels cannot be saved and leave a file that cannot be loaded; of two weight functions of a probe the first wins; a second collection in the file gets the weights of the first; weights that no spectrum uses are dropped; the comparison ignores spectra only the other collection has.

### C97 Lensing weights (proved)

The lensing weight of a bin at a redshift depends only on the sources beyond that redshift, is zero where there are none, is linear in the source density and not negative; intrinsic alignments, when included, are taken off it in proportion to their amplitude and to the bin's density at that redshift; an unknown integration method is refused.

Code: seyfert/cosmology/weight_functions.py:LensingWeightFunction.computeLensingEfficiencyAtBin, seyfert/cosmology/weight_functions.py:LensingWeightFunction.computeIntrinsicAlignmentContribution, seyfert/cosmology/weight_functions.py:LensingWeightFunction.evaluateOverRedshiftGrid.

`theories/ClProps2.v`: `C97_beyond`, `C97_behind`, `C97_alignment`, `C97_linear`, `C97_nonnegative`, `C97_methods`.

Instances: `C97_instance`.

The quadrature is an argument; the adaptive method is any function of bin and redshift.

### C98 Files of cosmologies (partial)

A cosmology saved to a file and loaded again has the same parameters, flatness, model name, grids and power spectra and compares equal to the one saved when its spectra hold no NaN; a cosmology that is saved can be loaded; the parameters of a loaded cosmology have passed the checks of the constructor; loading into an existing cosmology gives the one of the file; two cosmologies that compare equal have the same grids.

Code: seyfert/cosmology/cosmology.py:Cosmology.fromHDF5, seyfert/cosmology/cosmology.py:Cosmology.saveToHDF5, seyfert/cosmology/cosmology.py:Cosmology.loadFromHDF5, seyfert/cosmology/cosmology.py:Cosmology.__eq__, seyfert/cosmology/cosmology.py:H5Cosmology, seyfert/cosmology/cosmology.py:Cosmology.checkParameters.

`theories/CosmoFileProps.v`: `C98_round_trip`, `C98_without_spectrum`, `C98_invalid`, `C98_no_parameters`, `C98_once`, `C98_load_into`, `C98_arrays_not_compared`, `C98_comparison_raises`.

`theories/CosmoFileProps2.v`: `C98_checks`, `C98_spectrum_refuted`, `C98_no_grid_refuted`, `C98_no_parameters_refuted`, `C98_load_into_refuted`, `C98_equality_refuted`.

Instances: `C98_instance`.

Proved: everything is back after saving and loading (C98_round_trip), the exact condition for equality, the checks made on loading (C98_checks, C98_invalid), what loading into an object gives (C98_load_into), no second cosmology at one place (C98_once). False: a cosmology saved without spectrum, without parameters or with refused parameters cannot be loaded, one without grid leaves a file nothing can be saved to, loading into a cosmology keeps its old parameters, equality ignores the grids (refuted theorems).

### C99 Cosmology of a variation (partial)

The cosmology used for a variation comes from the file of that variation if the parameter is cosmological, and from the central file for the central case and for nuisance parameters; its parameters are those of the run at that step, and a file with other values is not used; exactly the parameters that differ are reported.

Code: seyfert/main/cl_core.py:load_cosmology, seyfert/utils/workspace.py:WorkSpace.getPowerSpectrumFile.

`theories/CosmoFileProps.v`: `C99_file`, `C99_unknown`, `C99_logged`, `C99_own_file`.

`theories/CosmoFileProps2.v`: `C99_nuisance`, `C99_inconsistent_refuted`, `C99_unknown_parameter`.

Instances: `C99_instance`.

Proved: which file is read, what is reported, the file of the run's own cosmology is read without a report, also for nuisance variations. False: a file with other values is reported but used (C99_inconsistent_refuted).

### C100 Content of a result set (proved)

The analysis created for a cosmology knows exactly the fiducials of the free parameters that vary in that cosmology; it holds every base matrix and every requested combination whose matrices are all there, and nothing else; each base matrix in it has the other cosmological parameters held fixed and its nuisance parameters fixed, marginalised or left according to the request, and each combination is the sum so treated; for positive definite base matrices over all parameters the analysis is always created; an unknown cosmology is refused.

Code: seyfert/fisher/final_results_core.py:create_results_for_cosmology, seyfert/fisher/final_results_core.py:get_free_cosmo_pars_for_cosmology, seyfert/fisher/final_results_core.py:evaluate_a_posteriori_fisher_combinations.

`theories/ResultsProps2.v`: `C100_free_parameters`, `C100_result_set`, `C100_positive_definite`.

Instances: `C100_ex`.

C100_result_set gives the content, C100_positive_definite that the set is created, C100_free_parameters the varying parameters and the KeyError. The writing of the analysis to its directory is not modelled here.

### C101 Confidence ranges, ellipses and plot ranges of an analysis (partial)

Once the errors of an analysis are evaluated, for every matrix that is positive definite and every confidence level: computeParameterRangeForObsAtCL gives the fiducial value plus or minus sqrt(2) erfinv(CL) standard deviations of the inverse matrix; the ellipse of computeEllipseInfoDictForObsAndCL, drawn by matplotlib, covers exactly the points whose distance from the fiducial values in units of the 2x2 covariance is at most that factor, so its shadows on the axes are the two ranges, it does not depend on the order of the parameters, and it grows with the level; a range and an ellipse hold the probability of their level; the plot range of a parameter shows the 99 % range of every matrix.

Code: seyfert/fisher/fisher_analysis.py:computeParameterRangeForObsAtCL, seyfert/fisher/fisher_analysis.py:computeGaussianInfoDictForObsAndCL, seyfert/fisher/fisher_analysis.py:computeEllipseInfoDictForObsAndCL, seyfert/fisher/fisher_plot.py:computePlotRangeForParameter.

`theories/EllipseProps.v`: `C101_regions`, `C101_available`, `C101_needs`, `C101_consistent`, `C101_range_level`, `C101_mask`, `C101_ellipse_below_level`, `C101_plot_range`, `C101_plot_range_shows`.

Instances: `C101_instance`, `C101_plot_instance`.

Proved over the real numbers: ranges, ellipses (covered set, shadows, order, growth), masks and what they need. False of the code, and proved so: an ellipse holds less than the probability of its level, at every level, because the one-dimensional factor sqrt(2) erfinv(CL) is used for two parameters (C101_ellipse_below_level); the plot range shows every 99 % range only if all matrices have the same error (C101_plot_range_shows).

### C102 The forecasts of run_seyfert, in one process or as batch jobs (partial)

run_seyfert runs every forecast configuration of its command line exactly once, in the order of the numbers of bins in their names (of their paths when a name has none). In interactive mode each gets its own directory under the working directory. In batch mode each is submitted with the queue, cores and memory asked for (10000 MB when it has more than 24 spectroscopic bins and less was asked for), independently of the submissions before it; the command handed to bsub, split by the shell and read again by run_seyfert, runs the forecast the interactive mode would have run: the same configuration, directory and options. Mode "no" runs nothing and another mode is an error.

Code: bin/run_seyfert:main, seyfert/main/seyfert_core.py:submit_batch_jobs, seyfert/main/seyfert_core.py:execute_interactively, seyfert/main/seyfert_core.py:get_interactive_run_command, seyfert/main/seyfert_core.py:compute_bsub_options, seyfert/config/cmd_line.py:get_paths_from_files_list, seyfert/main/bsub_utils.py:submitJob.

`theories/RunProps.v`: `C102_own_directory`, `C102_submission`.

`theories/RunProps2.v`: `C102_order`, `C102_batch`, `C102_interactive`, `C102_modes`, `C102_job`, `C102_test_batch_refuted`, `C102_space_refuted`, `C102_shared_refuted`.

`theories/RunProps3.v`: `C102_command_line`, `C102_usage`, `C102_configs`.

Instances: `C102_instance`, `C102_line_instance`, `C102_list_instance`.

Proved for values without spaces and quotes that do not begin with a dash: submission text, shell words, options read back, the one forecast of a job, order, modes, failures. False of the code, and proved so: --test_batch False is a test run, a working directory with a space gives jobs that cannot start, equal file names in the same second share a directory.

### C103 The final results on disk (partial)

create_final_results leaves under the output directory, for each of w0_wa_CDM and LCDM and for nuisance parameters marginalised before, marginalised after and fixed, a file for every base matrix of the run with the parameters of the cosmology, a file for every a posteriori combination of base matrices that are there with their sum, and tables of the marginalised errors and relative errors of these matrices. Nothing outside the output directory changes, and without overwrite no existing file does. Positive definite base matrices always give all six result sets. Running it again is harmless, and FisherAnalysis.fromRundir loads a result set back as it was saved.

Code: seyfert/fisher/final_results_core.py:create_final_results, seyfert/fisher/final_results_core.py:create_results_for_cosmology, seyfert/fisher/fisher_analysis.py:saveFishersToDisk, seyfert/fisher/fisher_analysis.py:writeAbsoluteAndRelativeMarginalizedErrors, seyfert/fisher/fisher_analysis.py:fromRundir, seyfert/fisher/fisher_analysis.py:loadBaseFishersFromDir, seyfert/utils/workspace.py:getResultsDir.

`theories/OutProps.v`: `C103_untouched`, `C103_final`, `C103_tables`.

`theories/OutProps2.v`: `C103_rerun`, `C103_reload`.

`theories/OutProps3.v`: `C103_complete`, `C103_rerun_raises`, `C103_glob`.

Instances: `C103_instance`.

Proved for any disk: nothing outside is touched, contents of the files and tables, success for positive definite matrices and sums into a new directory. False of the code, and proved so: running it again raises FileExistsError (C103_rerun, C103_rerun_raises), and a result set cannot be loaded when a free cosmological parameter of the run is fixed in the cosmology, or for LCDM without w0 and wa (C103_reload gives the exact conditions).

### C104 Fisher matrices of the IST code comparison (partial)

FisherMatrix.from_ISTfile reads every entry of an IST Fisher matrix file to the row and column of its own parameters under SEYFERT's names, sorted by name, for columns with the comparison's parameter names and any bias columns; a file that is not square is refused. The matrix is named after the probe in the file name. What the batch of a run adds as fisher_IST_gcsp_pk.hdf5 loads back as the spectroscopic clustering matrix of that file, and nothing else on disk changes.

Code: seyfert/file_io/ext_input.py:readISTFisherMatrixFile, seyfert/fisher/fisher_matrix.py:from_ISTfile, seyfert/main/seyfert_core.py.

`theories/IstProps.v`: `C104_entries`, `C104_not_square`, `C104_standard`, `C104_spellings_refuted`, `C104_name`, `C104_unnamed`, `C104_name_refuted`, `C104_run`, `C104_saved`.

Instances: `C104_instance`, `C104_is_base`.

File names whose probe is followed by letters of the name pattern raise KeyError (C104_name_refuted), and two spellings of one parameter collide (C104_spellings_refuted).

### C105 Which variation an IST file belongs to (partial)

parseISTCosmoString gives for each file name of the IST comparison the parameter and step of the variation it names, whose displacement is the one written in the name. Different variations give different results, a variation it does not know raises KeyError, and only names that contain no variation are taken as the fiducial case.

Code: seyfert/file_io/ext_input.py:parseISTCosmoString, seyfert/file_io/ext_input.py:ISTInputReader.__init__.

`theories/IstProps2.v`: `C105_parse`, `C105_central`, `C105_unknown`, `C105_injective`, `C105_digits_refuted`.

Instances: `C105_instance`.

A displacement written with another number of digits is taken as the fiducial case (C105_digits_refuted); everything else is proved.

### C106 Angular spectra of the IST comparison (partial)

readSCameraClFile puts each column of the file at the pair of bins its header names, at the multipole of its row, counting bins from the smallest number in the header, and nothing elsewhere; for an auto correlation also at the exchanged pair. The header's pairs may come in any order, with any text between them. A file whose header is missing, names no pairs or does not fit is refused.

Code: seyfert/file_io/ext_input.py:readSCameraClFile, seyfert/file_io/ext_input.py:getIndicesFromSCameraClFileHeader.

`theories/IstProps3.v`: `C106_read`, `C106_symmetric`, `C106_mirrored`, `C106_refused`, `C106_no_separator_refuted`.

Instances: `C106_instance`.

Bin numbers written without separator are misread (C106_no_separator_refuted); entries listed both ways in an auto correlation file are exchanged (C106_mirrored).

### C107 Power spectra of the IST comparison (partial)

readISTPowerSpectrumTextFile gives each value of a table at its own redshift and wave number, both increasing. convertISTPowerSpectra writes one directory per file, named after the variation in the file name, with the cosmological parameters of that variation and the spectra without factors of h, taking the h of that variation, at the positive redshifts of the file. No two files share a directory, and the parameters end as they began.

Code: seyfert/file_io/ext_input.py:readISTPowerSpectrumTextFile, seyfert/file_io/ext_input.py:convertISTPowerSpectra.

`theories/IstProps4.v`: `C107_read`, `C107_rising`, `C107_incomplete`, `C107_units`, `C107_files`, `C107_twice`, `C107_variation`, `C107_order_refuted`.

Instances: `C107_instance`.

Tables with rising redshifts are accepted and read in the opposite order (C107_rising, C107_order_refuted); proved for falling redshifts.

### C108 Spectra from the inputs of a forecast (partial)

compute_cls gives one spectrum for every pair of configured probes, at the multipoles of the probe or common to the two, each cell being the integral of the power spectrum at (l+1/2)/r (suppressed for voids) times the weights of the two probes in their bins. A weight uses the current values of the parameters of its own probe: the i-th bin of a constant bias has the i-th parameter, a piecewise bias has the parameter numbered after the bin of the redshift, lensing has its efficiency minus the alignment term. Displacing a nuisance parameter of one probe leaves every spectrum without that probe as it was. Missing densities, parameters, files and models are refused.

Code: seyfert/cosmology/c_ells.py:AngularCoefficientsCollector, seyfert/main/cl_core.py:compute_cls, seyfert/cosmology/weight_functions.py:WeightFunctionWithBias, seyfert/cosmology/bias.py:Bias, seyfert/derivatives/differentiator.py:computeDerivative.

`theories/CollProps.v`: `C108_spectra`, `C108_own_inputs`, `C108_displaced`, `C108_flags`.

`theories/CollProps2.v`: `C108_constant`, `C108_ten_bins`, `C108_eleven_bins_refuted`, `C108_piecewise`, `C108_flagship`, `C108_growth`, `C108_vdn`, `C108_lensing`, `C108_edges`, `C108_errors`.

Instances: `C108_instance`, `C108_displaced_instance`, `C108_own_instance`, `C108_eleven_instance`, `C108_ten_instance`, `C108_piecewise_instance`, `C108_flagship_instance`, `C108_growth_instance`, `C108_lensing_instance`, `C108_errors_instance`.

With eleven or more bins a constant bias gives the third bin the parameter of number 10 (C108_eleven_bins_refuted); everything else holds for all inputs.

### C109 Which run directories are collected (partial)

selectDirectories takes exactly the directories (below the root, or at any depth if asked) whose names follow one of the three ways runs are named, match all additional patterns, pass all filters, contain all wanted texts and none of the unwanted ones; each is given with the scenario and the number of bins its name says. A run made by the pipeline from the standard options is recognised with its scenario and number of bins. A directory whose name is no run's name is never taken, and links are judged alike in both kinds of search.

Code: seyfert/utils/dir_explorer.py:DirectoryExplorer.selectDirectories, seyfert/utils/dir_explorer.py:DirectoryExplorer.directoryFilter, seyfert/utils/dir_explorer.py:DirectoryExplorer.getMandatoryDirectoryMatches.

`theories/SelectProps.v`: `C109_flat`, `C109_flat_groups`, `C109_order`, `C109_walk`, `C109_walk_groups`, `C109_missing`, `C109_pipeline`, `C109_mandatory_refuted`, `C109_link_refuted`.

Instances: `C109_ex_names`, `C109_ex_flat`, `C109_ex_walk`, `C109_ex_extra`.

Both searches are proved in full (which directories, in which order, with which groups; runs of the pipeline are recognised). Refuted parts: with additional patterns the mandatory ones are not required, and links are judged by different names in the two searches.

### C110 Tables of errors of several runs (proved)

buildErrorsTable gives one row per run and matrix, in the order of the runs, with the errors of the only table of that run in the asked results directory and the options of that run in columns of their own; the columns are those of any run. It succeeds exactly if there are runs, each has exactly one such table and no column is called like the index. Relative and absolute errors are never mixed up.

Code: seyfert/fisher/results_collector.py:ResultsCollector.buildErrorsTable, seyfert/fisher/results_collector.py:ResultsCollector.buildMarginalizedErrorsTable, seyfert/utils/filesystem_utils.py:get_file_from_dir_with_pattern.

`theories/GatherProps.v`: `C110_rows`, `C110_columns`, `C110_success`, `C110_apart`, `C110_kinds`, `C110_failure`.

Instances: `C110_instance`.

### C111 Analyses of several runs in a frame (partial)

buildFisherAnalysesDataFrame gives each run a row with its own options and its own analysis. replaceHybridFishersWith4BinsEquivalents gives every forecast that has not four bins the matrices with Pk in their name, their errors and their relative errors, of the forecast with four bins and otherwise the same options, and changes nothing else; if it fails it can be called again. getFisherAnalysesSubDf chooses exactly the rows with the given values, be they numbers, truth values or texts. The table of all errors has the errors of each matrix beside the options of its forecast, and loaded analyses have both tables.

Code: seyfert/fisher/results_collector.py:ResultsCollector.buildFisherAnalysesDataFrame, seyfert/fisher/results_collector.py:ResultsCollector.replaceHybridFishersWith4BinsEquivalents, seyfert/fisher/results_collector.py:ResultsCollector.getFisherAnalysesSubDf, seyfert/fisher/results_collector.py:ResultsCollector.getErrorsTableFromAnalysesDataFrame, seyfert/fisher/results_collector.py:ResultsCollector.loadFisherAnalysesPickle.

`theories/GatherProps2.v`: `C111_frame`, `C111_frame_success`, `C111_frame_order_refuted`, `C111_replaced`, `C111_stale_refuted`, `C111_missing`, `C111_duplicates`, `C111_succeeds`, `C111_failed_again`, `C111_select`, `C111_select_text_refuted`, `C111_select_names`, `C111_tables`, `C111_complete`.

Instances: `C111_instance`, `C111_stale_instance`, `C111_select_instance`.

Frame, replacement, selection by numbers and truth values, table of errors and loading are proved. Refuted parts: options in another order end under wrong names, relative errors become stale, selection by a text fails; after a failure the frame stays indexed.

### C112 Dictionaries of spectra (partial)

A dictionary of spectra gives for a pair of probes, written as a text or as a tuple of aliases, what is stored for it, or the transposed of what is stored for the exchanged pair, or KeyError; the pair is 'in' it exactly in the first two cases. Exchanging the probes exchanges the bins. tuple_keys are the stored pairs, tuple_key_to_str_key gives the text under which the pair is stored. What is stored for a pair, in whatever spelling or order, is what is given for it afterwards in all of them, and other pairs are as before; deleting takes exactly one pair away. A dictionary made from another has its entries.

Code: seyfert/base_structs/cl_dict.py:FlexDict.__getitem__, seyfert/base_structs/cl_dict.py:FlexDict.tuple_key_to_str_key, seyfert/base_structs/cl_dict.py:FlexDict.tuple_keys, seyfert/base_structs/cl_dict.py:TupleSmartDict.__getitem__, seyfert/base_structs/generic_dict.py:GenericDictInterface.

`theories/FlexProps.v`: `C112_lookup`, `C112_exchange`, `C112_in`, `C112_tuples`, `C112_text`, `C112_text_refuted`, `C112_text_missing`, `C112_set`, `C112_update`, `C112_set_exchanged_refuted`, `C112_set_tuple_refuted`, `C112_delete`, `C112_bad`, `C112_copy_refuted`, `C112_tuple_dict`, `C112_tuple_dict_text`, `C112_spectra`.

Instances: `C112_instance`.

look-ups, membership, tuples and deletions as stated; the text of a tuple is wrong for pairs stored in the other order, storing under an exchanged pair or a tuple makes a second entry, and copies are empty

### C113 Times and durations as texts (partial)

A time written by datetime_str_format and read by date_from_str with the same separator is the same to the second; different times have different texts, and the texts of two times are ordered as the times are; with another separator the text is refused with ValueError, and only real dates are ever read. time_format splits a time into hours, minutes below 60, seconds below 60 and milliseconds below 1000 that add up to it. The metadata of a run contain its start, its end and how long it took, however long that was. str_to_bool reads true and false in any case and refuses everything else.

Code: seyfert/utils/formatters.py:datetime_str_format, seyfert/utils/formatters.py:date_from_str, seyfert/utils/formatters.py:time_format, seyfert/utils/formatters.py:str_to_bool, seyfert/main/task_runners.py:ForecastRunner.addTimingDataToMetadata.

`theories/TimeProps.v`: `C113_round_trip`, `C113_injective`, `C113_read`, `C113_order`, `C113_other_separator`, `C113_time`, `C113_time_full_second_refuted`, `C113_time_full_second`, `C113_duration_text`, `C113_metadata`, `C113_duration_refuted`, `C113_bool`, `C113_bool_error`.

Instances: `C113_instance`.

round trip, order, refusal and sums as stated; the milliseconds can be a full second, and the duration in the metadata is wrong for runs of a day or more

### C114 Report of batch jobs (partial)

A job is reported as failed exactly if its error file is not empty, as a success exactly if its error file is empty and there is an output, as not executed exactly if there are neither error nor output files; the status does not depend on the order in which files are listed, and jobs of a batch run are found. A stage lists all its jobs in the order of their identifiers, its counters add up and its status is failure exactly if a job failed, success if all succeeded, not executed if none ran, not completed if the rest was not executed; evaluating it again changes nothing. A run is a success exactly if all stages are (and there is one), a failure if one is, not completed if a stage is not completed. The report contains all stages and all jobs, the summary all stages, whatever the status of the jobs is; the job submitter writes it when all stages are done.

Code: seyfert/main/report_maker.py:JobReportMaker, seyfert/main/report_maker.py:TaskReportMaker, seyfert/main/report_maker.py:SeyfertReportMaker, seyfert/main/bsub_utils.py:submitJob, bin/job_submitter.

`theories/ReportProps.v`: `C114_job`, `C114_resubmitted_refuted`, `C114_batch_refuted`, `C114_jobs`, `C114_no_jobs`, `C114_order_refuted`, `C114_counts`, `C114_stage`, `C114_again_refuted`, `C114_again_counts`, `C114_stages`, `C114_run`, `C114_nothing_refuted`, `C114_not_completed_refuted`, `C114_report`, `C114_report_refuted`, `C114_never_refuted`.

Instances: `C114_instance`, `C114_stop_instance`.

Holds for the status of a job, the counters and status of a stage, the status of a run and the contents of a report that is completed. Refuted: jobs of a batch run are not found, listing order matters with several error files, text order of identifiers, double evaluation, runs without stages, stages not completed, jobs without error file, and the condition of the submitter; a stage without jobs fails.

### C115 The derivative stage (partial)

compute_derivatives, run on the files of spectra of all steps of a parameter in any order of listing, gives for every pair of probes the derivatives that the computation in memory gives; a spectrum of other probes than the parameter's has derivative zero; a step whose file is missing never goes unnoticed; the method of the parameter decides which derivative is computed and an unknown method is refused. The file written and read again has the derivative and multipoles of every pair of probes and nothing else; derivatives that were not evaluated are not written. The Fisher stage reads for every parameter the file of its directory, also after the stage was run again.

Code: seyfert/derivatives/cl_derivative.py:ClDerivative.evaluate, seyfert/derivatives/cl_derivative.py:ClDerivativeCollector, seyfert/derivatives/differentiator.py:SteMClDifferentiator.loadClData, bin/compute_derivatives, seyfert/main/fisher_core.py:prepare_inputs.

`theories/DerProps.v`: `C115_agree`, `C115_complete`, `C115_unrelated`, `C115_analytic`, `C115_method`, `C115_round_trip`, `C115_not_evaluated`, `C115_foreign_group`, `C115_stage`, `C115_read`, `C115_other_probes_refuted`, `C115_misaligned_refuted`.

Instances: `C115_instance`, `C115_stage_instance`.

Proved: both ways of computing derivatives agree, zero for other probes, methods, round trip of the file, reading by the Fisher stage. Refuted: a missing step is noticed only by the number of files, and a second run with other probes makes the Fisher stage fail.

### C116 The table of resources used (partial)

After the Fisher jobs of a batch run resources_usage.csv has a row for every log file, in the order of the directory: the name of the job is read from the name of its log, start and end are the times in the log, the duration is their difference, and CPU time and memory are the figures of the log, whatever text is around them. Without log files there is no table.

Code: seyfert/main/bsub_utils.py:BsubInterface.getResourceUsageTable, seyfert/main/bsub_utils.py:BsubInterface.extractDateTimeFromOut, seyfert/main/bsub_utils.py:BsubInterface.submitJob, seyfert/main/task_runners.py:FisherTaskRunner.submitBatchJobs.

`theories/UsageProps.v`: `C116_time`, `C116_figure`, `C116_name`, `C116_later_name`, `C116_row`, `C116_table`, `C116_later_refuted`, `C116_missing_refuted`, `C116_empty`, `C116_figure_form`, `C116_point`, `C116_date_form`, `C116_seconds`.

Instances: `C116_instance`, `C116_gives_instance`, `C116_later_instance`, `C116_form_instance`.

C116_row, C116_table, C116_time, C116_figure, C116_name and C116_empty hold for all texts for logs named in 2020 or 2021 and jobs of less than a day; false of the code otherwise: from 2022 on no table is ever written (C116_later_refuted, C116_later_name), one log without a figure leaves no table (C116_missing_refuted), durations lose whole days (C116_row)

### C117 The shot noise of the Fisher stage (partial)

compute_fisher_matrix takes the noisy spectra saved by the run. When a shot-noise file is given, as an argument or else in the configuration, every spectrum, every entry of the collection and every matrix it uses is the one a run with that file from the start would have, whatever noise was saved; without a file they are the saved ones.

Code: seyfert/main/fisher_core.py:prepare_inputs, seyfert/fisher/delta_cl.py:DeltaClCollection.loadShotNoiseFromFile, seyfert/fisher/delta_cl.py:DeltaClCollection.evaluateSingleBlocks, seyfert/fisher/delta_cl.py:H5DeltaClCollection.

`theories/InputProps.v`: `C117_saved`, `C117_noise`, `C117_entries`, `C117_probes`, `C117_several_refuted`, `C117_missing_pair`, `C117_no_file`, `C117_empty_refuted`.

Instances: `C117_instance`.

True of the single spectra and of the blocks of single probes, which are all that the Fisher matrices use (C117_noise, C117_entries, C117_probes, C117_saved). False of the matrices of several probes in the collection: they keep the saved noise (C117_several_refuted). A collection without an entry or with a single block cannot be read back (C117_empty_refuted).

### C118 Comparing two runs (partial)

compare_runs tests, for each Fisher matrix (and inverse) and each table of errors that both runs have, whether every entry of one differs from the other by less than the threshold relative to their mean; a run equals itself; the order of the runs does not matter; tables with other rows or columns are refused; runs that the program itself produced can be compared.

Code: seyfert/utils/run_loader.py:RunComparison.evaluateMetricsAndTest, seyfert/utils/run_loader.py:ComparisonMetrics.testAllMetrics, seyfert/utils/run_loader.py:ComparisonMetrics.getComparisonKeys, seyfert/utils/run_loader.py:RunLoader.loadMetadata, seyfert/utils/run_loader.py:RunLoader.loadResults, seyfert/fisher/fisher_results.py:FisherResultsCollector.loadFromResultsDir, seyfert/numeric/general.py:pad.

`theories/CompareProps.v`: `C118_tests`, `C118_succeeds`, `C118_same`, `C118_symmetric`, `C118_negative_refuted`, `C118_fails`, `C118_no_results_refuted`, `C118_results`, `C118_own_results_refuted`, `C118_version`, `C118_no_version_refuted`, `C118_thresholds`, `C118_version_letter`, `C118_version_end`, `C118_name`.

Instances: `C118_instance`, `C118_letter_instance`.

The tests are exact for entries with a positive sum; entries with a negative sum always pass, runs without results and the results written by the code cannot be compared (refuted).

### C119 Jobs of a batch run (partial)

A batch run has one job per variation: the central one and one per step of each free parameter derived by SteM (only cosmological ones for the power spectra), and one derivative job per free parameter. Each job has its own directory, reads its variation back from the name of that directory, finds the power spectrum it needs among those of the previous stage, and leaves the result that the computation in memory gives for the same variation. The script of each job names its own directory.

Code: seyfert/main/task_runners.py:PowerSpectrumTaskRunner.createJobDirStructure, seyfert/main/task_runners.py:AngularTaskRunner.createJobDirStructure, seyfert/main/task_runners.py:DerivativeTaskRunner.createJobDirStructure, seyfert/main/task_runners.py:TaskRunner.writeJobShellScript, bin/compute_pmm, bin/compute_cls.

`theories/JobProps.v`: `C119_jobs`, `C119_directories`, `C119_found`, `C119_content`, `C119_in_memory`, `C119_few_refuted`, `C119_many_refuted`, `C119_scripts`.

Instances: `C119_instance`, `C119_scripts_ex`, `C119_many_ex`.

Jobs, directories, files found, contents, agreement with the computation in memory and scripts are proved for at most nine displacements. False beyond: with ten or more a step of two digits is computed as another step; with fewer than seven the computation in memory fails where the jobs work.

### C120 Options of the job submitter (partial)

A stage runs when its flag is given alone or as true or a nonzero number, and does not run when the flag is absent, false or zero, on the command line and in the ini file alike. A key of the ini file replaces the value of the command line and nothing else changes; an unknown key, a missing section or a missing file is an error. Execution is one of no, interactive and batch, the number of cores is positive, options naming configurations and directories become paths. The run is named by the identifier that was given, followed by the version. After the run the directories of the variations of the spectra are removed when they were computed by it and are not to be kept, and no others.

Code: bin/job_submitter:main, bin/job_submitter:check_options, seyfert/utils/general_utils.py:convert_keyval_params_type, seyfert/config/cmd_line.py:JobSubmitterCommandLineArgs, seyfert/main/task_runners.py:ForecastRunner.setRunID.

`theories/SubmitProps.v`: `C120_flags`, `C120_word_refuted`, `C120_ini`, `C120_ini_false_refuted`, `C120_ini_cores_refuted`, `C120_ini_errors`, `C120_checks`, `C120_refused`, `C120_number_as_path_refuted`, `C120_run_id`, `C120_no_run_id`, `C120_zeros_refuted`, `C120_cleanup`, `C120_cleanup_not_executed_refuted`, `C120_cleanup_steps_refuted`.

Instances: `C120_instance`, `C120_word_instance`.

Flags on the command line, precedence of the ini file, errors, checks, paths, names and the removal of variations are proved for all inputs. False of the code, and refuted: other texts start a stage, values of the ini file are not converted, leading zeros of identifiers are lost, numeric paths are refused, directories are removed although nothing was executed.

### C121 Inputs of new and existing runs (partial)

In a new run directory every stage reads the configurations, the parameters and the input data given on the command line, densities and power spectra are on the same grid, and the metadata hold the name of the run. A run on an existing directory uses the forecast configuration, parameters and input data stored there, its densities and power spectra are on the same grid, its metadata keep the name of the run and record external directories; repeating it with the same options changes no result.

Code: seyfert/main/task_runners.py:ForecastRunner.doForecast, seyfert/main/task_runners.py:ForecastRunner.loadForecastConfiguration, seyfert/main/task_runners.py:ForecastRunner.computeDensities, seyfert/main/task_runners.py:ForecastRunner.populateInitialMetadata, bin/compute_pmm, bin/compute_cls.

`theories/RerunProps.v`: `C121_new`, `C121_no_forecast`, `C121_existing`, `C121_rerun`, `C121_grid_alone`, `C121_grid_refuted`, `C121_data_refuted`, `C121_metadata_refuted`.

Instances: `C121_instance`.

New runs, the stored inputs used by runs on existing directories, the grid of spectra computed alone and repeated runs are proved for all inputs. False of the code, and refuted: the input data of densities, the grid when power spectra are recomputed with another configuration, the metadata.

### C122 Biases multiplied by sigma8 (partial)

The first transformation of a Fisher matrix replaces each galaxy bias by its product with sigma8 and then fixes sigma8: its quadratic form on a displacement of the new parameters is that of the given matrix on the displacement of the old ones that leaves sigma8 and changes each bias by the change of the product divided by sigma8. The second one then gives back sigma8 in place of the biases, all of which scale with it. Both work for every number of redshift bins and with all parameters the code knows.

Code: seyfert/utils/ist_comparison.py:get_params_bases, seyfert/utils/ist_comparison.py:T1, seyfert/utils/ist_comparison.py:T2, seyfert/utils/ist_comparison.py:apply_T1_remove_sigma8, seyfert/utils/ist_comparison.py:apply_T1_remove_sigma8_then_T2.

`theories/ProdBiasProps.v`: `C122_products`, `C122_sigma8`, `C122_total`, `C122_no_sigma8`, `C122_same_symbol_refuted`, `C122_known`, `C122_eleven_bins_refuted`, `C122_alignment_refuted`.

Instances: `C122_instance`.

false with bins 1 and 10 together, whose biases have one symbol, and with the intrinsic alignment parameters, whose texts are no symbols; proved for all matrices with distinct symbols, among them all subsets of the cosmological parameters and the first ten biases

### C123 Configurations from the window (partial)

A configuration saved from the window and loaded again holds what the window shows: every row of the parameter table becomes the parameter with that fiducial value, freedom, units, displacement and derivative method; the checked probes and no others are present, with the multipoles, the density file, the bias file, the settings and the nuisance parameters of their page, the latter belonging to the probe of the page. The name of the file ends with .json.

Code: seyfert/gui/interface_window.py:dumpToJSONAndExit, seyfert/gui/interface_window.py:dumpGUIToJSON, seyfert/config/forecast_config.py:loadProbeConfigurationsFromJSONConfig, seyfert/config/forecast_config.py:loadPhysicalParametersFromJSONConfig, seyfert/config/probe_config.py:loadFromJSONConfig, seyfert/config/probe_config.py:loadAllNuisanceParameters.

`theories/GuiProps.v`: `C123_parameters`, `C123_displacements`, `C123_box`, `C123_no_lensing_parameters_refuted`, `C123_alignment_refuted`, `C123_zero_derivative_refuted`, `C123_loaded`, `C123_void_refuted`, `C123_box_refuted`, `C123_file`, `C123_file_stamp`, `C123_file_inner_refuted`.

Instances: `C123_instance`.

Rows, displacements, probes, multipoles, files and settings are proved for all windows; refuted: alignment parameters belong to the probe WL, void pages cannot be loaded, the box for external multipoles is ignored, inner .json extensions count.

### C124 Tables of results in the notebooks (partial)

A selection of a table of results holds the rows that meet all conditions of the query, in order, with all result columns; unknown options and keys are reported and an empty query selects everything. Differences with respect to a reference matrix are taken between rows with the same values of the other index levels; the table of figures of merit holds for each row the difference and the percentage with respect to the reference of its matrix. Rows of matrices with GCsp(Pk) are replaced by those of four bins. A LaTeX row shows bins, name, figure of merit, its change with its sign, and all errors.

Code: seyfert/notebook_helpers/table_helpers.py:query_dict, seyfert/notebook_helpers/table_helpers.py:select_from_query_dict, seyfert/notebook_helpers/table_helpers.py:compute_percentage_difference, seyfert/notebook_helpers/table_helpers.py:get_fom_table_for_fishers, seyfert/notebook_helpers/table_helpers.py:replace_hybrid_fishers_with_4_bins_equivalents, seyfert/notebook_helpers/table_helpers.py:get_latex_row.

`theories/ResTabProps.v`: `C124_query`, `C124_defaults`, `C124_unknown_option_refuted`, `C124_selected`, `C124_columns`, `C124_constant_result_refuted`, `C124_query_columns`, `C124_unknown_key`, `C124_empty_query_refuted`, `C124_difference`, `C124_difference_unknown`, `C124_percentage`, `C124_fom`, `C124_fom_total`, `C124_fom_flat_refuted`, `C124_hybrid`, `C124_hybrid_missing`, `C124_latex`, `C124_decrease_refuted`, `C124_no_bins_refuted`.

Instances: `C124_instance`.

Selections, differences, figures of merit, four-bin rows and LaTeX rows are proved for all tables; refuted: unknown options, empty queries, constant result columns, single index level, signs of decreases, rows without bins.

### C125 Files of earlier versions (partial)

The files of a run are read by the version in the name of its directory. Those before 1.1.0, pre-releases of it included, have the old layout: the cosmology gets the redshifts, the Hubble parameter, the distances, the growth factor and the power spectrum of the file, and each spectrum its values, multipoles, kernel and the weights and densities of its two probes, together with the grid. Files of 1.1.0 give the parameters with their values; the power spectrum is loaded if and only if it is asked for. A file of derivatives may hold datasets or groups. What is written in the old layout can be read again.

Code: seyfert/file_io/retro_comp.py:write_old_cosmo_file, seyfert/file_io/retro_comp.py:read_v104_cosmo_file, seyfert/file_io/retro_comp.py:read_v110_cosmo_file, seyfert/file_io/retro_comp.py:read_v104_cls_file, seyfert/file_io/retro_comp.py:read_cls_file, seyfert/file_io/retro_comp.py:read_cosmo_file, seyfert/file_io/retro_comp.py:read_dcl_file.

`theories/RetroProps.v`: `C125_old_cosmology`, `C125_growth_refuted`, `C125_rewritten_refuted`, `C125_110`, `C125_newer`, `C125_power_spectrum_refuted`, `C125_letters_refuted`, `C125_old_spectra`, `C125_old_spectra_total`, `C125_grid_refuted`, `C125_new_spectra`, `C125_derivatives`, `C125_derivatives_total`.

Instances: `C125_instance`.

Choice of the reader and contents are proved for all versions and files; refuted: growth factor, files written in the old layout, the option for the power spectrum, the grid of old spectra, other letters.

### C126 Spectra and derivatives of the comparison read from directories (partial)

The files of the three directories of spectra are grouped by the variation in their names: every variation with a file is converted once, with the file of each directory that belongs to it, and variations that are not in all three directories are refused. A file is taken if its array has the bins of the surveys, and its values and multipoles are kept in order. The derivatives read from files are those of the parameter in the name and the probes of the directory; files with another name, with two different parameters, of an unknown parameter or in an unknown directory are refused.

Code: seyfert/file_io/ext_input.py:convertSCameraDerivativesInput, seyfert/file_io/ext_input.py:readSCameraClDerivatives, seyfert/file_io/ext_input.py:buildCosmoClsFilesDict.

`theories/ScamProps.v`: `C126_name`, `C126_matched`, `C126_files`, `C126_build`, `C126_never_refuted`, `C126_begun_refuted`, `C126_read`, `C126_derivatives`, `C126_distinct`, `C126_refused`, `C126_spectrum`, `C126_twice_refuted`.

Instances: `C126_instance`, `C126_derivatives_instance`.

The conversion of spectra always fails, which is proved (C126_never_refuted, C126_begun_refuted); two files of one variation are not noticed (C126_twice_refuted). The grouping of the files and the reading of derivatives are proved in full.

### C127 Check of the parameters of the comparison (partial)

The check before a conversion passes for exactly the eight cosmological parameters of the comparison with a fiducial h of 0.67, and then the collection is unchanged. A missing parameter, one that is not cosmological or another h is an AssertionError; parameters that are not of the comparison are removed.

Code: seyfert/file_io/ext_input.py:ISTInputReader.checkISTParams, seyfert/base_structs/generic_dict.py:GenericDictInterface.__delitem__.

`theories/IstCheckProps.v`: `C127_passes`, `C127_missing`, `C127_other_h`, `C127_removal_refuted`, `C127_none`.

Instances: `C127_instance`.

When it passes and the two assertions are proved for all collections; the removal of other parameters is refuted: it ends with a RuntimeError after the first (C127_removal_refuted).

### C128 Conversions of units (proved)

Conversions between inches, points and centimetres, between steradians, square degrees and square minutes, and between densities per steradian, per square degree and per square minute undo one another; an inch is 72 points and 2.54 cm, a square degree is 3600 square minutes and the square of PI/180; the number of objects in an area, density times area, does not depend on the unit.

Code: seyfert/utils/converters.py.

`theories/UnitProps.v`: `C128_inverse`, `C128_units`, `C128_counts`, `C128_monotone`.

Instances: `C128_instance`.

Over the real numbers; rounding is not modelled.

### C129 Directory of the configurations of several runs (partial)

The directory made for several runs has a subdirectory for each kind of configuration, with the file given for it and all files that were there before; no external directory is named; a file that does not exist is a FileNotFoundError. Reading gives all JSON files for forecasts, Fisher matrices and spectra, the file for the other kinds and the external directories, and it gives back what was copied, whatever the order in which the file system lists it.

Code: seyfert/main/orchestration.py:create_config_dir_tree, seyfert/main/orchestration.py:get_configs.

`theories/CfgTreeProps.v`: `C129_read`, `C129_readable`, `C129_text_refuted`, `C129_empty`, `C129_made`, `C129_not_made`, `C129_again`, `C129_optional_refuted`, `C129_suffix_refuted`, `C129_stale_refuted`.

Instances: `C129_instance`.

Making and reading are proved for all contents and orders, and that all five files given are read again from a new directory (C129_again); refuted for optional files left out, other suffixes, directories used before and paths given as texts.

## Axioms of each theorem (`Print Assumptions`)

**No axioms** (784 theorems):
`C01_unvecp_vecp`, `C01_vecp_unvecp`, `C01_unvecp_defined`, `C01_unvecp_symmetric`, `C01_vecp_rejects_non_square`, `C02_symmetric_enumeration`, `C02_full_enumeration`, `C02_enumeration_defined`, `C03_duplication`, `C03_elimination`, `C03_commutation`, `C03_unvec_vec`, `C04_exact_intersection`, `C04_any_order`, `C04_empty_rejected`, `C04_single_as_given`, `C04_exact_union`, `C04_union_any_order`, `C04_union_needs_two`, `C05_aligned`, `C05_succeeds`, `C05_unsorted_misaligned_refuted`, `C06_block`, `C06_assembled`, `C07_symmetric`, `C08_terms`, `C08_symmetric_terms`, `C08_order_of_parameters`, `C08_succeeds`, `C09_positive_semidefinite`, `C09_positive_covariance`, `C10_counted_once`, `C11_free_parameters`, `C12_sum`, `C12_operands_unchanged`, `C13_commutes`, `C13_associates`, `C13_any_order`, `C14_subtraction`, `C14_subtraction_undoes_addition`, `C14_antisymmetric`, `C14_operands_unchanged`, `C15_fix`, `C15_unknown_raises_unchanged`, `C15_two_steps`, `C16_covariance_kept`, `C16_schur_complement`, `C16_unknown_raises_unchanged`, `C16_succeeds`, `C16_posdef_succeeds`, `C16_posdef_kept`, `C16_failed_marginalisation_half_updates`, `C17_composes`, `C17_either_order`, `C17_nothing`, `C18_marginalize_nuisance`, `C18_nuisance_flag_off`, `C18_nuisance_before_or_after`, `C18_before_or_after`, `C18_sum_posdef`, `C18_shared_nuisance_differs`, `C19_marginalised_ge_unmarginalised`, `C19_fixing_never_increases`, `C20_reported_errors_partial`, `C20_fresh_errors`, `C20_stale_errors_refuted`, `C21_copy_changes_inverse_only`, `C21_copy_unchanged_refuted`, `C21_objects`, `C22_correlation`, `C22_unit_diagonal_symmetric`, `C22_after_marginalising_refuted`, `C23_figure_of_merit`, `C23_unchanged_by_marginalising`, `C24_prior`, `C24_zero_raises_unchanged`, `C24_known_names_keep_consistency`, `C24_unknown_rejected_refuted`, `C25_round_trip`, `C25_existing_file`, `C25_no_path_raises`, `C25_other_paths_unchanged`, `C25_permuted_columns_refuted`, `C25_h5py3_refuted`, `C26_same_file_iff_same_words`, `C26_project_names_distinct`, `C26_all_names_refuted`, `C27_combination`, `C27_missing_operand_skipped`, `C27_dictionary`, `C27_result_name`, `C28_depends_on_base_only`, `C28_independent_of_history`, `C28_base_unchanged`, `C28_session_keeps_base`, `C29_dictionary_kept`, `C29_order_is_permutation`, `C29_list_kept_refuted`, `C29_order_refuted`, `C29_subset`, `C30_relative_error`, `C30_never_negative`, `C30_fom_unchanged`, `C30_no_fiducial_is_nan`, `C30_tables`, `C31_accepted`, `C31_conversion`, `C31_equal_and_hash`, `C31_reverse`, `C31_reverse_commutes`, `C32_lookup`, `C32_malformed_key_rejected`, `C33_name`, `C33_brief`, `C33_printed`, `C33_empty_refuted`, `C34_same_length_partial`, `C34_prefix_refuted`, `C34_accepted_texts`, `C34_garbage_accepted_refuted`, `C35_value`, `C35_monotone`, `C35_monotone_negative_fiducial`, `C35_ordered`, `C35_distinct_values`, `C36_sum_to_one`, `C36_history`, `C36_refused_update_displaces`, `C37_one_step`, `C37_run`, `C37_all_parameters`, `C37_reset_restores`, `C37_after_an_error_refuted`, `C38_round_trip`, `C38_only_cosmological`, `C38_interrupted_write`, `C38_zero_displacement_refuted`, `C38_key_differs_from_name_refuted`, `C38_description_refuted`, `C39_files`, `C39_pipeline`, `C39_ten_displacements_refuted`, `C39_only_seven_displacements_refuted`, `C40_scalar`, `C40_vectorised`, `C40_pipeline`, `C41_terminates`, `C41_succeeds`, `C41_scalar_window`, `C41_vectorised_window`, `C41_agree`, `C41_negative_data_refuted`, `C41_zero_entry_refuted`, `C41_last_window_refuted`, `C42_zero`, `C42_related`, `C42_pipeline`, `C43_round_trip`, `C43_two_digits_refuted`, `C43_distinct_names`, `C43_name`, `C44_fisher_directories`, `C44_combination_keys`, `C44_reverse_involutive`, `C45_panels`, `C45_linear`, `C45_exact`, `C45_exact_linear`, `C45_trapezoid`, `C45_rows`, `C45_rejects`, `C45_cols_whole`, `C45_axis0_refuted`, `C45_axis0_fails_refuted`, `C45_spacing_unchecked`, `C46_exact`, `C46_degree_five`, `C47_ends`, `C47_symmetric`, `C47_monotone`, `C47_top_hat`, `C48_array`, `C48_table_positive`, `C48_table_symmetric`, `C48_table_negative`, `C48_sign_refuted`, `C48_opposite_refuted`, `C49_overlap`, `C49_absent_iff`, `C49_symmetric`, `C49_rejects`, `C50_defined`, `C50_value`, `C50_order`, `C50_order_independent`, `C50_accepts`, `C50_constant_not_sorted`, `C50_number`, `C50_no_number`, `C52_present`, `C52_pairs`, `C52_multipoles`, `C52_spelling`, `C52_spelling_refuted`, `C52_unsorted_refuted`, `C52_loaded`, `C52_check`, `C52_checked`, `C53_equal_iff`, `C53_flag`, `C53_probes`, `C53_marginalize`, `C53_half_loaded`, `C53_fsky_refuted`, `C53_zero_fsky_refuted`, `C53_free_refuted`, `C53_shot_noise_refuted`, `C56_batches`, `C56_empty`, `C56_few`, `C57_roundtrip`, `C57_reread`, `C57_updated`, `C57_equals_refuted`, `C59_auto`, `C59_once`, `C59_cross`, `C59_total`, `C59_kernel`, `C59_swap`, `C60_restart_exact`, `C60_existing_not_recomputed`, `C60_cut_file_never_repaired`, `C60_second_run_raises`, `C60_batch_restart_refuted`, `C60_interrupted_write_refuted`, `C60_overwrite`, `C60_selected`, `C61_completes`, `C61_restart_exact`, `C61_interrupted_refuted`, `C61_failure_blocks_reruns`, `C62_listed`, `C62_before_limit`, `C62_empty_listing_refuted`, `C62_not_all_done_refuted`, `C62_spurious_row_refuted`, `C62_no_job`, `C63_exact`, `C63_honest_command`, `C63_silent_failure_refuted`, `C63_warning_refuted`, `C63_jobs_in_order`, `C64_one_each`, `C64_dry_run`, `C64_order`, `C64_nothing_to_run`, `C64_power_spectra`, `C64_external_directory_refuted`, `C64_equal_identifiers`, `C64_bad_name`, `C64_identifiers`, `C64_stem`, `C64_command`, `C64_options`, `C65_complete`, `C65_no_duplicates`, `C65_exact`, `C65_prefix_refuted`, `C66_stages`, `C66_no_execution`, `C66_no_execution_refuted`, `C67_cosmological`, `C67_cosmological_unknown`, `C67_physical`, `C67_unknown_refuted`, `C67_never_raises`, `C67_two_digits_refuted`, `C67_probes`, `C67_unknown_probe`, `C67_combination_recovered`, `C67_single_probe_refuted`, `C67_shared_name_refuted`, `C67_cosmologies`, `C68_newton_cotes`, `C68_value`, `C68_other`, `C68_auto`, `C68_cross`, `C68_two_digits_refuted`, `C68_piecewise`, `C69_density_round_trip`, `C69_density_equal`, `C69_kernel_round_trip`, `C69_kernel_equality_raises`, `C69_kernel_equal`, `C69_power_round_trip`, `C69_delta_round_trip`, `C69_bias_round_trip`, `C69_other_places`, `C69_second_save_refused`, `C69_collection_round_trip`, `C69_empty_collection`, `C69_weight_round_trip`, `C69_densities_file`, `C69_second_save_refuted`, `C69_collections_merge_refuted`, `C69_weights_merge_refuted`, `C69_weight_refuted`, `C69_kernel_refuted`, `C69_new_file_says_when`, `C69_update_says_when`, `C69_member_says_nothing`, `C70_nothing_else`, `C70_written`, `C70_kept`, `C70_formats`, `C70_unknown_format_refuted`, `C71_early_interruption_detected`, `C71_late_interruption_undetected`, `C71_interruption_detected_refuted`, `C72_sums`, `C72_missing_addend_raises`, `C73_other_objects_unchanged`, `C73_base_kept_refuted`, `C73_marginalised`, `C74_select`, `C74_missing_raises_unchanged`, `C75_accepts`, `C75_convert`, `C75_equality`, `C76_accepts`, `C76_updates`, `C76_conflict`, `C76_file_names`, `C77_distinct`, `C77_none`, `C77_order_refuted`, `C77_collision_refuted`, `C80_cut`, `C81_all_submitted`, `C81_refused`, `C81_no_scripts`, `C82_round_trip`, `C82_only_run_names`, `C82_impossible_date`, `C82_two_digit_version_refuted`, `C83_entries`, `C83_auto_succeeds`, `C83_inverse`, `C83_last_f_sky`, `C83_collection`, `C83_stage`, `C83_covariance`, `C84_replay`, `C84_densities_unused`, `C84_missing_pair`, `C84_no_file`, `C84_loaded`, `C84_wrong_shape`, `C84_one_by_one`, `C84_wrong_shape_refuted`, `C85_matrix`, `C85_symmetric`, `C85_missing_pair`, `C85_names`, `C85_distinct_names`, `C85_groups`, `C85_single`, `C85_built`, `C85_invertible`, `C85_stage`, `C85_not_updated`, `C85_stage_succeeds`, `C86_equal_iff`, `C86_other_parameters`, `C86_reflexive`, `C86_symmetric`, `C86_transitive`, `C86_check`, `C86_check_errors`, `C86_consistent_accepted`, `C86_kinds_not_compared`, `C87_values`, `C87_unit_integral`, `C87_outside`, `C87_nonnegative`, `C87_scale_free`, `C87_bins_add_up`, `C87_outliers`, `C87_given`, `C87_undershoot`, `C88_bins`, `C88_given`, `C88_given_without_numbers`, `C88_shot_noise`, `C88_total`, `C88_total_refused`, `C89_entries`, `C89_covered`, `C89_probes`, `C90_not_set_up`, `C90_set_up_keeps`, `C90_set_up_iff`, `C90_evaluate_keeps`, `C90_evaluate_again`, `C90_stage`, `C90_set_up_after_reload`, `C90_loaded_not_ready`, `C90_reload_refuted`, `C91_make`, `C91_made`, `C91_entry`, `C91_file`, `C91_merge`, `C91_merged_values`, `C91_merged_order`, `C91_read_twice`, `C91_selections`, `C92_power_spectra`, `C92_spectra`, `C92_foreign_directory`, `C92_file`, `C92_derivative_files`, `C92_fisher_pairs`, `C92_directories`, `C92_central_name_refuted`, `C92_two_digits_refuted`, `C93_read_back`, `C93_own_file`, `C93_same_name_refuted`, `C93_params_name_refuted`, `C94_unknown_task`, `C94_linked`, `C94_prepared`, `C94_missing_directory`, `C94_retry_refuted`, `C94_relative_source_refuted`, `C94_linked_run_directory_refuted`, `C94_power_spectra_refuted`, `C94_power_spectra_ignored`, `C95_densities`, `C95_spectra`, `C95_deltas`, `C95_failed_computation`, `C95_interrupted`, `C95_interrupted_refuted`, `C95_configuration_refuted`, `C95_stuck_refuted`, `C95_deltas_cut_refuted`, `C96_round_trip`, `C96_equal`, `C96_no_kernel`, `C96_no_kernel_refuted`, `C96_weights_refuted`, `C96_second_collection_refuted`, `C96_unused_weight_refuted`, `C96_equal_refuted`, `C97_beyond`, `C97_behind`, `C97_alignment`, `C97_linear`, `C97_nonnegative`, `C97_methods`, `C98_round_trip`, `C98_without_spectrum`, `C98_invalid`, `C98_no_parameters`, `C98_once`, `C98_load_into`, `C98_arrays_not_compared`, `C98_comparison_raises`, `C98_spectrum_refuted`, `C98_no_grid_refuted`, `C98_no_parameters_refuted`, `C98_load_into_refuted`, `C98_equality_refuted`, `C99_file`, `C99_unknown`, `C99_logged`, `C99_own_file`, `C99_nuisance`, `C99_inconsistent_refuted`, `C99_unknown_parameter`, `C100_free_parameters`, `C100_result_set`, `C100_positive_definite`, `C102_own_directory`, `C102_submission`, `C102_order`, `C102_batch`, `C102_interactive`, `C102_modes`, `C102_job`, `C102_test_batch_refuted`, `C102_space_refuted`, `C102_shared_refuted`, `C102_command_line`, `C102_usage`, `C102_configs`, `C103_untouched`, `C103_final`, `C103_tables`, `C103_rerun`, `C103_reload`, `C103_complete`, `C103_rerun_raises`, `C103_glob`, `C104_entries`, `C104_not_square`, `C104_standard`, `C104_spellings_refuted`, `C104_name`, `C104_unnamed`, `C104_name_refuted`, `C104_run`, `C104_saved`, `C105_parse`, `C105_central`, `C105_unknown`, `C105_injective`, `C105_digits_refuted`, `C106_read`, `C106_symmetric`, `C106_mirrored`, `C106_refused`, `C106_no_separator_refuted`, `C107_read`, `C107_rising`, `C107_incomplete`, `C107_units`, `C107_files`, `C107_twice`, `C107_variation`, `C107_order_refuted`, `C108_spectra`, `C108_own_inputs`, `C108_displaced`, `C108_flags`, `C108_constant`, `C108_ten_bins`, `C108_eleven_bins_refuted`, `C108_piecewise`, `C108_flagship`, `C108_growth`, `C108_vdn`, `C108_lensing`, `C108_edges`, `C108_errors`, `C109_flat`, `C109_flat_groups`, `C109_order`, `C109_walk`, `C109_walk_groups`, `C109_missing`, `C109_pipeline`, `C109_mandatory_refuted`, `C109_link_refuted`, `C110_rows`, `C110_columns`, `C110_success`, `C110_apart`, `C110_kinds`, `C110_failure`, `C111_frame`, `C111_frame_success`, `C111_frame_order_refuted`, `C111_replaced`, `C111_stale_refuted`, `C111_missing`, `C111_duplicates`, `C111_succeeds`, `C111_failed_again`, `C111_select`, `C111_select_text_refuted`, `C111_select_names`, `C111_tables`, `C111_complete`, `C112_lookup`, `C112_exchange`, `C112_in`, `C112_tuples`, `C112_text`, `C112_text_refuted`, `C112_text_missing`, `C112_set`, `C112_update`, `C112_set_exchanged_refuted`, `C112_set_tuple_refuted`, `C112_delete`, `C112_bad`, `C112_copy_refuted`, `C112_tuple_dict`, `C112_tuple_dict_text`, `C112_spectra`, `C113_round_trip`, `C113_injective`, `C113_read`, `C113_order`, `C113_other_separator`, `C113_time`, `C113_time_full_second_refuted`, `C113_time_full_second`, `C113_duration_text`, `C113_metadata`, `C113_duration_refuted`, `C113_bool`, `C113_bool_error`, `C114_job`, `C114_resubmitted_refuted`, `C114_batch_refuted`, `C114_jobs`, `C114_no_jobs`, `C114_order_refuted`, `C114_counts`, `C114_stage`, `C114_again_refuted`, `C114_again_counts`, `C114_stages`, `C114_run`, `C114_nothing_refuted`, `C114_not_completed_refuted`, `C114_report`, `C114_report_refuted`, `C114_never_refuted`, `C115_agree`, `C115_complete`, `C115_unrelated`, `C115_analytic`, `C115_method`, `C115_round_trip`, `C115_not_evaluated`, `C115_foreign_group`, `C115_stage`, `C115_read`, `C115_other_probes_refuted`, `C115_misaligned_refuted`, `C116_time`, `C116_figure`, `C116_name`, `C116_later_name`, `C116_row`, `C116_table`, `C116_later_refuted`, `C116_missing_refuted`, `C116_empty`, `C116_figure_form`, `C116_point`, `C116_date_form`, `C116_seconds`, `C117_saved`, `C117_noise`, `C117_entries`, `C117_probes`, `C117_several_refuted`, `C117_missing_pair`, `C117_no_file`, `C117_empty_refuted`, `C118_tests`, `C118_succeeds`, `C118_same`, `C118_symmetric`, `C118_negative_refuted`, `C118_fails`, `C118_no_results_refuted`, `C118_results`, `C118_own_results_refuted`, `C118_version`, `C118_no_version_refuted`, `C118_thresholds`, `C118_version_letter`, `C118_version_end`, `C118_name`, `C119_jobs`, `C119_directories`, `C119_found`, `C119_content`, `C119_in_memory`, `C119_few_refuted`, `C119_many_refuted`, `C119_scripts`, `C120_flags`, `C120_word_refuted`, `C120_ini`, `C120_ini_false_refuted`, `C120_ini_cores_refuted`, `C120_ini_errors`, `C120_checks`, `C120_refused`, `C120_number_as_path_refuted`, `C120_run_id`, `C120_no_run_id`, `C120_zeros_refuted`, `C120_cleanup`, `C120_cleanup_not_executed_refuted`, `C120_cleanup_steps_refuted`, `C121_new`, `C121_no_forecast`, `C121_existing`, `C121_rerun`, `C121_grid_alone`, `C121_grid_refuted`, `C121_data_refuted`, `C121_metadata_refuted`, `C122_products`, `C122_sigma8`, `C122_total`, `C122_no_sigma8`, `C122_same_symbol_refuted`, `C122_known`, `C122_eleven_bins_refuted`, `C122_alignment_refuted`, `C123_parameters`, `C123_displacements`, `C123_box`, `C123_no_lensing_parameters_refuted`, `C123_alignment_refuted`, `C123_zero_derivative_refuted`, `C123_loaded`, `C123_void_refuted`, `C123_box_refuted`, `C123_file`, `C123_file_stamp`, `C123_file_inner_refuted`, `C124_query`, `C124_defaults`, `C124_unknown_option_refuted`, `C124_selected`, `C124_columns`, `C124_constant_result_refuted`, `C124_query_columns`, `C124_unknown_key`, `C124_empty_query_refuted`, `C124_difference`, `C124_difference_unknown`, `C124_percentage`, `C124_fom`, `C124_fom_total`, `C124_fom_flat_refuted`, `C124_hybrid`, `C124_hybrid_missing`, `C124_latex`, `C124_decrease_refuted`, `C124_no_bins_refuted`, `C125_old_cosmology`, `C125_growth_refuted`, `C125_rewritten_refuted`, `C125_110`, `C125_newer`, `C125_power_spectrum_refuted`, `C125_letters_refuted`, `C125_old_spectra`, `C125_old_spectra_total`, `C125_grid_refuted`, `C125_new_spectra`, `C125_derivatives`, `C125_derivatives_total`, `C126_name`, `C126_matched`, `C126_files`, `C126_build`, `C126_never_refuted`, `C126_begun_refuted`, `C126_read`, `C126_derivatives`, `C126_distinct`, `C126_refused`, `C126_spectrum`, `C126_twice_refuted`, `C127_passes`, `C127_missing`, `C127_other_h`, `C127_removal_refuted`, `C127_none`, `C129_read`, `C129_readable`, `C129_text_refuted`, `C129_empty`, `C129_made`, `C129_not_made`, `C129_again`, `C129_optional_refuted`, `C129_suffix_refuted`, `C129_stale_refuted`.

**`functional_extensionality_dep`, `sig_forall_dec`** (8 theorems):
`C54_curvature`, `C54_accepted`, `C54_rounded_refuted`, `C55_camb`, `C55_class`, `C55_negative`, `C58_ten`, `C98_checks`.

**`functional_extensionality_dep`, `sig_forall_dec`, `sig_not_dec`** (15 theorems):
`C58_tuned`, `C58_finetune`, `C58_target_refuted`, `C78_growth`, `C78_normalised`, `C78_identity`, `C101_available`, `C101_range_level`, `C101_mask`, `C101_plot_range`, `C101_plot_range_shows`, `C128_inverse`, `C128_units`, `C128_counts`, `C128_monotone`.

**`classic`, `functional_extensionality_dep`, `sig_forall_dec`, `sig_not_dec`** (20 theorems):
`C51_linear`, `C51_linear_integral`, `C51_linear_overshoot_refuted`, `C51_log`, `C51_widths_from_centers`, `C51_rejects`, `C51_empty_accepted_refuted`, `C51_nan_accepted_refuted`, `C54_today`, `C54_closure`, `C54_positive`, `C54_lambda`, `C79_grid`, `C79_again`, `C79_kept`, `C79_stale_refuted`, `C101_regions`, `C101_needs`, `C101_consistent`, `C101_ellipse_below_level`.
