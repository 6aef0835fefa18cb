# Formal model of nenupy: design

## Method

Each area of the code is modelled by total, computable Gallina functions that
follow the Python branch by branch.  Exceptions are values (`Ok`/`Err`), never
silently totalised.  Every definition cites the file and lines it models.
For each area there are three files:

* `M_<area>.v`: the model, no proof;
* `P_<area>.v`: the specification (stated without the helpers of the model
  whenever possible) and the lemmas;
* `T_<area>.v`: the property theorems only, each closed by `exact lemma` and
  followed by `Print Assumptions`, with an `Example` showing that the hypotheses
  are met by a concrete case.

When the code does not do what its documentation says, the faithful behaviour is
modelled and the discrepancy is proved (`..._refuted`) on a witness; these are
the findings listed at the end.

## Simplifications common to all areas

* Floating point numbers are exact (integers, rationals or reals), NaN is an
  explicit case where it matters.  Rounding is not modelled.
* Times (astropy Time/TimeDelta) are integers counting an arbitrary fixed tick.
* numpy arrays are lists (or functions of an index with a length); aliasing is
  modelled only where the property is about it.
* Logging and plotting are not modelled.

## Plan per property

| id | title | model and proof |
|----|-------|-----------------|
| C01 | Slots tile the schedule | Slots.v: times are integers (a common clock tick), grid built with Z.div. Induction-free arithmetic on the index. |
| C02 | Time to slot conversion is exact | Slots.v: `time2idx` filters the slot numbers by the same comparisons. Characterise membership and order; uniqueness from C01. |
| C03 | Reservations accumulate | Slots.v: fold of `add_booking` over a list of ranges; induction on the list. |
| C04 | Removing a booking releases the whole range | Slots.v: pointwise description of `remove_booking`; counterexample for two overlapping reservations. |
| C05 | set_free_slots reserves the complement | Slots.v: `set_free_slots` as the sequence of reservations it performs; induction on the windows. |
| C06 | Greedy booking never double-books | Booking.v: whole `book` (reset, scores, very_strict, ordering, greedy loop) on a record of free slots, processing counters and blocks; loop invariant by induction on the visiting order. |
| C07 | Greedy booking respects reservations and the schedule range | Booking.v: same invariant. |
| C08 | Greedy booking accounts for every slot | Booking.v: same invariant, pointwise on free slots. |
| C09 | Greedy booking picks the best admissible start | Booking.v: one iteration; argmax lemma. |
| C10 | Processing delays keep observations apart | Booking.v: invariant on processing counters. |
| C11 | Resetting bookings restores the free slots | Booking.v: reset loop, invariant on free slots; counterexample for counters (vm_compute). |
| C12 | Re-booking is idempotent without delays | Booking.v: reset after book gives back the initial slots, then determinism of the loop. |
| C13 | Genetic booking ends without overlap | Genetic.v: clean-up loop over an arbitrary placement. |
| C14 | Genetic clean-up priority | Genetic.v: clean-up on a sorted list; head-of-list argument and concrete witness. |
| C15 | Genomes are kept in range | Genetic.v: pointwise integer arithmetic. |
| C16 | Extension never overlaps and never leaves the schedule | Extend.v: one growth step as a guarded update, invariant over the iteration. |
| C17 | Extension windows contain the original block | Extend.v: integer arithmetic on window centring (Z division by 2). |
| C18 | Fine tuning improves scores, stays in range and avoids reservations | FineTune.v: one move modelled entirely (delays included); invariant over moves, counterexample for overlap. |
| C19 | Shifting a block | Shift.v: state + exception result keeping the mutated state; success characterisation and counterexamples. |
| C20 | Slot guards are atomic | Shift.v: pointwise update lemmas. |
| C21 | Block numbering is unique and stable | Blocks.v: fold over insertions. |
| C22 | Last possible start is never used | Booking.v: consequence of the support of the score table. |
| C23 | Export is filtered and chronological | Export.v: filter + stable sort by start; permutation and sortedness. |
| C24 | Overlap test of blocks | Blocks.v: boolean algebra over integer endpoints. |
| C25 | Combining observation blocks | Blocks.v: list algebra. |
| C26 | Periodic observations | Blocks.v: ceiling division. |
| C27 | Combined constraint score | Constraints.v: rationals, weighted average, NaN as option. |
| C28 | Hour constraints wrap around midnight | Constraints.v: hours in a circle, integers. |
| C29 | Periodic constraint | Constraints.v: Z.modulo characterisation. |
| C30 | Constraint sets hold one constraint per type | Constraints.v: list of type tags with exceptions as values. |
| C31 | Crossover preserves genes | `cross`, position by position, with the genes exchanged by each method |
| C32 | Evolution never loses its best score | `evolve`: induction over the loop, arbitrary draws and functions |
| C33 | Rebinning groups are a partition | `rebin_along` on n-dimensional arrays (`M_Nd`: shapes, row-major reshape), `rebin` on slices; means and medians described by counts and totals |
| C34 | Rebinning conserves the total | `rebin_along`: totals of the lines of data, composition of two rebinnings |
| C35 | Selection conditions | `parse_time`, `parse_freq` on character strings; the written form of conditions is a separate grammar; the reading of a value is an oracle |
| C36 | Channel reordering is a permutation | `blocks_to_tf`: swapaxes, reshape, reversal on n-dimensional arrays; positions, bijection of the indices, involution |
| C37 | Frequency and time axes | `spectra_frequencies`, `spectra_time`: values, uniformity, condition of monotonicity |
| C38 | Stokes parameters | `spectra_data_to_matrix`, `compute_stokes` over the reals; specification by powers through polarizers of a sum of fields; spelling of the names as a relation |
| C39 | De-Faraday rotation | `de_faraday`, `faraday_angle`: rotation of matrices, effect on fields and Stokes parameters, composition |
| C40 | De-dispersion | `de_disperse`: flattened Fortran-order indices, Python negative indices, last assignment wins; specification sample by sample with delays rounded to nearest |
| C41 | Edge and channel removal | `crop_edges`, `remove_channels`, `reshape_to_subbands`, with the array of the caller as part of the result |
| C42 | Pipeline editing | `insert`, `append`, `remove`, `run` with Python list positions and partial effects of failing calls; embedded functions arbitrary |
| C43 | Pipeline parameters | four kinds of parameters with an arbitrary type conversion, `set_item`, `get_item`, `reset`; history of assignments by `fold_left`; the predefined list is modelled |
| C44 | get() overrides | `get_data`: parameters as objects in a heap, outcome of the body as an oracle |
| C45 | Raw selection | `select_raw_data` on `nd` arrays: closest block, sample in block, beam edges, sub-bands, slices; exact times |
| C46 | Frequency concatenation | `sdata` records over `nd` arrays, `s_and`; units as an arbitrary type with names; formats of times not modelled |
| C47 | Time concatenation | `s_or` |
| C48 | Arithmetic | `s_op` for the four operators over arbitrary numbers, `check_conformity`, `check_value` |
| C49 | Cross-correlation indices | `tril`, `cross_idx` of M_Xst; specification by triangular numbers |
| C50 | Correlation matrix | `relabel`, `corr_matrix`; only the matrix, not the plot |
| C51 | Beam numbering in a user parset | `M_Parset`: blocks, analog beams with their beams, all editing operations; invariant over histories and one effect theorem per operation |
| C52 | Lists in parsets | `read_value`, `store` of M_Parset on strings; segments as specification |
| C53 | Frequency ranges of a subband list | `frequency_ranges` of M_Subbands; union and separation of ranges over the rationals |
| C54 | Subband and frequency conversions | `freq2sb`, `sb2freq` over lists of rationals and NaN, with unit scale |
| C55 | Array algebra | `M_Instru`: constructor, setters, sum, difference; laws and invariant over all expressions |
| C56 | Array selection | `i_getitem` with masks, np.r_ slices, errors |
| C57 | very_strict needs consecutive starts | Booking: runs of positive scores. |
| C58 | Rejected blocks stay rejected | Booking: monotonicity of the list of blocks to schedule over sessions. |
| C59 | Fitness penalises overlaps | Genetic: rational bounds, adjacent test on sorted starts against pairwise clearance. |
| C60 | Day and night budgets | Budget: invariant linking the hours counted to the slots taken. |
| C61 | What an extension compares | Extend: `tried` characterised by exact means; refutation by a computed session. |
| C62 | Whole sessions stay consistent | Session: inductive `reach3` over all operations, one invariant. |
| C63 | Elevation constraint | `elevation_eval`: rejection, ratio to the best, order, best slot |
| C64 | Night constraint | `night_eval`, `evaluate_blocks`: score, sharing of the Sun array (refuted independence), raise when impossible |
| C65 | Transit and sidereal time | `transit_eval`, `lst_eval` against an angle that keeps increasing |
| C66 | Azimuth | `azimuth_eval`, refuted for a circumpolar target at South |
| C67 | Score of a placed block | `block_score` in [0, 1]; raises without target |
| C68 | Time ranges | `range_eval` |
| C69 | Times of booked blocks | `booked_times`, `booked_duration`, `booked_disjoint` on `reach3` |
| C70 | Elitism | `next_generation`, `evolve` |
| C71 | Genes in range | `evolve` with `schedule_world`; closure under crossover, mutation, population |
| C72 | Selection | `select`, `tournament`, `fps_scores`, `ranks` |
| C73 | Selection of beam and subband statistics | `bst_get`, `sst_get`: axes as filters, values read back in the recorded array; printing and reading of numbers are oracles, `np.squeeze` is not applied |
| C74 | Frequency edges of the beams | `beam_edges`: first and last subbands; partition when the beams are grouped |
| C75 | Flattening of the subbands | `flatten_subband`: unfolding to medians, locality, affine profiles; division by zero is NaN |
| C76 | Polarisation angle | `polarization_angle`: arctan of U/Q |
| C77 | Parallactic rotation | `correct_parallactic`: reshape in groups, leftover samples; the angle is an oracle function of the time |
| C78 | Activity flag | `update`, `info` |
| C79 | Rebinning tasks | tasks built on `rebin_along`, run in a pipeline |
| C80 | Missing blocks | `bad_mask`, `reconstruct_time` with `np.interp`, `flag_bad`; the loading of the file is not modelled |
| C81 | File bounds | `time_min`, `time_max`, `frequency_min`, `frequency_max` |
| C82 | Slices | `slice_indices`, `s_getitem` |
| C83 | Selection of cross-correlations | `xst_get`, `get_vis` on `nd` arrays, boolean masks and reshape as in numpy |
| C84 | XY and Stokes | `get_xy`, `get_stokes` over arbitrary complex operations |
| C85 | Reading a user parset file | `user_text`, `decode`, line by line on strings |
| C86 | Loading a user parset | `load_from_parset` as a history; fixpoint of write and load |
| C87 | Validation | `validate` over any matcher |
| C88 | Analog orders and directions | `pointing_order`, `pointing_coordinates` of M_Analog; argmin over the 128 x 128 grid |
| C89 | Direction of a Mini-Array | `snap`, `analog_pointing`; n-fold iteration |
| C90 | Beams and shared pointing | `nenufar_beam`, fold over rotations on one pointing |
| C91 | Beam squint | `beamsquint`, np.interp |
| C92 | Pointing at given times | `getitem`, `at_time` of M_Pointing |
| C93 | Pointing files | `from_file` on lines of a beam |
| C94 | BST pointings | `from_bst`, np.linspace and np.interp |
| C95 | Transit, drift scan, durations | `target_transit`, `driftscan`, `new_pointing` |
| C96 | Array factor | `af_power`, `af_complex`, `geometric_delay` of M_Beam |
| C97 | Beams | `beam_power`, `beam_complex`, `grouped_gain`, `nenufar_value` |
| C98 | Analog grid directions | `dir_azel` on the grid of M_Analog |
| C99 | Beamforming | `beamform` of one time and frequency |
| C100 | Jones and Stokes vectors | `j_to_stokes`, `s_to_jones`, constructors of M_Jones |
| C101 | Polarisers and retarders | `j_elliptical`, `j_retarder` |
| C102 | Jones to Mueller | `to_mueller`, `m_elliptical`, `m_retarder` |
| C103 | Mueller to Jones | `m_to_jones`, `to_hermitian` |
| C104 | Effective area of a Mini-Array | `ma_area`, `grid_count` |
| C105 | Effective area of NenuFAR, positions | `nenufar_area`, `ma_positions` |
| C106 | Temperatures | `sky_temperature`, `instrument_temperature`, `system_temperature` |
| C107 | Equivalent flux density | `sefd` |
| C108 | Sensitivity | `sensitivity` |
| C109 | Baselines, resolution, confusion | `bsl`, `flatten`, `angular_resolution`, `confusion_noise` |
| C110 | Crossing search | `_find_crossing_times` |
| C111 | Rises, sets, transits | `rise_time`, `set_time`, `meridian_transit`, `azimuth_transit`, `next_*`, `previous_*` |
| C112 | Transits by interpolation | `meridian_transit_2`, `_interpolate_crossing_times` |
| C113 | Receiver properties | setters and `__init__` of `_BackendConfig` |
| C114 | Resolutions | `_checkDFvsDT`, `TFConfig.__init__` |
| C115 | Data volumes | `volume` of the seven receivers |
| C116 | Receivers of a parset | `_parseParameters`, `fromParset` |
| C117 | Totals | `BSTConfig.fromParset`, `ObsConfig` |
| C118 | Lane names | `_Lane.lanefile` |
| C119 | Lane axes | `_Lane.__init__`, `_load`, `_compute_times`, `_compute_frequencies` |
| C120 | Lane Stokes parameters | `_Lane.get_stokes`, `_compute_stokes`, `_faraday_derotation` |
| C121 | Lane beams | `_sort_beam_edges` |
| C122 | Reader settings | setters of `Dynspec` |
| C123 | Reader files | `lanefiles`, `tmin` ... `beams` |
| C124 | Reader selection | `_select_data` |
| C125 | De-dispersion of spectra | `Dynspec._dedisperse`, `de_disperse_array` |
| C126 | Averages of spectra | `Dynspec._rebin` |
| C127 | Edge channels | `_remove_edge_channels` |
| C128 | Bandpass | `_bp_correct` |
| C129 | Interferences | `_clean` |
| C130 | Gain jumps | `_correct_jumps` |
| C131 | Lanes joined | `Dynspec.get` |
| C132 | File written | `Dynspec.write_hdf5` |
| C133 | DreamBeam correction | `apply_dreambeam_corrections`, `compute_jones_matrices` (step) |
| C134 | DreamBeam on spectra | `Dynspec._polarization_correction`, `dreambeam_inputs` |
| C135 | Join in frequency | `ST_Slice.__and__` |
| C136 | Join in time | `ST_Slice.__or__` |
| C137 | Part | `ST_Slice.__getitem__` |
| C138 | Arithmetic | `ST_Slice._operation_with_other` |
| C139 | Flatten, clean | `flatten_frequency`, `flatten_time`, `clean_rfi` |
| C140 | Pointing switches | `clear_pointing_switch` |
| C141 | Pointings of a beam | `BST.analog_pointing`, `digital_pointing`, `mini_arrays` |
| C142 | Projected baselines | `compute_uvw` |
| C143 | Coverage | `UV_Coverage.__init__`, `uv_distance` |
| C144 | Profiles | `radial_profile`, `azimuthal_profile` |
| C145 | Point spread function | `UV_Coverage.psf` |
| C146 | Rephasing | `rephase_visibilities`, `_vis_rotation_matrix` |
| C147 | Rephasing of a file | `Crosslet.rephase` |
| C148 | Images of the sky | `compute_lmn`, `make_image` |
| C149 | Images of the ground | `make_nearfield` |
| C150 | Seasons | `time_to_season_mask`, `_season_from_time` |
| C151 | Night time | `time_to_night_mask` |
| C152 | Hours of day and night | `_sort_night_time` |
| C153 | Common analog beam | `in_analog_beam_max_frequency` |
| C154 | Overlaps | `NenuEvent.__contains__`, `_time_intersection` |
| C155 | Sorting | `NenuEvent.__lt__`, `sorted` |
| C156 | File of bookings | `write_vcr_csv` |
| C157 | Around midnight | `XLSFile.to_ical` |
| C158 | Rows of a sheet | `XLSFile._row_to_list` |
| C159 | Hours of a calendar | `NenuCalendar.info` |
| C160 | Moves of an event | `NenuEvent._on_click`, `_on_key_press` |
| C161 | Rotations | `BeamLobes.miniarray_rotations`, `_compute_array_factor` |
| C162 | Sources in the lobes | `compute_moc`, `sources_in_lobes`, `gsm_in_lobes` |
| C163 | Weights | `compute_weight_moc`, `plot` |
| C164 | Sums of masks | `SourceInLobes.__add__` |
| C165 | Files of masks | `SourceInLobes.export`, `from_fits` |
| C166 | Response of a sub-band | `get_bandpass` |
| C167 | Correction of the bandpass | `correct_bandpass` |
| C168 | Coefficients of the filters | `bandpass_correction_coefficients` |
| C169 | Interferences removed | `mitigate_rfi_along_axis` |
| C170 | Mitigation and gains | `mitigate_rfi_along_axis` |
| C171 | Centres described | `_get_pointing_center_dict` |
| C172 | Dates and receivers | `_get_time_dict`, the settings |
| C173 | Fields of view and pointings | `_JsonEntry`, `to_json` |
| C174 | Indices of pointings | `to_json` |
| C175 | NICKEL before 1.0 | `add_nickel_pointing` |
| C176 | Remote mini-arrays | `remove_unused_miniarrays` |
| C177 | Data twice | `data` |
| C178 | Versions, topics | `Parset.version`, `add_observation_metadata` |
| C179 | Values of skies | `Sky.value` |
| C180 | Division of skies | `Sky.__truediv__` |
| C181 | Multiplication of skies | `Sky.__mul__` |
| C182 | Shapes of skies | `Sky` |
| C183 | Selections of skies | `Sky.__getitem__` |
| C184 | Differences of slices | `SkySliceBase.__sub__` |
| C185 | Visible parts | `visible_mask`, `visible_sky` |
| C186 | Sizes of images | `_compute_wcs` |
| C187 | Pixels of images | `_fullsky_projection` |
| C188 | Images as a whole | `_fullsky_projection` |
| C189 | HEALPix resolution | `_resol2nside` |
| C190 | Same pixels | `HpxSky.shaped_like` |
| C191 | Point sources | `HpxGSM.add_point_source` |
| C192 | Stale positions | `HpxGSM.add_point_source` |
| C193 | Sources refused | `HpxGSM.add_point_source` |
| C194 | Signal to noise | `add_point_source_snr` |
| C195 | Extended sources | `HpxGSM.add_point_source` |
| C196 | Rotations | `miniarrays_rotated_like` |
| C197 | Sub-arrays | `generate_nenufar_subarrays` |
| C198 | Pointing corrections | `pointing_correction` |
| C199 | Attenuation | `attenuation_from_zenith` |
| C200 | Correction factors | `pointing_correction_factor` |
| C201 | Known Mini-Arrays, unique antennas | `MiniArray`, `NenuFAR`, `_antenna_name_to_unique_index` |
| C202 | Names, headers | `CSTModel` |
| C203 | Tables | `CSTModel` |
| C204 | Interpolation | `CSTModel.to_healpix` |
| C205 | Maps | `CSTModel.to_healpix` |
| C206 | Files of maps | `write_healpix_antenna_file`, `_AntennaGain.load_file` |
| C207 | Frequencies | `_AntennaGain.load_file` |
| C208 | References | `ant_pol_to_ref` |
| C209 | Models read | `_AntennaGain` |
| C210 | LOFAR | `lofar_instrument_temperature` |
| C211 | Opening | `BST_Data` |
| C212 | Selections | `BST_Data.select` |
| C213 | Histories | `BST_Data.select` |
| C214 | Beams | `BST_Data.dbeam` |
| C215 | Pointings | `BST_Data.utana`, `utdig` |
| C216 | Replays | `ParsetUser.replay_from_parset` |
| C217 | J2000 | `ParsetUser.replay_from_parset` |
| C218 | Transits | `ParsetUser.replay_from_parset` |
| C219 | Refused replays | `ParsetUser.replay_from_parset` |
| C220 | Receivers | `ParsetUser.replay_from_parset` |
| C221 | Queries | `ObsDatabase.query` |
| C222 | Frequencies asked for | `ObsDatabase.freq_range` |
| C223 | Radius of the field | `ObsDatabase.fov_radius` |
| C224 | Searches | `ObsDatabase.search`, `reset` |
| C225 | Refused selections | `ObsDatabase` setters |
| C226 | Reduced spectra read back | `store_dask_tf_data`, `ReducedSpectra.open` |
| C227 | Polarizations of reduced spectra | `ReducedSpectra` |
| C228 | Failed stores | `store_dask_tf_data` |
| C229 | Names of polarizations | `store_dask_tf_data` |
| C230 | Slices of reduced spectra | `ReducedSpectraSlice.__getitem__` |
| C231 | Attributes of the file | `store_dask_tf_data` |
| C232 | Sidereal time | `_Target.computePosition` |
| C233 | Hour angle, transits | `_Target.computePosition` |
| C234 | Horizontal coordinates | `_Target.computePosition` |
| C235 | Culmination, circumpolar targets | `isCircumpolar` |
| C236 | Scores of one schedule | `insert`, `book` |
| C237 | Shared constraints | `insert`, `book` |
| C238 | Shared targets | `insert`, `book` |
| C239 | Summaries read as bookings | `write_summary_csv`, `from_VCR` |
| C240 | Interrupted summaries | `write_summary_csv` |
| C241 | Calendars of several files | `from_ics`, `from_csv` |
| C242 | Workbooks, bookings without header | `from_xls`, `write_vcr_csv`, `from_VCR` |
| C243 | Sums of statistics files | `SST_Data.__add__`, `__radd__` |
| C244 | Differences of statistics files | `SST_Data.__sub__` |
| C245 | Equality of statistics files | `SST_Data.__eq__` |
| C246 | Ranges of selections | `_intervalBoundaries`, `select` |
| C247 | Selections of statistics | `select`, `ma` |
| C248 | Median profiles | `SData.medianFProfile`, `medianTProfile` |
| C249 | Background of channels | `SData.fbackground` |
| C250 | Background of times and channels | `SData.background` |
| C251 | Ranges of mini-arrays | `Parset._get_miniarray_dict` |
| C252 | Durations of user parsets | `_BeamParsetBlock._get_duration` |
| C253 | Data volumes over time | `ObsConfig.getCumulativeVolume` |
| C254 | Workbooks of bookings | `XLSFile` |
| C255 | Optional tasks | `TFTask.correct_polarization`, `correct_parallactic_rotation`, `correct_faraday_rotation`, `de_disperse`, `mitigate_frequency_rfi`, `mitigate_time_rfi` |
| C256 | Result of the pipeline | `Spectra._to_sdata` |
| C257 | Smoothing of a profile | `ST_Slice._smooth_data` |
| C258 | Correction by Jones matrices | `Dynspec._polarization_correction2` |
| C259 | Local time | `to_local_time` |

## Trusted base

* The kernel of Coq 8.16.1, and `coqchk`, which checks the compiled files again.
* The reading of the Python code: that each definition does what the lines it
  cites do. Nothing is extracted or run.
* The axioms below, all of the standard library, printed by `Print Assumptions`
  under each theorem. No axiom is added, no kernel check is switched off.

| Axioms | Theorems |
|---|---|
| none ("Closed under the global context") | all the theorems not listed below |
| `ClassicalDedekindReals.sig_forall_dec` | C100_stokes_named_refuted, C109_flatten_length, C119_axes, C119_times, C119_range, C119_refused, C120_documented_refuted, C120_transposed, C124_loaded |
| `ClassicalDedekindReals.sig_forall_dec`, `FunctionalExtensionality.functional_extensionality_dep` | C40_circular_lost_refuted, C97_grouped, C102_inverse, C102_total, C102_real_only, C102_axes, C102_axes_refused, C103_hermitian, C103_trace, C103_pure, C103_injective, C109_baseline, C109_closure, C109_flatten; all of C133 and of C134 except those closed: C134_none, C134_setting, C134_shown, C134_failed |
| the two above and `ClassicalDedekindReals.sig_not_dec` | C257_passes, C257_shape, C257_within, C257_constant, C38_fields, C38_values, C38_polarised_part, C38_fully_polarised, C38_ratios, C38_unknown, C38_shape_refused, C38_no_name, C39_turns, C39_stokes, C39_undoes, C39_composes, C39_back, C39_refused, C77_groups, C77_stokes, C77_undoes, C77_refused, C77_gap_refuted; all of C96, of C97 except C97_grouped, of C99, of C101, of C104 except C104_one_accuracy, and of C105; C107_mini_array, C107_nenufar, C107_mini_array_steady, C107_nenufar_steady; the theorems of C109 on the resolution; C100_elliptical, C100_unpolarised; C120_stokes, C120_refused, C120_derotation, C120_derotation_undoes |
| the three above and `Classical_Prop.classic` | all of C234 and C235; C76_near_x, C76_diagonal, C76_near_y_refuted, C76_range, C76_unpolarised; all of C98; C104_one_accuracy; all of C106 and C108, the other theorems of C107, C109_confusion, C109_confusion_frequency; the other theorems of C100, C102 and C103 |

These are the axioms of the real numbers. `coqchk -o` lists in addition the
constants of the opaque modules of `Coq.Reals.Rdefinitions` and `Coq.ssr.ssrunder`
of the libraries loaded.

### What is modelled, what is not

| Area | Modelled | Not modelled |
|---|---|---|
| Slots, Booking, Budget, Extend, Shift, Session | the schedule tables as lists of slots, booking and freeing, all insertion and extension passes, budgets, sequences of calls | the display, the astropy objects (times are ticks) |
| Genetic, FineTune | the population loop, crossover, mutation, selection, with every random draw a parameter | the distribution of the draws |
| Constraints, Blocks, Export | scores as rationals, weights, combination of blocks, export and merge of tables | the sky computations behind each constraint (elevation and azimuth are inputs) |
| Evolve | the state machine of the time series of pointings | ephemerides (inputs) |
| Rebin, Cond, TFArray, Pipeline, Select, SData | arrays as nested lists with shapes, NaN, selections, the chain of tasks and its text form, lazy evaluation as its result | dask scheduling, chunk sizes except where they change results, floating point rounding |
| Analog | grid of directions, orders, np.argmin over it, np.interp, the pointing object shared between beams; separations are any function | azimuth and elevation of a direction (see Beam), floating point ties, negative orders |
| Pointing | intervals, selection at times, files as lines of numbers, BST records, transit steps; coordinate conversions are functions | the text layouts of the files, julian day rounding, shapes (n, 1) of custom coordinates |
| Beam | array factor, mean gain, grouping by rotation, directions of the grid, beamforming of one time and frequency, over exact reals | rounding, masks below the horizon, antenna radiation patterns, dask arrays, time and frequency selections |
| Jones | constructors, conversions and products of single matrices and vectors, over exact reals; the number of leading axes of `to_mueller` | rounding (in particular of the imaginary part tested by `MuellerMatrix`), shapes of the arguments of the constructors, signed zeros |
| Area | positions, grid and count of `MiniArray.effective_area`, `NenuFAR.effective_area`, over exact reals | rounding (points at the edge of a disk), float32 positions, frequency arrays of two dimensions (the comparison then raises) |
| Sefd | temperatures, `sefd`, `sensitivity`, `Baseline`, `angular_resolution`, `confusion_noise`, over exact reals, any table of amplifier gains | rounding, units, frequencies of more than one dimension, `lofar_instrument_temperature`, `_toITRF` |
| Crossing | `_find_crossing_times`, `_interpolate_crossing_times` and their callers of target.py, the motion of the target being any function of time | astropy coordinates, rounding, arrays of `t_min` |
| Config | obs_config.py: properties, setters, constructors, resolutions, volumes, `fromParset`, `ObsConfig` sums | `Time.now()`, logging, plots, units of the volumes (bytes here), float rounding of Julian dates |
| Lane, Dynspec | dynspec.py: `_Lane` (names, sizes, axes, samples, beams, Stokes), `Dynspec` settings, files, selection | memory mapping and dask (results only), logging, float rounding of times and frequencies |
| Dynproc | dynspec.py: `get`, bandpass, edges, `_clean`, `_correct_jumps`, `_dedisperse`, `_rebin`, `write_hdf5`; utils.py `de_disperse_array` | the background, the time profile and the fitted curves (any functions), the bandpass table, division by zero (NaN instead of infinity), root attributes of the file |
| Dream | tf_utils.py `apply_dreambeam_corrections`; dynspec.py `_polarization_correction`, `dreambeam_inputs`; beam_correction.py: the check of the time step | DreamBeam (any solutions or exception), rounding of times and frequencies, log messages |
| Slice | io_tools.py `ST_Slice`: joins, parts, arithmetic, flattening, cleaning, pointing switches; bst.py pointings and Mini-Arrays of a beam | peaks, fitted curve and deviation (any functions), infinities (NaN), plots, `median_filter`, transit fits |
| Uvw | uvw.py `compute_uvw`, `UV_Coverage`; sky.py `compute_lmn`; xst.py rephasing, images of the sky and of the ground | sidereal times and zenith (arguments), rounding, figures, Gaussian fit, selection of the pixels by astropy |
| Night | obs_tools.py masks of seasons and nights, common analog beams; open_time.py `_season_from_time`, `_sort_night_time` | leap seconds, time scales, separations of sources (argument) |
| Open | open_time.py rows of a sheet, merge of bookings, overlap, sort, moves, hours, file of bookings | Excel and iCalendar files, drawing, sorts of 64 events or more (any sort is covered by `sorted_as`), non-ASCII case |
| Lobes | contamination.py rotations, normalization, lobes, sources, weights, masks and their files | array factors (M_Analog, arguments here), HEALPix cells of positions (function), coordinates of sources, sidereal times, figures, axes of one element broadcast |
| Bandpass | tf_utils.py response of sub-bands, coefficients of the filters, correction | the numbers of bandpass_coeffs.dat (argument), floating point, integer arrays refused by in-place operations |
| Rfi | tf_utils.py mitigate_rfi_along_axis | polynomial fits and standard deviations (functions), complex data, floating point |
| Json | parset.py to_json and `_JsonEntry` | transformations of coordinates, TimeDelta, float (arguments), log messages, the text of the JSON |
| Sky | astro/sky.py `Sky`, `SkySliceBase` | views given as values, arrays as indices, scalar coordinates, elevations (an argument), plots |
| Skymap | astro/sky.py `_compute_wcs`, `SkySlice._fullsky_projection`, `HpxSky` | pixel coordinates (an argument), reprojection of HEALPix maps, complex values, figures |
| Gsm | astro/skymodel.py `add_point_source`, `add_point_source_snr`, `update_time` of targets | ephemerides, `ang2pix`, smoothing and standard deviation (arguments), the map of pygdsm |
| Tools | instru/instrument_tools.py `miniarrays_rotated_like`, `generate_nenufar_subarrays`, `pointing_correction`; nenufar.py `attenuation_from_zenith`, `MiniArray` and `NenuFAR` identifiers, `_antenna_name_to_unique_index`; beam_correction.py `pointing_correction_factor` | gains and beams (arguments), coordinate transforms, tables of corrections (arguments), the interpolator returned |
| Antenna | instru/antenna.py; nenufar.py `_AntennaGain` (`__init__`, `load_file`); instrument_tools.py `lofar_instrument_temperature` | reading of files and conversions of numbers (arguments), elevations of HEALPix pixels (argument), interpolation of maps in space, rounding |
| Bst | beamlet/beamlet.py `Beamlet`; beamlet/bstdata.py `BST_Data` | reading of files, conversions of times and units, `ants` (text of the antennas), `marot`, rounding |
| Replay | observation/parset.py `ParsetUser.replay_from_parset` | coordinates, solar system, meridian transits and dates (functions given), leap seconds, numbers added to time differences |
| Tap | observation/tapdatabase.py `ObsDatabase` | the service and its answers, texts of numbers and dates (functions given), frequency 0 |
| Reduced | io/tf_utils.py `store_dask_tf_data`, `ReducedSpectraSlice`, `ReducedSpectra` | h5py itself (groups, data sets and sorted keys are modelled), chunks, types, texts of dates, names starting with a slash, `info`, plots |
| Horizon | schedule/targets.py `computePosition`, `isCircumpolar` (exact numbers, FK5 coordinates at the date given) | astropy, scalar times, Solar System bodies |
| Share | schedule/schedule.py `insert`, `evaluate_score`, `_compute_block_constraint_scores`; schedule/obsblocks.py `target` (objects as the times they were computed for) | the scores themselves (see Cnst), errors of shapes, `deepcopy` in blocks |
| Calfile | schedule/open_time.py `write_summary_csv`, `from_ics`, `from_csv`, `from_xls`, the text of `write_vcr_csv`; schedule/obsblocks.py `from_VCR` (text of the files) | astropy dates (any writing in 19 characters that is read back), contents of ICS and Excel files, colours, the sorting of events (see Open) |
| Sst | beamlet/sstdata.py `SST_Data`: creation, `+`, `-`, `==`, limits, ranges and the refusals of `select` | pointing files (`altazA` is empty), the reading of the data, mini-arrays; a file system that changes |
| Profile | beamlet/sdata.py `medianFProfile`, `medianTProfile`, `background`, `fbackground` (exact numbers) | the fit of `background` when samples of the first channel are NaN, infinite quotients, the rounding of the time to the millisecond |
| Ranges | observation/parset.py `_get_miniarray_dict`, `_get_duration` | digits that are not ASCII, durations above 2^53 s |
| Cumul | observation/obs_config.py `getCumulativeVolume` | rounding, the type checks of `accepts` |
| Workbook | schedule/open_time.py `XLSFile.__init__`, `_read_sheet`, `_parse_month`, the days and rows of `to_ical` | openpyxl (a workbook is a list of sheets of rows) |
| Corrtasks | io/tf.py `TFTask` constructors of the corrections (embedded functions arbitrary), `Spectra._to_sdata` with the checks of `SData` | labels that make no astropy unit |
| Smooth | io/io_tools.py `ST_Slice._smooth_data` (loop with fuel, exact comparison of squares for the deviation) | negative windows, `median_filter` |
| Jonescal | undysputed/dynspec.py `Dynspec._polarization_correction2` (product of values arbitrary) | data whose sizes differ from those of their axes, unsorted data in C258_nearest |
| Localzone | astro/astro_tools.py `to_local_time`, with the rules of pytz zones of two offsets | unknown zones, zones whose offsets change over the years |
| Polar, Dedisperse | complex samples over the reals, Stokes, rotations, delays, FFT shift as an exact phase | rounding, FFT implementation |
| Xst | triangular storage, selections of Mini-Arrays, visibilities of any type | imaging |
| Parset, PText, POptions | strings character by character, all blocks and operations of a user parset, the table of options copied from the json file | the file system, the regular expression engine (parameter) |
| Subbands, Instru | conversions over rationals and NaN, arrays with attributes of any type, numpy masks and slices | beam patterns |

## Findings

Behaviours of the code that contradict its documentation or a natural reading
of its API.  Each is proved on the faithful model.

Slots and booking (schedule/schedule.py):

* Releasing one of two overlapping reservations frees slots of the other
  (`C04_remove_keeps_others_refuted`).
* After a reset the processing counters become negative around delayed blocks
  (the reset subtracts a wider range than was added), so that a later booking
  no longer keeps delayed observations apart (`C10_after_reset_refuted`,
  `C11_processing_not_restored_refuted`, `C12_delays_refuted`).
* A reservation put over a booked slot is lost by the next reset
  (`C11_reservation_over_booking_refuted`).
* The last possible start is never used; a block as long as the schedule can
  never be booked (`C22_...`).
* A block rejected once is never tried again until an insertion, even if a
  reset gives its slots back (`C58_sticky_rejection_refuted`).
* A null day budget does not prevent the use of day slots
  (`C60_null_budget_refuted`).

Genetic booking and fine tuning:

* The clean-up of overlapping blocks keeps the lower scored block, the comment
  in the code says the opposite (`C14_lower_score_kept`).
* With `reset_booking=False` blocks that were booked are unbooked and their
  slots stay occupied (`C13_kept_bookings_refuted`).
* A booking where no block can be placed ends with a ValueError
  (`C13_failure_ex`).
* Fine tuning may move the second block onto the first
  (`C18_overlap_refuted`), and never moves the only delayed block
  (`C18_lone_delay_fixed`).
* The fitness penalty for delays reads the delays and sizes of the wrong
  blocks (`C59_delay_penalty_refuted`).
* Bounding gives a negative start for a block as long as the schedule
  (`C15_long_block_refuted`); such blocks never reach it (`C15_blocks_shorter`).

Extensions and shifts:

* The extension ignores processing delays: two delayed blocks kept apart by the
  booking may end side by side (`C16_delays_respected_refuted`).
* A maximal duration shorter than one booked block makes the whole extension
  raise an IndexError (`C16_shorter_limit_raises`).
* A window is compared with the smallest extended window and not with the block,
  and the last slot of a window is never evaluated: a block may be extended over
  a slot of null score (`C61_score_kept_refuted`), and never by one slot
  (`C61_one_slot_never_tried`).
* A shift refused because of another block raises after having moved the block
  and freed its slots (`C19_atomic_refuted`).
* Asking for an earlier date with a duration shifts the block later
  (`C19_earlier_is_later`, `C19_earlier_moves_later`).
* Freezing processing slots wholly before the schedule increments the counters
  of the schedule (`C20_freeze_before_refuted`).

Constraints (`M_Cnst`):

* `Constraints.evaluate` (1418-1447): a constraint that cannot be evaluated leaves its row at zero unless none can. Every set holds an elevation constraint, so a block without target and with a constraint on the time scores zero everywhere (C27_no_target_blocked).
* `ScheduleBlock.score` of a placed block without target indexes the integer score of the constraints: TypeError (C67_no_target_refuted).
* Hour windows over midnight exclude both ends while plain windows include them (C28_ends_refuted).
* `Constraints.__add__` (1359-1380) removes the default elevation constraint of its left operand. The latter can be left empty, and its evaluation is then a ZeroDivisionError; or it takes a new default that is not marked so and cannot be replaced (C30_left_operand_refuted).
* `NightTimeCnst._evaluate` (1080-1097) writes NaN in the array of Sun elevations shared by all the blocks of a schedule: each block is evaluated with the strictest of the limits seen so far (C64).
* The same function returns one score too few when no slot is dark enough: the evaluation raises ValueError unless the schedule has two slots (C64_no_night_raises).
* `LocalSiderealTimeCnst` misses crossings in slots longer than 12 sidereal hours (C65_long_slots_refuted).
* `AzimuthCnst` reports a circumpolar target that passes at azimuth 180 as being at every azimuth (C66_south_refuted).

Blocks, insertion and export (`M_Blocks`, `M_Export`):

* `ScheduleBlocks.__init__` numbers its elements in place: an element shared by two collections has the number of the last one built (C25_stays_numbered_refuted), and the same block twice has twice the same number (C25_numbered_refuted).
* `__mul__` copies the elements without their tuple `_blocks`: an element of a product still refers to the block it was copied from. Adding it, or taking its `periodic_observation`, uses that one (C25_copy_refuted, C26_copy_refuted).
* `is_within` misses an interval that ends exactly at the stop, and one that starts exactly at the start and ends later (C24_overlap).
* `periodic_observation` without any repetition returns the integer 0 (C26_none).
* `Schedule.insert` is not atomic: after a refused argument the earlier ones are inserted and `_toSchedule` is shorter than the list of blocks (C21_atomic_refuted).

Genetic algorithm (`M_Evolve`):

* `_crossOver` with TPCO draws its two cuts in [0, size): the slice never reaches the last gene, which is never exchanged (C31_last_gene).
* `evolve` called again resets `bestGenome` but not `_bestScore`: unless the new call does better, the genome is an arbitrary one (C32_second_call_refuted). `generation` is not reset either, so that it no longer counts the scores and `plot` fails.
* The keyword `elitism` is read and never used.
* An odd population size leaves one row of zeros in every generation unless a random individual replaces it (C71_zero_refuted).
* `_selectPair` with RKS uses `argsort` as if it returned ranks. It is right for distinct decreasing scores only (C72_ranks, C72_ties_refuted).

Rebinning (`M_Rebin`):

* `ST_Slice.rebin` on a decreasing frequency axis computes a negative bin size and returns empty arrays instead of raising (C33_descending_refuted).
* `ST_Slice.rebin` squeezes its result: a dynamic spectrum reduced to one time bin becomes a spectrum, and a later request for a rebinning in time is ignored without warning; reduced to one sample it cannot be rebinned again (C33_slice_refused).
* Rebinning twice weights the bins and not the samples: the result differs from the direct rebinning when samples are NaN (C34_twice_nan_refuted).

Selections (`M_Cond`):

* `==` accepts the samples within a relative 1e-5 for frequencies, and within 1e-12 of the Julian day (0.2 s) for times (C35_equality_refuted).
* `= =` is refused although blanks are removed from the rest of the string (C35_spaces_refuted). Removing the blanks also affects the values, so that `2020-01-01 12:00:00` is read as `2020-01-0112:00:00`.
* The default time selection of `BST.get` and `SST.get` prints the first and last times to the millisecond: the first sample is left out if its date is rounded up, the last one if its date is rounded down (C73_default_refuted).
* `BST.get` sets the beam of the object to its argument, 0 by default: the beam set before by the user is ignored and lost (C73_beam_set).

Time-frequency arrays (`M_TFArray`):

* `crop_subband_edges` accepts a negative width: `lower_edge_channels=-1` sets to NaN all the channels but the last (C41_negative_refuted).
* `crop_subband_edges` and `remove_channels_per_subband` modify the numpy array given by the caller (C41_crop, C41_remove with `inplace`).
* `sort_beam_edges` assumes that the subbands of a beam are consecutive: otherwise the range of a beam contains channels of others (C74_interleaved_refuted).
* `flatten_subband` places the medians of the two halves at n/4 and 3n/4 although they are those of the channels (n/2-1)/2 and so on: the fitted line is shifted by half a channel, and a linear subband is not flattened (C75_affine_refuted).
* `flatten_subband` with one channel per subband takes medians of empty slices: all the data become NaN (C75_single_channel).
* `blocks_to_tf_data` does not compare its arguments with the shape of the data: another split with the same product is accepted.

Polarisation and dispersion (`M_Polar`, `M_Dedisperse`):

* `de_disperse_array` allocates a float array: the imaginary part of coherency matrices is dropped, so that Stokes V is always zero after the task `de_disperse`, which the documentation of `correct_faraday_rotation` inserts before the Stokes task (C40_circular_lost_refuted).
* `de_disperse_array` with a negative measure moves samples into the next channel, or raises IndexError when the frequencies are in descending order (C40_negative_leak_refuted, C40_negative_error_refuted).
* `polarization_angle` uses arctan(U/Q), not arctan2: directions beyond 45 degrees of X are 90 degrees off (C76_near_y_refuted).
* `correct_parallactic` computes the times of the solutions from the first time and the nominal step: after a gap in the times the angles are not those of the samples (C77_gap_refuted). A time step below half the sampling time raises ZeroDivisionError.

Pipeline (`M_Pipeline`, `M_PipeTasks`):

* `Spectra.get` does not restore the parameters when an override is refused after others were accepted, when the volume threshold is reached, or on a keyboard interrupt (C44_left_refuted, C44_partly_overridden_refuted). After a clean call `sp.pipeline.parameters` is a new object: a reference taken before the call keeps the overridden values and no longer acts on the pipeline (C44_undone).
* `TFTask.is_active` is documented as whether the task will be run: the flag is never set back to False, and inactive tasks are run (C78). With the default parameters the bandpass correction is shown as inactive, since `lna_filter` is None, and is applied.
* `remove(0, 1)` removes the first and the third tasks (C42_remove_shift_refuted).
* NaN passes the range check of a parameter; fmin above fmax and tmin above tmax are accepted (C43_nan_refuted). A fractional beam number is truncated (C43_ex).
* The rebinning tasks are repeatable, but the second one rebins by the same factor again, since `dt` and `df` are fixed (C79_twice_refuted).

Selection of raw data (`M_Select`):

* The block of a requested time is the one whose start is the closest, although a block covers the times after its start: in the second half of a block the next block is taken, so up to half a block of requested data is lost at the beginning and a sample after tmax is added at the end (C45_lost_refuted, C45_extra_refuted). Distances are counted in whole seconds, so with blocks shorter than a second (0.88 s in the documentation) the beginning of a block belongs to the previous one (C45_subsecond_lost_refuted).
* A range of one sample returns `(None, None, None)`; inside the last block the warning itself fails with an IndexError (C45_one_sample_refuted).
* `np.all(~mask)` in `_to_dask_tf` is true when no block is bad: data of bad blocks are never set to NaN (C80_never_flagged). Bad blocks at either end get equal times (C80_ends_refuted).
* `frequency_min` and `frequency_max` take the sub-band starts as lower edges whereas the frequency axis takes them as centres (C81_channels_refuted).

Dynamic spectra (`M_SData`):

* `SData.__or__` with the later operand first stacks data chronologically but not times: every sample gets a wrong time (C47_wrong_times_refuted, C47_exchanged).
* `SData.__and__` accepts overlapping bands, and puts the higher band first when the bands share an edge (C46_overlap_refuted, C46_touching_refuted). Times shifted by one whole step are accepted although the comment says less than a step; a single time raises IndexError and decreasing times are refused even when equal (C46_shift_refuted, C46_same_times_refuted).
* `_check_conformity` uses `all(a != b)`: axes sharing a single value are accepted (C48_axes_refuted), and any operation between empty selections is refused (C48_empty_refuted).

Cross-correlations (`M_Xst`):

* `Crosslet._get("XY")` indexes a two-dimensional array with three indices: it raises IndexError for every selection with several times and several frequencies, and for one time and one frequency. `get_stokes` with U, V, FL and FV fails likewise (C84_xy_refused, C84_stokes_refused, C84_xy_refuted).
* `Crosslet.get` returns the Mini-Arrays in the order given by the user but the visibilities in the order of the file (C83_order_refuted).
* `XST.frequencies` has one row per time, so `XST_Slice.frequency` lists the frequencies once per time of the file, even for times that are not selected (C83_frequencies_xst, C83_frequencies_refuted).
* An empty time selection, announced as a warning, raises IndexError in `XST_Slice.__init__` (C83_no_time). Files whose subbands change with time cannot be selected by frequency (C83_hopping).
* The correlation matrix assumes Mini-Arrays listed in increasing order (C50_order_refuted).

User parsets (`M_Parset`):

* Removing an analog beam does not renumber phase centers: the file then has `PhaseCenter[1]` while `nrPhaseCenters=1` (C51_center_number_refuted).
* `noBeam` modified by hand is kept until the next renumbering; the file written in between cannot be loaded (C51_parent_by_hand_refuted).
* An empty list does not survive: `[]` reads as a list holding an empty text; negative integers in lists read as texts (C52_empty_refuted, C52_negative_refuted).
* Loading turns every text into lower case, contact, target and file names included (C86_lower_case_refuted).
* The syntax of `nri_dumpTime` has an unbalanced parenthesis: `validate` raises `re.error` whenever this field is given (C87_dump_time_refuted, C87_dump_time_raises).
* `is_above_horizon` always returns True: `validate` checks nothing about the horizon, whatever its log messages say.
* A parset starting with a blank or comment line raises UnboundLocalError (C85_first_line_refuted).

Subbands and arrays (`M_Subbands`, `M_Instru`):

* `freq2sb` accepts any frequency when the list has a NaN: the comparison of NaN extrema is false (C54_nan_refuted).
* `sb2freq` is documented as `n x 100/512` MHz and returns half a subband less; the start of subband 0 is negative and `freq2sb` refuses it (C54_start_documented_refuted, C54_zero_refuted).
* The top half subband below 100 MHz has index 512, which `sb2freq` refuses (C54_top_refuted).
* `_get_frequency_dict` merges only increasing neighbours: a list in decreasing order gives one range per subband (C53_order_refuted).
* `a[k:]` on an array selects the FIRST k antennas: `np.r_[k:]` is `np.arange(k, None)`, which numpy reads as `np.arange(0, k)`; `a[:]`, `a[::-1]`, `a[:-1]` raise ValueError (C56_slice_tail_refuted, C56_slice_all_refuted, C56_slice_but_last_refuted).
* Negative indices are ignored instead of counting from the end (C56_negative_refuted). A boolean mask raises DuplicateAntennaError, or selects antennas 0 and 1 (C56_mask_refuted, C56_mask_two_refuted).
* `a - a` raises ValueError (`min` of no weight) instead of giving an empty array (C55_sub_self_refuted).
* The constructor does not compare the number of names and gains with the positions; the first selection then raises IndexError (C55_new_names_refuted). A NaN weight hides weights out of 0..1 (C55_nan_weight_refuted).

Analog pointing (`M_Analog`):

* `MiniArray._skycoord_to_order` takes one from every order from 64 up although only 64 repeats 63: the direction pointed is not the nearest when the first axis is positive or the second negative (C89_nearest_refuted). `mini_array_pointing_order` of instrument_tools has the corrected version.
* `MiniArray.analog_pointing` changes the pointing given, so a repeated call drifts one step per call towards the axes (C89_drift), and beam squint is applied again.
* `NenuFAR.beam` gives the same pointing object to the Mini-Arrays of each rotation: squint and grid corrections accumulate from one rotation to the next, and the numerical pointing of the next call is changed too when no analog pointing is given (C90_independent_refuted, C90_sinks, C90_second_call).
* The correction of order 64 in `mini_array_pointing_order` never applies: argmin finds 63 first (part of C88_nearest).

Pointings (`M_Pointing`):

* `Pointing.from_file` on a numerical file uses `duration.insert(-1, 10 s)`, which inserts before the last element: the last line but one gets 10 s and the last one its duration; a file with one line raises IndexError (C93_numeric, C93_numeric_last_refuted, C93_numeric_single).
* A pointing without duration lasts 1 s per start time, while `target_tracking` and `azel_driftscan` document the difference between time steps (C95_default_duration_refuted); the rest of the time the zenith is used silently.
* `target_transit` is centred half a step after the transit, and is up to one step longer than asked when the number of steps is even (C95_transit, C95_centre_refuted).
* `from_bst` interpolates azimuths as numbers across north (C94_north_refuted).
* The pointing returned by `pointing[times]` has 1 s intervals and the default observer, whatever those of the pointing (C92_selection).
* `from_file` with a name that ends neither in .altazA nor .altazB raises UnboundLocalError (C93_other_name).

Beams (`M_Beam`):

* `get_beamform` takes the positions at the place of the Mini-Arrays in the file instead of their identifiers, while the calibration is taken by identifier: a file without the first Mini-Arrays is phased with the positions of others (C99_places_refuted).
* `get_beamform` rotates the positions so that East has the opposite sign of `array_factor`: it points to the azimuth mirrored about North (C99_mirror, C99_mirror_refuted).
* `NenuFAR.beam(normalize=False)` still normalises the array factor of the Mini-Arrays (C97_not_normalised_refuted).
* `beam(return_complex=True)` multiplies the complex array factor by a power gain, so that its squared modulus is not the power beam (C97_square_refuted).
* An antenna of weight 0 lowers the normalised array factor, unlike one removed (C96_silent).

Jones and Mueller matrices (`M_Jones`):

* `MuellerMatrix.linear_retarder(theta, delta)` retards in the opposite sense of `JonesMatrix.linear_retarder(theta, delta).to_mueller()` (C102_retarder, C102_retarder_refuted).
* `JonesMatrix.right_circular()` stops `JonesVector.right_circular()` and passes `left_circular()`: the two hierarchies use opposite conventions (C101_hands, C101_hands_refuted).
* `StokesVector` inherits `linear` and the six named constructors, and defines `circular` by calling its parent: all raise NotImplementedError (C100_stokes_named_refuted).
* `MuellerMatrix.to_jones` loses the relative phases when the first Jones value is zero, and accepts depolarising matrices (C103_zero_refuted, C103_depolariser_refuted).
* `JonesMatrix.to_mueller` of an array with three leading axes or more ends with UnboundLocalError (C102_axes_refused).

Effective areas (`M_Area`):

* The grid of `MiniArray.effective_area` is sized by the lowest frequency of the call, so the value at a frequency depends on the other frequencies asked together (C104_lowest, C104_lost, C104_call_refuted).
* An elevation below the horizon gives a negative area (C104_elevation).
* The matrix applied to the positions of the antennas has determinant -1: the layout is mirrored (C105_mirror, C105_twice).
* `NenuFAR.effective_area` uses the Mini-Array of index 0 for all, and depends on the number of Mini-Arrays only (C105_size).

Noise of the instruments (`M_Sefd`):

* `sefd` calls `system_temperature` without elevation and efficiency: a source adds flux / (efficiency sin(elevation)) instead of its flux (C107_sources, C107_source_refuted).
* `sensitivity` in imaging divides by sqrt(n(n-1)) the density of the whole array, itself already divided by n (C108_nenufar, C108_modes).
* `instrument_temperature` accepts the filters 0 and 3 only; 1 and 2, which exist on the telescope, raise KeyError (C106_unknown_filter).
* `Baseline.__getitem__` with one integer raises ValueError since the selection is of one dimension (read, not modelled).

Transits, rises and sets (`M_Crossing`):

* A rise and a set less than one part of the first cut apart (4.8 h over a day) are missed when both fall inside it (C110_missed_refuted).
* A crossing exactly on a sample is returned twice (C110_twice_refuted).
* The time returned is at a tenth of the last interval (or less, over more than 30 hours), not at its middle: `dt` has already been divided when half of it is added (C110_sound, C110_once).
* `precision` not below `duration` raises UnboundLocalError; zero or less loops for ever (C110_error, C110_endless).
* `azimuth_transit` reports a circumpolar target at azimuth 0 when it crosses 180 degrees (C111_azimuth_refuted).
* `meridian_transit_2` ignores the last step of the window (C112_last_step_refuted).

Receiver configurations (`M_Config`):

* `RAWConfig` (and a waveform beam shorter than a minute) has a negative volume: the minute is subtracted without a floor, unlike the pulsar modes (C115_raw_refuted, C115_sign).
* Changing an attribute of a TF, RAW or pulsar configuration has no effect on `volume`: only the beam made by the constructor counts (C115_stale).
* `timeRes=0` is accepted for NICKEL and its volume is infinite (C115_finite).
* A TF beam of a parset asking for more than 83.89 ms is counted as 5 ms, about forty times its volume (C114_slow_refuted).
* A fractional `nri_dumpTime` stays a text in the parset and makes `NICKELConfig.fromParset` raise TypeError (C116_nickel_fraction_refuted).
* A parset without `hd_receivers` makes all the UnDySPuTeD receivers, hence `ObsConfig.fromParset`, raise KeyError, while one without `nri_receivers` is accepted (C116_computer_missing, C116_nickel_unused).
* BST beams out of step by a fraction of a second are counted twice (C117_bst_refuted).

Lanes and dynamic spectra (`M_Lane`, `M_Dynspec`):

* The dot of the file name pattern is not escaped, so `OBS_1Xspectra` is a lane file (C118_any_character_refuted); a lane number of two digits is refused (C118_long_index).
* `Dynspec.get` documents the Stokes names L, XX and YY, which raise NotImplementedError (C120_documented_refuted).
* The matrices of a lane are transposed with respect to the other reader (C120_transposed). Stokes parameters and Faraday derotation are right because they account for it or commute with it.
* Beams whose sub-bands are interleaved get ranges containing the sub-bands of other beams (C121_interleaved_refuted).
* Assigning `lanefiles` a second time keeps the previous lanes, so data is read twice, and a refused list leaves the lanes before the wrong file (C123_files, C123_files_refused).
* The default selection leaves out the last time, and a range inside one sample or one channel gives None (C124_last_refuted, C124_selection).
* A number of edge channels equal to half the channels is accepted, which removes all of them (C122_edge).

Processing of dynamic spectra (`M_Dynproc`):

* De-dispersion masks `x[-0:]`, the whole channel, when the delay rounds to zero, so the reference channel is always lost and a small dispersion measure loses everything (C125_reference_refuted, C125_no_dispersion). tf_utils.de_disperse is not concerned (C40).
* Channels above the upper bound of the frequency range keep only samples that went round the end of the observation (C125_above_refuted).
* The bins of `_rebin` are wider than asked whenever the remainder is at least the number of bins: 11 samples by 4 give 2 bins of 5 (C126_width_refuted).
* The median bandpass correction raises ValueError for several Stokes parameters (C128_median_refused).
* Samples at a gain jump are divided by the curves of both intervals (C130_jump_refuted).
* `write_hdf5` labels the time axis frequency and attaches the frequencies to it (C132_axes_refuted), and changes the beam setting (C132_written).

DreamBeam corrections (`M_Dream`):

* `Dynspec._polarization_correction` slices `data[-0:]` when the samples fill the blocks exactly: such selections raise ValueError (C134_multiple_refused, C134_complete_refuted).
* It uses the last solution of the observation for the samples after the last complete block, also when the selection ends long before (C134_solved).
* It multiplies transposed matrices (C120), so complex Jones matrices are not undone (C134_complex_refuted).
* `freq_stop` (and `time_stop`) fall back to the end of the solutions when none is below the last start: one sub-band at the first frequency, or one block at the first time, is refused (C133_first_refused, C134_first_refused).
* `argmax` of nothing true is 0: data out of the range of the solutions is corrected with the first ones if the numbers agree (C133_beyond, C133_beyond_refuted).
* A singular last matrix silently leaves the incomplete group uncorrected (C133_end_singular).
* `dreambeam_inputs` is set before the solutions are computed and kept by a reset: it may show inputs that are not in use (C134_shown, C134_failed, C134_reset).

Slices of statistics data (`M_Slice`):

* `ST_Slice.__or__` uses `np.hstack`: dynamic spectra are joined along the frequencies instead of the times, giving an array which never matches the axes (C136_unusable_refuted), or an error if the numbers of times differ (C136_lengths_refused).
* `ST_Slice.__and__` of light curves joins them along the time for the same reason (C135_light_curves_refuted).
* `&` compares the greatest frequency with the smallest one only: a band put between two joined ones comes first (C135_gap_refuted).
* `clean_rfi` compares with `>=`: data without fluctuations become NaN entirely (C139_clean_constant_refuted).
* The shape of an operation with an array is not checked: a column and a light curve give a square (C138_column_refuted).

Projected baselines and images (`M_Uvw`):

* `Crosslet.rephase` never multiplies the visibilities: it returns the phase factors alone (C147_ignores, C147_applied_refuted).
* `Crosslet.rephase` of NenuFAR TV data raises IndexError, their frequencies having one axis (C147_refused).
* `UV_Coverage` adds the opposite of (u, v) with the same w: the added vector is no baseline (C143_third_refuted), and `uv_distance` includes w (C143_distance_refuted).
* `azimuthal_profile` with a frequency compares angles with numbers and raises UnitConversionError (C144_azimuth_refused); bins are closed on both sides, so that points on an edge count twice (C144_azimuth_twice_refuted).
* `radial_profile` fails when all baselines have the same projected length (C144_radial_refused); baselines of null v are left out by both profiles (C144_points_counted).
* `compute_lmn` takes the positive root for n: wrong beyond 90 degrees from the center (C148_far_refuted).
* `make_nearfield` of one frequency is the same everywhere, the modulus being taken by baseline before the mean (C149_flat).

Night time and calendars (`M_Night`, `M_Open`):

* Winter evenings are never night: the mask tests the morning bounds twice (C151_winter_evening_refuted); a single time raises IndexError (C151_scalar_refuted).
* Season masks of unsorted times are wrong for years out of those of the first and the last time (C150_order_refuted).
* `_sort_night_time` with a stop before the start counts a negative night (C152_reversed_refuted).
* `in_analog_beam_max_frequency` of two fixed sources and several times raises IndexError (C153_fixed_refuted).
* `NenuEvent.__lt__` compares a start with an end: overlapping events are each less than the other (C155_order_refuted).
* `write_vcr_csv` raises AttributeError when the last two events follow one another for the same key project (C156_last_refuted), misses overlaps with an event merged to the previous one (C156_overlap_refuted) and renames LT00 to ES00 before it requires LT00 (C156_LT00_refuted). The lines before the exception stay in the file; `add_error` writes the last line twice.
* `to_ical` merges pieces with the same comment by two only: a booking in three pieces becomes two events (C157_pairs_refuted).
* A row which starts with hidden cells takes the value of the last cell (C158_first_refuted).
* `info` loses whole days of the events longer than 24 hours (C159_long_refuted).
* Keys up and down move the event and then raise TypeError, `_update_draw` being called without its argument (C160_key_refuted).

Grating lobes (`M_Lobes`):

* One time with the pointing at the horizon or below makes the maximum NaN, so that no source is in the lobes at any time (C162_below_refuted).
* `compute_weight_moc` leaves booleans in `moc`: `sources_in_lobes` raises AttributeError after it (C163_state).
* `export(in_bytes=True)` wraps numbers of sources modulo 256, more sources giving a lower value (C165_counts_refuted), and changes the values of the object (C165_changed_refuted).
* An empty list of rotations is accepted and the simulation then fails (C161_empty_refuted).

Bandpass and interferences (`M_Bandpass`, `M_Rfi`):

* `get_bandpass` accepts even numbers of channels which are not multiples of 16, and then simulates sub-bands which are too wide (C166_width, C166_channels_refuted).
* `correct_bandpass` corrects the array of the caller: a second call corrects twice (C167_twice_refuted).
* The slope of filter 0 is negative from 98 MHz on, within the band of NenuFAR (C168_negative_refuted); contrary to the documentation the deformation grows with frequency from 50 MHz on (C168_high).
* `mitigate_rfi_along_axis` removes all samples which are not null where more than half are null, whatever their values (C169_null_refuted).

Description of a parset (`M_Json`):

* Right ascensions are cut at 0 and 360 degrees instead of being wrapped: a shift across the origin gives another direction (C171_wrap_refuted).
* Without numerical beam, the first cross-correlation and the last phase centre share an index (C174_indices_refuted).
* Before version 1.0 the test on TBD compares with capitals a text read in lower case: an extra NICKEL pointing is always added, its name is overwritten and it has no receiver (C175_extra).
* Remote mini-arrays are removed even where NICKEL uses them (C176_remote).
* `_JsonEntry.data` appends the pointings at each reading (C177_again_refuted).
* Topics are matched in capitals while values are read in lower case: every file is LT00 DEBUG (C178_topic_read_refuted).
* Durations are kept as texts ending in s, which `TimeDelta(text, format='sec')` refuses: `to_json` cannot describe a file (C178_duration_read_refuted).
* `parsetVersion=1` is read as an integer and raises AttributeError (C178_version_refused).

Skies (`M_Sky`):

* `sky * x` copies the Sky shallowly and multiplies in place: with numpy values the original is multiplied too, so `sky * 2 * 2` leaves the original four times larger (C181_original_refuted).
* `sky / x` changes and returns `sky` itself, and any other Sky built on the same array changes with it (C180_shared_refuted).
* Axes can be replaced by axes of another length; a later division raises after having written (C182_axes_refuted).
* Selections keeping an axis other than the coordinates, or a part of the coordinates, give a slice whose coordinates do not match its values (C183_spectrum_refuted, C183_part_refuted).
* Slices of different observers are subtracted without complaint (C184_observer_refuted).

Maps of skies (`M_Skymap`):

* Pixel coordinates are truncated (`np.floor`) instead of rounded: values are shown half a pixel away on average, and those of the first half of the first row or column are lost (C187_half_refuted).
* The documented threshold of the resolution of plots is 0.775 degree; any resolution above 0.3375 degree has no effect (C186_threshold_refuted).
* Null or negative resolutions give a HEALPix sky of nside 2^29 instead of an error (C189_negative_refuted).

Sources of sky models (`M_Gsm`):

* `np.isclose` compares Julian days with a relative tolerance of 1e-5, about 24.6 days: the Sun, the Moon or a planet computed at another date of the same weeks is added at its old position (C192_stale_refuted), or raises IndexError after changing the first time (C192_array_refuted).
* The documentation of `add_point_source_snr` tells the median of the sky, the mean is used (C194_median_refuted).
* An extended source of negative value is added as positive: the absolute value of the smoothed map is taken (C195_sign_refuted).

Tools of the instrument (`M_Tools`):

* `attenuation_from_zenith` writes `obstime` and `location` in the coordinates of the caller: the same object cannot be used at another time, ValueError (C199_again_refuted).
* `pointing_correction` documents coordinates in general but refuses a single one with TypeError (C198_scalar), and one direction corrected above 90 degrees refuses all (C198_above). The correction is not continuous at 15 degrees (C198_jump_refuted).
* `pointing_correction_factor`, for times after the end of the digital pointing, compares the zenith with the last direction pointed (C200_after_refuted).
* `generate_nenufar_subarrays` may give empty sub-arrays (C197_empty_refuted).

Models of antennas (`M_Antenna`):

* The frequency of a file name is searched by `re.findall(...)[0]`: without any the error is IndexError (C202_absent).
* A table of CST whose lines are sorted by the other coordinate is accepted, and to_healpix then always raises ValueError (C203_transposed_refuted).
* `azgrid[::-1]` is meant to reverse the sense of azimuths: it does so exactly only in the rings shifted by half a pixel; in the others it is one pixel width away (C205_mirror_refuted).
* `_AntennaGain` takes the Mini-Array and the antenna of the first reference but not its polarization: the map read is then that of the perpendicular dipole. With the positions of the files it is so for 1944 of the 3876 dipoles, Ant01 of Mini-Array 0 for example (C209_polarization_refuted).
* `ant_pol_to_ref` rotates the antennas by 360 degrees minus the rotation of the file, where `MiniArray` rotates them by the rotation (not stated as a theorem).

Beamformed statistics (`M_Bst`):

* The default freqrange is made of the listed frequencies, the channels are half a sub-band below: the channel listed at the smallest frequency is never in the default selection, and a file of one channel opens on nothing (C211_lowest_refuted).
* `dbeam` does not update the beamlets kept by `freqrange`: `select(dbeam=1)` raises AssertionError as soon as the beams do not share beamlets, and the object is left so (C214_beam_refuted, C214_stuck_refuted).
* `utana` and `utdig` raise ValueError for a beam without pointing, when `azana` and `azdig` are empty (C215_no_digital, C215_no_analog).

Replayed parsets (`M_Replay`):

* `replay_from_parset` compares the direction type with "J2000", but files are read in lower case: no file with J2000 directions can be replayed (C217_direction_refuted, C217_j2000_refuted).
* Both transits are computed by `next_meridian_transit`: the closest one is never the previous one (C218_closest_refuted).
* `same_lst` is not implemented, it raises TypeError (C219_errors).
* A start with a fraction of a second below one half is refused on its own day (C219_fraction_refuted); the replay can start before `from_time` (C219_before_refuted). The default `from_time` is the date of the import of the module.
* `[undysputed, seti]`, with a space, keeps `seti` (C220_space_refuted).

Database of observations (`M_Tap`):

* `fov_radius` set after `fov_center` has no effect on the query, although the attribute shows it (C223_ignored_refuted, C223_order_refuted).
* An empty `meta_names` is accepted: the query sent has no column (C224_columns_refuted).
* A frequency range of a quantity and a number is ValueError: the quantity is multiplied by MHz too (C225_refused). A reversed range is accepted and matches nothing (C222_reversed).
* A radius that is not an angle is accepted; the error comes with the next center (C225_refused).

Files of reduced spectra (`M_Reduced`):

* The order of the polarizations is lost: h5py sorts names (C227_order_refuted).
* Mode 'a' on a missing file raises KeyError but leaves an empty file; every later 'auto' or 'a' store then fails (C228_append_refuted, C228_stuck_refuted).
* A store that fails in part leaves its beam, which blocks a retry (C228_too_few_refuted, C228_blocked).
* A polarization named 'Q/I' is stored in a group: the beam is unreadable (C229_slash_refuted). A text of polarizations is taken letter by letter: the pipeline passes `stokes="Q/I"` as a text, so one plane is stored as "Q" (C229_text_refuted).
* The attributes of the file describe the first beam only (C231_root).

Positions of targets (`M_Horizon`):

* The local sidereal time is not reduced to a day east of Greenwich: it reaches 24 hours and more (C232_day_refuted). The hour angle is not affected.
* The hour angle is 360 and not 0 when the sidereal time is one turn after the right ascension (C233_hour_angle).
* `SSTarget.isCircumpolar` is true if any of the dates is (not modelled), `ESTarget.isCircumpolar` uses the declination of the catalogue and not that of the date.

Objects shared between schedules (`M_Share`):

* A block inserted in two schedules is booked in the second with the scores of the first (C237_stale_refuted).
* A target used in two schedules is evaluated in the second with the positions of the first, or its positions are cleared under a booked schedule, whose extension then raises TypeError or uses the times of the other (C238).
* A block inserted again in its schedule after a booking cannot be extended any more: TypeError (C236_again_refuted).

Files of calendars (`M_Calfile`):

* `ReservedBlock.from_VCR` raises TypeError for a file of one booking (an array without dimension) and for a file whose bookings are all excluded (C239_round_trip).
* A comma in the name of one event makes the whole summary unreadable (C239_comma_refuted).
* `write_summary_csv` stopped by an inconsistent name leaves a file that is read without error (C240_interrupted_refuted).
* `NenuCalendar.from_ics` keeps only the last file of each key project, `from_csv` keeps all (C241).
* The first booking of a file of `write_vcr_csv` is lost when it is read by `from_VCR` (C242_headerless_refuted).

Statistics files (`M_Sst`):

* `SST_Data.select` always fails: the array of mini-arrays has no `names` (AttributeError), and testing an integer with `in` ends in AntennaIndexError (C247).
* `select` skips files by comparing the upper frequency with the highest one of the file, instead of the lowest (C246_skipped_refuted).
* `==` is not symmetric (C245_symmetric_refuted).
* The difference removes by base name: with two directories the file and the properties that remain are not of the same file (C244_shared_refuted).

Profiles and backgrounds (`M_Profile`):

* `SData.background` divides the time profiles of all polarizations by one largest value: data divided by their background have different levels in different polarizations, the weaker the higher (C250_level_refuted).

Durations, volumes over time, workbooks (`M_Ranges`, `M_Cumul`, `M_Workbook`):

* `_BeamParsetBlock._get_duration` ignores all that follows the first unit: "1h30m" is one hour (C252_sum_refuted), and refuses "1.5h" with AttributeError (C252_decimal_refuted).
* `ObsConfig.getCumulativeVolume` falls with time for raw configurations shorter than a minute, whose volume is negative (C253_raw_refuted).
* `XLSFile` drops without a word the days below a row without a date (C254_gap_refuted), and `to_ical` raises ValueError as soon as one of the six sheets has no day (C254_empty_refuted).

Optional tasks and result of the pipeline (`M_Corrtasks`):

* `TFTask.de_disperse` returns data above the volume threshold as they are and the pipeline goes on: a result written to a file, for which no threshold holds, is then not de-dispersed (C255_large_refuted).
* `TFTask.get_stokes` does nothing when no Stokes parameter is given, but `_to_sdata` still takes the polarizations from it: TypeError or ValueError instead of the four products (C256_no_stokes_refuted).

Smoothing of profiles (`M_Smooth`):

* `_smooth_data` tests `iterations != 0`: a negative number never stops (C257_endless_refuted).
* `_smooth_data` replaces a sample above the threshold of one window by the median of the medians of all windows that hold it, which may lie above the sample: on a rising profile outliers are raised (C257_raised_refuted).

Correction of polarization by given Jones matrices (`M_Jonescal`):

* `_polarization_correction2`: the last interval stops before the last time (or frequency) of the matrices, so that data stopping there keep their last samples uncorrected (C258_last_refuted).
* `_polarization_correction2` multiplies the 2 x 2 data by the Jones matrix entry by entry (`*=`), neither the product of matrices nor that with the inverse (C258_product_refuted).

Local time (`M_Localzone`):

* `to_local_time` reads the UTC time as if it were local (`tz.localize`) to find the offset: in Paris the result is one hour late for two hours after the change to summer time and one hour early for one hour after the change to winter time (C259_change_refuted).
