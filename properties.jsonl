{"id": "C01", "title": "Slots tile the schedule", "statement": "Creating a schedule between time_min and time_max with granularity dt > 0 raises ValueError when time_max <= time_min; otherwise it yields exactly floor((time_max-time_min)/dt) slots, the first starts at time_min, each slot stops exactly where the next one starts, each lasts dt, none stops after time_max, and less than one dt is left uncovered at the end.", "quantifier": "every time_min, time_max and dt > 0", "why_tests_cant": "the tiling must hold for every range/granularity ratio, including ranges that are not a multiple of dt; tests sample a few ratios", "anchors": ["nenupy/schedule/schedule.py:_TimeSlots._compute_slots_time_range", "nenupy/schedule/schedule.py:_TimeSlots.__init__"]}
{"id": "C02", "title": "Time to slot conversion is exact", "statement": "time2idx(t) returns the single slot whose half-open interval [start, stop) contains t, or nothing outside the schedule; time2idx(t0, t1) raises ValueError when t1 < t0 and otherwise returns, in increasing order, exactly the slots that intersect the open-ended range (stop > t0 and start < t1).", "quantifier": "every schedule, every instant and every pair of instants", "why_tests_cant": "boundary instants (exact slot edges) form an infinite family depending on the grid", "anchors": ["nenupy/schedule/schedule.py:_TimeSlots.time2idx"]}
{"id": "C03", "title": "Reservations accumulate", "statement": "After any sequence of add_booking calls on a fresh schedule, a slot is free if and only if none of the reserved ranges intersects it, whatever the order or overlap of the calls; a call with stop < start raises and changes nothing.", "quantifier": "every schedule and every finite sequence of reservations", "why_tests_cant": "must hold after every history of calls, including overlapping ones", "anchors": ["nenupy/schedule/schedule.py:_TimeSlots.add_booking", "nenupy/schedule/schedule.py:Schedule.insert"]}
{"id": "C04", "title": "Removing a booking releases the whole range", "statement": "remove_booking(t0, t1) makes every slot that intersects the range free and leaves all the other slots as they were, hence it also releases slots that are still covered by another reservation; add then remove restores the previous state exactly when the range was entirely free before.", "quantifier": "every schedule, booking history and range", "why_tests_cant": "the interference between two reservations depends on arbitrary histories", "anchors": ["nenupy/schedule/schedule.py:_TimeSlots.remove_booking"]}
{"id": "C05", "title": "set_free_slots reserves the complement", "statement": "For chronologically sorted non-overlapping windows inside the schedule, set_free_slots leaves free exactly the previously free slots that do not intersect a gap between the windows (before the first, between two, after the last); when a window starts before its predecessor stops the call raises ValueError.", "quantifier": "every schedule and every list of windows", "why_tests_cant": "the number and position of windows is unbounded", "anchors": ["nenupy/schedule/schedule.py:Schedule.set_free_slots"]}
{"id": "C06", "title": "Greedy booking never double-books", "statement": "After book() with the heuristic algorithm, two different booked observation blocks never share a time slot.", "quantifier": "every schedule, every list of blocks, every non-negative constraint score, every block order, day/night budget, minimal score and prior reservation", "why_tests_cant": "the state space of blocks x scores x orderings is unbounded; overlaps show up only for particular score landscapes", "anchors": ["nenupy/schedule/schedule.py:Schedule.book", "nenupy/schedule/schedule.py:Schedule._compute_block_constraint_scores"]}
{"id": "C07", "title": "Greedy booking respects reservations and the schedule range", "statement": "Every block booked by the heuristic algorithm occupies nSlots consecutive slots lying inside the schedule, all of which were free before the call.", "quantifier": "same as C06", "why_tests_cant": "depends on every combination of reserved slots and scores", "anchors": ["nenupy/schedule/schedule.py:Schedule.book"]}
{"id": "C08", "title": "Greedy booking accounts for every slot", "statement": "After the heuristic booking a slot is free if and only if it was free before and no newly booked block covers it; blocks that are not booked leave no trace.", "quantifier": "same as C06", "why_tests_cant": "it is an invariant over the whole loop", "anchors": ["nenupy/schedule/schedule.py:Schedule.book"]}
{"id": "C09", "title": "Greedy booking picks the best admissible start", "statement": "When a block is booked its start maximises the (day/night weighted) score among all admissible starts, is the earliest such start, has a strictly positive score that is at least minimal_score; a block considered and left unbooked has no admissible start with a positive score reaching minimal_score.", "quantifier": "same as C06, for each iteration of the booking loop", "why_tests_cant": "optimality over all starts for all score vectors", "anchors": ["nenupy/schedule/schedule.py:Schedule.book"]}
{"id": "C10", "title": "Processing delays keep observations apart", "statement": "Two blocks that both require a processing delay and are booked by the same heuristic run starting from no processing reservation are separated by at least the delay of the one that was booked first.", "quantifier": "same as C06 with arbitrary processing delays", "why_tests_cant": "pairwise separation invariant over all booking orders", "anchors": ["nenupy/schedule/schedule.py:Schedule.book", "nenupy/schedule/schedule.py:Schedule._freeze_processing_slots"]}
{"id": "C11", "title": "Resetting bookings restores the free slots", "statement": "Calling book() again first unbooks every block and gives their slots back: the free slots are exactly those that no reservation occupies. Processing reservations are however not restored when a booked block has a processing delay: the released range is shifted by one slot and is not clipped to the schedule.", "quantifier": "every state reachable by booking", "why_tests_cant": "the leftover depends on the history of bookings; it only shows on the second call", "anchors": ["nenupy/schedule/schedule.py:Schedule._reset_observation_block_bookings"]}
{"id": "C12", "title": "Re-booking is idempotent without delays", "statement": "If no block requires a processing delay, calling book() twice with the same parameters gives the same bookings as calling it once.", "quantifier": "every schedule, blocks, scores and parameters", "why_tests_cant": "relates two executions for all inputs", "anchors": ["nenupy/schedule/schedule.py:Schedule.book", "nenupy/schedule/schedule.py:Schedule._reset_observation_block_bookings"]}
{"id": "C13", "title": "Genetic booking ends without overlap", "statement": "Whatever genome the genetic algorithm returns and however fine tuning moves the blocks, after the final clean-up of book(optimize=True) no two booked blocks share a slot, none uses a reserved slot and the free slots are exactly the previously free ones minus the booked ones.", "quantifier": "every genome, every fine tuning outcome, every score", "why_tests_cant": "the algorithm is random: a test sees one outcome", "anchors": ["nenupy/schedule/schedule.py:Schedule.book"]}
{"id": "C14", "title": "Genetic clean-up priority", "statement": "When blocks overlap after the genetic algorithm, the clean-up considers them by increasing score, hence of two overlapping blocks that conflict with no other the lower-scored one is kept and the higher-scored one is unbooked (the reverse of the stated intention).", "quantifier": "every set of scores and starts", "why_tests_cant": "an ordering property over all score assignments", "anchors": ["nenupy/schedule/schedule.py:Schedule.book"]}
{"id": "C15", "title": "Genomes are kept in range", "statement": "Bounding a genome to the schedule maps every gene to a non-negative start such that the block ends before the last slot, whenever the block is shorter than the schedule; genes already in range are left unchanged, and bounding twice is the same as bounding once.", "quantifier": "every genome and block sizes", "why_tests_cant": "must hold for every random draw", "anchors": ["nenupy/schedule/schedule.py:Schedule._bound_to_schedule", "nenupy/schedule/schedule.py:Schedule._mutation", "nenupy/schedule/schedule.py:Schedule._populate"]}
{"id": "C16", "title": "Extension never overlaps and never leaves the schedule", "statement": "extend_scheduled_observations only ever replaces the slots of a booked block by a contiguous range inside the schedule made of its own slots and of slots free at that moment; hence non-overlap with other blocks and with reservations is preserved through any number of extension steps.", "quantifier": "every booked schedule and every list of candidate windows", "why_tests_cant": "invariant over the whole growth loop, for all candidate windows", "anchors": ["nenupy/schedule/schedule.py:Schedule.extend_scheduled_observations"]}
{"id": "C17", "title": "Extension windows contain the original block", "statement": "Every candidate window considered when extending a block contains all the slots of the block, is contiguous, and lies inside the schedule; the accepted window therefore never drops a slot of the block.", "quantifier": "every start, block size, window size and schedule size", "why_tests_cant": "integer rounding of window centring must be right for all parities", "anchors": ["nenupy/schedule/schedule.py:Schedule.extend_scheduled_observations"]}
{"id": "C18", "title": "Fine tuning improves scores, stays in range and avoids reservations", "statement": "Each fine tuning move shifts one booked block by one slot to a start with a strictly higher constraint score; the block stays inside the schedule and off the slots reserved when the scores were computed. It does not guarantee non-overlap: the second block in time ignores the first one.", "quantifier": "every booked schedule, score table and number of iterations", "why_tests_cant": "loop invariant over all score landscapes; the overlap shows up only when the second block is attracted towards the first", "anchors": ["nenupy/schedule/schedule.py:Schedule.fine_tune"]}
{"id": "C19", "title": "Shifting a block", "statement": "Shifting a booked block moves its start by the requested number of slots clipped to the schedule; when the call succeeds the slot bookkeeping matches the new position and nothing else changes. The call may raise after the block has already been moved, leaving block and slots inconsistent; and asking for an earlier date with an explicit duration shifts the block later.", "quantifier": "every booked schedule, shift and duration", "why_tests_cant": "partial-failure states need reasoning on every intermediate step", "anchors": ["nenupy/schedule/schedule.py:Schedule._shift_obsblock", "nenupy/schedule/schedule.py:Schedule._shift_obsblock_earlier"]}
{"id": "C20", "title": "Slot guards are atomic", "statement": "The guarded operations that free or freeze a range of slots either raise and change nothing, or flip exactly the requested range from all-booked to all-free (resp. all-free to all-booked); freeing after freezing the same range is the identity.", "quantifier": "every slot array and range", "why_tests_cant": "exhaustive over ranges", "anchors": ["nenupy/schedule/schedule.py:Schedule._free_slots", "nenupy/schedule/schedule.py:Schedule._freeze_slots", "nenupy/schedule/schedule.py:Schedule._free_processing_slots", "nenupy/schedule/schedule.py:Schedule._freeze_processing_slots"]}
{"id": "C21", "title": "Block numbering is unique and stable", "statement": "After any sequence of insertions, refused or not, the observation blocks of a schedule are numbered 0, 1, 2, ... in insertion order, and previously inserted blocks keep their number. A refused insertion keeps the arguments before the refused one.", "quantifier": "every sequence of insertions", "why_tests_cant": "history property", "anchors": ["nenupy/schedule/schedule.py:ScheduleBlocks.insert", "nenupy/schedule/obsblocks.py:Block"]}
{"id": "C22", "title": "Last possible start is never used", "statement": "A block can be booked at start s only if s + nSlots < number of slots: a block that would exactly reach the end of the schedule is never placed there, and a block as long as the schedule is never booked.", "quantifier": "every schedule, block and score", "why_tests_cant": "off-by-one at the end of an arbitrary schedule", "anchors": ["nenupy/schedule/schedule.py:Schedule._compute_block_constraint_scores"]}
{"id": "C23", "title": "Export is filtered and chronological", "statement": "export(score_min) raises ValueError outside [0, 1]; otherwise the table lists, each once and in chronological order, exactly the booked blocks whose score is at least score_min.", "quantifier": "every schedule and threshold", "why_tests_cant": "permutation and sortedness for all schedules", "anchors": ["nenupy/schedule/schedule.py:Schedule.export"]}
{"id": "C24", "title": "Overlap test of blocks", "statement": "For non-empty blocks and ranges, the overlap test is true exactly when block and range intersect, except when the block stops exactly at the range stop or starts exactly at the range start while extending past it: then it answers False although they intersect.", "quantifier": "every block and range", "why_tests_cant": "order-type case analysis over all endpoint coincidences", "anchors": ["nenupy/schedule/schedule.py:ScheduleBlock.is_within", "nenupy/schedule/obsblocks.py:ReservedBlock.is_within"]}
{"id": "C25", "title": "Combining observation blocks", "statement": "Adding blocks makes a new collection of the same blocks in order and is associative; multiplying by n repeats each element n times consecutively as new blocks; sum() of a list of blocks is their concatenation. The elements of a result are numbered 0..n-1 as long as they are distinct and not numbered again by a later addition, since numbers belong to the blocks and not to the collections.", "quantifier": "every block collection and multiplicity", "why_tests_cant": "algebraic laws on unbounded lists", "anchors": ["nenupy/schedule/obsblocks.py:Block"]}
{"id": "C26", "title": "Periodic observations", "statement": "periodic_observation produces ceil((stop-start)/period) blocks capped by the requested maximum, the i-th one allowed exactly within tolerance of start + i*period; every nominal instant lies in [start, stop) and when uncapped no further period fits. This is for a block made by its class: for an element of a product the windows are lost.", "quantifier": "every start, stop, period, tolerance, cap", "why_tests_cant": "rounding and cap interplay over all ratios", "anchors": ["nenupy/schedule/obsblocks.py:ObsBlock.periodic_observation"]}
{"id": "C27", "title": "Combined constraint score", "statement": "When every evaluated constraint score lies in [0, 1] and weights are positive, the combined score of a slot lies between the smallest and largest individual scores, is zero as soon as one of the constraints is zero at that slot, equals 1 when all are 1, and does not depend on the order of the constraints.", "quantifier": "every list of constraints, weights and score vectors", "why_tests_cant": "inequalities over all weights and scores", "anchors": ["nenupy/schedule/constraints.py:Constraints.evaluate"]}
{"id": "C28", "title": "Hour constraints wrap around midnight", "statement": "A local-time or UTC hour window accepts exactly the instants whose hour lies in the window, ends included, the window being read as crossing midnight, ends excluded, when its start is after its end; a window and its swapped version together accept every hour, and none twice.", "quantifier": "every window and time of day", "why_tests_cant": "circular order over all hours", "anchors": ["nenupy/schedule/constraints.py:LocalTimeCnst", "nenupy/schedule/constraints.py:UTCHourCnst"]}
{"id": "C29", "title": "Periodic constraint", "statement": "The periodic constraint accepts exactly the instants at distance at most the tolerance from some instant start + k*period (k any integer), and is invariant by translation of one period.", "quantifier": "every start, period, tolerance and instant", "why_tests_cant": "quantifies over all integers k", "anchors": ["nenupy/schedule/constraints.py:PeriodicCnst"]}
{"id": "C30", "title": "Constraint sets hold one constraint per type", "statement": "A constraint set refuses two constraints of the same type with ValueError; adding a constraint of a new type, or an elevation constraint over the default one, makes a new set holding it; adding one of an existing type raises and changes nothing. Replacing the default elevation constraint takes it away from the left operand too.", "quantifier": "every sequence of additions", "why_tests_cant": "history property", "anchors": ["nenupy/schedule/constraints.py:Constraints"]}
{"id": "C31", "title": "Crossover preserves genes", "statement": "For each crossover method the two children have, at every position, exactly the two genes of the parents at that position.", "quantifier": "every pair of parents and every random cut", "why_tests_cant": "random outcome: all cuts must be covered", "anchors": ["nenupy/schedule/geneticalgo.py:GeneticAlgorithm._crossOver"]}
{"id": "C32", "title": "Evolution never loses its best score", "statement": "Over generations the best score recorded never decreases and equals the maximum of the scores seen so far; evolution stops at the latest after generation_max generations.", "quantifier": "every fitness sequence", "why_tests_cant": "random evolution of unbounded length", "anchors": ["nenupy/schedule/geneticalgo.py:GeneticAlgorithm.evolve"]}
{"id": "C33", "title": "Rebinning groups are a partition", "statement": "Rebinning an increasing time or frequency axis groups consecutive samples in disjoint bins of equal size covering the beginning of the axis, leaving out less than one bin at the end; the rebinned axis and data have the same number of bins, each being the mean (or the median, if asked to ST_Slice.rebin) of its valid samples, NaN when there is none. A decreasing frequency axis given to ST_Slice.rebin yields an empty result.", "quantifier": "every axis length, bin width and data", "why_tests_cant": "floor arithmetic over all sizes", "anchors": ["nenupy/io/io_tools.py:ST_Slice.rebin", "nenupy/io/tf_utils.py:rebin_along_dimension"]}
{"id": "C34", "title": "Rebinning conserves the total", "statement": "Without NaN, the sum of the rebinned data times the bin size equals the sum of the samples covered by the bins, hence of all the data if the axis length is a multiple of the bin size; rebinning by a then b consecutive samples is the same as rebinning by a*b. The second law fails in presence of NaN.", "quantifier": "every data array and factors", "why_tests_cant": "algebraic law over unbounded arrays", "anchors": ["nenupy/io/tf_utils.py:rebin_along_dimension"]}
{"id": "C35", "title": "Selection conditions", "statement": "A selection string made of one comparison (>=, <=, >, <, ==), or of two joined by '&', selects exactly the samples satisfying the comparison(s), '==' meaning equality within a relative 1e-5 for frequencies and 1e-12 for times in Julian days; a string with three comparisons or more, one without operator, and one whose value cannot be read are refused. Blanks and any text before the operator are ignored.", "quantifier": "every axis and condition", "why_tests_cant": "all values and operators", "anchors": ["nenupy/io/io_tools.py:_parse_condition"]}
{"id": "C36", "title": "Channel reordering is a permutation", "statement": "Converting raw blocks to the time-frequency plane only permutes samples: each raw sample appears once, at the time block*n+i and at the channel obtained by swapping the two halves of its beamlet; converting twice restores the order of the channels; an odd number of channels, an array which is not 4- or 6-dimensional, and sizes which do not fit are refused.", "quantifier": "every block shape and content", "why_tests_cant": "bijection on unbounded index spaces", "anchors": ["nenupy/io/tf_utils.py:blocks_to_tf_data"]}
{"id": "C37", "title": "Frequency and time axes are uniform and ordered", "statement": "The channel c of a subband of n channels is at its start frequency + (c - n/2) df: the spacing is constant, the middle channel is at the start frequency and the mean half a channel below; the time i of a block is its start + i dt. Adjacent subbands (or blocks) give a globally uniform axis, and the axis is increasing if and only if each subband (block) starts after the last channel (time) of the preceding one, one step being left.", "quantifier": "every list of subbands, channel number and block", "why_tests_cant": "all sizes", "anchors": ["nenupy/io/tf_utils.py:compute_spectra_frequencies", "nenupy/io/tf_utils.py:compute_spectra_time"]}
{"id": "C38", "title": "Stokes parameters", "statement": "The matrix built from recorded data is the Hermitian coherency matrix of the electric field, and I, Q, U, V computed from it are the differences of the powers received through the usual polarizers; I >= 0 and I^2 >= Q^2+U^2+V^2 for every sum of field samples, with equality for a single one; the ratios to I are within [-1, 1] and not a number when I is zero. The values are stacked on a last axis in the order of the names, which are case and space insensitive; an unknown name or data whose last dimensions are not (2, 2) are refused, and an empty list of names gives None.", "quantifier": "every sample and list of names", "why_tests_cant": "real-algebraic inequality over all samples", "anchors": ["nenupy/io/tf_utils.py:compute_stokes_parameters", "nenupy/io/tf_utils.py:spectra_data_to_matrix"]}
{"id": "C39", "title": "De-Faraday rotation preserves intensity and circular polarisation", "statement": "De-Faraday rotation keeps Stokes I, V and L and the Hermitian form, rotates (Q, U) by twice the angle -RM lambda^2, restores a field that was rotated by RM lambda^2, composes additively in RM, and the opposite RM restores the data; data not shaped (time, frequency, 2, 2) are refused.", "quantifier": "every sample and angle", "why_tests_cant": "trigonometric identity over the reals", "anchors": ["nenupy/io/tf_utils.py:de_faraday_data"]}
{"id": "C40", "title": "De-dispersion shifts each channel independently", "statement": "For a dispersion measure that is not negative each output sample (t, f) is the real part of the input sample (t+delay_f, f) when it exists and NaN otherwise, where delay_f is 4140 DM (1/f^2 - 1/fmax^2) in time steps rounded to nearest (ties to even): a dispersed signal is aligned again, the highest frequency is unchanged, no sample leaks into another channel. For negative measures samples leak into other channels or an IndexError is raised, and de-dispersed coherency matrices have a zero Stokes V.", "quantifier": "every data array and delay vector", "why_tests_cant": "index arithmetic on flattened arrays over all shapes", "anchors": ["nenupy/io/tf_utils.py:de_disperse_array"]}
{"id": "C41", "title": "Edge and channel removal", "statement": "Cropping subband edges (by natural widths) or removing channels sets to NaN exactly the requested channels of every subband, negative indices counting from the end, and leaves all other samples unchanged; requests with an index out of range, too many channels, or a frequency axis that is not a multiple of the number of channels raise and leave the data unchanged; removing twice equals removing once; cropping is the removal of the channels of the edges. A numpy array given as argument is modified in place.", "quantifier": "every data array, channel list and edge widths", "why_tests_cant": "all shapes and index lists, negative indices included", "anchors": ["nenupy/io/tf_utils.py:crop_subband_edges", "nenupy/io/tf_utils.py:remove_channels_per_subband", "nenupy/io/tf_utils.py:reshape_to_subbands"]}
{"id": "C42", "title": "Pipeline editing", "statement": "Appending or inserting a task whose name is already present and which is not repeatable leaves the pipeline unchanged, any other task is put at the position given by list.insert; so through any sequence of append, insert and remove on a pipeline without duplicates, no two non-repeatable tasks have the same name (the constructor makes no such check). remove handles its arguments one after the other on the list left by the previous ones: first task of that name, or position; an unknown name is ignored, a position outside raises IndexError and another type TypeError after the previous removals. Running applies the tasks in order with the current values of the parameters, whatever was read before; it fails with the first exception, a KeyError if a parameter is missing.", "quantifier": "every sequence of edits", "why_tests_cant": "history property", "anchors": ["nenupy/io/tf.py:TFPipeline"]}
{"id": "C43", "title": "Pipeline parameters", "statement": "Through any sequence of assignments and resets a parameter holds None, or a value of its type which is in its range extended by half a resolution, made of elements of its list of choices, or boolean according to its declaration, or NaN for a range; fixed parameters keep their value. An assignment is accepted exactly for such values (after conversion) and changes nothing else; a refused one changes nothing. reset restores every initial value; names are looked up case-insensitively, so that a parameter declared with a capital letter is never reached.", "quantifier": "every sequence of assignments", "why_tests_cant": "history property", "anchors": ["nenupy/io/tf_utils.py:TFPipelineParameters", "nenupy/io/tf_utils.py:_TFParameter"]}
{"id": "C44", "title": "get() overrides are temporary", "statement": "Parameter overrides passed to Spectra.get are undone after a call which returns data, writes a file or raises an exception in the pipeline, through any sequence of such calls, but the parameters are then another object: a reference taken before keeps the overrides. They survive when the volume threshold or a keyboard interrupt ends the call, and those accepted before a refused one survive too.", "quantifier": "every sequence of overrides and outcomes", "why_tests_cant": "failure points inside the call", "anchors": ["nenupy/io/tf.py:Spectra.get"]}
{"id": "C45", "title": "Raw data selection is consistent", "statement": "Selecting raw data of a beam between two times and two frequencies returns samples with the time and the frequency at which they were recorded, in the order of the file, one row per returned time and one column per returned frequency; times increase when blocks do not overlap. The first and last samples are the nearest to the requested times inside the block whose start is the closest in whole seconds (the first such block); the sub-bands are those whose start is the closest in whole Hz in the beam. Hence samples within the range may be left out, and samples after it returned. When both times fall on one sample the result is None, or an IndexError inside the last block; an unknown beam raises KeyError.", "quantifier": "every block layout and requested range", "why_tests_cant": "rounding over all block durations", "anchors": ["nenupy/io/tf.py:Spectra.select_raw_data"]}
{"id": "C46", "title": "Concatenating spectra in frequency", "statement": "The frequency concatenation of two dynamic spectra is accepted exactly when they have the same polarisation names, the same number of times, at least two, which differ at most by the first time step of the first operand, and some frequencies. It keeps each sample attached to its frequency, with the times and polarisations of the first operand. The lower band comes first when one band is entirely below the other, whatever the order of the operands; overlapping bands, or bands with a common edge, are accepted and put with the second operand first.", "quantifier": "every pair of dynamic spectra", "why_tests_cant": "all shapes and orders", "anchors": ["nenupy/beamlet/sdata.py:SData.__and__"]}
{"id": "C47", "title": "Concatenating spectra in time", "statement": "The time concatenation of two dynamic spectra with the same polarisation names and frequencies keeps each sample attached to its time when the first operand precedes the second; otherwise data are stacked with the second operand first but times with the first one first, so that samples are attached to wrong times (exchanged when both have as many times).", "quantifier": "every pair of dynamic spectra", "why_tests_cant": "all shapes and orders", "anchors": ["nenupy/beamlet/sdata.py:SData.__or__"]}
{"id": "C48", "title": "Arithmetic on spectra", "statement": "Sums, differences, products and quotients of dynamic spectra act sample by sample and keep the axes of the first operand; polarisations are kept by sums and differences, which require the same names, and multiplied or divided by the others. Operands are refused only when shapes differ or when their time axes (or frequency axes) differ at every sample, so partially different axes are accepted silently and empty selections refused. Adding then subtracting gives back the first operand when the numbers do. Numbers and arrays of the same shape are accepted, nothing else.", "quantifier": "every pair of dynamic spectra", "why_tests_cant": "all axes", "anchors": ["nenupy/beamlet/sdata.py:SData.__add__", "nenupy/beamlet/sdata.py:SData._check_conformity"]}
{"id": "C49", "title": "Cross-correlation index maps", "statement": "For n mini-arrays the selection of a polarisation product picks, in lower-triangular order, exactly one visibility per mini-array pair; XX, YY and YX cover all pairs and XY all pairs of distinct mini-arrays; the four selections partition the 2n(2n+1)/2 stored visibilities.", "quantifier": "every number of mini-arrays and selection", "why_tests_cant": "combinatorial bijection for all n", "anchors": ["nenupy/io/xst.py:Crosslet._get_cross_idx"]}
{"id": "C50", "title": "Mini-array relabelling", "statement": "The correlation matrix drawn from one value per pair of Mini-Arrays, in lower-triangular order, puts the value of the pair (a, b) in the column of the a-th and the row of the b-th Mini-Array of the selection sorted by number, and leaves every other cell (and the diagonal if autocorrelations are masked) empty. This is the right cell when the file lists its Mini-Arrays in increasing order, whatever the order of the selection; otherwise cells are permuted.", "quantifier": "every list of mini-arrays", "why_tests_cant": "loop invariant", "anchors": ["nenupy/io/xst.py:XST_Slice.plot_correlaton_matrix"]}
{"id": "C51", "title": "Beam numbering in a user parset", "statement": "Through any sequence of adding, modifying and removing analog beams, numerical beams and phase centers (operations that raise leave the object unchanged), analog and numerical beams are numbered 0, 1, 2, ... in file order, and the counts written in the observation block are the numbers of beams. Each operation changes only the beam it designates: added last, modified in the fields given, or removed, the others keep their fields and their order. Every numerical beam and phase center carries the number of its analog beam unless noBeam was modified by hand, which the next addition or removal of an analog beam undoes. Phase centers are numbered 0, 1, 2, ... unless an analog beam was removed since the last addition or removal of a phase center; their numbers are then distinct and increasing but do not match their count.", "quantifier": "every sequence of editing operations", "why_tests_cant": "history property", "anchors": ["nenupy/observation/parset.py:ParsetUser"]}
{"id": "C52", "title": "Parset integer lists round-trip", "statement": "A non-empty list of non-negative integers written in a user parset reads back as the same list; a range a..b reads as all integers from a to b inclusive, alone or among other elements; an empty list reads as a list holding an empty text and a negative integer as a text. Any value read from a text is written as a text that reads as the same value, except angles, empty lists, negative integers in a list and dates with fractions of seconds.", "quantifier": "every list of integers", "why_tests_cant": "string encoding over unbounded lists", "anchors": ["nenupy/observation/parset.py:_ParsetBlock._modify_properties", "nenupy/observation/parset.py:_ParsetProperty.__setitem__"]}
{"id": "C53", "title": "Frequency ranges of a subband list", "statement": "Frequency ranges of a non-empty list of valid subbands: the list is cut, in its order, into runs of consecutive increasing subbands, as long as possible, one range per run, from the start of its first subband to the end of its last. A frequency is in one of the ranges exactly when it is in the band of a listed subband; for an increasing list the ranges are increasing and separated by at least one subband. An empty list or an invalid subband raises ValueError. The same subbands in another order may give other, adjacent, ranges.", "quantifier": "every non-empty list of subbands", "why_tests_cant": "all lists", "anchors": ["nenupy/observation/parset.py:_get_frequency_dict"]}
{"id": "C54", "title": "Subband and frequency conversions", "statement": "freq2sb gives for each frequency in 0..100 MHz the index n of the band of one subband width that starts half a subband below n times the width, for any list and unit, increasing with frequency; a frequency out of 0..100 MHz or an empty list raises ValueError, a value that is not a frequency TypeError; with a NaN in the list nothing is refused. sb2freq gives the start of this band for 0..511 (half a subband below the documented one) and raises ValueError for other integers, TypeError for anything else. Subband to frequency and back is the identity for 1..511; for subband 0 the way back raises. Every frequency below 100 MHz less half a subband is in the band given by the way back, the frequencies above map to 512, which sb2freq refuses.", "quantifier": "every frequency and subband", "why_tests_cant": "floor arithmetic over a continuum", "anchors": ["nenupy/instru/instrument_tools.py:freq2sb", "nenupy/instru/instrument_tools.py:sb2freq"]}
{"id": "C55", "title": "Array algebra", "statement": "Arrays with as many names, positions, gains, delays and weights: a + b has the antennas of a then those of b whose name is not in a, each with its own attributes, a - b the antennas of a whose name is not in b. Names are the union and difference, unique if they were; (a + b) + c = a + (b + c), a + a = a, (a + b) - b = a - b, (a - b) - c = a - (b + c), (a - b) + b and a + b have the same antennas, a + b and b + a too when common antennas agree (a's description wins otherwise). An empty result raises ValueError, so a - a raises. Any expression of sums, differences and selections gives aligned attributes, unique names, weights in 0..1, antennas of its operands and at least one antenna.", "quantifier": "every pair of arrays with unique names", "why_tests_cant": "algebraic laws on unbounded arrays", "anchors": ["nenupy/instru/interferometer.py:Interferometer"]}
{"id": "C56", "title": "Array selection", "statement": "Selecting by distinct known names, or by distinct indices below the size, returns exactly these antennas in array order with their attributes, whatever the order of the request, and both ways agree; an antenna is in the selection or in the rest. Duplicates raise DuplicateAntennaError, unknown names AntennaNameError, too large indices AntennaIndexError, an empty selection ValueError. Negative and fractional indices are ignored. A slice s:e:step inside the array selects as on a list; an end beyond the array raises; a[k:] selects the first k antennas, a[:] and a[:-k] raise. A boolean mask is read as indices 0 and 1.", "quantifier": "every array and selection", "why_tests_cant": "all index lists", "anchors": ["nenupy/instru/interferometer.py:Interferometer.__getitem__"]}
{"id": "C57", "title": "very_strict needs consecutive starts", "statement": "With very_strict=True a block is considered for booking exactly when there are as many consecutive admissible starts of strictly positive score as the block has slots.", "quantifier": "every schedule, block, score and prior reservation", "why_tests_cant": "depends on every pattern of free slots and positive scores", "anchors": ["nenupy/schedule/schedule.py:1064-1077"]}
{"id": "C58", "title": "Rejected blocks stay rejected", "statement": "A block found unschedulable by one call of book() (no positive score, or not satisfying very_strict) is not booked by any later call of book(), whatever its parameters, until something is inserted in the schedule, which makes every block eligible again.", "quantifier": "every session, block and parameters", "why_tests_cant": "quantifies over arbitrary sequences of calls", "anchors": ["nenupy/schedule/schedule.py:820-871", "nenupy/schedule/schedule.py:1055-1077", "nenupy/schedule/schedule.py:1776-1784"]}
{"id": "C59", "title": "Fitness penalises overlaps", "statement": "The fitness of a genome is between 0 and 1; it equals the mean normalised constraint score when no two observations overlap (and no delay is infringed), and is at most half of it as soon as two observations overlap. The penalty for infringed processing delays is not reliable: it reads the delays and sizes of other blocks.", "quantifier": "every genome, block sizes and scores", "why_tests_cant": "quantifies over all genomes and sizes", "anchors": ["nenupy/schedule/schedule.py:1852-1924"]}
{"id": "C60", "title": "Day and night budgets", "statement": "With day_hours (night_hours) the score of every start in the day (night) is multiplied by one minus the fraction of the budget already taken by this call of book(), so that no observation is booked at a start in the day (night) once the budget is used up; only the start counts, an observation starting outside may still use such slots.", "quantifier": "every schedule, visiting order, masks and budgets", "why_tests_cant": "depends on every sequence of bookings", "anchors": ["nenupy/schedule/schedule.py:1181-1227"]}
{"id": "C61", "title": "What an extension compares", "statement": "An extension window is accepted when its score exceeds the threshold times the score of the smallest extended window, not the score of the block: with a threshold of at least one a block is never extended by exactly one slot, a block whose scores are uniform is never extended, and an extension can bring a block over slots of null score.", "quantifier": "every schedule, threshold >= 1, limits and non-negative evaluation of windows", "why_tests_cant": "quantifies over all evaluations of the constraints", "anchors": ["nenupy/schedule/schedule.py:1303-1315"]}
{"id": "C62", "title": "Whole sessions stay consistent", "statement": "After any sequence of insertions, reservations, heuristic and genetic bookings, extensions and shifts (as long as no shift raised a ValueError) booked blocks do not share slots, lie inside the schedule, sit on slots that are not free, and are numbered by their position.", "quantifier": "every sequence of operations on every schedule", "why_tests_cant": "invariant over unbounded sequences of operations of all kinds", "anchors": ["nenupy/schedule/schedule.py:Schedule"]}
{"id": "C63", "title": "Elevation constraint", "statement": "A slot whose mid elevation is not above the minimum is rejected, any other has a positive score at most 1; when scaled the score is the ratio to the best mid elevation, so that a higher target never scores lower and the best slot scores 1; when not scaled it is 1.", "quantifier": "every minimum elevation in range and every elevation track", "why_tests_cant": "order and normalisation over all tracks", "anchors": ["nenupy/schedule/constraints.py:ElevationCnst._evaluate"]}
{"id": "C64", "title": "Night constraint", "statement": "A slot is accepted exactly when the Sun is not above the limit, with a score in (0, 1] that is 1 for the lowest Sun. The blocks of a schedule are evaluated one after the other with the Sun elevations left by the previous ones, undefined wherever one of their limits was passed: a block is subject to the strictest limit so far, so its scores depend on the blocks before it.", "quantifier": "every Sun track, limit below the horizon, and sequence of blocks", "why_tests_cant": "independence from the history of evaluations", "anchors": ["nenupy/schedule/constraints.py:NightTimeCnst._evaluate", "nenupy/schedule/schedule.py:Schedule._compute_block_constraint_scores"]}
{"id": "C65", "title": "Transit and sidereal time constraints", "statement": "The score is 1 exactly on the slots during which the target crosses the meridian (or, for slots of at most 12 sidereal hours, the requested sidereal time is reached), 1/2 on the other slots of the window of the block length centred on such a slot, 0 elsewhere.", "quantifier": "every track and block length", "why_tests_cant": "circular arithmetic over all tracks", "anchors": ["nenupy/schedule/constraints.py:MeridianTransitCnst._evaluate", "nenupy/schedule/constraints.py:LocalSiderealTimeCnst._evaluate"]}
{"id": "C66", "title": "Azimuth constraint", "statement": "The score is 1 exactly on the slots during which the target passes at the requested azimuth, for a target that does not pass North (not circumpolar, azimuths increasing) or not South (circumpolar); a circumpolar target passing South is said to be at every azimuth.", "quantifier": "every azimuth track", "why_tests_cant": "circular arithmetic over all tracks", "anchors": ["nenupy/schedule/constraints.py:AzimuthCnst._evaluate"]}
{"id": "C67", "title": "Score of a placed block", "statement": "The score of a placed block is between 0 and 1 whenever it is defined; it is defined exactly when every constraint of the block could be evaluated, hence not for a block without target that has a constraint on its position.", "quantifier": "every set of constraints, evaluation and placement", "why_tests_cant": "inequalities over all weights and scores", "anchors": ["nenupy/schedule/schedule.py:ScheduleBlock.score", "nenupy/schedule/constraints.py:Constraint.get_score"]}
{"id": "C68", "title": "Time range constraint", "statement": "A slot is accepted exactly when its start lies in one of the ranges, ends included.", "quantifier": "every list of ranges and time axis", "why_tests_cant": "universal over ranges", "anchors": ["nenupy/schedule/constraints.py:TimeRangeCnst._evaluate"]}
{"id": "C69", "title": "Times of the booked blocks", "statement": "After any session of insertions, reservations, bookings (heuristic or genetic), extensions and shifts, a booked block starts at the start of its first slot and stops at the stop of its last one; the time between them covers its duration, rounded up to whole slots; two booked blocks never run at the same time.", "quantifier": "every session and pair of booked blocks", "why_tests_cant": "an invariant over all sequences of operations", "anchors": ["nenupy/schedule/schedule.py:Schedule.book", "nenupy/schedule/schedule.py:Schedule.extend_scheduled_observations", "nenupy/schedule/schedule.py:Schedule.export"]}
{"id": "C70", "title": "Elitism", "statement": "Each generation has as many individuals as the population and starts with one of the best individuals of the previous one; when an individual is always graded the same the scores of the generations never decrease, as long as random_individuals is lower than the size of the population.", "quantifier": "every fitness, random draw, selection and crossover method", "why_tests_cant": "random evolution of unbounded length", "anchors": ["nenupy/schedule/geneticalgo.py:GeneticAlgorithm.evolve"]}
{"id": "C71", "title": "The best genome fits in the schedule", "statement": "Whatever is drawn, every gene of the genome returned by the evolution of book(optimize=True) puts its block inside the schedule.", "quantifier": "every random draw, number of generations, selection and crossover method", "why_tests_cant": "random evolution of unbounded length", "anchors": ["nenupy/schedule/geneticalgo.py:GeneticAlgorithm.evolve", "nenupy/schedule/schedule.py:Schedule._populate", "nenupy/schedule/schedule.py:Schedule._mutation"]}
{"id": "C72", "title": "Selection of the parents", "statement": "A parent selected by tournament has a score at least as good as the ones of max(2, n/10) individuals; a fitness proportionate selection never raises on non negative scores and gives two different individuals, of positive score if there are two of them; the ranks of the rank selection follow the scores when these all differ (not when some are equal).", "quantifier": "every list of scores and draw", "why_tests_cant": "random outcome", "anchors": ["nenupy/schedule/geneticalgo.py:GeneticAlgorithm._selectPair"]}
{"id": "C73", "title": "Selection of beam and subband statistics", "statement": "BST.get and SST.get return the times and frequencies satisfying the conditions, in the order of the file, and for each the value recorded at this time, frequency, polarisation (NW if the one asked is not recorded) and digital beam or mini-array. BST.get leaves the object on the beam given as argument (0 by default, whatever the beam set before) and refuses a beam that does not exist, leaving the object unchanged; SST.get refuses an unknown mini-array. Without a condition every frequency is returned, and every time between the first and the last as printed to the millisecond, which may leave out one of them.", "quantifier": "every file content, condition, polarisation, beam and mini-array", "why_tests_cant": "all contents and selections", "anchors": ["nenupy/io/bst.py:BST.get", "nenupy/io/sst.py:SST.get"]}
{"id": "C74", "title": "Frequency edges of the beams", "statement": "sort_beam_edges gives one range of channels for each recorded beam, from the first channel of its first subband to the last channel of its last one; if the subbands of each beam are consecutive, a channel is in the range of a beam if and only if its subband belongs to this beam. With interleaved beams the ranges overlap.", "quantifier": "every list of beams and number of channels", "why_tests_cant": "all beam layouts", "anchors": ["nenupy/io/tf_utils.py:sort_beam_edges"]}
{"id": "C75", "title": "Flattening of the subbands", "statement": "flatten_subband divides each channel by a factor that is the same at all times and depends only on the samples of its subband and polarisation; a subband whose channels have equal medians is unchanged; one whose medians are affine in the channel, a + b c, is divided by (a + b (c - 1/2)) / (a + b (n/2 - 1)), hence not exactly flattened; with one channel per subband all samples are lost; a frequency axis that is not a multiple of the number of channels is refused.", "quantifier": "every data array and number of channels", "why_tests_cant": "medians and affine fits over all contents", "anchors": ["nenupy/io/tf_utils.py:flatten_subband"]}
{"id": "C76", "title": "Linear polarisation angle", "statement": "polarization_angle gives the direction of a linearly polarised field if it is within 45 degrees of the X axis, and the direction minus 90 degrees otherwise: the result is always within [-pi/4, pi/4]; it is not a number only when Q and U are both zero.", "quantifier": "every amplitude and direction", "why_tests_cant": "trigonometry over the reals", "anchors": ["nenupy/io/tf_utils.py:polarization_angle"]}
{"id": "C77", "title": "Parallactic rotation is undone by groups of samples", "statement": "correct_parallactic turns the sample t back by the parallactic angle at the beginning of its group of G samples (G the nearest integer to time_step/dt), counted from the first time at the nominal step, leftover samples and windows shorter than a group included: it keeps I, V and L, rotates (Q, U) by twice the angle and restores a field rotated by these angles. With uniform times the angle is that of the first sample of the group, with a gap in the times it is not. Wrong sizes are refused and a time step below half a sample raises ZeroDivisionError.", "quantifier": "every data array, time array, sampling and angle function", "why_tests_cant": "all sizes, group sizes and angle functions", "anchors": ["nenupy/io/tf_utils.py:correct_parallactic"]}
{"id": "C78", "title": "Tasks shown as active", "statement": "TFPipeline.info shows a task as active exactly when none of its parameters is None now or it was found active before: a task stays shown as active when its parameter is set to None again, and a task shown as inactive is nevertheless run.", "quantifier": "every task, parameters and history of updates", "why_tests_cant": "history property", "anchors": ["nenupy/io/tf.py:TFTask.update", "nenupy/io/tf.py:TFPipeline.info"]}
{"id": "C79", "title": "Rebinning tasks", "statement": "The time (frequency) rebinning task leaves the data as they are when rebin_dt (rebin_df) is None and otherwise rebins the first (second) axis from dt to rebin_dt (df to rebin_df). Since dt does not change, two such tasks in a pipeline rebin twice: with rebin_dt = a dt, the result is that of one rebinning by a*a samples.", "quantifier": "every data array, sampling and factor", "why_tests_cant": "all sizes and factors", "anchors": ["nenupy/io/tf.py:TFTask.time_rebin", "nenupy/io/tf.py:TFTask.frequency_rebin"]}
{"id": "C80", "title": "Times of missing blocks", "statement": "On loading with check_missing_data, blocks with a time stamp below 0.1, a null index (except the first block) or a negative number of sub-bands are bad. Good blocks keep their recorded time; bad blocks between two good ones get linearly interpolated times, so that times increase when those of good blocks do and are exact when blocks are regular; bad blocks before the first (after the last) good one all get the time of that good block; if all are bad a ValueError is raised. The data of bad blocks are never replaced by NaN.", "quantifier": "every sequence of blocks", "why_tests_cant": "all patterns of missing blocks", "anchors": ["nenupy/io/tf.py:Spectra._get_bad_data_mask", "nenupy/io/tf.py:Spectra._reconstruct_time", "nenupy/io/tf.py:Spectra._to_dask_tf"]}
{"id": "C81", "title": "Bounds of a file", "statement": "time_min is the time of the first sample and time_max one step after the last one, and all samples are between them when block times do not decrease. frequency_min is half a sub-band above the lowest channel, frequency_max half a sub-band and a channel above the highest one, when sub-bands increase in each beam.", "quantifier": "every file layout", "why_tests_cant": "all layouts of blocks, beams and sub-bands", "anchors": ["nenupy/io/tf.py:Spectra.time_min", "nenupy/io/tf.py:Spectra.time_max", "nenupy/io/tf.py:Spectra.frequency_min", "nenupy/io/tf.py:Spectra.frequency_max"]}
{"id": "C82", "title": "Slicing spectra", "statement": "Indexing a dynamic spectrum with three slices returns the designated samples, with their own times, frequencies and polarisations, in the order of the slices (any start, stop and non-zero step, negative or out of bounds); anything but three slices raises IndexError and a null step ValueError.", "quantifier": "every spectrum and every triple of slices", "why_tests_cant": "all bounds and steps", "anchors": ["nenupy/beamlet/sdata.py:SData.__getitem__"]}
{"id": "C83", "title": "Selection of cross-correlations", "statement": "For a file whose subbands are the same at all times, get returns, for a product other than XY, an array (times, frequencies, pairs) holding the visibility recorded at each selected time and frequency for each pair of selected Mini-Arrays, in lower-triangular order of the Mini-Arrays as listed in the file. Times and Mini-Arrays label the result; when the selection is given in another order than the file's the labels are in the order given but the values are not. The frequencies attached to the result are repeated once per time of the file (XST), or listed once (NenuFAR TV). A Mini-Array that is not in the file raises IndexError, one given twice ValueError, an unknown product ValueError, a condition selecting no time IndexError, and a condition selecting different columns at different times ValueError. Data whose first two dimensions are not the numbers of times and frequencies of the file raise IndexError.", "quantifier": "every file content, selection and pair", "why_tests_cant": "all files and selections", "anchors": ["nenupy/io/xst.py:Crosslet.get", "nenupy/io/xst.py:Crosslet._get"]}
{"id": "C84", "title": "XY products and Stokes parameters", "statement": "get with XY, and get_stokes with U, V, FL or FV, succeed only when the selection has a single time or a single frequency but not both, and raise IndexError otherwise. When they succeed, XY is the recorded visibility for two different Mini-Arrays and the conjugate of YX for one Mini-Array with itself, and each Stokes parameter is its formula in the four products of the same time, frequency and pair. I and Q do not have this restriction. An unknown name raises KeyError.", "quantifier": "every file content, selection and parameter", "why_tests_cant": "all shapes and selections", "anchors": ["nenupy/io/xst.py:Crosslet._get", "nenupy/io/xst.py:Crosslet.get_stokes"]}
{"id": "C85", "title": "Reading the file of a user parset", "statement": "For any sequence of editing operations, when each field written has a text of one line that can be read, the text of a user parset is read as: the fields written of the observation and output blocks, and for each analog beam, numerical beam and phase center, under its number, its number and its fields written, in the order of the file, each field with the value its own text reads as. A file beginning with a line without a dot raises UnboundLocalError, a line with a dot but without an equal sign raises ValueError.", "quantifier": "every sequence of editing operations and every field value", "why_tests_cant": "all histories and texts", "anchors": ["nenupy/observation/parset.py:ParsetUser.__str__", "nenupy/observation/parset.py:Parset._decodeParset"]}
{"id": "C86", "title": "Loading a user parset", "statement": "Loading the text of a user parset built by any sequence of operations that does not modify noBeam by hand gives a user parset with the same analog beams, numerical beams and phase centers, in the same order and under the same parents, all numbered 0, 1, 2, ...; each field written has the value read from its text, other fields their default. The text written after a load is reproduced unchanged by any number of further loads, when no value is a list that is empty or has negative integers, or a date that is not a whole second. Letter case is lost by a load: a contact name with capitals comes back in lower case. A beam of the file that does not name its analog beam is attached to the first one, and IndexError is raised when there is none.", "quantifier": "every sequence of editing operations, field value and number of loads", "why_tests_cant": "round trip over all histories", "anchors": ["nenupy/observation/parset.py:ParsetUser.load_from_parset"]}
{"id": "C87", "title": "Validation of a user parset", "statement": "validate updates the counts of beams, and returns True exactly when every field that was given a value and has a syntax matches it, in every block. It raises exactly when one of the syntaxes tried is not a regular expression; among all the syntaxes, that of nri_dumpTime leaves a group open, so validating raises as soon as nri_dumpTime is given, whatever its value.", "quantifier": "every user parset", "why_tests_cant": "all histories and values", "anchors": ["nenupy/observation/parset.py:ParsetUser.validate", "nenupy/observation/parset_user_options.json"]}
{"id": "C88", "title": "Analog orders of a direction", "statement": "The directions a Mini-Array can point at are the nadir and all the pairs of steps from -63 to 63 whose direction cosines (3/200 each) are in the unit circle. For any list of coordinates mini_array_pointing_order gives one pair of orders per coordinate, each in 0..127 and never 64, and mini_array_pointing_coordinates of these orders gives directions nearest to the coordinates among all those of the grid. Orders other than 64 of a visible direction are given back by any coordinate to which this direction is strictly nearest. Coordinates of two or more dimensions raise; orders of 128 and more raise IndexError.", "quantifier": "every list of coordinates and every separation function", "why_tests_cant": "16384 directions for each of infinitely many coordinates", "anchors": ["nenupy/instru/instrument_tools.py:mini_array_analog_pointing_grid", "nenupy/instru/instrument_tools.py:mini_array_pointing_order", "nenupy/instru/instrument_tools.py:mini_array_pointing_coordinates"]}
{"id": "C89", "title": "Direction in which a Mini-Array is simulated", "statement": "MiniArray.analog_pointing replaces each direction by its nearest direction on the grid with one step less towards the zenith on the first axis when positive and on the second when negative: it is the nearest one only in one quadrant, and otherwise a strictly farther one (this is the implementation named wrong in instrument_tools). Applied n times to the same pointing it moves n such steps, up to the axes, without changing the sky coordinates.", "quantifier": "every pointing, grid direction, separation function and number of calls", "why_tests_cant": "all directions and call sequences", "anchors": ["nenupy/instru/nenufar.py:MiniArray._skycoord_to_order", "nenupy/instru/nenufar.py:MiniArray._order_to_skycoord", "nenupy/instru/nenufar.py:MiniArray.analog_pointing"]}
{"id": "C90", "title": "Pointing used by the beams of the array", "statement": "In NenuFAR.beam without an analog pointing, the array factor is towards the pointing given, and the i-th Mini-Array rotation is pointed by applying the corrections of the first i rotations one after the other to the same pointing, not its own alone; if each correction lowers the elevation, each rotation points lower than the one before. The pointing given is left changed, with all the corrections, so the array factor of a second beam is no longer towards the coordinates asked for. With one rotation, or corrections that undo each other, directions are those of independent pointings.", "quantifier": "every list of rotations, corrections and pointings", "why_tests_cant": "state shared between calls; all rotations and pointings", "anchors": ["nenupy/instru/nenufar.py:NenuFAR.beam", "nenupy/instru/nenufar.py:MiniArray.beam", "nenupy/instru/nenufar.py:MiniArray.analog_pointing"]}
{"id": "C91", "title": "Beam squint correction", "statement": "beamsquint_correction keeps the azimuth, takes the row of the table at the first of the frequencies closest to the one given, and interpolates the elevation linearly between the two entries around it, taking the end values outside; with an increasing table the corrected elevation is a non-decreasing function of the elevation.", "quantifier": "every table with increasing elevations, frequency and coordinates", "why_tests_cant": "all elevations and frequencies", "anchors": ["nenupy/instru/nenufar.py:MiniArray.beamsquint_correction"]}
{"id": "C92", "title": "Pointing at given times", "statement": "For a pointing with as many coordinates as times, pointing[t] gives at each time the coordinates (and the horizontal coordinates if set, those of the whole pointing when there is one) of the last interval [start, start + duration) that contains it, and the zenith when there is none; its intervals last one second. Selecting again at the same increasing times changes nothing; at times in another order less than a second apart it may. With a different number of coordinates any time in an interval raises IndexError.", "quantifier": "every pointing and list of times", "why_tests_cant": "all interval layouts and times", "anchors": ["nenupy/astro/pointing.py:Pointing.__getitem__", "nenupy/astro/pointing.py:Pointing.duration"]}
{"id": "C93", "title": "Pointing files", "statement": "From an analog pointing file with two lines or more of the beam in time order, the direction at any time is that of the last line at or before it, until the last line, and the zenith outside; a single line lasts one second. From a numerical pointing file it is so up to the last line but one, which lasts ten seconds, followed by the zenith, while the last one lasts as long as the interval before it instead of ten seconds; a single line raises IndexError. No line of the beam raises ValueError, another file extension UnboundLocalError.", "quantifier": "every file content, beam and time", "why_tests_cant": "all times and line spacings", "anchors": ["nenupy/astro/pointing.py:Pointing.from_file"]}
{"id": "C94", "title": "Pointing of a BST file", "statement": "Pointing.from_bst of two records or more and no more than max_points gives at any time the last record at or before it until the last one; one record holds until the end of the data. With more records the direction is piecewise constant on max_points - 1 equal intervals from the first to the last record, with azimuth and elevation linearly interpolated at the start of the interval; the azimuth is interpolated as a number, so that between 359 and 1 degrees it goes through 180.", "quantifier": "every list of records in time order, max_points of 2 or more, and time", "why_tests_cant": "all record lists and times", "anchors": ["nenupy/astro/pointing.py:Pointing.from_bst"]}
{"id": "C95", "title": "Transit, drift scan and default durations", "statement": "target_transit has an odd number n of consecutive steps of dt, n*dt within dt of the duration, the middle one starting at the first transit: for all times from (n-1)/2 steps before to (n+1)/2 steps after the transit the direction is that of the transit, outside it is the zenith; so it is centred half a step after the transit, not on it. No transit raises ValueError. A drift scan keeps its direction in its intervals. Without duration each interval lasts one second, whatever the time to the next one (the documentation says up to the next one); a number of durations that is neither one nor that of the times raises IndexError.", "quantifier": "every transit, positive dt, non negative duration, list of times and time", "why_tests_cant": "all durations and times", "anchors": ["nenupy/astro/pointing.py:Pointing.target_transit", "nenupy/astro/pointing.py:Pointing.azel_driftscan", "nenupy/astro/pointing.py:Pointing.duration"]}
{"id": "C96", "title": "Array factor", "statement": "The geometric delay of an antenna is the dot product of its position (East, North, Up) and of the difference of the unit vectors of the sky direction and of the pointing. With weights in [0, 1], the power of the array factor is between 0 and the square of the sum of the weights, between 0 and 1 when normalised. Towards the pointing, with the same delay everywhere, it is that square and no direction gives more; it is 1 when normalised and all the weights are 1. Moving the whole array, delaying all the antennas alike, reordering them, or exchanging sky and pointing without delays does not change it; an array k times larger at a frequency k times lower has the same. The complex factor of a union is the sum. One antenna gives its weight squared everywhere. The normalisation divides by the number of antennas: one of weight 0 still counts.", "quantifier": "every list of antennas, frequency, direction and pointing", "why_tests_cant": "real valued geometry, all arrays", "anchors": ["nenupy/instru/interferometer.py:Interferometer.array_factor", "nenupy/instru/interferometer.py:Interferometer._geometric_delays", "nenupy/astro/astro_tools.py:AstroObject.ground_projection"]}
{"id": "C97", "title": "Beams and gains", "statement": "The beam is the array factor times the mean of the antenna gains: with gains in [0, 1] the normalised power is in [0, 1], and antennas of the same gain g and weight 1 give g towards the pointing. The squared modulus of the complex beam is the power beam times the mean gain once more, not the power beam. NenuFAR.beam evaluates one Mini-Array per rotation modulo 60 degrees, weighted by their number: this is the mean over the Mini-Arrays when the response depends on the rotation modulo 60 degrees only. Its normalize=False does not reach the array factor of the whole array, which stays divided by the square of the number of Mini-Arrays.", "quantifier": "every array, gains, rotations, frequency and direction", "why_tests_cant": "real valued, all gains", "anchors": ["nenupy/instru/interferometer.py:Interferometer.beam", "nenupy/instru/nenufar.py:NenuFAR.beam"]}
{"id": "C98", "title": "Directions of the analog grid", "statement": "The direction of steps (k1, k2) of 0.015 is at or above the horizon when 0.015^2 (k1^2 + k2^2) is at most 1, the nadir otherwise. Its components to the East and North are the opposite of 0.015 k1 and 0.015 k2 turned by the rotation of the Mini-Array: the grid is regular in direction cosines. The azimuth is in [0, 360) degrees, the elevation decreases strictly with k1^2 + k2^2, a rotation adds to the azimuth, opposite steps have opposite azimuths, and no steps is the zenith.", "quantifier": "every pair of steps and rotation", "why_tests_cant": "all rotations, real valued", "anchors": ["nenupy/instru/instrument_tools.py:mini_array_analog_pointing_grid", "nenupy/instru/nenufar.py:MiniArray._generate_analog_directions"]}
{"id": "C99", "title": "Beamforming of cross-correlations", "statement": "When the visibilities are the correlations of a series of signals, get_beamform returns the power of the sum of the signals of the Mini-Arrays selected, each calibrated and turned by the phase of its position; so it is never negative. In a file of the first Mini-Arrays in order, each one has its own calibration and position; a wave of the direction used gives the square of the number of Mini-Arrays times its power, and no signals of at most that power give more. In other files the position is that of the Mini-Array whose number is the place in the file. The direction used has the azimuth of the pointing with the opposite sign, unlike the array factor. No calibration is a calibration of ones. A Mini-Array that the file does not have raises IndexError, and nothing else does.", "quantifier": "every file, selection, series of signals, calibration, frequency and pointing", "why_tests_cant": "all signals and arrays, real valued", "anchors": ["nenupy/io/xst.py:Crosslet.get_beamform"]}
{"id": "C100", "title": "Jones and Stokes vectors", "statement": "JonesVector.to_stokes gives the Stokes parameters of the field: the total power and the differences of the powers behind horizontal and vertical, diagonal and anti-diagonal, and the two circular analysers. A common phase does not change them and they are fully polarised. linear(a) gives (1, cos 2a, sin 2a, 0) and circular(a) gives (1, 0, cos a, sin a): it is circular at +-90 degrees only, and linear(45) at 0. StokesVector.to_jones keeps the polarised part: its Stokes parameters are (sqrt(Q2+U2+V2), Q, U, V), so a fully polarised vector comes back, also for Q = -I; an unpolarised vector gives NaN, and nothing else does. A non null Jones vector comes back up to a phase. The constructors linear, circular and the six named ones of StokesVector raise NotImplementedError.", "quantifier": "every Jones and Stokes vector, every angle", "why_tests_cant": "real valued, the phase and the null components", "anchors": ["nenupy/astro/jones_mueller.py:JonesVector", "nenupy/astro/jones_mueller.py:StokesVector", "nenupy/astro/jones_mueller.py:PolarVector"]}
{"id": "C101", "title": "Polarisers and retarders", "statement": "JonesMatrix.elliptical(theta, delta) projects on the state (cos theta, exp(i delta) sin theta): it passes that state unchanged, stops the orthogonal one, is idempotent and hermitian; with the polariser at theta + 90 degrees it shares the intensity. Two linear polarisations follow the law of Malus. linear_retarder(theta, delta) delays the two axes by -delta/2 and +delta/2: retarders of the same axis add, a null one is the identity, they are unitary and keep the intensity. A half-wave plate mirrors a linear polarisation about its axis; a quarter-wave plate at 45 degrees makes it circular. The right circular polariser stops JonesVector.right_circular() and passes left_circular(), and conversely.", "quantifier": "every angle, retardation and Jones vector", "why_tests_cant": "all angles, matrix identities", "anchors": ["nenupy/astro/jones_mueller.py:JonesMatrix.elliptical", "nenupy/astro/jones_mueller.py:JonesMatrix.linear_retarder", "nenupy/astro/jones_mueller.py:PolarizerMatrix"]}
{"id": "C102", "title": "From Jones to Mueller", "statement": "JonesMatrix.to_mueller is always real, so never refused in exact arithmetic, and is the only matrix that turns the Stokes vector of every field into that of the field multiplied by the Jones matrix. A product gives the product, a phase changes nothing, the identity gives the identity. MuellerMatrix of numbers that are not all real raises ValueError. MuellerMatrix.elliptical is the Mueller matrix of JonesMatrix.elliptical. MuellerMatrix.linear_retarder(theta, delta) is that of JonesMatrix.linear_retarder(theta, -delta): the two classes disagree on the sense of the retardation except for half-wave plates. Arrays of matrices with more than two leading axes raise UnboundLocalError.", "quantifier": "every Jones matrix, angle and array of matrices", "why_tests_cant": "all matrices and fields", "anchors": ["nenupy/astro/jones_mueller.py:JonesMatrix.to_mueller", "nenupy/astro/jones_mueller.py:MuellerMatrix"]}
{"id": "C103", "title": "From Mueller to Jones, hermitian form", "statement": "MuellerMatrix.to_jones applied to the Mueller matrix of a Jones matrix gives back the four moduli, and the matrix itself up to a phase when its first value is not zero, the first value becoming real and positive; its Mueller matrix is then the same. When the first value is zero the relative phases are lost. A depolarising matrix is not refused: it gives a matrix of another Mueller matrix. NaN appears exactly when one of the four squared moduli is negative. to_hermitian is hermitian for every matrix, of trace M00, of rank one for the Mueller matrix of a Jones matrix, and two different matrices have different ones.", "quantifier": "every Jones and Mueller matrix", "why_tests_cant": "all matrices, the branch cuts of the angles", "anchors": ["nenupy/astro/jones_mueller.py:MuellerMatrix.to_jones", "nenupy/astro/jones_mueller.py:MuellerMatrix.to_hermitian"]}
{"id": "C104", "title": "Effective area of a Mini-Array", "statement": "MiniArray.effective_area counts, for each frequency, the points of a 500 by 500 grid that are within the radius of a dipole (a disk of area lambda2/3) of an antenna seen from above, times the cell and sin(elevation). It raises ValueError exactly for no antenna or no frequency. Moving the antennas, reordering or repeating them, or raising them does not change it; scaling positions and wavelengths by k multiplies it by k2. It never exceeds the rectangle of the grid, never increases with frequency within a call, never decreases when antennas are added inside the rectangle, and sums over groups whose disks do not meet. One antenna gives lambda2/3 sin(elevation) within 0.1 percent. The grid is that of the lowest frequency of the call: the value at the lowest frequency is that of a call of its own, but the others depend on it, and an antenna can be lost altogether. Below the horizon the area is negative.", "quantifier": "every set of antennas, frequencies and elevation", "why_tests_cant": "all geometries and frequencies; the shared grid shows only for particular calls", "anchors": ["nenupy/instru/nenufar.py:MiniArray.effective_area"]}
{"id": "C105", "title": "Effective area of NenuFAR and positions of antennas", "statement": "NenuFAR.effective_area is additive: for arrays without common Mini-Arrays the area of the sum is the sum of the areas, and for a part of the array the area of the difference is the difference; for a given selection of antennas it is proportional to the number of Mini-Arrays, whatever they are, and an unknown selection raises the error of the Mini-Array. The positions of the antennas of a MiniArray keep the distances and heights of the configuration but reverse its orientation: the plan is mirrored, not only rotated. Two rotations a and b differ by a rotation of b - a, clockwise.", "quantifier": "every array, selection, frequency, elevation and rotation", "why_tests_cant": "all arrays and angles", "anchors": ["nenupy/instru/nenufar.py:NenuFAR.effective_area", "nenupy/instru/nenufar.py:MiniArray.__init__"]}
{"id": "C106", "title": "Sky, instrument and system temperatures", "statement": "sky_temperature is 60 K at a wavelength of 1 m, positive, strictly decreasing with frequency, a power law of index -2.55. instrument_temperature is the sky temperature times the measured gain, read on the broken line of the table and constant outside it, so it stays between the extreme gains times the sky temperature; filters other than 0 and 3 raise KeyError. system_temperature is their sum plus flux x area x efficiency / 2k for each source: the sources add up, in any order, and the effective area (with its errors) is used only when there is a source.", "quantifier": "every table, filter, frequency, set of sources, efficiency and elevation", "why_tests_cant": "real powers, all tables and sources", "anchors": ["nenupy/astro/astro_tools.py:sky_temperature", "nenupy/instru/instrument_tools.py:instrument_temperature", "nenupy/instru/interferometer.py:Interferometer.system_temperature"]}
{"id": "C107", "title": "System equivalent flux density", "statement": "For an instrument whose area is in a horizontal plane (Mini-Array and NenuFAR) sefd is decoherence x 2k(T_sky + T_inst) / (efficiency x area at zenith x sin(elevation)), plus decoherence x flux / (efficiency x sin(elevation)) for the sources: the system temperature is asked at zenith with efficiency 1, so a source of flux S adds S / (efficiency x sin(elevation)), twice its flux at 30 degrees. sefd scales as decoherence / (efficiency x sin(elevation)), and without sources as the inverse of the number of Mini-Arrays. It is not a number exactly when the efficiency, sin(elevation) or the area is zero. Errors of the area come before those of the filter.", "quantifier": "every instrument, frequency, elevation, efficiency, decoherence and set of sources", "why_tests_cant": "all parameters together", "anchors": ["nenupy/instru/interferometer.py:Interferometer.sefd"]}
{"id": "C108", "title": "Sensitivity", "statement": "sensitivity divides sefd by sqrt(2 dt df) in beamforming and by sqrt(n(n-1) 2 dt df) in imaging, n being the number of elements; it keeps its sign, any other mode raises ValueError, fewer than two elements in imaging give no number, and an error of sefd is passed on. It decreases as the square root of dt x df. As sefd is already that of the whole array, the number of Mini-Arrays of NenuFAR counts twice in imaging: the result is the density of one Mini-Array divided by n sqrt(n(n-1) 2 dt df), and is lower than in beamforming by sqrt(n(n-1)).", "quantifier": "every instrument, mode, time, band, elevation, efficiency and source", "why_tests_cant": "all parameters together", "anchors": ["nenupy/instru/interferometer.py:Interferometer.sensitivity"]}
{"id": "C109", "title": "Baselines, angular resolution, confusion noise", "statement": "Baseline.bsl[i, j] leads from antenna i to antenna j; baselines close and are antisymmetric; flatten holds the n(n+1)/2 baselines j <= i, row by row. angular_resolution is wavelength / longest baseline in degrees; it raises Exception for one antenna and ValueError for none, is infinite exactly when all the antennas are at the same place, depends only on the set of positions up to any rigid motion or mirror, never grows when antennas are added, and is inversely proportional to the frequency. confusion_noise follows the two published laws, a power of index -2.7 (-2.24 for lofar) of the frequency, and passes on the errors of the resolution.", "quantifier": "every set of positions and frequency", "why_tests_cant": "all geometries, real powers", "anchors": ["nenupy/instru/interferometer.py:Baseline", "nenupy/instru/interferometer.py:Interferometer.angular_resolution", "nenupy/instru/interferometer.py:Interferometer.confusion_noise"]}
{"id": "C110", "title": "Crossing search: what it finds, what it misses, when it ends", "statement": "_find_crossing_times cuts the window in five parts (or as many as needed for parts of at most six hours) and each kept part again until the parts do not exceed the precision. Every time returned lies in an interval, inside the window and no longer than the precision, whose ends meet the condition; the intervals follow each other. A part of the first cut whose ends meet the condition always yields a time inside it, and so does the whole window. A crossing that is the only one gives one time, or two when it falls on a sample, later than the crossing by at most a tenth of the precision and earlier by less than the precision. The search ends for every positive precision and returns the same whatever the number of steps allowed; with a precision of zero or less it never ends as soon as the window meets the condition; a precision not below the duration raises UnboundLocalError, and nothing else is raised. A rise followed by a set inside one part of the first cut are both missed.", "quantifier": "for every condition on two times, window, precision and number of iterations", "why_tests_cant": "The search depends on an arbitrary motion of the target; completeness and termination range over all windows and precisions.", "anchors": ["nenupy/astro/target.py:1017-1064"]}
{"id": "C111", "title": "Rise, set, meridian and azimuth transits; next and previous", "statement": "rise_time keeps the intervals at whose start the elevation is at most the threshold and at whose end at least; set_time the converse; meridian_transit those across which the hour angle falls; azimuth_transit those whose azimuths bracket the value (for a circumpolar target in either direction, on the azimuths reduced to (-180, 180]). All of them are conditions the search can refine. A target that rises (sets, transits) once in the window is found there with the accuracy of C110, with a single time unless the elevation equals the threshold on a sample. next_* is the earliest and previous_* the latest of the times found in the two days after or before; without any, rise and set return an empty time while the meridian versions raise IndexError. A circumpolar target that goes through the South is reported as being at azimuth 0.", "quantifier": "for every motion of the target, threshold, window and precision", "why_tests_cant": "The motion of the target is arbitrary; tests follow a few targets on a few days.", "anchors": ["nenupy/astro/target.py:291-366", "nenupy/astro/target.py:416-1003"]}
{"id": "C112", "title": "Meridian transits by interpolation", "statement": "For an hour angle that grows at a constant rate, less than 360 degrees per sample, meridian_transit_2 returns exactly, in order and without repetition, the times strictly between the first and the last sample at which the hour angle is 0. The samples are separated by the smallest of time_sampling, a fifth of the duration and twelve hours, and the last one is at (n-1) steps, n being the whole number of steps in the duration: a transit in the last step of the window is not returned.", "quantifier": "for every rate, initial hour angle, duration and sampling", "why_tests_cant": "The unwrapping and the interpolation are exact for every rate and phase, which a finite set of dates cannot show.", "anchors": ["nenupy/astro/target.py:369-414", "nenupy/astro/target.py:1067-1097"]}
{"id": "C113", "title": "Receiver configurations: every property stays inside its range", "statement": "Setting a property of a receiver configuration accepts an integer for the counts, a number or a duration for timeRes and tFold, a number or a frequency for freqRes; anything else raises TypeError, a property the receiver does not have raises KeyError, and dsTime or nBits that are not powers of two raise ValueError. A value inside the range of the receiver is kept, a value outside is silently replaced by the default; nothing else changes. Whatever the keywords of the constructor and the settings made afterwards, refused ones included, every property of the receiver exists, lies in its range, is an integer if it is a count and a power of two where it must be. A keyword that is not the name of a public attribute raises AttributeError; those of properties the receiver does not have are ignored. durationSec is not checked: negative durations are kept.", "quantifier": "for every receiver, keywords, value and sequence of settings", "why_tests_cant": "The invariant ranges over all sequences of settings and all values of each kind.", "anchors": ["nenupy/observation/obs_config.py:55-235", "nenupy/observation/obs_config.py:264-506", "nenupy/miscellaneous.py:27-70"]}
{"id": "C114", "title": "Time and frequency resolutions of the dynamic spectra", "statement": "Whatever the resolutions asked, _checkDFvsDT returns a pair made of a transform of 16 to 2048 samples of 5.12 us and of 4 to 1024 transforms, powers of two, so that 4 <= dt x df <= 1024; such a pair is returned unchanged. For a frequency resolution in the range of TFConfig the one returned is between 3/4 and 3/2 of it, and for a time resolution in range both are in range. A TFConfig and its beam hold exactly the pair returned for the values asked (or their defaults). A digital beam of a parset that asks for more than 83.89 ms is recorded as 5 ms, which is not a possible pair with its frequency resolution.", "quantifier": "for every pair of resolutions and keywords", "why_tests_cant": "The closest power of two has to be right for every real value asked.", "anchors": ["nenupy/observation/obs_config.py:771-817", "nenupy/observation/obs_config.py:866-880"]}
{"id": "C115", "title": "Data volumes: finite, proportional, bounded", "statement": "The volume of a configuration is a finite number except for a correlator whose timeRes is 0. It is the product of a positive rate by the useful duration: durationSec for BST, NICKEL and TF, durationSec minus one minute for RAW, and the same but not below 0 for the pulsar modes; so it has the sign of the useful duration, and for the same properties the volumes are as the useful durations. It is proportional to the numbers of sub-bands and polarisations (channels, bits, bins where they apply), inversely proportional to timeRes, freqRes, tFold or dsTime, and for NICKEL proportional to the number of pairs of Mini-Arrays, auto-correlations included. The rate never exceeds 6144 B/s for BST, 600 MB/s for TF with a possible pair, 300 MB/s for RAW, 86.7 MB/s, 4.64 MB/s and 1.2 GB/s for the pulsar modes; there is no bound for NICKEL. A RAW configuration without a duration has a negative volume. Changing a property or the duration of a TF, RAW or pulsar configuration never changes its volume, while BST and NICKEL follow.", "quantifier": "for every valid configuration, duration and scaling", "why_tests_cant": "Proportionality and bounds are statements about all the values of the properties.", "anchors": ["nenupy/observation/obs_config.py:545", "nenupy/observation/obs_config.py:651-655", "nenupy/observation/obs_config.py:837-839", "nenupy/observation/obs_config.py:919-922", "nenupy/observation/obs_config.py:1003-1007", "nenupy/observation/obs_config.py:1141-1144", "nenupy/observation/obs_config.py:1271-1274", "nenupy/observation/obs_config.py:1398-1402"]}
{"id": "C116", "title": "Receiver configurations read from a parset", "statement": "_parseParameters gives the mode written before the colon and, for each name, the last value written, whatever the letter case; with the pulsar syntax a name without value is True and wins over values. fromParset of TF, RAW and pulsar modes keeps, in order, the digital beams whose toDo and mode are those of the receiver and whose parameters exist, passes over the others, and keeps none unless hd_receivers mentions undysputed; the volume is the sum over them. A kept beam has the duration and number of sub-bands of the parset (brought to the range), valid properties, and for TF the possible pair for DT milliseconds and DF kilohertz (DT up to 83.89), for fold the tfold, nbin and onlyi given or 10.73741824, 2048 and four polarisations. A TF beam without DT or DF, and a parset without hd_receivers, raise KeyError. The correlator takes duration and Mini-Arrays from the first analog beam and the rest from the output; not used or not mentioned, its volume is 0. A dump time that is not an integer raises TypeError.", "quantifier": "for every parset, beams and parameter texts of the stated syntax", "why_tests_cant": "Texts and lists of beams are unbounded; tests hold a few parsets.", "anchors": ["nenupy/observation/obs_config.py:687-714", "nenupy/observation/obs_config.py:745-765", "nenupy/observation/obs_config.py:952-992", "nenupy/observation/obs_config.py:1080-1100", "nenupy/observation/obs_config.py:1215-1260", "nenupy/observation/obs_config.py:1345-1385", "nenupy/observation/obs_config.py:1470-1515"]}
{"id": "C117", "title": "Durations of overlapping beams and totals over parsets", "statement": "BSTConfig.fromParset counts each second covered by at least one digital beam once, when the beams start on whole seconds; beams out of step by a fraction of a second are counted separately: two beams of ten seconds half a second apart give twenty. ObsConfig addition is associative with the empty one as neutral element and adds the volumes; fromParset holds one receiver of each kind; fromParsetList holds, in order, the receivers of all the parsets, its volumes are the sums, and it raises the error of the first parset that cannot be read. The cumulative volume is given at the dates in order, each value being the sum of the volumes of the observations up to there, and never decreases when the volumes are not negative.", "quantifier": "for every parset, list of parsets and set of beams", "why_tests_cant": "Unions of arbitrary time windows and sums over lists of any length.", "anchors": ["nenupy/observation/obs_config.py:573-606", "nenupy/observation/obs_config.py:1520-1624", "nenupy/observation/obs_config.py:1640-1704"]}
{"id": "C118", "title": "Lane files are recognised by their name", "statement": "A lane file is accepted exactly when it exists and its name ends with an underscore, one digit, one character and 'spectra' (a final line feed allowed); the lane index is that digit, and it is the only one. Every other name of an existing file raises ValueError; so do lane numbers of two digits. The character before 'spectra' is meant to be a dot but may be anything except a line feed.", "quantifier": "for every file name", "why_tests_cant": "All strings, including several candidates in the same name.", "anchors": ["nenupy/undysputed/dynspec.py:97-108"]}
{"id": "C119", "title": "Axes of a lane", "statement": "For a file of B whole blocks (plus an incomplete one, ignored) of S sub-bands, T steps and 2h channels: the time resolution is 5.12 us x fftlen x nfft2int, time k is the start plus k resolutions without gap between blocks, channel k of sub-band s is at its beamlet number x 195312.5 Hz plus (k-h) channel widths, the data has shape (BT, 2hS, 2, 2) and holds at each time and frequency the matrix of the recorded sample, halves of each sub-band swapped. fmin and fmax are the lower edge of the lowest channel and the upper edge of the highest one, tmin and tmax the first and last times. A file shorter than its header, an odd or null fftlen and a file without sub-band raise ValueError, one without a whole block IndexError.", "quantifier": "for every header, number of blocks, sub-bands, steps, channels and samples", "why_tests_cant": "Index arithmetic over blocks, sub-bands and swapped halves for all sizes.", "anchors": ["nenupy/undysputed/dynspec.py:48-58", "nenupy/undysputed/dynspec.py:111-130", "nenupy/undysputed/dynspec.py:189-316", "nenupy/undysputed/dynspec.py:337-380"]}
{"id": "C120", "title": "Stokes parameters and Faraday rotation of a lane", "statement": "For a string of letters I, Q, U, V in either case, the result has one plane per letter, in order, and at each time and frequency the Stokes parameter of the recorded field. Any other letter raises NotImplementedError, so do the documented names L, XX and YY; the empty string gives None. The derotation turns each matrix by minus the rotation measure times the squared wavelength of its frequency and undoes the rotation of the field; without a rotation measure the data is unchanged. The matrices of a lane are the transposes of those of the tf_utils reader and of the coherency matrix of the field.", "quantifier": "for every field, string of letters, rotation measure and shape", "why_tests_cant": "Real-valued identities for all fields.", "anchors": ["nenupy/undysputed/dynspec.py:158-187", "nenupy/undysputed/dynspec.py:369-380", "nenupy/undysputed/dynspec.py:1313-1364"]}
{"id": "C121", "title": "Beams of a lane", "statement": "The beams of a lane are listed once each in increasing order, each with the range of channels from its first to its last sub-band. When the sub-bands of each beam are consecutive, a channel is in the range of a beam exactly when its sub-band belongs to it; interleaved beams get overlapping ranges.", "quantifier": "for every list of beams", "why_tests_cant": "All arrangements of beams over sub-bands.", "anchors": ["nenupy/undysputed/dynspec.py:318-335"]}
{"id": "C122", "title": "Settings of the reader stay consistent", "statement": "Whatever is assigned after the constructor, refused assignments included: there is a first lane, 0 <= 2 x edge channels <= its number of channels, the beam is one of the beams of the lanes, the time and frequency ranges if set are increasing, the bandpass is one of the four names. An assignment changes its own setting only, and a refused one nothing (files excepted). A time range is accepted exactly for two times or texts that read as times, in increasing order; a frequency range for two quantities or two numbers in MHz, increasing; a beam that does not exist is replaced by the lowest one; a number of edge channels that is negative or more than half the channels is replaced by 0; the name of the bandpass is taken in lower case.", "quantifier": "for every sequence of assignments and value", "why_tests_cant": "The invariant ranges over all histories of assignments.", "anchors": ["nenupy/undysputed/dynspec.py:543-566", "nenupy/undysputed/dynspec.py:625-990"]}
{"id": "C123", "title": "Lane files and limits of the observation", "statement": "Assigning lanefiles appends the lanes read to those already there, in order, while lanefiles itself returns the last list; when a file is refused the lanes read before it stay and lanefiles is unchanged. tmin and fmin are the least over the lanes, tmax and fmax the greatest, and beams the increasing list of all the beams.", "quantifier": "for every list of files and set of lanes", "why_tests_cant": "All lists of files, with the refused one anywhere.", "anchors": ["nenupy/undysputed/dynspec.py:604-622", "nenupy/undysputed/dynspec.py:994-1104"]}
{"id": "C124", "title": "Selection of a lane in time, frequency and beam", "statement": "_select_data takes from the sample nearest to the start (the first one in case of equality) to the one before the sample nearest to the end, and the whole sub-bands of the beam from that of the nearest channel to fmin to that of the nearest to fmax; each sample keeps its time, its frequency and its value. It gives None exactly for a beam not on the lane, the same nearest sample for both times or the same nearest channel for both frequencies, hence for a range that ends before or starts after the lane. For times in steps of dt all selected times are between t0 - dt/2 and t1 - dt/2, and all times from t0 + dt/2 to before t1 - dt/2 are selected. With the default range the last time is left out.", "quantifier": "for every lane read, range and beam", "why_tests_cant": "All positions of the bounds relative to the samples and sub-bands.", "anchors": ["nenupy/undysputed/dynspec.py:1528-1575"]}
{"id": "C125", "title": "De-dispersion of dynamic spectra", "statement": "With d the nearest integer to the delay of a channel, relative to the reference frequency, over the time step: for d >= 1 sample t of the result is sample t+d of the input, NaN if there is none; for d = 0 the whole channel becomes NaN; for d = -k < 0 only the k first samples are not NaN and they are the last k samples of the input. The reference of de_disperse_array is the highest frequency, so this channel is always lost, and everything is for a null dispersion measure; where the delay is at least one step it agrees with tf_utils.de_disperse. The reference of Dynspec is the upper bound of the frequency range, below channels that the selection of whole sub-bands may add. Without dispersion measure Dynspec changes nothing. An array of less than two axes raises Exception, frequencies of another number or none ValueError.", "quantifier": "for every array, frequencies, time step and dispersion measure", "why_tests_cant": "All delays, signs included, and shapes.", "anchors": ["nenupy/undysputed/dynspec.py:1734-1759", "nenupy/undysputed/utils.py:23-82"]}
{"id": "C126", "title": "Averages of dynamic spectra in time and frequency", "statement": "For n samples and a width asked of b steps (rounded down), there are m = n/b bins (integer division) of w = n/m samples, w >= b, leaving less than m samples out; w = b exactly when n - m b < m. Value and coordinate of each bin are the means over its w consecutive samples, NaN left out and NaN if there is nothing else; the other axes are unchanged. Without a width nothing changes; a width of less than one step or more than the axis raises ZeroDivisionError. The width of the bins is thus not the one asked.", "quantifier": "for every array, axis length and width", "why_tests_cant": "All lengths and widths.", "anchors": ["nenupy/undysputed/dynspec.py:1809-1850"]}
{"id": "C127", "title": "Edge channels of sub-bands", "statement": "With e edge channels to remove and n channels per sub-band, the first e and last e channels of every sub-band become NaN and the others are unchanged; all are NaN when 2e >= n, which the setting allows for 2e = n. Nothing changes for e = 0. A number of frequencies that is not a multiple of n raises ValueError.", "quantifier": "for every array, number of channels and edges", "why_tests_cant": "All sizes and numbers of edge channels.", "anchors": ["nenupy/undysputed/dynspec.py:1634-1648"]}
{"id": "C128", "title": "Bandpass corrections of dynamic spectra", "statement": "standard multiplies channel k of every sub-band by the coefficient k of the table. median multiplies by the level of the sub-band (median of the spectrum over its channels) over the spectrum (median of the channel over time), so that all channels of a sub-band of positive spectrum have the same positive median afterwards; with more than one Stokes parameter it raises ValueError. adjusted divides channel k by its response, the median over sub-bands of spectrum over level, for each polarisation. none changes nothing. NaN stays NaN.", "quantifier": "for every array, table and number of channels", "why_tests_cant": "All arrays; medians of medians.", "anchors": ["nenupy/undysputed/dynspec.py:1599-1632"]}
{"id": "C129", "title": "Mitigation of interferences in dynamic spectra", "statement": "With a positive threshold n, a sample becomes NaN exactly if it exceeds the background of its polarisation by more than n times the deviation of that background, and is otherwise unchanged; a higher threshold keeps at least the same samples. A threshold of zero or less changes nothing.", "quantifier": "for every array, background, deviation and threshold", "why_tests_cant": "Any background function, all arrays and thresholds.", "anchors": ["nenupy/undysputed/dynspec.py:1704-1732"]}
{"id": "C130", "title": "Correction of the six-minute gain jumps", "statement": "The bounds of the intervals never decrease, start at the first sample and end at the last one. Every polarisation is divided, at all frequencies, by one curve of time: strictly inside an interval the curve fitted to the profile of this interval, at a jump the product of the curves of both intervals around it. Without the option nothing changes.", "quantifier": "for every array, time step, profile and fit", "why_tests_cant": "All lengths, steps and positions of the jump; any fit.", "anchors": ["nenupy/undysputed/dynspec.py:1952-2032"]}
{"id": "C131", "title": "Dynamic spectra joined from the lanes", "statement": "get processes every lane; those without data are skipped and it gives None if there is none. Otherwise the result has the times of the first lane with data, the total number of frequencies and each column is a column of exactly the processed lanes with its frequency, all of them included; the times of every lane are those of the first one up to one step. Lanes in increasing order of frequency give increasing frequencies. The shape always agrees with the coordinates. With no processing set the Stokes parameters of the selection come out unchanged, and a number of planes other than that of the polarisations of the result (a string of several letters) raises AssertionError.", "quantifier": "for every set of lanes, settings and processing", "why_tests_cant": "All numbers of lanes and settings.", "anchors": ["nenupy/undysputed/dynspec.py:1106-1200"]}
{"id": "C132", "title": "Dynamic spectra written to a file", "statement": "write_hdf5 succeeds only if the beams asked are different and among those of the lanes; then there is one group per beam, in order, with one dataset per Stokes parameter holding the first plane of get for that beam, time by frequency, the start, end, lowest and highest frequencies of the first Stokes parameter, and the beam setting is left at the last beam. The first axis, which is time, is labelled frequency and has the frequencies attached, the second one time. An unknown beam raises IndexError, a beam without data AttributeError.", "quantifier": "for every reader, list of Stokes parameters and beams", "why_tests_cant": "All lists of beams and parameters.", "anchors": ["nenupy/undysputed/dynspec.py:1204-1307"]}
{"id": "C133", "title": "Polarisation corrected with DreamBeam", "statement": "apply_dreambeam_corrections with groups of g samples (the nearest integer to time_step over dt): if the solutions cover the data (increasing frequencies, every sub-band start with the first solution not below it, consecutive; times from the first sample on), the corrected matrix e of sample (t, f) is the only one with J e J^H equal to the data, J being the solution of group t/g and of the sub-band of f, the last solution for the samples after the last complete group. With one solution per started group, data seen through the matrices is recovered exactly. A singular matrix of a complete group raises an exception, one of the incomplete group leaves its samples uncorrected. A single solution is used for all groups; fewer than groups otherwise raises ValueError, as do a step of one second or less, axes of other sizes and a number of frequencies that is not a multiple of n_channels. A single sub-band at the first frequency of the solutions is refused with ValueError, and data above all their frequencies is corrected with them without notice when there are as many as sub-bands.", "quantifier": "for every data, axes, steps and solutions (DreamBeam is any function)", "why_tests_cant": "All sizes, groups and matrices; DreamBeam is not available to tests.", "anchors": ["nenupy/io/tf_utils.py:70-245", "nenupy/astro/beam_correction.py:40-80"]}
{"id": "C134", "title": "Polarisation of dynamic spectra corrected with DreamBeam", "statement": "With solutions every g samples and a number of samples that is not a multiple of g, Dynspec corrects sample (t, f) with the solution of its block, the first one not before the start of the block, and of its sub-band; the samples after the last complete block with the last of all solutions, whatever the selection. Data seen through the matrices is recovered when exactly one solution follows. A number of samples that is a multiple of g raises ValueError, less than one block IndexError, a single block at the first solution ValueError, a singular matrix anywhere an exception. Because the matrices of the lanes are transposed, the sky is recovered through real matrices only. Without solutions the data is unchanged. dreambeam_inputs shows the last inputs given, also when they were refused or reset since, and raises AttributeError if there were none; a refused assignment leaves the former solutions in use.", "quantifier": "for every data, axes, solutions and sequence of assignments", "why_tests_cant": "All sizes, selections, matrices and histories of the setting.", "anchors": ["nenupy/undysputed/dynspec.py:908-932", "nenupy/undysputed/dynspec.py:1367-1443"]}
{"id": "C135", "title": "Joining statistics data in frequency", "statement": "For slices with one value by time and frequency, a & b succeeds exactly when the times are equal and both have frequencies, and raises ValueError otherwise. The result holds the values of the lower band then those of the upper one (b then a if the bands overlap), every value at its time and frequency, with the times, pointings and polarisation of a. Separate increasing bands give increasing frequencies whatever the order of the operands, and three bands in order can be joined either way. Spectra (one time) are joined as well. Two light curves give one axis of twice as many values for the same times and two frequencies; and two outer bands joined before the one between them give frequencies which are not in order.", "quantifier": "for all slices", "why_tests_cant": "All sizes, axes and values; the cases which go wrong raise no error.", "anchors": ["nenupy/io/io_tools.py:245-278"]}
{"id": "C136", "title": "Joining statistics data in time", "statement": "For light curves (one frequency), a | b with equal frequencies gives the earlier one followed by the later one (b then a if they overlap), values, times and pointing times alike, and raises ValueError if the frequencies differ. With more than one frequency it raises ValueError when the numbers of times differ, and otherwise returns T rows of 2F values for 2T times and F frequencies, a result which never matches its axes. Two spectra give one axis of 2F values for two times and F frequencies.", "quantifier": "for all slices", "why_tests_cant": "All sizes and values; the result of the wrong case is only found out later.", "anchors": ["nenupy/io/io_tools.py:281-318"]}
{"id": "C137", "title": "Part of statistics data", "statement": "s[ts, fs] with Python slices of any start, stop and step keeps every selected value with its own time and frequency, in the order of the slices; a step of zero raises ValueError, a light curve or a spectrum IndexError. s[:, :] is s, a part of a part is a part, reversing twice gives the data back, and cutting at any frequency then joining with & gives the data back.", "quantifier": "for all slices of data and all Python slices", "why_tests_cant": "All sizes, starts, stops and steps, negative ones included.", "anchors": ["nenupy/io/io_tools.py:321-336"]}
{"id": "C138", "title": "Arithmetic of statistics data", "statement": "Slices of equal shapes and axes are combined value by value, with the axes of the first and the longer lists of pointings (those of the first if as long); other axes raise InconsistentShapeError. (a + b) - b is a wherever b is known and (a * b) / b wherever b is known and not null. A number acts on every value and an array of one value by frequency on every time. An array of one value by time raises ValueError unless shaped as a column, and a column with a light curve gives a square array which does not match the axes.", "quantifier": "for all slices, numbers, arrays and operations", "why_tests_cant": "All shapes, values and NaN.", "anchors": ["nenupy/io/io_tools.py:339-356", "nenupy/io/io_tools.py:1251-1292"]}
{"id": "C139", "title": "Flattening and cleaning of statistics data", "statement": "flatten_frequency (flatten_time) divides each value by the median of its channel (of its time), after which every channel (time) of positive median has median one, and flattening again changes nothing; light curves and spectra are refused. clean_rfi replaces by NaN exactly the values which reach the median of their channel plus f_sigma deviations or the median of their time plus t_sigma deviations, all computed before anything is removed, and keeps the others; higher limits keep more. Data without fluctuations are removed entirely, because reaching the level is enough. Light curves and spectra raise ValueError (AxisError).", "quantifier": "for all slices and limits", "why_tests_cant": "All sizes, values and NaN, every channel and time.", "anchors": ["nenupy/io/io_tools.py:798-813", "nenupy/io/io_tools.py:979-986"]}
{"id": "C140", "title": "Correction of pointing switches", "statement": "clear_pointing_switch cuts the times at the samples following the peaks found, at distances of at least the pointing interval in samples (rounded) minus the error; every sample falls in exactly one interval and is divided by the curve fitted to the profile of that interval at its place. The profile is the median over frequencies of each time (of data flattened in frequency if asked) over the greatest one. When the rounded interval does not exceed the error the call raises ValueError, with one time IndexError, as for a light curve or a spectrum.", "quantifier": "for all slices, peaks found and fitted curves (any functions)", "why_tests_cant": "All sets of peaks, sizes and profiles.", "anchors": ["nenupy/io/io_tools.py:1005-1076"]}
{"id": "C141", "title": "Pointings of a beam", "statement": "For a digital beam, digital_pointing holds the rows of its beam and analog_pointing those of its analog beam, in the order of the file; mini_arrays are the used ones of the analog beam. Digital beams of one analog beam share analog pointings and Mini-Arrays, and every row of digital pointing is that of some beam.", "quantifier": "for all tables and beams", "why_tests_cant": "All tables of pointings and beams.", "anchors": ["nenupy/io/bst.py:98-175"]}
{"id": "C142", "title": "Projected baselines", "statement": "compute_uvw gives, for each time and each pair of antennas i >= j at the place i(i+1)/2+j, the components of the vector from j to i along the east, the north and the direction of the phase center (the zenith of each time if none), three orthonormal axes. Their squares sum to the square of the distance of the antennas, baselines of a triangle add up, moving the whole array changes nothing, one direction is the same as this direction repeated for each time. A list of directions of another length raises ValueError, a horizontal one AttributeError.", "quantifier": "for all positions, times, directions and pairs of antennas", "why_tests_cant": "All positions, sidereal times and directions; the identities are over the reals.", "anchors": ["nenupy/astro/uvw.py:48-117"]}
{"id": "C143", "title": "Coverage of the (u, v) plane", "statement": "UV_Coverage accepts exactly the numbers of baselines of the form a(a+1)/2 and raises IndexError otherwise. It holds a squared points per time, the baselines first and in their order; each point (u, v) comes as many times as its opposite. The third coordinate of the added points is not opposite. uv_distance is the distance of the antennas in space, whatever the direction, not the length of (u, v).", "quantifier": "for all arrays, times and directions", "why_tests_cant": "All numbers of antennas and all directions.", "anchors": ["nenupy/astro/uvw.py:125-150"]}
{"id": "C144", "title": "Profiles of a coverage", "statement": "The profiles count, for each time, each pair of antennas once unless its v is null, then it is not counted. azimuthal_profile has as many bins as the smallest integer reaching 180 / step_angle, centred at the middles of the multiples of step_angle; each point is counted at its angle, once, or twice if it is on the edge of two bins. Densities are the counts over the greatest one, from zero to one, NaN when there is no point. With a frequency it raises UnitConversionError. radial_profile starts at the smallest distance, its bins reach the largest one; densities are counts over the distance of the middle over the greatest such value. It raises ValueError when there is no point, or when all of them are at the same distance.", "quantifier": "for all coverages, frequencies and positive steps", "why_tests_cant": "All coverages and steps, points on the edges included.", "anchors": ["nenupy/astro/uvw.py:152-228", "nenupy/astro/uvw.py:291-330"]}
{"id": "C145", "title": "Point spread function of a coverage", "statement": "psf counts in each cell of the grid the points whose u and v are in it, auto-correlations excluded, the range being that of the points. Its value at the center [n/2, n/2] is the number of points, no other value exceeds it in modulus, and values opposite with respect to the center are conjugate. A grid of no cell raises ValueError.", "quantifier": "for all coverages, frequencies and sizes of the grid", "why_tests_cant": "All coverages and sizes; the bound is over all cells.", "anchors": ["nenupy/astro/uvw.py:373-411"]}
{"id": "C146", "title": "Rephasing", "statement": "rephase_visibilities returns the coordinates compute_uvw gives for the new phase center, and factors of modulus one that turn by the difference of the third coordinates, zenith minus new center, in wavelengths. They are one for the same direction and for auto-correlations. Rephasing twice is rephasing to the last direction, the lengths of the baselines do not change.", "quantifier": "for all arrays, times, frequencies and directions", "why_tests_cant": "All directions, baselines and frequencies; identities over the reals.", "anchors": ["nenupy/io/xst.py:69-90", "nenupy/io/xst.py:253-326"]}
{"id": "C147", "title": "Rephasing of a file", "statement": "Crosslet.rephase returns the factors of rephase_visibilities for the frequencies of the first time, whatever the visibilities: two sets of data of the same Mini-Arrays, times and frequencies give the same result, the data are never multiplied. A list of directions raises ValueError, a horizontal direction AttributeError, data whose frequencies are common to all times (NenuFAR TV) IndexError.", "quantifier": "for all data and directions", "why_tests_cant": "All data: independence of the data is a relation between two runs.", "anchors": ["nenupy/io/xst.py:761-839"]}
{"id": "C148", "title": "Images of the sky", "statement": "compute_lmn gives the components of a direction along the east, the north and the center, the third one in absolute value: it is right up to 90 degrees from the center only, where two directions share the same coordinates. For two antennas or more, make_image shows a source of flux one with the value one at its pixel: at the center for any times, in the half of the sky around it for one time; no pixel exceeds the greatest modulus of the visibilities. The image of a combination of visibilities is the combination of the images. With one antenna all pixels are NaN.", "quantifier": "for all arrays, times, frequencies, visibilities, centers and pixels", "why_tests_cant": "All visibilities and all pixels, over the reals.", "anchors": ["nenupy/io/xst.py:328-470", "nenupy/astro/sky.py:835-874"]}
{"id": "C149", "title": "Images of the ground", "statement": "make_nearfield gives at each point of the ground the mean over the baselines of the modulus of the mean over the frequencies of the visibilities, rephased by the difference of the distances of the antennas to this point, one meter above their mean height. It is from zero to the greatest modulus of the visibilities, and one where an emitter of flux one is. With one frequency it is the same at all points. Sources at 10 degrees of elevation or less have no footprint, the others a footprint between zero and one. The points go from -radius to radius, symmetrically. With one antenna it is NaN.", "quantifier": "for all arrays, visibilities, frequencies and points", "why_tests_cant": "All positions and points: the constant image of one frequency is a statement on all of them.", "anchors": ["nenupy/io/xst.py:560-678"]}
{"id": "C150", "title": "Seasons", "statement": "For times between the first and the last one of a non-empty array, the mask of summer is true exactly from 31 March 00:00 to 30 September 00:00 excluded of any year, that of winter is its opposite; _season_from_time agrees on any instant. Another season raises KeyError, an empty array IndexError. Times out of the range of the first and the last one are misclassified when their year is before that of the first or more than one year after that of the last.", "quantifier": "for all arrays of times and all dates of the Gregorian calendar from year 1", "why_tests_cant": "All times of all years, leap ones included; the misclassification depends on the order of the array.", "anchors": ["nenupy/observation/obs_tools.py:336-387", "nenupy/schedule/open_time.py:69-82"]}
{"id": "C151", "title": "Night time", "statement": "For times between the first and the last one of a non-empty array, the mask of the night is true exactly in summer up to 3 h and from 19 h, in winter up to 4 h: winter evenings, from 20 h, documented as night, never are. A single time raises IndexError.", "quantifier": "for all arrays of times", "why_tests_cant": "All times; the missed case is a whole class of inputs.", "anchors": ["nenupy/observation/obs_tools.py:394-427"]}
{"id": "C152", "title": "Hours of day and night", "statement": "_sort_night_time splits a range of hours of one day into the hours of night (before 3 h or after 19 h in summer, 4 h and 20 h in winter) and the other ones; both sum to the length of the range. A stop before the start gives a negative night.", "quantifier": "for all ranges of hours and days", "why_tests_cant": "All pairs of hours over a continuum.", "anchors": ["nenupy/schedule/open_time.py:60-96"]}
{"id": "C153", "title": "Highest frequency of a common analog beam", "statement": "in_analog_beam_max_frequency gives for each separation the highest of the 200 frequencies of the grid, from 15 to 85 MHz, for which the separation is at most half of the angular resolution of the longest baseline, zero without any: all the lower ones suit as well, and a closer pair has a frequency at least as high. Two fixed sources and several times raise IndexError.", "quantifier": "for all arrays of antennas and separations", "why_tests_cant": "All separations, over the reals.", "anchors": ["nenupy/observation/obs_tools.py:50-116"]}
{"id": "C154", "title": "Overlap of bookings", "statement": "Of two events of positive duration, one contains the other, or their ranges intersect, exactly when an instant is in both; events that touch do not overlap. The test is symmetric. An event of no duration is found strictly inside only.", "quantifier": "for all pairs of events", "why_tests_cant": "All pairs of ranges of time.", "anchors": ["nenupy/schedule/open_time.py:415-434", "nenupy/schedule/open_time.py:1067-1095"]}
{"id": "C155", "title": "Sorting of bookings", "statement": "Sorted events are a permutation of the given ones where no event ends at or before the start of its predecessor. Without overlap they are in the order of time, and if no neighbours overlap then all are in the order of time. Of two events that overlap each one is less than the other: their order is that of the algorithm.", "quantifier": "for all lists of events", "why_tests_cant": "The comparison is not an order: what the sort ensures must be derived for all lists.", "anchors": ["nenupy/schedule/open_time.py:412-413", "nenupy/schedule/open_time.py:807-811"]}
{"id": "C156", "title": "File of bookings", "statement": "A file written without exception has one line by maximal group of events that follow one another for the same key project: from the start of the first to the end of the last, to the second, the last group being of one event; the time of a group is the sum of those of its events. With add_error the last line is there twice. Without events that follow one another, overlaps are always found. Disjoint events with suitable names are written, unless the last two follow one another: then an exception is always raised. No event raises IndexError. An overlap with the second of two merged events is not found, and key projects LT00 and RP5A are always refused when the name of the event starts with them. The code of an event is the leftmost of its name that has the form of one (ES, SP, RP or LT and two visible characters); an event whose name has none is refused, fillers are booked for LT02.", "quantifier": "for all calendars, in any order the sort may give", "why_tests_cant": "All calendars: groups of any length; the missed overlaps are states no example was written for.", "anchors": ["nenupy/schedule/open_time.py:795-867"]}
{"id": "C157", "title": "Bookings around midnight", "statement": "Events of a sheet that follow one another are merged: each result is made of consecutive touching pieces, with their names joined by stars; the total duration and the booked instants are those of the pieces. Without comment in the names, no two consecutive results touch. Two touching pieces of the same comment are merged, pieces of different comments never. More than two pieces of the same comment are merged by two only.", "quantifier": "for all lists of events", "why_tests_cant": "Any number of pieces.", "anchors": ["nenupy/schedule/open_time.py:150-173"]}
{"id": "C158", "title": "Rows of a sheet", "statement": "A row of 24 cells gives 24 values, each of them that of its cell or, for a hidden cell, of the last visible one before it; another length raises ValueError. Hidden cells at the start of the row take the value of the last cell of the row.", "quantifier": "for all rows", "why_tests_cant": "All patterns of merged cells.", "anchors": ["nenupy/schedule/open_time.py:352-380"]}
{"id": "C159", "title": "Hours of a calendar", "statement": "For events at whole seconds of at most 24 hours, NenuCalendar.info counts as night the part between 19 h and 3 h (summer) or 20 h and 4 h (winter), in the season of the start, across midnight as well, and as day the rest. Totals are sums over the events. Of longer events whole days are lost in day and night hours, not in the total.", "quantifier": "for all calendars", "why_tests_cant": "All ranges of time, over midnight.", "anchors": ["nenupy/schedule/open_time.py:706-751"]}
{"id": "C160", "title": "Moves of a drawn event", "statement": "A key up moves a selected event one sidereal day (23 h 56 min 4.0905 s) earlier, a key down later, its duration is the same, both are inverse and never refused. After any sequence of clicks and keys the event has moved by as many days as keys down minus keys up pressed while it was selected, which is decided by the last click in the axes. Each of these keys raises TypeError after the move; nothing else raises.", "quantifier": "for all events and sequences of actions", "why_tests_cant": "Sequences of actions of any length.", "anchors": ["nenupy/schedule/open_time.py:394-394", "nenupy/schedule/open_time.py:511-572"]}
{"id": "C161", "title": "Mini-Array rotations of a simulation of lobes", "statement": "miniarray_rotations accepts exactly the lists of multiples of 10, which it reduces modulo 60 without duplicates, in increasing order; None is all six. The Mini-Arrays simulated are those of the table whose actual rotation equals one of the given rotations modulo 60. The array factor is the sum of theirs, times the gain of the antennas if it is asked. An empty list is accepted by the setter, and the simulation then raises UnboundLocalError or AttributeError.", "quantifier": "for all lists of rotations", "why_tests_cant": "All lists of integers, negative and beyond 60 included.", "anchors": ["nenupy/schedule/contamination.py:47-50", "nenupy/schedule/contamination.py:318-334", "nenupy/schedule/contamination.py:521-548"]}
{"id": "C162", "title": "Sources in the lobes", "statement": "After compute_moc(r), r >= 0, the value at a frequency and a time is the number of sources whose HEALPix cell has a part above the horizon where the array factor reaches r times that of any cell and time. Factors are normalized by time, so that it is relative to the maximum of this time. A lower ratio gives wider lobes. The sky model gives one exactly when a cell warmer than the threshold is in the lobes. Before compute_moc AttributeError is raised. If the pointing is at the horizon or below at one time, the values are zero at all times.", "quantifier": "for all array factors, altitudes, sources, times and frequencies", "why_tests_cant": "All fields; one NaN acting on all other times is a global effect.", "anchors": ["nenupy/schedule/contamination.py:372-482", "nenupy/schedule/contamination.py:521-554"]}
{"id": "C163", "title": "Weights of contamination", "statement": "compute_weight_moc gives at each frequency and time the share of the thresholds for which a source at least is in the lobes, from zero to one. It replaces the lobes by booleans: sources_in_lobes then raises AttributeError until compute_moc is called. The sample drawn is the first at the asked time or frequency or after it, the last one if none.", "quantifier": "for all array factors, sources and lists of thresholds", "why_tests_cant": "All thresholds and fields; sequences of calls.", "anchors": ["nenupy/schedule/contamination.py:340-370", "nenupy/schedule/contamination.py:484-501"]}
{"id": "C164", "title": "Sums of masks", "statement": "Masks are added exactly when their times and frequencies are the same, otherwise Exception is raised. The sum has the axes and the shape of the first, each value is the sum of both, NaN if one is. Addition is commutative and associative.", "quantifier": "for all masks", "why_tests_cant": "All masks: algebraic laws.", "anchors": ["nenupy/schedule/contamination.py:64-76"]}
{"id": "C165", "title": "Files of masks", "statement": "A mask exported and read is the same. In bytes, a value from zero to one is read as a multiple of 1/255, less than 1/255 below it, NaN as zero; axes are the same. A number n of sources from 1 to 256 is read as (256 - n) / 255: more sources, a lower value. The export in bytes changes the object itself: the value v becomes the integer k = floor(255 v), and a second export is read as (256 - k) / 255.", "quantifier": "for all masks", "why_tests_cant": "All values: rounding and wrap-around of bytes.", "anchors": ["nenupy/schedule/contamination.py:161-222"]}
{"id": "C166", "title": "Theoretical response of a sub-band", "statement": "get_bandpass(n) accepts exactly the even n from 16, otherwise ValueError. Its value at channel c is 2^50 over the power of a tone at c/n - 1/2 of a sub-band, seen by the filter of this sub-band and of both neighbours. The width of the sub-band is that of the filter (16 over its size) exactly when n is a multiple of 16, where k n channels refine n channels; it is larger otherwise, and the responses are then not the same. Values at c and n - c are equal.", "quantifier": "for all filters of 48 coefficients or more, n and channels", "why_tests_cant": "All n and filters: a sum of 16384 cosines by channel.", "anchors": ["nenupy/io/tf_utils.py:1213-1264"]}
{"id": "C167", "title": "Correction of the bandpass", "statement": "correct_bandpass multiplies each sample by the response at its channel within its sub-band; with an LNA filter it divides it by slope / response + intercept, the coefficients being those of the first frequency of the sub-band. It accepts exactly even n_channels from 16 dividing the number of frequencies, and with a filter 0 to 3 a frequency axis of the same size; otherwise ValueError, AttributeError if a filter comes without frequencies. A flat spectrum seen through the filters becomes flat. An array of floats given by the caller is corrected itself: a second call corrects twice.", "quantifier": "for all data, numbers of channels, filters and frequencies", "why_tests_cant": "All shapes and values; aliasing.", "anchors": ["nenupy/io/tf_utils.py:670-738"]}
{"id": "C168", "title": "Coefficients of the LNA filters", "statement": "bandpass_correction_coefficients accepts exactly the filters 0 to 3, otherwise ValueError. Below 50 MHz the coefficients of filters 0 and 1 are constant, while those of filters 2 and 3 have a slope strictly increasing and an intercept strictly decreasing with frequency. From 50 MHz on the slope strictly decreases and the intercept strictly increases, for all filters. The slope of filter 0 is negative from 98 MHz on.", "quantifier": "for all frequencies and filters", "why_tests_cant": "All real frequencies: monotonicity.", "anchors": ["nenupy/io/tf_utils.py:249-331"]}
{"id": "C169", "title": "Samples removed as interferences", "statement": "mitigate_rfi_along_axis gives data of the same shape where each sample is unchanged or NaN. Data below two dimensions raise Exception, axes other than 0 and 1 IndexError; data without null nor missing sample are accepted. A higher sigma_clip removes no other sample. At a given frequency (axis 0) or time (axis 1), if a sample is removed, so is any sample which is larger relative to the median of its own time (frequency). Where this median is null, exactly the samples which are not null are removed.", "quantifier": "for all data, axes, thresholds, degrees, any fit and any deviation", "why_tests_cant": "All data and fits: relations between samples and calls.", "anchors": ["nenupy/io/tf_utils.py:1436-1560"]}
{"id": "C170", "title": "Mitigation and gains", "statement": "The samples removed by mitigate_rfi_along_axis do not change (nor the error raised) when the data of each time (axis 0) or frequency (axis 1) and polarization are multiplied by a factor of its own, not null.", "quantifier": "for all data and gains, fits and deviations following the unit", "why_tests_cant": "All gains: invariance through medians, maximum, fit and deviation.", "anchors": ["nenupy/io/tf_utils.py:1436-1560"]}
{"id": "C171", "title": "Centres of pointings in the description", "statement": "In the description written by Parset.to_json, the centre of a beam in J2000 is its angles plus decal_ra and decal_dec, cut (not wrapped) to [0, 360] and [-90, 90]; a right ascension of 350 degrees shifted by 20 becomes 360, which is no direction asked for. With decal_az or decal_el the shift is done in the horizontal frame at the middle of the observation. Transits (AZELGEO) are transformed at that middle, tracks of a file are the zenith, NATIF has no coordinate, any other kind is a source of the Solar System. Coordinates stay within [0, 360] and [-90, 90]. Reading a property twice gives the same. Missing fields are KeyError.", "quantifier": "for all properties, dates, shifts, any transformation of coordinates", "why_tests_cant": "All directions and shifts.", "anchors": ["nenupy/observation/parset.py:197-374"]}
{"id": "C172", "title": "Dates and receivers in the description", "statement": "The dates of a pointing are its start, its start plus its duration, and this duration to the nearest millisecond. The receiver depends on toDo (whatever its case): LaNewBa with the sub-bands (none), the parameters of the pulsar modes (source, number of polarisations, down-sampling), waveform, dynamic spectra with their dt and df (5 ms and 6.1 kHz without parameters), NICKEL with the sub-bands of the output before version 1.0 and of the beam from it; tbd is NICKEL exactly before 1.0 where NICKEL is used. Another toDo is KeyError, as is a pulsar beam without source.", "quantifier": "for all properties, versions, parameters", "why_tests_cant": "All combinations of modes and options.", "anchors": ["nenupy/observation/parset.py:376-556"]}
{"id": "C173", "title": "Fields of view and pointings of the description", "statement": "to_json gives one field of view for each analog beam, in order, with its index, target, centre, dates, antennas, mini-arrays and filters. Its pointings are exactly, in this order, the numerical beams and (from version 1.0) the phase centres whose noBeam is its index, its cross-correlations if the output asks for them, and for the first one possibly NICKEL; each beam is the pointing of exactly one field of view. A beam of no analog beam is IndexError. Beams of a file have distinct indices.", "quantifier": "for all parsets", "why_tests_cant": "All parsets: correspondence between structures.", "anchors": ["nenupy/observation/parset.py:559-767", "nenupy/observation/parset.py:814-882"]}
{"id": "C174", "title": "Indices of the pointings", "statement": "If the numerical beams (at least one) and the phase centres are numbered from 0, the indices of all pointings are 0 to N - 1, each once. Without numerical beam phase centres are numbered from 1, and the first cross-correlation shares the index of the last phase centre.", "quantifier": "for all parsets", "why_tests_cant": "All numbers of beams of each kind.", "anchors": ["nenupy/observation/parset.py:657-745", "nenupy/observation/parset.py:840-875"]}
{"id": "C175", "title": "NICKEL before version 1.0", "statement": "For a file before version 1.0 using NICKEL, whatever toDo says in it, the description holds an extra last pointing in the first field of view, with the centre and dates of analog beam 0, named nickel, without receiver: the test on TBD never holds, the texts of a file being in lower case. A numerical beam without toDo, or no analog beam 0, and no description is given.", "quantifier": "for all texts of files", "why_tests_cant": "All files: the test is dead code.", "anchors": ["nenupy/observation/parset.py:681-700", "nenupy/observation/parset.py:862-876", "nenupy/observation/parset.py:71-149"]}
{"id": "C176", "title": "Remote mini-arrays", "statement": "The fields of view described never hold a mini-array beyond 96, even if a pointing uses NICKEL: the pointings are not yet there when the receivers are looked at.", "quantifier": "for all parsets", "why_tests_cant": "All parsets.", "anchors": ["nenupy/observation/parset.py:741-761", "nenupy/observation/parset.py:572-580"]}
{"id": "C177", "title": "Reading a description again", "statement": "Reading the data of a description a second time gives the same fields of view where every pointing is repeated.", "quantifier": "for all parsets", "why_tests_cant": "State between calls.", "anchors": ["nenupy/observation/parset.py:565-580"]}
{"id": "C178", "title": "Versions, topics and durations", "statement": "The version is (0,) if not given, (1, 0) if empty, otherwise the integers between dots; a version written as an integer is AttributeError. The topic is a code (ES0 to ES17, LT0 to LT13 but LT08, RP and digits and a capital, SP16, SP17), a space and a word; anything else is LT00 DEBUG. The duration is stop minus start to the nearest millisecond. The topic of a file is never recognised, for it is in lower case. If TimeDelta refuses texts ending in s, no file whose beams have durations can be described.", "quantifier": "for all properties and texts of files", "why_tests_cant": "All texts.", "anchors": ["nenupy/observation/parset.py:814-826", "nenupy/observation/parset.py:591-636", "nenupy/observation/parset.py:71-149", "nenupy/observation/parset.py:226", "nenupy/observation/parset.py:380"]}
{"id": "C179", "title": "Value of a Sky", "statement": "A Sky built with a scalar holds this scalar (times one) everywhere in the shape (times, frequencies, polarizations, coordinates). An array is accepted if and only if it has exactly this shape (otherwise ValueError, nothing is built or changed). Its elements are those of the array; unless its type is smaller than float64 (then it is copied) the Sky holds the caller's array itself, so that what is written into it later is seen in the Sky, while other arrays have no effect.", "quantifier": "for all axes, arrays, types, numbers", "why_tests_cant": "All shapes; sharing of memory.", "anchors": ["nenupy/astro/sky.py:688-702", "nenupy/astro/sky.py:755-777"]}
{"id": "C180", "title": "Division of a Sky", "statement": "sky / other returns sky itself, with the same axes, each element being divided by the element of other at the same place, other being a scalar, an array or a Sky repeated along its axes of length 1. Skies of other arrays keep their values, and dask values are replaced, not written; a Sky holding the same numpy array changes with it. A refusal (an argument whose shape does not fit, a complex one for real numpy values, a dask one for numpy values) is ValueError, TypeError or NotImplementedError and changes no value of any Sky.", "quantifier": "for all reachable states, skies, arguments", "why_tests_cant": "Sharing of arrays between all skies of a program.", "anchors": ["nenupy/astro/sky.py:716-721", "nenupy/astro/sky.py:759-777"]}
{"id": "C181", "title": "Multiplication of a Sky", "statement": "sky * other returns a new Sky with the same axes, each element being the product. If the values are dask arrays, no other Sky changes. If they are numpy arrays, the original Sky shares the array of the result and holds the product too: sky * other changes sky. Skies of other arrays never change. Refusals as for the division.", "quantifier": "for all reachable states, skies, arguments", "why_tests_cant": "Sharing of arrays.", "anchors": ["nenupy/astro/sky.py:724-730", "nenupy/astro/sky.py:759-777"]}
{"id": "C182", "title": "Shape of the values of skies", "statement": "Whatever sequence of constructions, assignments of values and axes (of the same length), writes, divisions and multiplications, accepted or refused, each Sky has a value of the shape of its axes with all its elements, of a type at least float64. Assigning an axis of another length is accepted; the next division by a scalar then raises ValueError after having divided the values.", "quantifier": "for all programs", "why_tests_cant": "Unbounded sequences of operations.", "anchors": ["nenupy/astro/sky.py:688-730", "nenupy/astro/sky.py:755-810"]}
{"id": "C183", "title": "Selections of a Sky", "statement": "sky[t, f, p] (negative integers counting from the end) is a slice holding all coordinates, the time, frequency and polarization asked for and the values at these indices for every coordinate, in order. An index beyond an axis, or a selection leaving another number of axes than one, is IndexError, and no other error is raised. The slice is a window: for numpy values a slice taken before a division is the one taken after it and shows the quotients; for dask ones it keeps its values. Selections keeping an axis other than the coordinates, or a part of the coordinates, are accepted, with all the coordinates of the Sky beside fewer values.", "quantifier": "for all reachable skies and indices", "why_tests_cant": "All selections.", "anchors": ["nenupy/astro/sky.py:733-750"]}
{"id": "C184", "title": "Difference of slices", "statement": "The difference of two slices of the same coordinates, time, frequency and polarization is a new slice with the difference of each pixel, the arrays of both staying as they were; otherwise ValueError. Observers are not compared: the result has the first one.", "quantifier": "for all slices of skies", "why_tests_cant": "All slices; no side effects.", "anchors": ["nenupy/astro/sky.py:83-89"]}
{"id": "C185", "title": "Visible part of a Sky", "statement": "visible_mask has the shape of the value; its element (t, f, p, c) is true exactly if coordinate c is strictly above the horizon of the observer at time t, whatever the frequency and polarization; visible_sky of a slice agrees with it.", "quantifier": "for all skies, any elevations", "why_tests_cant": "All axes and elevations.", "anchors": ["nenupy/astro/sky.py:92-95", "nenupy/astro/sky.py:824-831"]}
{"id": "C186", "title": "Size of the images of skies", "statement": "For a resolution r between 0 and 0.675 degrees the pixels are at least r and less than 2 r wide. Without radius the image spans 324 by 162 degrees whatever the resolution; with a radius it is the largest square of whole pixels within twice the radius. Its middle is the centre asked for, right ascensions growing to the left. HpxSkySlice gives the same with the shape reversed. Only a null resolution is refused (OverflowError). Any resolution above 0.3375 degree (the documentation tells 0.775), or negative, gives the same image.", "quantifier": "for all centres, resolutions, radii", "why_tests_cant": "All real resolutions.", "anchors": ["nenupy/astro/sky.py:545-564", "nenupy/astro/sky.py:634-652", "nenupy/astro/sky.py:124-128"]}
{"id": "C187", "title": "Pixels of the image of a sky", "statement": "SkySlice._fullsky_projection gives an array of rows of declinations; pixel (i, j) is the mean of the values whose pixel coordinates are in [i, i+1) x [j, j+1), NaN if there is none, if one is NaN or (only_visible) below the horizon. Values and coordinates of different numbers are IndexError. The centre of pixel k having coordinate k, positions in the first half of a pixel are shown in the pixel before, and are lost for the first one.", "quantifier": "for all shapes, positions, values", "why_tests_cant": "Repeated indices, all distributions of positions.", "anchors": ["nenupy/astro/sky.py:567-602"]}
{"id": "C188", "title": "Images as a whole", "statement": "The image does not depend on the order of the coordinates, and the sum of its pixels weighted by the number of positions in each is the sum of the values in the image.", "quantifier": "for all shapes, positions, values", "why_tests_cant": "All orders; conservation law.", "anchors": ["nenupy/astro/sky.py:567-602"]}
{"id": "C189", "title": "Resolution of a HEALPix sky", "statement": "HpxSky uses, among the 30 orders, the resolution nearest to the one asked for; between the extreme ones the one asked for is between 3/4 and 3/2 of it; a finer resolution never has fewer pixels. Null or negative resolutions are not refused, they give nside 2^29.", "quantifier": "for all resolutions, any resolution of order 0", "why_tests_cant": "All resolutions.", "anchors": ["nenupy/astro/sky.py:967-990"]}
{"id": "C190", "title": "Skies of the same pixels", "statement": "The effective resolution of a HpxSky gives the same nside again: HpxSky.shaped_like(sky), any number of times, has the same nside, resolution, pixels, axes and observer, and the value 0. Something else than a HpxSky is TypeError.", "quantifier": "for all skies built, chains of any length", "why_tests_cant": "All resolutions and chains.", "anchors": ["nenupy/astro/sky.py:890-924", "nenupy/astro/sky.py:949-963", "nenupy/astro/sky.py:967-990"]}
{"id": "C191", "title": "Point sources added to a sky model", "statement": "HpxGSM.add_point_source adds the value at each time, frequency and polarization to the pixel where the source is at that time, and changes nothing else, for a fixed source, a source whose times are those of the map, or one whose times are all far from those of the map (it is then recomputed at these). Values of fixed sources added one after the other sum up whatever their order.", "quantifier": "for all maps, sources, values, sequences of sources", "why_tests_cant": "All maps, motions, sequences.", "anchors": ["nenupy/astro/skymodel.py:104-166", "nenupy/astro/target.py:1214-1222", "nenupy/astro/target.py:1326-1339"]}
{"id": "C192", "title": "Positions of other days", "statement": "The position of a moving source is recomputed only if its Julian days are not np.isclose to those of the map, that is more than 24 days away: a source computed at one time is added where it was at that time, for all the times of the map of the same weeks. If it was computed for an array of one time, the first time only is done and IndexError is raised.", "quantifier": "for all maps, sources, values", "why_tests_cant": "All times; refutation.", "anchors": ["nenupy/astro/skymodel.py:104-166", "nenupy/astro/target.py:1326-1339"]}
{"id": "C193", "title": "Sources refused", "statement": "An array of values which is not of the shape (times, frequencies, polarizations) of the map is AssertionError, numbers of times which cannot be broadcast are ValueError, and nothing is changed then. The axes of the map are never changed.", "quantifier": "for all maps, sources, values", "why_tests_cant": "All shapes.", "anchors": ["nenupy/astro/skymodel.py:104-166"]}
{"id": "C194", "title": "Sources of a signal to noise ratio", "statement": "HpxGSM.add_point_source_snr adds, to the pixel of the source at each time, frequency and polarization, the mean of the pixels of the map there plus the ratio times their standard deviation (all computed before). It is not the median of the documentation.", "quantifier": "for all maps, sources, ratios", "why_tests_cant": "All maps; refutation.", "anchors": ["nenupy/astro/skymodel.py:169-209"]}
{"id": "C195", "title": "Extended sources", "statement": "With an angular size, the absolute value of the smoothed source is added to the pixels at each time, frequency and polarization. For a smoothing which commutes with the sign, a value and its opposite change the map in the same way, and no pixel ever decreases.", "quantifier": "for all maps, sources, values, smoothings", "why_tests_cant": "All smoothings.", "anchors": ["nenupy/astro/skymodel.py:104-166"]}
{"id": "C196", "title": "Mini-Arrays of given rotations", "statement": "miniarrays_rotated_like gives exactly the identifiers of the Mini-Arrays whose rotation differs from one of those asked by a multiple of 60 degrees, in the order of the file; turning the rotations asked by multiples of 60 degrees changes nothing; 0, 10 .. 50 give all. A rotation which is not a multiple of 10 is ValueError.", "quantifier": "for all tables of Mini-Arrays, lists of rotations", "why_tests_cant": "All rotations, also negative or beyond 360.", "anchors": ["nenupy/instru/instrument_tools.py:209-240"]}
{"id": "C197", "title": "Random sub-arrays", "statement": "For any draw of values in [0, 1[, generate_nenufar_subarrays gives n sub-arrays, in which each Mini-Array (the core, or all) is exactly once: in the one of the interval [i/n, (i+1)/n[ of its value. The internal check never fails. Less than 2 is ValueError. Sub-arrays may be empty.", "quantifier": "for all draws and numbers of sub-arrays", "why_tests_cant": "Random values.", "anchors": ["nenupy/instru/instrument_tools.py:318-379", "nenupy/instru/nenufar.py:1106-1133"]}
{"id": "C198", "title": "Empirical corrections of pointing", "statement": "pointing_correction refuses frames other than AltAz (ValueError), gives back its argument for any year but 2019 and 2022, and for these refuses a scalar (TypeError), leaves the directions at 15 degrees and lower, and shifts each other one by an interpolation between the corners of a cell of the table which holds it (the values of the table at whole degrees), never more than the largest one, azimuths staying in [0, 360[. A single direction shifted above 90 degrees refuses all (ValueError). The correction jumps at 15 degrees.", "quantifier": "for all tables, directions, years", "why_tests_cant": "All directions and tables.", "anchors": ["nenupy/instru/instrument_tools.py:569-680"]}
{"id": "C199", "title": "Attenuation from the zenith", "statement": "MiniArray.attenuation_from_zenith gives for each frequency, polarization and position the gain divided by that of the zenith, NaN below the horizon; 1 for the zenith. Several times are ValueError. The coordinates given are marked with the time of the first call: with the same object, any call at another time is ValueError.", "quantifier": "for all gains, positions, sequences of calls", "why_tests_cant": "State kept in the argument, sequences of calls.", "anchors": ["nenupy/instru/nenufar.py:693-793"]}
{"id": "C200", "title": "Factors of correction of intensities", "statement": "pointing_correction_factor gives, for each time, frequency and polarization, the gain where the array really pointed at that time divided by the gain at the direction desired at that time, both of the beam really formed; 1 without shift. After the end of the digital pointing, during a day, the last direction pointed is compared with the zenith.", "quantifier": "for all pointings, beams, times", "why_tests_cant": "All pointings; diagonal of a large array.", "anchors": ["nenupy/astro/beam_correction.py:199-325"]}
{"id": "C201", "title": "Mini-Arrays and antennas known", "statement": "MiniArray accepts the integers 0 to 95 and 100 to 105 only; NenuFAR() is made of the first ones, and of all with include_remote_mas. _antenna_name_to_unique_index gives, for antennas 1 to 19, the first of those obtained from it by the rotations of 60 degrees of the hexagon, ValueError for others.", "quantifier": "for all integers", "why_tests_cant": "All integers; symmetry group.", "anchors": ["nenupy/instru/nenufar.py:304-350", "nenupy/instru/nenufar.py:1106-1133", "nenupy/instru/nenufar.py:1015-1040"]}
{"id": "C202", "title": "Names and headers of files of antenna models", "statement": "The frequency of a file of an antenna model is the number after the first '(f=' of its name, up to the next ')'; a name without any is IndexError, and not the error that the code tests. The columns of a header are the names before each '[', without spaces, with the unit up to the next ']'; a column without exactly one '[' is refused.", "quantifier": "for all names, headers, units", "why_tests_cant": "All strings.", "anchors": ["nenupy/instru/antenna.py:45-104", "nenupy/instru/antenna.py:139-182"]}
{"id": "C203", "title": "Tables of antenna models", "statement": "A table with all the values of two axes, the first axis changing slowest, is read as these axes and the matrix of gains, Theta becoming the elevation. Unknown columns are ValueError, a number of lines which is not the product of the numbers of coordinates is AssertionError, no line is ZeroDivisionError. A table whose second axis changes slowest is read without error, as axes which to_healpix always refuses.", "quantifier": "for all axes, gains, orders of columns", "why_tests_cant": "All tables.", "anchors": ["nenupy/instru/antenna.py:45-104", "nenupy/instru/antenna.py:184-198"]}
{"id": "C204", "title": "Interpolation of an antenna model", "statement": "The interpolation of a table gives its values at its coordinates, never leaves the range of the gains, is NaN exactly outside of the axes, and has the same values at 0 and 360 degrees of Phi. It is refused exactly when an axis is not monotonic.", "quantifier": "for all tables and positions", "why_tests_cant": "All positions between the samples.", "anchors": ["nenupy/instru/antenna.py:105-137"]}
{"id": "C205", "title": "Maps of an antenna model", "statement": "to_healpix gives a value for each of the 12 nside^2 pixels, the interpolation at its elevation and at the azimuth found by reading backwards the list of azimuths: 360 degrees minus that of the pixel in the rings shifted by half a pixel, but one pixel width less in the others (the pixels at azimuth 0 are given the gain at 360 - 90/nside degrees).", "quantifier": "for all tables and nside", "why_tests_cant": "All resolutions: the error is that of a formula.", "anchors": ["nenupy/instru/antenna.py:105-137"]}
{"id": "C206", "title": "Files of maps of antennas", "statement": "write_healpix_antenna_file writes one column by file, NW then NE, by increasing frequencies in each; nothing without any list; an empty list is refused. The gain reads the columns of its polarization only, in order, with their frequencies, divided by the largest of their values: the largest becomes 1. No column of the polarization is an error. Reading what has been written gives the frequencies and the maps of all files.", "quantifier": "for all lists of files, maps, polarizations", "why_tests_cant": "All lists; round trip.", "anchors": ["nenupy/instru/antenna.py:206-270", "nenupy/instru/nenufar.py:135-178"]}
{"id": "C207", "title": "Interpolation of antenna gains in frequency", "statement": "The polynomial through the maps at different frequencies gives, at each of them, the map of the file.", "quantifier": "for all numbers of frequencies and values", "why_tests_cant": "Any degree.", "anchors": ["nenupy/instru/nenufar.py:135-178"]}
{"id": "C208", "title": "Reference dipoles", "statement": "ant_pol_to_ref gives exactly the measured dipoles, in the order of the table and without duplicates, whose projected distances to the other antennas are, sorted, close one by one to those of the dipole asked, or to their opposites. A measured dipole is one of its references. The result depends only on these distances: it is the same for a Mini-Array moved, or rotated by 180 degrees, and for the other polarization of one rotated by 90 degrees. Unknown polarizations and antennas are ValueError, Mini-Arrays KeyError.", "quantifier": "for all positions, tolerances, dipoles", "why_tests_cant": "Symmetries over all geometries.", "anchors": ["nenupy/instru/antenna.py:278-392"]}
{"id": "C209", "title": "Model read for an antenna", "statement": "An antenna of a Mini-Array is given the model of the first of its references, a gain without antenna or Mini-Array the default one, and a file name has precedence, but errors of the reference are raised even then. The columns read are those of the polarization asked, even when the reference is the dipole of the other polarization: it is so for Ant01 of Mini-Array 0.", "quantifier": "for all antennas, Mini-Arrays, polarizations, files", "why_tests_cant": "All antennas; the geometry decides which are wrong.", "anchors": ["nenupy/instru/nenufar.py:77-97"]}
{"id": "C210", "title": "Temperature of the instrument of LOFAR", "statement": "lofar_instrument_temperature is the first polynomial up to 90 MHz, the second from 110 MHz, NaN exactly between, for each frequency, whatever the memory contained.", "quantifier": "for all arrays of frequencies", "why_tests_cant": "Uninitialised memory; all frequencies.", "anchors": ["nenupy/instru/instrument_tools.py:386-431"]}
{"id": "C211", "title": "Opening a file of beamformed statistics", "statement": "A BST_Data object opens on beam 0, polarization NW and all times of the file. Its channels are those of beam 0 whose central frequency is not below the smallest frequency listed in the file, that is the central frequencies of sub-bands being half a sub-band below the listed ones, never the channel with the smallest listed frequency.", "quantifier": "for all files", "why_tests_cant": "Any number of beams, beamlets, times; boundaries of ranges.", "anchors": ["nenupy/beamlet/bstdata.py:104-120", "nenupy/beamlet/bstdata.py:243-255", "nenupy/beamlet/beamlet.py:33-110"]}
{"id": "C212", "title": "Selections of beamformed statistics", "statement": "select returns the data of exactly the times within timerange and the channels of the beam within freqrange, bounds included, or the closest (the first if several are), with their times, frequencies and polarization, each value being that of the file at the time, polarization and beamlet. Attributes not given keep their values; polarizations are not case-sensitive.", "quantifier": "for all files, objects, ranges, beams, polarizations", "why_tests_cant": "All selections; positions of every value.", "anchors": ["nenupy/beamlet/bstdata.py:420-676"]}
{"id": "C213", "title": "Successive selections of beamformed statistics", "statement": "After any number of selections, refused or not, which give a frequency range whenever they give a beam, select() returns what the current attributes say. An unknown beam is IndexError and changes nothing; a refused time range is ValueError, but the frequency range given with it is kept.", "quantifier": "for all sequences of selections", "why_tests_cant": "Unbounded histories, with errors.", "anchors": ["nenupy/beamlet/bstdata.py:615-676"]}
{"id": "C214", "title": "Changing the beam of beamformed statistics", "statement": "The object keeps the beamlets of the previous beam when another beam, without common beamlet, is selected without a frequency range: that selection is AssertionError whenever any channel was selected before, and so is every later one, whatever times and polarizations, until a frequency range is given.", "quantifier": "for all files, objects and later selections", "why_tests_cant": "All histories.", "anchors": ["nenupy/beamlet/bstdata.py:432-448", "nenupy/beamlet/bstdata.py:585-610", "nenupy/beamlet/bstdata.py:615-648"]}
{"id": "C215", "title": "Pointings of beamformed statistics", "statement": "The time ranges of the pointings of a beam start at their times in the file, each ending at the start of the next and the last one at the last time of the table of analog pointings, as many as azimuths and elevations. Without any pointing of the beam the azimuths are empty and the time ranges are ValueError.", "quantifier": "for all files and beams", "why_tests_cant": "Any number of pointings.", "anchors": ["nenupy/beamlet/bstdata.py:290-384"]}
{"id": "C216", "title": "Replayed parsets", "statement": "A replay of a parset file is a user parset with one analog beam for each of the file in order, and the numerical beams and phase centers of the file under the analog beams they name, in order. The start times and filter times of all beams are moved by the same time difference, which brings the first start to the day of from_time at the same time of day, to the nearest second, and is a whole number of days if the start is a whole second. A duration given replaces all durations. All other fields but the directions are those of load_from_parset.", "quantifier": "for all parset files, dates, durations", "why_tests_cant": "Any number of beams and fields.", "anchors": ["nenupy/observation/parset.py:1927-2033"]}
{"id": "C217", "title": "J2000 directions of a parset file", "statement": "The texts read from a parset file are in lower case, so a direction type J2000 is read as j2000, which replay_from_parset takes as the name of a body of the solar system: a file where any beam tracks J2000 coordinates cannot be replayed. Only beams without directionType are replayed with their coordinates.", "quantifier": "for all parset files", "why_tests_cant": "All files.", "anchors": ["nenupy/observation/parset.py:71-149", "nenupy/observation/parset.py:1966-1985"]}
{"id": "C218", "title": "Transit of replayed beams", "statement": "Every replayed beam with a tracking type has as transit date the next meridian transit of its target after its new start, even if the previous transit is closer.", "quantifier": "for all parset files", "why_tests_cant": "All beams and dates.", "anchors": ["nenupy/observation/parset.py:1989-1996"]}
{"id": "C219", "title": "Refused replays", "statement": "A replay is KeyError if the file has no analog beam 0 or it has no start time, TypeError with same_lst, AttributeError if the start is not a date and ValueError if the time difference is negative: with a start on a whole second, exactly when from_time is on an earlier day; with a fraction of a second below one half, also on the same day. The new start is before from_time whenever the time of day of from_time is later. A replay succeeds only if every start time of a beam is a date and every tracking type is 'tracking', on a beam with a start time.", "quantifier": "for all parsets and dates", "why_tests_cant": "All dates, boundaries of days and seconds.", "anchors": ["nenupy/observation/parset.py:1936-1946"]}
{"id": "C220", "title": "Receivers of replayed parsets", "statement": "The receivers of a replay are those of the file without seti and codalema, in order, or the default if the file has none; a field that is not a list is refused. A receiver written after a comma and a space is not recognised and stays.", "quantifier": "for all parset files", "why_tests_cant": "All lists of receivers.", "anchors": ["nenupy/observation/parset.py:1998-2009"]}
{"id": "C221", "title": "Queries of the database of observations", "statement": "After any sequence of changes of meta_names, time_range, freq_range, fov_radius and fov_center and of resets, accepted or refused, the query selects the columns set last and asks for the time range set last, the frequency range set last and the field whose center was set last, with the radius at that time; a cleared condition is absent and conditions are joined by AND. The attributes are the values accepted last.", "quantifier": "for all sequences of operations", "why_tests_cant": "All sequences, accepted or refused.", "anchors": ["nenupy/observation/tapdatabase.py:200-397"]}
{"id": "C222", "title": "Range of frequencies asked for", "statement": "The condition written for a range of frequencies [fmin, fmax] holds for an observation exactly if all its frequencies are between fmin and fmax; a reversed range is accepted and matches no observation.", "quantifier": "for all positive frequencies and wavelengths", "why_tests_cant": "All frequencies; the database is a service.", "anchors": ["nenupy/observation/tapdatabase.py:275-297"]}
{"id": "C223", "title": "Radius of the field", "statement": "Changing fov_radius never changes the query: only the next change of fov_center uses it. Two objects with the same attributes can send different queries.", "quantifier": "for all histories and radii", "why_tests_cant": "All histories.", "anchors": ["nenupy/observation/tapdatabase.py:316-366"]}
{"id": "C224", "title": "Searches and resets", "statement": "search is ValueError exactly if no condition on time, frequency or position is set, and otherwise sends the query; reset makes any object like a new one. An empty list of columns is accepted, the query then has no column.", "quantifier": "for all histories", "why_tests_cant": "All histories.", "anchors": ["nenupy/observation/tapdatabase.py:200-215", "nenupy/observation/tapdatabase.py:403-446"]}
{"id": "C225", "title": "Refused selections", "statement": "A refused value changes nothing. Columns are TypeError if not a list, ValueError exactly if one is not in the table; ranges are TypeError if not a list and ValueError if not of length two; a time range is accepted exactly if both are absent or both are dates; a frequency range mixing a number and a quantity is refused; an array of radii is refused, a radius that is not an angle is accepted but then every center is refused.", "quantifier": "for all values and states", "why_tests_cant": "All values.", "anchors": ["nenupy/observation/tapdatabase.py:200-366"]}
{"id": "C226", "title": "Reduced spectra stored and read back", "statement": "A store of a beam that succeeds (distinct non-empty names without slash, a frequency unit, consistent shapes) can be opened after any later stores not in mode 'w', successful or not, and gives the same times, equal frequencies, the names in upper case in alphabetical order and for each name the data stored under it. Such a store succeeds exactly in mode 'w', in mode 'auto' on a missing file, or in modes 'auto' and 'a' on a file with beams but without this one. File names must end with '.hdf5' in any case, others are ValueError and change nothing. A store that succeeds had enough names, all distinct in upper case.", "quantifier": "for all data, files, modes and histories of later stores", "why_tests_cant": "All histories and shapes.", "anchors": ["nenupy/io/tf_utils.py:2283-2480", "nenupy/io/tf_utils.py:3282-3376"]}
{"id": "C227", "title": "Polarizations of reduced spectra", "statement": "A stored polarization is read alone under its name in upper case, with its data; any other name, a missing beam or another sub-array pointing is KeyError. The order given at storage is lost: names that are not in alphabetical order are read in another order.", "quantifier": "for all stores, names and later histories", "why_tests_cant": "All names and histories.", "anchors": ["nenupy/io/tf_utils.py:2459-2478", "nenupy/io/tf_utils.py:3318-3376"]}
{"id": "C228", "title": "Stores of reduced spectra that fail", "statement": "Mode 'w' removes all other beams even if the store fails. Mode 'a' on a missing file raises and leaves an empty file in which every later store not in mode 'w' fails. A beam whose store failed in part stays in the file, and every later 'auto' or 'a' store of this beam is refused. With too few names the store raises IndexError, but every polarization that has a name is in the file and is read as if the store had succeeded.", "quantifier": "for all arguments, files and later stores", "why_tests_cant": "All later stores.", "anchors": ["nenupy/io/tf_utils.py:2385-2478"]}
{"id": "C229", "title": "Names with a slash and polarizations as a text", "statement": "A store with a name 'X/Y' succeeds, then the beam cannot be opened (ValueError) nor this name be read (KeyError). Polarizations given as a text are stored as the list of its characters.", "quantifier": "for all stores with such a name, for all texts", "why_tests_cant": "All texts and files.", "anchors": ["nenupy/io/tf_utils.py:2461-2478", "nenupy/io/tf_utils.py:3318-3376", "nenupy/io/tf.py:1468-1480"]}
{"id": "C230", "title": "Slices of reduced spectra", "statement": "A slice of one to three indices (integers, slices, one ellipsis) of opened spectra keeps the times, frequencies, polarizations and cells at the chosen positions, in order, and all axes; the only error is IndexError, raised exactly if there are no index or more than three, two ellipses, or an axis without chosen position.", "quantifier": "for all spectra and indices", "why_tests_cant": "All indices and shapes.", "anchors": ["nenupy/io/tf_utils.py:3022-3055", "nenupy/io/tf_utils.py:3194-3214"]}
{"id": "C231", "title": "Attributes of a file of reduced spectra", "statement": "The attributes of the file give the extreme and central frequencies in the unit, the first and last times, the duration in seconds, the file name and the metadata of the store that created the file; later stores not in mode 'w' never change them, although their beams can have other times and frequencies.", "quantifier": "for all stores and later histories", "why_tests_cant": "All histories.", "anchors": ["nenupy/io/tf_utils.py:2385-2437"]}
{"id": "C232", "title": "Sidereal time of targets", "statement": "The local sidereal time of a target is the mean sidereal time at the longitude (linear in the Julian day), reduced by whole days of 24 hours, and never negative. For a longitude east of Greenwich it lies between the longitude and 24 hours plus the longitude, so at some dates it is 24 hours or more; for a longitude west it is below 24 hours.", "quantifier": "for all Julian days and all longitudes between -24 and 24 hours", "why_tests_cant": "All dates.", "anchors": ["nenupy/schedule/targets.py:158-174"]}
{"id": "C233", "title": "Hour angle and transit of targets", "statement": "The hour angle is the sidereal time minus the right ascension modulo 360 degrees, between 0 and 360, and is 360 instead of 0 exactly if this difference is exactly one turn. Between two dates less than a sidereal day apart whose hour angles are not 360, the hour angle decreases if and only if the target crosses the meridian after the first and not later than the second date.", "quantifier": "for all sidereal times below 48 hours, right ascensions, longitudes and pairs of dates", "why_tests_cant": "All dates and right ascensions.", "anchors": ["nenupy/schedule/targets.py:189-199"]}
{"id": "C234", "title": "Elevation and azimuth of targets", "statement": "The elevation and the azimuth (from the north to the east) computed from latitude, declination and hour angle are those of the direction of the target in the local frame (north, east, up). The azimuth is not a number only if the target is at the zenith or at the nadir.", "quantifier": "for all latitudes except the poles, all declinations and hour angles", "why_tests_cant": "All real angles.", "anchors": ["nenupy/schedule/targets.py:205-234"]}
{"id": "C235", "title": "Culmination, circumpolar targets and direction of motion", "statement": "A target is highest at hour angle 0, at 90 degrees minus the distance of latitude and declination, and lowest at 180 degrees. In the northern hemisphere a target is declared circumpolar if and only if it is always above the horizon, the declination 90 degrees minus the latitude apart. From a date to a later one the azimuth of a target that always turns clockwise around the zenith increases (modulo a turn).", "quantifier": "for all latitudes, declinations and hour angles; the motion for targets of declination below the latitude and steps for which |sin dec| cos lat < cos dec sin lat cos h", "why_tests_cant": "All real angles.", "anchors": ["nenupy/schedule/targets.py:205-234", "nenupy/schedule/targets.py:331-337"]}
{"id": "C236", "title": "Scores within one schedule", "statement": "In any history of insertions and bookings of one schedule, every score was computed at the times of this schedule with positions at these times, and so are the positions used to extend blocks. After a booking every inserted block has a score. However, a block inserted again after a booking is never given positions again if no block with other constraints has its target: extending it is TypeError after any number of bookings. A block without target never needs positions.", "quantifier": "for all histories of insertions and bookings, all shared targets and constraints", "why_tests_cant": "All histories.", "anchors": ["nenupy/schedule/schedule.py:407-430", "nenupy/schedule/schedule.py:170-192", "nenupy/schedule/schedule.py:1744-1763", "nenupy/schedule/obsblocks.py:394-404"]}
{"id": "C237", "title": "Constraints shared between schedules", "statement": "Constraints have no score before the first booking of a schedule that holds them, and then forever the score at the times of that schedule. A block inserted in two schedules is hence booked in the second with the scores at the times of the first.", "quantifier": "for all histories of insertions and bookings of any number of schedules", "why_tests_cant": "All histories.", "anchors": ["nenupy/schedule/schedule.py:407-430", "nenupy/schedule/schedule.py:1744-1763"]}
{"id": "C238", "title": "Targets shared between schedules", "statement": "A target of two blocks with their own constraints in two schedules: if both are inserted before both are booked, the second is evaluated at its times with the positions at the times of the first. An insertion of a block with the target clears its positions, so that extending a block booked before is TypeError, and after the other booking uses the positions at the times of the other schedule.", "quantifier": "for all pairs of schedules, targets and constraints, for all histories before an insertion", "why_tests_cant": "All histories.", "anchors": ["nenupy/schedule/schedule.py:407-430", "nenupy/schedule/schedule.py:170-192", "nenupy/schedule/obsblocks.py:394-404", "nenupy/schedule/constraints.py:1448-1462"]}
{"id": "C239", "title": "Summaries of calendars read as bookings", "statement": "The file of write_summary_csv, read by ReservedBlock.from_VCR, gives the start and stop (rounded to the second) and the key project of every event in order, except those of the excluded key projects (in any case). However, a file with exactly one event, or only excluded events, is TypeError, and one name with a comma outside a comment makes the whole file unreadable (ValueError).", "quantifier": "for all lists of events with key projects, all names and excluded lists, for all ways of writing dates in 19 characters that are read back", "why_tests_cant": "All calendars and names.", "anchors": ["nenupy/schedule/open_time.py:753-792", "nenupy/schedule/obsblocks.py:949-1006"]}
{"id": "C240", "title": "Interrupted summaries", "statement": "write_summary_csv refuses file names not ending with '.csv' (AssertionError) and writes nothing. If the key project of an event is not the first of its name, it raises Exception, but the file is left with all events before it and is read as bookings without error.", "quantifier": "for all file names and lists of events", "why_tests_cant": "All calendars.", "anchors": ["nenupy/schedule/open_time.py:753-792", "nenupy/schedule/obsblocks.py:949-1006"]}
{"id": "C241", "title": "Calendars of several files", "statement": "from_csv gives exactly the events of all files, with the key project of the file name. from_ics gives only the events of the last file of each key project: the others are lost silently. Both are ValueError if and only if a file name has no key project.", "quantifier": "for all lists of files", "why_tests_cant": "All lists of files.", "anchors": ["nenupy/schedule/open_time.py:608-675"]}
{"id": "C242", "title": "Workbooks and bookings without header", "statement": "from_xls gives for every key project the events of the last workbook that has it. The file of write_vcr_csv has no header while from_VCR skips one line: its first booking is never read.", "quantifier": "for all lists of workbooks with distinct key projects in each, and for all lists of bookings", "why_tests_cant": "All files.", "anchors": ["nenupy/schedule/open_time.py:678-704", "nenupy/schedule/open_time.py:863-867", "nenupy/schedule/obsblocks.py:949-1006"]}
{"id": "C243", "title": "Sums of statistics files", "statement": "An SST_Data is created if and only if all its files exist. Any sum of such objects, including sum of a list, exists, holds the files of all its terms and the properties of each, and its start, stop and frequency limits are the extremes over all files (ValueError without file).", "quantifier": "for all file systems, lists of files and sums of any shape", "why_tests_cant": "All sums.", "anchors": ["nenupy/beamlet/sstdata.py:206-259", "nenupy/beamlet/sstdata.py:338-347", "nenupy/beamlet/sstdata.py:477-517"]}
{"id": "C244", "title": "Differences of statistics files", "statement": "If the base names of the files of a are distinct, a - b holds exactly the files of a whose base name is not one of b, with their properties. If all base names are distinct, (a + b) - b has the files, the properties and the ranges of a and is equal to a both ways. However, with two files of the same base name in two directories, (a + b) - a keeps the file of a with the properties (and times) of the file of b.", "quantifier": "for all file systems and objects made by creations and sums", "why_tests_cant": "All lists of files.", "anchors": ["nenupy/beamlet/sstdata.py:262-293"]}
{"id": "C245", "title": "Equality of statistics files", "statement": "a == b if and only if the base name of every file of b is that of a file of a: equality is reflexive and transitive but not symmetric, (a + b) == a is always true while a == (a + b) is true only if a covers b.", "quantifier": "for all objects made by creations and sums", "why_tests_cant": "All pairs of objects.", "anchors": ["nenupy/beamlet/sstdata.py:295-316"]}
{"id": "C246", "title": "Ranges of selections of statistics", "statement": "A range of one value is doubled, a range of two is sorted, more values are IndexError. A file is read only if the upper frequency is not above its highest one: files that overlap the range but end below its upper limit are skipped, and files entirely above the range are not.", "quantifier": "for all ranges and files", "why_tests_cant": "All ranges.", "anchors": ["nenupy/beamlet/sstdata.py:661-688", "nenupy/beamlet/sstdata.py:574-577"]}
{"id": "C247", "title": "Selections of statistics always fail", "statement": "In any sequence of selections with any keywords on an object with at least one observation, every one is refused with an error: AttributeError without keywords, AntennaIndexError for any integer mini-array, TypeError for another one. Only an object without file gives the empty selection.", "quantifier": "for all objects with properties and all sequences of keywords", "why_tests_cant": "All sequences of keywords.", "anchors": ["nenupy/beamlet/sstdata.py:535-568", "nenupy/beamlet/sstdata.py:444-472", "nenupy/instru/interferometer.py:197-228"]}
{"id": "C248", "title": "Median profiles of dynamic spectra", "statement": "The frequency profile has one sample per channel and polarization, the median over time of the valid samples (NaN if there is none), at the middle of the first and last times; without times it is IndexError. The time profile has the median over the channels at every time, at the mean frequency.", "quantifier": "for all dynamic spectra with missing samples", "why_tests_cant": "All data.", "anchors": ["nenupy/beamlet/sdata.py:474-499"]}
{"id": "C249", "title": "Background of the channels", "statement": "fbackground is, at every time, the median of each channel. It is its own background, scales with the data, and dividing by it gives every channel of positive median the median 1.", "quantifier": "for all dynamic spectra with missing samples and all positive factors", "why_tests_cant": "All data.", "anchors": ["nenupy/beamlet/sdata.py:538-550", "nenupy/beamlet/sdata.py:315-332"]}
{"id": "C250", "title": "Background of times and channels", "statement": "For positive data that are the product of a level per polarization, a time profile and a spectrum, background is defined and the data divided by it are constant in time and frequency. This constant is not 1 but the largest level times the largest sample of the profile over the level times the median of the profile: hence a polarization of lower level comes out higher.", "quantifier": "for all separable positive dynamic spectra of any size", "why_tests_cant": "All data.", "anchors": ["nenupy/beamlet/sdata.py:503-536"]}
{"id": "C251", "title": "Ranges of mini-arrays", "statement": "The ranges written for a list of mini-arrays hold the mini-arrays of the list and no other, in its order, and no range goes on where the one before ends; they are the only such ranges. An empty list is IndexError.", "quantifier": "for all lists of integers, sorted or not", "why_tests_cant": "All lists.", "anchors": ["nenupy/observation/parset.py:1352-1368"]}
{"id": "C252", "title": "Durations of user parsets", "statement": "A duration given as a whole number of seconds, not negative, is written and read back the same. A text is read when it starts with digits and one of s, m, h, as this number of seconds, minutes or hours; any other text (decimal, negative, without unit, upper case) is AttributeError. What follows the first letter is ignored: 1h30m is read as one hour.", "quantifier": "for all texts and all numbers", "why_tests_cant": "All texts.", "anchors": ["nenupy/observation/parset.py:1575-1598", "nenupy/observation/parset.py:1648-1669"]}
{"id": "C253", "title": "Data volumes over time", "statement": "getCumulativeVolume gives the starts of the observations of a receiver in ascending order and, at each, the sum of the volumes of the observations up to it, whatever the order of the list; the last is the volume of the configuration, in any unit. The sums never fall when no volume is negative; the negative volumes of short raw configurations make them fall. An unknown receiver or one without observations is ValueError.", "quantifier": "for all configurations, units and sorts of equal starts", "why_tests_cant": "All lists of observations.", "anchors": ["nenupy/observation/obs_config.py:1728-1769"]}
{"id": "C254", "title": "Workbooks of bookings", "statement": "A workbook is read when it has six sheets not named example (in any case), else ValueError. Each sheet gives its days down to the first row without a date, each with its 24 hours; days below that row are lost. The calendars are made from every day of every sheet, once and in order, when every sheet has a day; one sheet without a day beside sheets with days is ValueError.", "quantifier": "for all workbooks with distinct sheet names", "why_tests_cant": "All workbooks.", "anchors": ["nenupy/schedule/open_time.py:105-126", "nenupy/schedule/open_time.py:320-349"]}
{"id": "C255", "title": "Optional tasks of the pipeline", "statement": "The tasks of polarization, parallactic angle, Faraday rotation and dispersion leave the result of any pipeline as it is without them, at any place in it, as long as one of the parameters that switch them on is None, whatever was run before; when all are given, the data are those of the correction called with the current values, times and frequencies unchanged, and its exception is raised. RFI mitigation in frequency and time works along axis 0 and 1, and may be appended to a pipeline several times; the other tasks are kept once. De-dispersion is skipped without exception for data above the volume threshold unless ignore_volume_warning is set.", "quantifier": "for all pipelines, parameters, data and corrections", "why_tests_cant": "All pipelines.", "anchors": ["nenupy/io/tf.py:372-412", "nenupy/io/tf.py:425-461", "nenupy/io/tf.py:502-516", "nenupy/io/tf.py:562-590", "nenupy/io/tf.py:747-757", "nenupy/io/tf.py:790-800"]}
{"id": "C256", "title": "Result of the pipeline", "statement": "Without the Stokes task the result has four polarizations XX, XY, YX, YY, the entries of the Jones products in that order; data of any other size are AssertionError. With it the polarizations are the Stokes parameters asked. The Stokes task with no Stokes parameter (None or an empty list) is an exception, not the four products.", "quantifier": "for all pipelines, sizes and data", "why_tests_cant": "All sizes and data.", "anchors": ["nenupy/io/tf.py:1834-1871", "nenupy/beamlet/sdata.py:177-181", "nenupy/beamlet/sdata.py:354-412"]}
{"id": "C257", "title": "Smoothing of a profile", "statement": "_smooth_data makes as many passes as asked, with windows halved each time. A pass leaves every sample that stays below median + sigma_clip * std of all windows that hold it and replaces each other one by the median of the medians of these windows, taken before the pass. The size is kept, NaN stay NaN and nothing else becomes NaN, the samples stay within the bounds of the data, constant data are left alone. A window longer than the data is IndexError. A negative number of iterations never stops, and an outlier of one window can come out higher than it was.", "quantifier": "for all data, windows, thresholds and numbers of passes", "why_tests_cant": "All data and all numbers of passes.", "anchors": ["nenupy/io/io_tools.py:1294-1321"]}
{"id": "C258", "title": "Correction of polarization by given Jones matrices", "statement": "For data sorted in time and frequency, _polarization_correction2 multiplies each of the four values of a sample once by the same entry of the Jones matrix nearest in time and nearest in frequency to the first channel of its subband, however many matrices and samples there are. Samples at the last time (or frequency) of the matrices are left as they are when the data do not go beyond it. The product is entry by entry, not that of matrices. Times or frequencies of matrices that are not sorted are ValueError, channels that do not make whole subbands ValueError, no data or no matrix IndexError; without matrices the data are returned.", "quantifier": "for all sorted data, matrices, times and frequencies", "why_tests_cant": "All grids of times and frequencies.", "anchors": ["nenupy/undysputed/dynspec.py:1446-1526"]}
{"id": "C259", "title": "Local time", "statement": "to_local_time converts each instant of its argument, a single one to a single one and an array to an array of the same size. In a zone east of Greenwich (Europe/Paris by default) the result is what a clock shows except after the changes: for as long as the summer offset after the change to summer time it is one change behind, for as long as the winter offset after the change to winter time one change ahead. Elsewhere, and in zones without summer time, it is right.", "quantifier": "for all zones, summers, instants and arrays", "why_tests_cant": "All instants of all years.", "anchors": ["nenupy/astro/astro_tools.py:220-248"]}
