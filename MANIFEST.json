{
 "claims": [
  {
   "property": "C01",
   "status": "proved",
   "theorems": [
    "C01_slots_tile",
    "C01_slots_error",
    "C01_grid_invariant"
   ],
   "note": ""
  },
  {
   "property": "C02",
   "status": "proved",
   "theorems": [
    "C02_time_to_slot",
    "C02_range_to_slots",
    "C02_reversed_range"
   ],
   "note": ""
  },
  {
   "property": "C03",
   "status": "proved",
   "theorems": [
    "C03_reservations_accumulate",
    "C03_reversed_reservation"
   ],
   "note": ""
  },
  {
   "property": "C04",
   "status": "proved",
   "theorems": [
    "C04_last_call_decides",
    "C04_remove_undoes_add",
    "C04_remove_keeps_others_refuted"
   ],
   "note": "C04_remove_keeps_others_refuted shows that releasing one of two overlapping bookings frees slots of the other."
  },
  {
   "property": "C05",
   "status": "proved",
   "theorems": [
    "C05_set_free_slots",
    "C05_not_chronological",
    "C05_length_mismatch",
    "C05_match_booking",
    "C05_match_booking_unknown"
   ],
   "note": ""
  },
  {
   "property": "C06",
   "status": "proved",
   "theorems": [
    "C06_no_double_booking"
   ],
   "note": ""
  },
  {
   "property": "C07",
   "status": "proved",
   "theorems": [
    "C07_booked_inside",
    "C07_booking_respects_reservations",
    "C07_booking_keeps_others"
   ],
   "note": ""
  },
  {
   "property": "C08",
   "status": "proved",
   "theorems": [
    "C08_every_slot_accounted"
   ],
   "note": ""
  },
  {
   "property": "C09",
   "status": "proved",
   "theorems": [
    "C09_best_start",
    "C09_rejected_has_no_start"
   ],
   "note": ""
  },
  {
   "property": "C10",
   "status": "proved",
   "theorems": [
    "C10_delays_keep_apart",
    "C10_first_booked_delay",
    "C10_after_reset_refuted"
   ],
   "note": "Proved for a call whose counters are not negative; C10_after_reset_refuted shows it fails on a schedule that is booked again, because the reset leaves negative counters."
  },
  {
   "property": "C11",
   "status": "proved",
   "theorems": [
    "C11_reset_gives_back",
    "C11_reservation_over_booking_refuted",
    "C11_processing_not_restored_refuted"
   ],
   "note": "Free slots are restored when no reservation was put over a booked slot; two refutations give the cases where the reset is wrong."
  },
  {
   "property": "C12",
   "status": "proved",
   "theorems": [
    "C12_rebook_idempotent",
    "C12_delays_refuted"
   ],
   "note": "Proved without delays; C12_delays_refuted gives the failing case with a delay."
  },
  {
   "property": "C13",
   "status": "proved",
   "theorems": [
    "C13_genetic_no_overlap",
    "C13_mixed_sessions",
    "C13_only_failure",
    "C13_kept_bookings_refuted"
   ],
   "note": "For every genome, sorting and score. C13_kept_bookings_refuted: without reset, bookings made earlier are dropped and their slots stay occupied."
  },
  {
   "property": "C14",
   "status": "proved",
   "theorems": [
    "C14_removed_for_a_conflict",
    "C14_lower_score_kept"
   ],
   "note": "The code comment states the reverse priority."
  },
  {
   "property": "C15",
   "status": "proved",
   "theorems": [
    "C15_bounded",
    "C15_nearest",
    "C15_blocks_shorter",
    "C15_long_block_refuted",
    "C15_mutation"
   ],
   "note": ""
  },
  {
   "property": "C16",
   "status": "proved",
   "theorems": [
    "C16_extension",
    "C16_extension_complete",
    "C16_extension_errors",
    "C16_shorter_limit_raises",
    "C16_second_call",
    "C16_delays_respected_refuted"
   ],
   "note": "C16_delays_respected_refuted: extensions ignore processing delays. C16_shorter_limit_raises: a limit shorter than a booked block makes the whole call raise."
  },
  {
   "property": "C17",
   "status": "proved",
   "theorems": [
    "C17_window_slots",
    "C17_window_contiguous",
    "C17_window_contains_block",
    "C17_windows_nested",
    "C17_window_centred"
   ],
   "note": ""
  },
  {
   "property": "C18",
   "status": "proved",
   "theorems": [
    "C18_fine_tuning",
    "C18_prepared",
    "C18_local_optimum",
    "C18_overlap_refuted",
    "C18_lone_delay_fixed"
   ],
   "note": "The moves are proved; C18_overlap_refuted shows that fine tuning alone may create an overlap."
  },
  {
   "property": "C19",
   "status": "proved",
   "theorems": [
    "C19_shift_outcomes",
    "C19_shift_success",
    "C19_conflict_inconsistent",
    "C19_atomic_refuted",
    "C19_earlier_is_later",
    "C19_earlier_moves_later"
   ],
   "note": "C19_atomic_refuted gives a reachable state where the call raises after moving the block."
  },
  {
   "property": "C20",
   "status": "proved",
   "theorems": [
    "C20_free_slots",
    "C20_freeze_slots",
    "C20_free_processing",
    "C20_freeze_processing",
    "C20_freeze_before_refuted",
    "C20_free_after_freeze",
    "C20_freeze_after_free",
    "C20_processing_round_trip"
   ],
   "note": "C20_freeze_before_refuted: a range wholly before the schedule is not ignored by the processing guard."
  },
  {
   "property": "C21",
   "status": "proved",
   "theorems": [
    "C21_numbering",
    "C21_order",
    "C21_refines",
    "C21_session",
    "C21_mixed",
    "C21_atomic_refuted"
   ],
   "note": "C21_atomic_refuted: an insertion refused at a later argument keeps the earlier ones while the mask of the blocks to schedule keeps its old size."
  },
  {
   "property": "C22",
   "status": "proved",
   "theorems": [
    "C22_last_start_never_used",
    "C22_full_length_never_booked"
   ],
   "note": ""
  },
  {
   "property": "C23",
   "status": "proved",
   "theorems": [
    "C23_table",
    "C23_defined",
    "C23_errors",
    "C23_arguments"
   ],
   "note": ""
  },
  {
   "property": "C24",
   "status": "proved",
   "theorems": [
    "C24_overlap"
   ],
   "note": "Stated with the two exceptions of the code: an interval that ends exactly at the stop, or starts exactly at the start and ends later, is not seen."
  },
  {
   "property": "C25",
   "status": "proved",
   "theorems": [
    "C25_add",
    "C25_add_assoc",
    "C25_add_errors",
    "C25_mul",
    "C25_sum",
    "C25_sum_empty",
    "C25_getitem",
    "C25_get",
    "C25_get_keywords",
    "C25_numbered_refuted",
    "C25_stays_numbered_refuted",
    "C25_copy_refuted"
   ],
   "note": "Numbers are shared with the elements: C25_numbered_refuted, C25_stays_numbered_refuted. C25_copy_refuted: an element of a product stands for the block it was copied from."
  },
  {
   "property": "C26",
   "status": "proved",
   "theorems": [
    "C26_count",
    "C26_null_period",
    "C26_blocks",
    "C26_window",
    "C26_elsewhere",
    "C26_none",
    "C26_refused",
    "C26_copy_refuted"
   ],
   "note": "C26_copy_refuted: the windows are lost for an element of a product."
  },
  {
   "property": "C27",
   "status": "proved",
   "theorems": [
    "C27_scores_unit",
    "C27_usable_slots",
    "C27_blocking",
    "C27_weighted_mean",
    "C27_between",
    "C27_order",
    "C27_no_target_blocked",
    "C27_nothing_evaluated"
   ],
   "note": "C27_no_target_blocked: a block without target that has a constraint on the time scores zero everywhere."
  },
  {
   "property": "C28",
   "status": "proved",
   "theorems": [
    "C28_utc_window",
    "C28_local_window",
    "C28_hour",
    "C28_swapped_window",
    "C28_ends_refuted"
   ],
   "note": "C28_ends_refuted: both ends are accepted by a plain window, none by a window over midnight."
  },
  {
   "property": "C29",
   "status": "proved",
   "theorems": [
    "C29_periodic",
    "C29_translation"
   ],
   "note": ""
  },
  {
   "property": "C30",
   "status": "proved",
   "theorems": [
    "C30_addition",
    "C30_result",
    "C30_creation",
    "C30_unique",
    "C30_left_operand",
    "C30_left_operand_refuted"
   ],
   "note": "C30_left_operand_refuted: adding an elevation constraint empties the left operand of its default one."
  },
  {
   "property": "C31",
   "status": "proved",
   "theorems": [
    "C31_genes",
    "C31_defined",
    "C31_error",
    "C31_single_point",
    "C31_two_points",
    "C31_last_gene",
    "C31_uniform"
   ],
   "note": "C31_last_gene: the last gene is never exchanged by the default (two point) crossover."
  },
  {
   "property": "C32",
   "status": "proved",
   "theorems": [
    "C32_best",
    "C32_count",
    "C32_stops",
    "C32_refused",
    "C32_second_call_refuted"
   ],
   "note": "C32_second_call_refuted: calling evolve again on the same object keeps the best score but forgets its genome."
  },
  {
   "property": "C33",
   "status": "proved",
   "theorems": [
    "C33_bins",
    "C33_mean_unique",
    "C33_defined",
    "C33_errors",
    "C33_spectrum",
    "C33_light_curve",
    "C33_dynamic",
    "C33_slice_refused",
    "C33_descending_refuted"
   ],
   "note": "C33_descending_refuted: a decreasing frequency axis gives an empty result."
  },
  {
   "property": "C34",
   "status": "proved",
   "theorems": [
    "C34_total",
    "C34_conserves",
    "C34_twice",
    "C34_twice_nan_refuted"
   ],
   "note": "C34_twice_nan_refuted: the law fails when samples are missing."
  },
  {
   "property": "C35",
   "status": "proved",
   "theorems": [
    "C35_selects",
    "C35_three_refused",
    "C35_no_operator_refused",
    "C35_bad_value_refused",
    "C35_equality_refuted",
    "C35_spaces_refuted"
   ],
   "note": "C35_equality_refuted: '==' is approximate. C35_spaces_refuted: '= =' is refused although '> =' is read as '>='."
  },
  {
   "property": "C36",
   "status": "proved",
   "theorems": [
    "C36_position",
    "C36_bijection",
    "C36_twice",
    "C36_odd_refused",
    "C36_dimensions_refused",
    "C36_sizes_refused"
   ],
   "note": ""
  },
  {
   "property": "C37",
   "status": "proved",
   "theorems": [
    "C37_frequencies",
    "C37_times",
    "C37_frequencies_uniform",
    "C37_times_uniform",
    "C37_frequencies_increasing",
    "C37_times_increasing",
    "C37_centre"
   ],
   "note": ""
  },
  {
   "property": "C38",
   "status": "proved",
   "theorems": [
    "C38_fields",
    "C38_values",
    "C38_polarised_part",
    "C38_fully_polarised",
    "C38_ratios",
    "C38_unknown",
    "C38_shape_refused",
    "C38_no_name"
   ],
   "note": ""
  },
  {
   "property": "C39",
   "status": "proved",
   "theorems": [
    "C39_turns",
    "C39_stokes",
    "C39_undoes",
    "C39_composes",
    "C39_back",
    "C39_refused"
   ],
   "note": ""
  },
  {
   "property": "C40",
   "status": "proved",
   "theorems": [
    "C40_shift",
    "C40_delay",
    "C40_top_unchanged",
    "C40_no_delay",
    "C40_aligns",
    "C40_refused",
    "C40_negative_leak_refuted",
    "C40_negative_error_refuted",
    "C40_circular_lost_refuted"
   ],
   "note": "C40_negative_leak_refuted and C40_negative_error_refuted: negative measures; C40_circular_lost_refuted: the imaginary part is dropped, so Stokes V is zero after de-dispersion."
  },
  {
   "property": "C41",
   "status": "proved",
   "theorems": [
    "C41_remove",
    "C41_remove_none",
    "C41_remove_refused",
    "C41_remove_twice",
    "C41_crop",
    "C41_crop_refused",
    "C41_crop_is_remove",
    "C41_negative_refuted"
   ],
   "note": "C41_negative_refuted: a negative width is accepted and sets the other channels to NaN."
  },
  {
   "property": "C42",
   "status": "proved",
   "theorems": [
    "C42_once",
    "C42_default",
    "C42_insert",
    "C42_append",
    "C42_not_a_task",
    "C42_remove",
    "C42_run",
    "C42_run_fails",
    "C42_run_keeps_tasks",
    "C42_constructor_refuted",
    "C42_remove_shift_refuted"
   ],
   "note": "C42_constructor_refuted: the constructor accepts duplicates; C42_remove_shift_refuted: positions given to one call refer to the list already shortened, and a failing call has already removed tasks."
  },
  {
   "property": "C43",
   "status": "proved",
   "theorems": [
    "C43_values",
    "C43_refused",
    "C43_accepted",
    "C43_errors",
    "C43_read",
    "C43_read_unknown",
    "C43_reset",
    "C43_case",
    "C43_capital_refuted",
    "C43_nan_refuted"
   ],
   "note": "C43_nan_refuted: NaN passes range checks and fmin above fmax is accepted; C43_capital_refuted: parameters declared with a capital letter are unreachable."
  },
  {
   "property": "C44",
   "status": "proved",
   "theorems": [
    "C44_undone",
    "C44_history",
    "C44_answer",
    "C44_left_refuted",
    "C44_partly_overridden_refuted"
   ],
   "note": "C44_left_refuted, C44_partly_overridden_refuted: overrides which survive the call."
  },
  {
   "property": "C45",
   "status": "proved",
   "theorems": [
    "C45_consistent",
    "C45_sample",
    "C45_nearest_in_block",
    "C45_increasing",
    "C45_same_sample",
    "C45_unknown_beam",
    "C45_closest",
    "C45_closest_near",
    "C45_closest_clear",
    "C45_closest_between",
    "C45_closest_first",
    "C45_closest_last",
    "C45_closest_subsecond",
    "C45_lost_refuted",
    "C45_subsecond_lost_refuted",
    "C45_extra_refuted",
    "C45_one_sample_refuted"
   ],
   "note": "C45_lost_refuted, C45_subsecond_lost_refuted, C45_extra_refuted, C45_one_sample_refuted: what the selection does wrong."
  },
  {
   "property": "C46",
   "status": "proved",
   "theorems": [
    "C46_new",
    "C46_accepted",
    "C46_refused",
    "C46_type",
    "C46_attached",
    "C46_disjoint",
    "C46_overlap_refuted",
    "C46_touching_refuted",
    "C46_shift_refuted",
    "C46_same_times_refuted"
   ],
   "note": "C46_overlap_refuted, C46_touching_refuted, C46_shift_refuted, C46_same_times_refuted: what the checks let through or refuse wrongly."
  },
  {
   "property": "C47",
   "status": "proved",
   "theorems": [
    "C47_accepted",
    "C47_refused",
    "C47_attached",
    "C47_exchanged",
    "C47_wrong_times_refuted"
   ],
   "note": "C47_wrong_times_refuted: the wrong branch."
  },
  {
   "property": "C48",
   "status": "proved",
   "theorems": [
    "C48_operation",
    "C48_refused",
    "C48_others",
    "C48_undo",
    "C48_axes_refuted",
    "C48_empty_refuted"
   ],
   "note": "C48_axes_refuted, C48_empty_refuted: all(a != b) is not the negation of all(a == b)."
  },
  {
   "property": "C49",
   "status": "proved",
   "theorems": [
    "C49_pairs",
    "C49_xy",
    "C49_partition",
    "C49_order"
   ],
   "note": "vis_no and chain describe the storage order independently of np.tril_indices."
  },
  {
   "property": "C50",
   "status": "proved",
   "theorems": [
    "C50_matrix",
    "C50_order_refuted"
   ],
   "note": "C50_order_refuted: a file listing Mini-Arrays in decreasing order."
  },
  {
   "property": "C51",
   "status": "proved",
   "theorems": [
    "C51_numbering",
    "C51_parents",
    "C51_parents_restored",
    "C51_centers",
    "C51_centers_restored",
    "C51_counts",
    "C51_add_analog",
    "C51_modify_analog",
    "C51_remove_analog",
    "C51_add_numerical",
    "C51_modify_numerical",
    "C51_remove_numerical",
    "C51_add_center",
    "C51_modify_center",
    "C51_remove_center",
    "C51_fields",
    "C51_center_number_refuted",
    "C51_parent_by_hand_refuted"
   ],
   "note": "history runs any list of operations from a new object; contents strips the noBeam field so that the effect theorems do not mention numbering. C51_center_number_refuted, C51_parent_by_hand_refuted: the exceptions of the statement."
  },
  {
   "property": "C52",
   "status": "proved",
   "theorems": [
    "C52_segments",
    "C52_ints",
    "C52_empty_refuted",
    "C52_negative_refuted",
    "C52_value_again"
   ],
   "note": "C52_value_again covers every kind of value; kept is the class of values that survive. Dates are an abstract type with its reading and printing functions."
  },
  {
   "property": "C53",
   "status": "proved",
   "theorems": [
    "C53_groups",
    "C53_union",
    "C53_disjoint",
    "C53_refused",
    "C53_order_refuted"
   ],
   "note": "range_of and no_join state runs and their maximality on the list itself; apart orders the ranges. C53_order_refuted: [3,2,1] gives three ranges."
  },
  {
   "property": "C54",
   "status": "proved",
   "theorems": [
    "C54_index",
    "C54_refused",
    "C54_types",
    "C54_one",
    "C54_monotone",
    "C54_nan",
    "C54_nan_refuted",
    "C54_start",
    "C54_start_refused",
    "C54_start_types",
    "C54_start_documented_refuted",
    "C54_there_and_back",
    "C54_zero_refuted",
    "C54_back_and_there",
    "C54_top_refuted"
   ],
   "note": "A Quantity is a scale to MHz and a list of rationals or NaN. C54_nan_refuted, C54_start_documented_refuted, C54_zero_refuted, C54_top_refuted: the deviations of the statement."
  },
  {
   "property": "C55",
   "status": "proved",
   "theorems": [
    "C55_new",
    "C55_add",
    "C55_add_nothing",
    "C55_union",
    "C55_sub",
    "C55_sub_nothing",
    "C55_difference",
    "C55_disjoint",
    "C55_add_self",
    "C55_associative",
    "C55_add_then_sub",
    "C55_sub_twice",
    "C55_commutative",
    "C55_sub_then_add",
    "C55_sub_self_refuted",
    "C55_expressions",
    "C55_never_empty",
    "C55_new_names_refuted",
    "C55_nan_weight_refuted",
    "C55_commutative_refuted"
   ],
   "note": "rows is the list of antennas with all their attributes; positions, gains and place are of any type. C55_new gives when a constructor succeeds; C55_new_names_refuted and C55_nan_weight_refuted what it lets through."
  },
  {
   "property": "C56",
   "status": "proved",
   "theorems": [
    "C56_names",
    "C56_names_duplicate",
    "C56_names_unknown",
    "C56_names_nothing",
    "C56_positions",
    "C56_positions_duplicate",
    "C56_positions_beyond",
    "C56_positions_nowhere",
    "C56_negative_refuted",
    "C56_order_names",
    "C56_order_positions",
    "C56_partition",
    "C56_slice",
    "C56_interval",
    "C56_slice_beyond",
    "C56_slice_tail_refuted",
    "C56_slice_all_refuted",
    "C56_slice_but_last_refuted",
    "C56_mask_refuted",
    "C56_mask_two_refuted",
    "C56_names_positions"
   ],
   "note": "picked and picked_at are the specification of a selection in array order. *_refuted: negative indices, slices without end, masks."
  },
  {
   "property": "C57",
   "status": "proved",
   "theorems": [
    "C57_very_strict_requires",
    "C57_very_strict_keeps"
   ],
   "note": ""
  },
  {
   "property": "C58",
   "status": "proved",
   "theorems": [
    "C58_rejected_stays_rejected",
    "C58_insertion_reconsiders",
    "C58_sticky_rejection_refuted"
   ],
   "note": "The sticky rejection is shown to change the result by a witness."
  },
  {
   "property": "C59",
   "status": "proved",
   "theorems": [
    "C59_fitness",
    "C59_delay_penalty_all_delayed",
    "C59_delay_penalty_refuted"
   ],
   "note": "C59_delay_penalty_refuted: the delay penalty reads the data of other blocks."
  },
  {
   "property": "C60",
   "status": "proved",
   "theorems": [
    "C60_weights",
    "C60_day_exhausted",
    "C60_night_exhausted",
    "C60_null_budget_refuted"
   ],
   "note": "C60_null_budget_refuted: only the start of a block is considered."
  },
  {
   "property": "C61",
   "status": "proved",
   "theorems": [
    "C61_one_slot_never_tried",
    "C61_uniform_never_extended",
    "C61_score_kept_refuted"
   ],
   "note": "C61_score_kept_refuted: an extension over a slot of null score. The evaluation of windows is a parameter; the witness uses the slot-wise evaluation of constraints.py 1450-1505."
  },
  {
   "property": "C62",
   "status": "proved",
   "theorems": [
    "C62_session_consistent"
   ],
   "note": ""
  },
  {
   "property": "C63",
   "status": "proved",
   "theorems": [
    "C63_elevation",
    "C63_elevation_positive",
    "C63_higher_is_better",
    "C63_best_slot"
   ],
   "note": ""
  },
  {
   "property": "C64",
   "status": "proved",
   "theorems": [
    "C64_night",
    "C64_no_night_raises",
    "C64_sun_shared",
    "C64_sun_left",
    "C64_stricter_limit_wins",
    "C64_independence_refuted"
   ],
   "note": "C64_independence_refuted and C64_stricter_limit_wins: the array of Sun elevations is modified in place, so a block gets the strictest limit of the blocks before it. C64_no_night_raises: an unsatisfiable night constraint raises instead of scoring zero."
  },
  {
   "property": "C65",
   "status": "proved",
   "theorems": [
    "C65_transit",
    "C65_sidereal_time",
    "C65_long_slots_refuted"
   ],
   "note": "The sidereal time is exact for slots of at most 12 h (C65_long_slots_refuted otherwise). Strict crossings only (the default)."
  },
  {
   "property": "C66",
   "status": "proved",
   "theorems": [
    "C66_azimuth",
    "C66_passes",
    "C66_south_refuted"
   ],
   "note": "C66_azimuth states what is computed, on the azimuths of the two ends of a slot; C66_south_refuted: false detection for a circumpolar target passing South."
  },
  {
   "property": "C67",
   "status": "proved",
   "theorems": [
    "C67_block_score",
    "C67_rows_unit",
    "C67_unevaluated_raises",
    "C67_defined",
    "C67_no_target_refuted"
   ],
   "note": "C67_no_target_refuted: TypeError for a placed block without target."
  },
  {
   "property": "C68",
   "status": "proved",
   "theorems": [
    "C68_time_ranges"
   ],
   "note": ""
  },
  {
   "property": "C69",
   "status": "proved",
   "theorems": [
    "C69_times",
    "C69_duration",
    "C69_disjoint"
   ],
   "note": ""
  },
  {
   "property": "C70",
   "status": "proved",
   "theorems": [
    "C70_elitism",
    "C70_first",
    "C70_size",
    "C70_whole_population_refuted"
   ],
   "note": "C70_whole_population_refuted when random_individuals is the whole population."
  },
  {
   "property": "C71",
   "status": "proved",
   "theorems": [
    "C71_in_range",
    "C71_genes",
    "C71_zero_refuted"
   ],
   "note": "C71_zero_refuted: odd populations without random individual get a genome of zeros, which is in range."
  },
  {
   "property": "C72",
   "status": "proved",
   "theorems": [
    "C72_tournament",
    "C72_contestants",
    "C72_proportionate",
    "C72_ranks",
    "C72_ties_refuted"
   ],
   "note": "C72_ties_refuted."
  },
  {
   "property": "C73",
   "status": "proved",
   "theorems": [
    "C73_bst",
    "C73_polarization",
    "C73_beam_set",
    "C73_beam_refused",
    "C73_default",
    "C73_default_refuted",
    "C73_sst",
    "C73_sst_mini_array"
   ],
   "note": "C73_default_refuted: the default time selection can leave out the first sample."
  },
  {
   "property": "C74",
   "status": "proved",
   "theorems": [
    "C74_edges",
    "C74_partition",
    "C74_interleaved_refuted"
   ],
   "note": "C74_interleaved_refuted: the ranges of interleaved beams overlap."
  },
  {
   "property": "C75",
   "status": "proved",
   "theorems": [
    "C75_factor",
    "C75_local",
    "C75_flat",
    "C75_affine",
    "C75_affine_refuted",
    "C75_single_channel",
    "C75_refused"
   ],
   "note": "C75_affine_refuted: an exactly linear subband (1, 2, 3, 4) becomes (4, 8/3, 12/5, 16/7)."
  },
  {
   "property": "C76",
   "status": "proved",
   "theorems": [
    "C76_near_x",
    "C76_diagonal",
    "C76_near_y_refuted",
    "C76_range",
    "C76_unpolarised"
   ],
   "note": "C76_near_y_refuted: directions further than 45 degrees from X are 90 degrees off."
  },
  {
   "property": "C77",
   "status": "proved",
   "theorems": [
    "C77_groups",
    "C77_uniform_times",
    "C77_stokes",
    "C77_undoes",
    "C77_refused",
    "C77_gap_refuted"
   ],
   "note": "C77_gap_refuted: with a gap in the times, the angle is not that of the time of the samples."
  },
  {
   "property": "C78",
   "status": "proved",
   "theorems": [
    "C78_update",
    "C78_info",
    "C78_stale_refuted",
    "C78_inactive_runs_refuted"
   ],
   "note": "C78_stale_refuted, C78_inactive_runs_refuted: the flag is not what the documentation says (whether the task will be run)."
  },
  {
   "property": "C79",
   "status": "proved",
   "theorems": [
    "C79_none",
    "C79_time",
    "C79_frequency",
    "C79_twice_refuted"
   ],
   "note": "C79_twice_refuted: the second task does not give the resolution rebin_dt."
  },
  {
   "property": "C80",
   "status": "proved",
   "theorems": [
    "C80_mask",
    "C80_total",
    "C80_between",
    "C80_ends",
    "C80_increasing",
    "C80_regular",
    "C80_never_flagged",
    "C80_ends_refuted"
   ],
   "note": "C80_ends_refuted: equal times at the ends; C80_never_flagged: the test before flagging is inverted."
  },
  {
   "property": "C81",
   "status": "proved",
   "theorems": [
    "C81_times",
    "C81_frequencies",
    "C81_channels_refuted"
   ],
   "note": "C81_channels_refuted: the documentation says frequency_min and frequency_max are those of the first and last channels."
  },
  {
   "property": "C82",
   "status": "proved",
   "theorems": [
    "C82_positions",
    "C82_total",
    "C82_samples",
    "C82_refused"
   ],
   "note": "Slices follow CPython's PySlice_AdjustIndices, modelled and proved to designate the documented positions."
  },
  {
   "property": "C83",
   "status": "proved",
   "theorems": [
    "C83_selection",
    "C83_labels",
    "C83_any_order",
    "C83_defaults",
    "C83_frequencies_tv",
    "C83_frequencies_xst",
    "C83_unknown",
    "C83_polarisation",
    "C83_misfit",
    "C83_duplicates",
    "C83_no_time",
    "C83_hopping",
    "C83_order_refuted",
    "C83_frequencies_refuted"
   ],
   "note": "C83_order_refuted: labels in the order given, values in the order of the file. C83_frequencies_refuted: four frequencies for two columns. Conditions are those of C35; C83_defaults covers the default ones."
  },
  {
   "property": "C84",
   "status": "proved",
   "theorems": [
    "C84_xy",
    "C84_xy_refused",
    "C84_stokes",
    "C84_stokes_refused",
    "C84_unknown",
    "C84_xy_refuted"
   ],
   "note": "C84_xy_refuted: two times and two frequencies raise IndexError. Complex arithmetic is any record of operations."
  },
  {
   "property": "C85",
   "status": "proved",
   "theorems": [
    "C85_file",
    "C85_first_line_refuted",
    "C85_no_equal_refuted"
   ],
   "note": "readable: the text of each written field is one line and is accepted by the reader. The file name and the text file handling are not modelled."
  },
  {
   "property": "C86",
   "status": "proved",
   "theorems": [
    "C86_load",
    "C86_stable",
    "C86_lower_case_refuted",
    "C86_no_parent",
    "C86_no_parent_refused"
   ],
   "note": "reread gives the entry after a load; rereads compares blocks one by one. C86_lower_case_refuted for every plain text."
  },
  {
   "property": "C87",
   "status": "proved",
   "theorems": [
    "C87_validate",
    "C87_dump_time_refuted",
    "C87_dump_time_raises"
   ],
   "note": "The regular expression engine is a parameter (pattern, text -> result or exception); the open group is found by a scan of all patterns."
  },
  {
   "property": "C88",
   "status": "proved",
   "theorems": [
    "C88_grid",
    "C88_nearest",
    "C88_scalar",
    "C88_round_trip",
    "C88_dimensions",
    "C88_out_of_range"
   ],
   "note": "nearest and nearest_alone are stated over all the grid; the separation is any function of coordinates and direction."
  },
  {
   "property": "C89",
   "status": "proved",
   "theorems": [
    "C89_pulled",
    "C89_exact",
    "C89_right",
    "C89_nearest_refuted",
    "C89_same_as_wrong",
    "C89_one_only",
    "C89_drift"
   ],
   "note": "pulled is the step back to the zenith. C89_nearest_refuted: whenever the strictly nearest direction has k1 > 0 or k2 < 0. C89_drift: n calls."
  },
  {
   "property": "C90",
   "status": "proved",
   "theorems": [
    "C90_directions",
    "C90_independent",
    "C90_one_rotation",
    "C90_independent_refuted",
    "C90_sinks",
    "C90_second_call"
   ],
   "note": "Corrections are any functions. C90_independent_refuted: two rotations whose directions are not those of independent pointings."
  },
  {
   "property": "C91",
   "status": "proved",
   "theorems": [
    "C91_squint",
    "C91_row",
    "C91_linear",
    "C91_ends",
    "C91_monotone"
   ],
   "note": "interp is np.interp; linearity is stated without division."
  },
  {
   "property": "C92",
   "status": "proved",
   "theorems": [
    "C92_one_interval",
    "C92_selection",
    "C92_interval",
    "C92_zenith",
    "C92_mismatch",
    "C92_twice",
    "C92_twice_unsorted_refuted"
   ],
   "note": "covers and shown state the last interval containing a time; sized is what the constructors give. C92_twice_unsorted_refuted: two times half a second apart in decreasing order."
  },
  {
   "property": "C93",
   "status": "proved",
   "theorems": [
    "C93_analog",
    "C93_analog_single",
    "C93_numeric",
    "C93_numeric_single",
    "C93_numeric_last_refuted",
    "C93_empty",
    "C93_other_name"
   ],
   "note": "line_at is the k-th line of the beam. C93_numeric_last_refuted: lines each minute, the zenith 30 s after the last line but one."
  },
  {
   "property": "C94",
   "status": "proved",
   "theorems": [
    "C94_records",
    "C94_single",
    "C94_interpolated",
    "C94_times",
    "C94_north_refuted"
   ],
   "note": "even_time are the times of np.linspace; interpolation is that of C91. C94_north_refuted: 358, 359, 1, 2 degrees give 180."
  },
  {
   "property": "C95",
   "status": "proved",
   "theorems": [
    "C95_transit",
    "C95_no_transit",
    "C95_centre_refuted",
    "C95_driftscan",
    "C95_default_duration",
    "C95_durations",
    "C95_default_duration_refuted"
   ],
   "note": "step_time is the start of a step. C95_centre_refuted: the zenith 12 s before the transit for a duration of 30 s; C95_default_duration_refuted: a pointing each minute."
  },
  {
   "property": "C96",
   "status": "proved",
   "theorems": [
    "C96_delay",
    "C96_normalised",
    "C96_no_antenna",
    "C96_bounds",
    "C96_bounds_normalised",
    "C96_centre",
    "C96_centre_one",
    "C96_maximum",
    "C96_moved",
    "C96_delayed",
    "C96_order",
    "C96_union",
    "C96_exchanged",
    "C96_one",
    "C96_scaled",
    "C96_silent"
   ],
   "note": "enu is the unit vector of a direction; legal is what the setter of the weights accepts; moved, delayed and scaled are the transformations."
  },
  {
   "property": "C97",
   "status": "proved",
   "theorems": [
    "C97_bounds",
    "C97_centre",
    "C97_square",
    "C97_square_refuted",
    "C97_grouped",
    "C97_not_normalised",
    "C97_not_normalised_refuted"
   ],
   "note": "C97_square_refuted: one antenna of gain 1/2. C97_not_normalised_refuted: two Mini-Arrays of gain 1."
  },
  {
   "property": "C98",
   "status": "proved",
   "theorems": [
    "C98_cosines",
    "C98_nadir",
    "C98_azimuth",
    "C98_elevation",
    "C98_lower",
    "C98_rotation",
    "C98_opposite",
    "C98_zenith",
    "C98_regular"
   ],
   "note": "azel is the unit vector of the direction computed, step is 3/200; direction and grid are those of M_Analog."
  },
  {
   "property": "C99",
   "status": "proved",
   "theorems": [
    "C99_signal",
    "C99_whole",
    "C99_positive",
    "C99_none",
    "C99_missing",
    "C99_accepted",
    "C99_coherent",
    "C99_at_most",
    "C99_mirror",
    "C99_mirror_refuted",
    "C99_places_refuted"
   ],
   "note": "correlations are the visibilities of signals; steered is the power of a weighted sum. C99_places_refuted: a file of the Mini-Arrays 0 and 2; C99_mirror_refuted: a baseline and a pointing to the East."
  },
  {
   "property": "C100",
   "status": "proved",
   "theorems": [
    "C100_stokes",
    "C100_pure",
    "C100_phase",
    "C100_linear",
    "C100_circular",
    "C100_named",
    "C100_circular_only",
    "C100_stokes_named_refuted",
    "C100_elliptical",
    "C100_unpolarised",
    "C100_polarised_part",
    "C100_stokes_again",
    "C100_jones_again"
   ],
   "note": "is_stokes is the specification by analysers, state the field of a pure state. C100_stokes_named_refuted: the named constructors of StokesVector raise."
  },
  {
   "property": "C101",
   "status": "proved",
   "theorems": [
    "C101_output",
    "C101_passes",
    "C101_stops",
    "C101_twice",
    "C101_hermitian",
    "C101_malus",
    "C101_pair",
    "C101_fast",
    "C101_slow",
    "C101_add",
    "C101_none",
    "C101_adjoint",
    "C101_unitary",
    "C101_lossless",
    "C101_half_wave",
    "C101_quarter_wave",
    "C101_hands",
    "C101_hands_refuted"
   ],
   "note": "along is the component of a field along a state. C101_hands_refuted: right circular polariser and right circular vector."
  },
  {
   "property": "C102",
   "status": "proved",
   "theorems": [
    "C102_inverse",
    "C102_total",
    "C102_real_only",
    "C102_stokes",
    "C102_unique",
    "C102_product",
    "C102_phase",
    "C102_ident",
    "C102_axes",
    "C102_axes_refused",
    "C102_elliptical",
    "C102_retarder",
    "C102_retarder_refuted",
    "C102_half_wave"
   ],
   "note": "same4 compares the sixteen values. C102_retarder_refuted: the quarter-wave plate at 0 degrees. Rounding of the imaginary part is not modelled."
  },
  {
   "property": "C103",
   "status": "proved",
   "theorems": [
    "C103_moduli",
    "C103_again",
    "C103_mueller_again",
    "C103_zero_refuted",
    "C103_depolariser_refuted",
    "C103_none",
    "C103_hermitian",
    "C103_trace",
    "C103_pure",
    "C103_injective"
   ],
   "note": "C103_zero_refuted: the matrix [[0, 1], [i, 0]]; C103_depolariser_refuted: the ideal depolariser becomes a polariser at 45 degrees."
  },
  {
   "property": "C104",
   "status": "proved",
   "theorems": [
    "C104_value",
    "C104_radius",
    "C104_defined",
    "C104_error",
    "C104_moved",
    "C104_scaled",
    "C104_set",
    "C104_elevation",
    "C104_bound",
    "C104_decreasing",
    "C104_one",
    "C104_one_accuracy",
    "C104_lowest",
    "C104_lost",
    "C104_call_refuted",
    "C104_more",
    "C104_apart"
   ],
   "note": "nodes_near counts points of the grid by a list without repetition; C104_radius gives the disk. C104_call_refuted: a frequency 500 times lower in the same call makes the area null."
  },
  {
   "property": "C105",
   "status": "proved",
   "theorems": [
    "C105_sum",
    "C105_difference",
    "C105_size",
    "C105_unknown",
    "C105_rigid",
    "C105_mirror",
    "C105_twice",
    "C105_turned"
   ],
   "note": "sums compares lists of areas. C105_mirror: the signed area of every triangle changes sign."
  },
  {
   "property": "C106",
   "status": "proved",
   "theorems": [
    "C106_reference",
    "C106_power",
    "C106_decreasing",
    "C106_instrument",
    "C106_defined",
    "C106_unknown_filter",
    "C106_bounds",
    "C106_system",
    "C106_error",
    "C106_order",
    "C106_sources"
   ],
   "note": "on_line is the broken line; flux the total of the spectra."
  },
  {
   "property": "C107",
   "status": "proved",
   "theorems": [
    "C107_mini_array",
    "C107_nenufar",
    "C107_mini_array_steady",
    "C107_nenufar_steady",
    "C107_value",
    "C107_error",
    "C107_sources",
    "C107_scales",
    "C107_nan",
    "C107_number",
    "C107_source_refuted"
   ],
   "note": "horizontal_plane and steady are proved of both instruments. C107_source_refuted: one antenna at 30 degrees, a source of 1 Jy adds 2 Jy."
  },
  {
   "property": "C108",
   "status": "proved",
   "theorems": [
    "C108_value",
    "C108_error",
    "C108_time",
    "C108_modes",
    "C108_nenufar"
   ],
   "note": "C108_nenufar states the double count."
  },
  {
   "property": "C109",
   "status": "proved",
   "theorems": [
    "C109_baseline",
    "C109_closure",
    "C109_flatten",
    "C109_flatten_length",
    "C109_resolution",
    "C109_alone",
    "C109_nan",
    "C109_rigid",
    "C109_set",
    "C109_more",
    "C109_frequency",
    "C109_confusion",
    "C109_confusion_frequency"
   ],
   "note": "longest is the largest distance between two positions."
  },
  {
   "property": "C110",
   "status": "proved",
   "theorems": [
    "C110_sound",
    "C110_complete",
    "C110_some",
    "C110_ends",
    "C110_endless",
    "C110_error",
    "C110_once",
    "C110_missed_refuted",
    "C110_twice_refuted"
   ],
   "note": "of_times and splits are the two facts needed of a condition; parts is the rule of the cut; only_at and found state the unique crossing."
  },
  {
   "property": "C111",
   "status": "proved",
   "theorems": [
    "C111_met",
    "C111_circumpolar_met",
    "C111_rise_search",
    "C111_set_search",
    "C111_transit_search",
    "C111_azimuth_search",
    "C111_rise_once",
    "C111_set_once",
    "C111_transit_once",
    "C111_next",
    "C111_previous",
    "C111_meridian",
    "C111_azimuth_refuted"
   ],
   "note": "timely: the motion depends on the time only. C111_azimuth_refuted: azimuth from 170 to 190, reported at 0."
  },
  {
   "property": "C112",
   "status": "proved",
   "theorems": [
    "C112_transits",
    "C112_last_step_refuted"
   ],
   "note": "turns is the hour angle that grows at a rate; step_of the step. C112_last_step_refuted: transit at 85200 s of a window of 86400 s, not returned."
  },
  {
   "property": "C113",
   "status": "proved",
   "theorems": [
    "C113_power",
    "C113_set",
    "C113_error",
    "C113_duration",
    "C113_duration_given",
    "C113_init",
    "C113_always",
    "C113_refused",
    "C113_made",
    "C113_ignored"
   ],
   "note": "stands is the reading of an argument, kept the value stored, valid the invariant, given what the constructor stores."
  },
  {
   "property": "C114",
   "status": "proved",
   "theorems": [
    "C114_allowed",
    "C114_idempotent",
    "C114_frequency",
    "C114_bounds",
    "C114_product",
    "C114_made",
    "C114_slow_refuted"
   ],
   "note": "pair_of and allowed are the possible pairs. C114_slow_refuted: DT=200 DF=3.05 in a parset."
  },
  {
   "property": "C115",
   "status": "proved",
   "theorems": [
    "C115_finite",
    "C115_sign",
    "C115_time",
    "C115_scales",
    "C115_nickel",
    "C115_capacity",
    "C115_no_capacity",
    "C115_stale",
    "C115_fresh",
    "C115_raw_refuted"
   ],
   "note": "useful is the duration counted, scaled a configuration with one property multiplied, capacity the greatest rates, pairs the baselines. C115_raw_refuted: RAWConfig()."
  },
  {
   "property": "C116",
   "status": "proved",
   "theorems": [
    "C116_tf_text",
    "C116_pulsar_text",
    "C116_kept",
    "C116_passed",
    "C116_tf",
    "C116_tf_missing",
    "C116_fold",
    "C116_computer",
    "C116_computer_missing",
    "C116_nickel_unused",
    "C116_nickel",
    "C116_nickel_missing",
    "C116_nickel_fraction_refuted"
   ],
   "note": "plain excludes spaces, equal, colon and dash in names and values; lasts and elements read the parset; single and waveolaf are covered by C116_kept and C116_passed."
  },
  {
   "property": "C117",
   "status": "proved",
   "theorems": [
    "C117_bst",
    "C117_bst_refuted",
    "C117_monoid",
    "C117_add",
    "C117_one",
    "C117_list",
    "C117_list_error",
    "C117_cumulative",
    "C117_cumulative_grows"
   ],
   "note": "window, covered: whole seconds. C117_bst_refuted gives the beams out of step. argsort is taken stable."
  },
  {
   "property": "C118",
   "status": "proved",
   "theorems": [
    "C118_accepted",
    "C118_refused",
    "C118_unique",
    "C118_long_index",
    "C118_any_character_refuted"
   ],
   "note": "lane_name is the grammar of the names. C118_any_character_refuted: OBS_1Xspectra."
  },
  {
   "property": "C119",
   "status": "proved",
   "theorems": [
    "C119_axes",
    "C119_times",
    "C119_range",
    "C119_refused"
   ],
   "note": "holds describes the file; half_swap, time_step, start_time, subband, channel_width, raw_matrix the expected axes and samples."
  },
  {
   "property": "C120",
   "status": "proved",
   "theorems": [
    "C120_stokes",
    "C120_refused",
    "C120_none",
    "C120_documented_refuted",
    "C120_derotation_off",
    "C120_derotation",
    "C120_derotation_undoes",
    "C120_transposed"
   ],
   "note": "records ties the file to a field, letter the letters to SI, SQ, SU, SV. C120_documented_refuted: L, XX, YY."
  },
  {
   "property": "C121",
   "status": "proved",
   "theorems": [
    "C121_beams",
    "C121_partition",
    "C121_interleaved_refuted"
   ],
   "note": "grouped: the sub-bands of each beam are consecutive. C121_interleaved_refuted: beams 0 1 0 1."
  },
  {
   "property": "C122",
   "status": "proved",
   "theorems": [
    "C122_sound",
    "C122_refused",
    "C122_apart",
    "C122_quantities",
    "C122_switches",
    "C122_held",
    "C122_time_range",
    "C122_freq_range",
    "C122_beam",
    "C122_edge",
    "C122_bandpass"
   ],
   "note": "sound is the invariant, view the value of each setting, time_of and two_hertz the accepted values."
  },
  {
   "property": "C123",
   "status": "proved",
   "theorems": [
    "C123_files",
    "C123_files_refused",
    "C123_times",
    "C123_frequencies",
    "C123_beams"
   ],
   "note": "The function reading one file is any function from names to lanes or errors."
  },
  {
   "property": "C124",
   "status": "proved",
   "theorems": [
    "C124_nearest",
    "C124_unique",
    "C124_monotone",
    "C124_selection",
    "C124_window",
    "C124_subbands",
    "C124_no_beam",
    "C124_outside",
    "C124_default",
    "C124_loaded",
    "C124_last_refuted"
   ],
   "note": "nearest, increasing, uniform, selection and band_of are the specification; C124_loaded shows that every lane read meets the hypotheses. C124_last_refuted: default range."
  },
  {
   "property": "C125",
   "status": "proved",
   "theorems": [
    "C125_array",
    "C125_highest",
    "C125_no_dispersion",
    "C125_agrees",
    "C125_array_refused",
    "C125_lane",
    "C125_off",
    "C125_refused",
    "C125_reference_refuted",
    "C125_above_refuted"
   ],
   "note": "steps, advanced, highest, relative_delay are the specification. C125_reference_refuted and C125_above_refuted: what the masks lose and leave."
  },
  {
   "property": "C126",
   "status": "proved",
   "theorems": [
    "C126_widths",
    "C126_average",
    "C126_off",
    "C126_refused",
    "C126_width_refuted"
   ],
   "note": "asked_steps, rebinned, mean_of and bin are the specification. C126_width_refuted: 11 samples by fours give bins of five."
  },
  {
   "property": "C127",
   "status": "proved",
   "theorems": [
    "C127_edges",
    "C127_off",
    "C127_everything",
    "C127_refused"
   ],
   "note": "C127_everything: half of the channels at each side."
  },
  {
   "property": "C128",
   "status": "proved",
   "theorems": [
    "C128_standard",
    "C128_none",
    "C128_median",
    "C128_median_refused",
    "C128_adjusted",
    "C128_refused",
    "C128_flat"
   ],
   "note": "over_time, median_of and bin are the specification. C128_flat: after the median correction the channels have one median."
  },
  {
   "property": "C129",
   "status": "proved",
   "theorems": [
    "C129_mask",
    "C129_off",
    "C129_threshold"
   ],
   "note": "background and deviation are any functions of the plane of the polarisation. exceeds is the specification."
  },
  {
   "property": "C130",
   "status": "proved",
   "theorems": [
    "C130_curve",
    "C130_jump",
    "C130_bounds",
    "C130_off",
    "C130_divided",
    "C130_jump_refuted"
   ],
   "note": "profile, position of the jump and fit are any functions. C130_jump_refuted: a sample at a jump is divided twice."
  },
  {
   "property": "C131",
   "status": "proved",
   "theorems": [
    "C131_valid",
    "C131_plain",
    "C131_averaged",
    "C131_skipped",
    "C131_every_lane",
    "C131_joined",
    "C131_increasing"
   ],
   "note": "gathered lists the processed lanes, column_of ties a column of the result to its origin, times_match the times."
  },
  {
   "property": "C132",
   "status": "proved",
   "theorems": [
    "C132_written",
    "C132_refused",
    "C132_axes_refuted"
   ],
   "note": "group_of and written describe the file. C132_axes_refuted: coordinates attached to the wrong axis."
  },
  {
   "property": "C133",
   "status": "proved",
   "theorems": [
    "C133_singular",
    "C133_unique",
    "C133_refuses",
    "C133_short_step",
    "C133_solved",
    "C133_recovers",
    "C133_refused_singular",
    "C133_end_singular",
    "C133_first_refused",
    "C133_beyond",
    "C133_few",
    "C133_single",
    "C133_beyond_refuted"
   ],
   "note": "located, first_from, in_time and invertible are the specification; the result is characterised by J e J^H = d, without the inverse of the model. C133_beyond_refuted: data at more than twice every frequency of the solutions is corrected."
  },
  {
   "property": "C134",
   "status": "proved",
   "theorems": [
    "C134_singular",
    "C134_multiple_refused",
    "C134_short_refused",
    "C134_solved",
    "C134_recovers",
    "C134_first_refused",
    "C134_complete_refuted",
    "C134_none",
    "C134_real",
    "C134_complex_refuted",
    "C134_setting",
    "C134_shown",
    "C134_reset",
    "C134_failed"
   ],
   "note": "C134_complete_refuted: four samples by groups of two are refused. C134_complex_refuted: a quarter-wave matrix is not undone on transposed data."
  },
  {
   "property": "C135",
   "status": "proved",
   "theorems": [
    "C135_joined",
    "C135_refused",
    "C135_increasing",
    "C135_commutes",
    "C135_associates",
    "C135_spectra",
    "C135_light_curves_refuted",
    "C135_gap_refuted"
   ],
   "note": "full, below, freq_joined and same_data are the specification. C135_light_curves_refuted and C135_gap_refuted: see the findings."
  },
  {
   "property": "C136",
   "status": "proved",
   "theorems": [
    "C136_light_curves",
    "C136_refused",
    "C136_lengths_refused",
    "C136_dynamic_spectra",
    "C136_unusable_refuted",
    "C136_spectra_refuted"
   ],
   "note": "C136_unusable_refuted and C136_spectra_refuted: see the findings."
  },
  {
   "property": "C137",
   "status": "proved",
   "theorems": [
    "C137_slice",
    "C137_slice_unique",
    "C137_part",
    "C137_zero_step",
    "C137_single_axis",
    "C137_whole",
    "C137_cut_join",
    "C137_part_of_part",
    "C137_backwards_twice"
   ],
   "note": "slice_of is the specification of Python slices by their members and order."
  },
  {
   "property": "C138",
   "status": "proved",
   "theorems": [
    "C138_slices",
    "C138_refused",
    "C138_subtract",
    "C138_divide",
    "C138_number",
    "C138_row",
    "C138_times_refused",
    "C138_column_refuted"
   ],
   "note": "C138_column_refuted: the shape of the result is not checked."
  },
  {
   "property": "C139",
   "status": "proved",
   "theorems": [
    "C139_frequency",
    "C139_time",
    "C139_frequency_one",
    "C139_time_one",
    "C139_frequency_twice",
    "C139_single_axis",
    "C139_clean",
    "C139_clean_monotone",
    "C139_clean_constant_refuted",
    "C139_clean_single_axis"
   ],
   "note": "median_of (rank) is the specification of the medians; the deviation is any function. C139_clean_constant_refuted: constant data."
  },
  {
   "property": "C140",
   "status": "proved",
   "theorems": [
    "C140_corrected",
    "C140_accepted",
    "C140_coarse",
    "C140_one_time",
    "C140_single_axis"
   ],
   "note": "peaks and fit are any functions; failures of the fitter are not modelled."
  },
  {
   "property": "C141",
   "status": "proved",
   "theorems": [
    "C141_pointings",
    "C141_shared",
    "C141_every_row"
   ],
   "note": "rows_in_order is the specification."
  },
  {
   "property": "C142",
   "status": "proved",
   "theorems": [
    "C142_axes",
    "C142_value",
    "C142_shape",
    "C142_refused",
    "C142_length",
    "C142_triangle",
    "C142_moved",
    "C142_repeated"
   ],
   "note": "east, north, towards and seen are the specification."
  },
  {
   "property": "C143",
   "status": "proved",
   "theorems": [
    "C143_accepted",
    "C143_refused",
    "C143_size",
    "C143_kept",
    "C143_symmetric",
    "C143_third_refuted",
    "C143_distance",
    "C143_distance_refuted"
   ],
   "note": "uv and opposite are the specification, symmetry is up to order. C143_third_refuted and C143_distance_refuted: see the findings."
  },
  {
   "property": "C144",
   "status": "proved",
   "theorems": [
    "C144_points_counted",
    "C144_points",
    "C144_azimuth_shape",
    "C144_azimuth_density",
    "C144_azimuth_total",
    "C144_azimuth_refused",
    "C144_azimuth_twice_refuted",
    "C144_angle",
    "C144_radial_refused",
    "C144_radial"
   ],
   "note": "above, bins_from and upper_integer are the specification. C144_azimuth_twice_refuted: a point on an edge."
  },
  {
   "property": "C145",
   "status": "proved",
   "theorems": [
    "C145_cell",
    "C145_refused",
    "C145_centre",
    "C145_bound",
    "C145_conjugate"
   ],
   "note": "in_part and axis are the specification of the cells."
  },
  {
   "property": "C146",
   "status": "proved",
   "theorems": [
    "C146_uvw",
    "C146_factors",
    "C146_modulus",
    "C146_same",
    "C146_chain",
    "C146_length"
   ],
   "note": "turns is the specification of a phase."
  },
  {
   "property": "C147",
   "status": "proved",
   "theorems": [
    "C147_returns",
    "C147_ignores",
    "C147_refused",
    "C147_applied_refuted"
   ],
   "note": "C147_applied_refuted: what is returned is not the visibilities times a phase."
  },
  {
   "property": "C148",
   "status": "proved",
   "theorems": [
    "C148_coordinates",
    "C148_unit",
    "C148_near",
    "C148_centre",
    "C148_far_refuted",
    "C148_shape",
    "C148_source",
    "C148_bound",
    "C148_sum"
   ],
   "note": "cosines and source_seen are the specification. C148_far_refuted: beyond 90 degrees."
  },
  {
   "property": "C149",
   "status": "proved",
   "theorems": [
    "C149_value",
    "C149_none",
    "C149_bound",
    "C149_emitter",
    "C149_flat",
    "C149_source_skipped",
    "C149_source_bound",
    "C149_axis"
   ],
   "note": "ground_path is the specification of the distances. C149_flat is a finding."
  },
  {
   "property": "C150",
   "status": "proved",
   "theorems": [
    "C150_dates",
    "C150_season",
    "C150_winter",
    "C150_open_time",
    "C150_errors",
    "C150_order_refuted"
   ],
   "note": "on_date, leap_year and summer_date are the specification of the calendar. C150_order_refuted: see the findings."
  },
  {
   "property": "C151",
   "status": "proved",
   "theorems": [
    "C151_night",
    "C151_winter_evening_refuted",
    "C151_scalar_refuted"
   ],
   "note": "clock and night_of are the specification. C151_winter_evening_refuted, C151_scalar_refuted: see the findings."
  },
  {
   "property": "C152",
   "status": "proved",
   "theorems": [
    "C152_hours",
    "C152_total",
    "C152_reversed_refuted"
   ],
   "note": "overlap is the specification."
  },
  {
   "property": "C153",
   "status": "proved",
   "theorems": [
    "C153_best",
    "C153_below",
    "C153_closer",
    "C153_fixed_refuted"
   ],
   "note": "shared and grid_frequency are the specification."
  },
  {
   "property": "C154",
   "status": "proved",
   "theorems": [
    "C154_contains",
    "C154_intersection",
    "C154_symmetric",
    "C154_instant"
   ],
   "note": "share is the specification."
  },
  {
   "property": "C155",
   "status": "proved",
   "theorems": [
    "C155_sort",
    "C155_disjoint",
    "C155_neighbours",
    "C155_order_refuted"
   ],
   "note": "sorted_as is what any sort by comparison of neighbours ensures; py_sort is that of CPython up to 64 events."
  },
  {
   "property": "C156",
   "status": "proved",
   "theorems": [
    "C156_groups",
    "C156_time",
    "C156_overlap_found",
    "C156_complete",
    "C156_empty",
    "C156_overlap_refuted",
    "C156_last_refuted",
    "C156_LT00_refuted",
    "C156_RP5A_refuted",
    "C156_filler",
    "C156_code",
    "C156_no_code"
   ],
   "note": "books, parted, closest_second and complete are the specification; it holds for any sorted order. The `_refuted` ones are findings."
  },
  {
   "property": "C157",
   "status": "proved",
   "theorems": [
    "C157_pieces",
    "C157_time",
    "C157_instants",
    "C157_apart",
    "C157_two",
    "C157_comments",
    "C157_pairs_refuted"
   ],
   "note": "merged_of is the specification. C157_pairs_refuted is a finding."
  },
  {
   "property": "C158",
   "status": "proved",
   "theorems": [
    "C158_row",
    "C158_length",
    "C158_first_refuted"
   ],
   "note": "shown is the specification."
  },
  {
   "property": "C159",
   "status": "proved",
   "theorems": [
    "C159_event",
    "C159_sum",
    "C159_long_refuted"
   ],
   "note": "night_hours is the specification on the axis of time."
  },
  {
   "property": "C160",
   "status": "proved",
   "theorems": [
    "C160_move",
    "C160_inverse",
    "C160_actions",
    "C160_defined",
    "C160_silent",
    "C160_key_refuted"
   ],
   "note": "does is the specification of a sequence of actions. C160_key_refuted is a finding."
  },
  {
   "property": "C161",
   "status": "proved",
   "theorems": [
    "C161_rotations",
    "C161_refused",
    "C161_all",
    "C161_selected",
    "C161_none",
    "C161_empty_refuted",
    "C161_summed"
   ],
   "note": "looks_like and actual (the table of nenufar_array.json) are the specification. C161_empty_refuted is a finding."
  },
  {
   "property": "C162",
   "status": "proved",
   "theorems": [
    "C162_sources",
    "C162_monotone",
    "C162_relative",
    "C162_normalized",
    "C162_gsm",
    "C162_first",
    "C162_nan_refuted",
    "C162_below_refuted"
   ],
   "note": "in_lobe, peak and counts are the specification. C162_nan_refuted and C162_below_refuted are a finding."
  },
  {
   "property": "C163",
   "status": "proved",
   "theorems": [
    "C163_weights",
    "C163_state",
    "C163_drawn"
   ],
   "note": "counts and in_lobe are the specification."
  },
  {
   "property": "C164",
   "status": "proved",
   "theorems": [
    "C164_accepts",
    "C164_values",
    "C164_shape",
    "C164_commutative",
    "C164_associative"
   ],
   "note": "entry, same and compatible are the specification."
  },
  {
   "property": "C165",
   "status": "proved",
   "theorems": [
    "C165_floats",
    "C165_bytes",
    "C165_nan",
    "C165_axes",
    "C165_counts_refuted",
    "C165_changed_refuted"
   ],
   "note": "entry is the specification of a value. C165_counts_refuted, C165_changed_refuted: see the findings."
  },
  {
   "property": "C166",
   "status": "proved",
   "theorems": [
    "C166_refused",
    "C166_response",
    "C166_width",
    "C166_symmetric",
    "C166_finer",
    "C166_channels_refuted"
   ],
   "note": "tone, seen and correction are the specification (a filter and its neighbours); width is the width simulated. C166_channels_refuted is a finding."
  },
  {
   "property": "C167",
   "status": "proved",
   "theorems": [
    "C167_accepts",
    "C167_values",
    "C167_filtered",
    "C167_flat",
    "C167_twice_refuted"
   ],
   "note": "shaped and sample are the specification; seen as in C166. C167_twice_refuted is a finding."
  },
  {
   "property": "C168",
   "status": "proved",
   "theorems": [
    "C168_filters",
    "C168_low",
    "C168_high",
    "C168_negative_refuted"
   ],
   "note": "low is the specification. C168_negative_refuted is a finding."
  },
  {
   "property": "C169",
   "status": "proved",
   "theorems": [
    "C169_kept",
    "C169_refused",
    "C169_first",
    "C169_accepts",
    "C169_threshold",
    "C169_order",
    "C169_null_refuted"
   ],
   "note": "line and level_of (median_of of C33) are the specification. C169_null_refuted is a finding."
  },
  {
   "property": "C170",
   "status": "proved",
   "theorems": [
    "C170_gain"
   ],
   "note": "amplified, fit_scales and std_scales are the specification: the unit of a fit of logarithms is in its constant term."
  },
  {
   "property": "C171",
   "status": "proved",
   "theorems": [
    "C171_tracked",
    "C171_tracked_horizon",
    "C171_transit",
    "C171_file",
    "C171_natif",
    "C171_solar",
    "C171_range",
    "C171_again",
    "C171_wrap_refuted",
    "C171_refused"
   ],
   "note": "holds, lacks, asked, lasting, directs, clamped and sky_shifted are the specification. Transformations of coordinates are arguments (world). C171_wrap_refuted is a finding."
  },
  {
   "property": "C172",
   "status": "proved",
   "theorems": [
    "C172_time",
    "C172_default",
    "C172_waveform",
    "C172_unknown",
    "C172_pulsar",
    "C172_pulsar_bare",
    "C172_dynspec",
    "C172_dynspec_bare",
    "C172_rawrt",
    "C172_nickel",
    "C172_tbd"
   ],
   "note": "does, bands, options_of, pairs_of, polarisations are the specification."
  },
  {
   "property": "C173",
   "status": "proved",
   "theorems": [
    "C173_described",
    "C173_orphan",
    "C173_every_once",
    "C173_distinct"
   ],
   "note": "described (made, xst_made, nickel_made, fov_matches) is the specification."
  },
  {
   "property": "C174",
   "status": "proved",
   "theorems": [
    "C174_indices",
    "C174_indices_refuted"
   ],
   "note": "numbered is the specification. C174_indices_refuted is a finding."
  },
  {
   "property": "C175",
   "status": "proved",
   "theorems": [
    "C175_extra",
    "C175_refused"
   ],
   "note": "nickel_made and nickel_named are the specification; a finding."
  },
  {
   "property": "C176",
   "status": "proved",
   "theorems": [
    "C176_remote"
   ],
   "note": "A finding: the search for NICKEL is dead code."
  },
  {
   "property": "C177",
   "status": "proved",
   "theorems": [
    "C177_again_refuted"
   ],
   "note": "C177_again_refuted is a finding."
  },
  {
   "property": "C178",
   "status": "proved",
   "theorems": [
    "C178_old",
    "C178_version",
    "C178_version_refused",
    "C178_topic",
    "C178_metadata",
    "C178_topic_read_refuted",
    "C178_duration_read_refuted"
   ],
   "note": "topic_code and topic_of are the specification. C178_topic_read_refuted and C178_duration_read_refuted are findings; the latter is conditional on TimeDelta(text, format='sec') refusing \"3600s\"."
  },
  {
   "property": "C179",
   "status": "proved",
   "theorems": [
    "C179_scalar",
    "C179_array",
    "C179_array_refused",
    "C179_set_refused",
    "C179_shared",
    "C179_apart"
   ],
   "note": "value_at and same_axes are the specification."
  },
  {
   "property": "C180",
   "status": "proved",
   "theorems": [
    "C180_quotient",
    "C180_others",
    "C180_shared_refuted",
    "C180_refused",
    "C180_scalars",
    "C180_scalar",
    "C180_skies",
    "C180_sky"
   ],
   "note": "combined, met (aligned), suits and good are the specification; suits_sky and met_sky spell them for skies, suits_scalar and met_scalar for scalars. good holds in all reachable states (C182). C180_shared_refuted is a finding."
  },
  {
   "property": "C181",
   "status": "proved",
   "theorems": [
    "C181_product",
    "C181_others",
    "C181_dask",
    "C181_original_refuted",
    "C181_refused"
   ],
   "note": "C181_original_refuted is a finding."
  },
  {
   "property": "C182",
   "status": "proved",
   "theorems": [
    "C182_start",
    "C182_step",
    "C182_always",
    "C182_axes_refuted"
   ],
   "note": "allowed tells what a program can do. C182_axes_refuted is a finding."
  },
  {
   "property": "C183",
   "status": "proved",
   "theorems": [
    "C183_pixels",
    "C183_out",
    "C183_one_axis",
    "C183_refused",
    "C183_window",
    "C183_dask",
    "C183_spectrum_refuted",
    "C183_part_refuted"
   ],
   "note": "resolves is the specification. C183_spectrum_refuted and C183_part_refuted are findings."
  },
  {
   "property": "C184",
   "status": "proved",
   "theorems": [
    "C184_difference",
    "C184_refused",
    "C184_observer_refuted"
   ],
   "note": "pixels are the slices of C183. C184_observer_refuted is a finding."
  },
  {
   "property": "C185",
   "status": "proved",
   "theorems": [
    "C185_mask",
    "C185_shape",
    "C185_slice"
   ],
   "note": "Elevations are an argument."
  },
  {
   "property": "C186",
   "status": "proved",
   "theorems": [
    "C186_pixel",
    "C186_full",
    "C186_radius",
    "C186_center",
    "C186_healpix",
    "C186_defined",
    "C186_refused",
    "C186_threshold_refuted"
   ],
   "note": "size is the size of pixels. C186_threshold_refuted is a finding."
  },
  {
   "property": "C187",
   "status": "proved",
   "theorems": [
    "C187_mean",
    "C187_refused",
    "C187_half_refuted"
   ],
   "note": "spot, within, falls, here and average are the specification. C187_half_refuted is a finding (with the conventions of WCS.world_to_pixel)."
  },
  {
   "property": "C188",
   "status": "proved",
   "theorems": [
    "C188_order",
    "C188_sum"
   ],
   "note": "close is equality of numbers or both NaN."
  },
  {
   "property": "C189",
   "status": "proved",
   "theorems": [
    "C189_nearest",
    "C189_factor",
    "C189_monotone",
    "C189_negative_refuted"
   ],
   "note": "C189_negative_refuted is a finding."
  },
  {
   "property": "C190",
   "status": "proved",
   "theorems": [
    "C190_again",
    "C190_like",
    "C190_chain",
    "C190_refused"
   ],
   "note": "built: obtained by the constructor."
  },
  {
   "property": "C191",
   "status": "proved",
   "theorems": [
    "C191_added",
    "C191_sum"
   ],
   "note": "place is where the source really is, coherent tells that the source holds its own positions. fresh tells that it needs no update or surely gets one."
  },
  {
   "property": "C192",
   "status": "proved",
   "theorems": [
    "C192_stale_refuted",
    "C192_array_refuted",
    "C192_near"
   ],
   "note": "C192_stale_refuted and C192_array_refuted are findings; C192_near gives the 24 days."
  },
  {
   "property": "C193",
   "status": "proved",
   "theorems": [
    "C193_shape",
    "C193_times",
    "C193_frame"
   ],
   "note": "comparable: numbers of times equal, or one of them 1."
  },
  {
   "property": "C194",
   "status": "proved",
   "theorems": [
    "C194_snr",
    "C194_median_refuted"
   ],
   "note": "std is any function. C194_median_refuted is a finding on the documentation."
  },
  {
   "property": "C195",
   "status": "proved",
   "theorems": [
    "C195_smooth",
    "C195_sign_refuted"
   ],
   "note": "smooth is any function. C195_sign_refuted is a finding."
  },
  {
   "property": "C196",
   "status": "proved",
   "theorems": [
    "C196_exact",
    "C196_refused",
    "C196_sorted",
    "C196_periodic",
    "C196_every",
    "C196_file"
   ],
   "note": "alike and tens are the specification."
  },
  {
   "property": "C197",
   "status": "proved",
   "theorems": [
    "C197_partition",
    "C197_file",
    "C197_few",
    "C197_empty_refuted"
   ],
   "note": "C197_empty_refuted tells that nothing prevents empty sub-arrays."
  },
  {
   "property": "C198",
   "status": "proved",
   "theorems": [
    "C198_frame",
    "C198_none",
    "C198_scalar",
    "C198_low",
    "C198_between",
    "C198_node",
    "C198_bound",
    "C198_each",
    "C198_above",
    "C198_azimuth",
    "C198_jump_refuted"
   ],
   "note": "C198_jump_refuted is a finding."
  },
  {
   "property": "C199",
   "status": "proved",
   "theorems": [
    "C199_right",
    "C199_zenith",
    "C199_times",
    "C199_again_refuted"
   ],
   "note": "attenuated is the specification. C199_again_refuted is a finding, from the checks of attributes of SkyCoord.insert."
  },
  {
   "property": "C200",
   "status": "proved",
   "theorems": [
    "C200_right",
    "C200_one",
    "C200_after_refuted"
   ],
   "note": "aims tells where a pointing is, with the specification of C92. C200_after_refuted is a finding."
  },
  {
   "property": "C201",
   "status": "proved",
   "theorems": [
    "C201_known",
    "C201_unknown",
    "C201_core",
    "C201_unique",
    "C201_refused"
   ],
   "note": "position and turn are the geometry of the antennas."
  },
  {
   "property": "C202",
   "status": "proved",
   "theorems": [
    "C202_frequency",
    "C202_absent",
    "C202_text",
    "C202_columns",
    "C202_refused"
   ],
   "note": "marked and first_mark are the specification. A name without frequency is a finding."
  },
  {
   "property": "C203",
   "status": "proved",
   "theorems": [
    "C203_columns",
    "C203_size",
    "C203_grid",
    "C203_transposed_refuted"
   ],
   "note": "grid_x and grid_y are the specification. C203_transposed_refuted is a finding."
  },
  {
   "property": "C204",
   "status": "proved",
   "theorems": [
    "C204_accepts",
    "C204_knots",
    "C204_bounds",
    "C204_nan",
    "C204_closed"
   ],
   "note": "outside and sense are the specification."
  },
  {
   "property": "C205",
   "status": "proved",
   "theorems": [
    "C205_map",
    "C205_ring",
    "C205_azimuth",
    "C205_mirror",
    "C205_mirror_refuted"
   ],
   "note": "C205_mirror_refuted is a finding."
  },
  {
   "property": "C206",
   "status": "proved",
   "theorems": [
    "C206_columns",
    "C206_none",
    "C206_empty",
    "C206_written",
    "C206_load",
    "C206_scaled",
    "C206_missing",
    "C206_round_trip"
   ],
   "note": "columns_of is the specification; reading a file and printing a number are arguments."
  },
  {
   "property": "C207",
   "status": "proved",
   "theorems": [
    "C207_node"
   ],
   "note": ""
  },
  {
   "property": "C208",
   "status": "proved",
   "theorems": [
    "C208_errors",
    "C208_measured",
    "C208_exact",
    "C208_reflexive",
    "C208_depends",
    "C208_moved",
    "C208_half_turn",
    "C208_quarter_turn"
   ],
   "note": "seen, close_to and is_measured are the specification."
  },
  {
   "property": "C209",
   "status": "proved",
   "theorems": [
    "C209_source",
    "C209_reference",
    "C209_errors",
    "C209_no_reference",
    "C209_polarization_refuted"
   ],
   "note": "C209_polarization_refuted is a finding, with the positions of the files of the instrument."
  },
  {
   "property": "C210",
   "status": "proved",
   "theorems": [
    "C210_temperature"
   ],
   "note": ""
  },
  {
   "property": "C211",
   "status": "proved",
   "theorems": [
    "C211_opening",
    "C211_channels",
    "C211_lowest_refuted"
   ],
   "note": "in_file and channels are the specification. C211_lowest_refuted is a finding."
  },
  {
   "property": "C212",
   "status": "proved",
   "theorems": [
    "C212_select",
    "C212_current"
   ],
   "note": "picks, selects and delivered are the specification."
  },
  {
   "property": "C213",
   "status": "proved",
   "theorems": [
    "C213_history",
    "C213_careful",
    "C213_refused_beam",
    "C213_refused_time"
   ],
   "note": "careful and run are the specification."
  },
  {
   "property": "C214",
   "status": "proved",
   "theorems": [
    "C214_beam_refuted",
    "C214_stuck_refuted"
   ],
   "note": "Findings."
  },
  {
   "property": "C215",
   "status": "proved",
   "theorems": [
    "C215_analog",
    "C215_digital",
    "C215_no_digital",
    "C215_no_analog"
   ],
   "note": "contiguous is the specification."
  },
  {
   "property": "C216",
   "status": "proved",
   "theorems": [
    "C216_replay",
    "C216_days"
   ],
   "note": "shift, replayed, aimed, belongs and replay_of are the specification."
  },
  {
   "property": "C217",
   "status": "proved",
   "theorems": [
    "C217_direction_refuted",
    "C217_written",
    "C217_j2000_refuted"
   ],
   "note": "Findings."
  },
  {
   "property": "C218",
   "status": "proved",
   "theorems": [
    "C218_transit",
    "C218_closest_refuted"
   ],
   "note": "C218_closest_refuted is a finding."
  },
  {
   "property": "C219",
   "status": "proved",
   "theorems": [
    "C219_errors",
    "C219_past",
    "C219_fraction_refuted",
    "C219_before_refuted",
    "C219_needs"
   ],
   "note": "shift and first_start are the specification. The two _refuted theorems are findings."
  },
  {
   "property": "C220",
   "status": "proved",
   "theorems": [
    "C220_receivers",
    "C220_space_refuted"
   ],
   "note": "named and list_text are the specification. C220_space_refuted is a finding."
  },
  {
   "property": "C221",
   "status": "proved",
   "theorems": [
    "C221_query",
    "C221_attributes"
   ],
   "note": "latest, latest_center, asked, query_text, table_columns and usual_columns are the specification."
  },
  {
   "property": "C222",
   "status": "proved",
   "theorems": [
    "C222_frequencies",
    "C222_written",
    "C222_reversed"
   ],
   "note": "wave_of is the specification."
  },
  {
   "property": "C223",
   "status": "proved",
   "theorems": [
    "C223_ignored_refuted",
    "C223_order_refuted"
   ],
   "note": "Findings."
  },
  {
   "property": "C224",
   "status": "proved",
   "theorems": [
    "C224_search",
    "C224_reset",
    "C224_columns_refuted"
   ],
   "note": "C224_columns_refuted is a finding."
  },
  {
   "property": "C225",
   "status": "proved",
   "theorems": [
    "C225_refused"
   ],
   "note": "date_of and table_columns are the specification."
  },
  {
   "property": "C226",
   "status": "proved",
   "theorems": [
    "C226_round_trip",
    "C226_accepted",
    "C226_name_refused",
    "C226_name_accepted",
    "C226_distinct"
   ],
   "note": "good, delivers, names and plain are the specification."
  },
  {
   "property": "C227",
   "status": "proved",
   "theorems": [
    "C227_one_key",
    "C227_order_refuted",
    "C227_missing"
   ],
   "note": "C227_order_refuted is a finding."
  },
  {
   "property": "C228",
   "status": "proved",
   "theorems": [
    "C228_overwritten",
    "C228_append_refuted",
    "C228_stuck_refuted",
    "C228_blocked",
    "C228_too_few_refuted",
    "C228_partial_refuted"
   ],
   "note": "Findings."
  },
  {
   "property": "C229",
   "status": "proved",
   "theorems": [
    "C229_slash_refuted",
    "C229_text_refuted"
   ],
   "note": "Findings."
  },
  {
   "property": "C230",
   "status": "proved",
   "theorems": [
    "C230_opened",
    "C230_slice",
    "C230_errors"
   ],
   "note": "sound, chosen and norm are the specification."
  },
  {
   "property": "C231",
   "status": "proved",
   "theorems": [
    "C231_root"
   ],
   "note": "A finding: the file describes its first beam only."
  },
  {
   "property": "C232",
   "status": "proved",
   "theorems": [
    "C232_sidereal",
    "C232_day_refuted"
   ],
   "note": "turned is the specification. C232_day_refuted is a finding."
  },
  {
   "property": "C233",
   "status": "proved",
   "theorems": [
    "C233_hour_angle",
    "C233_transit"
   ],
   "note": "meridian is the specification (angle is the hour angle at a date)."
  },
  {
   "property": "C234",
   "status": "proved",
   "theorems": [
    "C234_direction"
   ],
   "note": "north, east and up are the specification; exact real numbers."
  },
  {
   "property": "C235",
   "status": "proved",
   "theorems": [
    "C235_culmination",
    "C235_circumpolar",
    "C235_eastward"
   ],
   "note": "Exact real numbers; the boundary dec + lat = 90 degrees is excluded for circumpolar targets."
  },
  {
   "property": "C236",
   "status": "proved",
   "theorems": [
    "C236_one_schedule",
    "C236_booked",
    "C236_again_refuted",
    "C236_no_target"
   ],
   "note": "only is the specification. C236_again_refuted is a finding."
  },
  {
   "property": "C237",
   "status": "proved",
   "theorems": [
    "C237_none",
    "C237_first",
    "C237_stale_refuted"
   ],
   "note": "unbooked and holds_cnst are the specification. C237_stale_refuted is a finding."
  },
  {
   "property": "C238",
   "status": "proved",
   "theorems": [
    "C238_stale_refuted",
    "C238_cleared_refuted",
    "C238_moved_refuted"
   ],
   "note": "Findings."
  },
  {
   "property": "C239",
   "status": "proved",
   "theorems": [
    "C239_round_trip",
    "C239_comma_refuted"
   ],
   "note": "dates, named, writable, kept and reserved are the specification. C239_comma_refuted and the TypeError of C239_round_trip are findings."
  },
  {
   "property": "C240",
   "status": "proved",
   "theorems": [
    "C240_interrupted_refuted",
    "C240_name"
   ],
   "note": "C240_interrupted_refuted is a finding."
  },
  {
   "property": "C241",
   "status": "proved",
   "theorems": [
    "C241_csv_all",
    "C241_ics_last",
    "C241_ics_lost_refuted",
    "C241_names"
   ],
   "note": "last_of and with_kp are the specification. C241_ics_lost_refuted is a finding."
  },
  {
   "property": "C242",
   "status": "proved",
   "theorems": [
    "C242_xls_last",
    "C242_headerless_refuted"
   ],
   "note": "last_book and outcome are the specification. C242_headerless_refuted is a finding."
  },
  {
   "property": "C243",
   "status": "proved",
   "theorems": [
    "C243_creation",
    "C243_sums_exist",
    "C243_sum_of_list",
    "C243_files",
    "C243_ranges"
   ],
   "note": "made, exist, values and ranges are the specification."
  },
  {
   "property": "C244",
   "status": "proved",
   "theorems": [
    "C244_removal",
    "C244_sum_then_removal",
    "C244_shared_refuted",
    "C244_base"
   ],
   "note": "kept is the specification. C244_shared_refuted is a finding."
  },
  {
   "property": "C245",
   "status": "proved",
   "theorems": [
    "C245_equality",
    "C245_order",
    "C245_symmetric_refuted"
   ],
   "note": "covers is the specification. C245_symmetric_refuted is a finding."
  },
  {
   "property": "C246",
   "status": "proved",
   "theorems": [
    "C246_boundaries",
    "C246_skipped",
    "C246_skipped_refuted"
   ],
   "note": "overlaps is the specification. C246_skipped_refuted is a finding."
  },
  {
   "property": "C247",
   "status": "proved",
   "theorems": [
    "C247_never_selects",
    "C247_plain_refuted",
    "C247_empty"
   ],
   "note": "refusal lists the errors; ENotImplementedError stands for the reading of the data and is not one of them. Findings."
  },
  {
   "property": "C248",
   "status": "proved",
   "theorems": [
    "C248_spectrum",
    "C248_profile"
   ],
   "note": "median_of and mean_of (P_Rebin) are the specification."
  },
  {
   "property": "C249",
   "status": "proved",
   "theorems": [
    "C249_median",
    "C249_twice",
    "C249_flat",
    "C249_scaled"
   ],
   "note": "median_of is the specification, same is equality of samples."
  },
  {
   "property": "C250",
   "status": "proved",
   "theorems": [
    "C250_separable",
    "C250_level_refuted",
    "C250_plain"
   ],
   "note": "separable, line and highest are the specification. C250_level_refuted is a finding. The fit of data with NaN in the first channel is not modelled."
  },
  {
   "property": "C251",
   "status": "proved",
   "theorems": [
    "C251_ranges",
    "C251_unique",
    "C251_member",
    "C251_error"
   ],
   "note": "maximal and listed are the specification."
  },
  {
   "property": "C252",
   "status": "proved",
   "theorems": [
    "C252_back",
    "C252_iff",
    "C252_error",
    "C252_given",
    "C252_negative",
    "C252_sum_refuted",
    "C252_decimal_refuted"
   ],
   "note": "writes and unit_of are the specification. C252_sum_refuted and C252_decimal_refuted are findings."
  },
  {
   "property": "C253",
   "status": "proved",
   "theorems": [
    "C253_sums",
    "C253_total",
    "C253_error",
    "C253_grows",
    "C253_units",
    "C253_names",
    "C253_raw_refuted"
   ],
   "note": "sorts, sums_to and dated are the specification; the theorems hold for any sort. C253_raw_refuted is a finding."
  },
  {
   "property": "C254",
   "status": "proved",
   "theorems": [
    "C254_sheets",
    "C254_sheets_error",
    "C254_month",
    "C254_month_error",
    "C254_gap_refuted",
    "C254_workbook",
    "C254_days",
    "C254_empty_refuted"
   ],
   "note": "picked, booked and month_of are the specification. C254_gap_refuted and C254_empty_refuted are findings."
  },
  {
   "property": "C255",
   "status": "proved",
   "theorems": [
    "C255_polarization_off",
    "C255_polarization_on",
    "C255_parallactic_off",
    "C255_parallactic_on",
    "C255_faraday_off",
    "C255_faraday_on",
    "C255_disperse_off",
    "C255_disperse_on",
    "C255_disperse_unset",
    "C255_large_refuted",
    "C255_mitigate_on",
    "C255_added",
    "C255_unknown"
   ],
   "note": "like, idle and acts are the specification. C255_large_refuted is a finding."
  },
  {
   "property": "C256",
   "status": "proved",
   "theorems": [
    "C256_jones",
    "C256_size",
    "C256_axes",
    "C256_stokes",
    "C256_stokes_one",
    "C256_no_stokes_refuted"
   ],
   "note": "C256_no_stokes_refuted is a finding."
  },
  {
   "property": "C257",
   "status": "proved",
   "theorems": [
    "C257_passes",
    "C257_error",
    "C257_shape",
    "C257_within",
    "C257_constant",
    "C257_endless_refuted",
    "C257_raised_refuted"
   ],
   "note": "outlier, median_around, pass and passes are the specification, with the real square root. C257_endless_refuted and C257_raised_refuted are findings."
  },
  {
   "property": "C258",
   "status": "proved",
   "theorems": [
    "C258_nearest",
    "C258_error",
    "C258_none",
    "C258_last_refuted",
    "C258_product_refuted"
   ],
   "note": "nearest, reached and sorted are the specification. C258_last_refuted and C258_product_refuted are findings."
  },
  {
   "property": "C259",
   "status": "proved",
   "theorems": [
    "C259_shape",
    "C259_right",
    "C259_fixed",
    "C259_change_refuted"
   ],
   "note": "clock, eastern and changing are the specification. The rules of pytz are modelled. C259_change_refuted is a finding."
  }
 ]
}